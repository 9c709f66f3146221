(** * What the dump of a command line does not say *)
From Coq Require Import String List Arith NArith ZArith Bool.
From Coq Require Import Init.Byte Strings.Byte.
From Verif Require Import QuoteModel QuoteSpec ColModel ColSpec FmtModel FmtSpec DumpModel DumpSpec DumpProofs DumpLine DumpRead DumpMeans.
From Verif Require FmtProperties NumSpec GramModel GramSpec GramProofs SetupModel SetupSpec.
Import ListNotations.
Local Open Scope list_scope.

Definition space (c : byte) : bool := Byte.eqb c " "%byte.
Lemma space_sane : NumSpec.sane space.
Proof.
  intros c H. apply Byte.byte_dec_bl in H. subst c. split; [discriminate|]. split; [discriminate|].
  intros K. unfold NumSpec.is_digit_of in K. vm_compute in K. firstorder discriminate.
Qed.
(** The output is a terminal, and the messages go elsewhere. *)
Definition w : SetupModel.env :=
  {| SetupModel.no_color := None; SetupModel.posix_env := false; SetupModel.colors := true; SetupModel.stdin_tty := true; SetupModel.stdout_tty := true;
     SetupModel.stderr_tty := false; SetupModel.isatty := fun _ => false; SetupModel.nproc := 4; SetupModel.oniguruma := true; SetupModel.answer := true;
     SetupModel.isspace := space |}.
Definition wg : GramModel.env := {| GramModel.valid := fun _ _ _ => true; GramModel.files0_list := fun _ => None; GramModel.isspace := space |}.
Lemma takes : takes_settings w wg.
Proof. intros before n args _ _. reflexivity. Qed.
Definition opt (ws : list string) : SetupModel.call := (GramModel.b (hd ""%string ws), map GramModel.b ws).
Definition cs : list SetupModel.call := [opt ["-noerror"%string]; opt ["-nowarn"%string]; opt ["-D"%string; "tree"%string]].
Definition p : SetupModel.parser := match SetupModel.setup w cs with SetupModel.Ok p => p | _ => SetupModel.init w end.
Definition leaf : node := Leaf (Expr BFS_OTHER [str "-print"] 0 0 [] [] []).
Definition c : ctx := {| settings := SetupModel.context p; argv0 := str "bfs"; paths := [str "a b"; str "-x"]; exclude := Parent (str "-or") []; expression := leaf |}.
Lemma leaf_sound : sound_node leaf.
Proof. apply n_leaf. constructor; [discriminate|constructor]. Qed.
Lemma good : good_locale c_locale.
Proof. apply FmtProperties.Examples.hypotheses_args. Qed.
Lemma c_possible : possible w (settings c).
Proof.
  apply (possible_ok w cs p); [exact space_sane|discriminate|]. vm_compute. reflexivity.
Qed.

Lemma not_all : exists l w wg cs p c out line q,
  good_locale l /\ NumSpec.sane (SetupModel.isspace w) /\ takes_settings w wg /\
  SetupModel.setup w cs = SetupModel.Ok p /\ settings c = SetupModel.context p /\
  bfs_ctx_dump l None c 64 (mkCfile [] false) = Printed (mkCfile out false) /\ dumped l c "tree" line out /\ rereads w wg c line q /\
  SetupModel.ignore_errors q <> SetupModel.ignore_errors (settings c) /\ SetupModel.warn q <> SetupModel.warn (settings c) /\
  SetupModel.cerr_colors q <> SetupModel.cerr_colors (settings c).
Proof.
  destruct (dump_ok c_locale w wg c "tree" 64 false good space_sane takes c_possible) as [out [line [q [D [L [R [_ F]]]]]]].
  - reflexivity.
  - discriminate.
  - repeat constructor; vm_compute; intuition discriminate.
  - constructor. constructor.
  - exact leaf_sound.
  - cbn [In debug_table]. repeat first [left; reflexivity | right].
  - discriminate.
  - exists c_locale, w, wg, cs, p, c, out, line, q. split; [exact good|]. split; [exact space_sane|]. split; [exact takes|].
    split; [vm_compute; reflexivity|]. split; [reflexivity|]. split; [exact D|]. split; [exact L|]. split; [exact R|]. destruct F.
    rewrite t_errors, t_warn, t_cerr. split; [|split]; discriminate.
Qed.

Ltac bare_line := repeat (first [apply Forall2_nil | apply Forall2_cons; [reflexivity|]]).
Definition none : ctx := {| settings := SetupModel.context p; argv0 := str "bfs"; paths := []; exclude := Parent (str "-or") []; expression := leaf |}.
Definition wordsn : list (list byte) := map str ["-P"; "-j4"; "-S"; "bfs"; "-D"; "tree"; "-color"]%string.
Lemma not_roots : exists l w wg c line words cmd,
  possible w (settings c) /\ dump_line l None c (mkCfile [] false) = Printed (mkCfile line false) /\
  shell_line line (argv0 c :: words) /\ GramSpec.means wg words cmd /\ GramModel.c_roots cmd = [str "."] /\ paths c = [].
Proof.
  exists c_locale, w, wg, none, (spaced (str "bfs" :: wordsn)), wordsn. eexists.
  split; [exact c_possible|]. split; [vm_compute; reflexivity|]. split.
  - exists (str "bfs" :: wordsn). split; [reflexivity|]. bare_line.
  - split; [apply GramProofs.grammar; [exact space_sane|]; vm_compute; reflexivity|]. split; reflexivity.
Qed.

Definition named : ctx := {| settings := SetupModel.context p; argv0 := str "my bfs"; paths := []; exclude := Parent (str "-or") []; expression := leaf |}.
Lemma not_name : exists l w c line words,
  possible w (settings c) /\ dump_line l None c (mkCfile [] false) = Printed (mkCfile line false) /\
  shell_line line words /\ hd [] words <> argv0 c.
Proof.
  exists c_locale, w, named, (spaced (str "my" :: str "bfs" :: wordsn)), (str "my" :: str "bfs" :: wordsn).
  split; [exact c_possible|]. split; [vm_compute; reflexivity|]. split; [|discriminate].
  exists (str "my" :: str "bfs" :: wordsn). split; [reflexivity|]. bare_line.
Qed.

Definition deep : ctx :=
  {| settings := SetupModel.set_maxdepth (-2147483648) (SetupModel.context p); argv0 := str "bfs"; paths := [str "."]; exclude := Parent (str "-or") []; expression := leaf |}.
Definition wordsd : list (list byte) := map str ["-P"; "-j4"; "-S"; "bfs"; "-D"; "tree"; "."; "-color"; "-maxdepth"; "-2147483648"]%string.
Lemma not_depth : exists l w wg c line words cmd,
  SetupModel.maxdepth (settings c) = (- 2 ^ 31)%Z /\ dump_line l None c (mkCfile [] false) = Printed (mkCfile line false) /\
  shell_line line (argv0 c :: words) /\ GramSpec.means wg words cmd /\
  SetupModel.setup w (calls_in (GramModel.c_expr cmd)) = SetupModel.Rejected.
Proof.
  exists c_locale, w, wg, deep, (spaced (str "bfs" :: wordsd)), wordsd. eexists.
  split; [reflexivity|]. split; [vm_compute; reflexivity|]. split.
  - exists (str "bfs" :: wordsd). split; [reflexivity|]. bare_line.
  - split; [apply GramProofs.grammar; [exact space_sane|]; vm_compute; reflexivity|]. vm_compute. reflexivity.
Qed.
