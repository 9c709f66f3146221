(** Proofs about -print0 and -printx *)
From Coq Require Import List Bool Arith Lia.
From Coq Require Import Init.Byte Strings.Byte.
From Verif Require Import QuoteModel PathProofs PrintxModel PrintxSpec.
Import ListNotations.

(** The encoding, byte by byte *)
Definition enc1 (c : byte) : list byte := if printx_special c then ["\"%byte; c] else [c].
Definition enc (p : list byte) : list byte := flat_map enc1 p.

Lemma cspan_ok p s : let '(a, b) := cspan p s in s = a ++ b /\ forallb (fun c => negb (p c)) a = true /\
  match b with [] => True | c :: _ => p c = true end.
Proof.
  induction s as [|c s IH]; cbn [cspan]; [auto|]. destruct (p c) eqn:E; [cbn; auto|].
  destruct (cspan p s) as [a b]. destruct IH as (-> & H & T). cbn. rewrite E, H. auto.
Qed.

Lemma enc_plain a : forallb (fun c => negb (printx_special c)) a = true -> enc a = a.
Proof.
  induction a as [|c a IH]; cbn [forallb]; [reflexivity|]. intros H. apply andb_true_iff in H. destruct H as [H1 H2].
  cbn [enc flat_map]. unfold enc1 at 1. apply negb_true_iff in H1. rewrite H1. cbn [app]. f_equal. apply IH. exact H2.
Qed.

Lemma loop_ok fuel : forall path out, length path < fuel -> fprintx_loop fuel path out = Some (out ++ enc path ++ [x0a]).
Proof.
  induction fuel as [|fuel IH]; intros path out L; [lia|]. cbn [fprintx_loop].
  pose proof (cspan_ok printx_special path) as C. destruct (cspan printx_special path) as [a b].
  destruct C as (-> & A & B). unfold enc. rewrite flat_map_app. fold (enc a). rewrite (enc_plain a A).
  destruct b as [|c b].
  - cbn [flat_map]. rewrite app_nil_r, <- app_assoc. reflexivity.
  - rewrite IH by (rewrite app_length in L; cbn [length] in L; lia). cbn [flat_map].
    assert (E1 : enc1 c = ["\"%byte; c]) by (unfold enc1; rewrite B; reflexivity). rewrite E1.
    fold (enc b). rewrite <- !app_assoc. reflexivity.
Qed.

Lemma fprintx_ok path : fprintx path = Some (enc path ++ [x0a]).
Proof. unfold fprintx. rewrite loop_ok by lia. reflexivity. Qed.

Lemma enc1_step c cur s : xargs Plain cur (enc1 c ++ s) = xargs Plain (add cur c) s.
Proof.
  unfold enc1. destruct (printx_special c) eqn:E; cbn [app xargs].
  - change (separator "\") with false. change (Byte.eqb "\" "\") with true. cbn iota.
    destruct cur; reflexivity.
  - assert (H : separator c = false /\ Byte.eqb c "\" = false /\ (Byte.eqb c "'" || Byte.eqb c x22) = false).
    { revert E. destruct c; vm_compute; intros; repeat split; try reflexivity; discriminate. }
    destruct H as (-> & -> & ->). reflexivity.
Qed.

Lemma enc_step path : forall w s, xargs Plain (Some w) (enc path ++ s) = xargs Plain (Some (w ++ path)) s.
Proof.
  induction path as [|c path IH]; intros w s.
  - rewrite app_nil_r. reflexivity.
  - change (enc (c :: path)) with (enc1 c ++ enc path). rewrite <- app_assoc, enc1_step.
    unfold add. rewrite IH, <- app_assoc. reflexivity.
Qed.

Lemma xargs_lines paths : Forall (fun p => p <> []) paths ->
  xargs_split (flat_map (fun p => enc p ++ [x0a]) paths) = Some paths.
Proof.
  unfold xargs_split. induction 1 as [|p paths NE _ IH]; [reflexivity|]. cbn [flat_map].
  destruct p as [|c p]; [contradiction|]. change (enc (c :: p)) with (enc1 c ++ enc p).
  rewrite <- !app_assoc, enc1_step. unfold add. rewrite enc_step. cbn [app xargs]. change (separator x0a) with true. cbn iota. rewrite IH. reflexivity.
Qed.

(** The outputs of all the calls, in order *)
Definition outputs (f : list byte -> option (list byte)) (paths : list (list byte)) : option (list byte) :=
  fold_right (fun p acc => match f p, acc with Some a, Some b => Some (a ++ b) | _, _ => None end) (Some []) paths.
Lemma outputs_enc paths : outputs fprintx paths = Some (flat_map (fun p => enc p ++ [x0a]) paths).
Proof.
  induction paths as [|p paths IH]; [reflexivity|]. cbn [outputs fold_right]. fold (outputs fprintx paths).
  rewrite IH, fprintx_ok. reflexivity.
Qed.

Lemma printx_roundtrip paths : Forall (fun p => p <> []) paths ->
  exists out, fold_right (fun p acc => match fprintx p, acc with Some a, Some b => Some (a ++ b) | _, _ => None end)
                (Some []) paths = Some out /\ xargs_split out = Some paths.
Proof. intros H. eexists. split; [apply outputs_enc|]. apply xargs_lines. exact H. Qed.

Lemma printx_protected path : exists out, fprintx path = Some (out ++ [x0a]) /\ protected printx_special out = true.
Proof.
  exists (enc path). split; [apply fprintx_ok|]. induction path as [|c path IH]; [reflexivity|].
  change (enc (c :: path)) with (enc1 c ++ enc path). unfold enc1. destruct (printx_special c) eqn:E; cbn [app protected].
  - exact IH.
  - assert (H : Byte.eqb c "\" = false) by (revert E; destruct c; vm_compute; intros; try reflexivity; discriminate).
    rewrite H, E, IH. reflexivity.
Qed.

Lemma split0_step p : forall cur s, ~ In x00 p -> split0 cur (p ++ s) = split0 (cur ++ p) s.
Proof.
  induction p as [|c p IH]; intros cur s N; cbn [app]; [rewrite app_nil_r; reflexivity|]. cbn [split0].
  destruct (eqb_spec c x00) as [->|]; [exfalso; apply N; left; reflexivity|].
  rewrite IH by (intros H; apply N; right; exact H). rewrite <- app_assoc. reflexivity.
Qed.

Lemma print0_roundtrip paths : Forall (fun p => ~ In x00 p) paths ->
  xargs0_split (flat_map fprint0 paths) = (paths, []).
Proof.
  unfold xargs0_split. induction 1 as [|p paths N _ IH]; [reflexivity|]. cbn [flat_map]. unfold fprint0 at 1.
  rewrite <- app_assoc, split0_step by exact N. cbn [app split0]. change (Byte.eqb x00 x00) with true. cbn iota.
  rewrite IH. reflexivity.
Qed.
