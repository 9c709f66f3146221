(** * The line of the dump: what it consists of *)
From Coq Require Import String List Arith NArith ZArith Bool Lia.
From Coq Require Import Init.Byte Strings.Byte.
From Coq Require Import ZifyBool ZifyNat ZifyN.
From Verif Require Import QuoteModel QuoteSpec QuoteProofs PathModel ColModel FmtModel FmtSpec FmtProofs DumpModel DumpSpec DumpProofs.
From Verif Require FlsModel FlsSpec FlsProofs NumSpec.
From Verif Require Import GramModel SetupModel SetupSpec.
Import ListNotations.
Local Open Scope list_scope.

(** ** Decimal numbers *)
Lemma digit_same c x : FlsSpec.digit_value c = Some x ->
  NumSpec.is_digit_of 10 c /\ NumSpec.digit_value c = Z.of_N x /\ mem c special = false.
Proof. intros H. destruct c; try discriminate H; injection H as <-; (split; [|split; reflexivity]); vm_compute; split; congruence. Qed.
Lemma value_same s : forall acc m, FlsSpec.value acc s = Some m ->
  Z.of_N m = (Z.of_N acc * 10 ^ Z.of_nat (length s) + NumSpec.value 10 s)%Z.
Proof.
  induction s as [|c s IH]; intros acc m H; cbn [FlsSpec.value NumSpec.value length] in *.
  - injection H as <-. cbn. lia.
  - destruct (FlsSpec.digit_value c) as [x|] eqn:E; [|discriminate]. apply digit_same in E. destruct E as [_ [E _]]. rewrite E.
    rewrite (IH _ _ H). replace (Z.of_nat (Datatypes.S (length s))) with (Z.succ (Z.of_nat (length s))) by lia. rewrite Z.pow_succ_r by lia.
    rewrite N2Z.inj_add, N2Z.inj_mul. cbn [Z.of_N]. ring.
Qed.
Lemma d_digits n : (0 <= n)%Z -> Forall FlsProofs.is_digit (d n).
Proof. intros H. unfold d, FlsModel.jd. replace (n <? 0)%Z with false by lia. apply FlsProofs.ju_digits. Qed.
Lemma d_number n : (0 <= n <= 2 ^ 31 - 1)%Z -> number (d n) n.
Proof.
  intros H. split; [|exact H]. exists [], (d n). assert (D := d_digits n (proj1 H)).
  unfold d, FlsModel.jd in *. replace (n <? 0)%Z with false in * by lia. destruct (FlsProofs.ju_ok (Z.to_N n)) as [Ne V].
  split; [rewrite app_nil_r; reflexivity|]. split; [exact Ne|]. split; [|split; [exact I|left; split; [reflexivity|]]].
  - eapply Forall_impl; [|exact D]. intros c [x E]. apply (digit_same c x E).
  - apply value_same in V. rewrite Z2N.id in V by lia. cbn [Z.of_N] in V. lia.
Qed.
Lemma d_some n : (0 <= n)%Z -> d n <> [].
Proof.
  intros H. unfold d, FlsModel.jd. replace (n <? 0)%Z with false by lia. apply FlsProofs.ju_ok.
Qed.
Definition bare (s : list byte) : Prop := s <> [] /\ forall c, In c s -> mem c special = false.
Lemma bare_word s : bare s -> shell_word s = Some s.
Proof. intros [Ne H]. unfold shell_word. destruct s; [contradiction|]. apply read_bare. exact H. Qed.
Lemma bare_d n : (0 <= n)%Z -> bare (d n).
Proof.
  intros H. split; [apply d_some; exact H|]. intros c I. assert (D := d_digits n H). rewrite Forall_forall in D. destruct (D c I) as [x E].
  apply (digit_same c x E).
Qed.
Definition bareb (s : list byte) : bool := negb (match s with [] => true | _ => false end) && forallb (fun c => negb (mem c special)) s.
Lemma bareb_ok s : bareb s = true -> bare s.
Proof.
  unfold bareb. intros H. apply andb_true_iff in H. destruct H as [H F]. split; [destruct s; [discriminate H|discriminate]|].
  intros c I. rewrite forallb_forall in F. specialize (F c I). destruct (mem c special); [discriminate F|reflexivity].
Qed.
Lemma bare_app s t : bare s -> (forall c, In c t -> mem c special = false) -> bare (s ++ t).
Proof.
  intros [Ne H] T. split; [destruct s; [contradiction|discriminate]|]. intros c I. apply in_app_iff in I. destruct I; auto.
Qed.

(** ** Calls *)
Definition sel {A} (xs : list (bool * A)) : list A := map snd (filter fst xs).
Lemma sel_cons {A} x (a : A) xs : sel ((x, a) :: xs) = (if x then [a] else []) ++ sel xs.
Proof. destruct x; reflexivity. Qed.
Definition words_of (cs : list call) : list arg := concat (map snd cs).
Definition out (ws : list arg) : list byte := concat (map (fun q => str " " ++ q) ws).
Lemma out_app a c : out (a ++ c) = out a ++ out c.
Proof. unfold out. rewrite map_app, concat_app. reflexivity. Qed.
Lemma words_app a c : words_of (a ++ c) = words_of a ++ words_of c.
Proof. unfold words_of. rewrite map_app, concat_app. reflexivity. Qed.

(** What -D is given *)
Fixpoint dnames (i : list N) (n : N) : list byte :=
  match i with
  | [] => []
  | i :: more =>
      if has n i then
        let n' := N.lxor n i in
        debug_flag_name i ++ (if (n' =? 0)%N then [] else str ",") ++ dnames more n'
      else dnames more n
  end.
Definition dvalue (n : N) : list byte := if (n =? 127)%N then str "all" else dnames bits n.

Definition word1 (n : string) : call := (b n, [b n]).
Section Calls.
  Variable s : SetupModel.ctx.
  Definition all_ : bool := has (flags s) BFTW_FOLLOW_ALL.
  Definition roots_ : bool := has (flags s) BFTW_FOLLOW_ROOTS.
  Definition pre_calls : list (bool * call) :=
    [(all_, word1 "-L"); (negb all_ && roots_, word1 "-H"); (negb all_ && negb roots_, word1 "-P");
     (xargs_safe s, word1 "-X"); (has (flags s) BFTW_SORT, word1 "-s");
     (true, (b "-j", [b "-j" ++ d (threads s)]));
     (negb (optlevel s =? 3)%Z, (b "-O", [b "-O" ++ d (optlevel s)]));
     (true, (b "-S", [b "-S"; str (bftw_strategy_name (search s))]));
     (negb (debug s =? 0)%N, (b "-D", [b "-D"; dvalue (debug s)]))].
  Definition post_calls : list (bool * call) :=
    [(cout_colors s, word1 "-color"); (negb (cout_colors s), word1 "-nocolor");
     (has (flags s) BFTW_POST_ORDER, word1 "-depth"); (ignore_races s, word1 "-ignore_readdir_race");
     (negb (mindepth s =? 0)%Z, (b "-mindepth", [b "-mindepth"; d (mindepth s)]));
     (negb (maxdepth s =? INT_MAX)%Z, (b "-maxdepth", [b "-maxdepth"; d (maxdepth s)]));
     (has (flags s) BFTW_SKIP_MOUNTS, word1 "-mount"); (status s, word1 "-status"); (unique s, word1 "-unique");
     ((N.land (flags s) (N.lor BFTW_SKIP_MOUNTS BFTW_PRUNE_MOUNTS) =? BFTW_PRUNE_MOUNTS)%N, word1 "-xdev")].
End Calls.
Definition dashed (p : arg) : bool := mem (hd x00 p) (str "-()!,").
Definition path_words (p : arg) : list arg := if dashed p then [b "-f"; p] else [p].
Definition path_calls (p : arg) : list call := if dashed p then [(b "-f", [b "-f"; p])] else [].

Section Line.
  Variable l : locale.
  Definition path_out (p : arg) : list byte := (if dashed p then str " -f" else []) ++ str " " ++ quoted_as l true p.

  Lemma does_when f x t : does f t -> does (when x f) (if x then t else []).
  Proof. intros H. unfold when. destruct x; [exact H|apply does_nil]. Qed.

  Lemma does_debug i : forall n, does (dump_debug l None i n) (dnames i n).
  Proof.
    induction i as [|i more IH]; intros n; cbn [dump_debug dnames]; [apply does_nil|]. destruct (has n i); [|apply IH].
    apply does_seq; [apply f_bld|]. apply does_seq; [|apply IH]. eapply does_eq; [apply does_when; apply f_comma|]. destruct (_ =? _)%N; reflexivity.
  Qed.
  Lemma does_path p : does (dump_path l None p) (path_out p).
  Proof.
    unfold dump_path, path_out, dashed. apply does_seq; [|apply f_path]. apply does_when. apply f_const. reflexivity.
  Qed.
  Lemma does_paths ps : does (dump_paths l None ps) (concat (map path_out ps)).
  Proof. induction ps as [|p ps IH]; cbn [dump_paths map concat]; [apply does_nil|]. apply does_seq; [apply does_path|exact IH]. Qed.

  Definition one (e : bool * call) : list byte := if fst e then out (snd (snd e)) else [].
  Lemma out_sel xs : out (words_of (sel xs)) = concat (map one xs).
  Proof.
    induction xs as [|[x cl] xs IH]; [reflexivity|]. rewrite sel_cons, words_app, out_app, IH. cbn [map concat]. f_equal.
    unfold one. cbn [fst snd]. destruct x; [|reflexivity]. unfold words_of. cbn [map concat]. rewrite app_nil_r. reflexivity.
  Qed.
  Lemma word1_out n : out (snd (word1 n)) = str " " ++ b n.
  Proof. unfold out, word1. cbn [snd map concat]. rewrite app_nil_r. reflexivity. Qed.

  Lemma does_line c : does (dump_line l None c)
    (argv0 c ++ out (words_of (sel (pre_calls (settings c)))) ++ concat (map path_out (paths c)) ++ out (words_of (sel (post_calls (settings c))))).
  Proof.
    rewrite !out_sel. unfold dump_line, pre_calls, post_calls. cbv zeta. set (s := settings c). cbn [map concat].
    Ltac w1 n := apply (does_when _ _ (str " " ++ b n)); apply f_const; reflexivity.
    eapply does_eq.
    - apply does_seq; [apply f_ex|].
      apply does_seq; [instantiate (1 := one (all_ s, word1 "-L") ++ one (negb (all_ s) && roots_ s, word1 "-H") ++ one (negb (all_ s) && negb (roots_ s), word1 "-P"))|].
      { unfold one, all_, roots_. destruct (has (flags s) BFTW_FOLLOW_ALL), (has (flags s) BFTW_FOLLOW_ROOTS); apply f_const; reflexivity. }
      apply does_seq; [w1 "-X"%string|]. apply does_seq; [w1 "-s"%string|]. apply does_seq; [apply f_j|]. apply does_seq; [apply does_when; apply f_O|].
      apply does_seq; [apply f_S|].
      apply does_seq; [instantiate (1 := one (negb (debug s =? 0)%N, (b "-D", [b "-D"; dvalue (debug s)])))|].
      { unfold one, dvalue, DEBUG_ALL. cbn [fst snd]. destruct (debug s =? 127)%N eqn:E.
        - replace (debug s =? 0)%N with false by lia. apply f_const. reflexivity.
        - eapply does_eq; [apply does_when; apply does_seq; [apply (f_const l _ (str " " ++ str "-D" ++ str " ")); reflexivity|apply does_debug]|].
          destruct (negb (debug s =? 0)%N); [|reflexivity]. unfold out. cbn [map concat]. rewrite app_nil_r. reflexivity. }
      apply does_seq; [apply does_paths|].
      apply does_seq; [instantiate (1 := one (cout_colors s, word1 "-color") ++ one (negb (cout_colors s), word1 "-nocolor"))|].
      { unfold one. cbn [fst snd]. destruct (cout_colors s); apply f_const; reflexivity. }
      apply does_seq; [w1 "-depth"%string|]. apply does_seq; [w1 "-ignore_readdir_race"%string|]. apply does_seq; [apply does_when; apply f_min|]. apply does_seq; [apply does_when; apply f_max|].
      apply does_seq; [w1 "-mount"%string|]. apply does_seq; [w1 "-status"%string|]. apply does_seq; [w1 "-unique"%string|]. w1 "-xdev"%string.
    - unfold one. cbn [fst snd]. rewrite !word1_out. unfold out. cbn [map concat]. rewrite !app_nil_r, <- !app_assoc. reflexivity.
  Qed.
End Line.
