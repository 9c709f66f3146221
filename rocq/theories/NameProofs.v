(** * Proofs about -name, -path, -lname and -hidden *)
From Coq Require Import List NArith Arith Bool Init.Byte Lia.
From Coq Require Import Strings.Byte.
From Verif Require Import PathModel PathSpec PathProofs NameModel NameSpec.
Import ListNotations.
Local Open Scope nat_scope.

Lemma beqb c d : Byte.eqb c d = true <-> c = d.
Proof. split; [apply Byte.byte_dec_bl|intros ->; apply Byte.byte_dec_lb; reflexivity]. Qed.
Lemma strcmp_eq a : forall b, strcmp a b = true <-> a = b.
Proof.
  induction a as [|x a IH]; intros [|y b]; cbn; try (split; congruence). rewrite andb_true_iff, beqb, IH. split; [intros [-> ->]; reflexivity|intros E; injection E; auto].
Qed.

(** ** Trailing backslashes *)
Lemma trailing_ok p : exists q, p = q ++ repeat backslash (trailing (length p) p 0) /\ (q = [] \/ exists q' c, q = q' ++ [c] /\ c <> backslash).
Proof.
  assert (G : forall n i q, p = q ++ repeat backslash i -> length q = n ->
    exists q', p = q' ++ repeat backslash (trailing n p i) /\ (q' = [] \/ exists q1 c, q' = q1 ++ [c] /\ c <> backslash)).
  { induction n as [|n IH]; intros i q E L; cbn [trailing].
    - exists q. split; [exact E|]. left. apply length_zero_iff_nil, L.
    - destruct (exists_last (l := q)) as (q1 & c & ->); [intros ->; discriminate|]. rewrite app_length in L. cbn in L.
      assert (Nt : nth (length p - i - 1) p x00 = c).
      { rewrite E, !app_length, repeat_length. cbn [length]. rewrite <- app_assoc, app_nth2 by lia. replace (length q1 + 1 + i - i - 1 - length q1) with 0 by lia. reflexivity. }
      rewrite Nt. clear Nt. destruct (Byte.eqb c backslash) eqn:Ec.
      + apply beqb in Ec. apply (IH (S i) q1); [|lia]. rewrite E, Ec, <- app_assoc. reflexivity.
      + exists (q1 ++ [c]). split; [exact E|]. right. exists q1, c. split; [reflexivity|]. intros ->. cbn in Ec. discriminate. }
  apply (G (length p) 0 p); [rewrite app_nil_r; reflexivity|reflexivity].
Qed.

Section Tokens.
  Variable br : list N -> option ((N -> bool) * list N).
  Hypothesis Hbr : forall p f r, br p = Some (f, r) -> exists q, p = q ++ 93%N :: r.
  Lemma br_len p f r : br p = Some (f, r) -> length r < length p.
  Proof. intros E. destruct (Hbr _ _ _ E) as [q ->]. rewrite app_length. cbn. lia. Qed.
  (** More fuel does not matter. *)
  Lemma tokens_fuel n : forall m p, length p <= n -> length p <= m -> tokens br n p = tokens br m p.
  Proof.
    induction n as [|n IH]; intros m p L L'; [destruct p; [destruct m; reflexivity|cbn in L; lia]|].
    destruct p as [|c r]; [destruct m; reflexivity|]. destruct m as [|m]; [cbn in L'; lia|]. cbn [tokens]. cbn [length] in L, L'.
    destruct (c =? 92)%N; [destruct r as [|c' r]; [reflexivity|]; cbn [length] in *; f_equal; apply IH; lia|].
    destruct (c =? 63)%N; [f_equal; apply IH; lia|]. destruct (c =? 42)%N; [f_equal; apply IH; lia|].
    destruct (c =? 91)%N; [|f_equal; apply IH; lia]. destruct (br r) as [[f r']|] eqn:E; [apply br_len in E|]; f_equal; apply IH; lia.
  Qed.
  Definition toks (p : list N) : list token := tokens br (length p) p.
  Fixpoint trail (p : list N) : nat :=
    match p with
    | [] => 0
    | c :: r => if (c =? 92)%N && forallb (N.eqb 92) r then S (length r) else trail r
    end.
  Lemma trail_all r : forallb (N.eqb 92) r = true -> trail r = length r.
  Proof. destruct r as [|c r]; [reflexivity|]. cbn [forallb trail]. intros E. apply andb_true_iff in E. destruct E as [E1 E2]. apply N.eqb_eq in E1. subst c. rewrite E2. reflexivity. Qed.
  Lemma trail_other q c r : c <> 92%N -> trail (q ++ c :: r) = trail r.
  Proof.
    intros H. induction q as [|d q IH]; cbn [app trail].
    - destruct (N.eqb_spec c 92); [contradiction|reflexivity].
    - rewrite IH. destruct (forallb (N.eqb 92) (q ++ c :: r)) eqn:E; [|rewrite andb_false_r; reflexivity].
      rewrite forallb_app in E. apply andb_true_iff in E. destruct E as [_ E]. cbn [forallb] in E. apply andb_true_iff in E. destruct E as [E _]. apply N.eqb_eq in E. congruence.
  Qed.
  Lemma toks_cons c r : toks (c :: r) =
    if (c =? 92)%N then match r with [] => [Unfinished] | c :: r => Lit c :: toks r end
    else if (c =? 63)%N then One :: toks r
    else if (c =? 42)%N then Star :: toks r
    else if (c =? 91)%N then match br r with Some (f, r) => OneOf f :: toks r | None => Lit c :: toks r end
    else Lit c :: toks r.
  Proof.
    unfold toks at 1. cbn [length tokens]. destruct (c =? 92)%N; [destruct r as [|c' r]; [reflexivity|]; f_equal; apply tokens_fuel; cbn; lia|].
    destruct (c =? 63)%N; [reflexivity|]. destruct (c =? 42)%N; [reflexivity|]. destruct (c =? 91)%N; [|reflexivity].
    destruct (br r) as [[f r']|] eqn:E; [apply br_len in E; f_equal; apply tokens_fuel; lia|reflexivity].
  Qed.
  Lemma unfinished_odd n : forall p, length p <= n -> (In Unfinished (toks p) <-> Nat.odd (trail p) = true).
  Proof.
    induction n as [|n IH]; intros p L; [destruct p; [cbn; split; [tauto|discriminate]|cbn in L; lia]|].
    destruct p as [|c r]; [cbn; split; [tauto|discriminate]|]. rewrite toks_cons. cbn [length] in L.
    destruct (N.eqb_spec c 92) as [->|Nc].
    - destruct r as [|d r]; [cbn; split; auto|]. cbn [length] in L. specialize (IH r ltac:(lia)). cbn [In]. 
      assert (X : (Lit d = Unfinished \/ In Unfinished (toks r)) <-> In Unfinished (toks r)) by (split; [intros [E|E]; [discriminate|exact E]|auto]). rewrite X, IH.
      cbn [trail forallb]. change (92 =? 92)%N with true. cbn [andb length]. destruct (N.eqb_spec d 92) as [->|Nd].
      + change (92 =? 92)%N with true. cbn [andb]. destruct (forallb (N.eqb 92) r) eqn:Fr; [rewrite (trail_all r Fr)|]; [|reflexivity]. rewrite Nat.odd_succ_succ. reflexivity.
      + destruct (N.eqb_spec 92 d); [congruence|]. cbn [andb]. reflexivity.
    - assert (Tr : trail (c :: r) = trail r) by exact (trail_other [] c r Nc). rewrite Tr. specialize (IH r ltac:(lia)) as IH1.
      assert (X : forall t, t <> Unfinished -> (In Unfinished (t :: toks r) <-> In Unfinished (toks r))) by (intros t Ht; cbn; split; [intros [E|E]; [congruence|exact E]|auto]).
      destruct (c =? 63)%N; [rewrite X by discriminate; exact IH1|]. destruct (c =? 42)%N; [rewrite X by discriminate; exact IH1|].
      destruct (c =? 91)%N; [|rewrite X by discriminate; exact IH1]. destruct (br r) as [[f r']|] eqn:E; [|rewrite X by discriminate; exact IH1].
      pose proof (br_len _ _ _ E) as Ll. destruct (Hbr _ _ _ E) as [q ->]. rewrite trail_other by discriminate. cbn [In]. rewrite <- (IH r') by lia. split; [intros [Y|Y]; [discriminate|exact Y]|auto].
  Qed.
  (** A pattern without special characters is the list of its characters. *)
  Lemma toks_plain p : Forall (fun c => c <> 92 /\ c <> 63 /\ c <> 42 /\ c <> 91)%N p -> toks p = map Lit p.
  Proof.
    induction 1 as [|c r (H1 & H2 & H3 & H4) F IH]; [reflexivity|]. rewrite toks_cons. destruct (N.eqb_spec c 92); [contradiction|]. destruct (N.eqb_spec c 63); [contradiction|].
    destruct (N.eqb_spec c 42); [contradiction|]. destruct (N.eqb_spec c 91); [contradiction|]. cbn [map]. f_equal. exact IH.
  Qed.
End Tokens.
Lemma matches_plain same p : forall s, matches same (map Lit p) s <-> Forall2 (fun c d => same c d = true) p s.
Proof.
  induction p as [|c p IH]; intros s; cbn [map].
  - split; [intros H; inversion H; constructor|intros H; inversion H; constructor].
  - split; intros H; inversion H; subst; constructor; auto; apply IH; assumption.
Qed.

Section Locale.
  Variable l : locale.
  Hypothesis T : transparent l.
  Lemma decode_cons c b : ascii c -> decode l (c :: b) = Byte.to_N c :: decode l b.
  Proof. intros A. pose proof (t_ascii _ T [] c b A) as E. cbn [app] in E. rewrite (t_nil _ T) in E. exact E. Qed.
  Lemma ascii_dec c : {ascii c} + {~ ascii c}.
  Proof. unfold ascii. destruct (N.ltb (Byte.to_N c) 128) eqn:E; [left|right]; [apply N.ltb_lt, E|apply N.ltb_ge in E; lia]. Qed.
  (** Strings split at their ASCII characters. *)
  Lemma split_first s : exists a b, s = a ++ b /\ Forall (fun c => ~ ascii c) a /\ (b = [] \/ exists c b', b = c :: b' /\ ascii c).
  Proof.
    induction s as [|c s IH]; [exists [], []; auto|]. destruct (ascii_dec c) as [A|A].
    - exists [], (c :: s). split; [reflexivity|]. split; [constructor|]. right. eauto.
    - destruct IH as (a & b & -> & F & B). exists (c :: a), b. split; [reflexivity|]. split; [constructor; assumption|exact B].
  Qed.
  Lemma decode_chars (P : N -> Prop) : (forall c, (128 <= c)%N -> P c) -> forall n s, length s <= n -> Forall (fun c => ascii c -> P (Byte.to_N c)) s -> Forall P (decode l s).
  Proof.
    intros Hp. induction n as [|n IH]; intros s L F.
    - destruct s; [rewrite (t_nil _ T); constructor|cbn in L; lia].
    - destruct (split_first s) as (a & b & -> & Fa & [->|(c & b' & -> & Ac)]).
      + rewrite app_nil_r. eapply Forall_impl; [|apply (t_other _ T _ Fa)]. exact Hp.
      + rewrite (t_ascii _ T) by exact Ac. rewrite app_length in L. cbn in L. apply Forall_app in F. destruct F as [F1 F2]. inversion F2; subst. apply Forall_app. split.
        * eapply Forall_impl; [|apply (t_other _ T _ Fa)]. exact Hp.
        * constructor; [auto|]. apply IH; [lia|assumption].
  Qed.
  Lemma backslash_ascii : ascii backslash.
  Proof. vm_compute. reflexivity. Qed.
  Lemma decode_backslashes q n : decode l (q ++ repeat backslash n) = decode l q ++ repeat 92%N n.
  Proof.
    revert q. induction n as [|n IH]; intros q; [cbn; rewrite !app_nil_r; reflexivity|]. cbn [repeat]. rewrite (t_ascii _ T) by apply backslash_ascii. f_equal. change (Byte.to_N backslash) with 92%N. f_equal.
    specialize (IH []). cbn [app] in IH. rewrite IH, (t_nil _ T). reflexivity.
  Qed.
  Lemma decode_end q c : c <> backslash -> exists r d, decode l (q ++ [c]) = r ++ [d] /\ d <> 92%N \/ decode l (q ++ [c]) = [].
  Proof.
    intros H. destruct (ascii_dec c) as [A|A].
    - exists (decode l q), (Byte.to_N c). left. rewrite (t_ascii _ T) by exact A. rewrite (t_nil _ T). split; [reflexivity|]. intros E. apply H. apply Byte.byte_dec_bl. clear -E. revert E. destruct c; vm_compute; congruence.
    - assert (G : forall n s, length s <= n -> exists r d, decode l (s ++ [c]) = r ++ [d] /\ (128 <= d)%N \/ decode l (s ++ [c]) = [] \/ exists s' a, s = s' ++ a :: [] /\ False).
      { intros n s _.  destruct (exists_last (l := decode l (s ++ [c]))) as (r & d & E).
        - intros E. assert (s ++ [c] = []) by (apply (t_inj _ T); rewrite E, (t_nil _ T); reflexivity). destruct s; discriminate.
        - exists r, d. left. split; [exact E|].
          destruct (split_first (rev s)) as (a & b & Es & Fa & B).
          apply (f_equal (@rev _)) in Es. rewrite rev_involutive, rev_app_distr in Es.
          assert (Fr : Forall (fun x => ~ ascii x) (rev a ++ [c])) by (apply Forall_app; split; [apply Forall_rev, Fa|repeat constructor; exact A]).
          destruct B as [->|(x & b' & -> & Ax)].
          + cbn [rev app] in Es. subst s. pose proof (t_other _ T _ Fr) as F. rewrite E in F. apply Forall_app in F. destruct F as [_ F]. inversion F; subst; assumption.
          + cbn [rev] in Es. subst s. assert (Dc : decode l (((rev b' ++ [x]) ++ rev a) ++ [c]) = decode l (rev b') ++ Byte.to_N x :: decode l (rev a ++ [c])).
            { rewrite <- (t_ascii _ T) by exact Ax. f_equal. rewrite <- !app_assoc. reflexivity. }
            rewrite Dc in E. pose proof (t_other _ T _ Fr) as F. destruct (exists_last (l := decode l (rev a ++ [c]))) as (r2 & d2 & E2).
            { intros X. assert (Y : rev a ++ [c] = []) by (apply (t_inj _ T); rewrite X, (t_nil _ T); reflexivity). destruct (rev a); discriminate. }
            rewrite E2 in E, F. change (decode l (rev b') ++ Byte.to_N x :: r2 ++ [d2]) with (decode l (rev b') ++ (Byte.to_N x :: r2) ++ [d2]) in E. rewrite app_assoc in E. apply app_inj_tail in E. destruct E as [_ <-].
            apply Forall_app in F. destruct F as [_ F]. inversion F; subst; assumption. }
      destruct (G (length q) q (le_n _)) as (r & d & [[E Hd]|[E|(s' & a & _ & [])]]).
      + exists r, d. left. split; [exact E|]. lia.
      + exists [], 0%N. right. exact E.
  Qed.
  Lemma trail_repeat n : trail (repeat 92%N n) = n.
  Proof. destruct n as [|n]; [reflexivity|]. cbn [repeat trail]. change (92 =? 92)%N with true. assert (F : forallb (N.eqb 92) (repeat 92%N n) = true) by (induction n; [reflexivity|exact IHn]). rewrite F, repeat_length. reflexivity. Qed.
  Lemma trailing_trail p : trail (decode l p) = trailing (length p) p 0.
  Proof.
    destruct (trailing_ok p) as (q & E & Q). set (n := trailing (length p) p 0) in *. rewrite E, decode_backslashes. destruct Q as [->|(q' & c & -> & Nc)].
    - rewrite (t_nil _ T). apply trail_repeat.
    - destruct (decode_end q' c Nc) as (r & d & [[-> Nd]| -> ]); [|apply trail_repeat]. rewrite <- app_assoc. cbn [app]. rewrite trail_other by exact Nd. apply trail_repeat.
  Qed.
  Lemma never_iff p fold : never (parse_fnmatch p fold) = true <-> In Unfinished (pattern_of l fold p).
  Proof.
    unfold pattern_of. fold (toks (bracket l fold) (decode l p)). rewrite (unfinished_odd _ (t_bracket _ T fold) _ _ (le_n _)), trailing_trail.
    unfold parse_fnmatch. set (i := trailing (length p) p 0). assert (O : Nat.odd i = Nat.odd (i mod 2)) by (rewrite (Nat.div_mod i 2) at 1 by lia; rewrite Nat.add_comm, Nat.odd_add_mul_2; reflexivity). rewrite O. assert (i mod 2 < 2) by (apply Nat.mod_upper_bound; lia).
    destruct (i mod 2) as [|[|]]; cbn; [split; discriminate|tauto|lia].
  Qed.
  Lemma unfinished_nothing same t : In Unfinished t -> forall s, ~ matches same t s.
  Proof.
    intros I s M. induction M; cbn in I; try (destruct I as [X|I]; [discriminate|]); auto. apply IHM. right. exact I.
  Qed.
  Lemma strcspn_all s r : strcspn s r = length s -> Forall (fun c => existsb (Byte.eqb c) r = false) s.
  Proof. induction s as [|c s IH]; cbn; [constructor|]. destruct (existsb (Byte.eqb c) r) eqn:E; [discriminate|]. intros H. injection H as H. constructor; auto. Qed.
  Lemma literal_plain p fold : literal (parse_fnmatch p fold) = true -> pattern_of l fold p = map Lit (decode l p).
  Proof.
    unfold parse_fnmatch. destruct (negb _); [discriminate|]. cbn [literal]. intros H. apply Nat.eqb_eq, strcspn_all in H. unfold pattern_of. fold (toks (bracket l fold) (decode l p)). apply (toks_plain _ (t_bracket _ T fold)).
    apply (decode_chars (fun c => c <> 92 /\ c <> 63 /\ c <> 42 /\ c <> 91)%N ltac:(intros c Hc; repeat split; intros ->; apply Hc; reflexivity) (length p) p (le_n _)). eapply Forall_impl; [|exact H]. intros c Hc _. cbn [existsb] in Hc. rewrite !orb_false_iff in Hc. destruct Hc as (H1 & H2 & H3 & H4 & _).
    revert H1 H2 H3 H4. clear. destruct c; vm_compute; intuition discriminate.
  Qed.
  Lemma pattern_kept p fold : pattern (parse_fnmatch p fold) = p /\ casefold (parse_fnmatch p fold) = fold.
  Proof. unfold parse_fnmatch. destruct (negb _); auto. Qed.
  Lemma Forall2_eqb p : forall s, Forall2 (fun c d => same l false c d = true) p s <-> p = s.
  Proof.
    induction p as [|c p IH]; intros s.
    - split; [intros H; inversion H; reflexivity|intros <-; constructor].
    - split; [intros H; inversion H as [|? ? ? ? E F]; subst; apply N.eqb_eq in E; apply IH in F; congruence|]. intros <-. constructor; [apply N.eqb_refl|apply IH; reflexivity].
  Qed.

  Variable fnmatch : list byte -> list byte -> bool -> bool.
  Hypothesis F : is_fnmatch l fnmatch.
  Definition eval (p : list byte) (fold : bool) (s : list byte) : bool := let e := parse_fnmatch p fold in if never e then false else eval_fnmatch fnmatch e s.
  Lemma eval_exact p s : eval p false s = true <-> language l false p s.
  Proof.
    unfold eval. cbv zeta. destruct (never (parse_fnmatch p false)) eqn:Ev.
    - split; [discriminate|]. intros M. apply never_iff in Ev. exfalso. exact (unfinished_nothing _ _ Ev _ M).
    - assert (Nu : ~ In Unfinished (pattern_of l false p)) by (rewrite <- never_iff; congruence). unfold eval_fnmatch. destruct (pattern_kept p false) as [-> ->].
      destruct (literal (parse_fnmatch p false)) eqn:Li; [|apply F, Nu]. apply literal_plain in Li. unfold language. rewrite Li, matches_plain, Forall2_eqb, strcmp_eq. split; [intros ->; reflexivity|apply (t_inj _ T)].
  Qed.
  Lemma lower_byte c : ascii c -> ascii (tolower c) /\ Byte.to_N (tolower c) = lower l (Byte.to_N c).
  Proof. intros A. rewrite (t_lower _ T) by exact A. unfold ascii in *. revert A. destruct c; vm_compute; auto; discriminate. Qed.
  Lemma to_N_inj c d : Byte.to_N c = Byte.to_N d -> c = d.
  Proof. intros E. apply (f_equal Byte.of_N) in E. rewrite !Byte.of_to_N in E. congruence. Qed.
  Lemma decode_ascii s : Forall ascii s -> decode l s = map Byte.to_N s.
  Proof. induction 1 as [|c s A Fs IH]; [apply (t_nil _ T)|]. rewrite decode_cons by exact A. cbn. f_equal. exact IH. Qed.
  Lemma casecmp_ascii p : forall s, Forall ascii p -> Forall ascii s ->
    (strcasecmp p s = true <-> Forall2 (fun c d => same l true c d = true) (map Byte.to_N p) (map Byte.to_N s)).
  Proof.
    intros s Fp Fs. unfold strcasecmp. rewrite strcmp_eq. revert s Fs. induction Fp as [|c p A Fp IH]; intros s Fs.
    - destruct s; cbn; split; intros H; try (constructor); try discriminate; inversion H.
    - inversion Fs as [|d s' B Fs' E]; subst; cbn [map]; [split; [discriminate|intros H; inversion H]|].
      destruct (lower_byte c A) as [_ Lc]. destruct (lower_byte d B) as [_ Ld]. split.
      + intros H. injection H as H1 H2. constructor; [|apply IH; assumption]. unfold same. apply N.eqb_eq. rewrite <- Lc, <- Ld, H1. reflexivity.
      + intros H. inversion H as [|? ? ? ? H1 H2]; subst. apply N.eqb_eq in H1. f_equal; [apply to_N_inj; congruence|apply IH; assumption].
  Qed.
  Lemma eval_fold p s : literal (parse_fnmatch p true) = false \/ Forall ascii p /\ Forall ascii s -> eval p true s = true <-> language l true p s.
  Proof.
    intros C. unfold eval. cbv zeta. destruct (never (parse_fnmatch p true)) eqn:Ev.
    - split; [discriminate|]. intros M. apply never_iff in Ev. exfalso. exact (unfinished_nothing _ _ Ev _ M).
    - assert (Nu : ~ In Unfinished (pattern_of l true p)) by (rewrite <- never_iff; congruence). unfold eval_fnmatch. destruct (pattern_kept p true) as [-> ->].
      destruct (literal (parse_fnmatch p true)) eqn:Li; [|apply F, Nu]. apply literal_plain in Li. destruct C as [C|[Fp Fs]]; [discriminate|]. unfold language. rewrite Li, matches_plain, (decode_ascii p Fp), (decode_ascii s Fs). apply casecmp_ascii; assumption.
  Qed.
End Locale.


(** ** The tests *)
Lemma base_name q d b off : dir_base q d b off -> exists n, skipn off q = b ++ slashes n /\ is_name b \/ b = [slash] /\ skipn off q = [slash] \/ q = [] /\ b = [dot].
Proof.
  intros H. inversion H; subst.
  - exists 0. auto.
  - exists 0. right. left. split; [reflexivity|]. clear. induction off as [|m IH]; [reflexivity|]. exact IH.
  - exists n. left. auto.
  - exists n. left. split; [|assumption]. change (S m) with (length (slashes (S m)) ) at 1 || idtac. replace (S m) with (length (slashes (S m))) at 1 by apply repeat_length. rewrite skipn_app, skipn_all, Nat.sub_diag. reflexivity.
  - exists n. left. split; [|assumption]. replace (length (d0 ++ [c]) + S m) with (length ((d0 ++ [c]) ++ slashes (S m))) by (rewrite app_length; unfold slashes; rewrite repeat_length; reflexivity).
    rewrite app_assoc, skipn_app, skipn_all, Nat.sub_diag. reflexivity.
Qed.
Lemma basename_of_base q d b off : dir_base q d b off -> xbasename (skipn off q) = b.
Proof.
  intros H. destruct (base_name q d b off H) as (n & [[E Nb]|[[-> E]|[-> ->]]]).
  - rewrite E. destruct (dir_base_unique _ _ _ _ _ _ _ (path_functions (b ++ slashes n)) (db_name b n Nb)) as (_ & X & _). exact X.
  - rewrite E. reflexivity.
  - rewrite skipn_nil. reflexivity.
Qed.

Section Tests.
  Variable l : locale.
  Hypothesis T : transparent l.
  Variable fnmatch : list byte -> list byte -> bool -> bool.
  Hypothesis F : is_fnmatch l fnmatch.
  Definition here (fold : bool) (p s : list byte) : Prop := fold = false \/ special p \/ Forall ascii p /\ Forall ascii s.
  Lemma special_literal p fold : special p -> literal (parse_fnmatch p fold) = false.
  Proof.
    intros (c & I & J). unfold parse_fnmatch. destruct (negb _); [reflexivity|]. cbn [literal]. apply Nat.eqb_neq. intros E. apply strcspn_all in E. rewrite Forall_forall in E. specialize (E c J).
    assert (X : existsb (Byte.eqb c) [x3f; x2a; backslash; x5b] = true) by (apply existsb_exists; exists c; split; [exact I|apply beqb; reflexivity]). congruence.
  Qed.
  Lemma eval_ok p fold s : here fold p s -> eval fnmatch p fold s = true <-> language l fold p s.
  Proof. destruct fold; intros [H|H]; try discriminate; [apply eval_fold|apply eval_exact|apply eval_exact]; auto. destruct H as [H|H]; [left; apply special_literal, H|right; exact H]. Qed.
  Lemma name_eval p fold f : eval_name fnmatch (parse_fnmatch p fold) f = eval fnmatch p fold (if depth f =? 0 then xbasename (skipn (nameoff f) (path f)) else skipn (nameoff f) (path f)).
  Proof. reflexivity. Qed.
  Lemma name_test p fold f d b : dir_base (path f) d b (nameoff f) -> (depth f <> 0 -> skipn (nameoff f) (path f) = b) -> here fold p b ->
    eval_name fnmatch (parse_fnmatch p fold) f = true <-> language l fold p b.
  Proof.
    intros D E H. rewrite name_eval. destruct (Nat.eqb_spec (depth f) 0) as [Z|Z]; [rewrite (basename_of_base _ _ _ _ D)|rewrite (E Z)]; apply eval_ok, H.
  Qed.
  Lemma path_test p fold f : here fold p (path f) -> eval_path fnmatch (parse_fnmatch p fold) f = true <-> language l fold p (path f).
  Proof. apply eval_ok. Qed.
  Lemma readlink_ok t : forall fuel size, (1 <= size)%N -> length t + 1 < N.to_nat size + fuel -> 0 < fuel -> readlink_loop fuel t size = Some t.
  Proof.
    induction fuel as [|fuel IH]; intros size S1 L Pf; [lia|]. cbn [readlink_loop]. unfold readlinkat. rewrite firstn_length. destruct (N.leb_spec size (N.of_nat (Nat.min (N.to_nat size) (length t)))) as [G|G].
    - apply IH; lia.
    - f_equal. apply firstn_all2. lia.
  Qed.
  Lemma lname_test p fold f fuel : length (target f) < fuel -> here fold p (target f) ->
    exists r, eval_lname fnmatch fuel (parse_fnmatch p fold) f = Some r /\ (r = true <-> ftype f = LNK /\ language l fold p (target f)).
  Proof.
    intros L H. unfold eval_lname. pose proof (eval_ok p fold (target f) H) as E. unfold eval in E. cbv zeta in E. destruct (never (parse_fnmatch p fold)).
    - exists false. split; [reflexivity|]. rewrite <- E. split; [discriminate|intros [_ X]; exact X].
    - destruct (ftype f) eqn:Ft.
      + unfold xreadlinkat. set (n := match stat_size f with Some n => n | None => 0%N end). rewrite (readlink_ok (target f) fuel); [|destruct (N.eqb_spec n 0); lia|destruct (N.eqb_spec n 0); lia|lia]. eexists. split; [reflexivity|]. rewrite E. tauto.
      + exists false. split; [reflexivity|]. split; [discriminate|intros [X _]; discriminate].
  Qed.
End Tests.

Lemma hidden_test f d b : dir_base (path f) d b (nameoff f) -> skipn (nameoff f) (path f) = b \/ b <> [dot] /\ b <> [dot; dot] -> path f <> [] ->
  eval_hidden f = true <-> hidden_name b.
Proof.
  intros D H Ne. destruct (base_name _ _ _ _ D) as (n & [[E [Nb Ns]]|[[-> E]|[E _]]]); [| |congruence].
  - unfold eval_hidden, hidden_name. rewrite E. destruct b as [|c r]; [congruence|]. cbn [nth app]. rewrite !andb_true_iff, !negb_true_iff, beqb.
    assert (X : forall z, strcmp (c :: r ++ slashes n) z = false <-> c :: r ++ slashes n <> z) by (intros z; rewrite <- not_true_iff_false, strcmp_eq; reflexivity). rewrite !X.
    destruct n as [|n].
    + unfold slashes. cbn [repeat]. rewrite !app_nil_r. split; [intros [[-> Y] Z]; eauto|intros [[z Z] [Y1 Y2]]; injection Z as -> ->; auto].
    + destruct H as [H|H].
      * exfalso. rewrite E in H. apply (f_equal (@length _)) in H. rewrite app_length in H. unfold slashes in H. cbn [repeat length] in H. lia.
      * split; [intros [[-> _] _]; split; [eauto|exact H]|]. intros [[z Z] _]. injection Z as -> ->. split; [split; [reflexivity|]|]; intros Y; apply (f_equal (@rev _)) in Y; revert Y; unfold slashes; rewrite app_comm_cons, rev_app_distr.
        1,2: replace (S n) with (n + 1) by lia; rewrite repeat_app, rev_app_distr; cbn; discriminate.
  - unfold eval_hidden, hidden_name. rewrite E. cbn. split; [discriminate|]. intros [[r X] _]. discriminate.
Qed.
Lemma hidden_refuted : exists f d b, dir_base (path f) d b (nameoff f) /\ b = [dot] /\ eval_hidden f = true.
Proof.
  exists (mkFile [dot; slash] 0 0 OTHER None []), [dot], [dot]. split; [|split; reflexivity]. change [dot; slash] with ([dot] ++ slashes 1). apply db_name. split; [discriminate|]. cbn. intuition discriminate.
Qed.

(** ** A decision procedure *)
Fixpoint matchb (same : N -> N -> bool) (t : list token) : list N -> bool :=
  match t with
  | [] => fun s => match s with [] => true | _ => false end
  | Lit c :: t => fun s => match s with d :: s => same c d && matchb same t s | [] => false end
  | One :: t => fun s => match s with _ :: s => matchb same t s | [] => false end
  | OneOf f :: t => fun s => match s with d :: s => f d && matchb same t s | [] => false end
  | Star :: t => fix star s := matchb same t s || match s with _ :: s => star s | [] => false end
  | Unfinished :: _ => fun _ => false
  end.
Lemma matchb_ok same t : forall s, matchb same t s = true <-> matches same t s.
Proof.
  induction t as [|a t IH]; intros s; [destruct s; cbn; split; intros H; try constructor; try discriminate; inversion H|]. destruct a.
  - destruct s as [|d s]; cbn [matchb]; [split; intros H; [discriminate|inversion H]|]. rewrite andb_true_iff, IH. split; [intros [H1 H2]; constructor; assumption|intros H; inversion H; auto].
  - destruct s as [|d s]; cbn [matchb]; [split; intros H; [discriminate|inversion H]|]. rewrite IH. split; [intros H; constructor; exact H|intros H; inversion H; auto].
  - induction s as [|d s IHs]; cbn [matchb]; rewrite orb_true_iff, IH.
    + split; [intros [H|H]; [apply m_none, H|discriminate]|]. intros H; inversion H; auto.
    + cbn [matchb] in IHs. rewrite IHs. split; [intros [H|H]; [apply m_none, H|apply m_more, H]|]. intros H; inversion H; auto.
  - destruct s as [|d s]; cbn [matchb]; [split; intros H; [discriminate|inversion H]|]. rewrite andb_true_iff, IH. split; [intros [H1 H2]; constructor; assumption|intros H; inversion H; auto].
  - cbn. split; intros H; [discriminate|inversion H].
Qed.
Definition posix (l : locale) (p s : list byte) (fold : bool) : bool := matchb (same l fold) (pattern_of l fold p) (decode l s).
Lemma posix_ok l : is_fnmatch l (posix l).
Proof. intros p s fold _. apply matchb_ok. Qed.

(** ** UTF-8 *)
Lemma list_ind2 {A} (P : list A -> Prop) : P [] -> (forall a, P [a]) -> (forall a b l, P l -> P (b :: l) -> P (a :: b :: l)) -> forall l, P l.
Proof.
  intros H0 H1 H2. assert (G : forall l, P l /\ forall a, P (a :: l)).
  { induction l as [|b l [IH1 IH2]]; [auto|]. split; [apply IH2|]. intros a. apply H2; auto. }
  intros l. apply G.
Qed.
Lemma one_ascii c : ascii c -> one c = Byte.to_N c.
Proof. unfold ascii, one. intros H. destruct (N.ltb_spec (Byte.to_N c) 128); [reflexivity|lia]. Qed.
Lemma cont_ascii c : ascii c -> cont c = false.
Proof. unfold ascii, cont. intros H. apply andb_false_iff. left. apply N.leb_gt. exact H. Qed.
Lemma lead_ascii c : ascii c -> lead c = false.
Proof. unfold ascii, lead. intros H. apply andb_false_iff. left. apply N.leb_gt. lia. Qed.
Lemma utf8_head c b : ascii c -> decode_utf8 (c :: b) = Byte.to_N c :: decode_utf8 b.
Proof. intros A. cbn [decode_utf8]. rewrite (one_ascii c A), (lead_ascii c A). destruct b; reflexivity. Qed.
Lemma utf8_ascii a c b : ascii c -> decode_utf8 (a ++ c :: b) = decode_utf8 a ++ Byte.to_N c :: decode_utf8 b.
Proof.
  intros A. induction a as [|x|x y a IH1 IH2] using list_ind2.
  - apply utf8_head, A.
  - cbn [app]. change (decode_utf8 (x :: c :: b)) with (if lead x && cont c then ((Byte.to_N x - 192) * 64 + (Byte.to_N c - 128))%N :: decode_utf8 b else one x :: decode_utf8 (c :: b)).
    rewrite (cont_ascii c A), andb_false_r, (utf8_head c b A). reflexivity.
  - cbn [app] in *. change (decode_utf8 (x :: y :: a ++ c :: b)) with (if lead x && cont y then ((Byte.to_N x - 192) * 64 + (Byte.to_N y - 128))%N :: decode_utf8 (a ++ c :: b) else one x :: decode_utf8 (y :: a ++ c :: b)).
    change (decode_utf8 (x :: y :: a)) with (if lead x && cont y then ((Byte.to_N x - 192) * 64 + (Byte.to_N y - 128))%N :: decode_utf8 a else one x :: decode_utf8 (y :: a)).
    rewrite IH1, IH2. destruct (lead x && cont y); reflexivity.
Qed.
Lemma one_other a : ~ ascii a -> (128 <= one a)%N.
Proof. unfold ascii, one. intros H. destruct (N.ltb_spec (Byte.to_N a) 128); [contradiction|]. apply N.le_trans with 65536%N; [discriminate|apply N.le_add_r]. Qed.
Lemma two x y : lead x = true -> cont y = true -> (128 <= (Byte.to_N x - 192) * 64 + (Byte.to_N y - 128) < 2048)%N.
Proof. unfold lead, cont. rewrite !andb_true_iff, !N.leb_le. lia. Qed.
Lemma utf8_other a : Forall (fun c => ~ ascii c) a -> Forall (fun c => (128 <= c)%N) (decode_utf8 a).
Proof.
  induction a as [|x|x y a IH1 IH2] using list_ind2; intros F.
  - constructor.
  - inversion F; subst. repeat constructor. apply one_other; assumption.
  - change (decode_utf8 (x :: y :: a)) with (if lead x && cont y then ((Byte.to_N x - 192) * 64 + (Byte.to_N y - 128))%N :: decode_utf8 a else one x :: decode_utf8 (y :: a)).
    inversion F; subst. inversion H2; subst. destruct (lead x) eqn:El, (cont y) eqn:Ec; cbn [andb]; constructor; auto using one_other. apply two; assumption.
Qed.
Definition byte_of (n : N) : byte := match Byte.of_N n with Some b => b | None => x00 end.
Definition enc (n : N) : list byte :=
  if (n <? 128)%N then [byte_of n] else if (n <? 2048)%N then [byte_of (192 + n / 64)%N; byte_of (128 + n mod 64)%N] else [byte_of (n - 65536)%N].
Lemma byte_of_to a : byte_of (Byte.to_N a) = a.
Proof. unfold byte_of. rewrite Byte.of_to_N. reflexivity. Qed.
Lemma enc_one a : enc (one a) = [a].
Proof.
  unfold one. pose proof (Byte.to_N_bounded a) as B. destruct (N.ltb_spec (Byte.to_N a) 128) as [H|H]; unfold enc.
  - destruct (N.ltb_spec (Byte.to_N a) 128); [|lia]. rewrite byte_of_to. reflexivity.
  - destruct (N.ltb_spec (65536 + Byte.to_N a) 128); [lia|]. destruct (N.ltb_spec (65536 + Byte.to_N a) 2048); [lia|]. replace (65536 + Byte.to_N a - 65536)%N with (Byte.to_N a) by lia. rewrite byte_of_to. reflexivity.
Qed.
Lemma enc_two x y : lead x = true -> cont y = true -> enc ((Byte.to_N x - 192) * 64 + (Byte.to_N y - 128)) = [x; y].
Proof.
  intros L C. pose proof (two x y L C) as T. unfold lead, cont in *. rewrite andb_true_iff, !N.leb_le in L, C. unfold enc. set (n := ((Byte.to_N x - 192) * 64 + (Byte.to_N y - 128))%N) in *.
  destruct (N.ltb_spec n 128); [lia|]. destruct (N.ltb_spec n 2048); [|lia].
  assert (D : (n / 64 = Byte.to_N x - 192)%N) by (symmetry; apply (N.div_unique n 64 _ (Byte.to_N y - 128)); unfold n; lia).
  assert (M : (n mod 64 = Byte.to_N y - 128)%N) by (symmetry; apply (N.mod_unique n 64 (Byte.to_N x - 192)); unfold n; lia).
  rewrite D, M. replace (192 + (Byte.to_N x - 192))%N with (Byte.to_N x) by lia. replace (128 + (Byte.to_N y - 128))%N with (Byte.to_N y) by lia. rewrite !byte_of_to. reflexivity.
Qed.
Lemma utf8_enc a : concat (map enc (decode_utf8 a)) = a.
Proof.
  induction a as [|x|x y a IH1 IH2] using list_ind2.
  - reflexivity.
  - cbn [decode_utf8 map concat]. rewrite enc_one. reflexivity.
  - change (decode_utf8 (x :: y :: a)) with (if lead x && cont y then ((Byte.to_N x - 192) * 64 + (Byte.to_N y - 128))%N :: decode_utf8 a else one x :: decode_utf8 (y :: a)).
    destruct (lead x) eqn:El, (cont y) eqn:Ec; cbn [andb]; cbn [map concat]; rewrite ?(enc_two x y El Ec), ?enc_one, ?IH1, ?IH2; reflexivity.
Qed.
Lemma up_to_ok c p : forall a b, up_to c p = Some (a, b) -> p = a ++ c :: b.
Proof.
  induction p as [|d r IH]; intros a b; cbn [up_to]; [discriminate|]. destruct (N.eqb_spec d c) as [->|]; [intros E; injection E as <- <-; reflexivity|].
  destruct (up_to c r) as [[a' b']|]; [|discriminate]. intros E. injection E as <- <-. cbn. f_equal. auto.
Qed.
Lemma bracket_ok p f r : simple_bracket p = Some (f, r) -> exists q, p = q ++ 93%N :: r.
Proof.
  destruct p as [|c p]; [discriminate|]. cbn [simple_bracket]. destruct (up_to 93 p) as [[a b]|] eqn:E; [|discriminate]. intros X. injection X as _ <-. apply up_to_ok in E. subst p. exists (c :: a). reflexivity.
Qed.
Lemma utf8_transparent : transparent utf8.
Proof.
  constructor.
  - reflexivity.
  - exact utf8_ascii.
  - exact utf8_other.
  - intros a b E. rewrite <- (utf8_enc a), <- (utf8_enc b). cbn [decode utf8] in E. rewrite E. reflexivity.
  - intros fold. exact bracket_ok.
  - intros c H. cbn [lower utf8]. unfold lower_latin. destruct (N.leb_spec 192 c); [lia|]. cbn [andb]. rewrite orb_false_r. reflexivity.
Qed.

(** ** Refutations *)
Lemma iname_refuted : transparent utf8 /\ forall fnmatch, is_fnmatch utf8 fnmatch ->
  exists p f d b, dir_base (path f) d b (nameoff f) /\ language utf8 true p b /\ eval_name fnmatch (parse_fnmatch p true) f = false.
Proof.
  split; [apply utf8_transparent|]. intros fnmatch _. exists [xc3; xa9], (mkFile [xc3; x89] 0 0 OTHER None []), [dot], [xc3; x89]. split; [|split].
  - change [xc3; x89] with ([xc3; x89] ++ slashes 0) at 1. apply db_name. split; [discriminate|]. cbn. intuition discriminate.
  - apply matchb_ok. vm_compute. reflexivity.
  - vm_compute. reflexivity.
Qed.
Lemma big5_refuted : forall fnmatch, is_fnmatch big5 fnmatch ->
  exists p f, language big5 false p (path f) /\ path f = p /\ eval_path fnmatch (parse_fnmatch p false) f = false.
Proof.
  intros fnmatch _. exists [xb3; x5c], (mkFile [xb3; x5c] 0 0 OTHER None []). split; [apply matchb_ok; vm_compute; reflexivity|]. split; reflexivity.
Qed.

(** ** As stated *)
Theorem name_exact : forall l, transparent l -> forall fnmatch, is_fnmatch l fnmatch -> forall p f d b,
  dir_base (path f) d b (nameoff f) -> (depth f <> 0 -> skipn (nameoff f) (path f) = b) ->
  eval_name fnmatch (parse_fnmatch p false) f = true <-> language l false p b.
Proof. intros l T fn F p f d b D E. apply (name_test l T fn F p false f d b D E). left. reflexivity. Qed.
Theorem path_exact : forall l, transparent l -> forall fnmatch, is_fnmatch l fnmatch -> forall p f,
  eval_path fnmatch (parse_fnmatch p false) f = true <-> language l false p (path f).
Proof. intros l T fn F p f. apply (path_test l T fn F p false f). left. reflexivity. Qed.
Theorem lname_exact : forall l, transparent l -> forall fnmatch, is_fnmatch l fnmatch -> forall p f fuel, length (target f) < fuel ->
  exists r, eval_lname fnmatch fuel (parse_fnmatch p false) f = Some r /\ (r = true <-> ftype f = LNK /\ language l false p (target f)).
Proof. intros l T fn F p f fuel L. apply (lname_test l T fn F p false f fuel L). left. reflexivity. Qed.
Theorem iname_some : forall l, transparent l -> forall fnmatch, is_fnmatch l fnmatch -> forall p f d b,
  dir_base (path f) d b (nameoff f) -> (depth f <> 0 -> skipn (nameoff f) (path f) = b) -> special p \/ Forall ascii p /\ Forall ascii b ->
  eval_name fnmatch (parse_fnmatch p true) f = true <-> language l true p b.
Proof. intros l T fn F p f d b D E H. apply (name_test l T fn F p true f d b D E). right. exact H. Qed.
Theorem ipath_some : forall l, transparent l -> forall fnmatch, is_fnmatch l fnmatch -> forall p f,
  special p \/ Forall ascii p /\ Forall ascii (path f) ->
  eval_path fnmatch (parse_fnmatch p true) f = true <-> language l true p (path f).
Proof. intros l T fn F p f H. apply (path_test l T fn F p true f). right. exact H. Qed.
Theorem ilname_some : forall l, transparent l -> forall fnmatch, is_fnmatch l fnmatch -> forall p f fuel, length (target f) < fuel ->
  special p \/ Forall ascii p /\ Forall ascii (target f) ->
  exists r, eval_lname fnmatch fuel (parse_fnmatch p true) f = Some r /\ (r = true <-> ftype f = LNK /\ language l true p (target f)).
Proof. intros l T fn F p f fuel L H. apply (lname_test l T fn F p true f fuel L). right. exact H. Qed.
