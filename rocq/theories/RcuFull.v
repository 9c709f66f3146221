(** * Every hook that is there runs. *)
From Coq Require Import List Arith Bool Lia.
From Verif Require Import RcuModel RcuSpec RcuProofs RcuRuns.
Import ListNotations.

(** No hook that is there is passed over by a pointer that somebody may follow. *)
Definition skips_none (v : val) (n : nat) : Prop := match v with NODE m => m <= n | RCU_NULL => False | NULL => True end.
Record full (st : state) : Prop := {
  f_gap : forall h n, good st h -> registered st n -> fst h < n -> skips_none (pt st h) n;
  f_self : forall x n, alive st x = true -> 1 <= x -> registered st n -> ~ (self st x < n < x);
  f_tail : match kont_of (w st) with
    | None => forall d, alive st d = true -> d <= tail st
    | Some (KAppend n) => forall d, alive st d = true -> d <> n -> d <= self st n
    | Some (KRemove x nx) | Some (KDestroy x nx) => (forall d, alive st d = true -> d <> x -> d <= tail st) /\ (nx = RCU_NULL -> forall d, alive st d = true -> d = x \/ d = 0)
    end }.

Lemma init_full n : full (init n).
Proof.
  constructor.
  - intros h m _ (M1 & A & _). cbn in A. apply Nat.eqb_eq in A. lia.
  - intros x m A X. cbn in A. apply Nat.eqb_eq in A. lia.
  - cbn. intros d A. apply Nat.eqb_eq in A. lia.
Qed.

Lemma keeps_full st st' : keeps st st' -> full st -> full st'.
Proof.
  intros K F. pose proof K as (A & L & SF & T & FR & W & P).
  assert (RG : forall n, registered st' n -> registered st n) by (intros n; unfold registered, busy; rewrite L, W; exact (fun H => H)).
  constructor.
  - intros h n G R. rewrite P. apply (f_gap _ F); [|exact (RG n R)]. unfold good in *. rewrite (keeps_own _ _ K), (keeps_waits _ _ K), L in G. exact G.
  - intros x n. rewrite L, SF. intros X1 X2 R. exact (f_self _ F x n X1 X2 (RG n R)).
  - rewrite W, L, T, SF. exact (f_tail _ F).
Qed.

(** ** Steps of the writer *)
Lemma write_registered cfg st st' n : write_step cfg st = Next st' -> registered st' n -> registered st n \/ exists c s, w st = WTake c s (KAppend n).
Proof.
  intros H (N1 & A & B). unfold registered, busy in *. unfold write_step in H. cbv zeta in H.
  destruct (w st) as [|a v k|a i v k|a i v k|a s k|a s k|a s k|x nx|x nx|x nx] eqn:W; steps H; cbn [w set_w kont_of] in B; cbn in A |- *; try (left; auto; fail).
  all: try (match goal with |- context [WTake _ _ (KAppend ?m) = WTake _ _ _] => destruct (Nat.eq_dec m n) as [-> | N]; [right; eauto|left; auto] end).
  left. unfold upd in A. destruct (Nat.eqb_spec n x); [discriminate|]. split; [exact N1|]. split; [exact A|congruence].
Qed.

Lemma registered_write cfg st st' n : write_step cfg st = Next st' -> registered st n -> registered st' n.
Proof.
  intros H (N1 & A & B). unfold registered, busy in *. unfold write_step in H. cbv zeta in H.
  destruct (w st) as [|a v k|a i v k|a i v k|a s k|a s k|a s k|x nx|x nx|x nx] eqn:W; steps H; cbn [w set_w kont_of] in *; cbn in A |- *; try (split; [exact N1|split; [exact A|exact B]]; fail).
  all: try (split; [exact N1|split; [exact A|exact (fun F => F)]]; fail).
  unfold upd. destruct (Nat.eqb_spec n x); [congruence|]. auto.
Qed.

Lemma write_good cfg st st' : inv cfg st -> write_step cfg st = Next st' -> forall h, good st' h ->
  (good st h /\ pt st' h = pt st h) \/ exists c i v k, w st = WRefs c i v k /\ h = (c, negb i) /\ pt st' h = v.
Proof.
  intros V H h (A & O). pose proof (i_str _ _ V) as S. pose proof (s_w _ S) as WI. unfold winv in WI. unfold write_step in H. cbv zeta in H.
  destruct (w st) as [|a v k|a i v k|a i v k|a s k|a s k|a s k|x nx|x nx|x nx] eqn:W.
  - discriminate.
  - steps H. left. assert (Q : own st h = true) by (destruct O as [O | O]; [unfold own in *; rewrite W; exact O|discriminate]).
    split; [split; [exact A|left; exact Q]|]. change (pt (set_w ?p ?x) h) with (pt x h). rewrite pt_put, same_neq; [reflexivity|].
    intros ->. unfold own in Q. rewrite W in Q. cbn [fst snd] in Q. destruct (active st a); discriminate.
  - destruct WI as (KI & -> & AC & PV). steps H. set (st' := set_w _ _) in *.
    assert (PT : forall h, pt st' h = pt st h).
    { intros h'. change (pt st' h') with (pt (put_arc (a, negb i) (mkArc 1 (ptr (arcs st a (negb i))) (sem (arcs st a (negb i)))) st) h'). rewrite pt_put. destruct (same_spec h' (a, negb i)) as [-> |]; reflexivity. }
    destruct (same_spec h (a, negb i)) as [-> | N].
    + right. exists a, i, (kval k), k. split; [reflexivity|]. split; [reflexivity|]. rewrite PT. exact PV.
    + left. split; [|apply PT]. split; [exact A|]. left. destruct O as [O | O]; [|discriminate]. unfold own in *. rewrite W. cbn [w set_w st'] in O. apply orb_true_iff in O as [O | O]; [|exact O].
      apply Nat.eqb_eq in O. destruct h as (d & b). cbn [fst snd] in *. subst d. rewrite AC. destruct b, i; try reflexivity; destruct (N eq_refl).
  - destruct WI as (KI & -> & AC & PV). steps H. left. split; [|reflexivity]. split; [exact A|]. left. destruct O as [O | O]; [|discriminate].
    unfold own in *. rewrite W. cbn [w set_w] in O. destruct (Nat.eqb_spec (fst h) a) as [E | N]; [reflexivity|]. cbn [active set_w set_active] in O. rewrite (upd_neq _ _ _ _ N) in O.
    destruct k; exact O.
  - assert (SO : own st (a, s) = true).
    { unfold own. rewrite W. cbn [fst snd]. destruct k as [n|x nx|x nx]; [rewrite Nat.eqb_refl; reflexivity|rewrite Nat.eqb_refl; reflexivity|]. destruct WI as (-> & -> & _). apply Bool.eqb_reflx. }
    assert (X : forall n0 w', (w' = WTake a s k \/ w' = WWait a s k) -> st' = set_w w' (put_arc (a, s) (mkArc n0 (ptr (arcs st a s)) (sem (arcs st a s))) st) -> good st h /\ pt st' h = pt st h).
    { intros n0 w' WW ->. split.
      - split; [exact A|]. left. destruct O as [O | O].
        + unfold own in *. rewrite W. cbn [w set_w active put_arc set_arcs] in O. destruct WW as [-> | ->]; (destruct k as [n|x nx|x nx]; [rewrite O; apply orb_true_r|rewrite O; apply orb_true_r|apply andb_true_iff in O; apply O]).
        + destruct WW as [-> | ->]; [discriminate|]. unfold waits in O. cbn [w set_w] in O. destruct (same_spec (a, s) h) as [<- |]; [exact SO|discriminate].
      - change (pt (set_w ?p ?x) h) with (pt x h). rewrite pt_put. destruct (same_spec h (a, s)) as [-> |]; reflexivity. }
    destruct (alive st a); [|discriminate]. destruct (refs (arcs st a s)) as [|[|m]]; [discriminate| |]; injection H as H; left; (eapply X; [|symmetry; exact H]); auto.
  - assert (X : forall n0, st' = set_w (WTake a s k) (put_arc (a, s) (mkArc (refs (arcs st a s)) (ptr (arcs st a s)) n0) st) \/ st' = set_w (WTake a s k) st -> good st h /\ pt st' h = pt st h).
    { intros n0 Y. assert (A' : alive st (fst h) = true) by (destruct Y as [Y | Y]; rewrite Y in A; exact A). split.
      - split; [exact A'|]. left. destruct Y as [Y | Y]; rewrite Y in O; (destruct O as [O | O]; [unfold own in *; rewrite W; exact O|discriminate]).
      - destruct Y as [-> | ->]; [|reflexivity]. change (pt (set_w ?p ?x) h) with (pt x h). rewrite pt_put. destruct (same_spec h (a, s)) as [-> |]; reflexivity. }
    left. destruct (alive st a); [|discriminate]. destruct cfg.
    + destruct (sem (arcs st a s)) as [|m]; [discriminate|]. destruct (refs (arcs st a s) =? 0) eqn:Z; [|discriminate]. injection H as H. apply (X m). left. symmetry. exact H.
    + destruct (refs (arcs st a s) =? 0); [|discriminate]. injection H as H. apply (X 0). right. symmetry. exact H.
    + destruct (refs (arcs st a s) =? 0); [|discriminate]. injection H as H. apply (X 0). right. symmetry. exact H.
  - assert (OI : own st (a, s) = false).
    { unfold own. rewrite W. cbn [fst snd]. destruct k as [n|x nx|x nx]; [destruct WI as (_ & -> & _); destruct s; reflexivity|destruct WI as (_ & -> & _); destruct s; reflexivity|].
      rewrite Nat.eqb_refl. reflexivity. }
    set (w' := match k with KAppend _ => WIdle | KRemove x nx => WFix x nx | KDestroy x nx => WDestroy x nx end) in *.
    assert (H' : st' = set_w w' (put_arc (a, s) (mkArc (refs (arcs st a s)) NULL (sem (arcs st a s))) st)) by (steps H; reflexivity).
    assert (NW : waits st' h = false) by (rewrite H'; unfold waits; cbn [w set_w]; unfold w'; destruct k; reflexivity).
    assert (Q : own st h = true).
    { destruct O as [O | O]; [|congruence]. rewrite H' in O. unfold own in *. rewrite W. cbn [w set_w active put_arc set_arcs] in O. unfold w' in O. destruct k as [n|x nx|x nx]; try exact O.
      destruct WI as (-> & _). exact O. }
    left. split; [split; [rewrite H' in A; exact A|left; exact Q]|]. rewrite H'. change (pt (set_w ?p ?x) h) with (pt x h). rewrite pt_put, same_neq; [reflexivity|]. intros ->. congruence.
  - left. steps H; (split; [|reflexivity]; split; [exact A|]; left; destruct O as [O | O]; [unfold own in *; rewrite W; exact O|discriminate]).
  - left. steps H. split; [|reflexivity]. split; [exact A|]. left. destruct O as [O | O]; [unfold own in *; rewrite W; exact O|discriminate].
  - left. steps H. split; [|reflexivity]. cbn [alive set_w set_alive] in A. unfold upd in A. destruct (Nat.eqb_spec (fst h) x) as [E | N]; [discriminate|]. split; [exact A|].
    left. destruct O as [O | O]; [|discriminate]. unfold own in *. rewrite W. cbn [w set_w active set_alive] in O. rewrite O. destruct (Nat.eqb_spec (fst h) x); [contradiction|reflexivity].
Qed.

Lemma write_alive cfg st st' : write_step cfg st = Next st' -> forall d, alive st' d = true -> alive st d = true /\ (forall x nx, w st = WFree x nx -> d <> x).
Proof.
  intros H d. unfold write_step in H. cbv zeta in H.
  destruct (w st) as [|a v k|a i v k|a i v k|a s k|a s k|a s k|x nx|x nx|x nx] eqn:W; steps H; cbn; intros A; try (split; [exact A|discriminate]).
  unfold upd in A. destruct (Nat.eqb_spec d x) as [|N]; [discriminate|]. split; [exact A|]. intros x' nx' E. injection E as <- _. exact N.
Qed.
Lemma write_self cfg st st' : write_step cfg st = Next st' -> self st' = self st \/ exists x p, w st = WFix x (NODE p) /\ self st' = upd (self st) p (self st x).
Proof.
  intros H. unfold write_step in H. cbv zeta in H.
  destruct (w st) as [|a v k|a i v k|a i v k|a s k|a s k|a s k|x nx|x nx|x nx] eqn:W; steps H; try (left; reflexivity). right. eauto.
Qed.

Lemma write_full cfg st st' : inv cfg st -> write_step cfg st = Next st' -> full st -> full st'.
Proof.
  intros V H F. pose proof (i_str _ _ V) as S. pose proof (s_w _ S) as WI. pose proof (write_alive _ _ _ H) as AL. constructor.
  - intros h n G R L. destruct (write_good _ _ _ V H h G) as [(G0 & ->) | (c & i & v & k & W & -> & ->)].
    + destruct (write_registered _ _ _ _ H R) as [R0 | (c & s & W)]; [exact (f_gap _ F h n G0 R0 L)|].
      unfold winv in WI. rewrite W in WI. destruct WI as ((N1 & A & SC & TN & FR & _) & AC & PV & _).
      destruct (good_ptr _ _ S G0) as (_ & GN). destruct (pt st h) as [| |m] eqn:PT; cbn; [exact I| |].
      * destruct G0 as (GA & GO). assert (O : own st h = true) by (destruct GO as [GO | GO]; [exact GO|]; destruct (waits_w _ _ GO) as (k & Q); congruence).
        assert (HA : h = act st (fst h)).
        { unfold own in O. rewrite W in O. destruct h as (d & b). unfold act. cbn [fst snd] in *. apply Bool.eqb_prop in O. congruence. }
        pose proof (f_tail _ F) as T. rewrite W in T. cbn [kont_of] in T. specialize (T (fst h) GA ltac:(lia)).
        destruct (Nat.eq_dec (fst h) c) as [E | NE].
        -- rewrite HA, E in PT. unfold act in PT. rewrite AC, PV in PT. discriminate.
        -- assert (RC : registered st c).
           { split; [lia|]. split; [rewrite <- SC; apply (s_self _ S n A N1)|]. unfold busy. rewrite W. cbn [kont_of]. pose proof (s_self _ S n A N1). lia. }
           assert (LC : fst h < c) by lia. pose proof (f_gap _ F h c (conj GA (or_introl O)) RC LC) as Q. rewrite PT in Q. exact Q.
      * destruct (GN m eq_refl) as (AM & _). pose proof (s_fresh _ S m AM). lia.
    + destruct (write_registered _ _ _ _ H R) as [R0 | (c' & s & W')]; [|congruence].
      unfold winv in WI. rewrite W in WI. destruct WI as (KI & -> & AC & PV). cbn [fst] in L. pose proof R0 as (N1 & A & B). unfold busy in B. rewrite W in B. cbn [kont_of] in B.
      pose proof (f_tail _ F) as T. rewrite W in T. cbn [kont_of] in T. destruct k as [m|x nx|]; [| |destruct KI]; cbn [kval].
      * destruct KI as (_ & _ & SC & _). specialize (T n A ltac:(congruence)). lia.
      * destruct KI as (X1 & X2 & X3 & X4 & _). pose proof (f_self _ F x n X2 X1 R0) as Q. rewrite <- X4. apply (f_gap _ F); [|exact R0|].
        -- split; [exact X2|]. left. unfold own, act. rewrite W. apply Bool.eqb_reflx.
        -- cbn [act fst]. assert (n <> x) by congruence. lia.
  - intros x n A X1 R (Q1 & Q2). destruct (AL x A) as (A0 & _).
    destruct (write_registered _ _ _ _ H R) as [R0 | (c & s & W)].
    + destruct (write_self _ _ _ H) as [E | (x0 & p & W & E)]; rewrite E in Q1; [exact (f_self _ F x n A0 X1 R0 (conj Q1 Q2))|].
      destruct (Nat.eq_dec x p) as [-> | N]; [|rewrite (upd_neq _ _ _ _ N) in Q1; exact (f_self _ F x n A0 X1 R0 (conj Q1 Q2))].
      rewrite upd_eq in Q1. unfold winv in WI. rewrite W in WI. destruct WI as ((Y1 & Y2 & _ & Y4 & Y5) & _).
      pose proof (f_self _ F x0 n Y2 Y1 R0). pose proof (f_self _ F p n A0 X1 R0). destruct R0 as (_ & _ & B). unfold busy in B. rewrite W in B. cbn [kont_of] in B. rewrite Y5 in *. lia.
    + unfold winv in WI. rewrite W in WI. destruct WI as ((N1 & _ & _ & _ & FR & _) & _). pose proof (s_fresh _ S x A0). lia.
  - pose proof (f_tail _ F) as T. unfold winv in WI. unfold write_step in H. cbv zeta in H.
    destruct (w st) as [|a v k|a i v k|a i v k|a s k|a s k|a s k|x nx|x nx|x nx] eqn:W; cbn [kont_of] in T.
    + discriminate.
    + steps H. exact T.
    + steps H. exact T.
    + steps H. exact T.
    + steps H; exact T.
    + steps H; exact T.
    + assert (H' : st' = set_w (match k with KAppend _ => WIdle | KRemove x nx => WFix x nx | KDestroy x nx => WDestroy x nx end) (put_arc (a, s) (mkArc (refs (arcs st a s)) NULL (sem (arcs st a s))) st)) by (steps H; reflexivity).
      rewrite H'. destruct k as [n|x nx|x nx]; [|exact T|exact T]. destruct WI as ((_ & _ & _ & TN & FR & _) & _). cbn. intros d A. pose proof (s_fresh _ S d A). lia.
    + destruct T as (T1 & T2). destruct WI as ((K1 & K2 & _ & K4 & _) & _).
      assert (NN : nx <> NULL) by (rewrite <- K4; apply (s_ptr _ S (act st x) K2); unfold own, act; rewrite W; apply Bool.eqb_reflx). steps H; cbn.
      * contradiction.
      * split; [|exact T2]. intros d A N. destruct (T2 eq_refl d A); [contradiction|lia].
      * split; [exact T1|discriminate].
    + steps H. exact T.
    + steps H. cbn. intros d A. destruct (AL d A) as (A0 & N). apply T; [exact A0|exact (N x nx eq_refl)].
Qed.

Lemma append_full cfg os st : inv cfg st -> w st = WIdle -> full st -> full (start_append os st).
Proof.
  intros V W F. pose proof (i_str _ _ V) as S. set (n := fresh st). set (st' := start_append os st).
  assert (FN : alive st n = false) by (destruct (alive st n) eqn:A; [pose proof (s_fresh _ S n A); unfold n in *; lia|reflexivity]).
  assert (LV : forall d, d <> n -> alive st' d = alive st d) by (intros d N; apply upd_neq; exact N).
  assert (RG : forall m, registered st' m -> registered st m /\ m < n).
  { intros m (M1 & A & B). unfold busy in B. cbn in B. fold n in B. rewrite LV in A by congruence. split; [split; [exact M1|split; [exact A|unfold busy; rewrite W; auto]]|].
    pose proof (s_fresh _ S m A). exact H. }
  pose proof (f_tail _ F) as T. rewrite W in T. cbn [kont_of] in T. constructor.
  - intros h m (A & O) R L. destruct (RG m R) as (R0 & LM). destruct (Nat.eq_dec (fst h) n) as [E | N]; [lia|].
    assert (PT : pt st' h = pt st h).
    { unfold pt, arc_at, st'. cbn [arcs start_append]. unfold upd_arc. cbn [fst snd]. fold n. destruct (Nat.eqb_spec (fst h) n); [contradiction|]. reflexivity. }
    rewrite PT. apply (f_gap _ F); [|exact R0|exact L]. rewrite (LV _ N) in A. split; [exact A|]. left. destruct O as [O | O]; [|discriminate].
    unfold own in *. rewrite W. cbn [w st' start_append active] in O. fold n in O. rewrite (upd_neq _ _ _ _ N) in O. exact O.
  - intros x m A X1 R (Q1 & Q2). destruct (RG m R) as (R0 & LM). destruct (Nat.eq_dec x n) as [-> | N].
    + cbn [self st' start_append] in Q1. fold n in Q1. rewrite upd_eq in Q1. destruct R0 as (_ & A0 & _). specialize (T m A0). lia.
    + rewrite (LV x N) in A. cbn [self st' start_append] in Q1. fold n in Q1. rewrite (upd_neq _ _ _ _ N) in Q1. exact (f_self _ F x m A X1 R0 (conj Q1 Q2)).
  - cbn. fold n. intros d A N. rewrite upd_eq. rewrite (upd_neq _ _ _ _ N) in A. exact (T d A).
Qed.

Lemma remove_full cfg st n st' : inv cfg st -> w st = WIdle -> orderly st (Remove n) -> start_remove n st = Next st' -> full st -> full st'.
Proof.
  intros V W ((N1 & A & B) & OD) H F. pose proof (i_str _ _ V) as S.
  assert (H' : st' = set_w (WLoad (self st n) (pt st (act st n)) (KRemove n (pt st (act st n)))) st).
  { unfold start_remove in H. rewrite A in H. change (ptr (arcs st n (active st n))) with (pt st (act st n)) in H. destruct (pt st (act st n)); [discriminate| |]; injection H as <-; reflexivity. }
  assert (RG : forall m, registered st' m -> registered st m).
  { intros m (M1 & X & _). rewrite H' in X. split; [exact M1|]. split; [exact X|]. unfold busy. rewrite W. auto. }
  assert (OA : own st (act st n) = true) by (unfold own, act; rewrite W; apply Bool.eqb_reflx).
  pose proof (f_tail _ F) as T. rewrite W in T. cbn [kont_of] in T. constructor.
  - intros h m (X & O) R L. specialize (RG m R). rewrite H' in X, O |- *. change (pt (set_w ?p ?x) h) with (pt x h). apply (f_gap _ F); [|exact RG|exact L]. split; [exact X|]. left.
    destruct O as [O | O]; [|discriminate]. unfold own in *. rewrite W. exact O.
  - intros x m X X1 R. rewrite H' in X |- *. exact (f_self _ F x m X X1 (RG m R)).
  - rewrite H'. cbn [w set_w kont_of]. split; [intros d X _; exact (T d X)|]. intros E d X. destruct OD as [(m & LM & RM) | OD].
    + pose proof (f_gap _ F (act st n) m (conj A (or_introl OA)) RM LM) as Q. rewrite E in Q. destruct Q.
    + destruct d as [|d]; [right; reflexivity|left]. apply OD. split; [lia|]. split; [exact X|]. unfold busy. rewrite W. auto.
Qed.

Lemma step_full cfg e st st' : inv cfg st -> orderly st e -> step cfg e st = Next st' -> full st -> full st'.
Proof.
  intros V OD H F. unfold step in H. destruct e as [i|i| |os|n].
  - steps H. apply (keeps_full st); [apply keeps_refl_rs|exact F].
  - destruct (nth_error (rs st) i) as [r|]; [|discriminate]. exact (keeps_full _ _ (read_keeps _ _ _ _ _ H) F).
  - exact (write_full _ _ _ V H F).
  - destruct (w st) eqn:W; try discriminate. injection H as <-. exact (append_full cfg os st V W F).
  - destruct (w st) eqn:W; try discriminate. exact (remove_full cfg st n st' V W OD H F).
Qed.

Lemma runs_full cfg : cfg <> Spin -> forall st es st', runs_to cfg orderly st es st' -> inv cfg st /\ full st -> inv cfg st' /\ full st'.
Proof.
  intros NS st es st' R. induction R as [|st e st1 es st2 AL E R IH]; intros (V & F); [auto|]. apply IH.
  pose proof (step_ok cfg e st NS V (orderly_allowed _ _ AL)) as Q. rewrite E in Q. split; [exact Q|exact (step_full _ _ _ _ V AL E F)].
Qed.

(** ** A handler and a hook *)
Definition done (st : state) (r : reader) (n : nat) : Prop := In n (ran r) \/ (oneshot st n = true /\ In n (runs st)).
Definition covered (st : state) (r : reader) (n : nat) : Prop :=
  match pc r with
  | Load c _ | Get c _ _ | Ptr c _ _ | Run c _ => n <= c -> done st r n
  | At m _ | Put _ (AtN m _) | Post _ (AtN m _) => n < m -> done st r n
  | _ => done st r n
  end.
Definition track (i n : nat) (st : state) : Prop := registered st n /\ exists r, nth_error (rs st) i = Some r /\ covered st r n.

Lemma registered_step cfg e st st' n : inv cfg st -> step cfg e st = Next st' -> e <> Remove n -> registered st n -> registered st' n.
Proof.
  intros V H NE R. unfold step in H. destruct e as [i|i| |os|m].
  - steps H. exact R.
  - destruct (nth_error (rs st) i) as [r|]; [|discriminate]. destruct (read_keeps _ _ _ _ _ H) as (_ & L & _ & _ & _ & W & _). unfold registered, busy in *. rewrite L, W. exact R.
  - exact (registered_write _ _ _ _ H R).
  - destruct (w st); try discriminate. injection H as <-. destruct R as (N1 & A & B). pose proof (s_fresh _ (i_str _ _ V) n A) as L. split; [exact N1|]. split.
    + cbn. rewrite upd_neq by lia. exact A.
    + unfold busy. cbn. lia.
  - destruct (w st); try discriminate. destruct R as (N1 & A & B). unfold start_remove in H. steps H; (split; [exact N1|]; split; [exact A|]; unfold busy; cbn; congruence).
Qed.

Lemma done_step cfg e st st' r n : once_inv st -> step cfg e st = Next st' -> registered st n -> done st r n -> done st' r n.
Proof.
  intros O H (_ & A & _) [D | (D1 & D2)]; [left; exact D|right]. destruct (step_changes _ _ _ _ H) as (_ & _ & RN & OS & _).
  rewrite (OS n (o_fresh _ O n A)). split; [exact D1|]. destruct RN as [-> | (m & -> & _)]; [exact D2|right; exact D2].
Qed.
Lemma covered_mono st st' r n : (done st r n -> done st' r n) -> covered st r n -> covered st' r n.
Proof. intros H. unfold covered. destruct (pc r) as [| | | |? []|? []| |]; auto. Qed.

Lemma track_read cfg i n st st' r : inv cfg st -> full st -> once_inv st -> registered st n -> nth_error (rs st) i = Some r -> covered st r n -> read_step cfg i r st = Next st' ->
  exists r', nth_error (rs st') i = Some r' /\ covered st' r' n.
Proof.
  intros V F O R E C H. assert (D : done st r n -> done st' r n).
  { apply (done_step cfg (Read i)); [exact O| |exact R]. cbn [step]. rewrite E. exact H. }
  assert (RS : forall r', rs st' = set_nth i r' (rs st) -> covered st' r' n -> exists r', nth_error (rs st') i = Some r' /\ covered st' r' n) by (intros r' -> Q; exists r'; split; [exact (nth_set_same _ _ _ _ E)|exact Q]).
  assert (DN : forall p, done st' (mkReader p (ran r)) n = done st' r n) by reflexivity.
  unfold covered in C. unfold read_step in H. cbv zeta in H. destruct (pc r) as [|c o|c s o|c s o|h k|h k|m h|m h] eqn:P.
  - discriminate.
  - steps H. eapply RS; [reflexivity|]. unfold covered. cbn [pc]. rewrite DN. auto.
  - steps H; (eapply RS; [reflexivity|]; unfold covered; cbn [pc]; rewrite DN; auto).
  - destruct (held_good cfg st i r (c, s) V E) as (G & _). { rewrite P. cbn [holdc]. rewrite eqs_self. lia. }
    assert (Q : c < n -> skips_none (pt st (c, s)) n) by (intros L; exact (f_gap _ F (c, s) n G R L)). unfold pt, arc_at in Q. cbn [fst snd] in Q.
    destruct (alive st c); [|discriminate]. destruct (ptr (arcs st c s)) as [| |m] eqn:PT; injection H as <-; (eapply RS; [reflexivity|]; unfold covered; cbn [pc]).
    + rewrite DN. auto.
    + assert (DD : done st r n) by (destruct (Nat.lt_ge_cases c n) as [L | L]; [destruct (Q L)|auto]). destruct o; rewrite DN; auto.
    + assert (DD : n < m -> done st r n) by (intros L'; destruct (Nat.lt_ge_cases c n) as [L | L]; [specialize (Q L); cbn in Q; lia|auto]). destruct o; rewrite DN; auto.
  - assert (X : forall p, p = go k \/ p = Post h k -> covered st' (mkReader p (ran r)) n).
    { intros p [-> | ->]; unfold covered; cbn [pc]; destruct k; cbn [go]; rewrite DN; auto. }
    destruct (alive st (fst h)); [|discriminate]. injection H as <-. eapply RS; [reflexivity|]. apply X. destruct cfg; auto; destruct (refs (arc_at st h) =? 1); auto.
  - destruct (alive st (fst h)); [|discriminate]. injection H as <-. eapply (RS (mkReader (go k) (ran r))); [destruct cfg; reflexivity|]. unfold covered. cbn [pc]. rewrite DN.
    destruct k; cbn [go]; auto.
  - destruct (alive st m) eqn:A; [|discriminate]. destruct (oneshot st m && negb (armed st m)) eqn:OA; injection H as <-.
    + eapply RS; [reflexivity|]. unfold covered. cbn [pc]. rewrite DN. intros L. destruct (Nat.eq_dec n m) as [-> | N]; [|apply D, C; lia].
      apply andb_true_iff in OA as (O1 & O2). apply negb_true_iff in O2. right. split; [exact O1|]. destruct (o_fired _ O m) as [Q | Q]; [|congruence|exact Q].
      split; [apply R|exact (o_fresh _ O m A)].
    + eapply (RS (mkReader (Run m h) (m :: ran r))); [destruct (oneshot st m); reflexivity|]. unfold covered. cbn [pc]. intros L. destruct (Nat.eq_dec n m) as [-> | N]; [left; left; reflexivity|].
      destruct (D (C ltac:(lia))) as [Q | Q]; [left; right; exact Q|right; exact Q].
  - destruct (alive st m); [|discriminate]. injection H as <-. eapply RS; [reflexivity|]. unfold covered. cbn [pc]. rewrite DN. auto.
Qed.

Lemma track_step cfg e i n st st' : inv cfg st -> full st -> once_inv st -> step cfg e st = Next st' -> e <> Begin i -> e <> Remove n -> track i n st -> track i n st'.
Proof.
  intros V F O H NB NR (R & r & E & C). split; [exact (registered_step _ _ _ _ _ V H NR R)|].
  assert (MV : covered st' r n) by (revert C; apply covered_mono; exact (done_step _ _ _ _ r n O H R)).
  unfold step in H. destruct e as [j|j| |os|m].
  - exists r. split; [|exact MV]. steps H. cbn. rewrite nth_set_other; [exact E|congruence].
  - destruct (Nat.eq_dec j i) as [-> | N].
    + rewrite E in H. exact (track_read cfg i n st st' r V F O R E C H).
    + exists r. split; [|exact MV]. destruct (nth_error (rs st) j) as [q|] eqn:EJ; [|discriminate].
      assert (X : exists r', rs st' = set_nth j r' (rs st)).
      { unfold read_step in H. cbv zeta in H. clear - H. steps H; try (eexists; reflexivity). all: try (destruct cfg; eexists; reflexivity). }
      destruct X as (r' & ->). rewrite nth_set_other by exact N. exact E.
  - exists r. split; [|exact MV]. rewrite (write_rs _ _ _ H). exact E.
  - exists r. split; [|exact MV]. steps H. exact E.
  - exists r. split; [|exact MV]. unfold start_remove in H. steps H; exact E.
Qed.

Lemma track_runs cfg i n : cfg <> Spin -> forall st es st', runs_to cfg orderly st es st' -> inv cfg st -> full st -> once_inv st -> ~ In (Begin i) es -> ~ In (Remove n) es -> track i n st -> track i n st'.
Proof.
  intros NS st es st' R. induction R as [|st e st1 es st2 AL E R IH]; intros V F O NB NR T; [exact T|]. cbn [In] in NB, NR.
  pose proof (step_ok cfg e st NS V (orderly_allowed _ _ AL)) as Q. rewrite E in Q.
  apply IH; try tauto; [exact (step_full _ _ _ _ V AL E F)|exact (once_step _ _ _ _ E O)|].
  apply (track_step cfg e i n st st1 V F O E); [intros X; apply NB; left; exact X|intros X; apply NR; left; exact X|exact T].
Qed.

Lemma delivery cfg threads es0 st i st1 es st2 n l : cfg <> Spin ->
  runs_to cfg orderly (init threads) es0 st -> registered st n -> step cfg (Begin i) st = Next st1 ->
  runs_to cfg orderly st1 es st2 -> ~ In (Begin i) es -> ~ In (Remove n) es -> returned st2 i l ->
  In n l \/ (oneshot st2 n = true /\ In n (runs st2)).
Proof.
  intros NS R0 RG B R1 NB NR E. destruct (runs_full cfg NS _ _ _ R0 (conj (init_inv cfg threads) (init_full threads))) as (V & F).
  pose proof (runs_once _ _ _ _ _ R0 (once_init threads)) as O.
  pose proof (step_ok cfg (Begin i) st NS V I) as V1. rewrite B in V1.
  assert (T : track i n st1).
  { split; [exact (registered_step cfg (Begin i) st st1 n V B ltac:(discriminate) RG)|]. cbn [step] in B. destruct (nth_error (rs st) i) as [[p q]|] eqn:N; [|discriminate].
    destruct p; try discriminate. injection B as <-. eexists. cbn [rs set_rs]. split; [exact (nth_set_same _ _ _ _ N)|]. unfold covered. cbn [pc]. destruct RG as (N1 & _). lia. }
  destruct (track_runs cfg i n NS _ _ _ R1 V1 (step_full cfg (Begin i) st st1 V I B F) (once_step _ _ _ _ B O) NB NR T) as (_ & r & E2 & C).
  unfold returned in E. rewrite E in E2. injection E2 as <-. unfold covered in C. cbn [pc] in C. destruct C as [C | C]; [left|right; exact C]. cbn [ran] in C. apply in_rev. exact C.
Qed.
