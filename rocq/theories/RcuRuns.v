(** * What comes of running signal hooks while they are added and removed *)
From Coq Require Import List Arith Bool Lia Sorted.
From Verif Require Import RcuModel RcuSpec RcuProofs.
Import ListNotations.

(** ** Safety *)
Lemma safe cfg threads st e : cfg <> Spin -> reachable cfg threads st -> allowed st e -> step cfg e st <> Bad.
Proof. intros NS R A E. pose proof (step_ok cfg e st NS (reach_inv cfg threads st NS R) A) as Q. rewrite E in Q. exact Q. Qed.

Lemma run_alive cfg st n : inv cfg st -> running st n -> alive st n = true.
Proof.
  intros V (r & h & I & P). pose proof (i_pos _ _ V r I) as Q. rewrite P in Q. cbn [rpos] in Q.
  apply In_nth_error in I as (i & E). destruct (held_good cfg st i r h V E) as (G & _); [rewrite P; cbn [holdc]; rewrite eqs_self; lia|].
  destruct (good_ptr st h (i_str _ _ V) G) as (_ & N). apply (N n Q).
Qed.
Lemma not_gone cfg threads st n : cfg <> Spin -> reachable cfg threads st -> running st n -> ~ gone st n.
Proof. intros NS R H (_ & G). rewrite (run_alive cfg st n (reach_inv cfg threads st NS R) H) in G. discriminate. Qed.

Ltac steps H :=
  try discriminate H;
  repeat (match type of H with
    | context [match ?x with _ => _ end] => destruct x eqn:?
    end; try discriminate H);
  try (injection H as <-).

(** What one step changes *)
Definition changes (e : event) (st st' : state) : Prop :=
  fresh st <= fresh st' /\
  (forall m, alive st' m = true -> alive st m = true \/ m = fresh st) /\
  (runs st' = runs st \/ exists m, runs st' = m :: runs st /\ alive st m = true /\ (oneshot st m = true -> armed st m = true /\ armed st' m = false)) /\
  (forall m, m < fresh st -> oneshot st' m = oneshot st m) /\
  (forall m, m < fresh st -> armed st' m = true -> armed st m = true) /\
  (forall m, m < fresh st -> armed st m = true -> armed st' m = false -> In m (runs st')).

Lemma step_changes cfg e st st' : step cfg e st = Next st' -> changes e st st'.
Proof.
  intros H. unfold step in H. destruct e as [i|i| |os|n].
  - steps H. repeat split; cbn; auto; try lia; intros; congruence.
  - destruct (nth_error (rs st) i) as [r|]; [|discriminate]. unfold read_step in H. destruct (pc r) as [|c o|c s o|c s o|h k|h k|n h|n h] eqn:P;
      try (steps H; repeat split; cbn; auto; try lia; intros; congruence).
    cbv zeta in H. destruct (alive st n) eqn:A; [|discriminate]. destruct (oneshot st n) eqn:O; cbn [andb] in H.
    + destruct (armed st n) eqn:AR; cbn [negb] in H; injection H as <-.
      * split; [reflexivity|]. split; [auto|]. split; [right; exists n; split; [reflexivity|split; [exact A|intros _; split; [exact AR|apply upd_eq]]]|].
        split; [reflexivity|]. split; cbn [armed set_rs set_runs set_armed]; intros m M; unfold upd; destruct (Nat.eqb_spec m n) as [-> |]; try congruence. left. reflexivity.
      * repeat split; cbn; auto; intros; congruence.
    + injection H as <-. split; [reflexivity|]. split; [auto|]. split; [right; exists n; split; [reflexivity|split; [exact A|congruence]]|].
      split; [reflexivity|]. split; cbn; auto. intros; congruence.
  - unfold write_step in H. destruct (w st) eqn:W; try (cbv zeta in H; steps H; repeat split; cbn; auto; try lia; intros; try congruence).
    unfold upd in *. destruct (m =? x); [discriminate|auto].
  - destruct (w st); try discriminate H. injection H as <-. split; [cbn; lia|]. split.
    + intros m. cbn. unfold upd. destruct (Nat.eqb_spec m (fresh st)); auto.
    + split; [left; reflexivity|]. split; [|split]; intros m M; cbn; rewrite upd_neq by lia; auto. intros; congruence.
  - unfold start_remove in H. steps H; repeat split; cbn; auto; intros; congruence.
Qed.

Lemma runs_fresh cfg ok st es st' : runs_to cfg ok st es st' -> fresh st <= fresh st'.
Proof.
  intros R. induction R as [|st e st1 es st2 AL E R IH]; [reflexivity|]. destruct (step_changes _ _ _ _ E) as (F & _). lia.
Qed.

Lemma gone_stays cfg ok st es st' n : runs_to cfg ok st es st' -> gone st n -> gone st' n /\ exists l, runs st' = l ++ runs st /\ ~ In n l.
Proof.
  intros R. induction R as [|st e st1 es st2 AL E R IH]; intros G; [split; [exact G|exists []; auto]|].
  destruct (step_changes _ _ _ _ E) as (F & A & RN & _). destruct G as ((G1 & G2) & G3).
  assert (G' : gone st1 n).
  { split; [lia|]. destruct (alive st1 n) eqn:Q; [|reflexivity]. destruct (A n Q); [congruence|lia]. }
  destruct (IH G') as (H & l & E1 & E2). split; [exact H|]. destruct RN as [RN | (m & RN & AM & _)].
  - exists l. rewrite E1, RN. auto.
  - exists (l ++ [m]). rewrite E1, RN, <- app_assoc. split; [reflexivity|]. rewrite in_app_iff. cbn. intros [Q | [-> | []]]; [auto|congruence].
Qed.

(** ** One-shot hooks *)
Record once_inv (st : state) : Prop := {
  o_fresh : forall m, alive st m = true -> m < fresh st;
  o_runs : forall m, In m (runs st) -> m < fresh st;
  o_count : forall m, m < fresh st -> oneshot st m = true -> count_occ Nat.eq_dec (runs st) m + b2n (armed st m) <= 1;
  o_fired : forall m, 1 <= m < fresh st -> armed st m = true \/ In m (runs st) }.

Lemma once_init n : once_inv (init n).
Proof.
  constructor.
  - intros m A. cbn in A. apply Nat.eqb_eq in A. subst m. cbn. lia.
  - intros m [].
  - intros m _ A. discriminate.
  - intros m M. cbn in M. lia.
Qed.

Lemma once_step cfg e st st' : step cfg e st = Next st' -> once_inv st -> once_inv st'.
Proof.
  intros E O. destruct (step_changes _ _ _ _ E) as (F & A & RN & OS & AR & AF).
  assert (NEW : forall m, m < fresh st' -> m < fresh st \/ (m = fresh st /\ armed st' m = true /\ runs st' = runs st)).
  { intros m M. destruct (Nat.lt_ge_cases m (fresh st)) as [L | L]; [left; exact L|right]. unfold step in E. destruct e as [i|i| |os|n].
    - steps E; cbn in M; lia.
    - destruct (nth_error (rs st) i) as [r|]; [|discriminate]. unfold read_step in E. cbv zeta in E. steps E; cbn in M; lia.
    - unfold write_step in E. cbv zeta in E. steps E; cbn in M; lia.
    - destruct (w st); try discriminate E. injection E as <-. cbn in M. assert (m = fresh st) by lia. subst m. split; [reflexivity|]. split; [cbn; apply upd_eq|reflexivity].
    - unfold start_remove in E. steps E; cbn in M; lia. }
  constructor.
  - intros m M. destruct (A m M) as [B | ->]; [pose proof (o_fresh _ O m B); lia|].
    destruct (Nat.eq_dec (fresh st') (fresh st)) as [Q | Q]; [|lia]. exfalso. clear - E M Q O.
    assert (N : alive st (fresh st) = false) by (destruct (alive st (fresh st)) eqn:B; [pose proof (o_fresh _ O _ B); lia|reflexivity]).
    unfold step in E. destruct e as [i|i| |os|n].
    + steps E; cbn in M; congruence.
    + destruct (nth_error (rs st) i) as [r|]; [|discriminate]. unfold read_step in E. cbv zeta in E. steps E; cbn in M; congruence.
    + unfold write_step in E. cbv zeta in E. steps E; cbn in M; try congruence. unfold upd in M. destruct (fresh st =? x); congruence.
    + destruct (w st); try discriminate E. injection E as <-. cbn in Q. lia.
    + unfold start_remove in E. steps E; cbn in M; congruence.
  - intros m I. destruct RN as [RN | (x & RN & AX & _)]; rewrite RN in I; [pose proof (o_runs _ O m I); lia|].
    destruct I as [<- | I]; [pose proof (o_fresh _ O x AX); lia|pose proof (o_runs _ O m I); lia].
  - intros m M OM. destruct (NEW m M) as [L | (-> & B & C)].
    + rewrite (OS m L) in OM. pose proof (o_count _ O m L OM) as Q. destruct RN as [RN | (x & RN & AX & AY)].
      * rewrite RN. destruct (armed st' m) eqn:AM; [rewrite (AR m L AM) in Q; exact Q|]. cbn [b2n]. lia.
      * rewrite RN. cbn [count_occ]. destruct (Nat.eq_dec x m) as [-> | N].
        -- destruct (AY OM) as (Y1 & Y2). rewrite Y1 in Q. rewrite Y2. cbn [b2n] in *. lia.
        -- destruct (armed st' m) eqn:AM; [rewrite (AR m L AM) in Q; exact Q|]. cbn [b2n]. lia.
    + rewrite B, C. assert (Z : count_occ Nat.eq_dec (runs st) (fresh st) = 0) by (apply count_occ_not_In; intros I; pose proof (o_runs _ O _ I); lia). rewrite Z. cbn. lia.
  - intros m M. destruct (NEW m) as [L | (-> & B & _)]; [lia| |left; exact B].
    destruct (o_fired _ O m) as [B | B]; [lia| |].
    + destruct (armed st' m) eqn:AM; [left; reflexivity|right]. exact (AF m L B AM).
    + right. destruct RN as [-> | (x & -> & _)]; [exact B|right; exact B].
Qed.
Lemma runs_once cfg ok st es st' : runs_to cfg ok st es st' -> once_inv st -> once_inv st'.
Proof. intros R. induction R as [|st e st1 es st2 AL E R IH]; intros O; [exact O|]. apply IH. exact (once_step _ _ _ _ E O). Qed.

Lemma one_shot cfg threads st n : reachable cfg threads st -> oneshot st n = true -> count_occ Nat.eq_dec (runs st) n <= 1.
Proof.
  intros (es & R) O. pose proof (runs_once _ _ _ _ _ R (once_init threads)) as I. destruct (Nat.lt_ge_cases n (fresh st)) as [L | L].
  - pose proof (o_count _ I n L O). lia.
  - assert (Z : count_occ Nat.eq_dec (runs st) n = 0) by (apply count_occ_not_In; intros Q; pose proof (o_runs _ I _ Q); lia). lia.
Qed.

(** ** A step of a handler changes little. *)
Lemma read_keeps cfg i r st st' : read_step cfg i r st = Next st' -> keeps st st'.
Proof.
  intros H. unfold read_step in H. cbv zeta in H.
  assert (K : forall h a l, ptr a = pt st h -> keeps st (set_rs l (put_arc h a st))) by (intros h a l E; eapply keeps_trans; [apply keeps_put; exact E|apply keeps_refl_rs]).
  destruct (pc r) as [|c o|c s o|c s o|h k|h k|n h|n h]; steps H; unfold set_pc; try (apply keeps_refl_rs); try (apply K; reflexivity); try discriminate; repeat split.
Qed.

Lemma nth_set_same {A} (l : list A) i x r : nth_error l i = Some r -> nth_error (set_nth i x l) i = Some x.
Proof. revert i. induction l as [|y l IH]; intros [|i] E; try discriminate; cbn in *; [reflexivity|apply IH; exact E]. Qed.
Lemma nth_set_other {A} (l : list A) i j x : i <> j -> nth_error (set_nth i x l) j = nth_error l j.
Proof. revert i j. induction l as [|y l IH]; intros [|i] [|j] N; cbn; try reflexivity; try congruence. apply IH. congruence. Qed.

(** ** The order of hooks *)
Definition bounded (p : rpc) (l : list nat) : Prop :=
  match p with
  | Load c _ | Get c _ _ | Ptr c _ _ | Run c _ => Forall (fun m => m <= c) l
  | At n _ | Put _ (AtN n _) | Post _ (AtN n _) => Forall (fun m => m < n) l
  | _ => True
  end.
Definition sorted (r : reader) : Prop := StronglySorted gt (ran r) /\ bounded (pc r) (ran r).

Lemma Forall_set_nth {A} (P : A -> Prop) l i x : Forall P l -> P x -> Forall P (set_nth i x l).
Proof. intros H X. revert i. induction H as [|y l Y H IH]; intros [|i]; cbn; constructor; auto. Qed.

Lemma bounded_go k h l : bounded (Put h k) l -> bounded (go k) l.
Proof. destruct k; exact (fun H => H). Qed.

Lemma sorted_read cfg i r st st' : inv cfg st -> nth_error (rs st) i = Some r -> sorted r -> read_step cfg i r st = Next st' ->
  exists r', rs st' = set_nth i r' (rs st) /\ sorted r'.
Proof.
  intros V E (S & B) H. unfold read_step in H. cbv zeta in H. destruct (pc r) as [|c o|c s o|c s o|h k|h k|n h|n h] eqn:P; cbn [bounded] in B.
  - discriminate.
  - steps H. eexists. split; [reflexivity|]. split; [exact S|exact B].
  - steps H; (eexists; split; [reflexivity|]; split; [exact S|exact B]).
  - destruct (held_good cfg st i r (c, s) V E) as (G & _). { rewrite P. cbn [holdc]. rewrite eqs_self. lia. }
    destruct (good_ptr st (c, s) (i_str _ _ V) G) as (_ & N). unfold pt, arc_at in N. cbn [fst snd] in N.
    destruct (alive st c); [|discriminate]. destruct (ptr (arcs st c s)) as [| |n] eqn:PT; injection H as <-; (eexists; split; [reflexivity|]; split; [exact S|]).
    + exact B.
    + destruct o; exact I.
    + destruct (N n eq_refl) as (_ & L). assert (B' : Forall (fun m => m < n) (ran r)) by (eapply Forall_impl; [|exact B]; cbn; intros; lia). destruct o; exact B'.
  - destruct (alive st (fst h)); [|discriminate]. injection H as <-. eexists. split; [reflexivity|]. split; [exact S|]. cbn [pc ran].
    destruct cfg; try (apply (bounded_go k h); exact B); destruct (refs (arc_at st h) =? 1); try (apply (bounded_go k h); exact B); exact B.
  - destruct (alive st (fst h)); [|discriminate]. injection H as <-. eexists. split; [destruct cfg; reflexivity|]. split; [exact S|]. apply (bounded_go k h). exact B.
  - destruct (alive st n); [|discriminate]. destruct (oneshot st n && negb (armed st n)); injection H as <-.
    + eexists. split; [reflexivity|]. split; [exact S|]. cbn [pc ran bounded]. eapply Forall_impl; [|exact B]. cbn. intros. lia.
    + eexists. split; [destruct (oneshot st n); reflexivity|]. split; cbn [pc ran bounded].
      * constructor; [exact S|]. eapply Forall_impl; [|exact B]. cbn. intros. lia.
      * constructor; [lia|]. eapply Forall_impl; [|exact B]. cbn. intros. lia.
  - destruct (alive st n); [|discriminate]. injection H as <-. eexists. split; [reflexivity|]. split; [exact S|exact B].
Qed.

Lemma write_rs cfg st st' : write_step cfg st = Next st' -> rs st' = rs st.
Proof. intros H. unfold write_step in H. cbv zeta in H. steps H; reflexivity. Qed.

Lemma sorted_step cfg e st st' : inv cfg st -> step cfg e st = Next st' -> Forall sorted (rs st) -> Forall sorted (rs st').
Proof.
  intros V E S. unfold step in E. destruct e as [i|i| |os|n].
  - steps E. cbn. apply Forall_set_nth; [exact S|]. split; constructor.
  - destruct (nth_error (rs st) i) as [r|] eqn:N; [|discriminate].
    destruct (sorted_read cfg i r st st' V N) as (r' & -> & Q); [rewrite Forall_forall in S; exact (S r (nth_error_In _ _ N))|exact E|]. apply Forall_set_nth; assumption.
  - rewrite (write_rs _ _ _ E). exact S.
  - steps E. exact S.
  - unfold start_remove in E. steps E; exact S.
Qed.

Lemma runs_sorted cfg (ok : state -> event -> Prop) : cfg <> Spin -> (forall st e, ok st e -> allowed st e) ->
  forall st es st', runs_to cfg ok st es st' -> inv cfg st -> Forall sorted (rs st) -> Forall sorted (rs st').
Proof.
  intros NS OK st es st' R. induction R as [|st e st1 es st2 AL E R IH]; intros V S; [exact S|]. apply IH; [|exact (sorted_step _ _ _ _ V E S)].
  pose proof (step_ok cfg e st NS V (OK _ _ AL)) as Q. rewrite E in Q. exact Q.
Qed.
Lemma init_sorted n : Forall sorted (rs (init n)).
Proof. apply Forall_forall. intros r I. apply repeat_spec in I. subst r. split; constructor. Qed.

Lemma sorted_rev l : StronglySorted gt l -> StronglySorted lt (rev l).
Proof.
  assert (A : forall l x, StronglySorted lt l -> Forall (fun y => y < x) l -> StronglySorted lt (l ++ [x])).
  { clear. intros l x K. induction K as [|y l S IH F]; intros H; cbn; [repeat constructor|]. inversion H; subst. constructor; [apply IH; assumption|]. apply Forall_app. auto. }
  intros H. induction H as [|x l S IH F]; cbn; [constructor|]. apply A; [exact IH|]. apply Forall_rev. exact F.
Qed.
Lemma in_order cfg threads st i l : cfg <> Spin -> reachable cfg threads st -> returned st i l -> StronglySorted lt l.
Proof.
  intros NS (es & R) E. pose proof (runs_sorted cfg allowed NS (fun _ _ H => H) _ _ _ R (init_inv cfg threads) (init_sorted threads)) as S.
  rewrite Forall_forall in S. apply nth_error_In in E. destruct (S _ E) as (Q & _). cbn [ran] in Q. apply sorted_rev in Q. rewrite rev_involutive in Q. exact Q.
Qed.

(** ** Handlers do not wait. *)
Lemma own_act st c : str st -> own st (act st c) = false ->
  exists nx, dinv st c nx /\ rem (w st) = Some (c, nx) /\ (forall h, own st h = true -> fst h <> c /\ h = act st (fst h)) /\ (forall h, waits st h = true -> fst h = c).
Proof.
  intros S O. pose proof (s_w _ S) as WI. unfold winv in WI. unfold own in O. unfold act in O. cbn [fst snd] in O. rewrite Bool.eqb_reflx in O.
  assert (AC : forall d b, Bool.eqb b (active st d) = true -> (d, b) = act st d) by (intros d b E; apply Bool.eqb_prop in E; subst b; reflexivity).
  destruct (w st) as [|a v k|a i v k|a i v k|a s k|a s k|a s k|x nx|x nx|x nx] eqn:W; try discriminate; rewrite ?orb_true_r in O; try discriminate.
  - destruct k; discriminate.
  - destruct k as [n|x nx|x nx]; try discriminate. rewrite andb_true_r in O. apply negb_false_iff, Nat.eqb_eq in O. subst a. destruct WI as (-> & _ & _ & D).
    exists nx. split; [exact D|]. split; [reflexivity|]. split.
    + intros (d & b) Q. unfold own in Q. rewrite W in Q. cbn [fst snd] in *. apply andb_true_iff in Q as (Q1 & Q2). apply negb_true_iff, Nat.eqb_neq in Q1. auto.
    + intros h Q. destruct (waits_w _ _ Q) as (k & F). rewrite W in F. injection F as -> _ _. reflexivity.
  - destruct k as [n|x nx|x nx]; try discriminate. rewrite andb_true_r in O. apply negb_false_iff, Nat.eqb_eq in O. subst a. destruct WI as (-> & _ & _ & D).
    exists nx. split; [exact D|]. split; [reflexivity|]. split.
    + intros (d & b) Q. unfold own in Q. rewrite W in Q. cbn [fst snd] in *. apply andb_true_iff in Q as (Q1 & Q2). apply negb_true_iff, Nat.eqb_neq in Q1. auto.
    + intros h Q. destruct (waits_w _ _ Q) as (k & F). congruence.
  - rewrite andb_true_r in O. apply negb_false_iff, Nat.eqb_eq in O. subst x. exists nx. split; [exact WI|]. split; [reflexivity|]. split.
    + intros (d & b) Q. unfold own in Q. rewrite W in Q. cbn [fst snd] in *. apply andb_true_iff in Q as (Q1 & Q2). apply negb_true_iff, Nat.eqb_neq in Q1. auto.
    + intros h Q. destruct (waits_w _ _ Q) as (k & F). congruence.
  - rewrite andb_true_r in O. apply negb_false_iff, Nat.eqb_eq in O. subst x. exists nx. split; [exact WI|]. split; [reflexivity|]. split.
    + intros (d & b) Q. unfold own in Q. rewrite W in Q. cbn [fst snd] in *. apply andb_true_iff in Q as (Q1 & Q2). apply negb_true_iff, Nat.eqb_neq in Q1. auto.
    + intros h Q. destruct (waits_w _ _ Q) as (k & F). congruence.
Qed.

Lemma at_owned cfg st i r c o : inv cfg st -> nth_error (rs st) i = Some r -> atpos st c o -> (forall h, helds o h <= holdc h (pc r)) -> own st (act st c) = true.
Proof.
  intros V E P H. pose proof (i_str _ _ V) as S. destruct (own st (act st c)) eqn:O; [reflexivity|exfalso].
  destruct (own_act st c S O) as (nx & (D1 & D2 & D3 & D4 & D5 & D6) & RM & OW & WA).
  assert (NX : nx <> NODE c) by (intros ->; lia).
  destruct o as [h|]; cbn [atpos] in P; [|lia].
  destruct (held_good cfg st i r h V E) as (G & _). { specialize (H h). cbn [helds] in H. rewrite eqs_self in H. lia. }
  destruct (good_ptr st h S G) as (_ & L). destruct (L c P) as (_ & LT). destruct G as (A & [Q | Q]).
  - destruct (OW h Q) as (N & HA). destruct (s_node _ S h c A Q P) as (_ & _ & [X | (x & X & _)]).
    + rewrite X in D4. rewrite <- HA, P in D4. congruence.
    + rewrite RM in X. injection X as _ X. contradiction.
  - rewrite (WA h Q) in LT. lia.
Qed.

Definition meas (st : state) (p : rpc) : nat :=
  match p with
  | Idle => 0
  | Load c _ => 20 * (fresh st - c) + 6
  | Get c s _ => 20 * (fresh st - c) + if Bool.eqb s (active st c) then 5 else 7
  | Ptr c _ _ => 20 * (fresh st - c) + 4
  | Put _ Done => 2 | Post _ Done => 1
  | Put _ (Fin _) => 4 | Post _ (Fin _) => 3
  | Put _ (AtN n _) => 20 * (fresh st - n) + 11 | Post _ (AtN n _) => 20 * (fresh st - n) + 10
  | At n _ => 20 * (fresh st - n) + 9
  | Run n _ => 20 * (fresh st - n) + 8
  end.

Lemma meas_go st h k : meas st (go k) < meas st (Post h k).
Proof. destruct k; cbn [go meas]; lia. Qed.

Lemma read_progress cfg st i r : cfg <> Spin -> inv cfg st -> nth_error (rs st) i = Some r -> pc r <> Idle ->
  exists st' r', step cfg (Read i) st = Next st' /\ nth_error (rs st') i = Some r' /\ meas st' (pc r') < meas st (pc r).
Proof.
  intros NS V E NI. pose proof (i_str _ _ V) as S. pose proof (read_ok cfg st i r NS V E) as OK. cbn [step]. rewrite E.
  destruct (read_step cfg i r st) as [st'| |] eqn:H; [|contradiction|contradiction].
  destruct (read_keeps _ _ _ _ _ H) as (KA & _ & _ & _ & KF & _).
  assert (MS : forall p, meas st' p = meas st p) by (intros p; unfold meas; rewrite KA, KF; reflexivity). clear KA KF.
  assert (RS : forall r' (P : reader -> Prop), rs st' = set_nth i r' (rs st) -> P r' -> exists r', nth_error (rs st') i = Some r' /\ P r') by (intros r' P -> Q; exists r'; split; [exact (nth_set_same _ _ _ _ E)|exact Q]).
  exists st'. enough (X : exists r', nth_error (rs st') i = Some r' /\ meas st (pc r') < meas st (pc r)).
  { destruct X as (r' & X1 & X2). exists r'. split; [reflexivity|]. split; [exact X1|]. rewrite MS. exact X2. }
  clear MS OK. pose proof (i_pos _ _ V r (nth_error_In _ _ E)) as RP.
  unfold read_step in H. cbv zeta in H. destruct (pc r) as [|c o|c s o|c s o|h k|h k|n h|n h] eqn:P; cbn [rpos] in RP.
  - contradiction.
  - steps H. eapply RS; [reflexivity|]. cbn [pc meas]. rewrite Bool.eqb_reflx. lia.
  - pose proof (at_alive cfg st i r c o V E RP ltac:(rewrite P; cbn; lia)) as AL. rewrite AL in H.
    pose proof (at_owned cfg st i r c o V E RP ltac:(rewrite P; cbn; lia)) as OA.
    destruct (refs (arcs st c s)) as [|m] eqn:RF; injection H as <-; (eapply RS; [reflexivity|]; cbn [pc meas]).
    + destruct (Bool.eqb s (active st c)) eqn:Q; [exfalso|lia]. apply Bool.eqb_prop in Q. subst s.
      pose proof (i_cnt _ _ V (act st c) AL) as C. rewrite OA in C. unfold arc_at, act in C. cbn [fst snd b2n] in C. lia.
    + destruct (Bool.eqb s (active st c)); lia.
  - destruct (held_good cfg st i r (c, s) V E) as (G & _). { rewrite P. cbn [holdc]. rewrite eqs_self. lia. }
    destruct (good_ptr st (c, s) S G) as (NN & N). unfold pt, arc_at in N, NN. cbn [fst snd] in N, NN. destruct G as (AL & _). cbn [fst] in AL. rewrite AL in H.
    pose proof (s_fresh _ S c AL) as FC.
    destruct (ptr (arcs st c s)) as [| |n] eqn:PT; [contradiction| |]; injection H as <-; (eapply RS; [reflexivity|]; cbn [pc]).
    + destruct o; cbn [meas]; lia.
    + destruct (N n eq_refl) as (AN & L). pose proof (s_fresh _ S n AN). destruct o; cbn [meas]; lia.
  - destruct (alive st (fst h)); [|discriminate]. injection H as <-. eapply RS; [reflexivity|]. cbn [pc].
    assert (Q : meas st (Post h k) < meas st (Put h k)) by (destruct k; cbn [meas]; lia). pose proof (meas_go st h k).
    destruct cfg; try lia; destruct (refs (arc_at st h) =? 1); lia.
  - destruct (alive st (fst h)); [|discriminate]. injection H as <-. eapply (RS (mkReader (go k) (ran r))); [destruct cfg; reflexivity|]. apply meas_go.
  - destruct (alive st n); [|discriminate]. destruct (oneshot st n && negb (armed st n)); injection H as <-.
    + eapply RS; [reflexivity|]. cbn [pc meas]. lia.
    + eapply (RS (mkReader (Run n h) (n :: ran r))); [destruct (oneshot st n); reflexivity|]. cbn [pc meas]. lia.
  - destruct (alive st n); [|discriminate]. injection H as <-. eapply RS; [reflexivity|]. cbn [pc meas]. lia.
Qed.

Lemma finishes_inv cfg i : cfg <> Spin -> forall m st r, inv cfg st -> nth_error (rs st) i = Some r -> meas st (pc r) <= m ->
  exists k st' l, runs_to cfg allowed st (repeat (Read i) k) st' /\ returned st' i l.
Proof.
  intros NS. induction m as [|m IH]; intros st r V E M.
  - assert (P : pc r = Idle) by (destruct (pc r) as [| |? s ?| |? []|? []| |]; cbn [meas] in M; try lia; try reflexivity; destruct (Bool.eqb s _); lia).
    exists 0, st, (rev (ran r)). split; [constructor|]. unfold returned. rewrite rev_involutive, E. destruct r. cbn in *. congruence.
  - assert (PD : pc r = Idle \/ pc r <> Idle) by (destruct (pc r); auto; right; discriminate). destruct PD as [P | P].
    + exists 0, st, (rev (ran r)). split; [constructor|]. unfold returned. rewrite rev_involutive, E. destruct r. cbn in *. congruence.
    + destruct (read_progress cfg st i r NS V E P) as (st' & r' & H & E' & L). pose proof (step_ok cfg (Read i) st NS V I) as Q. rewrite H in Q.
      destruct (IH st' r' Q E') as (k & st'' & l & R & X); [lia|]. exists (S k), st'', l. split; [|exact X]. cbn [repeat]. econstructor; [exact I|exact H|exact R].
Qed.
Lemma finishes cfg threads st i : cfg <> Spin -> reachable cfg threads st -> in_progress st i ->
  exists k st' l, runs_to cfg allowed st (repeat (Read i) k) st' /\ returned st' i l.
Proof. intros NS R (r & E & _). exact (finishes_inv cfg i NS _ st r (reach_inv cfg threads st NS R) E (le_n _)). Qed.

(** ** The writer waits for handlers only. *)
Definition wmeas (p : wpc) : nat :=
  let d (k : kont) (a b : nat) := match k with KDestroy _ _ => a | _ => b end in
  match p with
  | WIdle => 0 | WFree _ _ => 1 | WDestroy _ _ => 2 | WTake _ _ k => d k 3 7 | WWait _ _ k => d k 4 8 | WSub _ _ k => d k 5 9
  | WFix _ _ => 6 | WSwap _ _ _ _ => 10 | WRefs _ _ _ _ => 11 | WLoad _ _ _ => 12
  end.

Lemma idle_total f l : f Idle = 0 -> (forall r, In r l -> pc r = Idle) -> total f l = 0.
Proof. intros Z H. destruct (total f l) eqn:E; [reflexivity|]. destruct (total_pos f l) as (r & I & L); [lia|]. rewrite (H r I), Z in L. lia. Qed.

Lemma write_progress cfg st : cfg <> Spin -> inv cfg st -> all_idle st -> w st <> WIdle ->
  exists st', step cfg Write st = Next st' /\ all_idle st' /\ wmeas (w st') < wmeas (w st).
Proof.
  intros NS V A N. pose proof (write_ok cfg st NS V) as Q. cbn [step]. destruct (write_step cfg st) as [st'| |] eqn:E; [| |contradiction].
  - exists st'. split; [reflexivity|]. split; [unfold all_idle; rewrite (write_rs _ _ _ E); exact A|].
    pose proof (s_w _ (i_str _ _ V)) as WI. unfold winv in WI.
    unfold write_step in E. cbv zeta in E. destruct (w st) as [|a v k|a i v k|a i v k|a s k|a s k|a s k|x nx|x nx|x nx] eqn:W; steps E; cbn [w set_w wmeas];
      try (destruct k as [?|? ?|? ?]; cbn [wmeas]; try lia; destruct WI as (KI & _); destruct KI); try lia; try contradiction.
  - destruct Q as [Q | (c & s & k & _ & [H | H])]; [contradiction| |]; exfalso.
    + unfold holders in H. rewrite (idle_total (holdc (c, s)) (rs st)) in H; [lia|reflexivity|exact A].
    + unfold posts in H. rewrite (idle_total (postc (c, s)) (rs st)) in H; [lia|reflexivity|exact A].
Qed.

Lemma returns_inv cfg : cfg <> Spin -> forall m st, inv cfg st -> all_idle st -> wmeas (w st) <= m -> exists k st', runs_to cfg allowed st (repeat Write k) st' /\ w st' = WIdle.
Proof.
  intros NS. assert (D : forall p, p = WIdle \/ p <> WIdle) by (intros []; auto; right; discriminate).
  induction m as [|m IH]; intros st V A M; destruct (D (w st)) as [E | N]; try (exists 0, st; split; [constructor|exact E]).
  - destruct (write_progress cfg st NS V A N) as (st' & _ & _ & L). lia.
  - destruct (write_progress cfg st NS V A N) as (st' & H & A' & L). pose proof (step_ok cfg Write st NS V I) as Q. rewrite H in Q.
    destruct (IH st' Q A') as (k & st'' & R & X); [lia|]. exists (S k), st''. split; [|exact X]. cbn [repeat]. econstructor; [exact I|exact H|exact R].
Qed.
Lemma returns cfg threads st : cfg <> Spin -> reachable cfg threads st -> all_idle st -> exists k st', runs_to cfg allowed st (repeat Write k) st' /\ w st' = WIdle.
Proof. intros NS R A. exact (returns_inv cfg NS _ st (reach_inv cfg threads st NS R) A (le_n _)). Qed.
