(** * Soundness of the data flow analysis *)
From Coq Require Import List ZArith QArith Bool Lia.
From Verif Require Import ExprModel ExprSpec ExprProofs OptModel OptSpec OptEval OptSim OptPasses OptSimplify
  OptDomain OptTidy.
Import ListNotations.
Local Open Scope nat_scope.

Section OptFlow.
  Context {F : Type}.
  Variable fo : float_ops F.
  Variable level : nat.
  Variable udb gdb : Z -> option bool.
  Variable f : file.
  Variable u : size_unit.
  Variable b : behaviour.
  Notation expr := (expr F).
  Notation tame := (tame level udb gdb f u).
  Notation sat := (sat f u).
  Notation ok := (@ok F level).
  Notation neat := (@neat F tame).
  Notation tidy := (@tidy F tame).
  Notation sv := (@sv F level b false).
  Notation evalc := (@evalc F level b).
  Notation body := (@body F level b).
  Notation opt_const := (opt_const fo level).
  Notation data_flow := (data_flow fo level udb gdb).
  Notation df_leave := (df_leave fo level).
  Notation df_finish := (df_finish fo level udb gdb).
  Notation fl k c := (flag k (ann c)).

  Definition pick (k : bool) (s : after) : df_domain := if k then fst s else snd s.

  Lemma below_pick s B k : below s B -> bounded (pick k s) /\ leb (pick k s) B.
  Proof. intros [H1 H2]. destruct k; assumption. Qed.

  (** ** Leaving a node *)
  Definition forced (e : expr) (s : after) : after :=
    (if fl false e then df_bottom else fst s, if fl true e then df_bottom else snd s).

  Lemma pick_forced k e s : pick k (forced e s) = if fl (negb k) e then df_bottom else pick k s.
  Proof. destruct k; reflexivity. Qed.

  Lemma forced_below e s B : bounded B -> below s B -> below (forced e s) B.
  Proof.
    intros HB [H1 H2]. split; cbn [fst snd forced].
    - destruct (fl false e); [|exact H1]. split; [apply bounded_bottom|apply HB].
    - destruct (fl true e); [|exact H2]. split; [apply bounded_bottom|apply HB].
  Qed.

  Definition same_ann (a a' : annot F) : Prop := a_pure a' = a_pure a /\ forall k, flag k a' = flag k a.

  (** What data_flow_leave makes of [e]. *)
  Inductive left_as (e : expr) (s : after) : expr -> Prop :=
  | Left_const (v : bool) c : pure e = true -> ok c -> (if v then is_true c else is_false c) = true ->
      bot (pick (negb v) s) = true -> (v = true -> bot (pick true s) = false) -> left_as e s c
  | Left_pure a' : pure e = true -> (forall k, bot (pick k s) = false) -> same_ann (ann e) a' ->
      left_as e s (set_ann e a')
  | Left_impure a' : pure e = false -> a_pure a' = false ->
      (forall k, flag k a' = bot (pick (negb k) s)) -> left_as e s (set_ann e a').

  Lemma set_ann_idem (e : expr) a a' : set_ann (set_ann e a) a' = set_ann e a'.
  Proof. destruct e; reflexivity. Qed.
  Lemma ann_set (e : expr) a : ann (set_ann e a) = a.
  Proof. destruct e; reflexivity. Qed.
  Lemma set_ann_same (e : expr) : set_ann e (ann e) = e.
  Proof. destruct e; reflexivity. Qed.
  Lemma is_true_set (e : expr) a : is_true (set_ann e a) = is_true e.
  Proof. destruct e; reflexivity. Qed.
  Lemma is_false_set (e : expr) a : is_false (set_ann e a) = is_false e.
  Proof. destruct e; reflexivity. Qed.

  Lemma same_ann_ok e a' : same_ann (ann e) a' -> ok e -> ok (set_ann e a').
  Proof.
    intros [H1 H2] O. pose proof (H2 true) as Ht. pose proof (H2 false) as Hf. cbn in Ht, Hf.
    destruct e as [a l|a o cs]; cbn [set_ann ann] in *.
    - cbn [OptEval.ok] in *. rewrite H1, Ht, Hf. exact O.
    - apply ok_node in O. apply ok_node. rewrite H1. exact O.
  Qed.

  Lemma leave_spec e s e' s' : ok e -> df_leave e s = (e', s') -> s' = forced e s /\ left_as e s' e'.
  Proof.
    intros O. destruct s as [t g]. unfold OptModel.df_leave.
    set (e1 := if always_true e then set_ann e (set_prob (f_lit fo 1) (ann e)) else e).
    set (g1 := if always_true e then df_bottom else g).
    replace (if always_true e then _ else (e, g)) with (e1, g1)
      by (subst e1 g1; destruct (always_true e); reflexivity).
    set (e2 := if always_false e1 then set_ann e1 (set_prob (f_lit fo 0) (ann e1)) else e1).
    set (t1 := if always_false e1 then df_bottom else t).
    replace (if always_false e1 then _ else (e1, t)) with (e2, t1)
      by (subst e2 t1; destruct (always_false e1); reflexivity).
    assert (S1 : e1 = set_ann e (ann e1) /\ same_ann (ann e) (ann e1)).
    { subst e1. destruct (always_true e).
      - rewrite ann_set. split; [reflexivity|]. split; [reflexivity|intros []; reflexivity].
      - rewrite set_ann_same. split; [reflexivity|]. split; reflexivity. }
    assert (S2 : e2 = set_ann e (ann e2) /\ same_ann (ann e) (ann e2)).
    { destruct S1 as [S1 [S3 S4]]. subst e2. destruct (always_false e1).
      - rewrite ann_set. rewrite S1 at 1. rewrite set_ann_idem. split; [reflexivity|].
        split; [exact S3|]. intros k. rewrite <- S4. destruct k; reflexivity.
      - split; [exact S1|]. split; assumption. }
    assert (Ef : always_false e1 = fl false e) by (apply (proj2 (proj2 S1) false)).
    assert (Es : forced e (t, g) = (t1, g1)).
    { unfold forced, t1, g1. rewrite Ef. reflexivity. }
    rewrite Es. clearbody e1. destruct S2 as [S2 S3].
    assert (Bf : fl true e = true -> bot g1 = true).
    { intros H. subst g1. unfold always_true. cbn [flag] in H. rewrite H. apply bot_bottom. }
    assert (Bt : fl false e = true -> bot t1 = true).
    { intros H. subst t1. rewrite Ef, H. apply bot_bottom. }
    clearbody e2 t1 g1. clear S1 Ef Es.
    assert (P2 : pure e2 = pure e) by (apply (proj1 S3)).
    assert (O2 : ok e2) by (rewrite S2; apply same_ann_ok; assumption).
    destruct (pure e) eqn:P.
    - (* pure *)
      assert (PC : forall v, pure (opt_const v) = true) by (intros []; reflexivity).
      destruct (bot g1) eqn:Bg.
      + rewrite P2. cbn [negb].
        set (e3 := if is_true e2 then e2 else opt_const true).
        assert (P3 : pure e3 = true) by (subst e3; destruct (is_true e2); auto).
        assert (O3 : ok e3) by (subst e3; destruct (is_true e2); [auto|apply ok_const]).
        assert (I3 : is_true e3 = true).
        { subst e3. destruct (is_true e2) eqn:I; [exact I|reflexivity]. }
        clearbody e3. destruct (bot t1) eqn:Bt1.
        * rewrite P3. cbn [negb]. intros E. inversion E; subst. split; [reflexivity|].
          apply Left_const with (v := false); [exact P| | |exact Bt1|discriminate].
          -- destruct (is_false e3); [auto|apply ok_const].
          -- destruct (is_false e3) eqn:I; [exact I|reflexivity].
        * intros E. inversion E; subst. split; [reflexivity|].
          apply Left_const with (v := true); [exact P|exact O3|exact I3|exact Bg|intros _; exact Bt1].
      + destruct (bot t1) eqn:Bt1.
        * rewrite P2. cbn [negb]. intros E. inversion E; subst. split; [reflexivity|].
          apply Left_const with (v := false); [exact P| | |exact Bt1|discriminate].
          -- destruct (is_false e2); [auto|apply ok_const].
          -- destruct (is_false e2) eqn:I; [exact I|reflexivity].
        * intros E. inversion E; subst. split; [reflexivity|]. rewrite S2.
          apply Left_pure; [exact P|intros []; assumption|exact S3].
    - rewrite P2. cbn [negb].
      set (a3 := if bot g1 then set_true fo (ann e2) else ann e2).
      replace (if bot g1 then set_ann e2 (set_true fo (ann e2)) else e2) with (set_ann e a3)
        by (subst a3; destruct (bot g1); rewrite S2 at 2; rewrite ?set_ann_idem, ?ann_set; try reflexivity;
            rewrite S2 at 1; rewrite ?ann_set; reflexivity).
      assert (P3 : a_pure a3 = false).
      { subst a3. destruct S3 as [S3 _]. unfold pure in P. destruct (bot g1); cbn; rewrite S3; exact P. }
      assert (Fk : flag true a3 = bot g1 /\ flag false a3 = fl false e).
      { destruct S3 as [_ S3]. subst a3. destruct (bot g1) eqn:Bg; cbn [flag set_true a_true a_false].
        - split; [reflexivity|]. apply (S3 false).
        - split; [|apply (S3 false)]. change (flag true (ann e2) = false). rewrite S3.
          destruct (fl true e); [specialize (Bf eq_refl); congruence|reflexivity]. }
      clearbody a3. unfold pure. rewrite ann_set, P3. cbn [negb].
      intros E. assert (E2 : s' = (t1, g1) /\ e' = set_ann e (if bot t1 then set_false fo a3 else a3)).
      { destruct (bot t1); inversion E; subst; rewrite ?set_ann_idem; auto. }
      destruct E2 as [-> ->]. split; [reflexivity|]. destruct Fk as [Fk1 Fk2].
      apply Left_impure; [exact P|destruct (bot t1); exact P3|].
      intros [|]; cbn [pick negb fst snd].
      + rewrite <- Fk1. destruct (bot t1); reflexivity.
      + destruct (bot t1) eqn:B1; [reflexivity|]. rewrite Fk2.
        destruct (fl false e); [specialize (Bt eq_refl); congruence|reflexivity].
  Qed.

  (** Unreachable expressions and unused pure ones *)
  Lemma finish_dead ign before e s e' s' : (bot before = true \/ ign = true /\ pure e = true) ->
    df_finish ign before e s = (e', s') ->
    ok e' /\ is_false e' = true /\ pure e' = true /\ s' = (df_bottom, snd s).
  Proof.
    intros H. unfold OptModel.df_finish.
    replace (df_replace fo level ign before e) with (opt_const false).
    2:{ unfold df_replace. destruct H as [->|[-> ->]]; [reflexivity|]. cbn. destruct (bot before); reflexivity. }
    cbn [OptModel.opt_const transfer_annot]. intros E.
    match type of E with df_leave (Leaf ?a ?l) ?s0 = _ => set (e0 := Leaf a l) in *; set (s1 := s0) in * end.
    assert (Es : s1 = s) by reflexivity. clearbody s1. rewrite Es in E.
    assert (O : ok e0) by (apply (ok_const fo level false)).
    apply leave_spec in E; [|exact O]. destruct E as [-> E].
    assert (Fs : forced e0 s = (df_bottom, snd s)) by reflexivity.
    assert (P0 : pure e0 = true) by reflexivity.
    rewrite Fs in *. split; [|split; [|split; [|reflexivity]]].
    - inversion E as [v c Pe Oc Ic B1 B2|a' Pe B1 Sa|a' Pe]; subst; [assumption| |congruence].
      apply same_ann_ok; assumption.
    - inversion E as [v c Pe Oc Ic B1 B2|a' Pe B1 Sa|a' Pe]; subst; [|reflexivity|congruence].
      destruct v; [|assumption].
      specialize (B2 eq_refl). cbn [pick fst] in B2. rewrite bot_bottom in B2. discriminate.
    - inversion E as [v c Pe Oc Ic B1 B2|a' Pe B1 Sa|a' Pe]; subst; [| |congruence].
      + destruct e' as [a l|]; [|destruct v; discriminate]. unfold pure. cbn [ann].
        destruct Oc as [-> _]. destruct v, l; try discriminate; reflexivity.
      + unfold pure. rewrite ann_set. destruct Sa as [-> _]. exact Pe.
  Qed.

  Lemma finish_live ign before e s : bot before = false -> (ign = true -> pure e = false) ->
    df_finish ign before e s =
    match e with
    | Leaf a l => df_leave (Leaf (transfer_annot fo l (transfer udb gdb before l s) a) l) (transfer udb gdb before l s)
    | Node _ _ _ => df_leave e s
    end.
  Proof.
    intros H1 H2. unfold OptModel.df_finish, df_replace. rewrite H1.
    replace (ign && pure e) with false; [reflexivity|].
    destruct ign; [rewrite H2 by reflexivity; reflexivity|reflexivity].
  Qed.

  Lemma const_pure c v : ok c -> (if (v : bool) then is_true c else is_false c) = true ->
    exists a, c = Leaf a (if v then LTrue else LFalse) /\ a_pure a = true /\ forall k, flag k a = Bool.eqb k v.
  Proof.
    intros O I. destruct c as [a l|]; [|destruct v; discriminate].
    assert (l = if v then LTrue else LFalse) by (destruct v, l; cbn in I; congruence). subst l.
    exists a. split; [reflexivity|]. split; [destruct O as [-> _]; destruct v; reflexivity|].
    apply (ok_const_flags level a _ v O eq_refl).
  Qed.

  (** ** The loop over the operands of -and and -or *)
  Section Loop.
    Variable ign : bool.
    Fixpoint dl (d : bool) (cs : list expr) (bef acc imp : df_domain)
      : list expr * df_domain * df_domain * df_domain :=
      match cs with
      | [] => ([], bef, acc, imp)
      | c :: cs' =>
          let '(c', s, imp1) := data_flow (if is_nil cs' then ign else false) bef imp c in
          let '(cs1, p, a, imp2) := dl d cs' (pick d s) (df_join acc (pick (negb d) s)) imp1 in
          (c' :: cs1, p, a, imp2)
      end.
  End Loop.

  Definition mk (d : bool) (p a : df_domain) : after := if d then (p, a) else (a, p).
  Lemma pick_mk d p a k : pick k (mk d p a) = if Bool.eqb k d then p else a.
  Proof. destruct d, k; reflexivity. Qed.

  Lemma df_and_dl ign cs : forall bef acc imp,
    df_and data_flow ign cs bef bef acc imp =
    (let '(cs', p, a, i) := dl ign true cs bef acc imp in (cs', (p, a), i)).
  Proof.
    induction cs as [|c cs IH]; intros bef acc imp; [reflexivity|]. cbn [df_and dl child_ign].
    destruct (data_flow _ bef imp c) as [[c' [t g]] i]. cbn [pick fst snd negb]. rewrite IH.
    destruct (dl ign true cs t (df_join acc g) i) as [[[cs1 p] a] i2]. reflexivity.
  Qed.
  Lemma df_or_dl ign cs : forall bef acc imp,
    df_or data_flow ign cs bef acc bef imp =
    (let '(cs', p, a, i) := dl ign false cs bef acc imp in (cs', (a, p), i)).
  Proof.
    induction cs as [|c cs IH]; intros bef acc imp; [reflexivity|]. cbn [df_or dl child_ign].
    destruct (data_flow _ bef imp c) as [[c' [t g]] i]. cbn [pick fst snd negb]. rewrite IH.
    destruct (dl ign false cs g (df_join acc t) i) as [[[cs1 p] a] i2]. reflexivity.
  Qed.

  Lemma data_flow_opn ign before imp a d cs :
    data_flow ign before imp (Node a (opn d) cs) =
    (let '(cs', p, ac, imp') := dl ign d cs before df_bottom imp in
     let '(e', s) := df_finish ign before (rebuild a (opn d) cs') (mk d p ac) in
     (e', s, imp')).
  Proof.
    destruct d; cbn [opn OptModel.data_flow]; [rewrite df_and_dl|rewrite df_or_dl];
      destruct (dl _ _ cs before df_bottom imp) as [[[cs' p] ac] imp']; reflexivity.
  Qed.

  (** ** What the analysis leaves behind *)
  Definition outcome_ok (ign : bool) (before imp : df_domain) (e e' : expr) (s : after) (imp' : df_domain) : Prop :=
    ok e' /\ (pure e = true -> pure e' = true) /\ below s before /\
    (bot before = true -> is_false e' = true) /\
    (ign = false -> bot before = false -> forall k, fl k e' = bot (pick (negb k) s)) /\
    (ign = false -> bot before = false -> pure e' = true ->
       bot (pick true s) = true -> bot (pick false s) = true -> False) /\
    (ign = false -> forall k, fl k e = true -> bot (pick (negb k) s) = true) /\
    sv ign e' /\ tidy ign e' /\ leb imp imp'.

  (** Leaving a live node, with [e0] the expression just before. *)
  Lemma leave_ok ign before imp e e0 s0 e' s' imp' : ok e0 -> bounded before -> bot before = false ->
    (ign = true -> pure e0 = false) -> (pure e = true -> pure e0 = true) -> below s0 before ->
    (ign = false -> forall k, fl k e0 = fl k e) ->
    (ign = false -> pure e0 = true -> bot (pick true (forced e0 s0)) = true ->
       bot (pick false (forced e0 s0)) = true -> False) ->
    (forall a', a_pure a' = pure e0 -> (pure e0 = true -> forall k, flag k a' = false) ->
       (ign = false -> forall k, flag k a' = bot (pick (negb k) (forced e0 s0))) ->
       match e0 with Leaf _ _ => True | Node _ _ _ => sv ign (set_ann e0 a') /\ tidy ign (set_ann e0 a') end) ->
    (match e0 with Leaf _ l => tame l | _ => True end) ->
    leb imp imp' -> df_leave e0 s0 = (e', s') -> outcome_ok ign before imp e e' s' imp'.
  Proof.
    intros O HB NB Hp Hq Bl Hf NN Hn Ht Hi E. apply leave_spec in E; [|exact O]. destruct E as [-> E].
    assert (Bs : below (forced e0 s0) before) by (apply forced_below; assumption).
    assert (Fo : forall k, fl k e0 = true -> bot (pick (negb k) (forced e0 s0)) = true).
    { intros k Hk. rewrite pick_forced, negb_involutive, Hk. apply bot_bottom. }
    assert (Fo' : ign = false -> forall k, fl k e = true -> bot (pick (negb k) (forced e0 s0)) = true).
    { intros Hi0 k Hk. apply Fo. rewrite Hf by exact Hi0. exact Hk. }
    assert (D : bot before = true -> is_false e' = true) by (intros; congruence).
    assert (SL : forall a l, sv ign (Leaf a l)) by (intros; discriminate).
    inversion E as [v c Pe Oc Ic B1 B2 Ec|a' Pe B1 Sa Ec|a' Pe Pa Fa Ec]; subst.
    - destruct (const_pure e' v Oc Ic) as (a & -> & Pa & Fa).
      split; [exact Oc|]. split; [intros _; exact Pa|]. split; [exact Bs|]. split; [exact D|].
      split; [|split; [intros H1 _ _; apply NN; assumption|split; [exact Fo'|]]].
      + intros H1 _ k. cbn [ann]. rewrite Fa. specialize (NN H1 Pe).
        destruct v; cbn [negb pick] in *.
        * specialize (B2 eq_refl). destruct k; cbn [Bool.eqb negb pick]; congruence.
        * assert (B3 : bot (snd (forced e0 s0)) = false).
          { destruct (bot (snd (forced e0 s0))) eqn:X; [|reflexivity]. exfalso. auto. }
          destruct k; cbn [Bool.eqb negb pick]; congruence.
      + split; [apply SL|]. split; [destruct v; exact I|exact Hi].
    - assert (O' : ok (set_ann e0 a')) by (apply same_ann_ok; assumption). destruct Sa as [Sa1 Sa2].
      assert (Fk : forall k, flag k a' = false).
      { intros k. rewrite Sa2. destruct (fl k e0) eqn:X; [|reflexivity].
        specialize (Fo k X). congruence. }
      assert (Fb : forall k, flag k a' = bot (pick (negb k) (forced e0 s0))) by (intros k; rewrite Fk, B1; reflexivity).
      assert (G : sv ign (set_ann e0 a') /\ tidy ign (set_ann e0 a')).
      { specialize (Hn a' Sa1 (fun _ => Fk) (fun _ => Fb)). destruct e0; [split; [apply SL|exact Ht]|exact Hn]. }
      split; [exact O'|]. split; [intros _; unfold pure; rewrite ann_set, Sa1; exact Pe|]. split; [exact Bs|].
      split; [exact D|]. split; [intros _ _ k; rewrite ann_set; apply Fb|].
      split; [intros H1 _ _; apply NN; assumption|]. split; [exact Fo'|]. split; [apply G|]. split; [apply G|exact Hi].
    - assert (O' : ok (set_ann e0 a')).
      { unfold pure in Pe. destruct e0 as [a l|a o cs]; cbn [set_ann ann] in *.
        - destruct O as [O1 _]. split; [congruence|intros; congruence].
        - apply ok_node in O. apply ok_node. rewrite Pa, <- Pe. exact O. }
      assert (G : sv ign (set_ann e0 a') /\ tidy ign (set_ann e0 a')).
      { specialize (Hn a' ltac:(congruence) ltac:(congruence) (fun _ => Fa)).
        destruct e0; [split; [apply SL|exact Ht]|exact Hn]. }
      assert (P' : pure (set_ann e0 a') = false) by (unfold pure; rewrite ann_set; exact Pa).
      split; [exact O'|]. split; [intros H; rewrite Hq in Pe by exact H; discriminate|]. split; [exact Bs|].
      split; [exact D|]. split; [intros _ _ k; rewrite ann_set; apply Fa|].
      split; [intros; congruence|]. split; [exact Fo'|]. split; [apply G|]. split; [apply G|exact Hi].
  Qed.

  (** A dead node *)
  Lemma dead_ok ign before imp e e0 s0 e' s' imp' : bounded before ->
    (bot before = true \/ ign = true /\ pure e0 = true) -> below s0 before ->
    leb imp imp' -> df_finish ign before e0 s0 = (e', s') -> outcome_ok ign before imp e e' s' imp'.
  Proof.
    intros HB H Bl Hi E. destruct (finish_dead ign before e0 s0 e' s' H E) as (O' & I' & P' & ->).
    destruct (const_pure e' false O' I') as (a & -> & Pa & Fa).
    split; [exact O'|]. split; [auto|]. split.
    { split; cbn [fst snd]; [split; [apply bounded_bottom|apply HB]|apply Bl]. }
    assert (NB : ign = false -> bot before = true) by (intros ->; destruct H as [?|[? _]]; congruence).
    split; [reflexivity|]. split; [intros H1 H2; rewrite NB in H2 by exact H1; discriminate|].
    split; [intros H1 H2; rewrite NB in H2 by exact H1; discriminate|].
    split; [|split; [discriminate|split; [exact I|exact Hi]]].
    intros H1 k Hk. destruct k; cbn [negb pick fst snd]; [|apply bot_bottom].
    eapply leb_bot; [apply Bl|auto].
  Qed.


  (** The loop *)
  Definition loop_ok (ign d : bool) (bef acc imp : df_domain) (cs cs' : list expr) (p ac imp' : df_domain) : Prop :=
    Forall2 (kept level) cs cs' /\
    (bounded p /\ leb p bef) /\ (bounded ac /\ leb acc ac /\ forall B, leb acc B -> leb bef B -> leb ac B) /\
    (ign = false -> bot bef = false -> bot p = true -> existsb (fun c => fl (negb d) c) cs' = true) /\
    (ign = false -> bot bef = false -> (bot ac = true \/ forallb (fun c => fl d c) cs = true) -> nt d cs' = true) /\
    (ign = false -> bot bef = false -> forallb pure cs' = true -> bot p = true ->
       (bot ac = true \/ forallb (fun c => fl d c) cs = true) -> False) /\
    (ign = false -> existsb (fun c => fl (negb d) c) cs = true -> bot p = true) /\
    svl sv ign cs' /\ tidyl tidy ign cs' /\ leb imp imp'.

  Definition flow_ok (e : expr) : Prop := forall ign before imp e' s imp',
    ok e -> neat e -> bounded before -> data_flow ign before imp e = (e', s, imp') ->
    outcome_ok ign before imp e e' s imp'.

  Lemma loop_flow ign d cs : Forall flow_ok cs -> Forall ok cs -> Forall neat cs ->
    forall bef acc imp cs' p ac imp', bounded bef -> bounded acc ->
    dl ign d cs bef acc imp = (cs', p, ac, imp') -> loop_ok ign d bef acc imp cs cs' p ac imp'.
  Proof.
    intros IH O N. revert O N.
    induction IH as [|c cs Hc IH IHcs]; intros O N bef acc imp cs' p ac imp' HB HA E; cbn [dl] in E.
    - inversion E; subst. split; [constructor|]. split; [split; [exact HB|apply leb_refl]|].
      split; [split; [exact HA|]; split; [apply leb_refl|auto]|].
      split; [intros; congruence|]. split; [reflexivity|]. split; [intros; congruence|].
      split; [discriminate|]. split; [exact I|]. split; [exact I|apply leb_refl].
    - inversion O as [|? ? Oc O']; inversion N as [|? ? Nc N']; subst.
      destruct (data_flow _ bef imp c) as [[c' s] imp1] eqn:Ec.
      destruct (dl ign d cs _ _ imp1) as [[[cs1 p1] a1] imp2] eqn:El. inversion E; subst. clear E.
      specialize (Hc _ _ _ _ _ _ Oc Nc HB Ec).
      destruct Hc as (C1 & C2 & C3 & C4 & C5 & C6 & C7 & C8 & C9 & C10).
      destruct (below_pick _ _ d C3) as [B1 B2]. destruct (below_pick _ _ (negb d) C3) as [B3 B4].
      specialize (IHcs O' N' _ _ _ _ _ _ _ B1 (bounded_join _ _ HA B3) El).
      destruct IHcs as (L1 & [L2 L3] & (L4 & L5 & L6) & L7 & L8 & L9 & L10 & L11 & L12 & L13).
      assert (Ig : ign = false -> (if is_nil cs then ign else false) = false) by (intros ->; destruct (is_nil cs); reflexivity).
      split; [constructor; [split; assumption|exact L1]|].
      split; [split; [exact L2|eapply leb_trans; eassumption]|].
      split.
      { split; [exact L4|]. split; [eapply leb_trans; [apply leb_join_l|exact L5]|].
        intros B HaB HbB. apply L6; [apply join_leb; [exact HaB|]|]; eapply leb_trans; eassumption. }
      split.
      { intros Hi Nb Hp. cbn [existsb]. rewrite C5 by auto. rewrite negb_involutive.
        destruct (bot (pick d s)) eqn:X; [reflexivity|]. cbn. auto. }
      assert (Fd : ign = false -> (bot ac = true \/ forallb (fun c => fl d c) (c :: cs) = true) ->
                bot (pick (negb d) s) = true /\
                (bot ac = true \/ forallb (fun c => fl d c) cs = true)).
      { intros Hi [H|H].
        - split; [|auto]. assert (J : bot (df_join acc (pick (negb d) s)) = true) by (eapply leb_bot; eassumption).
          apply bot_join in J. apply J.
        - cbn [forallb] in H. apply andb_true_iff in H. destruct H as [H1 H2]. auto. }
      split.
      { intros Hi Nb H. destruct (Fd Hi H) as [F1 F2]. cbn [nt]. rewrite !C5 by auto. rewrite negb_involutive, F1.
        destruct (bot (pick d s)) eqn:X; [reflexivity|]. cbn. auto. }
      split.
      { intros Hi Nb Hp Hb H. destruct (Fd Hi H) as [F1 F2]. cbn [forallb] in Hp. apply andb_true_iff in Hp.
        destruct Hp as [P1 P2]. destruct (bot (pick d s)) eqn:X; [|apply L9; auto].
        destruct d; cbn [negb] in *; apply C6; auto. }
      split.
      { intros Hi H. cbn [existsb] in H. apply orb_true_iff in H. destruct H as [H|H]; [|auto].
        specialize (C7 (Ig Hi) _ H). rewrite negb_involutive in C7. eapply leb_bot; eassumption. }
      rewrite <- (Forall2_nil _ _ _ L1) in C8, C9.
      split; [|split; [split; assumption|eapply leb_trans; eassumption]].
      cbn [svl]. destruct (ign && forallb pure (c' :: cs1)); [exact I|]. split; assumption.
  Qed.

  Lemma flow_outcome : forall e, flow_ok e.
  Proof.
    induction e as [a l|a o cs IH] using expr_ind'; intros ign before imp e' s imp' O N HB E.
    - cbn [OptModel.data_flow] in E.
      destruct (df_finish ign before (Leaf a l) (before, before)) as [e1 s1] eqn:Ef. inversion E; subst. clear E.
      assert (Hi : leb imp (if a_pure a then imp else df_join imp before))
        by (destruct (a_pure a); [apply leb_refl|apply leb_join_l]).
      destruct (bot before) eqn:Nb.
      { refine (dead_ok _ _ _ _ _ _ _ _ _ HB _ _ Hi Ef); [auto|]. split; split; solve [exact HB|apply leb_refl]. }
      destruct (ign && pure (Leaf a l)) eqn:Ip.
      { apply andb_true_iff in Ip. refine (dead_ok _ _ _ _ _ _ _ _ _ HB _ _ Hi Ef); [auto|].
        split; split; solve [exact HB|apply leb_refl]. }
      rewrite finish_live in Ef; [|exact Nb|intros ->; exact Ip].
      set (s0 := transfer udb gdb before l (before, before)) in *.
      assert (Ta : same_ann a (transfer_annot fo l s0 a))
        by (destruct l; split; try reflexivity; intros []; reflexivity).
      destruct Ta as [Ta1 Ta2].
      assert (O0 : ok (Leaf (transfer_annot fo l s0 a) l)) by (apply (same_ann_ok (Leaf a l)); [split; assumption|exact O]).
      eapply leave_ok; [exact O0|exact HB|exact Nb| | | | | | | |exact Hi|exact Ef].
      + intros ->. unfold pure in *. cbn [ann] in *. rewrite Ta1. exact Ip.
      + unfold pure. cbn [ann]. rewrite Ta1. auto.
      + apply (transfer_below level udb gdb f u); assumption.
      + intros _ k. apply Ta2.
      + intros _ Pe H1 H2. unfold pure in Pe. cbn [ann] in Pe. rewrite Ta1 in Pe.
        rewrite !pick_forced in *. cbn [ann negb] in *. rewrite Ta2 in *.
        destruct O as [O1 O2]. destruct (O2 Pe) as [Ht Hf]. rewrite O1 in Pe. cbn [flag] in *.
        rewrite Ht, Hf in *. clear O0 Ta1 Ta2 Ef.
        assert (G : leaf_true l = false -> leaf_false l = false -> False).
        { intros G1 G2. rewrite G1, G2 in *. eapply (transfer_not_both level udb gdb f u before l); eassumption. }
        destruct l; cbn [leaf_true leaf_false] in *; try (apply G; reflexivity); try discriminate Pe;
          cbn in H1, H2; subst s0; congruence.
      + exact (fun _ _ _ _ => I).
      + exact N.
    - pose proof O as O1. apply ok_node in O1. destruct O1 as (S & Pa & Oc).
      apply neat_node in N. destruct N as [D Nc].
      assert (G : forall d, o = opn d -> outcome_ok ign before imp (Node a o cs) e' s imp').
      { intros d ->. rewrite data_flow_opn in E.
        destruct (dl ign d cs before df_bottom imp) as [[[cs' p] ac] imp1] eqn:El.
        destruct (df_finish ign before (rebuild a (opn d) cs') (mk d p ac)) as [e1 s1] eqn:Ef.
        inversion E; subst. clear E.
        pose proof (loop_flow ign d cs IH Oc Nc _ _ _ _ _ _ _ HB bounded_bottom El) as L.
        destruct L as (L1 & [L2 L3] & (L4 & L5 & L6) & L7 & L8 & L9 & L10 & L11 & L12 & L13).
        assert (O' : ok (rebuild a (opn d) cs')) by (apply ok_rebuild; [apply shape_opn|eapply kept_ok; exact L1]).
        assert (Bl : below (mk d p ac) before).
        { assert (leb ac before) by (apply L6; [apply HB|apply leb_refl]).
          destruct d; split; cbn; auto. }
        destruct (bot before) eqn:Nb; [refine (dead_ok _ _ _ _ _ _ _ _ _ HB _ Bl L13 Ef); auto|].
        destruct (ign && pure (rebuild a (opn d) cs')) eqn:Ip.
        { apply andb_true_iff in Ip. refine (dead_ok _ _ _ _ _ _ _ _ _ HB _ Bl L13 Ef); auto. }
        rewrite finish_live in Ef; [|exact Nb|intros ->; exact Ip]. cbn [rebuild] in Ef.
        apply derived_opn in D. destruct D as [D1 D2].
        assert (Fp : ign = false -> bot (pick d (forced (rebuild a (opn d) cs') (mk d p ac))) = true -> bot p = true).
        { intros Hi. rewrite pick_forced, pick_mk, Bool.eqb_reflx. cbn [rebuild ann]. rewrite flag_set_pure.
          destruct (flag (negb d) a) eqn:X; [|auto]. auto. }
        assert (Fa : ign = false -> bot (pick (negb d) (forced (rebuild a (opn d) cs') (mk d p ac))) = true ->
                  bot ac = true \/ forallb (fun c => fl d c) cs = true).
        { intros Hi. rewrite pick_forced, pick_mk, negb_involutive. cbn [rebuild ann]. rewrite flag_set_pure.
          replace (Bool.eqb (negb d) d) with false by (destruct d; reflexivity).
          destruct (flag d a) eqn:X; auto. }
        eapply leave_ok; [exact O'|exact HB|exact Nb| | |exact Bl| | | |exact I|exact L13|exact Ef].
        - intros ->. exact Ip.
        - unfold pure at 1. cbn [ann]. rewrite Pa. apply (kept_pure _ _ _ L1).
        - intros _ k. cbn [rebuild ann]. apply flag_set_pure.
        - intros Hi Pe H1 H2. apply (L9 Hi eq_refl Pe).
          + apply Fp; [exact Hi|]. destruct d; assumption.
          + apply Fa; [exact Hi|]. destruct d; assumption.
        - intros a' A1 A2 A3. unfold rebuild. cbn [set_ann]. split.
          + apply sv_node. intros Sk. split; [|rewrite svbody_opn; exact L11].
            intros [H|[? _]]; [|discriminate]. rewrite A1 in H. specialize (A2 H).
            intros h r h1 q _. apply (holds_flag true). cbn [negb]. rewrite !A2. intuition discriminate.
          + apply tidy_opn. split; [|exact L12]. intros Hi. apply derived'_opn. specialize (A3 Hi).
            split; rewrite A3; intros H.
            * apply L8; auto.
            * rewrite negb_involutive in H. apply L7; auto. }
      destruct o; [|apply (G true); reflexivity|apply (G false); reflexivity|destruct D].
      clear G. cbn [derived] in D. destruct cs as [|c [|]]; try contradiction.
      inversion IH as [|? ? IHc _]; inversion Oc as [|? ? Oc1 _]; inversion Nc as [|? ? Nc1 _]; subst.
      cbn [OptModel.data_flow] in E.
      destruct (data_flow ign before imp c) as [[c' [t g]] imp1] eqn:Ec.
      destruct (df_finish ign before (rebuild a ONot [c']) (g, t)) as [e1 s1] eqn:Ef. inversion E; subst. clear E.
      specialize (IHc _ _ _ _ _ _ Oc1 Nc1 HB Ec).
      destruct IHc as (C1 & C2 & C3 & C4 & C5 & C6 & C7 & C8 & C9 & C10).
      assert (O' : ok (rebuild a ONot [c'])) by (apply ok_rebuild; [eexists; reflexivity|auto]).
      assert (Bl : below (g, t) before) by (destruct C3; split; assumption).
      assert (Pp : pure (rebuild a ONot [c']) = pure c') by (cbn; apply andb_true_r).
      destruct (bot before) eqn:Nb; [refine (dead_ok _ _ _ _ _ _ _ _ _ HB _ Bl C10 Ef); auto|].
      destruct (ign && pure (rebuild a ONot [c'])) eqn:Ip.
      { apply andb_true_iff in Ip. refine (dead_ok _ _ _ _ _ _ _ _ _ HB _ Bl C10 Ef); auto. }
      rewrite finish_live in Ef; [|exact Nb|intros ->; exact Ip]. cbn [rebuild] in Ef.
      assert (Fp : ign = false -> forall k, bot (pick k (forced (rebuild a ONot [c']) (g, t))) = true ->
                 bot (pick (negb k) (t, g)) = true).
      { intros Hi k. rewrite pick_forced. cbn [rebuild ann]. rewrite flag_set_pure.
        destruct (flag (negb k) a) eqn:X.
        - intros _. specialize (C7 Hi _ (D _ X)). rewrite negb_involutive in C7. exact C7.
        - destruct k; cbn [pick negb fst snd]; auto. }
      eapply leave_ok; [exact O'|exact HB|exact Nb| | |exact Bl| | | |exact I|exact C10|exact Ef].
      + intros ->. exact Ip.
      + unfold pure at 1. cbn [ann]. rewrite Pa, Pp. cbn. rewrite andb_true_r. exact C2.
      + intros _ k. cbn [rebuild ann]. apply flag_set_pure.
      + intros Hi Pe H1 H2. rewrite Pp in Pe. apply (C6 Hi eq_refl Pe).
        * apply (Fp Hi false). exact H2.
        * apply (Fp Hi true). exact H1.
      + intros a' A1 A2 A3. unfold rebuild. cbn [set_ann]. split.
        * apply sv_node. intros Sk. split; [|exact C8].
          intros [H|[? _]]; [|discriminate]. rewrite A1 in H. specialize (A2 H).
          intros h r h1 q _. apply (holds_flag true). cbn [negb]. rewrite !A2. intuition discriminate.
        * cbn [OptTidy.tidy]. split; [|exact C9]. intros Hi k Hk. rewrite A3 in Hk by exact Hi.
          apply Fp in Hk; [|exact Hi]. rewrite C5 by auto. exact Hk.
  Qed.

  (** ** The analysis is right about the file *)
  Hypothesis f_wf : wf_file f.
  Hypothesis b_about : about f b.

  Definition result_ok (ign : bool) (e' : expr) (s : after) (imp' : df_domain) (h : hist) (r : bool) (h1 : hist) (q : bool) :=
    exists r', evalc ign e' h = Done r' h1 q /\
      (ign = false -> q = false -> r' = r /\ sat (pick r s)) /\ ((h1 = h /\ q = false) \/ sat imp').

  Lemma evalc_const' ign c v h : ok c -> (if (v : bool) then is_true c else is_false c) = true ->
    evalc ign c h = Done v h false.
  Proof.
    intros O I. destruct (const_pure c v O I) as (a & -> & Pa & _). cbn [OptEval.evalc]. rewrite Pa.
    destruct v; reflexivity.
  Qed.

  Lemma leave_sem ign e0 s0 e' s' imp' h r h1 q : ok e0 -> (ign = true -> pure e0 = false) ->
    (forall a', a_pure a' = pure e0 -> (ign = false -> pure e0 = false -> holds a' r q) ->
       evalc ign (set_ann e0 a') h = Done r h1 q) ->
    (pure e0 = true -> h1 = h /\ q = false) ->
    (ign = false -> q = false -> sat (pick r s0) /\ fl (negb r) e0 = false) ->
    ((h1 = h /\ q = false) \/ sat imp') ->
    df_leave e0 s0 = (e', s') -> result_ok ign e' s' imp' h r h1 q.
  Proof.
    intros O Hp Hev Hpu Hs Hi E. apply leave_spec in E; [|exact O]. destruct E as [-> E].
    assert (Hs' : ign = false -> q = false -> sat (pick r (forced e0 s0))).
    { intros H1 H2. destruct (Hs H1 H2) as [G1 G2]. rewrite pick_forced, G2. exact G1. }
    inversion E as [v c Pe Oc Ic B1 B2 Ec|a' Pe B1 Sa Ec|a' Pe Pa Fa Ec]; subst.
    - destruct (Hpu Pe) as [-> ->].
      assert (Hf : ign = false) by (destruct ign; [rewrite Hp in Pe by reflexivity; discriminate|reflexivity]).
      specialize (Hs' Hf eq_refl). exists v. split; [apply evalc_const'; assumption|]. split; [|auto].
      intros _ _. assert (v = r); [|subst; auto].
      destruct v, r; try reflexivity; exfalso; eapply sat_bot; eassumption.
    - exists r. split; [|split; [auto|exact Hi]]. apply Hev; [apply (proj1 Sa)|]. intros _ H. congruence.
    - exists r. split; [|split; [auto|exact Hi]]. apply Hev; [congruence|]. intros Hf _.
      destruct q; [apply holds_quit|]. specialize (Hs' Hf eq_refl). apply (holds_flag r).
      assert (G : flag (negb r) a' = false).
      { rewrite Fa, negb_involutive. destruct (bot _) eqn:X; [|reflexivity]. exfalso. eapply sat_bot; eassumption. }
      rewrite G. split; [discriminate|]. intros _. split; [auto|discriminate].
  Qed.

  Definition flow_sem (e : expr) : Prop := forall ign before imp e' s imp',
    ok e -> neat e -> bounded before -> sat before -> data_flow ign before imp e = (e', s, imp') ->
    forall h r h1 q, evalc ign e h = Done r h1 q -> result_ok ign e' s imp' h r h1 q.

  Lemma loop_sem ign d cs : Forall flow_sem cs -> Forall ok cs -> Forall neat cs ->
    forall bef acc imp cs' p ac imp', bounded bef -> bounded acc -> sat bef ->
    dl ign d cs bef acc imp = (cs', p, ac, imp') ->
    forall h r h1 q, cloop evalc ign d cs h = Done r h1 q ->
    exists r', cloop evalc ign d cs' h = Done r' h1 q /\
      (ign = false -> q = false -> r' = r /\ (r = d -> sat p) /\
         (r = negb d -> sat ac /\ forallb (fun c => fl d c) cs = false)) /\
      ((h1 = h /\ q = false) \/ sat imp').
  Proof.
    intros IH. induction IH as [|c cs Hc IH IHcs]; intros O N bef acc imp cs' p ac imp' HB HA HS E h r h1 q Ev;
      cbn [dl] in E.
    - inversion E; subst. cbn [cloop] in *. inversion Ev; subst. exists r. split; [reflexivity|].
      split; [|auto]. intros _ _. split; [reflexivity|]. split; [auto|]. destruct r; discriminate.
    - inversion O as [|? ? Oc O']; inversion N as [|? ? Nc N']; subst.
      destruct (data_flow _ bef imp c) as [[c' s] imp1] eqn:Ec.
      destruct (dl ign d cs _ _ imp1) as [[[cs1 p1] a1] imp2] eqn:El. inversion E; subst. clear E.
      cbn [cloop] in Ev. destruct (evalc _ c h) as [|r1 h2 q1] eqn:E1; [discriminate|].
      destruct (Hc _ _ _ _ _ _ Oc Nc HB HS Ec _ _ _ _ E1) as (r2 & E2 & R2 & I2).
      pose proof (flow_outcome c _ _ _ _ _ _ Oc Nc HB Ec) as
        (C1 & C2 & C3 & C4 & C5 & C6 & C7 & C8 & C9 & C10).
      destruct (below_pick _ _ d C3) as [B1 B2]. destruct (below_pick _ _ (negb d) C3) as [B3 B4].
      assert (L : loop_ok ign d (pick d s) (df_join acc (pick (negb d) s)) imp1 cs cs1 p ac imp').
      { apply loop_flow; try assumption; [|apply bounded_join; assumption].
        apply Forall_forall. intros; apply flow_outcome. }
      destruct L as (L1 & _ & (L4 & L5 & _) & _ & _ & _ & _ & _ & _ & L13).
      assert (I3 : (h2 = h /\ q1 = false) \/ sat imp').
      { destruct I2 as [I2|I2]; [auto|right]. eapply sat_leb; eassumption. }
      cbn [cloop]. rewrite (Forall2_nil _ _ _ L1), E2.
      destruct (ign && is_nil cs) eqn:En.
      { apply andb_true_iff in En. destruct En as [-> En]. destruct cs; [|discriminate].
        inversion L1; subst. cbn [cloop] in *.
        assert (Hq : h1 = h2 /\ q = q1).
        { destruct (xorb r1 d || q1) eqn:X; inversion Ev; subst; [auto|].
          apply orb_false_iff in X. destruct X as [_ ->]. auto. }
        destruct Hq as [-> ->].
        destruct (xorb r2 d || q1) eqn:X2; [eexists; split; [reflexivity|split; [discriminate|exact I3]]|].
        apply orb_false_iff in X2. destruct X2 as [_ ->].
        eexists; split; [reflexivity|split; [discriminate|exact I3]]. }
      assert (Ei : (if is_nil cs then ign else false) = false)
        by (destruct ign, (is_nil cs); try reflexivity; discriminate).
      destruct q1.
      { rewrite !orb_true_r in *. inversion Ev; subst. exists (negb d). split; [reflexivity|].
        split; [discriminate|]. destruct I3 as [[_ ?]|I3]; [discriminate|auto]. }
      destruct (R2 Ei eq_refl) as [-> S2]. rewrite !orb_false_r in *.
      destruct (xorb r1 d) eqn:X.
      + inversion Ev; subst. assert (r1 = negb d) by (destruct r1, d; cbn in *; congruence). subst r1.
        exists (negb d). split; [reflexivity|]. split; [|exact I3]. intros Hi _. split; [reflexivity|].
        split; [destruct d; discriminate|]. intros _. split.
        * eapply sat_leb; [exact L5|]. apply sat_join_r. exact S2.
        * cbn [forallb]. destruct (fl d c) eqn:Fc; [|reflexivity]. exfalso.
          specialize (C7 Ei d Fc). eapply sat_bot; eassumption.
      + assert (r1 = d) by (destruct r1, d; cbn in *; congruence). subst r1.
        destruct (IHcs O' N' _ _ _ _ _ _ _ B1 (bounded_join _ _ HA B3) S2 El _ _ _ _ Ev) as (r' & E' & R' & I').
        exists r'. split; [exact E'|]. split.
        * intros Hi Hq. destruct (R' Hi Hq) as (A1 & A2 & A3). split; [exact A1|]. split; [exact A2|].
          intros Hr. destruct (A3 Hr) as [A4 A5]. split; [exact A4|]. cbn [forallb]. rewrite A5. apply andb_false_r.
        * destruct I3 as [[-> _]|I3]; auto.
  Qed.

  Lemma eval_leaf_file l v h : file_val f l = Some v -> fst (fst (eval_leaf level b l h)) = v.
  Proof.
    intros V. pose proof (b_about l v h V) as A.
    destruct l; cbn [file_val] in V; try discriminate; cbn [eval_leaf fst]; try exact A; congruence.
  Qed.

  Lemma flow_result : forall e, flow_sem e.
  Proof.
    induction e as [a l|a o cs IH] using expr_ind';
      intros ign before imp e' s imp' O N HB HS E h r h1 q Ev;
      pose proof (proj1 (flow_outcome _ _ _ _ _ _ _ O N HB E)) as O'.
    - cbn [OptModel.data_flow] in E.
      destruct (df_finish ign before (Leaf a l) (before, before)) as [e1 s1] eqn:Ef. inversion E; subst. clear E.
      assert (Nb : bot before = false) by (destruct (bot before) eqn:X; [exfalso; eapply sat_bot; eassumption|reflexivity]).
      pose proof (evalc_eval level b _ O _ _ _ _ _ Ev) as Ee. cbn [eval] in Ee.
      assert (Pu : a_pure a = true -> h1 = h /\ q = false).
      { intros Pa. pose proof (pure_evalc level b _ O Pa ign h) as Pe. rewrite Pe in Ev. inversion Ev; auto. }
      assert (Hi : (h1 = h /\ q = false) \/ sat (if a_pure a then imp else df_join imp before)).
      { destruct (a_pure a); [left; auto|right; apply sat_join_r; exact HS]. }
      destruct (ign && pure (Leaf a l)) eqn:Ip.
      { apply andb_true_iff in Ip. destruct Ip as [-> Pa].
        destruct (finish_dead true before (Leaf a l) _ _ _ (or_intror (conj eq_refl Pa)) Ef) as (_ & I' & _).
        destruct (Pu Pa) as [-> ->]. exists false. split; [apply evalc_const'; assumption|].
        split; [discriminate|exact Hi]. }
      rewrite finish_live in Ef; [|exact Nb|intros ->; exact Ip].
      set (s0 := transfer udb gdb before l (before, before)) in *.
      assert (Ta : same_ann a (transfer_annot fo l s0 a))
        by (destruct l; split; try reflexivity; intros []; reflexivity).
      destruct Ta as [Ta1 Ta2].
      assert (O0 : ok (Leaf (transfer_annot fo l s0 a) l)) by (apply (same_ann_ok (Leaf a l)); [split; assumption|exact O]).
      assert (R : result_ok false e' s (if a_pure a then imp else df_join imp before) h r h1 q).
      { eapply (leave_sem false); [exact O0|discriminate| | | |exact Hi|exact Ef].
        - intros a' A1 A2. cbn [set_ann OptEval.evalc]. rewrite Ee. cbn [of_outcome].
          unfold pure in A1, A2. cbn [ann] in A1, A2. rewrite A1, Ta1 in *.
          destruct (a_pure a) eqn:Pa; [destruct (Pu eq_refl) as [-> ->]; reflexivity|].
          apply chk_done. auto.
        - unfold pure. cbn [ann]. rewrite Ta1. exact Pu.
        - intros _ Hq. split.
          + destruct (file_val f l) as [v|] eqn:Fv.
            * pose proof (eval_leaf_file l v h Fv) as Er. rewrite Ee in Er. cbn [fst] in Er. subst v.
              apply (transfer_sat level udb gdb f u f_wf before l r HS N Fv).
            * subst s0. rewrite (transfer_unknown udb gdb f) by exact Fv. destruct r; exact HS.
          + cbn [ann]. rewrite Ta2.
            assert (Hh : holds a r q).
            { eapply (evalc_holds level b false (Leaf a l)) with (h := h) (h1 := h1); [exact O|discriminate|exact Ev]. }
            apply (holds_flag r) in Hh. destruct Hh as [_ Hh]. destruct (Hh Hq) as [_ Hh'].
            destruct (flag (negb r) a); [|reflexivity]. specialize (Hh' eq_refl). destruct r; discriminate. }
      destruct R as (r' & R1 & R2 & R3). exists r'. split; [|split; [intros _; apply R2; reflexivity|exact R3]].
      destruct ign; [|exact R1].
      apply evalc_mono; assumption.
    - assert (Nb : bot before = false) by (destruct (bot before) eqn:X; [exfalso; eapply sat_bot; eassumption|reflexivity]).
      pose proof O as O1. apply ok_node in O1. destruct O1 as (S & Pa & Oc).
      apply neat_node in N. destruct N as [D Nc].
      apply evalc_body' in Ev; [|exact O].
      (* from the body of the rebuilt node *)
      assert (Fin : forall cs' s0, ok (rebuild a o cs') ->
                df_finish ign before (rebuild a o cs') s0 = (e', s) ->
                (exists r', body ign o cs' h = Done r' h1 q /\
                   (ign = false -> q = false -> r' = r /\ sat (pick r s0) /\ flag (negb r) a = false) /\
                   ((h1 = h /\ q = false) \/ sat imp')) ->
                result_ok ign e' s imp' h r h1 q).
      { intros cs' s0 Or Ef (r' & B' & R' & I').
        pose proof Or as Or2. apply ok_node in Or2. destruct Or2 as (Sr & Pr & Ocr).
        assert (Pu : pure (rebuild a o cs') = true -> h1 = h /\ q = false).
        { intros Pe. rewrite pure_rebuild in Pe. destruct (body_pure level b ign o cs' h Sr Ocr Pe) as [r0 B0].
          rewrite B0 in B'. inversion B'; auto. }
        destruct (ign && pure (rebuild a o cs')) eqn:Ip.
        { apply andb_true_iff in Ip. destruct Ip as [-> Pe].
          destruct (finish_dead true before _ _ _ _ (or_intror (conj eq_refl Pe)) Ef) as (_ & I2 & _).
          destruct (Pu Pe) as [-> ->]. exists false. split; [apply evalc_const'; assumption|].
          split; [discriminate|exact I']. }
        rewrite finish_live in Ef; [|exact Nb|intros ->; exact Ip]. unfold rebuild in Ef.
        assert (G : result_ok ign e' s imp' h r' h1 q).
        { eapply leave_sem; [exact Or|intros ->; exact Ip| |exact Pu| |exact I'|exact Ef].
          - intros a' A1 A2. unfold rebuild. cbn [set_ann]. apply body_evalc; [| |exact B'].
            + apply ok_node. rewrite A1. auto.
            + intros Hi Pe. apply A2; [exact Hi|]. rewrite <- A1. exact Pe.
          - intros Hi Hq. destruct (R' Hi Hq) as (-> & A1 & A2). split; [exact A1|].
            cbn [rebuild ann]. rewrite flag_set_pure. exact A2. }
        destruct G as (r2 & E2 & R2 & I2). exists r2. split; [exact E2|]. split; [|exact I2].
        intros Hi Hq. destruct (R' Hi Hq) as (-> & _). auto. }
      assert (G : forall d, o = opn d -> result_ok ign e' s imp' h r h1 q).
      { intros d ->. rewrite data_flow_opn in E.
        destruct (dl ign d cs before df_bottom imp) as [[[cs' p] ac] imp1] eqn:El.
        destruct (df_finish ign before (rebuild a (opn d) cs') (mk d p ac)) as [e1 s1] eqn:Ef.
        inversion E; subst. clear E.
        assert (FO : Forall flow_ok cs) by (apply Forall_forall; intros; apply flow_outcome).
        pose proof (loop_flow ign d cs FO Oc Nc _ _ _ _ _ _ _ HB bounded_bottom El) as L.
        destruct L as (L1 & _ & _ & _ & _ & _ & L10 & _).
        assert (Or : ok (rebuild a (opn d) cs')) by (apply ok_rebuild; [apply shape_opn|eapply kept_ok; exact L1]).
        apply (Fin cs' _ Or Ef). rewrite body_opn in *.
        destruct (loop_sem ign d cs IH Oc Nc _ _ _ _ _ _ _ HB bounded_bottom HS El _ _ _ _ Ev)
          as (r' & E' & R' & I').
        exists r'. split; [exact E'|]. split; [|exact I']. intros Hi Hq.
        destruct (R' Hi Hq) as (A1 & A2 & A3). split; [exact A1|].
        apply derived_opn in D. destruct D as [D1 D2]. rewrite pick_mk.
        destruct (Bool.bool_dec r d) as [->|Nr].
        - rewrite Bool.eqb_reflx. specialize (A2 eq_refl). split; [exact A2|].
          destruct (flag (negb d) a) eqn:X; [|reflexivity]. exfalso.
          specialize (L10 Hi (D2 eq_refl)). eapply sat_bot; eassumption.
        - assert (Er : r = negb d) by (destruct r, d; cbn; congruence). destruct (A3 Er) as [A4 A5]. rewrite Er.
          replace (Bool.eqb (negb d) d) with false by (destruct d; reflexivity). split; [exact A4|].
          rewrite negb_involutive. destruct (flag d a) eqn:X; [|reflexivity]. rewrite D1 in A5 by reflexivity. discriminate. }
      destruct o; [|apply (G true); reflexivity|apply (G false); reflexivity|destruct D].
      clear G. cbn [derived] in D. destruct cs as [|c [|]]; try contradiction.
      inversion IH as [|? ? IHc _]; inversion Oc as [|? ? Oc1 _]; inversion Nc as [|? ? Nc1 _]; subst.
      cbn [OptModel.data_flow] in E.
      destruct (data_flow ign before imp c) as [[c' [t g]] imp1] eqn:Ec.
      destruct (df_finish ign before (rebuild a ONot [c']) (g, t)) as [e1 s1] eqn:Ef. inversion E; subst. clear E.
      pose proof (flow_outcome c _ _ _ _ _ _ Oc1 Nc1 HB Ec) as
        (C1 & C2 & C3 & C4 & C5 & C6 & C7 & C8 & C9 & C10).
      assert (Or : ok (rebuild a ONot [c'])) by (apply ok_rebuild; [eexists; reflexivity|auto]).
      apply (Fin [c'] _ Or Ef). cbn [OptEval.body] in *.
      destruct (evalc ign c h) as [|rc hc qc] eqn:E1; [discriminate|]. cbn [neg_res] in Ev. inversion Ev; subst.
      destruct (IHc _ _ _ _ _ _ Oc1 Nc1 HB HS Ec _ _ _ _ E1) as (r2 & E2 & R2 & I2). rewrite E2. cbn [neg_res].
      exists (negb r2). split; [reflexivity|]. split; [|exact I2]. intros Hi Hq.
      destruct (R2 Hi Hq) as [-> S2]. split; [reflexivity|].
      split; [destruct rc; exact S2|]. rewrite negb_involutive.
      destruct (flag rc a) eqn:X; [|reflexivity]. exfalso. specialize (C7 Hi _ (D _ X)).
      rewrite negb_involutive in C7. eapply sat_bot; eassumption.
  Qed.
End OptFlow.
