(** * Simulation lemmas shared by the optimizer's passes *)
From Coq Require Import List ZArith Bool Lia Permutation.
From Verif Require Import ExprModel ExprSpec ExprProofs OptModel OptEval.
Import ListNotations.

Section OptSim.
  Context {F : Type}.
  Variable fo : float_ops F.
  Variable level : nat.
  Variable b : behaviour.
  Variable U : bool.
  Notation expr := (expr F).
  Notation eval := (@eval F level b).
  Notation evalc := (@evalc F level b).
  Notation ok := (@ok F level).
  Notation sv := (@sv F level b U).
  Notation own := (@own F level b).
  Notation body := (@body F level b).
  Notation svbody := (@svbody F level b U).
  Notation simf := (@simf F level b).
  Notation sim := (@sim F level b).
  Notation value := (@value F level b).

  (** ** One more operand in front of a list *)
  Lemma cloop_cons ign last d c ds h r h1 q R H Q :
    ok c -> Forall ok ds -> (last = true -> ds = []) ->
    evalc (if last : bool then ign else false) c h = Done r h1 q ->
    (if xorb r d || q then (R, H, Q) = (negb d, h1, q)
     else exists r2, cloop evalc ign d ds h1 = Done r2 H Q /\ (ign = false -> Q = false -> r2 = R)) ->
    exists r', cloop evalc ign d (c :: ds) h = Done r' H Q /\ (ign = false -> Q = false -> r' = R).
  Proof.
    intros Oc Ods Hl Ec Er. cbn [cloop].
    assert (E : evalc (if is_nil ds then ign else false) c h = Done r h1 q).
    { destruct last; [rewrite Hl by reflexivity; exact Ec|].
      destruct (is_nil ds); [apply evalc_mono; assumption|exact Ec]. }
    rewrite E. destruct (xorb r d || q).
    - inversion Er; subst. eauto.
    - exact Er.
  Qed.

  Lemma cloop_app d ign ds : forall rest h r h1 q R H Q,
    Forall ok ds -> Forall ok rest ->
    cloop evalc false d ds h = Done r h1 q ->
    (if xorb r d || q then (R, H, Q) = (negb d, h1, q)
     else exists r2, cloop evalc ign d rest h1 = Done r2 H Q /\ (ign = false -> Q = false -> r2 = R)) ->
    exists r', cloop evalc ign d (ds ++ rest) h = Done r' H Q /\ (ign = false -> Q = false -> r' = R).
  Proof.
    induction ds as [|c ds IH]; intros rest h r h1 q R H Q O1 O2 E1 E2; cbn [app].
    - cbn [cloop] in E1. inversion E1; subst. rewrite xorb_nilpotent in E2. exact E2.
    - cbn [cloop] in E1. inversion O1; subst.
      replace (if is_nil ds then false else false) with false in E1 by (destruct (is_nil ds); reflexivity).
      destruct (evalc false c h) as [|r' h' q'] eqn:Ec; [discriminate|].
      apply cloop_cons with (last := false) (r := r') (h1 := h') (q := q');
        [assumption|apply Forall_app; auto|discriminate|exact Ec|].
      destruct (xorb r' d || q') eqn:Eq.
      + inversion E1; subst. clear E1.
        replace (xorb (negb d) d || q) with true in E2; [exact E2|]. destruct d; reflexivity.
      + apply IH with (r := r) (h1 := h1) (q := q); assumption.
  Qed.

  (** ** Operand lists, pointwise *)

  (** What the children of a node satisfy after a pass. *)
  Definition kept (c c' : expr) : Prop := ok c' /\ (pure c = true -> pure c' = true).

  Lemma kept_pure cs cs' : Forall2 kept cs cs' -> forallb pure cs = true -> forallb pure cs' = true.
  Proof.
    induction 1 as [|c c' cs cs' [_ H] _ IH]; [auto|]. cbn. rewrite !andb_true_iff. tauto.
  Qed.
  Lemma kept_ok cs cs' : Forall2 kept cs cs' -> Forall ok cs'.
  Proof. induction 1 as [|c c' cs cs' [H _] _ IH]; constructor; auto. Qed.
  Lemma Forall2_nil {A B} (P : A -> B -> Prop) l l' : Forall2 P l l' -> is_nil l' = is_nil l.
  Proof. destruct 1; reflexivity. Qed.

  (** [P] for the operands whose evaluation matters *)
  Section Lists.
    Variable P : bool -> expr -> expr -> Prop.
    Variable ign : bool.
    Fixpoint lrel (cs cs' : list expr) : Prop :=
      match cs, cs' with
      | c :: ds, c' :: ds' =>
          if ign && forallb pure cs then True
          else P (if is_nil ds then ign else false) c c' /\ lrel ds ds'
      | _, _ => True
      end.
    Fixpoint commarel (cs cs' : list expr) : Prop :=
      match cs, cs' with
      | c :: ds, c' :: ds' => P (if is_nil ds then ign else true) c c' /\ commarel ds ds'
      | _, _ => True
      end.
  End Lists.

  Lemma cloop_cong fl ign d cs : forall cs', Forall ok cs -> Forall2 kept cs cs' ->
    lrel (simf fl) ign cs cs' ->
    forall h r h1 q, cloop evalc ign d cs h = Done r h1 q ->
    exists r', cloop evalc ign (xorb fl d) cs' h = Done r' h1 q /\
               (ign = false -> q = false -> r' = xorb fl r).
  Proof.
    induction cs as [|c cs IH]; intros cs' O K L h r h1 q E; inversion K; subst.
    - cbn [cloop] in *. inversion E; subst. eauto.
    - rename y into c'. rename l' into cs'. cbn [lrel] in L. inversion O; subst.
      destruct (ign && forallb pure (c :: cs)) eqn:Sk.
      + apply andb_true_iff in Sk. destruct Sk as [-> Sk].
        destruct (cloop_pure level b true d (c :: cs) h O Sk) as [r0 E0]. rewrite E0 in E. inversion E; subst.
        destruct (cloop_pure level b true (xorb fl d) (c' :: cs') h1) as [r1 E1];
          [eapply kept_ok; exact K|eapply kept_pure; eassumption|].
        rewrite E1. exists r1. split; [reflexivity|discriminate].
      + destruct L as [L1 L2]. cbn [cloop] in E.
        destruct (evalc _ c h) as [|r1 h2 q1] eqn:Ec; [discriminate|].
        destruct (L1 _ _ _ _ Ec) as (r2 & Ec2 & R2).
        assert (X : forall x, xorb (xorb fl x) (xorb fl d) = xorb x d) by (intros []; destruct fl, d; reflexivity).
        destruct (ign && is_nil cs) eqn:En.
        * apply andb_true_iff in En. destruct En as [-> En]. destruct cs; [|discriminate].
          inversion H3; subst. cbn [cloop is_nil] in *. rewrite Ec2.
          assert (Hq : h1 = h2 /\ q = q1).
          { destruct (xorb r1 d || q1) eqn:E1; inversion E; subst; [auto|].
            apply orb_false_iff in E1. destruct E1 as [_ ->]. auto. }
          destruct Hq as [-> ->].
          destruct (xorb r2 (xorb fl d) || q1) eqn:E2; [eexists; split; [reflexivity|discriminate]|].
          apply orb_false_iff in E2. destruct E2 as [_ ->].
          eexists; split; [reflexivity|discriminate].
        * assert (Ei : (if is_nil cs then ign else false) = false)
            by (destruct ign, (is_nil cs); try reflexivity; discriminate).
          apply cloop_cons with (last := is_nil cs) (r := r2) (h1 := h2) (q := q1).
          -- apply H1.
          -- eapply kept_ok; eassumption.
          -- intros Hn. destruct cs; [|discriminate]. inversion H3; reflexivity.
          -- exact Ec2.
          -- destruct q1.
             { rewrite !orb_true_r in *. inversion E; subst. destruct fl, d; reflexivity. }
             rewrite !orb_false_r in *. rewrite (R2 Ei eq_refl), X.
             destruct (xorb r1 d); [inversion E; subst; destruct fl, d; reflexivity|].
             eapply IH; eassumption.
  Qed.

  (** The last operand of a comma may be negated. *)
  Lemma ccomma_cong fl ign cs : forall cs' ret ret', Forall2 kept cs cs' ->
    (cs = [] -> ign = false -> ret' = xorb fl ret) ->
    commarel (fun i c c' => (i = true -> sim i c c') /\ (i = false -> simf fl i c c')) ign cs cs' ->
    forall h r h1 q, ccomma evalc ign ret cs h = Done r h1 q ->
    exists r', ccomma evalc ign ret' cs' h = Done r' h1 q /\
               (ign = false -> q = false -> r' = xorb fl r).
  Proof.
    induction cs as [|c cs IH]; intros cs' ret ret' K Hr L h r h1 q E; inversion K; subst.
    - cbn [ccomma] in *. inversion E; subst. eauto.
    - rename y into c'. rename l' into cs'. cbn [commarel] in L. destruct L as [L1 L2].
      cbn [ccomma] in *. rewrite (Forall2_nil _ _ _ H3).
      destruct (evalc _ c h) as [|r1 h2 q1] eqn:Ec; [discriminate|].
      assert (G : exists r2, evalc (if is_nil cs then ign else true) c' h = Done r2 h2 q1 /\
                  ((if is_nil cs then ign else true) = false -> q1 = false -> r2 = xorb fl r1)).
      { destruct (if is_nil cs then ign else true).
        - destruct (proj1 L1 eq_refl _ _ _ _ Ec) as (r2 & E2 & _). exists r2. split; [exact E2|discriminate].
        - exact (proj2 L1 eq_refl _ _ _ _ Ec). }
      destruct G as (r2 & E2 & R2). rewrite E2.
      destruct q1; [inversion E; subst; exists r2; split; [reflexivity|discriminate]|].
      eapply IH; [exact H3| |exact L2|exact E].
      intros -> Hi. cbn [is_nil] in R2. auto.
  Qed.

  (** ** Nodes *)

  (** Replacing the operands *)
  Lemma body_cong ign o cs cs' : shape o cs -> Forall ok cs -> Forall2 kept cs cs' ->
    match o with
    | ONot => match cs, cs' with c :: _, c' :: _ => sim ign c c' | _, _ => True end
    | OAnd | OOr => lrel sim ign cs cs'
    | OComma => commarel sim ign cs cs'
    end ->
    forall h r h1 q, body ign o cs h = Done r h1 q ->
    exists r', body ign o cs' h = Done r' h1 q /\ (ign = false -> q = false -> r' = r).
  Proof.
    intros S O K L h r h1 q E. 
    assert (X : forall x, xorb false x = x) by (intros []; reflexivity).
    destruct o; cbn [OptEval.body] in *.
    - destruct S as [c ->]. inversion K as [|? c' ? ? ? K']; subst.
      destruct (evalc ign c h) as [|r1 h2 q1] eqn:Ec; [discriminate|].
      destruct (L _ _ _ _ Ec) as (r2 & E2 & R2). rewrite E2. cbn in *. inversion E; subst.
      eexists. split; [reflexivity|]. intros Hi Hq. rewrite (R2 Hi Hq), X. reflexivity.
    - destruct (cloop_cong false ign true cs cs' O K L _ _ _ _ E) as (r2 & E2 & R2).
      exists r2. rewrite X in *. auto.
    - destruct (cloop_cong false ign false cs cs' O K L _ _ _ _ E) as (r2 & E2 & R2).
      exists r2. rewrite X in *. auto.
    - destruct (ccomma_cong false ign cs cs' false false K) with (h := h) (r := r) (h1 := h1) (q := q)
        as (r2 & E2 & R2); [auto| |exact E|].
      + clear - L. revert cs' L. induction cs as [|c cs IH]; intros [|c' cs'] L; cbn [commarel] in *; auto.
        destruct L as [L1 L2]. split; [|auto]. split; intros E; exact L1.
      + exists r2. rewrite X in *. auto.
  Qed.

  Lemma shape_len o (cs cs' : list expr) : shape o cs -> length cs' = length cs -> shape o cs'.
  Proof.
    destruct o; cbn; auto.
    - intros [c ->]. destruct cs' as [|c' [|]]; try discriminate. eauto.
    - destruct cs, cs'; try discriminate; congruence.
  Qed.

  Lemma ok_rebuild a o cs : shape o cs -> Forall ok cs -> ok (rebuild a o cs).
  Proof. intros S O. apply ok_node. auto. Qed.

  Lemma pure_rebuild a o (cs : list expr) : pure (rebuild a o cs) = forallb pure cs.
  Proof. reflexivity. Qed.

  (** A node whose annotations are known to hold *)
  Lemma sim_node ign a a' o cs cs' :
    ok (Node a o cs) -> ok (Node a' o cs') ->
    (forall h r h1 q, body ign o cs h = Done r h1 q ->
       exists r', body ign o cs' h = Done r' h1 q /\ (ign = false -> q = false -> r' = r)) ->
    (ign = false -> pure (Node a' o cs') = false -> forall h r h1 q r',
       evalc ign (Node a o cs) h = Done r h1 q -> body false o cs' h = Done r' h1 q ->
       (q = false -> r' = r) -> holds a' r' q) ->
    sim ign (Node a o cs) (Node a' o cs').
  Proof.
    intros O O' B H h r h1 q E.
    destruct (B _ _ _ _ (evalc_body' _ _ _ _ _ _ _ _ _ _ O E)) as (r' & E' & R').
    exists r'. split.
    - apply body_evalc; [exact O'| |exact E']. intros -> P. eapply H; eauto.
    - intros Hi Hq. rewrite (R' Hi Hq). destruct r; reflexivity.
  Qed.

  Lemma sim_rebuild ign a o cs cs' : ok (Node a o cs) -> ok (rebuild a o cs') ->
    (forall h r h1 q, body ign o cs h = Done r h1 q ->
       exists r', body ign o cs' h = Done r' h1 q /\ (ign = false -> q = false -> r' = r)) ->
    (forallb pure cs' = false -> forallb pure cs = false \/ (ign = false -> own a (Node a o cs))) ->
    sim ign (Node a o cs) (rebuild a o cs').
  Proof.
    intros O O' B H. apply sim_node; [exact O|exact O'|exact B|].
    intros Hi P h r h1 q r' E E' R'.
    assert (G : holds a r q).
    { pose proof O as O2. apply ok_node in O2. destruct O2 as (_ & Pa & _).
      destruct (H P) as [P2|P2].
      - subst ign. rewrite evalc_node, Pa, P2 in E. apply chk_done in E. apply E.
      - apply (P2 Hi h r h1 q). eapply evalc_eval; eassumption. }
    destruct q; [|rewrite (R' eq_refl); exact G].
    split; [intros _ _; reflexivity|discriminate].
  Qed.

  Lemma holds_quit a r : holds (F := F) a r true.
  Proof. split; [auto|discriminate]. Qed.

  (** What is known to hold of a node in all states holds of a simulating one. *)
  Lemma own_sim a e e' : ok e -> ok e' -> sv false e -> (pure e = true \/ U = true) ->
    sim false e e' -> own a e -> own a e'.
  Proof.
    intros O O' V PU H Ho h r h1 q E.
    assert (T : exists r h1 q, evalc false e h = Done r h1 q).
    { destruct PU as [P|HU]; [rewrite pure_evalc by assumption; eauto|].
      eapply evalc_total; eassumption. }
    destruct T as (r0 & h0 & q0 & E0). destruct (H _ _ _ _ E0) as (r' & E' & R').
    apply evalc_eval in E'; [|exact O']. rewrite E in E'. inversion E'; subst.
    apply evalc_eval in E0; [|exact O]. specialize (Ho _ _ _ _ E0).
    destruct q0; [apply holds_quit|]. rewrite (R' eq_refl eq_refl).
    destruct r0; exact Ho.
  Qed.

  Lemma svbody_cong ign o cs cs' : Forall2 kept cs cs' ->
    svbody ign o cs ->
    match o with
    | ONot => match cs, cs' with c :: _, c' :: _ => sv ign c' | _, _ => True end
    | OAnd | OOr => lrel (fun i c c' => sv i c') ign cs cs'
    | OComma => commarel (fun i c c' => sv i c') ign cs cs'
    end ->
    svbody ign o cs'.
  Proof.
    intros K V L.
    assert (G : lrel (fun i c c' => sv i c') ign cs cs' -> svl sv ign cs').
    { clear - K. induction K as [|c c' cs cs' Kc K IH]; [auto|]. intros L. cbn [lrel svl] in *.
      destruct (ign && forallb pure (c :: cs)) eqn:E.
      - apply andb_true_iff in E. destruct E as [-> E].
        rewrite (kept_pure (c :: cs) (c' :: cs')) by (try constructor; assumption). exact I.
      - destruct (ign && forallb pure (c' :: cs')); [exact I|].
        destruct L as [L1 L2]. rewrite (Forall2_nil _ _ _ K). auto. }
    destruct o; cbn [OptEval.svbody] in *; auto.
    - inversion K; subst; auto.
    - clear - K L. induction K as [|c c' cs cs' Kc K IH]; [auto|]. cbn [commarel svcomma] in *.
      destruct L as [L1 L2]. rewrite (Forall2_nil _ _ _ K). auto.
  Qed.

  (** ** Whole passes *)
  Definition pass_ok (f : bool -> expr -> expr) : Prop :=
    forall ign e, ok e -> ok (f ign e) /\ (pure e = true -> pure (f ign e) = true).
  Definition pass_exact (f : bool -> expr -> expr) : Prop :=
    forall ign e, ok e -> pure (f ign e) = pure e.
  Definition pass_sound (f : bool -> expr -> expr) : Prop :=
    forall ign e, ok e -> sv ign e -> sv ign (f ign e) /\ sim ign e (f ign e).

  Lemma walk_children_kept f o ign cs :
    Forall (fun c => forall i, ok (f i c) /\ (pure c = true -> pure (f i c) = true)) cs ->
    Forall2 kept cs (walk_children f o ign cs).
  Proof.
    induction 1; cbn [walk_children]; constructor; [|assumption]. unfold kept. auto.
  Qed.
  Lemma walk_children_length f o ign (cs : list expr) : length (walk_children f o ign cs) = length cs.
  Proof. induction cs; cbn; auto. Qed.

  Lemma walk_ok f : pass_ok f -> pass_ok (walk f).
  Proof.
    intros Hf ign e. revert ign. induction e as [a l|a o cs IH] using expr_ind'; intros ign O.
    - cbn [walk]. apply Hf. exact O.
    - cbn [walk]. apply ok_node in O. destruct O as (S & Pa & Oc).
      assert (K : Forall2 kept cs (walk_children (walk f) o ign cs)).
      { apply walk_children_kept. rewrite Forall_forall in *. intros c Hc i.
        specialize (IH c Hc i (Oc c Hc)). exact IH. }
      assert (O' : ok (rebuild a o (walk_children (walk f) o ign cs))).
      { apply ok_rebuild; [|eapply kept_ok; exact K].
        eapply shape_len; [exact S|apply walk_children_length]. }
      destruct (Hf ign _ O') as [H1 H2]. split; [exact H1|].
      intros P. apply H2. rewrite pure_rebuild. apply (kept_pure _ _ K).
      rewrite <- Pa. exact P.
  Qed.

  Lemma walk_exact f : pass_ok f -> pass_exact f -> pass_exact (walk f).
  Proof.
    intros Hk Hf ign e. revert ign. induction e as [a l|a o cs IH] using expr_ind'; intros ign O.
    - cbn [walk]. apply Hf. exact O.
    - cbn [walk]. pose proof (walk_ok f Hk) as Hw. apply ok_node in O. destruct O as (S & Pa & Oc).
      rewrite Hf.
      + rewrite pure_rebuild. unfold pure at 2. cbn [ann]. rewrite Pa. clear Pa S.
        induction cs as [|c cs IHcs]; [reflexivity|]. cbn [walk_children forallb].
        inversion IH; inversion Oc; subst. f_equal; auto.
      + apply ok_rebuild; [eapply shape_len; [exact S|apply walk_children_length]|].
        eapply kept_ok with (cs := cs). apply walk_children_kept.
        rewrite Forall_forall in *. intros c Hc i. apply Hw. auto.
  Qed.

  Lemma walk_sound f : pass_ok f -> pass_sound f ->
    (U = true \/ pass_exact (walk f)) -> pass_sound (walk f).
  Proof.
    intros Hk Hf Hx ign e. pose proof (walk_ok f Hk) as Hw. revert ign.
    induction e as [a l|a o cs IH] using expr_ind'; intros ign O V.
    - cbn [walk]. apply Hf; assumption.
    - cbn [walk]. pose proof O as O2. apply ok_node in O2. destruct O2 as (S & Pa & Oc).
      set (cs' := walk_children (walk f) o ign cs).
      assert (K : Forall2 kept cs cs').
      { apply walk_children_kept. rewrite Forall_forall in *. intros c Hc i. apply Hw. auto. }
      assert (O' : ok (rebuild a o cs')).
      { apply ok_rebuild; [|eapply kept_ok; exact K].
        eapply shape_len; [exact S|apply walk_children_length]. }
      enough (G : sv ign (rebuild a o cs') /\ sim ign (Node a o cs) (rebuild a o cs')).
      { destruct G as [G1 G2]. destruct (Hf ign _ O' G1) as [H1 H2].
        split; [exact H1|]. eapply sim_trans; eassumption. }
      destruct (ign && a_pure a) eqn:Skip.
      { (* unused and pure *)
        apply andb_true_iff in Skip. destruct Skip as [-> Skip].
        assert (P' : forallb pure cs' = true) by (apply (kept_pure _ _ K); rewrite <- Pa; exact Skip).
        split.
        - apply sv_node. cbn. rewrite P'. discriminate.
        - intros h r h1 q E. rewrite pure_evalc in E by assumption. inversion E; subst.
          exists (value (rebuild a o cs') h1). rewrite pure_evalc by assumption.
          split; [reflexivity|discriminate]. }
      apply sv_node in V; [|exact Skip]. destruct V as [V1 V2].
      assert (L : match o with
                  | ONot => match cs, cs' with c :: _, c' :: _ => sim ign c c' /\ sv ign c' | _, _ => True end
                  | OAnd | OOr => lrel (fun i c c' => sim i c c' /\ sv i c') ign cs cs'
                  | OComma => commarel (fun i c c' => sim i c c' /\ sv i c') ign cs cs'
                  end).
      { assert (IH' : Forall (fun c => forall i, sv i c -> sim i c (walk f i c) /\ sv i (walk f i c)) cs).
        { rewrite Forall_forall in *. intros c Hc i Vc. apply and_comm. apply IH; auto. }
        clear - IH' V2. subst cs'.
        assert (G : forall o, o = OAnd \/ o = OOr -> svl sv ign cs ->
                 lrel (fun i c c' => sim i c c' /\ sv i c') ign cs (walk_children (walk f) o ign cs)).
        { clear V2 o. intros o Ho V. induction IH' as [|c cs Hc _ IHcs]; [exact I|].
          cbn [lrel walk_children svl] in *.
          destruct (ign && forallb pure (c :: cs)); [exact I|]. destruct V as [V1 V2].
          replace (child_ign o ign (is_nil cs)) with (if is_nil cs then ign else false)
            by (destruct Ho; subst; reflexivity). auto. }
        destruct o; cbn [OptEval.svbody] in V2; auto.
        - inversion IH'; subst; cbn [walk_children child_ign]; auto.
        - clear G. induction IH' as [|c cs Hc _ IHcs]; [exact I|].
          cbn [commarel walk_children svcomma child_ign] in *. destruct V2. auto. }
      assert (B : forall h r h1 q, body ign o cs h = Done r h1 q ->
         exists r', body ign o cs' h = Done r' h1 q /\ (ign = false -> q = false -> r' = r)).
      { apply body_cong; [assumption..|]. clear - L. 
        assert (G : lrel (fun i c c' => sim i c c' /\ sv i c') ign cs cs' -> lrel sim ign cs cs').
        { generalize cs'. clear. induction cs as [|c cs IH]; intros [|c' cs'] L; cbn [lrel] in *; auto.
          destruct (ign && _); [exact I|]. destruct L as [[L1 _] L2]. auto. }
        destruct o; auto.
        - destruct cs, cs'; auto. apply L.
        - clear G. revert L. generalize cs'. clear.
          induction cs as [|c cs IH]; intros [|c' cs'] L; cbn [commarel] in *; auto.
          destruct L as [[L1 _] L2]. auto. }
      assert (VB : svbody ign o cs').
      { eapply svbody_cong; [exact K|exact V2|]. clear - L.
        assert (G : lrel (fun i c c' => sim i c c' /\ sv i c') ign cs cs' -> lrel (fun i c c' => sv i c') ign cs cs').
        { generalize cs'. clear. induction cs as [|c cs IH]; intros [|c' cs'] L; cbn [lrel] in *; auto.
          destruct (ign && _); [exact I|]. destruct L as [[_ L1] L2]. auto. }
        destruct o; auto.
        - destruct cs, cs'; auto. apply L.
        - clear G. revert L. generalize cs'. clear.
          induction cs as [|c cs IH]; intros [|c' cs'] L; cbn [commarel] in *; auto.
          destruct L as [[_ L1] L2]. auto. }
      assert (Sm : sim ign (Node a o cs) (rebuild a o cs')).
      { apply sim_rebuild; [exact O|exact O'|exact B|]. intros P'. left.
        destruct (forallb pure cs) eqn:P; [|reflexivity].
        rewrite (kept_pure _ _ K P) in P'. discriminate. }
      split; [|exact Sm]. apply sv_node. cbn [rebuild set_pure a_pure].
      intros Skip'. split; [|exact VB].
      intros PU.
      assert (PU' : (pure (Node a o cs) = true \/ U = true) /\ ign = false).
      { destruct PU as [P|[HU Hi]]; [|auto].
        assert (Hi : ign = false) by (destruct ign; [rewrite P in Skip'; discriminate|reflexivity]).
        split; [|exact Hi]. destruct Hx as [HU|Hx]; [auto|]. left.
        unfold pure. cbn [ann]. rewrite Pa, <- P. clear - Hx Oc.
        assert (G : forall i c, In c cs -> pure (walk f i c) = pure c).
        { intros i c Hc. apply Hx. rewrite Forall_forall in Oc. auto. }
        subst cs'. clear - G. induction cs as [|c cs IH]; [reflexivity|]. cbn [walk_children forallb].
        rewrite G by (left; reflexivity). f_equal. apply IH. intros; apply G; right; assumption. }
      destruct PU' as [PU' ->].
      assert (Own : own a (Node a o cs)) by (apply V1; unfold pure in PU'; cbn in PU'; tauto).
      intros h r h1 q E.
      assert (G : own a (rebuild a o cs')).
      { apply own_sim with (e := Node a o cs); try assumption.
        apply sv_node. intros _. split; assumption. }
      eapply G. exact E.
  Qed.
End OptSim.
