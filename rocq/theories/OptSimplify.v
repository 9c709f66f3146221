(** * Soundness of simplification, and of the first two optimization levels *)
From Coq Require Import List ZArith QArith Bool Lia Permutation.
From Verif Require Import ExprModel ExprSpec ExprProofs OptModel OptEval OptSim OptPasses.
Import ListNotations.
Local Open Scope nat_scope.

Section OptSimplify.
  Context {F : Type}.
  Variable fo : float_ops F.
  Variable level : nat.
  Variable b : behaviour.
  Variable U : bool.
  Notation expr := (expr F).
  Notation eval := (@eval F level b).
  Notation evalc := (@evalc F level b).
  Notation ok := (@ok F level).
  Notation sv := (@sv F level b U).
  Notation own := (@own F level b).
  Notation body := (@body F level b).
  Notation svbody := (@svbody F level b U).
  Notation simf := (@simf F level b).
  Notation sim := (@sim F level b).
  Notation value := (@value F level b).
  Notation annotate1 := (annotate1 fo level).
  Notation annotate_node := (annotate_node fo).
  Notation opt_const := (opt_const fo level).
  Notation negate_expr := (negate_expr fo level).
  Notation pass_ok := (@pass_ok F level).
  Notation pass_exact := (@pass_exact F level).
  Notation pass_sound := (@pass_sound F level b U).
  Notation good := (@good F level b U).

  (** ** Operands of -and and -or *)

  Definition neutral (d : bool) (c : expr) : bool := if d then is_true c else is_false c.

  Fixpoint sloop (d : bool) (cs : list expr) : list expr :=
    match cs with
    | [] => []
    | c :: cs' =>
        if neutral d c then sloop d cs'
        else c :: (if flag (negb d) (ann c) then [] else sloop d cs')
    end.
  Lemma sloop_and cs : simplify_and_loop cs = sloop true cs.
  Proof. induction cs; cbn; [reflexivity|]. rewrite IHcs. reflexivity. Qed.
  Lemma sloop_or cs : simplify_or_loop cs = sloop false cs.
  Proof. induction cs; cbn; [reflexivity|]. rewrite IHcs. reflexivity. Qed.

  Lemma neutral_const d c : neutral d c = true -> ok c ->
    pure c = true /\ (forall i h, evalc i c h = Done d h false).
  Proof.
    intros N O. destruct c as [a l|]; [|destruct d; discriminate].
    assert (E : l = if d then LTrue else LFalse) by (destruct d, l; cbn in N; congruence). subst l.
    assert (P : a_pure a = true) by (destruct d; apply O).
    split; [exact P|]. intros i h. cbn [OptEval.evalc]. rewrite P. destruct d; reflexivity.
  Qed.

  Definition lgood (ign d : bool) (cs cs' : list expr) : Prop :=
    Forall ok cs' /\ (forallb pure cs = true -> forallb pure cs' = true) /\
    (svl sv ign cs -> svl sv ign cs' /\ forall h r h1 q, cloop evalc ign d cs h = Done r h1 q ->
       exists r', cloop evalc ign d cs' h = Done r' h1 q /\ (ign = false -> q = false -> r' = r)).

  Lemma lgood_trans ign d l1 l2 l3 : lgood ign d l1 l2 -> lgood ign d l2 l3 -> lgood ign d l1 l3.
  Proof.
    intros (A1 & A2 & A3) (B1 & B2 & B3). split; [exact B1|]. split; [auto|].
    intros V. destruct (A3 V) as [V1 C1]. destruct (B3 V1) as [V2 C2]. split; [exact V2|].
    intros h r h1 q E. destruct (C1 _ _ _ _ E) as (r2 & E2 & R2). destruct (C2 _ _ _ _ E2) as (r3 & E3 & R3).
    exists r3. split; [exact E3|]. intros Hi Hq. rewrite (R3 Hi Hq). auto.
  Qed.
  Lemma lgood_refl ign d cs : Forall ok cs -> lgood ign d cs cs.
  Proof. intros O. split; [exact O|]. split; [auto|]. intros V. split; [exact V|]. eauto. Qed.

  (** [lgood] between lists of pure expressions, if unused *)
  Lemma pure_lists d cs cs' : Forall ok cs -> Forall ok cs' -> forallb pure cs = true -> forallb pure cs' = true ->
    forall h r h1 q, cloop evalc true d cs h = Done r h1 q ->
    exists r', cloop evalc true d cs' h = Done r' h1 q /\ (true = false -> q = false -> r' = r).
  Proof.
    intros O O' P P' h r h1 q E. destruct (cloop_pure level b true d cs h O P) as [r0 E0].
    rewrite E0 in E. inversion E; subst. destruct (cloop_pure level b true d cs' h1 O' P') as [r1 E1].
    exists r1. split; [exact E1|discriminate].
  Qed.

  Lemma strip_lgood d cs : Forall ok cs -> lgood true d cs (before_ignorable cs).
  Proof.
    induction 1 as [|c cs Oc O (I1 & I2 & I3)]; [apply lgood_refl; constructor|].
    cbn [before_ignorable]. destruct (forallb pure (c :: cs)) eqn:P.
    - split; [constructor|]. split; [auto|]. intros V. split; [exact I|].
      apply pure_lists; auto.
    - split; [constructor; assumption|]. split; [intros Hp; rewrite P in Hp; discriminate|].
      cbn [svl andb]. rewrite P. intros [V1 V2]. destruct (I3 V2) as [V3 C]. split.
      + destruct (forallb pure (c :: before_ignorable cs)); [exact I|]. split; [|exact V3].
        destruct (is_nil (before_ignorable cs)) eqn:N.
        * destruct (is_nil cs); [exact V1|apply sv_mono; exact V1].
        * destruct cs; [discriminate|exact V1].
      + intros h r h1 q E. cbn [cloop] in E.
        destruct (evalc _ c h) as [|r1 h2 q1] eqn:Ec; [discriminate|].
        apply cloop_cons with (last := is_nil cs) (r := r1) (h1 := h2) (q := q1);
          [exact Oc|exact I1| |exact Ec|].
        * destruct cs; [reflexivity|discriminate].
        * destruct (xorb r1 d || q1); [inversion E; reflexivity|]. apply C. exact E.
  Qed.

  Lemma sloop_ok d cs : Forall ok cs -> Forall ok (sloop d cs).
  Proof.
    induction 1; cbn [sloop]; [constructor|]. destruct (neutral d x); [assumption|].
    constructor; [assumption|]. destruct (flag _ _); [constructor|assumption].
  Qed.
  Lemma sloop_pure d cs : forallb pure cs = true -> forallb pure (sloop d cs) = true.
  Proof.
    induction cs as [|c cs IH]; [auto|]. cbn [forallb sloop]. intros P.
    apply andb_true_iff in P. destruct P as [P1 P2].
    destruct (neutral d c); [auto|]. cbn [forallb]. rewrite P1. destruct (flag _ _); auto.
  Qed.

  Lemma sloop_lgood ign d cs : Forall ok cs -> lgood ign d cs (sloop d cs).
  Proof.
    intros O. split; [apply sloop_ok; exact O|]. split; [apply sloop_pure|].
    induction O as [|c cs Oc O IH]; [intros _; cbn; eauto|]. intros V.
    destruct (ign && forallb pure (c :: cs)) eqn:Sk.
    { apply andb_true_iff in Sk. destruct Sk as [-> P]. pose proof (sloop_pure d _ P) as P'.
      split; [apply svl_pure; exact P'|]. apply pure_lists; auto.
      apply sloop_ok. auto. }
    cbn [svl] in V. rewrite Sk in V. destruct V as [V1 V2]. destruct (IH V2) as [V3 C].
    cbn [sloop]. destruct (neutral d c) eqn:N.
    { split; [exact V3|]. intros h r h1 q E. cbn [cloop] in E.
      destruct (neutral_const d c N Oc) as [_ Ec]. rewrite Ec, xorb_nilpotent in E. apply C. exact E. }
    destruct (flag (negb d) (ann c)) eqn:Fl.
    - split.
      + cbn [svl is_nil]. match goal with |- if ?x then _ else _ => destruct x; [exact I|] end. split; [|exact I].
        destruct (is_nil cs); [exact V1|apply sv_mono; exact V1].
      + intros h r h1 q E. cbn [cloop] in E.
        destruct (evalc _ c h) as [|r1 h2 q1] eqn:Ec; [discriminate|].
        apply cloop_cons with (last := is_nil cs) (r := r1) (h1 := h2) (q := q1);
          [exact Oc|constructor|reflexivity|exact Ec|].
        destruct (xorb r1 d || q1) eqn:Er; [inversion E; reflexivity|].
        destruct cs as [|c2 cs]; [cbn in E; inversion E; subst; cbn; eauto|].
        (* [c] is always [negb d] *)
        exfalso. cbn [is_nil] in *. pose proof (evalc_holds _ _ _ _ Oc V1 _ _ _ _ Ec) as Hh.
        apply orb_false_iff in Er. destruct Er as [Er ->].
        apply (holds_flag d) in Hh. destruct Hh as [_ Hh]. destruct (Hh eq_refl) as [_ Hr].
        specialize (Hr Fl). subst r1. destruct d; discriminate.
    - split.
      + cbn [svl]. match goal with |- if ?x then _ else _ => destruct x; [exact I|] end. split; [|exact V3].
        destruct cs as [|c2 cs]; [exact V1|]. cbn [is_nil] in V1.
        destruct (is_nil _); [apply sv_mono; exact V1|exact V1].
      + intros h r h1 q E. cbn [cloop] in E.
        destruct (evalc _ c h) as [|r1 h2 q1] eqn:Ec; [discriminate|].
        apply cloop_cons with (last := is_nil cs) (r := r1) (h1 := h2) (q := q1);
          [exact Oc|apply sloop_ok; exact O| |exact Ec|].
        * destruct cs; [reflexivity|discriminate].
        * destruct (xorb r1 d || q1); [inversion E; reflexivity|]. apply C. exact E.
  Qed.

  Lemma strip_lgood' ign d cs : Forall ok cs -> lgood ign d cs (strip_ignorable level ign cs).
  Proof.
    intros O. unfold strip_ignorable. destruct (Nat.ltb level 2 || negb ign) eqn:E; [apply lgood_refl; exact O|].
    destruct ign; [apply strip_lgood; exact O|]. rewrite orb_true_r in E. discriminate.
  Qed.

  Lemma svl_of ign a d cs : ok (Node a (opn d) cs) -> sv ign (Node a (opn d) cs) -> svl sv ign cs.
  Proof.
    intros O V. destruct (ign && forallb pure cs) eqn:Sk.
    - apply andb_true_iff in Sk. destruct Sk as [-> P]. apply svl_pure. exact P.
    - rewrite <- (svbody_opn level b U ign d). eapply sv_child; eassumption.
  Qed.

  (** What a local simplification achieves; purity may be gained. *)
  Definition fair (ign : bool) (e e' : expr) : Prop :=
    ok e' /\ (pure e = true -> pure e' = true) /\ (sv ign e -> sv ign e' /\ sim ign e e').
  Lemma fair_trans ign e1 e2 e3 : fair ign e1 e2 -> fair ign e2 e3 -> fair ign e1 e3.
  Proof.
    intros (A1 & A2 & A3) (B1 & B2 & B3). split; [exact B1|]. split; [auto|].
    intros V. destruct (A3 V) as [A4 A5]. destruct (B3 A4) as [B4 B5]. split; [exact B4|].
    eapply sim_trans; eassumption.
  Qed.
  Lemma good_fair ign e e' : good false ign e e' -> fair ign e e'.
  Proof. intros (A & B & C). split; [exact A|]. split; [congruence|exact C]. Qed.

  Lemma lgood_node ign d a a' cs cs' : ok (Node a (opn d) cs) -> lgood ign d cs cs' ->
    fair ign (Node a (opn d) cs) (annotate1 (Node a' (opn d) cs')).
  Proof.
    intros O (L1 & L2 & L3). pose proof O as O2. apply ok_node in O2. destruct O2 as (S & Pa & Oc).
    split; [apply ok_annotate1; [apply shape_opn|exact L1]|]. split.
    { unfold pure. cbn [annotate1 ann]. rewrite annotate_pure by apply shape_opn. rewrite Pa. exact L2. }
    intros V. destruct (L3 (svl_of _ _ _ _ O V)) as [V' C].
    assert (V2 : ign && forallb pure cs' = false -> svbody ign (opn d) cs')
      by (intros _; rewrite svbody_opn; exact V').
    split; [apply sv_annotate1; [apply shape_opn|exact L1|exact V2]|].
    apply simf_annotate1 with (U := U); [exact O|apply shape_opn|exact L1|exact V2|].
    intros h r h1 q E. rewrite body_opn in *. rewrite xorb_false_l'. apply C. exact E.
  Qed.

  Lemma lift_fair ign d a a' cs cs' : ok (Node a (opn d) cs) -> lgood ign d cs cs' ->
    fair ign (Node a (opn d) cs) (lift_andor_not fo level a' (opn d) cs').
  Proof.
    intros O L. unfold lift_andor_not. destruct (Nat.leb _ _); [apply lgood_node; assumption|].
    pose proof (lgood_node ign d a a' cs cs' O L) as G. eapply fair_trans; [exact G|].
    destruct G as (O' & _). cbn [OptModel.annotate1] in *.
    apply good_fair. replace (dual (opn d)) with (opn (negb d)) by (destruct d; reflexivity).
    refine (good_trans level b U true true ign _ _ _ (demorgan fo level b U ign d _ a' cs' O') _).
    apply negate_good. apply (ok_annotate1 fo level a'); [apply shape_opn|].
    apply ok_node in O'. eapply kept_ok. apply (kept_map fo level b U ign). apply O'.
  Qed.

  Lemma single_fair ign d a cs c : ok (Node a (opn d) cs) -> lgood ign d cs [c] ->
    fair ign (Node a (opn d) cs) c.
  Proof.
    intros O (L1 & L2 & L3). inversion L1 as [|? ? Oc _]; subst.
    pose proof O as O2. apply ok_node in O2. destruct O2 as (_ & Pa & _).
    split; [exact Oc|]. split.
    { unfold pure at 1. cbn [ann]. rewrite Pa. intros P. specialize (L2 P). cbn in L2.
      rewrite andb_true_r in L2. exact L2. }
    intros V. destruct (L3 (svl_of _ _ _ _ O V)) as [V' C]. split.
    - cbn [svl forallb is_nil] in V'. rewrite andb_true_r in V'.
      destruct (ign && pure c) eqn:Sk; [|apply V'].
      apply andb_true_iff in Sk. destruct Sk as [-> P]. apply sv_pure_ign; assumption.
    - intros h r h1 q E. apply evalc_body' in E; [|exact O]. rewrite body_opn in E.
      destruct (C _ _ _ _ E) as (r' & E' & R'). cbn [cloop is_nil] in E'.
      destruct (evalc ign c h) as [|r1 h2 q1]; [discriminate|]. exists r1.
      destruct (xorb r1 d || q1) eqn:Er; inversion E'; subst.
      + split; [reflexivity|]. intros Hi Hq. subst q. rewrite <- (R' Hi eq_refl).
        rewrite orb_false_r in Er. destruct r1, d; cbn in *; congruence.
      + apply orb_false_iff in Er. destruct Er as [Er ->]. split; [reflexivity|].
        intros Hi Hq. rewrite <- (R' Hi eq_refl). destruct r1, r'; cbn in *; congruence.
  Qed.

  Lemma empty_fair ign d a cs : ok (Node a (opn d) cs) -> lgood ign d cs [] ->
    fair ign (Node a (opn d) cs) (opt_const d).
  Proof.
    intros O (L1 & L2 & L3). split; [apply ok_const|]. split; [destruct d; reflexivity|].
    intros V. destruct (L3 (svl_of _ _ _ _ O V)) as [V' C]. split; [apply sv_const|].
    intros h r h1 q E. apply evalc_body' in E; [|exact O]. rewrite body_opn in E.
    destruct (C _ _ _ _ E) as (r' & E' & R'). cbn [cloop] in E'. inversion E'; subst. exists r'.
    split; [apply evalc_const|]. intros Hi Hq. rewrite (R' Hi Hq). destruct r; reflexivity.
  Qed.

  Lemma simplify_andor ign d a cs : ok (Node a (opn d) cs) ->
    fair ign (Node a (opn d) cs)
      (match sloop d (strip_ignorable level ign cs) with
       | [] => opt_const d
       | [c] => c
       | cs' => lift_andor_not fo level a (opn d) cs'
       end).
  Proof.
    intros O. pose proof O as O2. apply ok_node in O2. destruct O2 as (_ & _ & Oc).
    pose proof (strip_lgood' ign d cs Oc) as L1. pose proof (sloop_lgood ign d _ (proj1 L1)) as L2.
    pose proof (lgood_trans _ _ _ _ _ L1 L2) as L.
    destruct (sloop d (strip_ignorable level ign cs)) as [|c [|c2 cs']].
    - apply empty_fair; assumption.
    - eapply single_fair; eassumption.
    - apply lift_fair; assumption.
  Qed.

  (** ** Commas *)
  Lemma comma_loop_nonempty (c : expr) cs : simplify_comma_loop level (c :: cs) <> [].
  Proof.
    revert c. induction cs as [|c2 cs IH]; intros c; cbn [simplify_comma_loop is_nil].
    - rewrite andb_false_r. discriminate.
    - destruct (_ && _); [apply IH|discriminate].
  Qed.
  Lemma comma_loop_nil (cs : list expr) : is_nil (simplify_comma_loop level cs) = is_nil cs.
  Proof.
    destruct cs as [|c cs]; [reflexivity|]. pose proof (comma_loop_nonempty c cs).
    destruct (simplify_comma_loop level (c :: cs)); [congruence|reflexivity].
  Qed.
  Lemma comma_loop_ok cs : Forall ok cs -> Forall ok (simplify_comma_loop level cs).
  Proof.
    induction 1; cbn [simplify_comma_loop]; [constructor|].
    destruct (_ && _); [assumption|constructor; assumption].
  Qed.
  Lemma comma_loop_pure (cs : list expr) : forallb pure cs = true -> forallb pure (simplify_comma_loop level cs) = true.
  Proof.
    induction cs as [|c cs IH]; [auto|]. cbn [forallb simplify_comma_loop]. intros P.
    apply andb_true_iff in P. destruct P as [P1 P2].
    destruct (_ && _); [auto|]. cbn [forallb]. rewrite P1. auto.
  Qed.
  Lemma comma_loop_level (cs : list expr) : Nat.leb 2 level = false -> simplify_comma_loop level cs = cs.
  Proof.
    intros Lv. induction cs as [|c cs IH]; [reflexivity|]. cbn [simplify_comma_loop]. rewrite Lv.
    cbn [andb]. rewrite IH. reflexivity.
  Qed.
  Lemma comma_loop_impure (cs : list expr) : Nat.leb 2 level = true -> cs <> [] ->
    forallb pure (simplify_comma_loop level cs) = true -> exists c, simplify_comma_loop level cs = [c].
  Proof.
    intros Lv N P. induction cs as [|c cs IH]; [congruence|]. clear N. cbn [simplify_comma_loop] in *.
    rewrite Lv in *. cbn [andb] in *. destruct (pure c && negb (is_nil cs)) eqn:E.
    - apply IH; [|exact P]. intros ->. rewrite andb_false_r in E. discriminate.
    - cbn [forallb] in P. apply andb_true_iff in P. destruct P as [P1 P2]. rewrite P1 in E. cbn in E.
      destruct cs; [|discriminate]. eauto.
  Qed.

  Lemma svcomma_loop ign cs : svcomma sv ign cs -> svcomma sv ign (simplify_comma_loop level cs).
  Proof.
    induction cs as [|c cs IH]; [auto|]. cbn [svcomma simplify_comma_loop]. intros [V1 V2].
    destruct (_ && _); [auto|]. cbn [svcomma]. rewrite comma_loop_nil. auto.
  Qed.
  Lemma ccomma_loop ign cs : Forall ok cs -> forall ret ret' h, (cs = [] -> ret' = ret) ->
    ccomma evalc ign ret' (simplify_comma_loop level cs) h = ccomma evalc ign ret cs h.
  Proof.
    induction 1 as [|c cs Oc O IH]; intros ret ret' h Hr; [rewrite Hr by reflexivity; reflexivity|].
    cbn [simplify_comma_loop ccomma]. destruct (Nat.leb 2 level && pure c && negb (is_nil cs)) eqn:E.
    - apply andb_true_iff in E. destruct E as [E N]. apply andb_true_iff in E. destruct E as [_ P].
      rewrite (IH ret ret'); [|intros ->; discriminate].
      rewrite pure_evalc by assumption.
      apply ccomma_ret. intros ->. discriminate.
    - cbn [ccomma]. rewrite comma_loop_nil. destruct (evalc _ c h) as [|r1 h1 q1]; [reflexivity|].
      destruct q1; [reflexivity|]. apply IH. auto.
  Qed.

  Lemma simplify_comma_fair ign a cs : ok (Node a OComma cs) ->
    fair ign (Node a OComma cs)
      (match simplify_comma_loop level cs with
       | [c] => c
       | cs' => rebuild a OComma cs'
       end).
  Proof.
    intros O. pose proof O as O2. apply ok_node in O2. destruct O2 as (S & Pa & Oc). cbn in S.
    pose proof (comma_loop_ok cs Oc) as O'. set (cs' := simplify_comma_loop level cs) in *.
    assert (N' : cs' <> []) by (subst cs'; destruct cs; [congruence|apply comma_loop_nonempty]).
    assert (B : forall h, body ign OComma cs' h = body ign OComma cs h).
    { intros h. cbn [OptEval.body]. apply ccomma_loop; auto. }
    assert (Vc : sv ign (Node a OComma cs) -> svcomma sv ign cs').
    { intros V. apply svcomma_loop. eapply sv_comma_child; eassumption. }
    assert (G1 : forall c, cs' = [c] -> fair ign (Node a OComma cs) c).
    { intros c Ec. rewrite Ec in *. inversion O'; subst. split; [assumption|]. split.
      - unfold pure at 1. cbn [ann]. rewrite Pa. intros P. apply comma_loop_pure in P. fold cs' in P.
        rewrite Ec in P. cbn in P. rewrite andb_true_r in P. exact P.
      - intros V. split; [apply (Vc V)|]. intros h r h1 q E. apply evalc_body' in E; [|exact O].
        rewrite <- B in E. cbn [OptEval.body ccomma is_nil] in E.
        destruct (evalc ign c h) as [|r1 h2 q1]; [discriminate|]. exists r1.
        destruct q1; inversion E; subst; (split; [reflexivity|]); destruct r; auto. }
    destruct cs' as [|c [|c2 cs2]] eqn:Ec; [congruence|apply G1; reflexivity|]. clear G1.
    rewrite <- Ec in *.
    assert (N2 : forall x, cs' <> [x]) by (intros x; rewrite Ec; discriminate). clear Ec.
    assert (O3 : ok (rebuild a OComma cs')) by (apply ok_rebuild; assumption).
    split; [exact O3|]. split.
    { rewrite pure_rebuild. unfold pure at 1. cbn [ann]. rewrite Pa. apply comma_loop_pure. }
    intros V. specialize (Vc V).
    assert (Bs : forall h r h1 q, body ign OComma cs h = Done r h1 q ->
       exists r', body ign OComma cs' h = Done r' h1 q /\ (ign = false -> q = false -> r' = r)).
    { intros h r h1 q E. rewrite <- B in E. eauto. }
    assert (Sm : sim ign (Node a OComma cs) (rebuild a OComma cs')).
    { apply sim_rebuild; [exact O|exact O3|exact Bs|]. intros P'. left.
      destruct (forallb pure cs) eqn:P; [|reflexivity]. apply comma_loop_pure in P. fold cs' in P. congruence. }
    split; [|exact Sm]. apply sv_node. cbn [rebuild set_pure a_pure]. intros Sk. split; [|exact Vc].
    intros PU.
    assert (PU' : (forallb pure cs = true \/ U = true) /\ ign = false).
    { destruct PU as [P|[HU Hi]]; [|auto].
      assert (Hi : ign = false) by (destruct ign; [rewrite P in Sk; discriminate|reflexivity]).
      split; [|exact Hi]. left. destruct (Nat.leb 2 level) eqn:Lv.
      - destruct (comma_loop_impure cs Lv S P) as [x Hx]. contradiction (N2 x Hx).
      - subst cs'. rewrite (comma_loop_level cs Lv) in P. exact P. }
    destruct PU' as [PU' ->].
    assert (Sv : sv false (Node a OComma cs)) by exact V.
    assert (Own : own a (Node a OComma cs)).
    { apply sv_node in V; [|reflexivity]. apply V. rewrite Pa. tauto. }
    intros h r h1 q E.
    assert (G : own a (rebuild a OComma cs')).
    { apply (own_sim level b U) with (e := Node a OComma cs); try assumption.
      unfold pure; cbn [ann]; rewrite Pa. exact PU'. }
    eapply G. exact E.
  Qed.

  Lemma fair_refl ign e : ok e -> fair ign e e.
  Proof. intros O. split; [exact O|]. split; [auto|]. intros V. split; [exact V|apply sim_refl]. Qed.

  Lemma not_fair a c : ok (Node a ONot [c]) -> fair true (Node a ONot [c]) c.
  Proof.
    intros O. pose proof O as O2. apply ok_node in O2. destruct O2 as (_ & _ & Oc). inversion Oc; subst.
    split; [assumption|]. split; [rewrite (pure_not level a c O); auto|].
    intros V. split; [eapply sv_not; eassumption|].
    intros h r h1 q E. destruct (not_inner level b true a c O _ _ _ _ E) as (r' & E' & _).
    exists r'. split; [exact E'|discriminate].
  Qed.

  Lemma simplify1_fair ign e : ok e -> fair ign e (simplify1 fo level ign e).
  Proof.
    intros O. destruct e as [a l|a o cs]; [apply fair_refl; exact O|]. destruct o; cbn [simplify1].
    - destruct ign; [|apply fair_refl; exact O].
      pose proof O as O2. apply ok_node in O2. destruct O2 as ((c & ->) & _ & _). apply not_fair. exact O.
    - rewrite sloop_and. exact (simplify_andor ign true a cs O).
    - rewrite sloop_or. exact (simplify_andor ign false a cs O).
    - exact (simplify_comma_fair ign a cs O).
  Qed.

  Lemma simplify_pass : pass_ok (simplify fo level) /\
    (U = true \/ pass_exact (simplify fo level) -> pass_sound (simplify fo level)).
  Proof.
    assert (K : pass_ok (simplify1 fo level)).
    { intros ign e O. destruct (simplify1_fair ign e O) as (A & B & _). auto. }
    split; [apply walk_ok; exact K|]. intros X. apply walk_sound; [exact K| |exact X].
    intros ign e O V. destruct (simplify1_fair ign e O) as (_ & _ & C). auto.
  Qed.
End OptSimplify.

(** ** The initial annotations *)
Section Annotate.
  Context {F : Type}.
  Variable fo : float_ops F.
  Variable level : nat.
  Variable b : behaviour.
  Notation expr := (expr F).
  Notation sv := (@sv F level b true).

  Lemma eval_annot a a' o cs h : eval level b (Node a o cs : expr) h = eval level b (Node a' o cs) h.
  Proof. destruct o; reflexivity. Qed.

  Lemma eval_children a o (cs cs' : list expr) :
    Forall2 (fun c c' => forall h, eval level b c' h = eval level b c h) cs cs' ->
    forall h, eval level b (Node a o cs') h = eval level b (Node a o cs) h.
  Proof.
    intros K h. destruct o; cbn [eval].
    - destruct K as [|c c' cs cs' Kc K]; [reflexivity|]. rewrite Kc. reflexivity.
    - revert h. induction K as [|c c' cs cs' Kc K IH]; intros h; [reflexivity|]. cbn [and_loop].
      rewrite Kc. destruct (eval level b c h) as [[r h1] q]. destruct (negb r || q); auto.
    - revert h. induction K as [|c c' cs cs' Kc K IH]; intros h; [reflexivity|]. cbn [or_loop].
      rewrite Kc. destruct (eval level b c h) as [[r h1] q]. destruct (r || q); auto.
    - generalize false. revert h. induction K as [|c c' cs cs' Kc K IH]; intros h ret; [reflexivity|].
      cbn [comma_loop]. rewrite Kc. destruct (eval level b c h) as [[r h1] q]. destruct q; auto.
  Qed.

  Lemma annotate_spec : forall (e : expr), wf e -> forall ign,
    ok level (annotate fo level ign e) /\ sv false (annotate fo level ign e) /\
    forall h, eval level b (annotate fo level ign e) h = eval level b e h.
  Proof.
    induction e as [a l|a o cs IH] using expr_ind'; intros W ign.
    - unfold annotate. cbn [walk annotate1]. split; [cbn; auto|]. split; [|reflexivity].
      intros _ h r h1 q E. cbn [eval] in E. unfold holds. cbn [annotate_leaf a_true a_false].
      destruct l; cbn in E |- *; inversion E; subst; intuition (try discriminate; congruence).
    - unfold annotate in *. cbn [walk]. apply wf_node in W. destruct W as [S W].
      set (cs' := walk_children (walk (fun _ => annotate1 fo level)) o ign cs).
      assert (G : Forall (ok level) cs' /\ Forall (sv false) cs' /\
                  Forall2 (fun c c' => forall h, eval level b c' h = eval level b c h) cs cs').
      { subst cs'. clear S. induction cs as [|c cs IHcs]; [repeat constructor|].
        inversion IH as [|? ? IHc IH']; inversion W as [|? ? Wc W']; subst.
        destruct (IHc Wc (child_ign o ign (is_nil cs))) as (A & B & C).
        destruct (IHcs IH' W') as (A' & B' & C'). cbn [walk_children].
        split; [constructor; assumption|]. split; constructor; assumption. }
      destruct G as (O & V & E).
      assert (S' : shape o cs').
      { eapply shape_len; [|apply walk_children_length]. destruct o; exact S. }
      assert (VB : svbody level b true false o cs').
      { destruct o; cbn [svbody].
        - destruct V; auto.
        - apply svl_false. exact V.
        - apply svl_false. exact V.
        - clear - V. induction V as [|c xs Vc V IHV]; [exact I|]. cbn [svcomma]. split; [|exact IHV].
          destruct (is_nil xs); [exact Vc|apply sv_mono; exact Vc]. }
      cbn [rebuild]. split; [apply ok_annotate1; assumption|].
      split; [apply sv_annotate1; auto|].
      intros h. transitivity (eval level b (Node a o cs') h); [apply eval_annot|]. apply eval_children. exact E.
  Qed.

  (** [e'] can be evaluated instead of [e]. *)
  Definition equiv (ign : bool) (e e' : expr) : Prop :=
    forall h r h1 q, eval level b e h = (r, h1, q) ->
    exists r', eval level b e' h = (r', h1, q) /\ (ign = false -> q = false -> r' = r).

  Lemma pass_equiv f : pass_ok level f -> pass_sound level b true f ->
    forall ign (e : expr), ok level e -> sv ign e ->
    ok level (f ign e) /\ sv ign (f ign e) /\ equiv ign e (f ign e).
  Proof.
    intros Hk Hs ign e O V. destruct (Hk ign e O) as [O' _]. destruct (Hs ign e O V) as [V' Sm].
    split; [exact O'|]. split; [exact V'|].
    intros h r h1 q E. destruct (evalc_total level b true eq_refl e O ign V h) as (r0 & h0 & q0 & E0).
    pose proof (evalc_eval _ _ _ O _ _ _ _ _ E0) as E1. rewrite E in E1. inversion E1; subst.
    destruct (Sm _ _ _ _ E0) as (r' & E' & R'). exists r'.
    split; [eapply evalc_eval; eassumption|]. intros Hi Hq. rewrite (R' Hi Hq). destruct r0; reflexivity.
  Qed.

  Lemma equiv_refl ign e : equiv ign e e.
  Proof. intros h r h1 q E. eauto. Qed.
  Lemma equiv_trans ign e1 e2 e3 : equiv ign e1 e2 -> equiv ign e2 e3 -> equiv ign e1 e3.
  Proof.
    intros A B h r h1 q E. destruct (A _ _ _ _ E) as (r2 & E2 & R2). destruct (B _ _ _ _ E2) as (r3 & E3 & R3).
    exists r3. split; [exact E3|]. intros Hi Hq. rewrite (R3 Hi Hq). auto.
  Qed.

  Lemma annotate_equiv e : wf e -> forall ign, equiv ign e (annotate fo level ign e).
  Proof.
    intros W ign h r h1 q E. destruct (annotate_spec e W ign) as (_ & _ & A). exists r. rewrite A. auto.
  Qed.

  Lemma pass_of_annotated f : pass_ok level f -> pass_sound level b true f ->
    forall e, wf e -> forall ign, equiv ign e (f ign (annotate fo level ign e)).
  Proof.
    intros Hk Hs e W ign. destruct (annotate_spec e W ign) as (O & V & _).
    eapply equiv_trans; [apply annotate_equiv; exact W|].
    apply pass_equiv; [exact Hk|exact Hs|exact O|apply sv_mono; exact V].
  Qed.

  Lemma canonicalize_equiv e : wf e -> forall ign,
    equiv ign e (canonicalize fo level ign (annotate fo level ign e)).
  Proof.
    destruct (canonicalize_pass fo level b true) as (A & _ & B). apply pass_of_annotated; assumption.
  Qed.
  Lemma reorder_equiv e : wf e -> forall ign,
    equiv ign e (reorder fo level ign (annotate fo level ign e)).
  Proof.
    destruct (reorder_pass fo level b true) as (A & _ & B). apply pass_of_annotated; assumption.
  Qed.
  Lemma simplify_equiv e : wf e -> forall ign,
    equiv ign e (simplify fo level ign (annotate fo level ign e)).
  Proof.
    destruct (simplify_pass fo level b true) as (A & B). apply pass_of_annotated; auto.
  Qed.

  Lemma rounds_equiv : level <= 1 -> forall udb gdb ign before impure0 n i e s impure e' s' impure',
    ok level e -> sv ign e ->
    rounds fo level udb gdb n i ign before impure0 e s impure = (e', s', impure') -> equiv ign e e'.
  Proof.
    intros L udb gdb ign before impure0. induction n as [|n IH]; intros i e s impure e' s' impure' O V E;
      cbn [rounds] in E.
    - inversion E; subst. apply equiv_refl.
    - assert (R : exists e1, round fo level udb gdb i ign before impure0 e = (e1, None, impure0) /\
                  ok level e1 /\ sv ign e1 /\ equiv ign e e1).
      { unfold round. replace (Nat.leb 2 level) with false by (symmetry; apply Nat.leb_gt; lia).
        replace (Nat.leb 3 level) with false by (symmetry; apply Nat.leb_gt; lia). cbn [andb].
        destruct (Nat.leb 1 level).
        - destruct (canonicalize_pass fo level b true) as (A1 & _ & B1).
          destruct (pass_equiv _ A1 B1 ign e O V) as (O1 & V1 & Q1).
          destruct (simplify_pass fo level b true) as (A2 & B2).
          destruct (pass_equiv _ A2 (B2 (or_introl eq_refl)) ign _ O1 V1) as (O2 & V2 & Q2).
          eexists. split; [reflexivity|]. split; [exact O2|]. split; [exact V2|].
          eapply equiv_trans; eassumption.
        - eexists. split; [reflexivity|]. split; [exact O|]. split; [exact V|]. apply equiv_refl. }
      destruct R as (e1 & Er & O1 & V1 & Q1). rewrite Er in E.
      destruct (is_parent e1).
      + eapply equiv_trans; [exact Q1|]. eapply IH; eassumption.
      + inversion E; subst. exact Q1.
  Qed.

  Lemma optimize_equiv : level <= 1 -> forall udb gdb ign before impure e e' s' impure', wf e ->
    optimize fo level udb gdb ign before impure e = (e', s', impure') -> equiv ign e e'.
  Proof.
    intros L udb gdb ign before impure e e' s' impure' W E. unfold optimize in E.
    destruct (annotate_spec e W ign) as (O & V & _).
    eapply equiv_trans; [apply (annotate_equiv e W ign)|].
    eapply rounds_equiv; [exact L|exact O|apply sv_mono; exact V|exact E].
  Qed.
End Annotate.

Lemma bfs_optimize_O1 : forall {F} (fo : float_ops F) level b, level <= 1 ->
  forall udb gdb c depth h, wf (c_exclude c) -> wf (c_expr c) ->
  (forall h r h1 q, eval level b (c_exclude c) h = (r, h1, q) -> q = false) ->
  visit_file level b (bfs_optimize fo level udb gdb c) depth h = visit_file level b c depth h.
Proof.
  intros F fo level b L udb gdb c depth h Wx We Q. unfold bfs_optimize.
  destruct (optimize fo level udb gdb false df_top df_bottom (c_exclude c)) as [[x' [xt xf]] imp] eqn:Ex.
  match goal with |- context [optimize fo level udb gdb true ?d imp (c_expr c)] => set (bf := d) end.
  destruct (optimize fo level udb gdb true bf imp (c_expr c)) as [[e' s'] imp'] eqn:Ee.
  pose proof (optimize_equiv fo level b L _ _ _ _ _ _ _ _ _ Wx Ex) as Hx.
  pose proof (optimize_equiv fo level b L _ _ _ _ _ _ _ _ _ We Ee) as He.
  assert (L2 : Nat.leb 2 level = false) by (apply Nat.leb_gt; lia).
  assert (L4 : Nat.leb 4 level = false) by (apply Nat.leb_gt; lia).
  rewrite L2, L4. cbn [andb]. unfold visit_file. cbn [c_exclude c_expr c_mindepth c_maxdepth].
  destruct (eval level b (c_exclude c) h) as [[r h1] q] eqn:E1.
  destruct (Hx _ _ _ _ E1) as (r' & E1' & R). rewrite E1'.
  rewrite (R eq_refl (Q _ _ _ _ E1)). destruct r; [reflexivity|].
  match goal with |- (if ?x then _ else _) = _ => destruct x; [|reflexivity] end.
  destruct (eval level b (c_expr c) h1) as [[r2 h2] q2] eqn:E2.
  destruct (He _ _ _ _ E2) as (r2' & E2' & _). rewrite E2'. reflexivity.
Qed.
