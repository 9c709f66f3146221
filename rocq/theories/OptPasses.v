(** * Soundness of canonicalization, reordering and simplification *)
From Coq Require Import List ZArith QArith Bool Lia Permutation.
From Verif Require Import ExprModel ExprSpec ExprProofs OptModel OptEval OptSim.
Import ListNotations.
Local Open Scope nat_scope.

Section OptPasses.
  Context {F : Type}.
  Variable fo : float_ops F.
  Variable level : nat.
  Variable b : behaviour.
  Variable U : bool.
  Notation expr := (expr F).
  Notation eval := (@eval F level b).
  Notation evalc := (@evalc F level b).
  Notation ok := (@ok F level).
  Notation sv := (@sv F level b U).
  Notation own := (@own F level b).
  Notation body := (@body F level b).
  Notation svbody := (@svbody F level b U).
  Notation simf := (@simf F level b).
  Notation sim := (@sim F level b).
  Notation value := (@value F level b).
  Notation annotate1 := (annotate1 fo level).
  Notation annotate_node := (annotate_node fo).
  Notation opt_const := (opt_const fo level).
  Notation negate_expr := (negate_expr fo level).
  Notation pass_ok := (@pass_ok F level).
  Notation pass_exact := (@pass_exact F level).
  Notation pass_sound := (@pass_sound F level b U).

  Lemma xorb_false_l' x : xorb false x = x. Proof. destruct x; reflexivity. Qed.

  (** ** Annotations *)

  Lemma last_default {A} (l : list A) x y d : l <> [] -> last l x = last (y :: l) d.
  Proof.
    intros H. revert y. induction l as [|z l IH]; intros y; [congruence|]. destruct l as [|w l]; [reflexivity|].
    change (last (w :: l) x = last (z :: w :: l) d). rewrite <- IH by discriminate. reflexivity.
  Qed.

  Lemma annotate_and (cs : list expr) : forall a,
    let a' := fold_left (fun a c =>
            mkAnnot (a_pure a && pure c) (a_true a && always_true c) (a_false a || always_false c)
                    (f_add fo (a_cost a) (f_mul fo (a_prob a) (cost c)))
                    (f_mul fo (a_prob a) (prob c))) cs a in
    a_pure a' = a_pure a && forallb pure cs /\
    a_true a' = a_true a && forallb always_true cs /\
    a_false a' = a_false a || existsb always_false cs.
  Proof.
    induction cs as [|c cs IH]; intros a; cbn [fold_left forallb existsb].
    - rewrite !andb_true_r, orb_false_r. auto.
    - destruct (IH (mkAnnot (a_pure a && pure c) (a_true a && always_true c) (a_false a || always_false c)
                    (f_add fo (a_cost a) (f_mul fo (a_prob a) (cost c)))
                    (f_mul fo (a_prob a) (prob c)))) as (H1 & H2 & H3).
      rewrite H1, H2, H3. cbn [a_pure a_true a_false]. rewrite !andb_assoc, !orb_assoc. auto.
  Qed.
  Lemma annotate_or (cs : list expr) : forall a,
    let a' := fold_left (fun a c =>
            mkAnnot (a_pure a && pure c) (a_true a || always_true c) (a_false a && always_false c)
                    (f_add fo (a_cost a) (f_mul fo (a_prob a) (cost c)))
                    (f_mul fo (a_prob a) (f_sub fo (f_lit fo 1%Q) (prob c)))) cs a in
    a_pure a' = a_pure a && forallb pure cs /\
    a_true a' = a_true a || existsb always_true cs /\
    a_false a' = a_false a && forallb always_false cs.
  Proof.
    induction cs as [|c cs IH]; intros a; cbn [fold_left forallb existsb].
    - rewrite !andb_true_r, orb_false_r. auto.
    - destruct (IH (mkAnnot (a_pure a && pure c) (a_true a || always_true c) (a_false a && always_false c)
                    (f_add fo (a_cost a) (f_mul fo (a_prob a) (cost c)))
                    (f_mul fo (a_prob a) (f_sub fo (f_lit fo 1%Q) (prob c))))) as (H1 & H2 & H3).
      rewrite H1, H2, H3. cbn [a_pure a_true a_false]. rewrite !andb_assoc, !orb_assoc. auto.
  Qed.
  Lemma annotate_comma (cs : list expr) : forall a,
    let a' := fold_left (fun a c =>
            mkAnnot (a_pure a && pure c) (always_true c) (always_false c)
                    (f_add fo (a_cost a) (cost c)) (prob c)) cs a in
    a_pure a' = a_pure a && forallb pure cs /\
    a_true a' = last (map always_true cs) (a_true a) /\
    a_false a' = last (map always_false cs) (a_false a).
  Proof.
    induction cs as [|c cs IH]; intros a; cbn [fold_left forallb map].
    - rewrite !andb_true_r. auto.
    - destruct (IH (mkAnnot (a_pure a && pure c) (always_true c) (always_false c)
                    (f_add fo (a_cost a) (cost c)) (prob c))) as (H1 & H2 & H3).
      rewrite H1, H2, H3. cbn [a_pure a_true a_false]. rewrite !andb_assoc.
      destruct cs as [|c2 cs]; [auto|]. cbn [map].
      split; [reflexivity|]. split; (apply last_default; discriminate).
  Qed.

  Lemma annotate_pure o (cs : list expr) : shape o cs -> a_pure (annotate_node o cs) = forallb pure cs.
  Proof.
    intros S. destruct o; cbn [OptModel.annotate_node].
    - destruct S as [c ->]. cbn. rewrite andb_true_r. reflexivity.
    - apply annotate_and.
    - cbn [set_prob a_pure]. apply annotate_or.
    - apply annotate_comma.
  Qed.

  Definition opn (d : bool) : op := if d then OAnd else OOr.
  Definition flag (d : bool) (a : annot F) : bool := if d then a_true a else a_false a.

  Lemma body_opn ign d cs h : body ign (opn d) cs h = cloop evalc ign d cs h.
  Proof. destruct d; reflexivity. Qed.
  Lemma svbody_opn ign d cs : svbody ign (opn d) cs = svl sv ign cs.
  Proof. destruct d; reflexivity. Qed.
  Lemma shape_opn d (cs : list expr) : shape (opn d) cs.
  Proof. destruct d; exact I. Qed.

  Lemma annotate_flags d cs :
    flag d (annotate_node (opn d) cs) = forallb (fun c => flag d (ann c)) cs /\
    flag (negb d) (annotate_node (opn d) cs) = existsb (fun c => flag (negb d) (ann c)) cs.
  Proof.
    destruct d; cbn [opn OptModel.annotate_node flag negb].
    - apply annotate_and.
    - cbn [set_prob a_true a_false]. apply and_comm. apply annotate_or.
  Qed.

  (** [holds] for both connectives *)
  Lemma holds_flag d a r q : holds a r q <->
    (flag d a = true -> flag (negb d) a = true -> q = true) /\
    (q = false -> (flag d a = true -> r = d) /\ (flag (negb d) a = true -> r = negb d)).
  Proof. unfold holds. destruct d; cbn; intuition. Qed.

  Lemma svl_false cs : svl sv false cs <-> Forall (sv false) cs.
  Proof.
    induction cs as [|c cs IH]; cbn [svl andb]; [split; auto|].
    rewrite Forall_cons_iff, IH. destruct (is_nil cs); reflexivity.
  Qed.

  Lemma cloop_result ign d cs : forall h r h1 q, cloop evalc ign d cs h = Done r h1 q ->
    r = d /\ q = false \/ r = negb d.
  Proof.
    induction cs as [|c cs IH]; intros h r h1 q E; cbn [cloop] in E.
    - inversion E; auto.
    - destruct (evalc _ c h) as [|r' h' q']; [discriminate|].
      destruct (xorb r' d || q'); [inversion E; auto|eauto].
  Qed.

  Lemma annotate_holds o cs : shape o cs -> Forall ok cs -> svbody false o cs ->
    forall h r h1 q, body false o cs h = Done r h1 q -> holds (annotate_node o cs) r q.
  Proof.
    intros S O V h r h1 q E.
    assert (G : forall d, Forall (sv false) cs -> cloop evalc false d cs h = Done r h1 q ->
                holds (annotate_node (opn d) cs) r q).
    { clear E V S. intros d V E. apply (holds_flag d).
      destruct (annotate_flags d cs) as [-> ->].
      revert h E. induction cs as [|c cs IH]; intros h E; cbn [cloop forallb existsb] in *.
      - inversion E; subst. split; [discriminate|]. intros _. split; [auto|discriminate].
      - inversion O as [|? ? Oc O']; inversion V as [|? ? Vc V']; subst.
        replace (if is_nil cs then false else false) with false in E by (destruct (is_nil cs); reflexivity).
        destruct (evalc false c h) as [|r' h' q'] eqn:Ec; [discriminate|].
        pose proof (evalc_holds _ _ _ _ Oc Vc _ _ _ _ Ec) as Hc. apply (holds_flag d) in Hc.
        destruct Hc as [C1 C2]. rewrite andb_true_iff, orb_true_iff.
        destruct (xorb r' d || q') eqn:Eq.
        + inversion E; subst. destruct q.
          { split; [auto|discriminate]. }
          rewrite orb_false_r in Eq. assert (Hr : r' = negb d) by (destruct r', d; cbn in *; congruence).
          destruct (C2 eq_refl) as [C3 C4].
          split; [|intros _; split; [|auto]].
          * intros [A _]. specialize (C3 A). destruct d; subst; discriminate.
          * intros [A _]. specialize (C3 A). destruct d; subst; discriminate.
        + apply orb_false_iff in Eq. destruct Eq as [Eq ->].
          assert (Hr : r' = d) by (destruct r', d; cbn in *; congruence). subst r'.
          destruct (C2 eq_refl) as [C3 C4].
          assert (C5 : flag (negb d) (ann c) = true -> False)
            by (intros A; specialize (C4 A); destruct d; discriminate).
          destruct (IH O' V' h' E) as [I1 I2]. split.
          * intros [_ A] [B|B]; [exfalso; auto|auto].
          * intros Hq. destruct (I2 Hq) as [I3 I4]. split; [tauto|]. intros [B|B]; [exfalso; auto|auto]. }
    destruct o; cbn [OptEval.body OptEval.svbody OptModel.annotate_node] in *.
    - destruct S as [c ->]. inversion O; subst.
      destruct (evalc false c h) as [|r' h' q'] eqn:Ec; [discriminate|].
      pose proof (evalc_holds _ _ _ _ H1 V _ _ _ _ Ec) as Hc. cbn in E. inversion E; subst.
      unfold holds in *. cbn. unfold always_true, always_false.
      destruct Hc as [C1 C2]. split; [auto|]. intros Hq. destruct (C2 Hq) as [C3 C4].
      split; intros A; [rewrite (C4 A)|rewrite (C3 A)]; reflexivity.
    - apply (G true); [apply svl_false; exact V|exact E].
    - apply (G false); [apply svl_false; exact V|exact E].
    - clear G S.
      match goal with |- holds ?x _ _ => set (a := x) end.
      destruct q; [apply holds_quit|].
      destruct (annotate_comma cs (mkAnnot true false false (f_lit fo 0%Q) (f_lit fo (5 # 10)%Q))) as (_ & H2 & H3).
      fold a in H2, H3. cbn [a_true a_false] in H2, H3. clearbody a.
      enough (G : forall r0, (cs = [] -> (a_true a = true -> r0 = true) /\ (a_false a = true -> r0 = false) /\
                    (a_true a = true -> a_false a = true -> False)) ->
                  ccomma evalc false r0 cs h = Done r h1 false -> holds a r false).
      { eapply G; [|exact E]. intros ->. cbn in H2, H3. rewrite H2, H3. intuition discriminate. }
      clear E. revert h H2 H3. induction cs as [|c cs IH]; intros h H2 H3 r0 H0 E; cbn [ccomma] in E.
      + inversion E; subst. destruct (H0 eq_refl) as (A & B & C). split; [intros; exfalso; auto|auto].
      + inversion O as [|? ? Oc O']; subst. cbn [svcomma] in V. destruct V as [Vc V'].
        destruct (evalc _ c h) as [|r' h' q'] eqn:Ec; [discriminate|].
        destruct q'; [discriminate|].
        destruct cs as [|c2 cs].
        * cbn [is_nil ccomma map last] in *. inversion E; subst.
          pose proof (evalc_holds _ _ _ _ Oc Vc _ _ _ _ Ec) as Hc. unfold holds in *.
          unfold always_true, always_false in *. rewrite H2, H3. exact Hc.
        * apply (IH O' V' h') with (r0 := r'); [exact H2|exact H3|discriminate|exact E].
  Qed.

  Lemma body_total ign o cs h : shape o cs -> Forall ok cs -> svbody ign o cs ->
    (forallb pure cs = true \/ U = true) -> exists r h1 q, body ign o cs h = Done r h1 q.
  Proof.
    intros S O V [P|HU].
    - destruct (body_pure level b ign o cs h S O P) as [r E]. eauto.
    - set (a0 := mkAnnot (forallb pure cs) false false (f_lit fo 0%Q) (f_lit fo 0%Q)).
      assert (O0 : ok (Node a0 o cs)) by (apply ok_node; auto).
      destruct (evalc_total _ b U HU _ O0 ign) with (h := h) as (r & h1 & q & E).
      + apply sv_node. intros _. split; [|exact V]. intros _ h' r h1 q _. unfold holds. cbn. intuition discriminate.
      + exists r, h1, q. eapply evalc_body'; eassumption.
  Qed.

  Lemma annotate_own a o cs : shape o cs -> Forall ok cs -> svbody false o cs ->
    (forallb pure cs = true \/ U = true) -> own (annotate_node o cs) (Node a o cs).
  Proof.
    intros S O V P h r h1 q E. destruct (body_total false o cs h S O V P) as (r' & h' & q' & B).
    rewrite (body_eval _ _ _ a _ _ _ _ _ _ S O B) in E. inversion E; subst.
    eapply annotate_holds; eassumption.
  Qed.

  (** What a pass does to an expression *)
  Definition good (fl ign : bool) (e e' : expr) : Prop :=
    ok e' /\ pure e' = pure e /\ (sv ign e -> sv ign e' /\ simf fl ign e e').

  Lemma ok_annotate1 a o cs : shape o cs -> Forall ok cs -> ok (annotate1 (Node a o cs)).
  Proof. intros S O. apply ok_node. cbn [annotate1]. rewrite annotate_pure by exact S. auto. Qed.

  Lemma sv_annotate1 ign a o cs : shape o cs -> Forall ok cs ->
    (ign && forallb pure cs = false -> svbody ign o cs) -> sv ign (annotate1 (Node a o cs)).
  Proof.
    intros S O V. apply sv_node. rewrite annotate_pure by exact S. intros Sk.
    specialize (V Sk). split; [|exact V]. intros P.
    assert (Hi : ign = false) by (destruct P as [P|[_ P]]; [rewrite P in Sk; destruct ign; [discriminate|reflexivity]|exact P]).
    subst ign. apply annotate_own; tauto.
  Qed.

  Lemma simf_annotate1 fl ign a a' o o' cs cs' : ok (Node a o cs) ->
    shape o' cs' -> Forall ok cs' -> (ign && forallb pure cs' = false -> svbody ign o' cs') ->
    (forall h r h1 q, body ign o cs h = Done r h1 q -> exists r', body ign o' cs' h = Done r' h1 q /\
       (ign = false -> q = false -> r' = xorb fl r)) ->
    simf fl ign (Node a o cs) (annotate1 (Node a' o' cs')).
  Proof.
    intros O S O' V B h r h1 q E.
    destruct (B _ _ _ _ (evalc_body' _ _ _ _ _ _ _ _ _ _ O E)) as (r' & E' & R'). exists r'.
    split; [|exact R']. apply body_evalc; [apply ok_annotate1; assumption| |exact E'].
    intros -> P. eapply annotate_holds; [exact S|exact O'|apply V; reflexivity|exact E'].
  Qed.

  (** ** Constants and negation *)

  Lemma ok_const v : ok (opt_const v).
  Proof. destruct v; cbn; auto. Qed.
  Lemma sv_const ign v : sv ign (opt_const v).
  Proof.
    destruct v; intros _ h r h1 q E; cbn in E; inversion E; subst; unfold holds; cbn; intuition discriminate.
  Qed.
  Lemma evalc_const ign v h : evalc ign (opt_const v) h = Done v h false.
  Proof. destruct v; reflexivity. Qed.

  Lemma sv_pure_ign e : ok e -> pure e = true -> sv true e.
  Proof.
    intros O P. destruct e as [a l|a o cs].
    - intros _ h r h1 q E. cbn in E. destruct O as [O1 O2]. unfold pure in P; cbn in P.
      destruct (O2 P) as [H1 H2]. rewrite P in O1. symmetry in O1.
      destruct (leaf_flags level b l h O1) as (A & B & C).
      rewrite (pure_leaf_eval level b l h O1) in E. inversion E; subst.
      unfold holds. rewrite H1, H2. split; [intros; exfalso; auto|auto].
    - apply sv_node. unfold pure in P; cbn in P. rewrite P. discriminate.
  Qed.

  Lemma sv_leaf_pure ign a l : ok (Leaf a l) -> pure (Leaf a l) = true -> sv ign (Leaf a l).
  Proof. intros O P. exact (sv_pure_ign _ O P). Qed.

  Lemma sv_child ign a o cs : ok (Node a o cs) -> sv ign (Node a o cs) ->
    ign && forallb pure cs = false -> svbody ign o cs.
  Proof.
    intros O V P. apply ok_node in O. destruct O as (_ & Pa & _). apply sv_node in V; [apply V|].
    rewrite Pa. exact P.
  Qed.

  Lemma sv_not ign a c : ok (Node a ONot [c]) -> sv ign (Node a ONot [c]) -> sv ign c.
  Proof.
    intros O V. pose proof O as O2. apply ok_node in O2. destruct O2 as (_ & Pa & Oc). inversion Oc; subst.
    destruct (ign && forallb pure [c]) eqn:P.
    - apply andb_true_iff in P. destruct P as [-> P]. cbn in P. rewrite andb_true_r in P.
      apply sv_pure_ign; assumption.
    - exact (sv_child _ _ _ _ O V P).
  Qed.

  Lemma pure_not a c : ok (Node a ONot [c]) -> pure (Node a ONot [c]) = pure c.
  Proof.
    intros O. apply ok_node in O. destruct O as (_ & Pa & _). unfold pure at 1. cbn [ann].
    rewrite Pa. cbn. apply andb_true_r.
  Qed.

  Lemma not_inner ign a c : ok (Node a ONot [c]) -> simf true ign (Node a ONot [c]) c.
  Proof.
    intros O h r h1 q E. apply evalc_body' in E; [|exact O]. cbn [OptEval.body] in E.
    destruct (evalc ign c h) as [|r' h' q']; [discriminate|]. cbn in E. inversion E; subst.
    eexists. split; [reflexivity|]. intros _ _. destruct r'; reflexivity.
  Qed.

  Lemma not_outer ign e : ok e -> sv ign e -> forall a,
    simf true ign e (annotate1 (Node a ONot [e])) /\ sv ign (annotate1 (Node a ONot [e])).
  Proof.
    intros O V a. split.
    - intros h r h1 q E. exists (negb r). split; [|destruct r; auto].
      assert (S : shape ONot [e]) by (eexists; reflexivity).
      apply body_evalc; [apply ok_annotate1; auto| |].
      + intros -> _. eapply annotate_holds; [exact S|auto|exact V|]. cbn. rewrite E. reflexivity.
      + cbn. rewrite E. reflexivity.
    - apply sv_annotate1; [eexists; reflexivity|auto|]. intros _. exact V.
  Qed.

  Lemma negate_default ign e a : ok e -> good true ign e (annotate1 (Node a ONot [e])).
  Proof.
    intros O. split; [|split].
    - apply ok_annotate1; [eexists; reflexivity|auto].
    - cbn. unfold pure. reflexivity.
    - intros V. destruct (not_outer ign e O V a). auto.
  Qed.

  Lemma negate_const ign e v : ok e -> pure e = true ->
    (forall h, eval e h = (v, h, false)) -> good true ign e (opt_const (negb v)).
  Proof.
    intros O P E. split; [apply ok_const|]. split; [rewrite P; destruct v; reflexivity|].
    intros V. split; [apply sv_const|]. intros h r h1 q E1.
    apply evalc_eval in E1; [|exact O]. rewrite E in E1. inversion E1; subst.
    eexists. split; [apply evalc_const|]. intros _ _. destruct r; reflexivity.
  Qed.

  Lemma negate_good ign e : ok e -> good true ign e (negate_expr e).
  Proof.
    intros O. destruct e as [a l|a o cs].
    - destruct l; try (apply negate_default; exact O).
      + apply (negate_const ign _ true); [exact O| |reflexivity].
        unfold pure; cbn. apply O.
      + apply (negate_const ign _ false); [exact O| |reflexivity].
        unfold pure; cbn. apply O.
    - destruct o; try (apply negate_default; exact O).
      pose proof O as O2. apply ok_node in O2. destruct O2 as ((c & ->) & _ & Oc). inversion Oc; subst.
      cbn [OptModel.negate_expr]. split; [assumption|]. split; [symmetry; apply (pure_not a); exact O|].
      intros V. split; [eapply sv_not; eassumption|apply not_inner; exact O].
  Qed.

  Lemma good_trans f1 f2 ign e1 e2 e3 : good f1 ign e1 e2 -> good f2 ign e2 e3 ->
    good (xorb f1 f2) ign e1 e3.
  Proof.
    intros (A1 & A2 & A3) (B1 & B2 & B3). split; [exact B1|]. split; [congruence|].
    intros V. destruct (A3 V) as [A4 A5]. destruct (B3 A4) as [B4 B5]. split; [exact B4|].
    eapply simf_trans; eassumption.
  Qed.
  Lemma good_refl ign e : ok e -> good false ign e e.
  Proof. intros O. split; [exact O|]. split; [reflexivity|]. intros V. split; [exact V|apply sim_refl]. Qed.

  (** ** De Morgan *)
  Lemma kept_map (ign : bool) cs : Forall ok cs -> Forall2 (kept level) cs (map negate_expr cs).
  Proof.
    induction 1 as [|c cs Oc O IH]; cbn; constructor; [|exact IH].
    destruct (negate_good ign c Oc) as (A & B & _). split; [exact A|]. congruence.
  Qed.
  Lemma negate_pures cs : Forall ok cs -> forallb pure (map negate_expr cs) = forallb pure cs.
  Proof.
    induction 1 as [|c cs Oc O IH]; cbn; [reflexivity|].
    destruct (negate_good false c Oc) as (_ & -> & _). rewrite IH. reflexivity.
  Qed.

  Lemma demorgan ign d a a' cs : ok (Node a (opn d) cs) ->
    good true ign (Node a (opn d) cs) (annotate1 (Node a' (opn (negb d)) (map negate_expr cs))).
  Proof.
    intros O. pose proof O as O2. apply ok_node in O2. destruct O2 as (_ & Pa & Oc).
    pose proof (kept_map ign cs Oc) as K.
    assert (O' : Forall ok (map negate_expr cs)) by (eapply kept_ok; exact K).
    split; [apply ok_annotate1; [apply shape_opn|exact O']|].
    split.
    { unfold pure at 1. cbn [annotate1 ann]. rewrite annotate_pure by apply shape_opn.
      rewrite negate_pures by exact Oc. unfold pure at 2; cbn [ann]. symmetry; exact Pa. }
    intros V.
    assert (VL : ign && forallb pure cs = false -> svl sv ign cs)
      by (intros Sk; rewrite <- (svbody_opn ign d); exact (sv_child _ _ _ _ O V Sk)).
    assert (L : lrel (fun i c c' => sv i c' /\ simf true i c c') ign cs (map negate_expr cs)).
    { clear - VL Oc. induction cs as [|c cs IH]; [exact I|]. cbn [lrel map].
      destruct (ign && forallb pure (c :: cs)) eqn:Sk; [exact I|]. specialize (VL eq_refl).
      cbn [svl] in VL. rewrite Sk in VL. destruct VL as [V1 V2]. inversion Oc; subst.
      split; [apply negate_good; assumption|]. apply IH; [assumption|auto]. }
    assert (V' : ign && forallb pure (map negate_expr cs) = false -> svbody ign (opn (negb d)) (map negate_expr cs)).
    { intros Sk. rewrite negate_pures in Sk by exact Oc. specialize (VL Sk).
      eapply svbody_cong; [exact K|rewrite svbody_opn; exact VL|].
      assert (G : lrel (fun i _ c' => sv i c') ign cs (map negate_expr cs)).
      { revert L. generalize (map negate_expr cs). clear. induction cs as [|c cs IH]; intros [|c' cs'] L;
          cbn [lrel] in *; auto. destruct (ign && _); [exact I|]. destruct L as [[L1 _] L2]. auto. }
      destruct d; exact G. }
    split; [apply sv_annotate1; [apply shape_opn|exact O'|exact V']|].
    apply simf_annotate1; [exact O|apply shape_opn|exact O'|exact V'|].
    intros h r h1 q E. rewrite body_opn in *.
    replace (negb d) with (xorb true d) by (destruct d; reflexivity).
    eapply cloop_cong; [exact Oc|exact K| |exact E].
    revert L. generalize (map negate_expr cs). clear. induction cs as [|c cs IH]; intros [|c' cs'] L;
      cbn [lrel] in *; auto. destruct (ign && _); [exact I|]. destruct L as [[_ L1] L2]. auto.
  Qed.

  (** ** Negated commas *)
  Lemma negate_last_kept cs : Forall ok cs -> Forall2 (kept level) cs (negate_last fo level cs).
  Proof.
    induction 1 as [|c cs Oc O IH]; cbn [negate_last]; [constructor|].
    destruct cs as [|c2 cs]; constructor; auto.
    - destruct (negate_good false c Oc) as (A & B & _). split; [exact A|congruence].
    - split; auto.
  Qed.
  Lemma negate_last_pures cs : Forall ok cs -> forallb pure (negate_last fo level cs) = forallb pure cs.
  Proof.
    induction 1 as [|c cs Oc O IH]; [reflexivity|]. destruct cs as [|c2 cs].
    - cbn. destruct (negate_good false c Oc) as (_ & -> & _). reflexivity.
    - change (negate_last fo level (c :: c2 :: cs)) with (c :: negate_last fo level (c2 :: cs)).
      cbn [forallb]. rewrite IH. reflexivity.
  Qed.
  Lemma negate_last_length cs : length (negate_last fo level cs) = length cs.
  Proof.
    induction cs as [|c cs IH]; [reflexivity|]. destruct cs as [|c2 cs]; [reflexivity|].
    change (negate_last fo level (c :: c2 :: cs)) with (c :: negate_last fo level (c2 :: cs)).
    cbn [length] in *. rewrite IH. reflexivity.
  Qed.

  Lemma sink_comma ign a a' cs : ok (Node a OComma cs) ->
    good true ign (Node a OComma cs) (annotate1 (Node a' OComma (negate_last fo level cs))).
  Proof.
    intros O. pose proof O as O2. apply ok_node in O2. destruct O2 as (S & Pa & Oc).
    pose proof (negate_last_kept cs Oc) as K.
    assert (O' : Forall ok (negate_last fo level cs)) by (eapply kept_ok; exact K).
    assert (S' : shape OComma (negate_last fo level cs))
      by (eapply shape_len; [exact S|apply negate_last_length]).
    split; [apply ok_annotate1; assumption|].
    split.
    { unfold pure at 1. cbn [annotate1 ann]. rewrite annotate_pure by exact S'.
      rewrite negate_last_pures by exact Oc. unfold pure at 2; cbn [ann]. symmetry; exact Pa. }
    intros V.
    assert (VL : ign && forallb pure cs = false -> svcomma sv ign cs)
      by (intros Sk; exact (sv_child _ _ _ _ O V Sk)).
    destruct (ign && forallb pure cs) eqn:Sk.
    { apply andb_true_iff in Sk. destruct Sk as [-> P].
      split; [apply sv_annotate1; [exact S'|exact O'|]|].
      - rewrite negate_last_pures, P by exact Oc. discriminate.
      - apply simf_annotate1; [exact O|exact S'|exact O'| |].
        + rewrite negate_last_pures, P by exact Oc. discriminate.
        + intros h r h1 q E. destruct (body_pure level b true OComma cs h S Oc P) as [r0 E0].
          rewrite E0 in E. inversion E; subst.
          destruct (body_pure level b true OComma (negate_last fo level cs) h1 S' O') as [r1 E1].
          { rewrite negate_last_pures by exact Oc. exact P. }
          exists r1. split; [exact E1|discriminate]. }
    specialize (VL eq_refl).
    assert (L : commarel (fun i c c' => sv i c' /\ ((i = true -> sim i c c') /\ (i = false -> simf true i c c')))
                  ign cs (negate_last fo level cs)).
    { clear - VL Oc. induction cs as [|c cs IH]; [exact I|]. inversion Oc; subst.
      cbn [svcomma] in VL. destruct VL as [V1 V2]. destruct cs as [|c2 cs].
      - cbn [negate_last commarel is_nil] in *. destruct (negate_good ign c H1) as (_ & _ & G).
        destruct (G V1) as [G1 G2]. split; [|exact I]. split; [exact G1|]. split; [|intros _; exact G2].
        intros ->. intros h r h1 q E. destruct (G2 _ _ _ _ E) as (r' & E' & _). exists r'.
        split; [exact E'|discriminate].
      - change (negate_last fo level (c :: c2 :: cs)) with (c :: negate_last fo level (c2 :: cs)).
        cbn [commarel is_nil] in *. split; [|apply IH; assumption]. split; [exact V1|].
        split; [intros _; apply sim_refl|discriminate]. }
    assert (V' : ign && forallb pure (negate_last fo level cs) = false -> svbody ign OComma (negate_last fo level cs)).
    { intros _. eapply svbody_cong; [exact K|exact VL|]. revert L. generalize (negate_last fo level cs).
      clear. induction cs as [|c cs IH]; intros [|c' cs'] L; cbn [commarel] in *; auto.
      destruct L as [[L1 _] L2]. auto. }
    split; [apply sv_annotate1; assumption|].
    apply simf_annotate1; [exact O|exact S'|exact O'|exact V'|].
    intros h r h1 q E. cbn [OptEval.body] in *.
    eapply ccomma_cong with (fl := true); [exact K| | |exact E].
    - intros ->. contradiction (S eq_refl).
    - revert L. generalize (negate_last fo level cs). clear.
      induction cs as [|c cs IH]; intros [|c' cs'] L; cbn [commarel] in *; auto.
      destruct L as [[_ L1] L2]. auto.
  Qed.

  (** ** Associativity *)

  Lemma svl_pure cs : forallb pure cs = true -> svl sv true cs.
  Proof. intros P. destruct cs; [exact I|]. cbn [svl]. rewrite P. exact I. Qed.

  Lemma svl_app ign ds rest : Forall (sv false) ds -> svl sv ign rest -> svl sv ign (ds ++ rest).
  Proof.
    intros V R. induction V as [|c ds Vc _ IH]; [exact R|]. cbn [app svl].
    destruct (ign && forallb pure (c :: ds ++ rest)); [exact I|].
    split; [|exact IH]. destruct (is_nil (ds ++ rest)); [apply sv_mono; exact Vc|exact Vc].
  Qed.

  Definition splice (o : op) (c : expr) : list expr :=
    match c with Node _ o' ds => if op_eqb o' o then ds else [c] | _ => [c] end.
  Lemma flatten_cons o c cs : flatten o (c :: cs) = splice o c ++ flatten o cs.
  Proof. destruct c; reflexivity. Qed.

  Lemma splice_cases o c : (exists a ds, c = Node a o ds /\ splice o c = ds) \/ splice o c = [c].
  Proof.
    destruct c as [a l|a o' ds]; [right; reflexivity|]. cbn.
    destruct o', o; cbn; auto; left; eauto.
  Qed.

  Lemma splice_ok o c : ok c -> Forall ok (splice o c).
  Proof.
    intros O. destruct (splice_cases o c) as [(a & ds & -> & ->)| ->]; [|auto].
    apply ok_node in O. apply O.
  Qed.
  Lemma flatten_ok o cs : Forall ok cs -> Forall ok (flatten o cs).
  Proof.
    induction 1; [constructor|]. rewrite flatten_cons. apply Forall_app. split; [apply splice_ok|]; assumption.
  Qed.
  Lemma splice_pure o c : ok c -> forallb pure (splice o c) = pure c.
  Proof.
    intros O. destruct (splice_cases o c) as [(a & ds & -> & ->)| ->].
    - apply ok_node in O. symmetry. apply O.
    - cbn. apply andb_true_r.
  Qed.
  Lemma flatten_pure o cs : Forall ok cs -> forallb pure (flatten o cs) = forallb pure cs.
  Proof.
    induction 1; [reflexivity|]. rewrite flatten_cons, forallb_app, splice_pure, IHForall by assumption.
    reflexivity.
  Qed.
  Lemma flatten_shape o cs : Forall ok cs -> o <> ONot -> shape o cs -> shape o (flatten o cs).
  Proof.
    intros O Ho S. destruct o; cbn in *; auto; try congruence.
    destruct O as [|c cs Oc O]; [auto|]. rewrite flatten_cons.
    destruct (splice_cases OComma c) as [(a & ds & -> & ->)| ->]; [|discriminate].
    apply ok_node in Oc. destruct Oc as (Sd & _). cbn in Sd. destruct ds; [contradiction|discriminate].
  Qed.

  Lemma svl_flatten ign d cs : Forall ok cs -> svl sv ign cs -> svl sv ign (flatten (opn d) cs).
  Proof.
    induction 1 as [|c cs Oc O IH]; intros V; [exact I|].
    destruct (ign && forallb pure (c :: cs)) eqn:Sk.
    { apply andb_true_iff in Sk. destruct Sk as [-> P]. apply svl_pure.
      rewrite flatten_pure by auto. exact P. }
    cbn [svl] in V. rewrite Sk in V. destruct V as [V1 V2]. rewrite flatten_cons.
    destruct (splice_cases (opn d) c) as [(a & ds & -> & ->)| ->].
    - destruct cs as [|c2 cs].
      + cbn [flatten flat_map is_nil] in *. rewrite app_nil_r.
        rewrite <- (svbody_opn ign d). eapply sv_child; [exact Oc|exact V1|].
        cbn [forallb] in Sk. rewrite andb_true_r in Sk. apply ok_node in Oc. destruct Oc as (_ & <- & _).
        exact Sk.
      + cbn [is_nil] in V1. apply svl_app; [|apply IH; exact V2].
        apply svl_false. rewrite <- (svbody_opn false d). eapply sv_child; [exact Oc|exact V1|reflexivity].
    - cbn [app]. cbn [svl]. destruct (ign && forallb pure (c :: flatten (opn d) cs)); [exact I|].
      split; [|auto]. destruct cs as [|c2 cs]; [exact V1|]. cbn [is_nil] in V1.
      destruct (is_nil _); [apply sv_mono; exact V1|exact V1].
  Qed.

  Lemma cloop_flatten ign d cs : Forall ok cs -> forall h r h1 q,
    cloop evalc ign d cs h = Done r h1 q ->
    exists r', cloop evalc ign d (flatten (opn d) cs) h = Done r' h1 q /\
               (ign = false -> q = false -> r' = r).
  Proof.
    induction 1 as [|c cs Oc O IH]; intros h r h1 q E.
    - exists r. split; [exact E|auto].
    - rewrite flatten_cons. cbn [cloop] in E.
      destruct (evalc _ c h) as [|r1 h2 q1] eqn:Ec; [discriminate|].
      destruct (splice_cases (opn d) c) as [(a & ds & -> & ->)| ->].
      + pose proof (evalc_body' _ _ _ _ _ _ _ _ _ _ Oc Ec) as B. rewrite body_opn in B.
        apply ok_node in Oc. destruct Oc as (_ & _ & Od).
        destruct cs as [|c2 cs].
        * cbn [flatten flat_map is_nil cloop] in *. rewrite app_nil_r. rewrite B.
          pose proof (cloop_result _ _ _ _ _ _ _ B) as R.
          destruct R as [[-> ->]| ->].
          -- rewrite xorb_nilpotent in E. cbn in E. inversion E; subst. eauto.
          -- replace (xorb (negb d) d) with true in E by (destruct d; reflexivity).
             cbn in E. inversion E; subst. eauto.
        * cbn [is_nil] in B. eapply cloop_app; [exact Od|apply flatten_ok; exact O|exact B|].
          destruct (xorb r1 d || q1); [inversion E; reflexivity|]. apply IH. exact E.
      + cbn [app]. apply cloop_cons with (last := is_nil cs) (r := r1) (h1 := h2) (q := q1);
          [exact Oc|apply flatten_ok; exact O| |exact Ec|].
        * destruct cs; [reflexivity|discriminate].
        * destruct (xorb r1 d || q1); [inversion E; reflexivity|]. apply IH. exact E.
  Qed.

  Lemma good_assoc ign d a cs : ok (Node a (opn d) cs) ->
    good false ign (Node a (opn d) cs) (annotate1 (Node a (opn d) (flatten (opn d) cs))).
  Proof.
    intros O. pose proof O as O2. apply ok_node in O2. destruct O2 as (S & Pa & Oc).
    pose proof (flatten_ok (opn d) cs Oc) as O'.
    split; [apply ok_annotate1; [apply shape_opn|exact O']|]. split.
    { unfold pure at 1. cbn [annotate1 ann]. rewrite annotate_pure by apply shape_opn.
      rewrite flatten_pure by exact Oc. symmetry; exact Pa. }
    intros V.
    assert (V' : ign && forallb pure (flatten (opn d) cs) = false -> svbody ign (opn d) (flatten (opn d) cs)).
    { rewrite flatten_pure by exact Oc. intros Sk. rewrite svbody_opn. apply svl_flatten; [exact Oc|].
      rewrite <- (svbody_opn ign d). eapply sv_child; eassumption. }
    split; [apply sv_annotate1; [apply shape_opn|exact O'|exact V']|].
    apply simf_annotate1; [exact O|apply shape_opn|exact O'|exact V'|].
    intros h r h1 q E. rewrite body_opn in *. rewrite xorb_false_l'. apply cloop_flatten; assumption.
  Qed.

  (** *** Commas *)

  Lemma evalc_true_of i c h r h1 q : ok c -> evalc i c h = Done r h1 q -> evalc true c h = Done r h1 q.
  Proof. intros O E. destruct i; [exact E|apply evalc_mono; assumption]. Qed.
  Lemma sv_true_of i c : sv i c -> sv true c.
  Proof. destruct i; [auto|apply sv_mono]. Qed.

  Lemma svcomma_app ign ds rest : svcomma sv true ds -> svcomma sv ign rest -> rest <> [] ->
    svcomma sv ign (ds ++ rest).
  Proof.
    intros V R N. induction ds as [|c ds IH]; [exact R|]. cbn [app svcomma] in *.
    destruct V as [V1 V2]. split; [|auto].
    replace (is_nil (ds ++ rest)) with false by (destruct ds, rest; cbn; congruence).
    destruct (is_nil ds); exact V1.
  Qed.
  Lemma flatten_nonempty c cs : Forall ok (c :: cs) -> flatten OComma (c :: cs) <> [].
  Proof. intros O. apply (flatten_shape OComma); [exact O|discriminate|discriminate]. Qed.

  Lemma svcomma_pure cs : Forall ok cs -> forallb pure cs = true -> svcomma sv true cs.
  Proof.
    induction 1 as [|c l Oc O IH]; [intros _; exact I|]. cbn [forallb svcomma]. intros P. apply andb_true_iff in P. destruct P as [P1 P2]. split; [|auto].
    destruct (is_nil l); apply sv_pure_ign; assumption.
  Qed.
  Lemma sv_comma_child ign a ds : ok (Node a OComma ds) -> sv ign (Node a OComma ds) -> svcomma sv ign ds.
  Proof.
    intros O V. destruct (ign && forallb pure ds) eqn:Sk.
    - apply andb_true_iff in Sk. destruct Sk as [-> P]. apply ok_node in O. apply svcomma_pure; [apply O|exact P].
    - eapply (sv_child _ _ OComma); eassumption.
  Qed.

  Lemma svcomma_flatten ign cs : Forall ok cs -> svcomma sv ign cs -> svcomma sv ign (flatten OComma cs).
  Proof.
    induction 1 as [|c cs Oc O IH]; intros V; [exact I|].
    cbn [svcomma] in V. destruct V as [V1 V2]. rewrite flatten_cons.
    destruct (splice_cases OComma c) as [(a & ds & -> & ->)| ->].
    - apply sv_comma_child in V1; [|exact Oc]. destruct cs as [|c2 cs].
      + cbn [flatten flat_map is_nil] in *. rewrite app_nil_r. exact V1.
      + apply svcomma_app; [exact V1|auto|apply flatten_nonempty; exact O].
    - cbn [app svcomma]. split; [|auto]. destruct cs as [|c2 cs]; [exact V1|].
      pose proof (flatten_nonempty c2 cs O). destruct (flatten OComma (c2 :: cs)); [congruence|exact V1].
  Qed.

  Lemma ccomma_app ign ds : forall rest ret h r h1 q, rest <> [] ->
    ccomma evalc true ret ds h = Done r h1 q ->
    ccomma evalc ign ret (ds ++ rest) h = (if q then Done r h1 q else ccomma evalc ign r rest h1).
  Proof.
    induction ds as [|c ds IH]; intros rest ret h r h1 q N E; cbn [app ccomma] in *.
    - inversion E; subst. reflexivity.
    - replace (is_nil (ds ++ rest)) with false by (destruct ds, rest; cbn; congruence).
      replace (if is_nil ds then true else true) with true in E by (destruct (is_nil ds); reflexivity).
      destruct (evalc true c h) as [|r1 h2 q1]; [discriminate|].
      destruct q1; [inversion E; subst; reflexivity|]. apply IH; assumption.
  Qed.

  Lemma ccomma_ret ign ret ret' cs h : cs <> [] -> ccomma evalc ign ret cs h = ccomma evalc ign ret' cs h.
  Proof. destruct cs; [congruence|reflexivity]. Qed.

  Lemma ccomma_flatten ign cs : Forall ok cs -> forall ret h r h1 q,
    ccomma evalc ign ret cs h = Done r h1 q ->
    ccomma evalc ign ret (flatten OComma cs) h = Done r h1 q.
  Proof.
    induction 1 as [|c cs Oc O IH]; intros ret h r h1 q E; [exact E|].
    rewrite flatten_cons. cbn [ccomma] in E.
    destruct (evalc _ c h) as [|r1 h2 q1] eqn:Ec; [discriminate|].
    destruct (splice_cases OComma c) as [(a & ds & -> & ->)| ->].
    - pose proof (evalc_body' _ _ _ _ _ _ _ _ _ _ Oc Ec) as B. cbn [OptEval.body] in B.
      apply ok_node in Oc. destruct Oc as (Sd & _ & Od). cbn in Sd.
      rewrite (ccomma_ret _ _ ret) in B by exact Sd.
      destruct cs as [|c2 cs].
      + cbn [flatten flat_map is_nil] in *. rewrite app_nil_r. rewrite B.
        destruct q1; [exact E|]. cbn in E. inversion E; subst. reflexivity.
      + cbn [is_nil] in B. rewrite (ccomma_app _ _ _ _ _ _ _ _ (flatten_nonempty c2 cs O) B).
        destruct q1; [exact E|]. auto.
    - cbn [app ccomma].
      replace (is_nil (flatten OComma cs)) with (is_nil cs).
      2: { destruct cs as [|c2 cs]; [reflexivity|]. pose proof (flatten_nonempty c2 cs O).
           destruct (flatten OComma (c2 :: cs)); [congruence|reflexivity]. }
      rewrite Ec. destruct q1; [exact E|]. auto.
  Qed.

  Lemma good_assoc_comma ign a cs : ok (Node a OComma cs) ->
    good false ign (Node a OComma cs) (annotate1 (Node a OComma (flatten OComma cs))).
  Proof.
    intros O. pose proof O as O2. apply ok_node in O2. destruct O2 as (S & Pa & Oc).
    pose proof (flatten_ok OComma cs Oc) as O'.
    assert (S' : shape OComma (flatten OComma cs)) by (apply flatten_shape; [exact Oc|discriminate|exact S]).
    split; [apply ok_annotate1; assumption|]. split.
    { unfold pure at 1. cbn [annotate1 ann]. rewrite annotate_pure by exact S'.
      rewrite flatten_pure by exact Oc. symmetry; exact Pa. }
    intros V.
    assert (V' : ign && forallb pure (flatten OComma cs) = false -> svbody ign OComma (flatten OComma cs)).
    { intros _. apply svcomma_flatten; [exact Oc|]. eapply sv_comma_child; eassumption. }
    split; [apply sv_annotate1; assumption|].
    apply simf_annotate1; [exact O|exact S'|exact O'|exact V'|].
    intros h r h1 q E. rewrite xorb_false_l'. cbn [OptEval.body] in *. exists r.
    split; [apply ccomma_flatten; assumption|auto].
  Qed.

  (** ** Canonicalization *)
  Lemma canonicalize_not_good ign a rhs : ok (Node a ONot [rhs]) ->
    good false ign (Node a ONot [rhs]) (canonicalize_not fo level (Node a ONot [rhs]) rhs).
  Proof.
    intros O. pose proof O as O2. apply ok_node in O2. destruct O2 as (_ & _ & Oc).
    inversion Oc as [|? ? Or _]; subst.
    assert (I : good true ign (Node a ONot [rhs]) rhs).
    { split; [exact Or|]. split; [symmetry; apply (pure_not a); exact O|].
      intros V. split; [eapply sv_not; eassumption|apply not_inner; exact O]. }
    assert (T : forall e', good true ign rhs e' -> good false ign (Node a ONot [rhs]) e')
      by (intros e' G; exact (good_trans true true ign _ _ _ I G)).
    destruct rhs as [a' l|a' o cs].
    - destruct l; try (apply good_refl; exact O); apply T.
      + apply (negate_good ign (Leaf a' LTrue) Or).
      + apply (negate_good ign (Leaf a' LFalse) Or).
    - destruct o; cbn [canonicalize_not].
      + pose proof Or as O2. apply ok_node in O2. destruct O2 as ((c & ->) & _ & Oc2).
        apply T. exact (negate_good ign (Node a' ONot [c]) Or).
      + apply T. exact (demorgan ign true a' a' cs Or).
      + apply T. exact (demorgan ign false a' a' cs Or).
      + apply T. exact (sink_comma ign a' a' cs Or).
  Qed.

  Lemma canonicalize1_good ign e : ok e -> good false ign e (canonicalize1 fo level ign e).
  Proof.
    intros O. destruct e as [a l|a o cs]; [apply good_refl; exact O|].
    destruct o; cbn [canonicalize1].
    - pose proof O as O2. apply ok_node in O2. destruct O2 as ((c & ->) & _ & _).
      apply canonicalize_not_good. exact O.
    - exact (good_assoc ign true a cs O).
    - exact (good_assoc ign false a cs O).
    - exact (good_assoc_comma ign a cs O).
  Qed.

  Lemma good_pass f : (forall ign e, ok e -> good false ign e (f ign e)) ->
    pass_ok (walk f) /\ pass_exact (walk f) /\ pass_sound (walk f).
  Proof.
    intros G.
    assert (K : pass_ok f).
    { intros ign e O. destruct (G ign e O) as (A & B & _). split; [exact A|congruence]. }
    assert (X : pass_exact f).
    { intros ign e O. destruct (G ign e O) as (_ & B & _). exact B. }
    assert (Sd : pass_sound f).
    { intros ign e O V. destruct (G ign e O) as (_ & _ & C). exact (C V). }
    split; [apply walk_ok; exact K|]. split; [apply walk_exact; assumption|].
    apply walk_sound; [exact K|exact Sd|]. right. apply walk_exact; assumption.
  Qed.

  Lemma canonicalize_pass : pass_ok (canonicalize fo level) /\ pass_exact (canonicalize fo level) /\
    pass_sound (canonicalize fo level).
  Proof. apply good_pass. apply canonicalize1_good. Qed.

  (** ** Reordering *)

  Lemma merge_perm o l : forall r, Permutation (merge_exprs fo o l r) (l ++ r).
  Proof.
    induction l as [|x l IHl]; intros r; [apply Permutation_refl|].
    induction r as [|y r IHr]; cbn [merge_exprs].
    - rewrite app_nil_r. apply Permutation_refl.
    - destruct (f_le fo _ _).
      + cbn [app]. apply perm_skip. apply IHl.
      + eapply Permutation_trans; [apply perm_skip; exact IHr|].
        change (x :: l ++ y :: r) with ((x :: l) ++ y :: r). apply Permutation_middle.
  Qed.

  Lemma sort_exprs_perm o : forall fuel cs, length cs <= fuel ->
    exists s, sort_exprs fo fuel o cs = Some s /\ Permutation s cs.
  Proof.
    induction fuel as [|n IH]; intros cs H.
    - destruct cs; [|cbn in H; lia]. exists []. split; [reflexivity|apply Permutation_refl].
    - destruct cs as [|c [|c2 cs]]; [exists []; split; [reflexivity|apply Permutation_refl]
        |exists [c]; split; [reflexivity|apply Permutation_refl]|].
      set (l := c :: c2 :: cs) in *. cbn [sort_exprs]. unfold l at 1.
      assert (H2 : 1 <= Nat.div2 (length l) < length l).
      { unfold l. cbn [length]. split; [cbn; lia|]. apply Nat.lt_div2. lia. }
      destruct (IH (firstn (Nat.div2 (length l)) l)) as (s1 & E1 & P1).
      { rewrite firstn_length. lia. }
      destruct (IH (skipn (Nat.div2 (length l)) l)) as (s2 & E2 & P2).
      { rewrite skipn_length. lia. }
      rewrite E1, E2. eexists. split; [reflexivity|].
      eapply Permutation_trans; [apply merge_perm|].
      eapply Permutation_trans; [apply Permutation_app; eassumption|].
      rewrite firstn_skipn. apply Permutation_refl.
  Qed.

  Lemma sort_block_perm o cs : Permutation (sort_block fo o cs) cs.
  Proof.
    unfold sort_block. destruct (sort_exprs_perm o (length cs) cs (le_n _)) as (s & -> & P). exact P.
  Qed.

  Lemma reorder_perm o cs : forall block, Permutation (reorder_blocks fo o block cs) (block ++ cs).
  Proof.
    induction cs as [|c cs IH]; intros block; cbn [reorder_blocks].
    - rewrite app_nil_r. apply sort_block_perm.
    - destruct (pure c).
      + eapply Permutation_trans; [apply IH|]. rewrite <- app_assoc. apply Permutation_refl.
      + apply Permutation_app; [apply sort_block_perm|]. apply perm_skip. apply (IH []).
  Qed.

  Lemma perm_nil {A} (l l' : list A) : Permutation l l' -> is_nil l = is_nil l'.
  Proof. intros P. apply Permutation_length in P. destruct l, l'; cbn in *; auto; discriminate. Qed.

  Lemma cloop_pure_app ign d block rest h : Forall ok block -> forallb pure block = true ->
    cloop evalc ign d (block ++ rest) h =
    if forallb (fun c => Bool.eqb (value c h) d) block then cloop evalc ign d rest h
    else Done (negb d) h false.
  Proof.
    induction 1 as [|c block Oc O IH]; intros P; [reflexivity|].
    cbn [app cloop forallb] in *. apply andb_true_iff in P. destruct P as [P1 P2].
    rewrite pure_evalc by assumption. rewrite orb_false_r.
    destruct (value c h), d; cbn; auto.
  Qed.

  Lemma forallb_perm {A} (p : A -> bool) l l' : Permutation l l' -> forallb p l = forallb p l'.
  Proof.
    induction 1; cbn; [reflexivity|congruence| |congruence].
    destruct (p x), (p y); reflexivity.
  Qed.

  Lemma cloop_reorder ign d cs : Forall ok cs -> forall block h, Forall ok block ->
    forallb pure block = true ->
    cloop evalc ign d (reorder_blocks fo (opn d) block cs) h = cloop evalc ign d (block ++ cs) h.
  Proof.
    induction 1 as [|c cs Oc O IH]; intros block h Ob Pb; cbn [reorder_blocks].
    - pose proof (sort_block_perm (opn d) block) as P.
      rewrite <- (app_nil_r (sort_block fo (opn d) block)).
      rewrite !cloop_pure_app; auto.
      + rewrite (forallb_perm _ _ _ P). reflexivity.
      + eapply Permutation_Forall; [apply Permutation_sym; exact P|exact Ob].
      + rewrite (forallb_perm _ _ _ P). exact Pb.
    - destruct (pure c) eqn:Pc.
      + rewrite IH.
        * rewrite <- app_assoc. reflexivity.
        * apply Forall_app. auto.
        * rewrite forallb_app, Pb. cbn. rewrite Pc. reflexivity.
      + pose proof (sort_block_perm (opn d) block) as P.
        rewrite !cloop_pure_app; auto.
        2: { eapply Permutation_Forall; [apply Permutation_sym; exact P|exact Ob]. }
        2: { rewrite (forallb_perm _ _ _ P). exact Pb. }
        rewrite (forallb_perm _ _ _ P).
        match goal with |- (if ?x then _ else _) = _ => destruct x; [|reflexivity] end. cbn [cloop].
        rewrite (perm_nil _ _ (reorder_perm (opn d) cs [])). cbn [app].
        destruct (evalc _ c h) as [|r1 h2 q1]; [reflexivity|].
        destruct (xorb r1 d || q1); [reflexivity|].
        rewrite IH; auto.
  Qed.

  Lemma svl_app_inv ign ds rest : forallb pure rest = false -> svl sv ign (ds ++ rest) ->
    Forall (sv false) ds /\ svl sv ign rest.
  Proof.
    intros P. induction ds as [|c ds IH]; intros V; [auto|]. cbn [app svl] in V.
    assert (E : ign && forallb pure (c :: ds ++ rest) = false).
    { cbn. rewrite forallb_app, P, !andb_false_r. reflexivity. }
    rewrite E in V. destruct V as [V1 V2]. destruct (IH V2) as [V3 V4]. split; [|exact V4].
    constructor; [|exact V3].
    replace (is_nil (ds ++ rest)) with false in V1 by (destruct ds, rest; cbn in *; congruence). exact V1.
  Qed.

  Lemma svl_reorder ign d cs : forall block, forallb pure block = true ->
    svl sv ign (block ++ cs) -> svl sv ign (reorder_blocks fo (opn d) block cs).
  Proof.
    induction cs as [|c cs IH]; intros block Pb V; cbn [reorder_blocks].
    - rewrite app_nil_r in V. pose proof (sort_block_perm (opn d) block) as P. destruct ign.
      + apply svl_pure. rewrite (forallb_perm _ _ _ P). exact Pb.
      + apply svl_false. apply svl_false in V. eapply Permutation_Forall; [apply Permutation_sym; exact P|exact V].
    - destruct (pure c) eqn:Pc.
      + apply IH; [rewrite forallb_app, Pb; cbn; rewrite Pc; reflexivity|].
        rewrite <- app_assoc. exact V.
      + apply svl_app_inv in V; [|cbn; rewrite Pc; reflexivity]. destruct V as [V1 V2].
        pose proof (sort_block_perm (opn d) block) as P.
        apply svl_app; [eapply Permutation_Forall; [apply Permutation_sym; exact P|exact V1]|].
        cbn [svl forallb] in *. rewrite Pc in *. cbn [andb] in *. rewrite andb_false_r in *.
        destruct V2 as [V2 V3]. split; [|apply IH; [reflexivity|exact V3]].
        rewrite (perm_nil _ _ (reorder_perm (opn d) cs [])). exact V2.
  Qed.

  Lemma reorder_good ign d a cs : ok (Node a (opn d) cs) ->
    good false ign (Node a (opn d) cs) (annotate1 (Node a (opn d) (reorder_blocks fo (opn d) [] cs))).
  Proof.
    intros O. pose proof O as O2. apply ok_node in O2. destruct O2 as (S & Pa & Oc).
    pose proof (reorder_perm (opn d) cs []) as P. cbn [app] in P.
    assert (O' : Forall ok (reorder_blocks fo (opn d) [] cs))
      by (eapply Permutation_Forall; [apply Permutation_sym; exact P|exact Oc]).
    split; [apply ok_annotate1; [apply shape_opn|exact O']|]. split.
    { unfold pure at 1. cbn [annotate1 ann]. rewrite annotate_pure by apply shape_opn.
      rewrite (forallb_perm _ _ _ P). symmetry; exact Pa. }
    intros V.
    assert (V' : ign && forallb pure (reorder_blocks fo (opn d) [] cs) = false ->
                 svbody ign (opn d) (reorder_blocks fo (opn d) [] cs)).
    { rewrite (forallb_perm _ _ _ P). intros Sk. rewrite svbody_opn. apply svl_reorder; [reflexivity|].
      cbn [app]. rewrite <- (svbody_opn ign d). eapply sv_child; eassumption. }
    split; [apply sv_annotate1; [apply shape_opn|exact O'|exact V']|].
    apply simf_annotate1; [exact O|apply shape_opn|exact O'|exact V'|].
    intros h r h1 q E. rewrite body_opn in *. rewrite xorb_false_l'. exists r.
    split; [|auto]. rewrite cloop_reorder; auto.
  Qed.

  Lemma reorder_pass : pass_ok (reorder fo level) /\ pass_exact (reorder fo level) /\
    pass_sound (reorder fo level).
  Proof.
    apply good_pass. intros ign e O. destruct e as [a l|a o cs]; [apply good_refl; exact O|].
    destruct o; cbn [reorder1]; try (apply good_refl; exact O).
    - exact (reorder_good ign true a cs O).
    - exact (reorder_good ign false a cs O).
  Qed.
End OptPasses.
