(** * Evaluation with the optimizer's annotations checked

    Proof device for the optimizer.  [evalc ign e h] is [eval e h], except
    that it fails if an annotation of an impure node turns out wrong on the
    way, like the assertions of src/eval.c 1085-1090.  [ign] says that the result
    of [e] is not used; then operators on the way to that result are not
    checked.  Annotations of pure nodes are covered by [sv] instead. *)
From Coq Require Import List ZArith Bool Lia.
From Verif Require Import ExprModel ExprSpec ExprProofs OptModel.
Import ListNotations.

Inductive res := Fail | Done (r : bool) (h : hist) (q : bool).

Section OptEval.
  Context {F : Type}.
  Variable fo : float_ops F.
  Variable level : nat.
  Variable b : behaviour.
  (** Are the annotations of impure nodes valid in every state, too? *)
  Variable U : bool.
  Notation expr := (expr F).
  Notation eval := (@eval F level b).

  Definition holdsb (a : annot F) (r q : bool) : bool :=
    if a_true a && a_false a then q
    else q || ((negb (a_true a) || r) && (negb (a_false a) || negb r)).

  Definition holds (a : annot F) (r q : bool) : Prop :=
    (a_true a = true -> a_false a = true -> q = true) /\
    (q = false -> (a_true a = true -> r = true) /\ (a_false a = true -> r = false)).

  Lemma holdsb_spec a r q : holdsb a r q = true <-> holds a r q.
  Proof.
    unfold holdsb, holds.
    destruct (a_true a), (a_false a), r, q; cbn; intuition congruence.
  Qed.

  Definition chk (a : annot F) (x : res) : res :=
    match x with
    | Fail => Fail
    | Done r h q => if holdsb a r q then Done r h q else Fail
    end.

  Definition of_outcome (o : outcome) : res := let '(r, h, q) := o in Done r h q.

  Definition neg_res (x : res) : res :=
    match x with Fail => Fail | Done r h q => Done (negb r) h q end.

  Section Loops.
    Variable evc : bool -> expr -> hist -> res.
    Variable ign : bool.

    (** -and for [d = true], -or for [d = false] *)
    Fixpoint cloop (d : bool) (cs : list expr) (h : hist) : res :=
      match cs with
      | [] => Done d h false
      | c :: cs' =>
          match evc (if is_nil cs' then ign else false) c h with
          | Fail => Fail
          | Done r h1 q => if xorb r d || q then Done (negb d) h1 q else cloop d cs' h1
          end
      end.

    Fixpoint ccomma (ret : bool) (cs : list expr) (h : hist) : res :=
      match cs with
      | [] => Done ret h false
      | c :: cs' =>
          match evc (if is_nil cs' then ign else true) c h with
          | Fail => Fail
          | Done r h1 q => if q then Done r h1 q else ccomma r cs' h1
          end
      end.
  End Loops.

  Fixpoint evalc (ign : bool) (e : expr) (h : hist) {struct e} : res :=
    match e with
    | Leaf a l =>
        if a_pure a then let '(r, _, _) := eval_leaf level b l h in Done r h false
        else chk a (of_outcome (eval_leaf level b l h))
    | Node a o cs =>
        if a_pure a then let '(r, _, _) := eval e h in Done r h false
        else
          let x := match o with
                   | ONot => match cs with [] => Done true h false | c :: _ => neg_res (evalc ign c h) end
                   | OAnd => cloop evalc ign true cs h
                   | OOr => cloop evalc ign false cs h
                   | OComma => ccomma evalc ign false cs h
                   end in
          if ign then x else chk a x
    end.

  (** The unchecked body of a node *)
  Definition body (ign : bool) (o : op) (cs : list expr) (h : hist) : res :=
    match o with
    | ONot => match cs with [] => Done true h false | c :: _ => neg_res (evalc ign c h) end
    | OAnd => cloop evalc ign true cs h
    | OOr => cloop evalc ign false cs h
    | OComma => ccomma evalc ign false cs h
    end.

  Lemma evalc_node ign a o cs h :
    evalc ign (Node a o cs) h =
    if a_pure a then let '(r, _, _) := eval (Node a o cs) h in Done r h false
    else if ign then body ign o cs h else chk a (body ign o cs h).
  Proof. destruct o; reflexivity. Qed.

  (** ** Well-formed trees *)

  Definition shape (o : op) (cs : list expr) : Prop :=
    match o with ONot => exists c, cs = [c] | OComma => cs <> [] | _ => True end.

  Fixpoint ok (e : expr) : Prop :=
    match e with
    | Leaf a l =>
        a_pure a = leaf_pure level l /\
        (a_pure a = true -> a_true a = leaf_true l /\ a_false a = leaf_false l)
    | Node a o cs =>
        shape o cs /\ a_pure a = forallb pure cs /\
        (fix all l := match l with [] => True | c :: l' => ok c /\ all l' end) cs
    end.

  Lemma ok_node a o cs :
    ok (Node a o cs) <-> shape o cs /\ a_pure a = forallb pure cs /\ Forall ok cs.
  Proof.
    cbn [ok]. do 2 apply and_iff_compat_l.
    induction cs as [|c cs IH]; [split; [constructor|exact (fun _ => I)]|].
    rewrite Forall_cons_iff, IH. reflexivity.
  Qed.

  (** Value of a pure expression *)
  Definition value (e : expr) (h : hist) : bool := fst (fst (eval e h)).

  Lemma pure_leaf_eval l h : leaf_pure level l = true ->
    eval_leaf level b l h = (fst (fst (eval_leaf level b l h)), h, false).
  Proof. destruct l; cbn; intros E; try discriminate; try rewrite E; reflexivity. Qed.

  Lemma pure_eval : forall e, ok e -> pure e = true -> forall h, eval e h = (value e h, h, false).
  Proof.
    unfold value.
    induction e as [a l|a o cs IH] using expr_ind'; intros O P h.
    - destruct O as [O _]. unfold pure in P; cbn in P. rewrite O in P.
      cbn [ExprModel.eval]. apply pure_leaf_eval. exact P.
    - apply ok_node in O. destruct O as (S & Pa & O).
      unfold pure in P; cbn in P. rewrite Pa in P. clear Pa.
      destruct o; cbn [ExprModel.eval].
      + destruct S as [c ->]. cbn in P. rewrite andb_true_r in P.
        inversion IH as [|? ? IHc _]; subst. inversion O; subst.
        rewrite (IHc ltac:(assumption) P h). reflexivity.
      + clear S. revert h. induction cs as [|c cs IHcs]; intros h; [reflexivity|].
        cbn in P. apply andb_true_iff in P. destruct P as [P1 P2].
        inversion IH; inversion O; subst. cbn [and_loop]. rewrite (H1 ltac:(assumption) P1 h).
        destruct (fst (fst (eval c h))); cbn; [apply IHcs; assumption|reflexivity].
      + clear S. revert h. induction cs as [|c cs IHcs]; intros h; [reflexivity|].
        cbn in P. apply andb_true_iff in P. destruct P as [P1 P2].
        inversion IH; inversion O; subst. cbn [or_loop]. rewrite (H1 ltac:(assumption) P1 h).
        destruct (fst (fst (eval c h))); cbn; [reflexivity|apply IHcs; assumption].
      + clear S. enough (G : forall ret h, comma_loop eval ret cs h
            = (fst (fst (comma_loop eval ret cs h)), h, false)) by apply G.
        clear h. induction cs as [|c cs IHcs]; intros ret h; [reflexivity|].
        cbn in P. apply andb_true_iff in P. destruct P as [P1 P2].
        inversion IH; inversion O; subst. cbn [comma_loop]. rewrite (H1 ltac:(assumption) P1 h).
        apply IHcs; assumption.
  Qed.

  Lemma pure_evalc e : ok e -> pure e = true -> forall ign h, evalc ign e h = Done (value e h) h false.
  Proof.
    intros O P ign h. pose proof (pure_eval e O P h) as E.
    destruct e as [a l|a o cs]; unfold pure in P; cbn in P.
    - cbn [evalc]. rewrite P. cbn [ExprModel.eval] in E. rewrite E. reflexivity.
    - rewrite evalc_node, P, E. reflexivity.
  Qed.

  (** [evalc] agrees with [eval]. *)
  Lemma chk_done a x r h q : chk a x = Done r h q <-> x = Done r h q /\ holds a r q.
  Proof.
    destruct x as [|r' h' q']; cbn; [intuition discriminate|].
    destruct (holdsb a r' q') eqn:E.
    - apply holdsb_spec in E. split; [intros H; inversion H; subst; auto|tauto].
    - split; [discriminate|]. intros [H1 H2]. inversion H1; subst.
      apply holdsb_spec in H2. congruence.
  Qed.

  Lemma evalc_eval : forall e, ok e -> forall ign h r h1 q,
    evalc ign e h = Done r h1 q -> eval e h = (r, h1, q).
  Proof.
    induction e as [a l|a o cs IH] using expr_ind'; intros O ign h r h1 q E.
    - destruct (pure (Leaf a l)) eqn:P.
      + rewrite pure_evalc in E by assumption. rewrite pure_eval by assumption.
        inversion E; subst. reflexivity.
      + cbn [evalc] in E. unfold pure in P; cbn in P. rewrite P in E.
        apply chk_done in E. destruct E as [E _]. cbn [ExprModel.eval].
        destruct (eval_leaf level b l h) as [[r' h'] q']. cbn in E. inversion E; reflexivity.
    - destruct (pure (Node a o cs)) eqn:P.
      { rewrite pure_evalc in E by assumption. rewrite pure_eval by assumption.
        inversion E; subst. reflexivity. }
      rewrite evalc_node in E. unfold pure in P; cbn in P. rewrite P in E.
      assert (E' : body ign o cs h = Done r h1 q).
      { destruct ign; [exact E|apply chk_done in E; apply E]. }
      clear E P. apply ok_node in O. destruct O as (S & _ & O).
      destruct o; cbn [body ExprModel.eval] in *.
      + destruct S as [c ->]. inversion IH as [|? ? IHc _]; inversion O; subst.
        destruct (evalc ign c h) as [|r' h' q'] eqn:Ec; [discriminate|].
        apply IHc in Ec; [|assumption]. rewrite Ec. cbn in E'. inversion E'; subst. reflexivity.
      + clear S. revert h r h1 q E'. induction cs as [|c cs IHcs]; intros; cbn [cloop and_loop] in *.
        * inversion E'; reflexivity.
        * inversion IH as [|? ? IHc IH']; inversion O; subst.
          destruct (evalc _ c h) as [|r' h' q'] eqn:Ec; [discriminate|].
          apply IHc in Ec; [|assumption]. rewrite Ec. rewrite xorb_true_r in E'.
          destruct (negb r' || q'); [inversion E'; reflexivity|]. auto.
      + clear S. revert h r h1 q E'. induction cs as [|c cs IHcs]; intros; cbn [cloop or_loop] in *.
        * inversion E'; reflexivity.
        * inversion IH as [|? ? IHc IH']; inversion O; subst.
          destruct (evalc _ c h) as [|r' h' q'] eqn:Ec; [discriminate|].
          apply IHc in Ec; [|assumption]. rewrite Ec. rewrite xorb_false_r in E'.
          destruct (r' || q'); [inversion E'; reflexivity|]. auto.
      + clear S. revert E'. generalize false.
        revert h r h1 q. induction cs as [|c cs IHcs]; intros h r h1 q ret E';
          cbn [ccomma comma_loop] in *.
        * inversion E'; reflexivity.
        * inversion IH as [|? ? IHc IH']; inversion O; subst.
          destruct (evalc _ c h) as [|r' h' q'] eqn:Ec; [discriminate|].
          apply IHc in Ec; [|assumption]. rewrite Ec.
          destruct q'; [inversion E'; reflexivity|]. auto.
  Qed.

  (** Fewer checks if the result is ignored. *)
  Lemma evalc_mono : forall e, ok e -> forall ign h r h1 q,
    evalc false e h = Done r h1 q -> evalc ign e h = Done r h1 q.
  Proof.
    intros e O [|]; [|auto]. revert O.
    induction e as [a l|a o cs IH] using expr_ind'; intros O h r h1 q E; [exact E|].
    rewrite evalc_node in *. destruct (a_pure a); [exact E|].
    apply chk_done in E. destruct E as [E _].
    apply ok_node in O. destruct O as (S & _ & O).
    destruct o; cbn [body] in *.
    - destruct S as [c ->]. inversion IH as [|? ? IHc _]; inversion O; subst.
      destruct (evalc false c h) as [|r' h' q'] eqn:Ec; [discriminate|].
      rewrite (IHc ltac:(assumption) _ _ _ _ Ec). exact E.
    - clear S. revert h r h1 q E. induction cs as [|c cs IHcs]; intros; cbn [cloop] in *; [exact E|].
      inversion IH as [|? ? IHc IH']; inversion O; subst.
      replace (if is_nil cs then false else false) with false in E by (destruct (is_nil cs); reflexivity).
      destruct (evalc false c h) as [|r' h' q'] eqn:Ec; [discriminate|].
      replace (evalc _ c h) with (Done r' h' q')
        by (destruct (is_nil cs); symmetry; auto).
      destruct (xorb r' true || q'); auto.
    - clear S. revert h r h1 q E. induction cs as [|c cs IHcs]; intros; cbn [cloop] in *; [exact E|].
      inversion IH as [|? ? IHc IH']; inversion O; subst.
      replace (if is_nil cs then false else false) with false in E by (destruct (is_nil cs); reflexivity).
      destruct (evalc false c h) as [|r' h' q'] eqn:Ec; [discriminate|].
      replace (evalc _ c h) with (Done r' h' q')
        by (destruct (is_nil cs); symmetry; auto).
      destruct (xorb r' false || q'); auto.
    - clear S. enough (G : forall ret h r h1 q, ccomma evalc false ret cs h = Done r h1 q ->
        ccomma evalc true ret cs h = Done r h1 q) by (apply G; exact E).
      clear E h r h1 q.
      induction cs as [|c cs IHcs]; intros ret h r h1 q E; cbn [ccomma] in *; [exact E|].
      inversion IH as [|? ? IHc IH']; inversion O; subst.
      replace (if is_nil cs then true else true) with true by (destruct (is_nil cs); reflexivity).
      destruct (evalc _ c h) as [|r' h' q'] eqn:Ec; [discriminate|].
      replace (evalc true c h) with (Done r' h' q')
        by (destruct (is_nil cs); [symmetry; auto|auto]).
      destruct q'; auto.
  Qed.

  (** ** Statically valid annotations of pure nodes *)

  Definition own (a : annot F) (e : expr) : Prop :=
    forall h r h1 q, eval e h = (r, h1, q) -> holds a r q.

  Section SvLoops.
    Variable sv : bool -> expr -> Prop.
    Variable ign : bool.
    Fixpoint svl (cs : list expr) : Prop :=
      match cs with
      | [] => True
      | c :: cs' =>
          if ign && forallb pure cs then True
          else sv (if is_nil cs' then ign else false) c /\ svl cs'
      end.
    Fixpoint svcomma (cs : list expr) : Prop :=
      match cs with
      | [] => True
      | c :: cs' => sv (if is_nil cs' then ign else true) c /\ svcomma cs'
      end.
  End SvLoops.

  Fixpoint sv (ign : bool) (e : expr) {struct e} : Prop :=
    match e with
    | Leaf a l => U = true -> own a e
    | Node a o cs =>
        if ign && a_pure a then True
        else
          (a_pure a = true \/ U = true /\ ign = false -> own a e) /\
          match o with
          | ONot => match cs with [] => True | c :: _ => sv ign c end
          | OAnd | OOr => svl sv ign cs
          | OComma => svcomma sv ign cs
          end
    end.

  Definition svbody (ign : bool) (o : op) (cs : list expr) : Prop :=
    match o with
    | ONot => match cs with [] => True | c :: _ => sv ign c end
    | OAnd | OOr => svl sv ign cs
    | OComma => svcomma sv ign cs
    end.

  Lemma sv_node ign a o cs :
    sv ign (Node a o cs) <->
    (ign && a_pure a = false ->
     (a_pure a = true \/ U = true /\ ign = false -> own a (Node a o cs)) /\ svbody ign o cs).
  Proof.
    destruct o; cbn [sv svbody]; destruct (ign && a_pure a); intuition discriminate.
  Qed.

  (** [sv] with an unused result is implied by [sv] *)
  Lemma sv_mono : forall e ign, sv false e -> sv ign e.
  Proof.
    intros e [|]; [|auto]. revert e.
    induction e as [a l|a o cs IH] using expr_ind'; [exact (fun H => H)|].
    rewrite !sv_node. cbn [andb]. intros H P. rewrite P in *. specialize (H eq_refl).
    destruct H as [_ H]. split; [intuition discriminate|].
    assert (G : svl sv false cs -> svl sv true cs).
    { clear H P. induction cs as [|c cs IHcs]; [auto|]. cbn [svl andb].
      inversion IH as [|? ? IHc IH']; subst. intros [H1 H2].
      destruct (forallb pure (c :: cs)); [exact I|]. split; [|auto].
      destruct (is_nil cs); auto. }
    destruct o; cbn [svbody] in *; auto.
    - destruct cs as [|c cs]; [auto|]. inversion IH; subst. auto.
    - clear G P. induction cs as [|c cs IHcs]; [auto|]. cbn [svcomma] in *.
      inversion IH as [|? ? IHc IH']; subst. destruct H as [H1 H2]. split; [|auto].
      destruct (is_nil cs); auto.
  Qed.

  Lemma leaf_flags l : forall h, leaf_pure level l = true ->
    (leaf_true l = true -> fst (fst (eval_leaf level b l h)) = true) /\
    (leaf_false l = true -> fst (fst (eval_leaf level b l h)) = false) /\
    (leaf_true l = true -> leaf_false l = true -> False).
  Proof. intros h. destruct l; cbn; intuition congruence. Qed.

  (** All annotations hold. *)
  Lemma evalc_holds e : ok e -> sv false e -> forall h r h1 q,
    evalc false e h = Done r h1 q -> holds (ann e) r q.
  Proof.
    intros O V h r h1 q E. destruct e as [a l|a o cs]; cbn [ann].
    - destruct O as [O1 O2]. cbn [evalc] in E. destruct (a_pure a) eqn:P.
      + symmetry in O1. destruct (O2 eq_refl) as [Ht Hf].
        destruct (leaf_flags l h O1) as (H1 & H2 & H3).
        destruct (eval_leaf level b l h) as [[r' h'] q']. inversion E; subst. cbn in *.
        unfold holds. rewrite Ht, Hf. split; [intros; exfalso; auto|auto].
      + apply chk_done in E. apply E.
    - rewrite evalc_node in E. apply sv_node in V; [|reflexivity]. destruct V as [V _].
      destruct (a_pure a) eqn:P.
      + specialize (V (or_introl eq_refl) h).
        pose proof (pure_eval _ O P h) as Ev. rewrite Ev in E. inversion E; subst.
        apply (V _ _ _ Ev).
      + apply chk_done in E. apply E.
  Qed.

  (** ** Simulation *)

  (** [e'] does what [e] does, and returns the same, or ([fl]) the opposite. *)
  Definition simf (fl ign : bool) (e e' : expr) : Prop :=
    forall h r h1 q, evalc ign e h = Done r h1 q ->
    exists r', evalc ign e' h = Done r' h1 q /\ (ign = false -> q = false -> r' = xorb fl r).
  Definition sim := simf false.

  Lemma sim_refl ign e : sim ign e e.
  Proof. intros h r h1 q E. exists r. split; [exact E|]. intros _ _. destruct r; reflexivity. Qed.

  Lemma simf_trans f1 f2 ign e1 e2 e3 :
    simf f1 ign e1 e2 -> simf f2 ign e2 e3 -> simf (xorb f1 f2) ign e1 e3.
  Proof.
    intros H1 H2 h r h1 q E. destruct (H1 _ _ _ _ E) as (r2 & E2 & R2).
    destruct (H2 _ _ _ _ E2) as (r3 & E3 & R3). exists r3. split; [exact E3|].
    intros Hi Hq. rewrite (R3 Hi Hq), (R2 Hi Hq). destruct f1, f2, r; reflexivity.
  Qed.

  Lemma sim_trans ign e1 e2 e3 : sim ign e1 e2 -> sim ign e2 e3 -> sim ign e1 e3.
  Proof. apply (simf_trans false false). Qed.

  Lemma sim_value e e' : ok e -> ok e' -> pure e = true -> pure e' = true ->
    sim false e e' -> forall h, value e' h = value e h.
  Proof.
    intros O O' P P' H h.
    destruct (H h (value e h) h false) as (r & E & R); [apply pure_evalc; assumption|].
    rewrite pure_evalc in E by assumption. inversion E; subst. rewrite R by reflexivity.
    destruct (value e h); reflexivity.
  Qed.

  (** Lists of pure expressions *)
  Lemma cloop_pure ign d cs h : Forall ok cs -> forallb pure cs = true ->
    exists r, cloop evalc ign d cs h = Done r h false.
  Proof.
    induction cs as [|c cs IH]; intros O P; cbn [cloop]; [eauto|].
    inversion O; subst. cbn in P. apply andb_true_iff in P. destruct P as [P1 P2].
    rewrite pure_evalc by assumption.
    destruct (xorb (value c h) d || false); [eauto|auto].
  Qed.

  Lemma ccomma_pure ign ret cs h : Forall ok cs -> forallb pure cs = true ->
    exists r, ccomma evalc ign ret cs h = Done r h false.
  Proof.
    revert ret. induction cs as [|c cs IH]; intros ret O P; cbn [ccomma]; [eauto|].
    inversion O; subst. cbn in P. apply andb_true_iff in P. destruct P as [P1 P2].
    rewrite pure_evalc by assumption. auto.
  Qed.

  Lemma body_pure ign o cs h : shape o cs -> Forall ok cs -> forallb pure cs = true ->
    exists r, body ign o cs h = Done r h false.
  Proof.
    intros S O P. destruct o; cbn [body].
    - destruct S as [c ->]. inversion O; subst. cbn in P. rewrite andb_true_r in P.
      rewrite pure_evalc by assumption. cbn. eauto.
    - apply cloop_pure; assumption.
    - apply cloop_pure; assumption.
    - apply ccomma_pure; assumption.
  Qed.

  (** The body of a pure node gives its value. *)
  Lemma body_eval ign a o cs h r h1 q : shape o cs -> Forall ok cs ->
    body ign o cs h = Done r h1 q -> eval (Node a o cs) h = (r, h1, q).
  Proof.
    intros S O E.
    set (a' := mkAnnot (forallb pure cs) false false (a_cost a) (a_prob a)).
    assert (O' : ok (Node a' o cs)) by (apply ok_node; cbn; auto).
    assert (E' : forall a1 a2, eval (Node a1 o cs) h = eval (Node a2 o cs) h)
      by (intros; destruct o; reflexivity).
    rewrite (E' a a'). destruct (forallb pure cs) eqn:P.
    - destruct (body_pure ign o cs h S O P) as [r' Er]. rewrite Er in E. inversion E; subst.
      (* evaluate through an impure annotation *)
      clear E. revert Er. clear O' E'. 
      assert (G : forall o cs, shape o cs -> Forall ok cs -> forall h r h1 q,
                 body ign o cs h = Done r h1 q -> eval (Node a' o cs) h = (r, h1, q)).
      { clear. intros o cs S O. destruct o; cbn [body ExprModel.eval].
        - destruct S as [c ->]. inversion O; subst. intros h r h1 q E.
          destruct (evalc ign c h) as [|r' h' q'] eqn:Ec; [discriminate|].
          apply evalc_eval in Ec; [|assumption]. rewrite Ec. cbn in E. inversion E; reflexivity.
        - clear S. induction cs as [|c cs IHcs]; intros h r h1 q E; cbn [cloop and_loop] in *.
          + inversion E; reflexivity.
          + inversion O; subst. destruct (evalc _ c h) as [|r' h' q'] eqn:Ec; [discriminate|].
            apply evalc_eval in Ec; [|assumption]. rewrite Ec. rewrite xorb_true_r in E.
            destruct (negb r' || q'); [inversion E; reflexivity|]. auto.
        - clear S. induction cs as [|c cs IHcs]; intros h r h1 q E; cbn [cloop or_loop] in *.
          + inversion E; reflexivity.
          + inversion O; subst. destruct (evalc _ c h) as [|r' h' q'] eqn:Ec; [discriminate|].
            apply evalc_eval in Ec; [|assumption]. rewrite Ec. rewrite xorb_false_r in E.
            destruct (r' || q'); [inversion E; reflexivity|]. auto.
        - clear S. intros h r h1 q E. revert E. generalize false. revert h.
          induction cs as [|c cs IHcs]; intros h ret E; cbn [ccomma comma_loop] in *.
          + inversion E; reflexivity.
          + inversion O; subst. destruct (evalc _ c h) as [|r' h' q'] eqn:Ec; [discriminate|].
            apply evalc_eval in Ec; [|assumption]. rewrite Ec.
            destruct q'; [inversion E; reflexivity|]. auto. }
      intros Er. apply G in Er; assumption.
    - apply evalc_eval with (ign := ign); [exact O'|]. rewrite evalc_node.
      cbn [a_pure a']. unfold a'. cbn [a_pure]. destruct ign; [exact E|].
      apply chk_done. split; [exact E|]. unfold holds. cbn. intuition discriminate.
  Qed.

  (** From the body of a node to the node and back. *)
  Lemma evalc_body ign a o cs h r h1 q : ok (Node a o cs) ->
    evalc ign (Node a o cs) h = Done r h1 q ->
    (exists r', body ign o cs h = Done r' h1 q) /\
    (body ign o cs h <> Fail -> body ign o cs h = Done r h1 q).
  Proof.
    intros O E. pose proof (evalc_eval _ O _ _ _ _ _ E) as Ev.
    pose proof O as O'. apply ok_node in O'. destruct O' as (S & Pa & Oc).
    assert (B : exists r', body ign o cs h = Done r' h1 q).
    { rewrite evalc_node in E. destruct (a_pure a) eqn:P.
      - symmetry in Pa. destruct (body_pure ign o cs h S Oc Pa) as [r' Er]. exists r'.
        rewrite Er. destruct (eval _ h) as [[r2 h2] q2]. inversion E; subst. reflexivity.
      - exists r. destruct ign; [exact E|]. apply chk_done in E. apply E. }
    split; [exact B|]. intros _. destruct B as [r' B].
    rewrite (body_eval _ a _ _ _ _ _ _ S Oc B) in Ev. inversion Ev; subst. exact B.
  Qed.

  Lemma evalc_body' ign a o cs h r h1 q : ok (Node a o cs) ->
    evalc ign (Node a o cs) h = Done r h1 q -> body ign o cs h = Done r h1 q.
  Proof.
    intros O E. destruct (evalc_body _ _ _ _ _ _ _ _ O E) as [[r' B] H].
    apply H. rewrite B. discriminate.
  Qed.

  Lemma body_evalc ign a o cs h r h1 q : ok (Node a o cs) ->
    (ign = false -> pure (Node a o cs) = false -> holds a r q) ->
    body ign o cs h = Done r h1 q -> evalc ign (Node a o cs) h = Done r h1 q.
  Proof.
    intros O H B. pose proof O as O'. apply ok_node in O'. destruct O' as (S & Pa & Oc).
    pose proof (body_eval _ a _ _ _ _ _ _ S Oc B) as Ev.
    rewrite evalc_node, Ev. destruct (a_pure a) eqn:P.
    - symmetry in Pa. destruct (body_pure ign o cs h S Oc Pa) as [r' Er].
      rewrite B in Er. inversion Er; subst. reflexivity.
    - destruct ign; [exact B|]. rewrite B. apply chk_done. split; [reflexivity|].
      apply H; [reflexivity|exact P].
  Qed.

  (** Without context-dependent annotations nothing fails. *)
  Lemma evalc_total : U = true -> forall e, ok e -> forall ign, sv ign e -> forall h,
    exists r h1 q, evalc ign e h = Done r h1 q.
  Proof.
    intros HU. induction e as [a l|a o cs IH] using expr_ind'; intros O ign V h.
    - cbn [evalc]. destruct (eval_leaf level b l h) as [[r h1] q] eqn:E.
      destruct (a_pure a); [eauto|]. cbn [sv] in V. specialize (V HU h r h1 q E).
      apply holdsb_spec in V. cbn. rewrite V. eauto.
    - destruct (pure (Node a o cs)) eqn:P.
      { rewrite pure_evalc by assumption. eauto. }
      unfold pure in P; cbn in P. apply sv_node in V; [|rewrite P, andb_false_r; reflexivity].
      destruct V as [V1 V2]. pose proof O as O'. apply ok_node in O'. destruct O' as (S & Pa & Oc).
      assert (B : exists r h1 q, body ign o cs h = Done r h1 q).
      { assert (G : forall d, svl sv ign cs -> forall h,
                  exists r h1 q, cloop evalc ign d cs h = Done r h1 q).
        { clear - HU IH Oc. intros d. induction cs as [|c cs IHcs]; intros V h; cbn [cloop]; [eauto|].
          cbn [svl] in V. destruct (ign && forallb pure (c :: cs)) eqn:E.
          - apply andb_true_iff in E. destruct E as [-> E].
            destruct (cloop_pure true d (c :: cs) h Oc E) as [r Er]. cbn [cloop] in Er.
            rewrite Er. eauto.
          - inversion IH as [|? ? IHc IH']; inversion Oc; subst. destruct V as [V1 V2].
            destruct (IHc ltac:(assumption) _ V1 h) as (r & h1 & q & Ec). rewrite Ec.
            destruct (xorb r d || q); eauto. }
        destruct o; cbn [body svbody] in *; auto.
        - destruct S as [c ->]. inversion IH as [|? ? IHc _]; inversion Oc; subst.
          destruct (IHc ltac:(assumption) _ V2 h) as (r & h1 & q & Ec). rewrite Ec. cbn. eauto.
        - clear - HU IH Oc V2. generalize false. revert h.
          induction cs as [|c cs IHcs]; intros h ret; cbn [ccomma]; [eauto|].
          inversion IH as [|? ? IHc IH']; inversion Oc; subst. cbn [svcomma] in V2. destruct V2 as [V1 V2].
          destruct (IHc ltac:(assumption) _ V1 h) as (r & h1 & q & Ec). rewrite Ec.
          destruct q; eauto. }
      destruct B as (r & h1 & q & B). exists r, h1, q.
      apply body_evalc; [exact O| |exact B]. intros Hi _.
      apply (V1 (or_intror (conj HU Hi)) h r h1 q). apply body_eval with (ign := ign); assumption.
  Qed.
End OptEval.
