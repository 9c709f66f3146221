(** Proofs about expression evaluation. *)
From Coq Require Import List ZArith Bool.
From Verif Require Import ExprModel ExprSpec.
Import ListNotations.

Section ExprInd.
  Context {F : Type}.
  Variable P : expr F -> Prop.
  Hypothesis HL : forall a l, P (Leaf a l).
  Hypothesis HN : forall a o cs, Forall P cs -> P (Node a o cs).
  Fixpoint expr_ind' (e : expr F) : P e :=
    match e with
    | Leaf a l => HL a l
    | Node a o cs =>
        HN a o cs ((fix go l : Forall P l :=
          match l with [] => Forall_nil _ | c :: l' => Forall_cons c (expr_ind' c) (go l') end) cs)
    end.
End ExprInd.

Lemma wf_node F a o (cs : list (expr F)) :
  wf (Node a o cs) <->
  match o with ONot => exists c, cs = [c] | OComma => cs <> [] | _ => True end /\ Forall wf cs.
Proof.
  cbn [wf]. apply and_iff_compat_l.
  induction cs as [|c cs IH]; [split; [constructor|exact (fun _ => I)]|].
  rewrite Forall_cons_iff, IH. reflexivity.
Qed.

Section Eval.
  Context {F : Type}.
  Variable level : nat.
  Variable b : behaviour.
  Notation expr := (expr F).
  Notation eval := (@eval F level b).
  Notation ev := (@ev F level b).

  Lemma eval_ev : forall e : expr, wf e -> forall h r h1 q,
    eval e h = (r, h1, q) -> ev e h r h1 q.
  Proof.
    induction e as [a l|a o cs IH] using expr_ind'; intros W h r h1 q E.
    - constructor. exact E.
    - apply wf_node in W. destruct W as [Wo Wc].
      destruct o; cbn [ExprModel.eval] in E.
      + destruct Wo as [c ->]. inversion IH as [|? ? IHc _]; subst. inversion Wc; subst.
        destruct (eval c h) as [[r' h'] q'] eqn:Ec. inversion E; subst.
        constructor. auto.
      + clear Wo. revert h r h1 q E. induction cs as [|c cs IHcs]; intros; cbn [and_loop] in E.
        * inversion E; subst. constructor.
        * inversion IH as [|? ? IHc IH']; subst. inversion Wc; subst.
          destruct (eval c h) as [[r' h'] q'] eqn:Ec. apply IHc in Ec; [|assumption].
          destruct r', q'; cbn in E; try (inversion E; subst; constructor; assumption).
          eapply ev_and_next; eauto.
      + clear Wo. revert h r h1 q E. induction cs as [|c cs IHcs]; intros; cbn [or_loop] in E.
        * inversion E; subst. constructor.
        * inversion IH as [|? ? IHc IH']; subst. inversion Wc; subst.
          destruct (eval c h) as [[r' h'] q'] eqn:Ec. apply IHc in Ec; [|assumption].
          destruct r', q'; cbn in E; try (inversion E; subst; constructor; assumption).
          eapply ev_or_next; eauto.
      + revert h r h1 q E. generalize false.
        induction cs as [|c cs IHcs]; intros r0 h r h1 q E; [congruence|].
        cbn [comma_loop] in E.
        inversion IH as [|? ? IHc IH']; subst. inversion Wc; subst.
        destruct (eval c h) as [[r' h'] q'] eqn:Ec. apply IHc in Ec; [|assumption].
        destruct q'.
        * inversion E; subst. apply ev_comma_quit; assumption.
        * destruct cs as [|d cs].
          -- cbn in E. inversion E; subst. constructor; assumption.
          -- eapply ev_comma_next; [eassumption|]. eapply IHcs; eauto. discriminate.
  Qed.

  Lemma ev_eval : forall (e : expr) h r h1 q, ev e h r h1 q -> eval e h = (r, h1, q).
  Proof.
    intros e h r h1 q H. induction H; cbn [ExprModel.eval] in *; auto;
      cbn [and_loop or_loop comma_loop]; rewrite ?IHev, ?IHev1; cbn; auto.
    destruct q; reflexivity.
  Qed.

  Lemma eval_rules : forall e : expr, wf e -> forall h r h1 q,
    eval e h = (r, h1, q) <-> ev e h r h1 q.
  Proof. split; [apply eval_ev; assumption|apply ev_eval]. Qed.

  (** Effects *)
  Definition step_ok (h : hist) (o : outcome) : Prop :=
    let '(_, h1, q) := o in
    exists new, h1 = new ++ h /\
      if q then exists l new', new = l :: new' /\ quits b l (new' ++ h) = true /\ calm b new' h
      else calm b new h.

  Lemma calm_app n1 n2 h : calm b (n1 ++ n2) h <-> calm b n1 (n2 ++ h) /\ calm b n2 h.
  Proof.
    induction n1 as [|l n1 IH]; cbn [app calm]; [tauto|].
    rewrite IH, app_assoc. tauto.
  Qed.

  Lemma step_ok_refl h r : step_ok h (r, h, false).
  Proof. exists []. split; [reflexivity|exact I]. Qed.

  Lemma step_ok_trans h h1 r o :
    step_ok h (r, h1, false) -> step_ok h1 o -> step_ok h o.
  Proof.
    destruct o as [[r2 h2] q2]. intros (n1 & E1 & C1) (n2 & E2 & C2). subst h1 h2.
    exists (n2 ++ n1). rewrite app_assoc. split; [reflexivity|].
    destruct q2.
    - destruct C2 as (l & n & -> & Q & C). exists l, (n ++ n1). cbn [app].
      rewrite <- app_assoc. rewrite calm_app. auto.
    - apply calm_app. auto.
  Qed.

  Lemma eval_leaf_step l h : step_ok h (eval_leaf level b l h).
  Proof.
    destruct l; cbn [eval_leaf];
      try (destruct (leaf_pure level _); [apply step_ok_refl|]);
      try apply step_ok_refl;
      try (exists [] ; split; [reflexivity|exact I]);
      try (eexists [_]; split; [reflexivity|cbn; auto]; fail).
    - eexists [_]. split; [reflexivity|]. destruct (lim b _ h) eqn:El.
      + eexists _, []. cbn. auto.
      + cbn. auto.
    - eexists [_]. split; [reflexivity|]. eexists _, []. cbn. auto.
    - eexists [_]. split; [reflexivity|]. eexists _, []. cbn. auto.
  Qed.

  Lemma step_ok_res h r r' h1 q : step_ok h (r, h1, q) -> step_ok h (r', h1, q).
  Proof. exact (fun H => H). Qed.

  Lemma eval_step : forall (e : expr) h, step_ok h (eval e h).
  Proof.
    induction e as [a l|a o cs IH] using expr_ind'; intros h; [apply eval_leaf_step|].
    destruct o; cbn [ExprModel.eval].
    - destruct cs as [|c cs]; [apply step_ok_refl|]. inversion IH as [|? ? IHc _]; subst.
      specialize (IHc h). destruct (eval c h) as [[r h1] q]. exact IHc.
    - revert h. induction cs as [|c cs IHcs]; intros h; cbn [and_loop]; [apply step_ok_refl|].
      inversion IH as [|? ? IHc IH']; subst. specialize (IHc h).
      destruct (eval c h) as [[r h1] q]. destruct r, q; cbn; try exact IHc.
      eapply step_ok_trans; [exact IHc|]. apply IHcs; assumption.
    - revert h. induction cs as [|c cs IHcs]; intros h; cbn [or_loop]; [apply step_ok_refl|].
      inversion IH as [|? ? IHc IH']; subst. specialize (IHc h).
      destruct (eval c h) as [[r h1] q]. destruct r, q; cbn; try exact IHc.
      eapply step_ok_trans; [exact IHc|]. apply IHcs; assumption.
    - generalize false. revert h. induction cs as [|c cs IHcs]; intros h r0; cbn [comma_loop];
        [apply step_ok_refl|].
      inversion IH as [|? ? IHc IH']; subst. specialize (IHc h).
      destruct (eval c h) as [[r h1] q]. destruct q; cbn; try exact IHc.
      eapply step_ok_trans; [exact IHc|]. apply IHcs; assumption.
  Qed.

  Lemma eval_quit_last : forall (e : expr) h r h1 q,
    eval e h = (r, h1, q) ->
    exists new, h1 = new ++ h /\
      if q then exists l new', new = l :: new' /\ quits b l (new' ++ h) = true /\ calm b new' h
      else calm b new h.
  Proof. intros e h r h1 q E. pose proof (eval_step e h) as H. rewrite E in H. exact H. Qed.

  Lemma eval_truth : forall v, (forall l h, fst (fst (eval_leaf level b l h)) = v l) ->
    forall (e : expr) h r h1, eval e h = (r, h1, false) -> r = truth v e.
  Proof.
    intros v Hv. induction e as [a l|a o cs IH] using expr_ind'; intros h r h1 E.
    - cbn in *. rewrite <- (Hv l h), E. reflexivity.
    - destruct o; cbn [ExprModel.eval truth] in *.
      + destruct cs as [|c cs]; [inversion E; reflexivity|].
        inversion IH as [|? ? IHc _]; subst.
        destruct (eval c h) as [[r' h'] q'] eqn:Ec. inversion E; subst.
        f_equal. eauto.
      + revert h r h1 E. induction cs as [|c cs IHcs]; intros; cbn [and_loop forallb] in *;
          [inversion E; reflexivity|].
        inversion IH as [|? ? IHc IH']; subst.
        destruct (eval c h) as [[r' h'] q'] eqn:Ec.
        destruct r', q'; cbn in E; try discriminate.
        * rewrite <- (IHc _ _ _ Ec). cbn. eauto.
        * inversion E; subst. rewrite <- (IHc _ _ _ Ec). reflexivity.
      + revert h r h1 E. induction cs as [|c cs IHcs]; intros; cbn [or_loop existsb] in *;
          [inversion E; reflexivity|].
        inversion IH as [|? ? IHc IH']; subst.
        destruct (eval c h) as [[r' h'] q'] eqn:Ec.
        destruct r', q'; cbn in E; try discriminate.
        * inversion E; subst. rewrite <- (IHc _ _ _ Ec). reflexivity.
        * rewrite <- (IHc _ _ _ Ec). cbn. eauto.
      + enough (G : forall r0 h r h1, comma_loop eval r0 cs h = (r, h1, false) ->
                     r = last (map (truth v) cs) r0) by eauto.
        clear E h r h1.
        induction cs as [|c cs IHcs]; intros r0 h r h1 E;
          cbn [comma_loop map] in *; [inversion E; reflexivity|].
        inversion IH as [|? ? IHc IH']; subst.
        destruct (eval c h) as [[r' h'] q'] eqn:Ec.
        destruct q'; [inversion E|].
        specialize (IHcs IH' _ _ _ _ E). rewrite IHcs. rewrite (IHc _ _ _ Ec).
        destruct cs; [reflexivity|]. cbn [map].
        generalize (truth v e). generalize (map (truth v) cs). clear.
        induction l as [|x l IHl]; intros y; [reflexivity|]. exact (IHl x).
  Qed.
End Eval.
