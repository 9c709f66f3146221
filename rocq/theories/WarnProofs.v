(** * Proofs about the optimizer's warnings *)
From Coq Require Import List ZArith QArith Bool Lia.
From Verif Require Import ExprModel ExprSpec ExprProofs OptModel OptSpec OptEval OptSim OptPasses OptSimplify
  OptDomain OptTidy OptFlow OptRounds OptFacts WarnSpec WarnModel.
Import ListNotations.
Local Open Scope nat_scope.

Definition sum {F} (cs : list (expr F)) : nat := fold_right (fun c n => primaries c + n) 0 cs.
Lemma sum_app F (cs ds : list (expr F)) : sum (cs ++ ds) = sum cs + sum ds.
Proof. induction cs as [|c cs IH]; [reflexivity|]. cbn [app sum fold_right]. fold (sum (cs ++ ds)) (sum cs). lia. Qed.

Definition negr (x : account) : account := let '((r, h, q), t) := x in ((negb r, h, q), t).
Lemma negr_negr x : negr (negr x) = x.
Proof. destruct x as [[[r h] q] t]. cbn. rewrite negb_involutive. reflexivity. Qed.

Section Runs.
  Context {F : Type}.
  Variable level : nat.
  Variable b : behaviour.
  Notation expr := (expr F).
  Notation run := (@run F level b).

  Lemma run_opn ov n a d (cs : list expr) h : run ov n (Node a (opn d) cs) h = run_until (run ov) d n cs h.
  Proof. destruct d; reflexivity. Qed.
  Lemma run_not ov n a (c : expr) cs h : run ov n (Node a ONot (c :: cs)) h = negr (run ov n c h).
  Proof. cbn [WarnSpec.run]. destruct (run ov n c h) as [[[r h1] q] t]. reflexivity. Qed.

  (** The primaries that are evaluated belong to the expression. *)
  Lemma run_range : forall (e : expr) ov n h i r, In (i, r) (snd (run ov n e h)) -> n <= i < n + primaries e.
  Proof.
    induction e as [a l|a o cs IH] using expr_ind'; intros ov n h i r H.
    - cbn [WarnSpec.run primaries] in *. unfold run_leaf in H. destruct (constant l); [destruct H|].
      destruct (eval_leaf level b l h) as [[r0 h1] q]. cbn in H. destruct H as [H|[]]. inversion H; lia.
    - assert (G : forall d, In (i, r) (snd (run_until (run ov) d n cs h)) -> n <= i < n + sum cs).
      { intros d. clear H. revert n h. induction IH as [|c cs Hc IH IHcs]; intros n h H; [destruct H|].
        cbn [run_until sum fold_right] in *. fold (sum cs). specialize (Hc ov n h i r).
        destruct (run ov n c h) as [[[r0 h1] q] t]. cbn [snd] in Hc.
        destruct (xorb r0 d || q); [cbn [snd] in H; specialize (Hc H); lia|].
        specialize (IHcs (n + primaries c) h1).
        destruct (run_until (run ov) d (n + primaries c) cs h1) as [o' t']. cbn [snd] in *.
        apply in_app_or in H. destruct H as [H|H]; [specialize (Hc H)|specialize (IHcs H)]; lia. }
      change (primaries (Node a o cs)) with (sum cs).
      destruct o; [|apply (G true); exact H|apply (G false); exact H|].
      + destruct cs as [|c cs]; [destruct H|]. rewrite run_not in H. inversion IH as [|? ? IHc _]; subst.
        specialize (IHc ov n h i r). destruct (run ov n c h) as [[[r0 h1] q] t]. cbn [snd negr] in *.
        cbn [sum fold_right]. specialize (IHc H). lia.
      + clear G. cbn [WarnSpec.run] in H. revert H. generalize false. revert n h.
        induction IH as [|c cs Hc IH IHcs]; intros n h ret H; [destruct H|].
        cbn [run_all sum fold_right] in *. fold (sum cs). specialize (Hc ov n h i r).
        destruct (run ov n c h) as [[[r0 h1] q] t]. cbn [snd] in Hc.
        destruct q; [cbn [snd] in H; specialize (Hc H); lia|].
        specialize (IHcs (n + primaries c) h1 r0).
        destruct (run_all (run ov) r0 (n + primaries c) cs h1) as [o' t']. cbn [snd] in *.
        apply in_app_or in H. destruct H as [H|H]; [specialize (Hc H)|specialize (IHcs H)]; lia.
  Qed.

  (** What is forced elsewhere does not matter. *)
  Lemma run_ext : forall (e : expr) ov ov' n h, (forall j, n <= j < n + primaries e -> ov j = ov' j) ->
    run ov n e h = run ov' n e h.
  Proof.
    induction e as [a l|a o cs IH] using expr_ind'; intros ov ov' n h H.
    - cbn [WarnSpec.run primaries] in *. unfold run_leaf. rewrite (H n) by lia. reflexivity.
    - change (primaries (Node a o cs)) with (sum cs) in H.
      assert (G : forall d, run_until (run ov) d n cs h = run_until (run ov') d n cs h).
      { intros d. revert n h H. induction IH as [|c cs Hc IH IHcs]; intros n h H; [reflexivity|].
        cbn [run_until sum fold_right] in *. fold (sum cs) in H. rewrite (Hc ov ov' n h) by (intros; apply H; lia).
        destruct (run ov' n c h) as [[[r0 h1] q] t]. destruct (xorb r0 d || q); [reflexivity|].
        rewrite (IHcs (n + primaries c) h1) by (intros; apply H; lia). reflexivity. }
      destruct o; [|apply (G true)|apply (G false)|].
      + destruct cs as [|c cs]; [reflexivity|]. rewrite !run_not. inversion IH as [|? ? IHc _]; subst.
        rewrite (IHc ov ov' n h); [reflexivity|]. intros j Hj. apply H. cbn [sum fold_right]. lia.
      + clear G. cbn [WarnSpec.run]. generalize false. revert n h H.
        induction IH as [|c cs Hc IH IHcs]; intros n h H ret; [reflexivity|].
        cbn [run_all sum fold_right] in *. fold (sum cs) in H. rewrite (Hc ov ov' n h) by (intros; apply H; lia).
        destruct (run ov' n c h) as [[[r0 h1] q] t]. destruct q; [reflexivity|].
        rewrite (IHcs (n + primaries c) h1) by (intros; apply H; lia). reflexivity.
  Qed.

  (** Where nothing is forced, this is evaluation. *)
  Lemma run_eval : forall (e : expr) n h, fst (run as_it_is n e h) = eval level b e h.
  Proof.
    induction e as [a l|a o cs IH] using expr_ind'; intros n h.
    - cbn [WarnSpec.run eval]. unfold run_leaf. destruct (constant l); [reflexivity|].
      destruct (eval_leaf level b l h) as [[r0 h1] q]. reflexivity.
    - destruct o; cbn [WarnSpec.run eval].
      + destruct cs as [|c cs]; [reflexivity|]. inversion IH as [|? ? IHc _]; subst. specialize (IHc n h).
        destruct (run as_it_is n c h) as [[[r0 h1] q] t]. cbn [fst] in IHc. rewrite <- IHc. reflexivity.
      + revert n h. induction IH as [|c cs Hc IH IHcs]; intros n h; [reflexivity|]. cbn [run_until and_loop].
        specialize (Hc n h). destruct (run as_it_is n c h) as [[[r0 h1] q] t]. cbn [fst] in Hc. rewrite <- Hc.
        rewrite xorb_true_r. destruct (negb r0 || q) ; [reflexivity|].
        specialize (IHcs (n + primaries c) h1). destruct (run_until _ true _ cs h1) as [o' t']. exact IHcs.
      + revert n h. induction IH as [|c cs Hc IH IHcs]; intros n h; [reflexivity|]. cbn [run_until or_loop].
        specialize (Hc n h). destruct (run as_it_is n c h) as [[[r0 h1] q] t]. cbn [fst] in Hc. rewrite <- Hc.
        rewrite xorb_false_r. destruct (r0 || q) ; [reflexivity|].
        specialize (IHcs (n + primaries c) h1). destruct (run_until _ false _ cs h1) as [o' t']. exact IHcs.
      + generalize false. revert n h. induction IH as [|c cs Hc IH IHcs]; intros n h ret; [reflexivity|].
        cbn [run_all comma_loop]. specialize (Hc n h). destruct (run as_it_is n c h) as [[[r0 h1] q] t].
        cbn [fst] in Hc. rewrite <- Hc. destruct q; [reflexivity|].
        specialize (IHcs (n + primaries c) h1 r0). destruct (run_all _ r0 _ cs h1) as [o' t']. exact IHcs.
  Qed.
End Runs.

(** ** Canonicalization keeps the primaries and what is evaluated *)
Section Canon.
  Context {F : Type}.
  Variable fo : float_ops F.
  Variable level : nat.
  Variable b : behaviour.
  Notation expr := (expr F).
  Notation run := (@run F level b).

  Definition same (e e' : expr) : Prop :=
    primaries e' = primaries e /\ forall ov n h, run ov n e' h = run ov n e h.
  Lemma same_refl e : same e e.
  Proof. split; reflexivity. Qed.
  Lemma same_trans e1 e2 e3 : same e1 e2 -> same e2 e3 -> same e1 e3.
  Proof. intros [A1 A2] [B1 B2]. split; [congruence|]. intros. rewrite B2. apply A2. Qed.

  Lemma same_sum cs cs' : Forall2 same cs cs' -> sum cs' = sum cs.
  Proof. intros H. induction H as [|c c' cs cs' [H _] _ IH]; [reflexivity|]. cbn. fold (sum cs) (sum cs'). lia. Qed.

  Lemma same_until cs cs' : Forall2 same cs cs' -> forall ov d n h,
    run_until (run ov) d n cs' h = run_until (run ov) d n cs h.
  Proof.
    intros H. induction H as [|c c' cs cs' [H1 H2] _ IH]; intros ov d n h; [reflexivity|]. cbn [run_until].
    rewrite H2, H1. destruct (run ov n c h) as [[[r0 h1] q] t]. rewrite IH. reflexivity.
  Qed.

  Lemma same_node a a' o cs cs' : Forall2 same cs cs' -> same (Node a o cs) (Node a' o cs').
  Proof.
    intros H. split; [exact (same_sum _ _ H)|]. intros ov n h.
    destruct o; [|apply (same_until _ _ H)|apply (same_until _ _ H)|].
    - destruct H as [|c c' cs cs' [_ H] _]; [reflexivity|]. rewrite !run_not, H. reflexivity.
    - cbn [WarnSpec.run]. generalize false. revert n h.
      induction H as [|c c' cs cs' [H1 H2] _ IH]; intros n h ret; [reflexivity|]. cbn [run_all].
      rewrite H2, H1. destruct (run ov n c h) as [[[r0 h1] q] t]. rewrite IH. reflexivity.
  Qed.
  Lemma same_list_refl cs : Forall2 same cs cs.
  Proof. induction cs; constructor; [apply same_refl|assumption]. Qed.
  Lemma same_ann1 e : same e (annotate1 fo level e).
  Proof. destruct e as [a l|a o cs]; [split; reflexivity|]. apply same_node, same_list_refl. Qed.

  Lemma negate_run c : primaries (negate_expr fo level c) = primaries c /\
    forall ov n h, run ov n (negate_expr fo level c) h = negr (run ov n c h).
  Proof.
    assert (G : forall e, primaries (annotate1 fo level (Node (mkAnnot false false false (f_lit fo 0) (f_lit fo (5 # 10))) ONot [e])) = primaries e /\
      forall ov n h, run ov n (annotate1 fo level (Node (mkAnnot false false false (f_lit fo 0) (f_lit fo (5 # 10))) ONot [e])) h = negr (run ov n e h)).
    { intros e. split; [cbn; lia|]. intros. cbn [annotate1]. apply run_not. }
    destruct c as [a l|a o cs].
    - destruct l; first [apply G|split; reflexivity].
    - destruct o; try apply G. destruct cs as [|c [|? ?]]; try apply G. cbn [negate_expr]. split; [cbn; lia|].
      intros. rewrite run_not, negr_negr. reflexivity.
  Qed.

  Lemma demorgan cs : sum (map (negate_expr fo level) cs) = sum cs /\
    forall ov d n h, run_until (run ov) (negb d) n (map (negate_expr fo level) cs) h = negr (run_until (run ov) d n cs h).
  Proof.
    induction cs as [|c cs [IH1 IH2]]; [split; reflexivity|]. destruct (negate_run c) as [N1 N2]. split.
    - cbn [map sum fold_right]. fold (sum (map (negate_expr fo level) cs)) (sum cs). lia.
    - intros ov d n h. cbn [map run_until]. rewrite N2, N1. destruct (run ov n c h) as [[[r0 h1] q] t]. cbn [negr].
      replace (xorb (negb r0) (negb d)) with (xorb r0 d) by (destruct r0, d; reflexivity).
      destruct (xorb r0 d || q); [reflexivity|]. rewrite IH2.
      destruct (run_until (run ov) d (n + primaries c) cs h1) as [[[r2 h2] q2] t2]. reflexivity.
  Qed.

  Lemma until_app ov d ds cs : forall n h, run_until (run ov) d n (ds ++ cs) h =
    let '((r, h1, q), t) := run_until (run ov) d n ds h in
    if xorb r d || q then ((negb d, h1, q), t)
    else let '(o, t') := run_until (run ov) d (n + sum ds) cs h1 in (o, t ++ t').
  Proof.
    induction ds as [|c ds IH]; intros n h.
    - cbn [app run_until sum fold_right]. rewrite xorb_nilpotent. cbn [orb]. rewrite Nat.add_0_r.
      destruct (run_until _ d n cs h) as [o t]. reflexivity.
    - cbn [app run_until sum fold_right]. fold (sum ds). destruct (run ov n c h) as [[[r0 h1] q] t].
      destruct (xorb r0 d || q).
      + replace (xorb (negb d) d) with true by (destruct d; reflexivity). reflexivity.
      + rewrite IH. destruct (run_until (run ov) d (n + primaries c) ds h1) as [[[r2 h2] q2] t2].
        destruct (xorb r2 d || q2); [reflexivity|]. rewrite Nat.add_assoc.
        destruct (run_until _ d _ cs h2) as [o t3]. rewrite app_assoc. reflexivity.
  Qed.

  Lemma flatten_same d cs : sum (flatten (opn d) cs) = sum cs /\
    forall ov n h, run_until (run ov) d n (flatten (opn d) cs) h = run_until (run ov) d n cs h.
  Proof.
    assert (One : forall ov n (c : expr) cs0 h, run_until (run ov) d n (c :: cs0) h = run_until (run ov) d n ([c] ++ cs0) h) by reflexivity.
    induction cs as [|c cs [IH1 IH2]]; [split; reflexivity|].
    assert (G : forall ds, sum ds = primaries c ->
              (forall ov n h, run_until (run ov) d n ds h = run ov n c h \/ run_until (run ov) d n ds h = run_until (run ov) d n [c] h) ->
              sum (ds ++ flatten (opn d) cs) = sum (c :: cs) /\
              forall ov n h, run_until (run ov) d n (ds ++ flatten (opn d) cs) h = run_until (run ov) d n (c :: cs) h).
    { intros ds H1 H2. split; [rewrite sum_app, H1, IH1; reflexivity|]. intros ov n h. rewrite until_app, H1.
      destruct (H2 ov n h) as [->| ->].
      - cbn [run_until]. destruct (run ov n c h) as [[[r0 h1] q] t]. destruct (xorb r0 d || q); [reflexivity|].
        rewrite IH2. reflexivity.
      - rewrite (One ov n c cs h), (until_app ov d [c] cs). replace (sum [c]) with (primaries c) by (cbn; lia).
        destruct (run_until (run ov) d n [c] h) as [[[r0 h1] q] t]. destruct (xorb r0 d || q); [reflexivity|].
        rewrite IH2. reflexivity. }
    unfold flatten. cbn [flat_map]. fold (flatten (opn d) cs).
    destruct c as [a l|a o ds]; [apply G; [cbn; lia|auto]|].
    destruct (op_eqb o (opn d)) eqn:E; [|apply G; [cbn; lia|auto]].
    assert (o = opn d) by (destruct o, d; try discriminate E; reflexivity). subst o. apply G; [reflexivity|].
    intros. left. symmetry. apply run_opn.
  Qed.

  Section Neat.
    Variable P : leaf -> Prop.
    Hypothesis PT : P LTrue.
    Hypothesis PF : P LFalse.

    Lemma canonicalize1_same ign a o cs : shape o cs -> o <> OComma -> Forall (neat P) cs ->
      same (Node a o cs) (canonicalize1 fo level ign (Node a o cs)).
    Proof.
      intros D NC Nc.
      assert (G : forall d, o = opn d -> same (Node a o cs) (annotate1 fo level (Node a o (flatten o cs)))).
      { intros d ->. eapply same_trans; [|apply same_ann1]. destruct (flatten_same d cs) as [H1 H2]. split; [exact H1|].
        intros. rewrite !run_opn. apply H2. }
      destruct o; cbn [canonicalize1]; [|apply (G true); reflexivity|apply (G false); reflexivity|congruence].
      clear G. destruct D as [c ->]. inversion Nc as [|? ? Nc1 _]; subst.
      assert (Neg : forall e', primaries e' = primaries c -> (forall ov n h, run ov n e' h = negr (run ov n c h)) ->
                same (Node a ONot [c]) e').
      { intros e' H1 H2. split; [cbn; lia|]. intros. rewrite run_not. apply H2. }
      assert (Dm : forall d a0 cs, c = Node a0 (opn d) cs -> same (Node a ONot [c]) (sink_not_andor fo level a0 (opn d) cs)).
      { intros d a0 cs0 ->. unfold sink_not_andor. eapply same_trans; [|apply same_ann1].
        replace (dual (opn d)) with (opn (negb d)) by (destruct d; reflexivity).
        destruct (demorgan cs0) as [D1 D2]. apply Neg; [exact D1|]. intros. rewrite !run_opn. apply D2. }
      destruct c as [a0 l|a0 o0 cs0].
      - destruct l; first [apply same_refl|apply Neg; reflexivity].
      - destruct o0; cbn [canonicalize_not];
          [|apply (Dm true); reflexivity|apply (Dm false); reflexivity|apply neat_node in Nc1; destruct Nc1 as [[] _]].
        destruct cs0 as [|c [|]]; try apply same_refl. apply Neg; [cbn; lia|]. intros. rewrite run_not, negr_negr. reflexivity.
    Qed.

    Lemma canonicalize_same : forall e ign, ok level e -> neat P e -> same e (canonicalize fo level ign e).
    Proof.
      induction e as [a l|a o cs IH] using expr_ind'; intros ign O N; [apply same_refl|].
      pose proof O as O1. apply ok_node in O1. destruct O1 as (S & Pa & Oc).
      pose proof N as N1. apply neat_node in N1. destruct N1 as [D Nc].
      unfold canonicalize. cbn [walk].
      assert (W : Forall2 same cs (walk_children (walk (canonicalize1 fo level)) o ign cs)).
      { clear - IH Oc Nc. induction cs as [|c cs IHcs]; cbn [walk_children]; [constructor|].
        inversion IH; inversion Oc; inversion Nc; subst. constructor; [|auto].
        match goal with H : forall ign, _ |- _ => apply H; assumption end. }
      assert (Nr : Forall (neat P) (walk_children (walk (canonicalize1 fo level)) o ign cs)).
      { clear - Oc Nc PT PF b. induction cs as [|c cs IHcs]; cbn [walk_children]; [constructor|].
        inversion Oc; inversion Nc; subst. constructor; [|auto].
        apply (canonicalize_neat fo level P PT PF b); assumption. }
      eapply same_trans; [apply (same_node a (set_pure (forallb pure (walk_children (walk (canonicalize1 fo level)) o ign cs)) a) o _ _ W)|].
      apply canonicalize1_same; [|intros ->; exact D|exact Nr].
      eapply shape_len; [exact S|apply walk_children_length].
    Qed.
  End Neat.
End Canon.

(** ** What is said about single primaries *)
Definition says (w : warning) (i : nat) (t : list (nat * bool)) : Prop :=
  match w with
  | AlwaysTrue => forall r, In (i, r) t -> r = true
  | AlwaysFalse => forall r, In (i, r) t -> r = false
  | Unreachable => forall r, ~ In (i, r) t
  | Ignored => True
  end.
Lemma says_absent w i t : (forall r, ~ In (i, r) t) -> says w i t.
Proof. intros H. destruct w; cbn; [..|exact I]; intros r H0; specialize (H r); tauto. Qed.
Lemma says_app w i t t' : says w i t -> says w i t' -> says w i (t ++ t').
Proof.
  intros H H'. destruct w; cbn in *; [..|exact I]; intros r H0; apply in_app_or in H0; specialize (H r); specialize (H' r); tauto.
Qed.

Definition eff (x : account) : hist * bool := (snd (fst (fst x)), snd (fst x)).

Section Flow.
  Context {F : Type}.
  Variable fo : float_ops F.
  Variable level : nat.
  Variable udb gdb : Z -> option bool.
  Notation expr := (expr F).
  Notation flow_warnings := (flow_warnings fo level udb gdb).
  Notation list_warnings := (list_warnings fo level udb gdb).
  Notation leaf_warnings := (leaf_warnings fo level udb gdb).

  Lemma list_range go o ign : (forall ign bef n c i w, In (i, w) (go ign bef n c) -> n <= i < n + primaries c) ->
    forall cs bef n i w, In (i, w) (list_warnings go o ign bef n cs) -> n <= i < n + sum cs.
  Proof.
    intros G. induction cs as [|c cs IH]; intros bef n i w H; [destruct H|]. cbn [WarnModel.list_warnings] in H.
    destruct (data_flow _ _ _ _ _ bef df_bottom c) as [[c' s] imp]. cbn [sum fold_right]. fold (sum cs).
    apply in_app_or in H. destruct H as [H|H]; [apply G in H|apply IH in H]; lia.
  Qed.

  Lemma warnings_range : forall e ign bef n i w, In (i, w) (flow_warnings ign bef n e) -> n <= i < n + primaries e.
  Proof.
    induction e as [a l|a o cs IH] using expr_ind'; intros ign bef n i w H.
    - cbn [WarnModel.flow_warnings] in H. apply in_map_iff in H. destruct H as (w0 & E & _). inversion E. cbn. lia.
    - change (primaries (Node a o cs)) with (sum cs).
      assert (G : forall o0, In (i, w) (list_warnings flow_warnings o0 ign bef n cs) -> n <= i < n + sum cs).
      { intros o0. clear H. revert bef n. induction IH as [|c cs Hc IH IHcs]; intros bef n H; [destruct H|].
        cbn [WarnModel.list_warnings] in H. destruct (data_flow _ _ _ _ _ bef df_bottom c) as [[c' s] imp].
        cbn [sum fold_right]. fold (sum cs). apply in_app_or in H. destruct H as [H|H]; [apply Hc in H|apply IHcs in H]; lia. }
      destruct o; [|apply (G OAnd); exact H|apply (G OOr); exact H|apply (G OComma); exact H].
      destruct cs as [|c cs]; [destruct H|]. inversion IH as [|? ? IHc _]; subst. apply IHc in H. cbn [sum fold_right]. lia.
  Qed.

  Lemma warn_in (e : expr) w w0 : In w (warn e w0) -> w = w0 /\ is_const e = false.
  Proof. unfold warn. destruct (is_const e); [intros []|]. intros [H|[]]. auto. Qed.

  (** ** "The result of this expression is ignored." *)
  Lemma leaf_ignored ign before a l : In Ignored (leaf_warnings ign before a l) -> ign = true.
  Proof.
    unfold WarnModel.leaf_warnings. intros H. destruct ign; [reflexivity|]. exfalso. cbn [andb app] in H.
    assert (G2 : ~ In Ignored (if df_is_bottom before then warn (Leaf a l) Unreachable else [])).
    { destruct (df_is_bottom before); [|intros []]. intros X. apply warn_in in X. destruct X as [X _]. discriminate X. }
    destruct (df_replace fo level false before (Leaf a l)) as [a' l'|]; [|exact (G2 H)].
    destruct (transfer udb gdb before l' (before, before)) as [t f].
    repeat (apply in_app_or in H; destruct H as [H|H]; [first [exact (G2 H)|revert H]|]);
      try (match goal with |- In _ (if ?c then _ else _) -> _ => destruct c; [|intros []]; intros X; apply warn_in in X; destruct X as [X _]; discriminate X end).
    match type of H with In _ (if ?c then _ else _) => destruct c; [|destruct H] end. apply warn_in in H. destruct H as [H _]. discriminate H.
  Qed.

  Section Ignore.
    Variable P : leaf -> Prop.
    Variable b : behaviour.
    Notation run := (@run F level b).
    Definition apart (i : nat) (ov ov' : nat -> option bool) : Prop := forall j, j <> i -> ov j = ov' j.

    Lemma eff_negr x : eff (negr x) = eff x.
    Proof. destruct x as [[[r h] q] t]. reflexivity. Qed.

    Lemma ignored_ok : forall e ign before n i, neat P e -> In (i, Ignored) (flow_warnings ign before n e) ->
      ign = true /\ forall ov ov' h, apart i ov ov' -> eff (run ov n e h) = eff (run ov' n e h).
    Proof.
      induction e as [a l|a o cs IH] using expr_ind'; intros ign before n i N H.
      - cbn [WarnModel.flow_warnings] in H. apply in_map_iff in H. destruct H as (w0 & E & H). inversion E; subst.
        split; [eapply leaf_ignored; exact H|]. intros ov ov' h _. cbn [WarnSpec.run]. unfold run_leaf.
        destruct (constant l); [reflexivity|]. destruct (eval_leaf level b l h) as [[r h1] q]. reflexivity.
      - apply neat_node in N. destruct N as [D Nc].
        assert (G : forall d, In (i, Ignored) (list_warnings flow_warnings (opn d) ign before n cs) ->
                  ign = true /\ forall ov ov' h, apart i ov ov' -> eff (run_until (run ov) d n cs h) = eff (run_until (run ov') d n cs h)).
        { intros d. clear D H. revert before n. induction IH as [|c cs Hc IH IHcs]; intros before n H; [destruct H|].
          inversion Nc as [|? ? Nc1 Nc2]; subst. cbn [WarnModel.list_warnings] in H.
          destruct (data_flow _ _ _ _ _ before df_bottom c) as [[c' s] imp]. apply in_app_or in H. destruct H as [H|H].
          - destruct (Hc _ _ _ _ Nc1 H) as [H1 H2].
            assert (X : is_nil cs = true /\ ign = true).
            { destruct d; cbn [opn child_ign] in H1; destruct (is_nil cs); try discriminate; auto. }
            destruct X as [X ->]. split; [reflexivity|]. destruct cs; [|discriminate]. intros ov ov' h A.
            specialize (H2 ov ov' h A). cbn [run_until].
            destruct (run ov n c h) as [[[r1 h1] q1] t1], (run ov' n c h) as [[[r2 h2] q2] t2]. cbn [eff fst snd] in H2.
            unfold eff in H2. cbn [fst snd] in H2. inversion H2; subst.
            destruct q2; [rewrite !orb_true_r; reflexivity|]. destruct (xorb r1 d), (xorb r2 d); reflexivity.
          - pose proof (list_range _ _ _ (fun ign bef n c => warnings_range c ign bef n) _ _ _ _ _ H) as R.
            destruct (IHcs Nc2 _ _ H) as [H1 H2]. split; [exact H1|]. intros ov ov' h A. cbn [run_until].
            rewrite (run_ext level b c ov ov' n h) by (intros j Hj; apply A; lia).
            destruct (run ov' n c h) as [[[r1 h1] q1] t1]. destruct (xorb r1 d || q1); [reflexivity|].
            specialize (H2 ov ov' h1 A). destruct (run_until (run ov) d (n + primaries c) cs h1) as [o1 t2],
              (run_until (run ov') d (n + primaries c) cs h1) as [o2 t3]. exact H2. }
        destruct o; [|apply (G true); exact H|apply (G false); exact H|destruct D].
        cbn [derived] in D. destruct cs as [|c [|]]; try contradiction. inversion Nc as [|? ? Nc1 _]; subst.
        inversion IH as [|? ? IHc _]; subst. destruct (IHc _ _ _ _ Nc1 H) as [H1 H2]. split; [exact H1|].
        intros. rewrite !run_not, !eff_negr. auto.
    Qed.
  End Ignore.

  (** ** The other three *)
  Lemma leaf_always v ign before a l e' s : ok level (Leaf a l) -> df_is_bottom before = false ->
    df_finish fo level udb gdb ign before (Leaf a l) (before, before) = (e', s) ->
    In (if (v : bool) then AlwaysTrue else AlwaysFalse) (leaf_warnings ign before a l) ->
    ign = false /\ pure (Leaf a l) = true /\ df_is_bottom (pick (negb v) s) = true.
  Proof.
    intros O Nb Ef H. unfold WarnModel.leaf_warnings in H. rewrite Nb in H. cbn [app] in H.
    assert (W1 : ~ In (if v then AlwaysTrue else AlwaysFalse) (if ign && is_test l then warn (Leaf a l) Ignored else [])).
    { destruct (ign && is_test l); [|intros []]. intros X. apply warn_in in X. destruct X as [X _]. destruct v; discriminate X. }
    unfold df_replace in H. rewrite Nb in H.
    destruct (ign && pure (Leaf a l)) eqn:Ip.
    { exfalso. cbn [opt_const] in H. destruct (transfer udb gdb before LFalse (before, before)) as [t g].
      repeat (apply in_app_or in H; destruct H as [H|H]; [first [exact (W1 H)|revert H]|]);
        try (match goal with |- In _ (if ?c then _ else _) -> _ => destruct c; [|intros []]; intros X; apply warn_in in X; destruct X as [_ X]; cbn in X; discriminate X end).
      match type of H with In _ (if ?c then _ else _) => destruct c; [|destruct H] end. apply warn_in in H. destruct H as [_ H].
      cbn [transfer_annot] in H. match type of H with is_const (if ?c then _ else _) = _ => destruct c end; discriminate H. }
    rewrite finish_live in Ef; [|exact Nb|intros ->; exact Ip].
    set (s0 := transfer udb gdb before l (before, before)) in *.
    assert (Ta : same_ann a (transfer_annot fo l s0 a))
      by (destruct l; split; try reflexivity; intros []; reflexivity).
    assert (O0 : ok level (Leaf (transfer_annot fo l s0 a) l)) by (apply (same_ann_ok level (Leaf a l)); assumption).
    apply leave_spec in Ef; [|exact O0]. destruct Ef as [-> _].
    assert (Pe : pure (Leaf (transfer_annot fo l s0 a) l) = pure (Leaf a l)) by (unfold pure; cbn [ann]; apply (proj1 Ta)).
    destruct s0 as [t g]. set (e0 := Leaf (transfer_annot fo l (t, g) a) l) in *.
    assert (Ef : (if always_true e0 then df_bottom else g) = pick false (forced e0 (t, g))) by reflexivity.
    assert (Et : (if always_false e0 then df_bottom else t) = pick true (forced e0 (t, g))) by reflexivity.
    rewrite Ef, Et in H. rewrite Pe in H.
    apply in_app_or in H. destruct H as [H|H]; [contradiction (W1 H)|].
    assert (Hi : pure (Leaf a l) = true -> ign = false) by (intros X; rewrite X, andb_true_r in Ip; exact Ip).
    apply in_app_or in H. destruct H as [H|H].
    - destruct (df_is_bottom (pick false _)) eqn:B; [|destruct H]. destruct (pure (Leaf a l)) eqn:P; [|destruct H].
      destruct (negb (is_true e0)); [|destruct H]. apply warn_in in H. destruct H as [H _].
      destruct v; [|discriminate H]. auto.
    - destruct (df_is_bottom (pick false _) && pure (Leaf a l)) eqn:C.
      { exfalso. match type of H with In _ (if ?c then _ else _) => destruct c; [|destruct H] end.
        apply warn_in in H. destruct H as [_ H]. discriminate H. }
      rewrite Pe in H. destruct (df_is_bottom (pick true _)) eqn:B; [|destruct H]. destruct (pure (Leaf a l)) eqn:P; [|destruct H].
      destruct (negb (is_false e0)); [|destruct H]. apply warn_in in H. destruct H as [H _].
      destruct v; [discriminate H|]. auto.
  Qed.

  Lemma leaf_unreachable ign before a l : df_is_bottom before = false -> ~ In Unreachable (leaf_warnings ign before a l).
  Proof.
    intros Nb H. unfold WarnModel.leaf_warnings in H. rewrite Nb in H. cbn [app] in H.
    destruct (df_replace fo level ign before (Leaf a l)) as [a' l'|].
    - destruct (transfer udb gdb before l' (before, before)) as [t g].
      apply in_app_or in H. destruct H as [H|H]; [|apply in_app_or in H; destruct H as [H|H]];
        match type of H with In _ (if ?c then _ else _) => destruct c; [|destruct H] end; apply warn_in in H; destruct H as [H _]; discriminate H.
    - rewrite app_nil_r in H. match type of H with In _ (if ?c then _ else _) => destruct c; [|destruct H] end.
      apply warn_in in H; destruct H as [H _]; discriminate H.
  Qed.

  Section True.
    Variable f : file.
    Variable u : size_unit.
    Variable b : behaviour.
    Hypothesis f_wf : wf_file f.
    Hypothesis b_about : about f b.
    Notation tame := (tame level udb gdb f u).
    Notation run := (@run F level b as_it_is).
    Notation evalc := (@evalc F level b).

    Definition true_here (e : expr) : Prop := forall ign before n, ok level e -> neat tame e -> bounded before -> sat f u before ->
      forall h r h1 q, evalc ign e h = Done r h1 q ->
      forall i w, In (i, w) (flow_warnings ign before n e) -> says w i (snd (run n e h)).

    Lemma list_true ign d cs : Forall true_here cs -> Forall (ok level) cs -> Forall (neat tame) cs ->
      forall before n, bounded before -> sat f u before -> forall h r h1 q, cloop evalc ign d cs h = Done r h1 q ->
      forall i w, In (i, w) (list_warnings flow_warnings (opn d) ign before n cs) -> says w i (snd (run_until run d n cs h)).
    Proof.
      intros IH. induction IH as [|c cs Hc IH IHcs]; intros O N before n HB HS h r h1 q Ev i w H; [destruct H|].
      inversion O as [|? ? Oc O']; inversion N as [|? ? Nc N']; subst. cbn [WarnModel.list_warnings] in H.
      destruct (data_flow fo level udb gdb _ before df_bottom c) as [[c' s] imp1] eqn:Ec.
      cbn [cloop] in Ev. destruct (evalc _ c h) as [|r1 h2 q1] eqn:E1; [discriminate|].
      assert (Ci : child_ign (opn d) ign (is_nil cs) = if is_nil cs then ign else false) by (destruct d; reflexivity).
      rewrite Ci in *.
      pose proof (run_eval level b c n h) as Re. rewrite (evalc_eval level b _ Oc _ _ _ _ _ E1) in Re.
      specialize (Hc _ _ n Oc Nc HB HS _ _ _ _ E1 i w). pose proof (run_range level b c as_it_is n h i) as Rc.
      cbn [run_until]. destruct (run n c h) as [[[r1' h2'] q1'] t]. cbn [fst snd] in *. inversion Re; subst.
      apply in_app_or in H. destruct H as [H|H].
      - pose proof (warnings_range _ _ _ _ _ _ H) as Rw. specialize (Hc H).
        destruct (xorb r1 d || q1); [exact Hc|].
        assert (Ab : forall r0, ~ In (i, r0) (snd (run_until run d (n + primaries c) cs h2))).
        { intros r0 X.
          rewrite <- (run_opn level b as_it_is (n + primaries c) (ann c) d cs h2) in X.
          apply run_range in X. lia. }
        destruct (run_until run d (n + primaries c) cs h2) as [o t']. cbn [snd] in *.
        apply says_app; [exact Hc|apply says_absent; exact Ab].
      - pose proof (list_range _ _ _ (fun ign bef n c => warnings_range c ign bef n) _ _ _ _ _ H) as Rw.
        assert (Ab : forall r0, ~ In (i, r0) t) by (intros r0 X; apply Rc in X; lia).
        destruct (xorb r1 d || q1) eqn:X; [apply says_absent; exact Ab|].
        apply orb_false_iff in X. destruct X as [X ->]. assert (r1 = d) by (destruct r1, d; cbn in X; congruence). subst r1.
        assert (Nn : is_nil cs = false) by (destruct cs; [destruct H|reflexivity]). rewrite Nn in *.
        destruct (flow_result fo level udb gdb f u b f_wf b_about c _ _ _ _ _ _ Oc Nc HB HS Ec _ _ _ _ E1) as (r2 & _ & R2 & _).
        destruct (R2 eq_refl eq_refl) as [_ S2].
        pose proof (flow_outcome fo level udb gdb f u b c _ _ _ _ _ _ Oc Nc HB Ec) as (_ & _ & C3 & _).
        destruct (below_pick _ _ d C3) as [B1 _].
        assert (Nx : next (opn d) s = pick d s) by (destruct d; reflexivity). rewrite Nx in H.
        specialize (IHcs O' N' _ _ B1 S2 _ _ _ _ Ev i w H).
        destruct (run_until run d (n + primaries c) cs h2) as [o t']. cbn [snd] in *.
        apply says_app; [apply says_absent; exact Ab|exact IHcs].
    Qed.

    Lemma flow_true : forall e, true_here e.
    Proof.
      induction e as [a l|a o cs IH] using expr_ind'; intros ign before n O N HB HS h r h1 q Ev i w H.
      - assert (Nb : df_is_bottom before = false)
          by (destruct (df_is_bottom before) eqn:X; [exfalso; eapply sat_bot; eassumption|reflexivity]).
        cbn [WarnModel.flow_warnings] in H. apply in_map_iff in H. destruct H as (w0 & E & H). inversion E; subst. clear E.
        destruct (data_flow fo level udb gdb ign before df_bottom (Leaf a l)) as [[e' s] imp] eqn:Ed.
        destruct (flow_result fo level udb gdb f u b f_wf b_about _ _ _ _ _ _ _ O N HB HS Ed _ _ _ _ Ev) as (r2 & _ & R2 & _).
        cbn [OptModel.data_flow] in Ed. destruct (df_finish fo level udb gdb ign before (Leaf a l) (before, before)) as [e1 s1] eqn:Ef.
        inversion Ed; subst. clear Ed.
        assert (K : forall v, In (if (v : bool) then AlwaysTrue else AlwaysFalse) (leaf_warnings ign before a l) ->
                  forall r0, In (i, r0) (snd (run i (Leaf a l) h)) -> r0 = v).
        { intros v Hw r0 X. destruct (leaf_always v _ _ _ _ _ _ O Nb Ef Hw) as (-> & P & B).
          rewrite (pure_evalc level b _ O P) in Ev. inversion Ev; subst. destruct (R2 eq_refl eq_refl) as [_ S2].
          assert (Er : r0 = value level b (Leaf a l) h1).
          { unfold value. cbn [eval]. cbn [WarnSpec.run] in X. unfold run_leaf in X. destruct (constant l); [destruct X|].
            destruct (eval_leaf level b l h1) as [[r3 h3] q3]. cbn in X. destruct X as [X|[]]. inversion X. reflexivity. }
          rewrite <- Er in *. destruct r0, v; try reflexivity; exfalso; eapply sat_bot; eassumption. }
        destruct w; [exact (K true H)|exact (K false H)| |exact I].
        contradiction (leaf_unreachable _ _ _ _ Nb H).
      - pose proof O as O1. apply ok_node in O1. destruct O1 as (S & Pa & Oc).
        apply neat_node in N. destruct N as [D Nc]. apply evalc_body' in Ev; [|exact O].
        assert (G : forall d, o = opn d -> says w i (snd (run n (Node a o cs) h))).
        { intros d ->. rewrite run_opn. rewrite body_opn in Ev.
          apply (list_true ign d cs IH Oc Nc _ _ HB HS _ _ _ _ Ev). destruct d; exact H. }
        destruct o; [|apply (G true); reflexivity|apply (G false); reflexivity|destruct D].
        clear G. cbn [derived] in D. destruct cs as [|c [|]]; try contradiction.
        inversion IH as [|? ? IHc _]; inversion Oc as [|? ? Oc1 _]; inversion Nc as [|? ? Nc1 _]; subst.
        cbn [OptEval.body] in Ev. destruct (evalc ign c h) as [|rc hc qc] eqn:E1; [discriminate|].
        rewrite run_not. specialize (IHc _ _ n Oc1 Nc1 HB HS _ _ _ _ E1 i w H).
        destruct (run n c h) as [[[r0 h0] q0] t]. exact IHc.
    Qed.
  End True.
End Flow.

(** ** The whole optimizer *)
Section Whole.
  Context {F : Type}.
  Variable fo : float_ops F.
  Variable level : nat.
  Variable udb gdb : Z -> option bool.
  Variable f : file.
  Variable u : size_unit.
  Variable b : behaviour.
  Hypothesis f_wf : wf_file f.
  Hypothesis b_about : about f b.
  Notation expr := (expr F).
  Notation tame := (tame level udb gdb f u).

  Lemma annotate_same : forall (e : expr) ign, same level b e (annotate fo level ign e).
  Proof.
    induction e as [a l|a o cs IH] using expr_ind'; intros ign; [split; reflexivity|]. unfold annotate. cbn [walk].
    eapply same_trans; [|apply same_ann1]. apply same_node.
    induction IH as [|c cs Hc IH IHcs]; cbn [walk_children]; constructor; [apply Hc|exact IHcs].
  Qed.

  Lemma later_silent : 3 <= level -> forall n i ign before e, rounds_warnings fo level udb gdb n (S i) ign before e = [].
  Proof.
    intros L n. induction n as [|n IH]; intros i ign before e; [reflexivity|]. cbn [rounds_warnings].
    destruct (round fo level udb gdb (S i) ign before df_bottom e) as [[e' s] imp]. rewrite IH.
    unfold round_warnings. rewrite (proj2 (Nat.leb_le 3 level) L). cbn [Nat.eqb negb andb]. rewrite andb_false_r.
    destruct (is_parent e'); reflexivity.
  Qed.

  Lemma optimize_first ign before e : 3 <= level -> optimize_warnings fo level udb gdb ign before e =
    flow_warnings fo level udb gdb ign before 0 (canonicalize fo level ign (annotate fo level ign e)).
  Proof.
    intros L. unfold optimize_warnings. cbn [rounds_warnings].
    destruct (round fo level udb gdb 0 ign before df_bottom _) as [[e' s] imp].
    replace (if is_parent e' then _ else _) with (@nil (nat * warning)).
    2:{ destruct (is_parent e'); [|reflexivity]. symmetry. apply (later_silent L 2). }
    rewrite app_nil_r. unfold round_warnings. cbn [Nat.eqb negb]. rewrite !andb_false_r.
    rewrite (proj2 (Nat.leb_le 1 level)), (proj2 (Nat.leb_le 2 level)) by lia. reflexivity.
  Qed.

  Lemma optimize_right ign before e : 3 <= level -> wf e -> made_of tame e -> bounded before -> sat f u before ->
    forall i w, In (i, w) (optimize_warnings fo level udb gdb ign before e) -> forall h, right level b e h i w.
  Proof.
    intros L W M HB HS i w H h. rewrite optimize_first in H by exact L.
    destruct (annotate_spec fo level b e W ign) as (O & V & Ea).
    pose proof (annotate_neat fo level tame e W M ign) as N.
    set (e0 := annotate fo level ign e) in *.
    pose proof (same_trans _ _ _ _ _ (annotate_same e ign) (canonicalize_same fo level b tame I I e0 ign O N)) as [_ Sm].
    assert (V' : OptEval.sv level b true ign e0) by (apply sv_mono; exact V).
    destruct (canonicalize_pass fo level b false) as (A & _ & B). destruct (A ign e0 O) as [O1 _].
    destruct (B ign e0 O (sv_weaken level b _ _ V')) as [_ S1]. destruct (canonicalize_neat fo level tame I I b ign e0 O N) as [N1 _].
    destruct (evalc_total level b true eq_refl _ O ign V' h) as (r0 & h0 & q0 & E0).
    destruct (S1 _ _ _ _ E0) as (r1 & E1 & _).
    set (e1 := canonicalize fo level ign e0) in *.
    assert (K : w <> Ignored -> right level b e h i w).
    { intros Hw. pose proof (flow_true fo level udb gdb f u b f_wf b_about e1 ign before 0 O1 N1 HB HS _ _ _ _ E1 i w H) as T.
      rewrite Sm in T. destruct w; [exact T|exact T|exact T|congruence]. }
    destruct w; try (apply K; discriminate). clear K.
    destruct (ignored_ok fo level udb gdb tame b e1 ign before 0 i N1 H) as [_ G].
    intros v v'. specialize (G (made i v) (made i v') h). rewrite !Sm in G.
    destruct (run level b (made i v) 0 e h) as [[[r2 h2] q2] t2], (run level b (made i v') 0 e h) as [[[r3 h3] q3] t3].
    unfold eff in G. cbn [fst snd] in G.
    assert (X : (h2, q2) = (h3, q3)).
    { apply G. intros j Hj. unfold made. destruct (Nat.eqb_spec i j); [congruence|reflexivity]. }
    inversion X; auto.
  Qed.

  Lemma optimize_ignored ign before e : 3 <= level -> wf e -> made_of tame e ->
    forall i, In (i, Ignored) (optimize_warnings fo level udb gdb ign before e) -> ign = true.
  Proof.
    intros L W M i H. rewrite optimize_first in H by exact L.
    destruct (annotate_spec fo level b e W ign) as (O & _ & _).
    pose proof (annotate_neat fo level tame e W M ign) as N.
    destruct (canonicalize_neat fo level tame I I b ign _ O N) as [N1 _].
    exact (proj1 (ignored_ok fo level udb gdb tame b _ ign before 0 i N1 H)).
  Qed.

  (** [impure] only grows. *)
  Lemma round_leb : 2 <= level -> forall i ign before imp e e' s imp', OptRounds.inv level udb gdb f u b ign e -> bounded before ->
    round fo level udb gdb i ign before imp e = (e', s, imp') -> leb imp imp'.
  Proof.
    intros L i ign before imp e e' s imp' (O & N & V) HB E. unfold round in E.
    rewrite (proj2 (Nat.leb_le 1 level)), (proj2 (Nat.leb_le 2 level)) in E by lia.
    destruct (canonicalize_pass fo level b false) as (A & _ & _). destruct (A ign e O) as [O1 _].
    destruct (canonicalize_neat fo level tame I I b ign e O N) as [N1 _].
    set (e1 := canonicalize fo level ign e) in *.
    set (e2 := if Nat.leb 3 level && negb (Nat.eqb i 0) then reorder fo level ign e1 else e1) in *.
    assert (G : ok level e2 /\ neat tame e2).
    { subst e2. destruct (_ && _); [|auto]. destruct (reorder_pass fo level b false) as (A' & _ & _).
      destruct (A' ign e1 O1) as [O2 _]. destruct (reorder_neat fo level tame b ign e1 O1 N1) as [N2 _]. auto. }
    destruct G as [O2 N2]. clearbody e1 e2.
    destruct (data_flow fo level udb gdb ign before imp e2) as [[e3 s3] imp3] eqn:E3. inversion E; subst.
    eapply (flow_outcome fo level udb gdb f u b e2); [exact O2|exact N2|exact HB|exact E3].
  Qed.

  Lemma rounds_leb : 2 <= level -> forall n i ign before imp0 e s0 imp1 e' s imp', OptRounds.inv level udb gdb f u b ign e -> bounded before ->
    bounded imp0 -> leb imp0 imp1 -> rounds fo level udb gdb n i ign before imp0 e s0 imp1 = (e', s, imp') -> leb imp0 imp'.
  Proof.
    intros L. induction n as [|n IH]; intros i ign before imp0 e s0 imp1 e' s imp' Hv HB HI H1 E; cbn [rounds] in E.
    - inversion E; subst. exact H1.
    - destruct (round_sound fo level L udb gdb f u b f_wf b_about i ign before imp0 e Hv HB HI) as (e2 & s2 & i2 & E2 & Hv2 & _).
      pose proof (round_leb L _ _ _ _ _ _ _ _ Hv HB E2) as H2. rewrite E2 in E.
      destruct (is_parent e2); [|inversion E; subst; exact H2]. eapply IH; [exact Hv2|exact HB|exact HI|exact H2|exact E].
  Qed.

  Lemma optimize_leb : 2 <= level -> forall ign before imp e e' s imp', wf e -> made_of tame e -> bounded before -> bounded imp ->
    optimize fo level udb gdb ign before imp e = (e', s, imp') -> leb imp imp'.
  Proof.
    intros L ign before imp e e' s imp' W M HB HI E.
    destruct (annotate_spec fo level b e W ign) as (O & V & Ea).
    pose proof (annotate_neat fo level tame e W M ign) as N.
    assert (V' : OptEval.sv level b true ign (annotate fo level ign e)) by (apply sv_mono; exact V).
    unfold optimize in E. eapply rounds_leb; [exact L| |exact HB|exact HI|apply leb_refl|exact E].
    split; [exact O|split; [exact N|apply sv_weaken; exact V']].
  Qed.

  Section Command.
    Variable c : ctx F.
    Hypothesis Wx : wf (c_exclude c).
    Hypothesis We : wf (c_expr c).
    Hypothesis Mx : made_of tame (c_exclude c).
    Hypothesis Me : made_of tame (c_expr c).
    Hypothesis Hmin : (0 <= c_mindepth c <= INT_MAX)%Z.
    Hypothesis Hmax : (0 <= c_maxdepth c <= INT_MAX)%Z.

    Lemma before_ok : 2 <= level -> bounded (fst (not_excluded fo level udb gdb c)) /\ bounded (snd (not_excluded fo level udb gdb c)) /\
      forall h r h1 q, eval level b (c_exclude c) h = (r, h1, q) ->
        ((h1 = h /\ q = false) \/ sat f u (snd (not_excluded fo level udb gdb c))) /\
        (r = false -> q = false -> (c_mindepth c <= f_depth f <= c_maxdepth c)%Z -> sat f u (fst (not_excluded fo level udb gdb c))).
    Proof.
      intros L. unfold not_excluded.
      destruct (optimize_sound fo level L udb gdb f u b f_wf b_about false df_top df_bottom (c_exclude c) Wx Mx bounded_top bounded_bottom)
        as (x' & [xt xf] & imp & Ex & Bx & HI & _ & Sx).
      rewrite Ex. cbn [fst snd] in *.
      set (d0 := ranges xf DEPTH).
      set (d1 := if (0 <? c_mindepth c)%Z then constrain_min d0 (c_mindepth c) else d0).
      set (d2 := if (c_maxdepth c <? INT_MAX)%Z then constrain_max d1 (c_maxdepth c) else d1).
      assert (Bxf : bounded xf) by apply Bx.
      split; [|split; [exact HI|]].
      { assert (W0 : within d0 d0) by (apply within_refl; exact Bxf).
        assert (I1 : int64 (c_mindepth c)) by (unfold int64; unfold INT_MAX in *; lia).
        assert (I2 : int64 (c_maxdepth c)) by (unfold int64; unfold INT_MAX in *; lia).
        assert (W1 : within d1 d0) by (unfold d1; case (0 <? c_mindepth c)%Z; [apply within_min; assumption|exact W0]).
        assert (W2 : within d2 d1).
        { unfold d2. apply within_self in W1. case (c_maxdepth c <? INT_MAX)%Z; [apply within_max; assumption|exact W1]. }
        apply (within_below xf xf DEPTH d2 Bxf (leb_refl _)). eapply within_trans; eassumption. }
      intros h r h1 q E. destruct (Sx (sat_top level L udb gdb f u f_wf) _ _ _ _ E) as (r' & _ & R & I'). split; [exact I'|].
      intros -> -> Hd. destruct (R eq_refl eq_refl) as [_ Sr].
      apply sat_set_range; [exact Sr|]. cbn [rv]. destruct Sr as (_ & Sr & _). specialize (Sr DEPTH). cbn [rv] in Sr.
      fold d0 in Sr. subst d2 d1. unfold constrain_max, constrain_min.
      destruct (0 <? c_mindepth c)%Z, (c_maxdepth c <? INT_MAX)%Z; cbn [rmin rmax]; lia.
    Qed.

    Lemma exclude_right : 3 <= level -> forall i w, In (i, w) (exclude_warnings fo level udb gdb c) -> forall h,
      right level b (c_exclude c) h i w /\
      (w = Ignored -> forall v v', fst (run level b (made i v) 0 (c_exclude c) h) = fst (run level b (made i v') 0 (c_exclude c) h)).
    Proof.
      intros L i w H h. split.
      - revert i w H h. apply optimize_right; [exact L|exact Wx|exact Mx|apply bounded_top|apply (sat_top level ltac:(lia) udb gdb f u f_wf)].
      - intros ->. pose proof (optimize_ignored _ _ _ L Wx Mx _ H). discriminate.
    Qed.

    Lemma expr_right : 3 <= level -> forall i w, In (i, w) (expr_warnings fo level udb gdb c) ->
      forall h h1, eval level b (c_exclude c) h = (false, h1, false) -> (c_mindepth c <= f_depth f <= c_maxdepth c)%Z ->
      right level b (c_expr c) h1 i w.
    Proof.
      intros L i w H h h1 E Hd. destruct (before_ok ltac:(lia)) as (B1 & _ & B3). destruct (B3 _ _ _ _ E) as [_ B4].
      eapply optimize_right; [exact L|exact We|exact Me|exact B1|apply B4; auto|exact H].
    Qed.

    Lemma nothing_right : wont_do_anything fo level udb gdb c = true ->
      forall h, exists pruned, visit_file level b c (f_depth f) h = (pruned, h, false).
    Proof.
      unfold wont_do_anything. intros H h. 
      destruct (not_excluded fo level udb gdb c) as [before imp] eqn:En.
      destruct (optimize fo level udb gdb true before imp (c_expr c)) as [[e' s] imp'] eqn:Ee.
      apply andb_true_iff in H. destruct H as [L Bi]. apply Nat.leb_le in L.
      destruct (before_ok L) as (B1 & B2 & B3). rewrite En in *. cbn [fst snd] in *.
      pose proof (optimize_leb L _ _ _ _ _ _ _ We Me B1 B2 Ee) as Hl.
      unfold visit_file. destruct (eval level b (c_exclude c) h) as [[r h1] q] eqn:E1.
      destruct (B3 _ _ _ _ E1) as [B4 B5].
      assert (X : h1 = h /\ q = false).
      { destruct B4 as [B4|B4]; [exact B4|]. exfalso. eapply sat_bot; [|exact Bi]. eapply sat_leb; eassumption. }
      destruct X as [-> ->]. destruct r; [eexists; reflexivity|].
      unfold INT_MAX in *. rewrite (Z.mod_small (c_mindepth c)), (Z.mod_small (c_maxdepth c)) by lia.
      destruct ((c_mindepth c <=? f_depth f) && (f_depth f <=? c_maxdepth c))%Z eqn:C; [|eexists; reflexivity].
      apply andb_true_iff in C. destruct C as [C1 C2]. apply Z.leb_le in C1, C2.
      specialize (B5 eq_refl eq_refl (conj C1 C2)).
      destruct (optimize_sound fo level L udb gdb f u b f_wf b_about true before imp (c_expr c) We Me B1 B2)
        as (e1 & s1 & i1 & E2 & _ & _ & _ & Se).
      rewrite Ee in E2. inversion E2; subst.
      destruct (eval level b (c_expr c) h) as [[r2 h2] q2] eqn:E3.
      destruct (Se B5 _ _ _ _ E3) as (_ & _ & _ & [[-> ->]|I3]); [eexists; reflexivity|].
      exfalso. eapply sat_bot; eassumption.
    Qed.
  End Command.
End Whole.

(** ** Nothing is said twice *)
Section Once.
  Context {F : Type}.
  Variable fo : float_ops F.
  Variable level : nat.
  Variable udb gdb : Z -> option bool.

  Lemma nodup_app {A} (l l' : list A) : NoDup l -> NoDup l' -> (forall x, In x l -> ~ In x l') -> NoDup (l ++ l').
  Proof.
    intros H H' D. induction H as [|x l Hx H IH]; [exact H'|]. cbn. constructor.
    - intros X. apply in_app_or in X. destruct X as [X|X]; [auto|]. apply (D x); [left; reflexivity|exact X].
    - apply IH. intros y Hy. apply D. right. exact Hy.
  Qed.

  (** At most one of each kind, in this order *)
  Definition kind (w0 : warning) (l : list warning) : Prop := l = [] \/ l = [w0].
  Lemma warn_kind (c : bool) (e : expr F) w : kind w (if c then warn e w else []).
  Proof. unfold kind, warn. destruct c; [|auto]. destruct (is_const e); auto. Qed.
  Lemma kinds_nodup l1 l2 l3 l4 : kind Ignored l1 -> kind Unreachable l2 -> kind AlwaysTrue l3 -> kind AlwaysFalse l4 ->
    NoDup (l1 ++ l2 ++ l3 ++ l4) /\ NoDup (l1 ++ l2).
  Proof.
    intros [->| ->] [->| ->] [->| ->] [->| ->]; cbn; split; repeat constructor; cbn; intuition discriminate.
  Qed.

  Lemma leaf_nodup ign before a l : NoDup (leaf_warnings fo level udb gdb ign before a l).
  Proof.
    unfold leaf_warnings. destruct (df_replace fo level ign before (Leaf a l)) as [a' l'|].
    - destruct (transfer udb gdb before l' (before, before)) as [t g]. apply kinds_nodup; apply warn_kind.
    - eapply (kinds_nodup _ _ [] []); first [apply warn_kind|left; reflexivity].
  Qed.

  Lemma flow_nodup : forall (e : expr F) ign before n, NoDup (flow_warnings fo level udb gdb ign before n e).
  Proof.
    induction e as [a l|a o cs IH] using expr_ind'; intros ign before n; cbn [flow_warnings].
    - pose proof (leaf_nodup ign before a l) as H. induction H as [|w ws Hw H IH]; [constructor|]. cbn. constructor; [|exact IH].
      intros X. apply in_map_iff in X. destruct X as (w' & E & X). inversion E; subst. auto.
    - assert (G : forall o0, NoDup (list_warnings fo level udb gdb (flow_warnings fo level udb gdb) o0 ign before n cs)).
      { intros o0. revert before n. induction IH as [|c cs Hc IH IHcs]; intros before n; [constructor|].
        cbn [list_warnings]. destruct (data_flow fo level udb gdb _ before df_bottom c) as [[c' s] imp].
        apply nodup_app; [apply Hc|apply IHcs|]. intros [i w] H H'.
        apply warnings_range in H.
        pose proof (list_range fo level udb gdb _ _ _ (fun ign bef n c => warnings_range fo level udb gdb c ign bef n) _ _ _ _ _ H') as R. lia. }
      destruct o; [|apply G|apply G|apply G]. destruct cs as [|c cs]; [constructor|]. inversion IH; auto.
  Qed.

  Lemma once : 3 <= level -> forall c : ctx F, NoDup (exclude_warnings fo level udb gdb c) /\ NoDup (expr_warnings fo level udb gdb c).
  Proof.
    intros L c. unfold exclude_warnings, expr_warnings. rewrite !optimize_first by exact L. split; apply flow_nodup.
  Qed.
End Once.

(** ** Examples *)
From Verif Require Import OptRefute.

(** -print -empty *)
Definition cmd_empty : ctx Q := cmd (and2 (pr 0) (lf LEmpty)).
Lemma repeated : expr_warnings qops 2 all_db all_db cmd_empty = [(1, Ignored); (1, Ignored); (1, Ignored)].
Proof. vm_compute. reflexivity. Qed.
Lemma not_repeated : expr_warnings qops 3 all_db all_db cmd_empty = [(1, Ignored)].
Proof. vm_compute. reflexivity. Qed.

Lemma reg_wf d i s u : (0 <= i < 2 ^ 32)%Z -> (0 <= s < 2 ^ 32)%Z -> (0 <= u < 2 ^ 32)%Z -> wf_file (reg_file d i s u).
Proof. intros. repeat split; cbn; try lia; reflexivity. Qed.

Lemma wrong_about_size : exists f b, wf_file f /\ about f b /\
  In (1, AlwaysFalse) (expr_warnings qops 3 all_db all_db cmd_size) /\ ~ right 3 b (c_expr cmd_size) [] 1 AlwaysFalse /\
  wont_do_anything qops 3 all_db all_db cmd_size = true /\
  visit_file 3 b cmd_size (f_depth f) [] = (false, [LPrint PFprint 0], false).
Proof.
  exists (reg_file 1 1 20000 0), (behaviour_of (reg_file 1 1 20000 0)).
  split; [apply reg_wf; lia|]. split; [apply behaviour_of_about|]. split; [vm_compute; auto|]. split.
  - intros H. specialize (H true). vm_compute in H. assert (X : true = false) by (apply H; auto). discriminate X.
  - split; vm_compute; reflexivity.
Qed.
