(** * The evaluator's assertions *)
From Coq Require Import List ZArith QArith Bool Lia.
From Verif Require Import ExprModel ExprSpec ExprProofs OptModel OptSpec OptEval OptSim OptPasses OptSimplify
  OptDomain OptTidy OptFlow OptRounds OptRefute AssertModel.
Import ListNotations.
Local Open Scope nat_scope.

Section Honest.
  Context {F : Type}.
  Variable level : nat.
  Variable b : behaviour.
  Notation expr := (expr F).
  Notation ok := (@ok F level).
  Notation evalc := (@evalc F level b).
  Notation eval := (@eval F level b).
  Notation run := (@run F level b).
  Notation fl k c := (flag k (ann c)).

  (** The annotations of an operator follow from those of its operands. *)
  Definition follows (a : annot F) (o : op) (cs : list expr) : Prop :=
    match o with
    | OComma => forall k, flag k a = true -> exists cs' c, cs = cs' ++ [c] /\ fl k c = true
    | _ => derived a o cs
    end.

  Fixpoint honest (e : expr) : Prop :=
    match e with
    | Leaf _ _ => True
    | Node a o cs =>
        follows a o cs /\
        (fix all l := match l with [] => True | c :: l' => honest c /\ all l' end) cs
    end.

  Lemma honest_node a o cs : honest (Node a o cs) <-> follows a o cs /\ Forall honest cs.
  Proof.
    cbn [honest]. apply and_iff_compat_l.
    induction cs as [|c cs IH]; [split; [constructor|exact (fun _ => I)]|].
    rewrite Forall_cons_iff, IH. reflexivity.
  Qed.

  Lemma neat_honest P : forall e, neat P e -> honest e.
  Proof.
    induction e as [a l|a o cs IH] using expr_ind'; [exact (fun _ => I)|].
    rewrite neat_node, honest_node. intros [D N]. split; [destruct o; try exact D; contradiction|].
    rewrite Forall_forall in *. auto.
  Qed.

  Lemma check_done (a : annot F) r h q : holds a r q -> check_result a (Finished r h q) = Finished r h q.
  Proof.
    unfold holds, check_result. destruct (a_true a), (a_false a), r, q; cbn; intros [A B]; try reflexivity;
      try (discriminate (A eq_refl eq_refl)); try (destruct (B eq_refl) as [X Y]);
      try discriminate (X eq_refl); discriminate (Y eq_refl).
  Qed.

  Lemma check_holds (a : annot F) x r h q : check_result a x = Finished r h q -> x = Finished r h q /\ holds a r q.
  Proof.
    unfold holds, check_result. destruct x as [|r' h' q']; [discriminate|].
    destruct (a_true a), (a_false a), r', q'; cbn; intros E; try discriminate E; injection E as <- <- <-;
      (split; [reflexivity|]); split; intros; try discriminate; try split; intros; try discriminate; auto.
  Qed.

  Lemma holds_flags (a : annot F) r q : (forall k, flag k a = true -> q = false -> r = k) -> holds a r q.
  Proof.
    intros H. pose proof (H true) as T. pose proof (H false) as G. cbn [flag] in T, G. unfold holds.
    split; [|auto]. intros A B. destruct q; [reflexivity|]. specialize (T A eq_refl). specialize (G B eq_refl).
    congruence.
  Qed.

  Lemma flags_hold (a : annot F) r q : holds a r q -> forall k, flag k a = true -> q = false -> r = k.
  Proof. intros [_ H] [] E Q; cbn [flag] in E; destruct (H Q); auto. Qed.

  Lemma run_holds (e : expr) h r h1 q : run e h false = Finished r h1 q -> holds (ann e) r q.
  Proof. destruct e; cbn [AssertModel.run ann]; intros E; apply check_holds in E; apply E. Qed.

  Definition rl (d : bool) := if d then run_and run else run_or run.
  Lemma rl_cons d c cs h q : rl d (c :: cs) h q =
    match run c h q with
    | Aborted => Aborted
    | Finished r h1 q1 => if xorb r d || q1 then Finished (negb d) h1 q1 else rl d cs h1 q1
    end.
  Proof. destruct d; cbn; destruct (run c h q) as [|[] h1 []]; reflexivity. Qed.

  (** What is known of an operand *)
  Definition runs (c : expr) : Prop := forall ign h r h1 q,
    evalc ign c h = Done r h1 q -> run c h false = Finished r h1 q.

  Lemma loop_runs d ign cs : Forall runs cs -> forall h r h1 q, cloop evalc ign d cs h = Done r h1 q ->
    rl d cs h false = Finished r h1 q /\
    (forallb (fun c => fl d c) cs = true -> q = false -> r = d) /\
    (existsb (fun c => fl (negb d) c) cs = true -> q = false -> r = negb d).
  Proof.
    induction 1 as [|c cs Rc R IH]; intros h r h1 q E; cbn [cloop] in E.
    - injection E as <- <- <-. split; [destruct d; reflexivity|]. split; [auto|]. cbn. discriminate.
    - destruct (evalc (if is_nil cs then ign else false) c h) as [|r' h' q'] eqn:Ec; [discriminate|].
      apply Rc in Ec. rewrite rl_cons, Ec. pose proof (flags_hold _ _ _ (run_holds _ _ _ _ _ Ec)) as Hc.
      cbn [forallb existsb]. rewrite andb_true_iff, orb_true_iff.
      destruct (xorb r' d || q') eqn:X.
      + injection E as <- <- <-. split; [reflexivity|]. split; [|auto]. intros [A _] ->.
        rewrite (Hc d A eq_refl) in X. destruct d; discriminate X.
      + apply orb_false_iff in X. destruct X as [X ->].
        destruct (IH _ _ _ _ E) as (E1 & A1 & B1). split; [exact E1|]. split; [intros [_ A]; auto|].
        intros [B|B] Q; [|auto]. rewrite (Hc (negb d) B eq_refl) in X. destruct d; discriminate X.
  Qed.

  Lemma comma_runs ign cs : Forall runs cs -> forall ret h r h1 q, ccomma evalc ign ret cs h = Done r h1 q ->
    run_comma run ret cs h false = Finished r h1 q /\
    forall k cs' c, cs = cs' ++ [c] -> fl k c = true -> q = false -> r = k.
  Proof.
    induction 1 as [|c cs Rc R IH]; intros ret h r h1 q E; cbn [ccomma run_comma] in *.
    - injection E as <- <- <-. split; [reflexivity|]. intros k cs' c E. destruct cs'; discriminate E.
    - destruct (evalc (if is_nil cs then ign else true) c h) as [|r' h' q'] eqn:Ec; [discriminate|].
      apply Rc in Ec. rewrite Ec. pose proof (flags_hold _ _ _ (run_holds _ _ _ _ _ Ec)) as Hc.
      destruct q'; [injection E as <- <- <-; split; [reflexivity|discriminate]|].
      destruct (IH _ _ _ _ _ E) as [E1 A1]. split; [exact E1|].
      intros k cs' x Ex Fx Q. destruct cs' as [|y cs']; cbn [app] in Ex; injection Ex as Ey Ex.
      + subst c cs. cbn [ccomma] in E. injection E as <- <- <-. auto.
      + subst. eapply A1; eauto.
  Qed.

  Lemma pure_loop ign d cs : Forall ok cs -> forallb pure cs = true -> forall h,
    cloop evalc ign d cs h = of_outcome ((if d then and_loop eval else or_loop eval) cs h).
  Proof.
    induction 1 as [|c cs Oc O IH]; intros P h; [destruct d; reflexivity|].
    cbn [forallb] in P. apply andb_true_iff in P. destruct P as [P1 P2].
    cbn [cloop]. rewrite (pure_evalc level b c Oc P1). pose proof (pure_eval level b c Oc P1 h) as E.
    destruct d; cbn [and_loop or_loop]; rewrite E; rewrite ?xorb_true_r, ?xorb_false_r;
      destruct (value level b c h); cbn [negb orb]; try reflexivity; apply (IH P2).
  Qed.
  Lemma pure_comma ign cs : Forall ok cs -> forallb pure cs = true -> forall ret h,
    ccomma evalc ign ret cs h = of_outcome (comma_loop eval ret cs h).
  Proof.
    induction 1 as [|c cs Oc O IH]; intros P ret h; [reflexivity|].
    cbn [forallb] in P. apply andb_true_iff in P. destruct P as [P1 P2].
    cbn [ccomma comma_loop]. rewrite (pure_evalc level b c Oc P1), (pure_eval level b c Oc P1 h). apply (IH P2).
  Qed.
  Lemma pure_body ign a o cs : ok (Node a o cs) -> a_pure a = true -> forall h,
    body level b ign o cs h = of_outcome (eval (Node a o cs) h).
  Proof.
    intros O P h. apply ok_node in O. destruct O as (Sh & Pa & O). rewrite P in Pa. symmetry in Pa.
    destruct o; cbn [body].
    - destruct Sh as [c ->]. inversion O as [|? ? Oc _]; subst. cbn in Pa. rewrite andb_true_r in Pa.
      rewrite (pure_evalc level b c Oc Pa). cbn [ExprModel.eval]. rewrite (pure_eval level b c Oc Pa h). reflexivity.
    - apply (pure_loop ign true cs O Pa).
    - apply (pure_loop ign false cs O Pa).
    - apply (pure_comma ign cs O Pa).
  Qed.

  Lemma honest_runs : forall e, ok e -> honest e -> runs e.
  Proof.
    induction e as [a l|a o cs IH] using expr_ind'; intros O H ign h r h1 q E.
    - cbn [AssertModel.run]. destruct (a_pure a) eqn:P.
      + destruct O as [O1 O2]. destruct (O2 P) as [T1 T2]. rewrite P in O1. symmetry in O1.
        cbn [OptEval.evalc] in E. rewrite P in E. pose proof (pure_leaf_eval level b l h O1) as El.
        rewrite El in E |- *. cbn [finished]. injection E as <- <- <-. apply check_done. apply holds_flags.
        intros k Fk _. destruct k; cbn [flag] in Fk; [rewrite T1 in Fk|rewrite T2 in Fk]; destruct l; cbn in *; congruence.
      + cbn [OptEval.evalc] in E. rewrite P in E. apply chk_done in E. destruct E as [E G].
        destruct (eval_leaf level b l h) as [[r' h'] q']. cbn in E. injection E as -> -> ->.
        apply check_done. exact G.
    - assert (B : body level b ign o cs h = Done r h1 q).
      { destruct (a_pure a) eqn:P.
        - rewrite (pure_body ign a o cs O P). apply (evalc_eval level b _ O) in E. rewrite E. reflexivity.
        - rewrite evalc_node, P in E. destruct ign; [exact E|apply chk_done in E; apply E]. }
      clear E. apply ok_node in O. destruct O as (Sh & _ & O). apply honest_node in H. destruct H as [D H].
      assert (R : Forall runs cs).
      { rewrite Forall_forall in *. intros c Hc. apply IH; auto. }
      clear IH O H. cbn [AssertModel.run]. destruct o; cbn [body follows] in *.
      + destruct Sh as [c ->]. inversion R as [|? ? Rc _]; subst. cbn [derived] in D.
        destruct (evalc ign c h) as [|r' h' q'] eqn:Ec; [discriminate|]. apply Rc in Ec. rewrite Ec.
        cbn in B. injection B as <- <- <-. apply check_done, holds_flags. intros k Fk Q.
        rewrite (flags_hold _ _ _ (run_holds _ _ _ _ _ Ec) _ (D k Fk) Q). destruct k; reflexivity.
      + destruct (loop_runs true ign cs R _ _ _ _ B) as (E & A1 & A2). cbn [rl] in E. rewrite E.
        apply check_done, holds_flags. destruct D as [D1 D2]. intros [] Fk Q; [auto|exact (A2 (D2 Fk) Q)].
      + destruct (loop_runs false ign cs R _ _ _ _ B) as (E & A1 & A2). cbn [rl] in E. rewrite E.
        apply check_done, holds_flags. destruct D as [D1 D2]. intros [] Fk Q; [exact (A2 (D2 Fk) Q)|auto].
      + destruct (comma_runs ign cs R _ _ _ _ _ B) as [E A]. rewrite E.
        apply check_done, holds_flags. intros k Fk Q. destruct (D k Fk) as (cs' & c & Ec & Fc). eauto.
  Qed.

  Lemma derived_nt d (cs : list expr) : forallb (fun c => fl d c) cs = true -> nt d cs = true.
  Proof.
    induction cs as [|c cs IH]; [auto|]. cbn [forallb nt]. rewrite !andb_true_iff, orb_true_iff. intros [A B]. auto.
  Qed.
  Lemma neat_tidy P : forall (e : expr) ign, neat P e -> tidy P ign e.
  Proof.
    induction e as [a l|a o cs IH] using expr_ind'; intros ign N; [exact N|].
    apply neat_node in N. destruct N as [D N].
    assert (G : tidyl (tidy P) ign cs).
    { clear D. induction cs as [|c cs IHcs]; [exact I|]. inversion IH; inversion N; subst.
      cbn [tidyl]. split; auto. }
    destruct o; cbn [tidy derived derived'] in *.
    - destruct cs as [|c [|]]; try contradiction. split; [auto|]. inversion IH; inversion N; subst. auto.
    - split; [|exact G]. intros _. destruct D. split; [intros X; apply derived_nt|]; auto.
    - split; [|exact G]. intros _. destruct D. split; [intros X; apply derived_nt|]; auto.
    - contradiction.
  Qed.
End Honest.

Section Annotated.
  Context {F : Type}.
  Variable fo : float_ops F.
  Variable level : nat.
  Variable b : behaviour.
  Notation expr := (expr F).
  Notation run := (@run F level b).
  Notation eval := (@eval F level b).

  (** [e] fails no assertion where its evaluation starts from [h]. *)
  Definition fine (e : expr) (h : hist) : Prop := run e h false = finished (eval e h).

  Lemma evalc_fine ign e h r h1 q : ok level e -> honest e -> evalc level b ign e h = Done r h1 q -> fine e h.
  Proof.
    intros O H E. unfold fine. rewrite (honest_runs level b e O H _ _ _ _ _ E).
    apply (evalc_eval level b e O) in E. rewrite E. reflexivity.
  Qed.

  Lemma annotate_honest : forall e, wf e -> forall ign, honest (annotate fo level ign e).
  Proof.
    induction e as [a l|a o cs IH] using expr_ind'; intros W ign; [exact I|].
    unfold annotate in *. cbn [walk]. apply wf_node in W. destruct W as [Sh W].
    set (cs' := walk_children (walk (fun _ => annotate1 fo level)) o ign cs).
    assert (H : Forall honest cs').
    { subst cs'. clear Sh. induction cs as [|c cs IHcs]; [constructor|].
      inversion IH as [|? ? IHc IH']; inversion W as [|? ? Wc W']; subst. cbn [walk_children].
      constructor; auto. }
    assert (S' : shape o cs').
    { eapply shape_len; [|apply walk_children_length]. destruct o; exact Sh. }
    clearbody cs'. cbn [rebuild annotate1]. apply honest_node. split; [|exact H].
    destruct o; try (apply annotate_derived; [exact S'|discriminate]).
    cbn [follows]. clear - S'. destruct cs' as [|c cs' _] using rev_ind; [contradiction|].
    intros k Fk. exists cs', c. split; [reflexivity|]. unfold annotate_node in Fk. rewrite fold_left_app in Fk.
    destruct k; exact Fk.
  Qed.

  Lemma annotated_fine e ign h : wf e -> fine (annotate fo level ign e) h.
  Proof.
    intros W. destruct (annotate_spec fo level b e W ign) as (O & V & _).
    destruct (evalc_total level b true eq_refl _ O false V h) as (r & h1 & q & E).
    eapply evalc_fine; [exact O|apply annotate_honest; exact W|exact E].
  Qed.

  (** *** Without data flow *)
  Notation any := (fun _ : leaf => True).

  Lemma rounds_fine : level <= 1 -> forall udb gdb ign before impure0 n i e s impure e' s' impure',
    ok level e -> OptEval.sv level b true ign e -> neat any e ->
    rounds fo level udb gdb n i ign before impure0 e s impure = (e', s', impure') ->
    ok level e' /\ OptEval.sv level b true ign e' /\ neat any e'.
  Proof.
    intros L udb gdb ign before impure0. induction n as [|n IH]; intros i e s impure e' s' impure' O V N E;
      cbn [rounds] in E.
    - inversion E; subst. auto.
    - assert (R : exists e1, round fo level udb gdb i ign before impure0 e = (e1, None, impure0) /\
                  ok level e1 /\ OptEval.sv level b true ign e1 /\ neat any e1).
      { unfold round. replace (Nat.leb 2 level) with false by (symmetry; apply Nat.leb_gt; lia).
        replace (Nat.leb 3 level) with false by (symmetry; apply Nat.leb_gt; lia). cbn [andb].
        destruct (Nat.leb 1 level).
        - destruct (canonicalize_pass fo level b true) as (A1 & _ & B1).
          destruct (pass_equiv level b _ A1 B1 ign e O V) as (O1 & V1 & _).
          destruct (canonicalize_neat fo level any I I b ign e O N) as [N1 _].
          destruct (simplify_pass fo level b true) as (A2 & B2).
          destruct (pass_equiv level b _ A2 (B2 (or_introl eq_refl)) ign _ O1 V1) as (O2 & V2 & _).
          destruct (simplify_tidy fo level any I I _ ign O1 (neat_tidy any _ _ N1)) as [N2 _].
          eexists. split; [reflexivity|]. auto.
        - eexists. split; [reflexivity|]. auto. }
      destruct R as (e1 & Er & O1 & V1 & N1). rewrite Er in E.
      destruct (is_parent e1).
      + eapply IH; eassumption.
      + inversion E; subst. auto.
  Qed.

  Lemma optimize_fine1 : level <= 1 -> forall udb gdb ign before impure e e' s' impure', wf e -> made_of any e ->
    optimize fo level udb gdb ign before impure e = (e', s', impure') -> forall h, fine e' h.
  Proof.
    intros L udb gdb ign before impure e e' s' impure' W M E h. unfold optimize in E.
    destruct (annotate_spec fo level b e W ign) as (O & V & _).
    destruct (rounds_fine L _ _ _ _ _ _ _ _ _ _ _ _ _ O (sv_mono _ _ _ _ ign V) (annotate_neat fo level any e W M ign) E)
      as (O' & V' & N').
    destruct (evalc_total level b true eq_refl _ O' ign V' h) as (r & h1 & q & Ev).
    eapply evalc_fine; [exact O'|eapply neat_honest; exact N'|exact Ev].
  Qed.

  Lemma optimize_fine0 : level = 0 -> forall udb gdb ign before impure e e' s' impure', wf e ->
    optimize fo level udb gdb ign before impure e = (e', s', impure') -> forall h, fine e' h.
  Proof.
    intros L udb gdb ign before impure e e' s' impure' W E h.
    assert (X : e' = annotate fo level ign e).
    { revert E. unfold optimize, round. rewrite L. cbn [rounds].
      unfold round. cbn [Nat.leb andb]. destruct (is_parent _); intros E; inversion E; reflexivity. }
    subst e'. apply annotated_fine. exact W.
  Qed.
End Annotated.

Section Flow.
  Context {F : Type}.
  Variable fo : float_ops F.
  Variable level : nat.
  Hypothesis level2 : 2 <= level.
  Variable udb gdb : Z -> option bool.
  Variable f : file.
  Variable u : size_unit.
  Variable b : behaviour.
  Hypothesis f_wf : wf_file f.
  Hypothesis b_about : about f b.
  Notation tame := (tame level udb gdb f u).
  Notation sat := (sat f u).
  Notation fine := (@fine F level b).

  Lemma optimize_fine ign before imp (e : expr F) : wf e -> made_of tame e -> bounded before -> bounded imp ->
    exists e' s imp', optimize fo level udb gdb ign before imp e = (e', s, imp') /\
      (no_depth imp' -> forall h, fine e' h) /\ (sat before -> forall h, fine e' h).
  Proof.
    intros W M HB HI. destruct (annotate_spec fo level b e W ign) as (O & V & _).
    pose proof (annotate_neat fo level tame e W M ign) as N.
    assert (V' : OptEval.sv level b true ign (annotate fo level ign e)) by (apply sv_mono; exact V).
    assert (Hv : inv level udb gdb f u b ign (annotate fo level ign e))
      by (split; [exact O|split; [exact N|apply sv_weaken; exact V']]).
    destruct (rounds_sound fo level level2 udb gdb f u b f_wf b_about 2 0 ign before imp _ (df_top, df_top) imp Hv HB HI)
      as (e' & s & imp' & E & (O' & N' & _) & _ & _ & Nd & R).
    exists e', s, imp'. split; [exact E|]. split.
    - intros X h. eapply (evalc_fine level b false); [exact O'|eapply neat_honest; exact N'|].
      apply pure_evalc; auto.
    - intros HS h. destruct (evalc_total level b true eq_refl _ O ign V' h) as (r & h1 & q & E0).
      destruct (R HS _ _ _ _ E0) as (r' & E' & _).
      eapply evalc_fine; [exact O'|eapply neat_honest; exact N'|exact E'].
  Qed.

  Local Open Scope Z_scope.
  Lemma run_file_flow c h : wf (c_exclude c) -> made_of tame (c_exclude c) -> wf (c_expr c) -> made_of tame (c_expr c) ->
    (forall h r h1 q, eval level b (c_exclude c) h = (r, h1, q) -> q = false) ->
    0 <= c_mindepth c <= INT_MAX -> 0 <= c_maxdepth c <= INT_MAX ->
    run_file level b (bfs_optimize fo level udb gdb c) (f_depth f) h
    = finished (visit_file level b (bfs_optimize fo level udb gdb c) (f_depth f) h).
  Proof.
    intros Wx Mx We Me Q Hmin Hmax. unfold bfs_optimize.
    destruct (optimize_sound fo level level2 udb gdb f u b f_wf b_about false df_top df_bottom (c_exclude c) Wx Mx
      bounded_top bounded_bottom) as (x' & [xt xf] & imp & Ex & Bx & HI & _ & Sx).
    destruct (optimize_fine false df_top df_bottom (c_exclude c) Wx Mx bounded_top bounded_bottom)
      as (x1 & s1 & i1 & Ex1 & _ & Fx).
    rewrite Ex in Ex1. injection Ex1 as <- <- <-. specialize (Fx (sat_top level level2 udb gdb f u f_wf)).
    rewrite Ex. cbn [fst snd] in *.
    set (d0 := ranges xf DEPTH).
    set (d1 := if 0 <? c_mindepth c then constrain_min d0 (c_mindepth c) else d0).
    set (d2 := if c_maxdepth c <? INT_MAX then constrain_max d1 (c_maxdepth c) else d1).
    set (before := set_range xf DEPTH d2).
    assert (Bxf : bounded xf) by apply Bx.
    assert (HB : bounded before).
    { assert (W0 : within d0 d0) by (apply within_refl; exact Bxf).
      assert (I1 : int64 (c_mindepth c)) by (unfold int64; unfold INT_MAX in *; lia).
      assert (I2 : int64 (c_maxdepth c)) by (unfold int64; unfold INT_MAX in *; lia).
      assert (W1 : within d1 d0) by (unfold d1; case (0 <? c_mindepth c); [apply within_min; assumption|exact W0]).
      assert (W2 : within d2 d1).
      { unfold d2. apply within_self in W1. case (c_maxdepth c <? INT_MAX); [apply within_max; assumption|exact W1]. }
      apply (within_below xf xf DEPTH d2 Bxf (leb_refl _)). eapply within_trans; eassumption. }
    destruct (optimize_sound fo level level2 udb gdb f u b f_wf b_about true before imp (c_expr c) We Me HB HI)
      as (e' & s & imp' & Ee & _ & HI' & _ & _).
    destruct (optimize_fine true before imp (c_expr c) We Me HB HI) as (e1 & s1 & i1 & Ee1 & Nd & Fe).
    rewrite Ee in Ee1. injection Ee1 as <- <- <-.
    rewrite Ee. destruct s as [st sf].
    set (mind := rmin (ranges imp' DEPTH)). set (maxd := rmax (ranges imp' DEPTH)).
    destruct (bounded_range imp' DEPTH HI') as [R1 R2]. fold mind in R1. fold maxd in R2.
    unfold visit_file, run_file. cbn [c_exclude c_expr c_mindepth c_maxdepth].
    rewrite (Fx h).
    destruct (eval level b (c_exclude c) h) as [[r h1] q] eqn:E1.
    pose proof (Q _ _ _ _ E1) as Hq. subst q.
    destruct (Sx (sat_top level level2 udb gdb f u f_wf) _ _ _ _ E1) as (r' & E1' & R & _). rewrite E1'.
    destruct (R eq_refl eq_refl) as [-> Sr]. cbn [finished]. destruct r; [reflexivity|].
    assert (Dp : 0 <= f_depth f < 2 ^ 31) by apply f_wf.
    set (mn := if Nat.leb 2 level && (c_mindepth c <? mind) then Z.min mind INT_MAX else c_mindepth c).
    set (mx := if Nat.leb 4 level && (maxd <? c_maxdepth c) then Z.max maxd INT_MIN else c_maxdepth c).
    assert (Hmn : c_mindepth c <= mn <= INT_MAX).
    { subst mn. destruct (Nat.leb 2 level && (c_mindepth c <? mind)) eqn:X; [|lia].
      apply andb_true_iff in X. destruct X as [_ X]. apply Z.ltb_lt in X. lia. }
    assert (Hmx : (mx < 0 /\ maxd < 0) \/ 0 <= mx <= c_maxdepth c).
    { subst mx. destruct (Nat.leb 4 level && (maxd <? c_maxdepth c)) eqn:X; [|lia].
      apply andb_true_iff in X. destruct X as [_ X]. apply Z.ltb_lt in X. unfold INT_MIN in *. lia. }
    clearbody mn mx.
    destruct ((mn mod 2 ^ 64 <=? f_depth f) && (f_depth f <=? mx mod 2 ^ 64)) eqn:C; [|reflexivity].
    assert (G : fine e' h1).
    { destruct Hmx as [[_ Hmx]|Hmx]; [apply Nd; exact Hmx|]. apply Fe.
      assert (Hd : c_mindepth c <= f_depth f <= c_maxdepth c).
      { apply andb_true_iff in C. destruct C as [C1 C2]. apply Z.leb_le in C1, C2. unfold INT_MAX in *.
        rewrite Z.mod_small in C1 by lia. rewrite Z.mod_small in C2 by lia. lia. }
      clear C.
      apply sat_set_range; [exact Sr|]. cbn [rv]. destruct Sr as (_ & Sr & _). specialize (Sr DEPTH). cbn [rv] in Sr.
      fold d0 in Sr. subst d2 d1. unfold constrain_max, constrain_min.
      destruct (0 <? c_mindepth c), (c_maxdepth c <? INT_MAX); cbn [rmin rmax]; lia. }
    rewrite G. destruct (eval level b e' h1) as [[r2 h2] q2]. reflexivity.
  Qed.
End Flow.

(** ** Statements *)
Section Statements.
  Local Open Scope Z_scope.

  Lemma never_aborts_partial (F : Type) (fo : float_ops F) level udb gdb f u b : wf_file f -> about f b ->
    forall c h, wf (c_exclude c) -> wf (c_expr c) ->
    made_of (tame level udb gdb f u) (c_exclude c) -> made_of (tame level udb gdb f u) (c_expr c) ->
    (forall h r h1 q, eval level b (c_exclude c) h = (r, h1, q) -> q = false) ->
    0 <= c_mindepth c <= INT_MAX -> 0 <= c_maxdepth c <= INT_MAX ->
    run_file level b (bfs_optimize fo level udb gdb c) (f_depth f) h
    = finished (visit_file level b c (f_depth f) h).
  Proof.
    intros Wf Ab c h Wx We Mx Me Q Hn Hx.
    rewrite <- (visit_partial F fo level udb gdb f u b Wf Ab c h Wx We Mx Me Q Hn Hx).
    destruct (le_lt_dec level 1) as [L|L]; [|eapply run_file_flow; eassumption].
    assert (A : forall e : expr F, made_of (tame level udb gdb f u) e -> made_of (fun _ => True) e).
    { induction e as [a l|a o cs IH] using expr_ind'; intros M; [exact I|]. cbn [made_of] in *.
      destruct M as [M1 M2]. split; [exact M1|]. clear M1. induction cs as [|c0 cs IHcs]; [exact I|].
      inversion IH; subst. destruct M2. split; [auto|]. apply IHcs; assumption. }
    unfold bfs_optimize.
    destruct (optimize fo level udb gdb false df_top df_bottom (c_exclude c)) as [[x' [xt xf]] imp] eqn:Ex.
    match goal with |- context [optimize fo level udb gdb true ?d imp (c_expr c)] => set (bf := d) end.
    destruct (optimize fo level udb gdb true bf imp (c_expr c)) as [[e' s'] imp'] eqn:Ee.
    pose proof (optimize_fine1 fo level b L _ _ _ _ _ _ _ _ _ Wx (A _ Mx) Ex) as Fx.
    pose proof (optimize_fine1 fo level b L _ _ _ _ _ _ _ _ _ We (A _ Me) Ee) as Fe.
    pose proof (optimize_equiv fo level b L _ _ _ _ _ _ _ _ _ Wx Ex) as Hxx.
    destruct s' as [st sf]. unfold run_file, visit_file. cbn [c_exclude c_expr c_mindepth c_maxdepth].
    rewrite (Fx h). destruct (eval level b (c_exclude c) h) as [[r h1] q] eqn:E1.
    destruct (Hxx _ _ _ _ E1) as (r' & E1' & _). rewrite E1'. pose proof (Q _ _ _ _ E1) as Hq. subst q.
    cbn [finished]. destruct r'; [reflexivity|].
    match goal with |- (if ?x then _ else _) = _ => destruct x; [|reflexivity] end.
    rewrite (Fe h1). destruct (eval level b e' h1) as [[r2 h2] q2]. reflexivity.
  Qed.

  Lemma never_aborts_O0 (F : Type) (fo : float_ops F) udb gdb b c depth h :
    wf (c_exclude c) -> wf (c_expr c) ->
    (forall h r h1 q, eval 0 b (c_exclude c) h = (r, h1, q) -> q = false) ->
    run_file 0 b (bfs_optimize fo 0 udb gdb c) depth h = finished (visit_file 0 b c depth h).
  Proof.
    intros Wx We Q. rewrite <- (bfs_optimize_O1 fo 0 b (le_S _ _ (le_n 0)) udb gdb c depth h Wx We Q).
    unfold bfs_optimize.
    destruct (optimize fo 0 udb gdb false df_top df_bottom (c_exclude c)) as [[x' [xt xf]] imp] eqn:Ex.
    match goal with |- context [optimize fo 0 udb gdb true ?d imp (c_expr c)] => set (bf := d) end.
    destruct (optimize fo 0 udb gdb true bf imp (c_expr c)) as [[e' s'] imp'] eqn:Ee.
    pose proof (optimize_fine0 fo 0 b eq_refl _ _ _ _ _ _ _ _ _ Wx Ex) as Fx.
    pose proof (optimize_fine0 fo 0 b eq_refl _ _ _ _ _ _ _ _ _ We Ee) as Fe.
    pose proof (optimize_equiv fo 0 b (le_S _ _ (le_n 0)) _ _ _ _ _ _ _ _ _ Wx Ex) as Hxx.
    destruct s' as [st sf]. unfold run_file, visit_file. cbn [c_exclude c_expr c_mindepth c_maxdepth].
    rewrite (Fx h). destruct (eval 0 b (c_exclude c) h) as [[r h1] q] eqn:E1.
    destruct (Hxx _ _ _ _ E1) as (r' & E1' & _). rewrite E1'. pose proof (Q _ _ _ _ E1) as Hq. subst q.
    cbn [finished]. destruct r'; [reflexivity|].
    match goal with |- (if ?x then _ else _) = _ => destruct x; [|reflexivity] end.
    rewrite (Fe h1). destruct (eval 0 b e' h1) as [[r2 h2] q2]. reflexivity.
  Qed.

  (* ( -print , -true ) -name x -o -name y *)
  Definition cmd_abort : ctx Q :=
    cmd (or2 (and2 (comma2 (pr 0) (lf LTrue)) (lf (LTest TName false 0))) (lf (LTest TName false 1))).

  Lemma abort_refuted : exists f, wf_file f /\ about f (behaviour_of f) /\
    (exists h1, visit_file 3 (behaviour_of f) cmd_abort (f_depth f) [] = (false, h1, false)) /\
    run_file 3 (behaviour_of f) (bfs_optimize qops 3 all_db all_db cmd_abort) (f_depth f) [] = Aborted.
  Proof.
    exists reg. split; [repeat split; vm_compute; congruence|]. split; [apply behaviour_of_about|].
    split; [eexists; vm_compute; reflexivity|vm_compute; reflexivity].
  Qed.
End Statements.
