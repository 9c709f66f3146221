(** * Proofs about a whole search *)
From Coq Require Import List ZArith NArith Arith Bool Lia Sorted Permutation ZifyBool ZifyNat ZifyN.
From Coq Require Import Init.Byte.
From Verif Require Import ExprModel ExprSpec ExprProofs OptModel OptSpec OptEval OptFacts OptDomain OptTidy OptFlow OptSimplify OptRounds
  PathModel SortSpec WalkSpec BftwModel BftwSpec BftwOrder BftwProofs BftwFacts DeepenModel DeepenSpec DeepenPost DeepenFacts SearchModel SearchSpec.
From Verif Require CbModel CbSpec.
Import ListNotations.

(** ** Evaluation *)
Section Eval.
  Context {F : Type}.
  Variable level : nat.
  Variable b : behaviour.
  Notation eval := (@eval F level b).

  Definition pruning (l : leaf) : bool := match l with LPrune => true | _ => false end.

  Definition news (ls : list leaf) (h h1 : hist) (q : bool) : Prop :=
    exists n, h1 = n ++ h /\ (forall l, In l n -> In l ls) /\ (q = true -> exists l, In l n /\ may_quit l = true) /\
      forall a, action_after b h1 a = if q then CbModel.Stop else if existsb pruning n then CbModel.Prune else action_after b h a.

  Lemma news_refl ls h : news ls h h false.
  Proof. exists []. split; [reflexivity|]. split; [intros l []|]. split; [discriminate|]. reflexivity. Qed.
  Lemma news_trans ls ls' h h1 h2 q : news ls h h1 false -> news ls' h1 h2 q -> news (ls ++ ls') h h2 q.
  Proof.
    intros (n & -> & A & _ & C) (n2 & -> & B & Q & D). exists (n2 ++ n). split; [apply app_assoc|]. split; [|split].
    - intros l X. apply in_app_or in X. apply in_or_app. destruct X; auto.
    - intros E. destruct (Q E) as (l & X & Y). exists l. split; [apply in_or_app; auto|exact Y].
    - intros a. rewrite D, existsb_app. destruct q; [reflexivity|]. rewrite C. destruct (existsb pruning n2); reflexivity.
  Qed.
  Lemma news_more ls ls' h h1 q : news ls h h1 q -> news (ls ++ ls') h h1 q.
  Proof.
    intros (n & -> & A & Q). exists n. split; [reflexivity|]. split; [|exact Q]. intros l X. apply in_or_app. auto.
  Qed.

  Lemma leaf_news l h r h1 q : eval_leaf level b l h = (r, h1, q) -> news [l] h h1 q.
  Proof.
    assert (A : may_quit l = false -> news [l] h (l :: h) false).
    { intros M. exists [l]. split; [reflexivity|]. split; [auto|]. split; [discriminate|]. intros a. destruct l; cbn in M |- *; congruence. }
    assert (B : forall x : bool, may_quit l = false -> news [l] h (if x then h else l :: h) false) by (intros [|] M; [apply news_refl|exact (A M)]).
    destruct l; cbn [eval_leaf]; intros E; injection E as <- <- <-; try apply news_refl; try (exact (A eq_refl)); try exact (B _ eq_refl).
    - match goal with |- news [?x] _ _ _ => exists [x] end. split; [reflexivity|]. split; [auto|]. split; [intros _; eexists; split; [left; reflexivity|reflexivity]|].
      intros a. cbn [app action_after existsb pruning orb]. reflexivity.
    - match goal with |- news [?x] _ _ _ => exists [x] end. split; [reflexivity|]. split; [auto|]. split; [intros _; eexists; split; [left; reflexivity|reflexivity]|reflexivity].
    - match goal with |- news [?x] _ _ _ => exists [x] end. split; [reflexivity|]. split; [auto|]. split; [intros _; eexists; split; [left; reflexivity|reflexivity]|reflexivity].
  Qed.

  Lemma eval_news (e : expr F) : forall h r h1 q, eval e h = (r, h1, q) -> news (leaves e) h h1 q.
  Proof.
    induction e as [a l|a o cs IH] using expr_ind'; intros h r h1 q E; [exact (leaf_news _ _ _ _ _ E)|].
    assert (ND : forall c0 h0 r0 h2 q0, In c0 cs -> eval c0 h0 = (r0, h2, q0) -> news (leaves c0) h0 h2 q0).
    { intros c0 h0 r0 h2 q0 I. rewrite Forall_forall in IH. exact (IH c0 I h0 r0 h2 q0). }
    clear IH. cbn [leaves]. destruct o; cbn [ExprModel.eval] in E.
    - destruct cs as [|c0 cs]; [injection E as <- <- <-; apply news_refl|]. destruct (eval c0 h) as [[r0 h2] q0] eqn:E0.
      injection E as <- <- <-. cbn [flat_map]. apply news_more. exact (ND _ _ _ _ _ (or_introl eq_refl) E0).
    - revert h E. induction cs as [|c0 cs IHcs]; intros h E; cbn [and_loop] in E; [injection E as <- <- <-; apply news_refl|].
      destruct (eval c0 h) as [[r0 h2] q0] eqn:E0. pose proof (ND _ _ _ _ _ (or_introl eq_refl) E0) as N0. cbn [flat_map].
      destruct r0, q0; cbn [negb orb] in E; try (injection E as <- <- <-; apply news_more; exact N0).
      eapply news_trans; [exact N0|]. apply IHcs; [|exact E]. intros c1 h0 r1 h3 q1 I. exact (ND c1 h0 r1 h3 q1 (or_intror I)).
    - revert h E. induction cs as [|c0 cs IHcs]; intros h E; cbn [or_loop] in E; [injection E as <- <- <-; apply news_refl|].
      destruct (eval c0 h) as [[r0 h2] q0] eqn:E0. pose proof (ND _ _ _ _ _ (or_introl eq_refl) E0) as N0. cbn [flat_map].
      destruct r0, q0; cbn [negb orb] in E; try (injection E as <- <- <-; apply news_more; exact N0).
      eapply news_trans; [exact N0|]. apply IHcs; [|exact E]. intros c1 h0 r1 h3 q1 I. exact (ND c1 h0 r1 h3 q1 (or_intror I)).
    - revert h E. generalize false. induction cs as [|c0 cs IHcs]; intros d h E; cbn [comma_loop] in E; [injection E as <- <- <-; apply news_refl|].
      destruct (eval c0 h) as [[r0 h2] q0] eqn:E0. pose proof (ND _ _ _ _ _ (or_introl eq_refl) E0) as N0. cbn [flat_map].
      destruct q0; [injection E as <- <- <-; apply news_more; exact N0|].
      eapply news_trans; [exact N0|]. apply (IHcs (fun c1 h0 r1 h3 q1 I => ND c1 h0 r1 h3 q1 (or_intror I)) r0 h2 E).
  Qed.

  Lemma may_quit_action l : is_action l = false -> may_quit l = false.
  Proof. destruct l; cbn; congruence. Qed.

  (** -exclude *)
  Lemma exclude_quiet e : Forall (fun l => is_action l = false) (leaves e) -> forall h r h1 q, eval e h = (r, h1, q) ->
    q = false /\ exists n, h1 = n ++ h /\ Forall (fun l => is_action l = false) n.
  Proof.
    intros Q h r h1 q E. destruct (eval_news e h r h1 q E) as (n & -> & A & B & _). rewrite Forall_forall in Q. split.
    - destruct q; [|reflexivity]. destruct (B eq_refl) as (l & X & Y). rewrite (may_quit_action l (Q l (A l X))) in Y. discriminate.
    - exists n. split; [reflexivity|]. apply Forall_forall. intros l X. exact (Q l (A l X)).
  Qed.

  Lemma no_actions n : Forall (fun l => is_action l = false) n -> filter is_action (rev n) = [].
  Proof.
    intros Q. assert (X : Forall (fun l => is_action l = false) (rev n)) by (apply Forall_rev; exact Q).
    induction X as [|l n' A _ IH]; [reflexivity|]. cbn [filter]. rewrite A. exact IH.
  Qed.

  Lemma after_plain h act : Forall (fun l => is_action l = false) h -> action_after b h act = act.
  Proof. induction 1 as [|l h A _ IH]; [reflexivity|]. destruct l; cbn [action_after is_action] in *; auto; discriminate. Qed.

  Lemma prune_does h : existsb pruning h = true <-> In LPrune (filter is_action (rev h)).
  Proof.
    rewrite existsb_exists, filter_In, <- in_rev. split.
    - intros (l & I & E). destruct l; try discriminate. auto.
    - intros (I & _). exists LPrune. auto.
  Qed.
End Eval.

(** ** The optimized command line *)
Section Optimized.
  Context {F : Type}.
  Variable fo : float_ops F.
  Variables (level : nat) (udb gdb : Z -> option bool) (f : OptSpec.file) (u : size_unit) (b : behaviour).
  Variable c : OptModel.ctx F.
  Hypothesis f_wf : wf_file f.
  Hypothesis f_about : about f b.
  Hypothesis opt : optimizable level udb gdb f u c.
  Hypothesis wx : wf (c_exclude c).
  Hypothesis we : wf (c_expr c).
  Hypothesis quiet : Forall (fun l => is_action l = false) (leaves (c_exclude c)).
  Hypothesis hmin : (0 <= c_mindepth c <= INT_MAX)%Z.
  Hypothesis hmax : (0 <= c_maxdepth c <= INT_MAX)%Z.
  Notation c' := (bfs_optimize fo level udb gdb c).

  Lemma quiet_q h r h1 q : eval level b (c_exclude c) h = (r, h1, q) -> q = false.
  Proof. intros E. apply (exclude_quiet level b _ quiet _ _ _ _ E). Qed.

  Lemma same_visit h : visit_file level b c' (OptSpec.f_depth f) h = visit_file level b c (OptSpec.f_depth f) h.
  Proof.
    destruct opt as [L | (M1 & M2)].
    - apply bfs_optimize_O1; auto. exact quiet_q.
    - apply (visit_partial F fo level udb gdb f u b); auto. exact quiet_q.
  Qed.

  Lemma optimized :
    (forall h r h1 q, eval level b (c_exclude c) h = (r, h1, q) -> eval level b (c_exclude c') h = (r, h1, q)) /\
    (c_mindepth c <= c_mindepth c' <= INT_MAX)%Z /\
    ((0 <= c_maxdepth c' <= c_maxdepth c)%Z \/ (c_maxdepth c' < 0)%Z /\ forall h, exists r, eval level b (c_expr c') h = (r, h, false)).
  Proof.
    destruct (le_lt_dec level 1) as [L | L].
    - unfold bfs_optimize.
      destruct (optimize fo level udb gdb false df_top df_bottom (c_exclude c)) as [[x' [xt xf]] imp] eqn:Ex.
      match goal with |- context [optimize fo level udb gdb true ?d imp (c_expr c)] => set (bf := d) end.
      destruct (optimize fo level udb gdb true bf imp (c_expr c)) as [[e' s'] imp'] eqn:Ee.
      assert (L2 : Nat.leb 2 level = false) by (apply Nat.leb_gt; lia).
      assert (L4 : Nat.leb 4 level = false) by (apply Nat.leb_gt; lia).
      rewrite L2, L4. cbn [andb c_exclude c_expr c_mindepth c_maxdepth]. split; [|split; [lia|left; lia]].
      intros h r h1 q E. destruct (optimize_equiv fo level b L _ _ _ _ _ _ _ _ _ wx Ex _ _ _ _ E) as (r' & E' & R).
      rewrite E'. rewrite (R eq_refl (quiet_q _ _ _ _ E)). reflexivity.
    - destruct opt as [L' | (M1 & M2)]; [lia|]. unfold bfs_optimize.
      destruct (optimize_sound fo level L udb gdb f u b f_wf f_about false df_top df_bottom (c_exclude c) wx M1 bounded_top bounded_bottom)
        as (x' & [xt xf] & imp & Ex & Bx & HI & _ & Sx).
      rewrite Ex. cbn [fst snd] in *.
      set (d0 := ranges xf DEPTH).
      set (d1 := if (0 <? c_mindepth c)%Z then constrain_min d0 (c_mindepth c) else d0).
      set (d2 := if (c_maxdepth c <? INT_MAX)%Z then constrain_max d1 (c_maxdepth c) else d1).
      set (before := set_range xf DEPTH d2).
      assert (Bxf : bounded xf) by apply Bx.
      assert (HB : bounded before).
      { assert (W0 : OptDomain.within d0 d0) by (apply within_refl; exact Bxf).
        assert (I1 : int64 (c_mindepth c)) by (unfold int64; unfold INT_MAX in *; lia).
        assert (I2 : int64 (c_maxdepth c)) by (unfold int64; unfold INT_MAX in *; lia).
        assert (W1 : OptDomain.within d1 d0) by (unfold d1; case (0 <? c_mindepth c)%Z; [apply within_min; assumption|exact W0]).
        assert (W2 : OptDomain.within d2 d1).
        { unfold d2. apply within_self in W1. case (c_maxdepth c <? INT_MAX)%Z; [apply within_max; assumption|exact W1]. }
        apply (within_below xf xf DEPTH d2 Bxf (leb_refl _)). eapply within_trans; eassumption. }
      destruct (optimize_sound fo level L udb gdb f u b f_wf f_about true before imp (c_expr c) we M2 HB HI)
        as (e' & s & imp' & Ee & _ & HI' & Nd & Se).
      rewrite Ee. destruct s as [st sf]. cbn [c_exclude c_expr c_mindepth c_maxdepth].
      set (mind := rmin (ranges imp' DEPTH)). set (maxd := rmax (ranges imp' DEPTH)).
      destruct (bounded_range imp' DEPTH HI') as [R1 R2]. fold mind in R1. fold maxd in R2. split; [|split].
      + intros h r h1 q E. destruct (Sx (sat_top level L udb gdb f u f_wf) _ _ _ _ E) as (r' & E' & R & _).
        rewrite E'. destruct (R eq_refl (quiet_q _ _ _ _ E)) as [-> _]. reflexivity.
      + destruct (Nat.leb 2 level && (c_mindepth c <? mind)%Z) eqn:X; [|lia]. apply andb_true_iff in X. destruct X as [_ X]. apply Z.ltb_lt in X. lia.
      + destruct (Nat.leb 4 level && (maxd <? c_maxdepth c)%Z) eqn:X; [|left; lia]. apply andb_true_iff in X. destruct X as [_ X]. apply Z.ltb_lt in X.
        destruct (Z.ltb_spec maxd 0) as [N | N]; [right|left; unfold INT_MIN; lia]. split; [unfold INT_MIN; lia|]. exact (Nd N).
  Qed.
End Optimized.

(** ** The search *)
Section Search.
  Context {F : Type}.
  Variable fo : float_ops F.
  Variables (level : nat) (udb gdb : Z -> option bool) (u : size_unit).
  Variable st : strategy.
  Variable w : env (list effect).
  Variable c : OptModel.ctx F.
  Variable xargs : bool.
  Variable beh : pos -> behaviour.
  Variable type_at : pos -> ftype.
  Variable info_at : pos -> OptSpec.file.
  Hypothesis nm : named w.
  Hypothesis recover : fl_recover w = true.
  Hypothesis mounts : fl_prune_mounts w = true -> fl_post_order w = true -> st = SIds.
  Hypothesis still : forall n p, look w n p = type_at p.
  Notation c' := (bfs_optimize fo level udb gdb c).
  Hypothesis wx : wf (c_exclude c).
  Hypothesis we : wf (c_expr c).
  Hypothesis quiet : Forall (fun l => is_action l = false) (leaves (c_exclude c)).
  Hypothesis hmin : (0 <= c_mindepth c <= INT_MAX)%Z.
  Hypothesis hmax : (0 <= c_maxdepth c <= INT_MAX)%Z.
  Hypothesis known : forall p, node_at w p <> None ->
    wf_file (info_at p) /\ OptSpec.f_depth (info_at p) = depth p /\ about (info_at p) (beh p) /\ optimizable level udb gdb (info_at p) u c.

  Notation excluded := (excluded level c beh).
  Notation unsafe := (unsafe w xargs).
  Notation dropped := (dropped w type_at level c xargs beh).
  Notation does := (does level c beh).
  Notation within := (within c).
  Notation quits := (quits level c beh).
  Notation opened := (opened w type_at level c xargs beh).
  Notation skip := (skip w).
  Notation other_fs := (other_fs w).
  Notation selected := (selected w type_at level c xargs beh).
  Notation effects_of := (effects_of w level c beh).
  Notation mn := (c_mindepth c').
  Notation mx := (c_maxdepth c').

  (** *** One file *)
  Section File.
    Variable p : pos.
    Hypothesis np : node_at w p <> None.

    Lemma p_depth : (0 <= depth p < 2 ^ 31)%Z.
    Proof. destruct (known p np) as (W & D & _). rewrite <- D. apply W. Qed.

    Lemma p_opt :
      (forall h r h1 q, eval level (beh p) (c_exclude c) h = (r, h1, q) -> eval level (beh p) (c_exclude c') h = (r, h1, q)) /\
      (c_mindepth c <= mn <= INT_MAX)%Z /\
      ((0 <= mx <= c_maxdepth c)%Z \/ (mx < 0)%Z /\ forall h, exists r, eval level (beh p) (c_expr c') h = (r, h, false)).
    Proof. destruct (known p np) as (W & D & A & O). apply (optimized fo level udb gdb (info_at p) u (beh p) c W A O wx we quiet hmin hmax). Qed.

    Lemma p_visit : visit_file level (beh p) c' (depth p) [] = visit_file level (beh p) c (depth p) [].
    Proof. destruct (known p np) as (W & D & A & O). rewrite <- D. apply (same_visit fo level udb gdb (info_at p) u (beh p) c W A O wx we quiet hmin hmax). Qed.

    Lemma p_exclude : exists h0, Forall (fun l => is_action l = false) h0 /\
      eval level (beh p) (c_exclude c) [] = (fst (run_exclude level c' beh p), h0, false) /\
      snd (run_exclude level c' beh p) = h0 /\ eval level (beh p) (c_exclude c') [] = (fst (run_exclude level c' beh p), h0, false).
    Proof.
      destruct (eval level (beh p) (c_exclude c) []) as [[r h0] q] eqn:E. destruct (exclude_quiet level (beh p) _ quiet _ _ _ _ E) as (-> & n & X & Q).
      rewrite app_nil_r in X. subst n. destruct p_opt as (S1 & _). unfold run_exclude. rewrite (S1 _ _ _ _ E). exists h0. auto.
    Qed.

    Lemma p_excluded : fst (run_exclude level c' beh p) = true <-> excluded p.
    Proof.
      destruct p_exclude as (h0 & _ & E & _). unfold SearchSpec.excluded. rewrite E. split.
      - intros ->. eauto.
      - intros (h & q & X). congruence.
    Qed.

    (** Where the optimized expression is evaluated *)
    Lemma p_does : ~ excluded p -> (0 <= mx)%Z -> (mn <= depth p <= mx)%Z ->
      within p /\ filter is_action (rev (run_expr level c' beh p)) = does p /\
      ((quits p /\ does p <> [] /\ forall a, action_after (beh p) (run_expr level c' beh p) a = CbModel.Stop) \/
       (~ quits p /\ In LPrune (does p) /\ forall a, action_after (beh p) (run_expr level c' beh p) a = CbModel.Prune) \/
       (~ quits p /\ ~ In LPrune (does p) /\ forall a, action_after (beh p) (run_expr level c' beh p) a = a)).
    Proof.
      intros NE M0 B. destruct p_opt as (_ & B1 & B2). pose proof p_depth as PD. destruct B2 as [B2 | (B2 & _)]; [|lia].
      assert (WI : within p) by (unfold SearchSpec.within; lia). split; [exact WI|].
      destruct p_exclude as (h0 & Q & E & S0 & E'). pose proof p_visit as V. unfold visit_file in V. rewrite E, E' in V.
      destruct (fst (run_exclude level c' beh p)) eqn:X; [destruct (NE (proj1 p_excluded X))|].
      unfold SearchSpec.within in WI. unfold INT_MAX in *. rewrite !Z.mod_small in V by lia.
      replace ((mn <=? depth p)%Z && (depth p <=? mx)%Z) with true in V by lia.
      replace ((c_mindepth c <=? depth p)%Z && (depth p <=? c_maxdepth c)%Z) with true in V by lia.
      unfold run_expr, SearchSpec.does. change acts with is_action. rewrite S0, E.
      destruct (eval level (beh p) (c_expr c') h0) as [[r1 h1] q1] eqn:E1. destruct (eval level (beh p) (c_expr c) h0) as [[r2 h2] q2] eqn:E2.
      injection V as <- <-. split; [reflexivity|]. destruct (eval_news level (beh p) _ _ _ _ _ E2) as (n & -> & A & QT & AC).
      assert (X0 : filter is_action (rev (n ++ h0)) = filter is_action (rev n)) by (rewrite rev_app_distr, filter_app, (no_actions h0 Q); reflexivity). rewrite X0.
      unfold SearchSpec.quits. rewrite E, E2. destruct q1.
      - left. split; [reflexivity|]. split; [|intros a; apply AC]. intros Z. destruct (QT eq_refl) as (l & I & ML).
        assert (J : In l (filter is_action (rev n))). { apply filter_In. rewrite <- in_rev. split; [exact I|]. destruct l; cbn in ML |- *; congruence. }
        rewrite Z in J. destruct J.
      - right. rewrite <- prune_does. destruct (existsb pruning n); [left|right]; (split; [discriminate|]; split; [congruence|]; intros a; rewrite AC; [reflexivity || (rewrite after_plain by exact Q; reflexivity)]).
    Qed.

    (** Where it is not, it would do nothing. *)
    Lemma does_nil : ~ excluded p -> within p -> (mx < 0)%Z \/ ~ (mn <= depth p <= mx)%Z -> does p = [].
    Proof.
      intros NE WI O. destruct p_opt as (_ & B1 & B2). pose proof p_depth as PD.
      destruct p_exclude as (h0 & Q & E & S0 & E'). pose proof p_visit as V. unfold visit_file in V. rewrite E, E' in V.
      destruct (fst (run_exclude level c' beh p)) eqn:X; [destruct (NE (proj1 p_excluded X))|].
      unfold SearchSpec.within in WI. unfold INT_MAX in *. rewrite (Z.mod_small (c_mindepth c)), (Z.mod_small (c_maxdepth c)), (Z.mod_small mn) in V by lia.
      replace ((c_mindepth c <=? depth p)%Z && (depth p <=? c_maxdepth c)%Z) with true in V by lia.
      unfold SearchSpec.does. rewrite E. destruct (eval level (beh p) (c_expr c) h0) as [[r2 h2] q2] eqn:E2.
      assert (H : h2 = h0).
      { destruct B2 as [B2 | (B2 & PU)].
        - rewrite (Z.mod_small mx) in V by lia. replace ((mn <=? depth p)%Z && (depth p <=? mx)%Z) with false in V by lia. congruence.
        - destruct ((mn <=? depth p)%Z && (depth p <=? mx mod 2 ^ 64)%Z); [|congruence]. destruct (PU h0) as (r1 & E1). rewrite E1 in V. congruence. }
      subst h2. apply no_actions. exact Q.
    Qed.
  End File.

  (** *** One call of the callback *)
  Lemma special_same b : CbModel.unsafe_char b = CbSpec.xargs_special b.
  Proof. destruct b; reflexivity. Qed.

  Notation call := (file_callback level c' xargs (fl_post_order w) st beh).
  Definition eff (e : event) : list effect := snd (call e).
  Definition act (e : event) : action := fst (call e).

  (** The visit in which the file at [p] is evaluated *)
  Definition expected (p : pos) : visit :=
    if fl_post_order w && (is_ids st || match type_at p with BFS_DIR => true | _ => false end) && (depth p <? mx)%Z then BFTW_POST else BFTW_PRE.

  Lemma error_call e : e_type e = BFS_ERROR -> act e = BFTW_PRUNE /\ eff e = [].
  Proof. intros T. unfold act, eff, file_callback, cb_file. rewrite T. split; reflexivity. Qed.

  Section Call.
    Variable e : event.
    Let p := e_pos e.
    Hypothesis ok : event_ok w e.
    Hypothesis ty : e_type e = type_at p.

    Lemma np_ok : node_at w p <> None.
    Proof. apply ok. Qed.

    Lemma d_ok : Z.of_nat (e_depth e) = depth p.
    Proof.
      destruct ok as (N & D & _). unfold depth. rewrite D. fold p. destruct p eqn:X; [destruct (N ltac:(subst p; rewrite X; reflexivity))|]. cbn [length]. lia.
    Qed.

    Lemma drop_call : dropped p -> act e = BFTW_PRUNE /\ eff e = [].
    Proof.
      intros D. destruct (e_type e) eqn:T; [exact (error_call e T)| |].
      all: unfold act, eff, file_callback, cb_file; rewrite T; cbn [CbModel.is_error]; unfold CbModel.eval_file; cbn [CbModel.exclude cb_world].
      all: fold p; destruct (fst (run_exclude level c' beh p)) eqn:X; [split; reflexivity|].
      all: cbn [CbModel.xargs_safe cb_ctx CbModel.f_path].
      all: replace (xargs && existsb CbModel.unsafe_char (e_path e)) with true; [split; reflexivity|].
      all: symmetry; destruct D as [D | [D | (D1 & b & I & S1)]]; [congruence|apply p_excluded in D; [congruence|apply np_ok]|].
      all: rewrite D1; cbn [andb]; apply existsb_exists; exists b; rewrite special_same; split; [|exact S1].
      all: destruct ok as (_ & _ & P & _); rewrite P; exact I.
    Qed.

    Lemma keep_call : ~ dropped p -> exists o a, CbModel.eval_file (cb_ctx c' xargs (fl_post_order w) st) (cb_file e) (cb_world level c' beh p) = (o, a) /\
      act e = to_action a /\ eff e = match o with CbModel.Evaluated => map (fun l => (p, e_path e, l)) (filter is_action (rev (run_expr level c' beh p))) | _ => [] end /\
      (o, a) =
        let a0 := if (mx <? 0)%Z || (CbModel.size_t mx <=? N.of_nat (e_depth e))%N then CbModel.Prune else CbModel.Continue in
        let ex := if fl_post_order w && (is_ids st || match e_type e with BFS_DIR => true | _ => false end) && (N.of_nat (e_depth e) <? CbModel.size_t mx)%N then CbModel.Post else CbModel.Pre in
        if (match of_visit (e_visit e), ex with CbModel.Pre, CbModel.Pre => true | CbModel.Post, CbModel.Post => true | _, _ => false end)
           && (CbModel.size_t mn <=? N.of_nat (e_depth e))%N && (N.of_nat (e_depth e) <=? CbModel.size_t mx)%N
        then (CbModel.Evaluated, action_after (beh p) (run_expr level c' beh p) a0) else (CbModel.Skipped, a0).
    Proof.
      intros ND. destruct (CbModel.eval_file _ _ _) as (o & a) eqn:E. exists o, a. split; [reflexivity|].
      assert (T : CbModel.is_error (cb_file e) = false).
      { unfold cb_file. destruct (e_type e) eqn:T; [|reflexivity|reflexivity]. exfalso. apply ND. left. congruence. }
      split; [unfold act, file_callback; rewrite T; fold p; rewrite E; reflexivity|].
      split; [unfold eff, file_callback; rewrite T; fold p; rewrite E; destruct o; reflexivity|].
      rewrite <- E. unfold CbModel.eval_file. cbn [CbModel.exclude cb_world].
      destruct (fst (run_exclude level c' beh p)) eqn:X.
      { exfalso. apply ND. right. left. apply p_excluded; [apply np_ok|exact X]. }
      cbn [CbModel.xargs_safe cb_ctx CbModel.f_path cb_file CbModel.maxdepth CbModel.mindepth CbModel.f_depth CbModel.post_order CbModel.ids CbModel.is_dir CbModel.f_visit CbModel.expr cb_world].
      destruct (xargs && existsb CbModel.unsafe_char (e_path e)) eqn:Y.
      { exfalso. apply ND. right. right. apply andb_true_iff in Y as (Y1 & Y2). split; [exact Y1|]. apply existsb_exists in Y2 as (b & I & S1).
        exists b. rewrite <- special_same. split; [|exact S1]. destruct ok as (_ & _ & P & _). unfold p. rewrite <- P. exact I. }
      reflexivity.
    Qed.

    Lemma shallow_call : ~ dropped p -> (mx < 0)%Z -> act e = BFTW_PRUNE /\ eff e = [].
    Proof.
      intros ND M. destruct (keep_call ND) as (o & a & _ & A & B & C). cbv zeta in C. replace (mx <? 0)%Z with true in C by lia. cbn [orb] in C.
      assert (PU : filter is_action (rev (run_expr level c' beh p)) = [] /\ Forall (fun l => is_action l = false) (run_expr level c' beh p)).
      { destruct (p_opt p np_ok) as (_ & _ & [O | (_ & O)]); [lia|]. destruct (p_exclude p np_ok) as (h0 & Q & _ & S0 & _).
        unfold run_expr. rewrite S0. destruct (O h0) as (r & ->). split; [apply no_actions; exact Q|exact Q]. }
      destruct PU as (P1 & P2). rewrite A, B. rewrite after_plain in C by exact P2.
      destruct (_ && _ && _) in C; injection C as -> ->; [rewrite P1|]; split; reflexivity.
    Qed.

    Lemma normal_call : ~ dropped p -> (0 <= mx)%Z ->
      (e_visit e = expected p /\ (mn <= depth p <= mx)%Z /\ within p /\ eff e = effects_of p /\
         ((quits p /\ does p <> [] /\ act e = BFTW_STOP) \/ (~ quits p /\ In LPrune (does p) /\ act e = BFTW_PRUNE) \/ (~ quits p /\ ~ In LPrune (does p) /\ act e = if (depth p <? mx)%Z then BFTW_CONTINUE else BFTW_PRUNE))) \/
      (~ (e_visit e = expected p /\ (mn <= depth p <= mx)%Z) /\ eff e = [] /\ act e = if (depth p <? mx)%Z then BFTW_CONTINUE else BFTW_PRUNE).
    Proof.
      intros ND M. destruct (keep_call ND) as (o & a & _ & A & B & C). cbv zeta in C. pose proof d_ok as DO. pose proof (p_depth p np_ok) as PD.
      destruct (p_opt p np_ok) as (_ & B1 & [B2 | (B2 & _)]); [|lia]. unfold INT_MAX in *.
      assert (X1 : forall z, (0 <= z < 2 ^ 31)%Z -> (CbModel.size_t z <=? N.of_nat (e_depth e))%N = (z <=? depth p)%Z) by (intros z Z1; unfold CbModel.size_t; rewrite Z.mod_small by lia; lia).
      assert (X2 : (N.of_nat (e_depth e) <=? CbModel.size_t mx)%N = (depth p <=? mx)%Z) by (unfold CbModel.size_t; rewrite Z.mod_small by lia; lia).
      assert (X3 : (N.of_nat (e_depth e) <? CbModel.size_t mx)%N = (depth p <? mx)%Z) by (unfold CbModel.size_t; rewrite Z.mod_small by lia; lia).
      rewrite X2, X3, !X1 in C by lia. replace (mx <? 0)%Z with false in C by lia. cbn [orb] in C. rewrite ty in C.
      assert (X4 : (match of_visit (e_visit e), (if fl_post_order w && (is_ids st || match type_at p with BFS_DIR => true | _ => false end) && (depth p <? mx)%Z then CbModel.Post else CbModel.Pre) with
        CbModel.Pre, CbModel.Pre => true | CbModel.Post, CbModel.Post => true | _, _ => false end) = true <-> e_visit e = expected p).
      { unfold expected. destruct (fl_post_order w && (is_ids st || match type_at p with BFS_DIR => true | _ => false end) && (depth p <? mx)%Z), (e_visit e); cbn [of_visit]; split; congruence. }
      assert (X5 : to_action (if (mx <=? depth p)%Z then CbModel.Prune else CbModel.Continue) = if (depth p <? mx)%Z then BFTW_CONTINUE else BFTW_PRUNE).
      { destruct (Z.leb_spec mx (depth p)), (Z.ltb_spec (depth p) mx); try lia; reflexivity. }
      destruct (match of_visit (e_visit e) with CbModel.Pre => _ | CbModel.Post => _ end) eqn:V in C; cbn [andb] in C.
      - destruct ((mn <=? depth p)%Z && (depth p <=? mx)%Z) eqn:R in C.
        + left. split; [apply X4; exact V|]. assert (RG : (mn <= depth p <= mx)%Z) by lia. split; [exact RG|].
          destruct (p_does p np_ok (fun Z => ND (or_intror (or_introl Z))) M RG) as (WI & DO2 & NQ). split; [exact WI|].
          injection C as -> ->. rewrite A, B, DO2. split.
          { unfold SearchSpec.effects_of. apply map_ext. intros l. destruct ok as (_ & _ & P & _). rewrite P. reflexivity. }
          destruct NQ as [(Q1 & Q2 & Q3) | [(Q1 & Q2 & Q3) | (Q1 & Q2 & Q3)]]; rewrite Q3; [left; auto|right; left; auto|right; right; auto].
        + right. split; [intros (_ & Z); lia|]. injection C as -> ->. rewrite A, B. split; [reflexivity|exact X5].
      - right. split; [intros (Z & _); apply X4 in Z; rewrite V in Z; discriminate|]. injection C as -> ->. rewrite A, B. split; [reflexivity|exact X5].
    Qed.
  End Call.

  Lemma dropped_dec p : node_at w p <> None -> dropped p \/ ~ dropped p.
  Proof.
    intros N. destruct (type_at p) eqn:X; [left; left; exact X| |].
    all: destruct (fst (run_exclude level c' beh p)) eqn:Y; [left; right; left; apply p_excluded; [exact N|exact Y]|].
    all: destruct xargs eqn:XA; [|right; intros [Z | [Z | (Z & _)]]; [congruence|apply p_excluded in Z; [congruence|exact N]|discriminate]].
    all: destruct (existsb CbSpec.xargs_special (path_at w p)) eqn:V.
    all: try (left; right; right; split; [reflexivity|]; apply existsb_exists in V; exact V).
    all: right; intros [Z | [Z | (_ & Z)]]; [congruence|apply p_excluded in Z; [congruence|exact N]|].
    all: apply existsb_exists in Z; congruence.
  Qed.

  Lemma stop_call e : event_ok w e -> e_type e = type_at (e_pos e) \/ e_type e = BFS_ERROR -> act e = BFTW_STOP <-> eff e <> [] /\ quits (e_pos e).
  Proof.
    intros O [T | T].
    - destruct (dropped_dec (e_pos e) (proj1 O)) as [D | D]; [destruct (drop_call e O T D) as (-> & ->); split; [discriminate|tauto]|].
      destruct (Z.ltb_spec mx 0) as [M | M]; [destruct (shallow_call e O T D M) as (-> & ->); split; [discriminate|tauto]|].
      destruct (normal_call e O T D M) as [(_ & _ & _ & -> & [(Q & NE & ->) | [(Q & _ & ->) | (Q & _ & ->)]]) | (_ & -> & ->)].
      + split; [|reflexivity]. intros _. split; [|exact Q]. unfold SearchSpec.effects_of. intros Z. apply map_eq_nil in Z. exact (NE Z).
      + split; [discriminate|tauto].
      + split; [destruct (_ <? _)%Z; discriminate|tauto].
      + split; [destruct (_ <? _)%Z; discriminate|tauto].
    - destruct (error_call e T) as (-> & ->). split; [discriminate|tauto].
  Qed.

  (** An effect happens in one call only. *)
  Lemma eff_call e : event_ok w e -> e_type e = type_at (e_pos e) \/ e_type e = BFS_ERROR -> eff e <> [] ->
    e_type e = type_at (e_pos e) /\ ~ dropped (e_pos e) /\ (0 <= mx)%Z /\ e_visit e = expected (e_pos e) /\ (mn <= depth (e_pos e) <= mx)%Z /\
    within (e_pos e) /\ eff e = effects_of (e_pos e).
  Proof.
    intros O TT NE. destruct TT as [T | T]; [|destruct (NE (proj2 (error_call e T)))].
    assert (D : ~ dropped (e_pos e)) by (intros D; destruct (NE (proj2 (drop_call e O T D)))).
    assert (M : (0 <= mx)%Z). { destruct (Z.ltb_spec mx 0) as [M | M]; [|exact M]. destruct (NE (proj2 (shallow_call e O T D M))). }
    destruct (normal_call e O T D M) as [(V & B & WI & E & _) | (_ & Z & _)]; [|destruct (NE Z)].
    split; [exact T|]. split; [exact D|]. split; [exact M|]. auto.
  Qed.

  (** *** The trace *)
  Lemma trace_types l : in_order w l -> forall e a, In (e, a) l ->
    e_type e = type_at (e_pos e) \/ (e_type e = BFS_ERROR /\ e_visit e = BFTW_PRE).
  Proof.
    induction 1 as [|e0 a0 l O IH _ _ _ _ TY _ _]; intros e a I; [destruct I|]. destruct I as [E | I]; [|exact (IH e a I)].
    injection E as <- <-. destruct TY as [(n & T) | (T & _ & V & _)]; [left; rewrite T; apply still|right; auto].
  Qed.

  Definition nonempty {A} (l : list A) : bool := match l with [] => false | _ => true end.
  (** The files that something was done with, in this order *)
  Fixpoint acted (l : list (event * action)) : list pos :=
    match l with [] => [] | (e, _) :: l => acted l ++ (if nonempty (eff e) then [e_pos e] else []) end.

  Lemma in_acted l p : In p (acted l) <-> exists e a, In (e, a) l /\ e_pos e = p /\ eff e <> [].
  Proof.
    induction l as [|(e & a) l IH]; cbn [acted]; [split; [intros []|intros (? & ? & [] & _)]|]. rewrite in_app_iff, IH. split.
    - intros [(e1 & a1 & I & X) | I]; [exists e1, a1; split; [right; exact I|exact X]|]. exists e, a. split; [left; reflexivity|].
      destruct (eff e); cbn in I; [destruct I|]. destruct I as [I | []]. split; [exact I|discriminate].
    - intros (e1 & a1 & [E | I] & P & N).
      + injection E as -> ->. right. destruct (eff e1); [destruct (N eq_refl)|left; exact P].
      + left. exists e1, a1. auto.
  Qed.

  Definition typed (l : list (event * action)) : Prop := Forall (fun x => e_type (fst x) = type_at (e_pos (fst x)) \/ e_type (fst x) = BFS_ERROR) l.
  Lemma order_typed l : in_order w l -> typed l.
  Proof. intros O. apply Forall_forall. intros (e & a) I. destruct (trace_types l O e a I) as [Z | (Z & _)]; auto. Qed.

  Lemma acted_once l : in_order w l -> Forall (fun x => event_ok w (fst x)) l -> NoDup (acted l).
  Proof.
    induction 1 as [|e a l O IH _ LA _ FI TY PO _]; intros OK; [constructor|]. inversion OK as [|? ? O1 O2]; subst. cbn [fst] in O1. cbn [acted].
    destruct (eff e) as [|x0 r0] eqn:E; cbn [nonempty]; [rewrite app_nil_r; exact (IH O2)|].
    assert (NE : eff e <> []) by (rewrite E; discriminate).
    assert (TT : e_type e = type_at (e_pos e) \/ e_type e = BFS_ERROR) by (destruct TY as [(n & T) | (T & _)]; [left; rewrite T; apply still|auto]).
    destruct (eff_call e O1 TT NE) as (T & ND & M & V & B & WI & _).
    apply (Permutation_NoDup (Permutation_cons_append (acted l) (e_pos e))). constructor; [|exact (IH O2)]. intros I. apply in_acted in I as (e1 & a1 & I1 & P1 & N1).
    assert (OK1 : event_ok w e1) by (rewrite Forall_forall in O2; exact (O2 _ I1)).
    assert (TT1 : e_type e1 = type_at (e_pos e1) \/ e_type e1 = BFS_ERROR) by (destruct (trace_types l O e1 a1 I1) as [Z | (Z & _)]; auto).
    destruct (eff_call e1 OK1 TT1 N1) as (_ & _ & _ & V1 & _). rewrite P1 in V1.
    destruct (expected (e_pos e)) eqn:X.
    - destruct (FI V) as [Z | (Z & _)].
      + assert (J : In (e1, a1) (visits_of (e_pos e) l)) by (apply in_visits; auto). rewrite Z in J. destruct J.
      + apply ND. left. congruence.
    - exact (LA (e1, a1) [] (e_pos e) I1 V1 eq_refl P1).
  Qed.

  Lemma acted_sorted (R : pos -> pos -> Prop) l : fl_post_order w = false -> in_order w l -> Forall (fun x => event_ok w (fst x)) l ->
    StronglySorted R (first_visits l) -> StronglySorted R (acted l) /\ incl (acted l) (first_visits l).
  Proof.
    intros NP. induction 1 as [|e a l O IH _ LA _ FI TY PO _]; intros OK SS; [split; [constructor|intros x []]|].
    inversion OK as [|? ? O1 O2]; subst. cbn [fst] in O1. cbn [acted first_visits] in *.
    assert (TT : e_type e = type_at (e_pos e) \/ e_type e = BFS_ERROR) by (destruct TY as [(n & T) | (T & _)]; [left; rewrite T; apply still|auto]).
    assert (V : e_visit e = BFTW_PRE) by (destruct (e_visit e); [reflexivity|rewrite (proj1 (PO eq_refl)) in NP; discriminate]).
    destruct (existsb (fun x => same_pos (e_pos (fst x)) (e_pos e)) l) eqn:EX.
    - assert (Z : eff e = []).
      { destruct (FI V) as [Z | (Z & _)]; [|apply (error_call e Z)]. exfalso. apply existsb_exists in EX as (x & I & S1).
        unfold same_pos in S1. destruct (list_eq_dec Nat.eq_dec (e_pos (fst x)) (e_pos e)) as [Q | _]; [|discriminate].
        assert (J : In x (visits_of (e_pos e) l)) by (apply in_visits; auto). rewrite Z in J. destruct J. }
      rewrite Z. cbn [nonempty]. rewrite app_nil_r. exact (IH O2 SS).
    - apply ss_app in SS as (S1 & S2 & S3). destruct (IH O2 S1) as (A & B). destruct (nonempty (eff e)).
      + split; [apply ss_app; split; [exact A|split; [exact S2|]]|apply incl_app; [apply incl_appl; exact B|apply incl_appr, incl_refl]].
        intros x y I J. apply S3; [apply B; exact I|exact J].
      + rewrite app_nil_r. split; [exact A|apply incl_appl; exact B].
  Qed.

  Lemma nodes_above r : forall q, node_at w (r ++ q) <> None -> q <> [] -> node_at w q <> None.
  Proof.
    induction r as [|k r IH]; intros q N NQ; [exact N|]. apply IH; [|exact NQ]. cbn [app node_at] in N.
    destruct (r ++ q) as [|j s] eqn:X; [destruct r; [cbn in X; congruence|discriminate]|].
    cbn [kids_at node_at] in *. destruct (nth_error (kids_at w s) j); [discriminate|]. destruct k; destruct (N eq_refl).
  Qed.

  Lemma skip_iff p : skipped w p = false <-> ~ skip p.
  Proof.
    unfold skipped, SearchSpec.skip, mount_point. destruct (fl_skip_mounts w); [|split; [intros _ (Z & _); discriminate|reflexivity]].
    destruct p as [|k [|j q]]; cbn [andb length]; [split; [intros _ (_ & Z & _); lia|reflexivity]..|].
    split; [intros Z (_ & _ & Y); congruence|]. intros Z. destruct (mounted w (k :: j :: q)); [|reflexivity]. destruct Z. split; [reflexivity|]. split; [lia|reflexivity].
  Qed.
  Lemma fs_iff p : fl_prune_mounts w && mount_point w p = false <-> ~ other_fs p.
  Proof.
    unfold SearchSpec.other_fs, mount_point. destruct (fl_prune_mounts w); [|split; [intros _ (Z & _); discriminate|reflexivity]].
    destruct p as [|k [|j q]]; cbn [andb length]; [split; [intros _ (_ & Z & _); lia|reflexivity]..|].
    split; [intros Z (_ & _ & Y); congruence|]. intros Z. destruct (mounted w (k :: j :: q)); [|reflexivity]. destruct Z. split; [reflexivity|]. split; [lia|reflexivity].
  Qed.
  Lemma not_skipped l : in_order w l -> forall e a, In (e, a) l -> ~ skip (e_pos e).
  Proof.
    induction 1 as [|e0 a0 l O IH _ _ _ _ _ _ SK]; intros e a I; [destruct I|]. destruct I as [E | I]; [|exact (IH e a I)].
    injection E as <- <-. apply skip_iff, SK.
  Qed.

  (** Without -depth, it comes before. *)
  Lemma acted_below l : fl_post_order w = false -> in_order w l -> Forall (fun x => event_ok w (fst x)) l -> StronglySorted (fun x y => forall r, x <> r ++ y) (acted l).
  Proof.
    intros NP. induction 1 as [|e a l O IH _ LA _ FI TY PO _]; intros OK; [constructor|]. inversion OK as [|? ? O1 O2]; subst. cbn [fst] in O1. cbn [acted].
    destruct (eff e) as [|x0 r0] eqn:E; cbn [nonempty]; [rewrite app_nil_r; exact (IH O2)|].
    assert (NE : eff e <> []) by (rewrite E; discriminate). apply ss_app. split; [exact (IH O2)|]. split; [constructor; constructor|]. intros p y I [<- | []] r EQ.
    apply in_acted in I as (e1 & a1 & I1 & P1 & N1). assert (V : e_visit e = BFTW_PRE) by (destruct (e_visit e); [reflexivity|rewrite (proj1 (PO eq_refl)) in NP; discriminate]).
    assert (J : exists x, In x (visits_of (e_pos e) l)).
    { destruct r as [|k r]; [exists (e1, a1); apply in_visits; split; [exact I1|cbn [fst]; rewrite P1; exact EQ]|]. destruct (in_split _ _ I1) as (l1 & l2 & S1). rewrite S1 in O.
      assert (NN : e_pos e <> []) by (intros Z; apply (proj1 O1); rewrite Z; reflexivity).
      destruct (parents_first w (k :: r) (e_pos e) l2 e1 a1 l1 O ltac:(rewrite P1; exact EQ) ltac:(discriminate) NN) as (x & I2 & P2 & _). exists x. apply in_visits. split; [|exact P2]. rewrite S1. apply in_or_app. right. right. exact I2. }
    destruct J as (x & J). destruct (FI V) as [Z | (Z & _)]; [rewrite Z in J; destruct J|]. apply NE. apply (error_call e Z).
  Qed.

  Lemma late p : expected p = BFTW_POST -> fl_post_order w = true /\ (depth p < mx)%Z /\ (is_ids st = true \/ type_at p = BFS_DIR).
  Proof.
    unfold expected. destruct (fl_post_order w && _ && _) eqn:Y; [intros _|discriminate]. apply andb_true_iff in Y as (Y & Y3). apply andb_true_iff in Y as (Y1 & Y2). apply orb_true_iff in Y2.
    split; [exact Y1|]. split; [apply Z.ltb_lt; exact Y3|]. destruct Y2 as [Y2 | Y2]; [left; exact Y2|right]. destruct (type_at p); try discriminate; reflexivity.
  Qed.

  Section Complete.
    Variable tr : list (event * action).
    Hypothesis tr_order : in_order w tr.
    Hypothesis tr_ok : Forall (fun x => event_ok w (fst x)) tr.
    Hypothesis tr_acts : Forall (fun x => snd x = act (fst x)) tr.
    Lemma tr_event e a : In (e, a) tr -> event_ok w e /\ (e_type e = type_at (e_pos e) \/ e_type e = BFS_ERROR) /\ a = act e.
    Proof.
      intros I. pose proof tr_ok as OK. rewrite Forall_forall in OK. split; [exact (OK _ I)|]. split.
      - destruct (trace_types tr tr_order e a I) as [Z | (Z & _)]; auto.
      - pose proof tr_acts as A. rewrite Forall_forall in A. exact (A _ I).
    Qed.

    Lemma entered_deep q : entered w q tr -> type_at q = BFS_DIR /\ (depth q < mx)%Z.
    Proof.
      intros ((e & a) & I & P & V & T & A & FS). cbn [fst] in P. destruct (tr_event e a I) as (O & _ & AE). rewrite AE in A.
      destruct (trace_types tr tr_order e _ I) as [TT | (TT & _)]; [|congruence]. subst q. split; [congruence|].
      assert (D : ~ dropped (e_pos e)) by (intros D; destruct (drop_call e O TT D) as (Z & _); congruence).
      assert (M : (0 <= mx)%Z). { destruct (Z.ltb_spec mx 0) as [M | M]; [|exact M]. destruct (shallow_call e O TT D M); congruence. }
      destruct (Z.ltb_spec (depth (e_pos e)) mx) as [Z | Z]; [exact Z|]. exfalso.
      destruct (normal_call e O TT D M) as [(_ & _ & _ & _ & [(_ & _ & X) | [(_ & _ & X) | (_ & _ & X)]]) | (_ & _ & X)]; rewrite X in A; [discriminate|discriminate| |];
        (destruct (Z.ltb_spec (depth (e_pos e)) mx); [lia|discriminate]).
    Qed.

    (** A directory that was entered should have been. *)
    Lemma entered_opened q : entered w q tr -> opened q.
    Proof.
      intros ((e & a) & I & P & V & T & A & FS). cbn [fst] in P. destruct (tr_event e a I) as (O & _ & AE). rewrite AE in A.
      destruct (trace_types tr tr_order e _ I) as [TT | (TT & _)]; [|congruence].
      assert (D : ~ dropped (e_pos e)) by (intros D; destruct (drop_call e O TT D) as (Z & _); congruence).
      assert (M : (0 <= mx)%Z). { destruct (Z.ltb_spec mx 0) as [M | M]; [|exact M]. destruct (shallow_call e O TT D M); congruence. }
      destruct (p_opt (e_pos e) (proj1 O)) as (_ & B1 & [B2 | (B2 & _)]); [|lia]. subst q.
      assert (DM : (depth (e_pos e) < mx)%Z).
      { destruct (Z.ltb_spec (depth (e_pos e)) mx) as [Z | Z]; [exact Z|]. exfalso.
        destruct (normal_call e O TT D M) as [(_ & _ & _ & _ & [(_ & _ & X) | [(_ & _ & X) | (_ & _ & X)]]) | (_ & _ & X)]; rewrite X in A; [discriminate|discriminate| |];
          (destruct (Z.ltb_spec (depth (e_pos e)) mx); [lia|discriminate]). }
      split; [exact D|]. split; [exact (not_skipped tr tr_order e a I)|]. split; [apply fs_iff; exact FS|]. split; [congruence|]. split; [lia|]. intros NP WI IP.
      destruct (normal_call e O TT D M) as [(_ & _ & _ & _ & [(_ & _ & X) | [(_ & _ & X) | (_ & X & _)]]) | (X & _)]; [congruence|congruence|tauto|].
      destruct (Z.leb_spec mn (depth (e_pos e))) as [Z | Z].
      - apply X. split; [|lia]. unfold expected. rewrite NP. exact V.
      - rewrite (does_nil (e_pos e) (proj1 O)) in IP; [exact IP|exact (fun Z => D (or_intror (or_introl Z)))|exact WI|right; lia].
    Qed.

    (** With -depth, a directory comes after everything in it. *)
    Lemma acted_contents l : fl_post_order w = true -> incl l tr -> in_order w l -> StronglySorted (fun x y => forall r, y <> r ++ x) (acted l).
    Proof.
      intros PO. induction l as [|(e & a) l IH]; intros IN O; [constructor|]. cbn [acted]. pose proof O as O0. inversion O as [|? ? ? O' _ LA _ FI TY _ _]; subst.
      specialize (IH (fun x I => IN x (or_intror I)) O'). destruct (eff e) as [|x0 r0] eqn:E; cbn [nonempty]; [rewrite app_nil_r; exact IH|].
      assert (NE : eff e <> []) by (rewrite E; discriminate). apply ss_app. split; [exact IH|]. split; [constructor; constructor|]. intros p y I [<- | []] r EQ.
      apply in_acted in I as (e1 & a1 & I1 & P1 & N1). destruct (tr_event e1 a1 (IN _ (or_intror I1))) as (OK1 & TT1 & _). destruct (eff_call e1 OK1 TT1 N1) as (_ & _ & _ & V1 & _).
      destruct (tr_event e a (IN _ (or_introl eq_refl))) as (OK0 & TT0 & _). destruct (eff_call e OK0 TT0 NE) as (T & ND & _ & V & _).
      destruct (expected p) eqn:X; rewrite P1, X in V1; [|exact (LA (e1, a1) r p I1 V1 EQ P1)].
      destruct r as [|k r].
      - cbn [app] in EQ. rewrite EQ, X in V. destruct (FI V) as [Z | (Z & _)].
        + rewrite EQ in Z. assert (J : In (e1, a1) (visits_of p l)) by (apply in_visits; auto). rewrite Z in J. destruct J.
        + apply ND. left. congruence.
      - assert (NP : p <> []) by (intros ->; apply (proj1 OK1); rewrite P1; reflexivity).
        destruct (parents_first w (k :: r) p l e a [] O0 EQ ltac:(discriminate) NP) as (x & I2 & Y).
        destruct (entered_deep p) as (TP & DM); [exists x; split; [exact (IN _ (or_intror I2))|exact Y]|].
        unfold expected in X. rewrite PO, TP, orb_true_r in X. apply Z.ltb_lt in DM. rewrite DM in X. discriminate.
    Qed.

    Lemma acted_selected p : In p (acted tr) -> selected p /\ does p <> [].
    Proof.
      intros I. apply in_acted in I as (e & a & I & P & N). destruct (tr_event e a I) as (O & TT & _).
      destruct (eff_call e O TT N) as (T & D & M & V & B & WI & E). subst p. split.
      - split; [apply O|]. split; [exact D|]. split; [exact (not_skipped tr tr_order e a I)|]. split; [exact WI|]. intros r q X NR NQ. apply entered_opened.
        destruct (in_split _ _ I) as (l1 & l2 & S1). pose proof tr_order as OR. rewrite S1 in OR.
        destruct (parents_first w r q l2 e a l1 OR X NR NQ) as (x & I2 & Y). exists x. split; [|exact Y]. rewrite S1. apply in_or_app. right. right. exact I2.
      - intros Z. apply N. rewrite E. unfold SearchSpec.effects_of. rewrite Z. reflexivity.
    Qed.

    Hypothesis firsts : forall p, reached w p (rev tr) /\ skipped w p = false -> exists e a rest, visits_of p (rev tr) = (e, a) :: rest /\ e_visit e = BFTW_PRE.
    Hypothesis lasts : forall x, In x tr -> snd x <> BFTW_STOP.

    Lemma first_visit p : reached w p (rev tr) -> ~ skip p -> exists e a rest, visits_of p (rev tr) = (e, a) :: rest /\ In (e, a) tr /\ e_pos e = p /\ e_visit e = BFTW_PRE /\
      e_type e = type_at p /\ a = act e /\ event_ok w e.
    Proof.
      intros R SK. destruct (firsts p (conj R (proj2 (skip_iff p) SK))) as (e & a & rest & EQ & V).
      assert (I : In (e, a) (visits_of p (rev tr))) by (rewrite EQ; left; reflexivity). apply in_visits in I as (I & P). rewrite <- in_rev in I. cbn [fst] in P.
      destruct (tr_event e a I) as (O & _ & AE). exists e, a, rest. split; [exact EQ|]. split; [exact I|]. split; [exact P|]. split; [exact V|]. split; [|auto].
      destruct (first_type w p tr e a rest tr_order EQ) as (n & T). rewrite T. apply still.
    Qed.

    Lemma continues e : act e <> BFTW_STOP -> event_ok w e -> e_type e = type_at (e_pos e) -> e_visit e = BFTW_PRE -> ~ dropped (e_pos e) -> (depth (e_pos e) < mx)%Z ->
      (type_at (e_pos e) = BFS_DIR) -> (fl_post_order w = false -> within (e_pos e) -> ~ In LPrune (does (e_pos e))) -> act e = BFTW_CONTINUE.
    Proof.
      intros NS O T V D DM DI PR. assert (LT : (depth (e_pos e) <? mx)%Z = true) by (apply Z.ltb_lt; exact DM).
      pose proof (p_depth (e_pos e) (proj1 O)) as PD.
      destruct (normal_call e O T D ltac:(lia)) as [(V1 & _ & WI & _ & [(_ & _ & X) | [(_ & X & _) | (_ & _ & X)]]) | (_ & _ & X)]; [destruct (NS X)| |rewrite LT in X; exact X|rewrite LT in X; exact X].
      exfalso. destruct (fl_post_order w) eqn:PO; [|exact (PR eq_refl WI X)].
      unfold expected in V1. rewrite PO, DI, LT, orb_true_r in V1. cbn in V1. congruence.
    Qed.

    Lemma goes_on e a : In (e, a) tr -> act e <> BFTW_STOP.
    Proof.
      intros I. destruct (tr_event e a I) as (_ & _ & <-). exact (lasts _ I).
    Qed.

    Lemma selected_seen p : selected p -> does p <> [] -> ~ dropped p /\ (0 <= mx)%Z /\ (mn <= depth p <= mx)%Z /\
      (forall e2, event_ok w e2 -> e_pos e2 = p -> e_type e2 = type_at p -> e_visit e2 = expected p -> eff e2 <> []) /\
      exists e a rest, visits_of p (rev tr) = (e, a) :: rest /\ In (e, a) tr /\ e_pos e = p /\ e_visit e = BFTW_PRE /\ e_type e = type_at p /\ event_ok w e /\
        (expected p = BFTW_POST -> type_at p = BFS_DIR -> a = BFTW_CONTINUE).
    Proof.
      intros (N & D & SK & WI & UP) NE.
      assert (NX : ~ excluded p) by (intros Z; apply D; right; left; exact Z).
      assert (M : (0 <= mx)%Z /\ (mn <= depth p <= mx)%Z).
      { destruct (Z.ltb_spec mx 0) as [M | M]; [destruct (NE (does_nil p N NX WI (or_introl M)))|]. split; [exact M|].
        destruct ((mn <=? depth p)%Z && (depth p <=? mx)%Z) eqn:C; [lia|]. assert (C2 : ~ (mn <= depth p <= mx)%Z) by lia. destruct (NE (does_nil p N NX WI (or_intror C2))). }
      destruct M as (M & B).
      assert (RE : forall q r, p = r ++ q -> q <> [] -> reached w q (rev tr)).
      { induction q as [|k q IH]; intros r E NQ; [destruct (NQ eq_refl)|]. cbn [reached].
        assert (NK : node_at w (k :: q) <> None) by (apply (nodes_above r); [rewrite <- E; exact N|discriminate]).
        split; [exact NK|]. destruct q as [|j q]; [left; reflexivity|right].
        assert (E2 : p = (r ++ [k]) ++ j :: q) by (rewrite <- app_assoc; exact E).
        assert (R := IH (r ++ [k]) E2 ltac:(discriminate)).
        assert (NR : r ++ [k] <> []) by (destruct r; discriminate). destruct (UP _ _ E2 NR ltac:(discriminate)) as (D1 & SK1 & FS & DI & DM & PR).
        destruct (first_visit _ R SK1) as (e & a & rest & EQ & I & P & V & T & AE & O).
        assert (DL : (depth (j :: q) < mx)%Z).
        { assert (L : length p = length r + 1 + length (j :: q)) by (rewrite E2, !app_length; cbn [length]; lia). unfold depth in *. lia. }
        exists (e, a). split; [rewrite <- in_rev; exact I|]. split; [exact P|]. cbn [enters].
        split; [exact V|]. split; [congruence|]. split; [|rewrite P; apply fs_iff; exact FS]. assert (GO := goes_on e a I). subst a. apply continues; rewrite ?P; auto. }
      assert (NP : p <> []) by (intros ->; exact (N eq_refl)).
      destruct (first_visit p (RE p [] eq_refl NP) SK) as (e & a & rest & EQ & I & P & V & T & AE & O).
      split; [exact D|]. split; [exact M|]. split; [exact B|]. split.
      - intros e2 O2 P2 T2 V2. rewrite <- P2 in *. destruct (normal_call e2 O2 T2 D M) as [(_ & _ & _ & X & _) | (X & _)]; [|destruct X; auto].
        rewrite X. unfold SearchSpec.effects_of. intros Z. apply map_eq_nil in Z. exact (NE Z).
      - exists e, a, rest. split; [exact EQ|]. split; [exact I|]. split; [exact P|]. split; [exact V|]. split; [exact T|]. split; [exact O|]. intros X TP.
        destruct (late p X) as (PO & DM & _). assert (GO := goes_on e a I). subst a. apply continues; rewrite ?P; auto; congruence.
    Qed.

    Hypothesis walked : is_ids st = false.
    Hypothesis right : forall p, visited_right w p (rev tr).
    Lemma selected_acted p : selected p -> does p <> [] -> In p (acted tr).
    Proof.
      intros S NE. destruct (selected_seen p S NE) as (D & M & B & EF & e & a & rest & EQ & I & P & V & T & O & CO).
      apply in_acted. destruct (expected p) eqn:X.
      - exists e, a. split; [exact I|]. split; [exact P|]. apply EF; auto.
      - destruct (late p X) as (PO & DM & [Z | TP]); [congruence|].
        assert (EE : enters w (e, a)).
        { cbn [enters]. split; [exact V|]. split; [congruence|]. split; [exact (CO eq_refl TP)|]. destruct (fl_prune_mounts w) eqn:FP; [|reflexivity]. rewrite (mounts eq_refl PO) in walked. discriminate. }
        destruct (right p) as (A & _). destruct S as (N & _ & SK & _).
        assert (R : reached w p (rev tr) /\ skipped w p = false).
        { split; [|apply skip_iff; exact SK]. destruct (reached_dec w p (rev tr)) as [R | R]; [exact R|]. exfalso. destruct (right p) as (_ & Z). rewrite Z in EQ; [discriminate|tauto]. }
        destruct (A R) as (e' & a' & rest' & EQ' & _ & EN & _). rewrite EQ in EQ'. injection EQ' as <- <- <-.
        destruct (EN EE) as (er & po & RS & _ & POS). rewrite PO in POS. destruct POS as (e2 & a2 & -> & V2).
        assert (I2 : In (e2, a2) (visits_of p (rev tr))) by (rewrite EQ, RS; right; apply in_or_app; right; left; reflexivity).
        apply in_visits in I2 as (I2 & P2). rewrite <- in_rev in I2. cbn [fst] in P2. exists e2, a2. split; [exact I2|]. split; [exact P2|].
        destruct (tr_event e2 a2 I2) as (O2 & _). apply EF; auto.
        destruct (trace_types tr tr_order e2 a2 I2) as [Z | (_ & Z)]; congruence.
    Qed.
  End Complete.

  (** Only the last effects are those of a file that quits. *)
  Lemma acted_last l : typed l -> Forall (fun x => event_ok w (fst x)) l -> Forall (fun x => snd x = act (fst x)) l ->
    ((forall x, In x l -> snd x <> BFTW_STOP) -> forall p, In p (acted l) -> ~ quits p) /\
    ((forall x, In x (tl l) -> snd x <> BFTW_STOP) -> (exists x, In x l /\ snd x = BFTW_STOP) -> exists l' p, acted l = l' ++ [p] /\ quits p /\ forall q, In q l' -> ~ quits q).
  Proof.
    assert (G : forall l, typed l -> Forall (fun x => event_ok w (fst x)) l -> Forall (fun x => snd x = act (fst x)) l -> (forall x, In x l -> snd x <> BFTW_STOP) -> forall p, In p (acted l) -> ~ quits p).
    { intros l0 O OK AC NS p I Q. apply in_acted in I as (e & a & I & P & N). unfold typed in O. rewrite Forall_forall in AC, OK, O. apply (NS _ I). rewrite (AC _ I). cbn [fst].
      apply stop_call; [exact (OK _ I)|exact (O _ I)|]. subst p. auto. }
    intros O OK AC. split; [exact (G l O OK AC)|]. intros NS (x & I & SX). destruct l as [|(e & a) l]; [destruct I|]. cbn [tl] in NS.
    inversion O as [|? ? TT O']; subst. inversion OK as [|? ? O1 O2]; subst. inversion AC as [|? ? A1 A2]; subst. cbn [fst snd] in *.
    destruct I as [<- | I]; [|destruct (NS x I SX)]. cbn [snd] in SX.
    assert (SC := proj1 (stop_call e O1 TT)). rewrite <- A1 in SC. destruct (SC SX) as (N & Q). exists (acted l), (e_pos e). cbn [acted].
    destruct (eff e); [destruct (N eq_refl)|]. split; [reflexivity|]. split; [exact Q|]. exact (G l O' O2 A2 NS).
  Qed.

  (** A search with one walk *)
  Definition result (ok : bool) (l : list pos) : Prop := NoDup l /\ (forall p, In p l -> selected p /\ does p <> []) /\
      (if ok then forall p, (selected p -> does p <> [] -> In p l) /\ (In p l -> ~ quits p)
       else exists l' p, l = l' ++ [p] /\ quits p /\ forall q, In q l' -> ~ quits q) /\ sequence w st l.

  Lemma searched_walk ok s : st = SBfs \/ st = SDfs -> BftwProofs.walked w [] ok s -> Forall (fun x => snd x = act (fst x)) (trace s) -> result ok (acted (trace s)).
  Proof.
    intros HO K AC. assert (NI : is_ids st = false) by (destruct HO as [Z | Z]; rewrite Z; reflexivity).
    pose proof (wk_order _ _ _ _ K) as R. pose proof (wk_ok _ _ _ _ K) as O. pose proof (wk_result _ _ _ _ K) as RES.
    destruct (acted_last (trace s) (order_typed _ R) O AC) as (L1 & L2).
    unfold result. split; [apply acted_once; assumption|].
    split; [intros p; exact (acted_selected (trace s) R O AC p)|]. split.
    - destruct ok.
      + destruct RES as ((_ & NS) & VR). intros p. split; [|apply L1; exact NS].
        apply (selected_acted (trace s) R O AC); [|exact NS|exact NI|exact VR]. intros q Q. destruct (VR q) as (A & _). destruct (A Q) as (e & a & rest & X & Y & _). exists e, a, rest. auto.
      + destruct RES as [(_ & Z) | Z]; [congruence|]. apply L2; [|exact Z]. destruct R as [|e a l _ _ _ NS]; [intros x []|exact NS].
    - constructor.
      + destruct (bool_dec (fl_post_order w) true) as [PO | PO]; [rewrite PO|apply not_true_is_false in PO; rewrite PO]; [apply (acted_contents (trace s) R O AC _ PO (incl_refl _) R)|exact (acted_below _ PO R O)].
      + intros IS. rewrite IS in HO. destruct HO; discriminate.
      + intros IS. rewrite IS in HO. destruct HO; discriminate.
      + intros _ SO TP NP. apply (acted_sorted _ (trace s) NP R O). assert (X := wk_sorted _ _ _ _ K SO TP). unfold in_place. destruct (not_bfs w); exact X.
  Qed.

  (** *** Deepening *)
  Lemma acted_app a b : acted (a ++ b) = acted b ++ acted a.
  Proof. induction a as [|(e & x) a IH]; [symmetry; apply app_nil_r|]. cbn [app acted]. rewrite IH, app_assoc. reflexivity. Qed.
  Lemma ss_sub (R : pos -> pos -> Prop) l : StronglySorted R (places l) -> StronglySorted R (acted l) /\ incl (acted l) (places l).
  Proof.
    induction l as [|(e & a) l IH]; intros S; [split; [constructor|intros x []]|]. change ((e, a) :: l) with ([(e, a)] ++ l) in S |- *. rewrite places_app in S |- *. cbn [app acted]. apply ss_app in S as (S1 & S2 & S3).
    destruct (IH S1) as (A & B). destruct (eff e) as [|x0 r0] eqn:E; cbn [nonempty]; [rewrite app_nil_r; split; [exact A|apply incl_appl, B]|].
    assert (X : places [(e, a)] = [e_pos e]). { unfold places. cbn [filter fst]. destruct (e_type e) eqn:T; try reflexivity. destruct (error_call e T) as (_ & Z). congruence. }
    rewrite X in *. split; [apply ss_app; split; [exact A|split; [exact S2|]]; intros x y I; apply S3, B, I|]. apply incl_app; [apply incl_appl, B|apply incl_appr, incl_refl].
  Qed.
  Lemma nodup_sub l : NoDup (places l) -> NoDup (acted l).
  Proof.
    induction l as [|(e & a) l IH]; intros S; [constructor|]. change ((e, a) :: l) with ([(e, a)] ++ l) in S. rewrite places_app in S. cbn [acted].
    assert (ND : NoDup (places l)) by (clear -S; induction (places l) as [|x m IHm]; [constructor|cbn [app] in S; inversion S as [|? ? S1 S2]; subst; constructor; [intros Z; apply S1, in_or_app; auto|exact (IHm S2)]]). specialize (IH ND). destruct (eff e) as [|x0 r0] eqn:E; cbn [nonempty]; [rewrite app_nil_r; exact IH|].
    assert (X : places [(e, a)] = [e_pos e]). { unfold places. cbn [filter fst]. destruct (e_type e) eqn:T; try reflexivity. destruct (error_call e T) as (_ & Z). congruence. }
    rewrite X in S. apply (Permutation_NoDup (Permutation_cons_append (acted l) (e_pos e))). constructor; [|exact IH]. intros I.
    apply (Permutation_NoDup (Permutation_sym (Permutation_cons_append (places l) (e_pos e)))) in S. inversion S as [|? ? N _]; subst. apply N.
    apply in_acted in I as (e1 & a1 & I1 & P1 & N1). apply in_places. exists (e1, a1). split; [exact I1|]. split; [exact P1|]. cbn [fst]. intros T. destruct (error_call e1 T) as (_ & Z). congruence.
  Qed.
  Lemma ss_weak (R R' : pos -> pos -> Prop) l : (forall x y, In x l -> In y l -> R x y -> R' x y) -> StronglySorted R l -> StronglySorted R' l.
  Proof.
    intros H S. induction S as [|x l S IH FA]; constructor.
    - apply IH. intros a b IA IB. apply H; right; assumption.
    - rewrite Forall_forall in *. intros y I. apply H; [left; reflexivity|right; exact I|exact (FA y I)].
  Qed.
  Lemma ss_nodup (R R' : pos -> pos -> Prop) l : (forall x y, In x l -> In y l -> x <> y -> R x y -> R' x y) -> NoDup l -> StronglySorted R l -> StronglySorted R' l.
  Proof.
    intros H N S. induction S as [|x l S IH FA]; constructor; inversion N as [|? ? N1 N2]; subst.
    - apply IH; [|exact N2]. intros a b IA IB. apply H; right; assumption.
    - rewrite Forall_forall in *. intros y I. apply H; [left; reflexivity|right; exact I|intros ->; exact (N1 I)|exact (FA y I)].
  Qed.

  Section Deep.
    Variables (ok : bool) (pre post : list (event * action)).
    Hypothesis O : in_order (preorder w) pre.
    Hypothesis K : Forall (fun x => event_ok w (fst x)) pre.
    Hypothesis V : ok = true \/ post <> [] -> (forall p, visited_right (preorder w) p (rev pre)) /\ forall x, In x pre -> snd x <> BFTW_STOP.
    Hypothesis PP : fl_post_order w = false -> post = [].
    Hypothesis LS : lasts w type_at pre post.
    Hypothesis ALL : fl_post_order w = true -> ok = true -> forall p, kept p pre -> (is_ids st = false -> entered w p pre) -> In p (places post).
    Hypothesis GO : ok = true -> forall x, In x (post ++ pre) -> snd x <> BFTW_STOP.
    Hypothesis ST : ok = false -> exists x, In x (post ++ pre) /\ snd x = BFTW_STOP.
    Hypothesis CF : contents_first (places post).
    Hypothesis SI : st = SIds -> by_depth pre /\ deepest_first (places post).
    Hypothesis SE : st = SEds -> by_doublings pre.
    Hypothesis HO : ~ (st = SBfs \/ st = SDfs).

    Lemma pre_order : in_order w pre.
    Proof. clear -O. induction O as [|e a l O' IH A1 A2 A3 A4 A5 A6 A7]; [constructor|]. apply o_visit; [exact (IH O')|exact A1|exact A2|exact A3|exact A4|exact A5|intros Z; discriminate (proj1 (A6 Z))|exact A7]. Qed.
    Lemma pre_pre e a : In (e, a) pre -> e_visit e = BFTW_PRE.
    Proof. clear -O. induction O as [|e0 a0 l O' IH A1 A2 A3 A4 A5 A6 A7]; intros I; [destruct I|]. destruct I as [E | I]; [|exact (IH O' I)]. injection E as <- <-. destruct (e_visit e0); [reflexivity|discriminate (proj1 (A6 eq_refl))]. Qed.
    Lemma post_typed : typed post.
    Proof. eapply Forall_impl; [|exact (ls_types _ _ _ _ LS)]. intros x [X | (_ & X)]; auto. Qed.

    Lemma in_pre p : In p (acted pre) -> expected p = BFTW_PRE /\ (mn <= depth p <= mx)%Z.
    Proof.
      intros I. apply in_acted in I as (e & a & I & E & N). destruct (eff_call e) as (_ & _ & _ & X & B & _); [rewrite Forall_forall in K; exact (K _ I)|assert (TY := order_typed _ pre_order); unfold typed in TY; rewrite Forall_forall in TY; exact (TY _ I)|exact N|].
      rewrite E in *. rewrite <- X. split; [exact (pre_pre e a I)|exact B].
    Qed.
    Lemma in_post p : In p (acted post) -> expected p = BFTW_POST /\ (mn <= depth p <= mx)%Z /\ ~ dropped p /\ within p /\ does p <> [] /\ In p (places post).
    Proof.
      intros I. apply in_acted in I as (e & a & I & E & N). assert (OK := ls_ok _ _ _ _ LS). assert (TY := post_typed). assert (LT := ls_types _ _ _ _ LS). unfold typed in TY. rewrite Forall_forall in OK, TY, LT.
      destruct (eff_call e (OK _ I) (TY _ I) N) as (T & D & _ & X & B & WI & EF). assert (NE : e_type e <> BFS_ERROR) by (intros Z; apply D; left; congruence).
      destruct (LT _ I) as [Z | (Z & _)]; [destruct (NE Z)|]. cbn [fst] in Z. subst p. split; [congruence|]. split; [exact B|]. split; [exact D|]. split; [exact WI|]. split.
      - intros Y. apply N. rewrite EF. unfold SearchSpec.effects_of. rewrite Y. reflexivity.
      - apply in_places. exists (e, a). auto.
    Qed.
    Lemma kept_seen p : kept p pre -> node_at w p <> None /\ ~ skip p /\ forall r q, p = r ++ q -> r <> [] -> q <> [] -> entered w q pre.
    Proof.
      intros (e & a & I & E & _). subst p. assert (KK := K). rewrite Forall_forall in KK. split; [exact (proj1 (KK _ I))|]. split; [exact (not_skipped pre pre_order e a I)|].
      intros r q X NR NQ. destruct (in_split _ _ I) as (l1 & l2 & S1). pose proof pre_order as OR. rewrite S1 in OR.
      destruct (parents_first w r q l2 e a l1 OR X NR NQ) as (x & I2 & Y). exists x. split; [|exact Y]. rewrite S1. apply in_or_app. right. right. exact I2.
    Qed.

    Lemma deep_typed : typed (post ++ pre).
    Proof. apply Forall_app; split; [exact post_typed|exact (order_typed _ pre_order)]. Qed.
    Lemma deep_ok : Forall (fun x => event_ok w (fst x)) (post ++ pre).
    Proof. apply Forall_app; split; [exact (ls_ok _ _ _ _ LS)|exact K]. Qed.
    Lemma deep_once : NoDup (acted pre ++ acted post).
    Proof.
      assert (N1 := acted_once pre pre_order K). assert (N2 := nodup_sub post (ls_once _ _ _ _ LS)).
      assert (DJ : forall x, In x (acted pre) -> ~ In x (acted post)) by (intros x I1 I2; destruct (in_pre x I1), (in_post x I2) as (? & _); congruence).
      clear -N1 N2 DJ. induction N1 as [|x l NI N1 IH]; [exact N2|]. cbn [app]. constructor.
      - rewrite in_app_iff. intros [Z | Z]; [exact (NI Z)|exact (DJ x (or_introl eq_refl) Z)].
      - apply IH. intros y I. apply DJ. right. exact I.
    Qed.

    Hypothesis AC : Forall (fun x => snd x = act (fst x)) (post ++ pre).
    Lemma deepened : result ok (acted pre ++ acted post).
    Proof.
      assert (P' : Forall (fun x => snd x = act (fst x)) pre) by (apply Forall_app in AC as (_ & AC2); exact AC2).
      destruct (acted_last (post ++ pre) deep_typed deep_ok AC) as (L1 & L2). rewrite acted_app in L1, L2. assert (ND := deep_once).
      unfold result. split; [exact ND|]. split; [|split].
      - intros p I. apply in_app_iff in I as [I | I]; [exact (acted_selected pre pre_order K P' p I)|].
        destruct (in_post p I) as (_ & _ & D & WI & NE & IP). destruct (kept_seen p (ls_kept _ _ _ _ LS p IP)) as (N & SK & UP). split; [|exact NE]. split; [exact N|]. split; [exact D|]. split; [exact SK|]. split; [exact WI|].
        intros r q X NR NQ. apply (entered_opened pre pre_order K P'). exact (UP r q X NR NQ).
      - destruct (bool_dec ok true) as [Y | Y]; [|apply not_true_is_false in Y; rewrite Y; apply L2; [exact (ls_stop _ _ _ _ LS)|exact (ST Y)]]. rewrite Y.
        destruct (V (or_introl Y)) as (VR & NS). intros p. split.
        + intros SL NE.
          assert (FI : forall q, reached w q (rev pre) /\ skipped w q = false -> exists e a rest, visits_of q (rev pre) = (e, a) :: rest /\ e_visit e = BFTW_PRE).
          { intros q Q. destruct (VR q) as (A & _). destruct (A Q) as (e & a & rest & X1 & X2 & _). exists e, a, rest. auto. }
          destruct (selected_seen pre pre_order K P' FI NS p SL NE) as (D & M & B & EF & e & a & rest & EQ & I & PE & VE & T & OE & CO). apply in_app_iff. destruct (expected p) eqn:X.
          * left. apply in_acted. exists e, a. split; [exact I|]. split; [exact PE|]. apply EF; auto.
          * right. destruct (late p X) as (PO & DM & TP).
            assert (IP : In p (places post)).
            { apply (ALL PO Y).
              - exists e, a. split; [exact I|]. split; [exact PE|]. split; [intros Z; apply D; left; congruence|]. intros Z. apply (CO eq_refl). congruence.
              - intros NI. destruct TP as [TP | TP]; [congruence|]. exists (e, a). split; [exact I|]. split; [exact PE|]. cbn [enters]. split; [exact VE|]. split; [congruence|]. split; [exact (CO eq_refl TP)|].
                destruct (bool_dec (fl_prune_mounts w) true) as [Z | Z]; [rewrite (mounts Z PO) in NI; discriminate|]. apply not_true_is_false in Z. rewrite Z. reflexivity. }
            apply in_places in IP as ((e2 & a2) & I2 & P2 & T2). cbn [fst] in P2, T2. assert (OK := ls_ok _ _ _ _ LS). assert (LT := ls_types _ _ _ _ LS). rewrite Forall_forall in OK, LT.
            destruct (LT _ I2) as [Z | (Z & Z')]; [destruct (T2 Z)|]. cbn [fst] in Z, Z'. apply in_acted. exists e2, a2. split; [exact I2|]. split; [exact P2|]. apply EF; [exact (OK _ I2)|exact P2|congruence|exact Z].
        + intros I. apply L1; [exact (GO Y)|exact I].
      - destruct (bool_dec (fl_post_order w) true) as [PO | PO].
        + assert (DE : st = SIds -> StronglySorted (fun x y => depth y <= depth x)%Z (acted pre ++ acted post)).
          { intros IS. destruct (SI IS) as (_ & DF).
            assert (DP : forall p, In p (acted pre) -> (depth p = mx)%Z).
            { intros p I. destruct (in_pre p I) as (X & B). unfold expected in X. rewrite PO, IS in X. cbn [is_ids orb andb] in X. destruct (Z.ltb_spec (depth p) mx); [discriminate|lia]. }
            apply ss_app. split; [|split].
            - clear -DP. induction (acted pre) as [|x l IH]; constructor; [apply IH; intros p I; apply DP; right; exact I|]. apply Forall_forall. intros y I. rewrite (DP x (or_introl eq_refl)), (DP y (or_intror I)). lia.
            - destruct (ss_sub _ post DF) as (S1 & _). apply (ss_weak _ _ _) with (2 := S1). intros x y IX IY L. cbv beta in L. destruct (in_post x IX) as (_ & _ & _ & _ & _ & IP). destruct (kept_seen x (ls_kept _ _ _ _ LS x IP)) as (N & _). unfold depth. destruct x; [destruct (N eq_refl)|]. cbn [length] in *. lia.
            - intros x y IX IY. rewrite (DP x IX). destruct (in_post y IY) as (_ & B & _). lia. }
          assert (CO : StronglySorted (fun x y => forall r, y <> r ++ x) (acted pre ++ acted post)).
          { apply ss_app. split; [exact (acted_contents pre pre_order K P' pre PO (incl_refl _) pre_order)|]. split; [exact (proj1 (ss_sub _ post CF))|].
            intros x y IX IY r EQ. destruct (in_pre x IX) as (X & B). destruct (in_post y IY) as (X' & _ & _ & _ & _ & IP). destruct r as [|k r]; [cbn [app] in EQ; congruence|].
            destruct (kept_seen y (ls_kept _ _ _ _ LS y IP)) as (N & _ & UP). assert (NX : x <> []).
            { intros Z. apply in_acted in IX as (e & a & I & E & _). assert (KK := K). rewrite Forall_forall in KK. apply (proj1 (KK _ I)). cbn [fst]. rewrite E, Z. reflexivity. }
            destruct (entered_deep pre pre_order K P' x (UP (k :: r) x EQ ltac:(discriminate) NX)) as (TP & DM). apply Z.ltb_lt in DM.
            unfold expected in X. rewrite PO, TP, orb_true_r, DM in X. discriminate. }
          constructor; rewrite ?PO; [exact CO|exact DE|discriminate|tauto].
        + apply not_true_is_false in PO. assert (NP := PP PO).
          assert (AE : acted pre ++ acted post = acted pre) by (rewrite NP; apply app_nil_r). rewrite AE in *.
          assert (NN : forall p, In p (acted pre) -> p <> []).
          { intros p IX Z. apply in_acted in IX as (e & a & I & E & _). assert (KK := K). rewrite Forall_forall in KK. apply (proj1 (KK _ I)). cbn [fst]. rewrite E, Z. reflexivity. }
          constructor; rewrite ?PO; [exact (acted_below pre PO pre_order K)| | |tauto].
          * intros IS. destruct (acted_sorted _ pre PO pre_order K (proj1 (SI IS))) as (S1 & _). apply (ss_weak _ _ _) with (2 := S1). intros x y IX IY L. cbv beta in L.
            assert (X := NN x IX). assert (Y := NN y IY). unfold depth. destruct x, y; cbn [length] in *; try congruence. lia.
          * intros IS _. destruct (acted_sorted _ pre PO pre_order K (SE IS)) as (S1 & _). apply (ss_weak _ _ _) with (2 := S1). intros x y IX IY L. cbv beta in L. unfold depth.
            replace (Z.to_nat (Z.of_nat (length x) - 1)) with (length x - 1) by lia. replace (Z.to_nat (Z.of_nat (length y) - 1)) with (length y - 1) by lia. exact L.
    Qed.
  End Deep.

End Search.

(** ** -limit *)
Section Limits.
  Context {F : Type}.
  Variable level : nat.

  (** An evaluation is that without limits, or ends with a -limit. *)
  Definition cut (h : hist) (x x0 : ExprModel.outcome) : Prop :=
    x = x0 \/ exists l k n, is_limit l = true /\ snd (fst x) = l :: k ++ h /\ snd (fst x0) = n ++ l :: k ++ h /\ snd x = true.

  Section Two.
    Variables b b0 : behaviour.
    Hypothesis alike : forall l h, val b l h = val b0 l h.
    Hypothesis free : forall l h, lim b0 l h = false.

    Lemma cut_later h n1 x x0 : cut (n1 ++ h) x x0 -> cut h x x0.
    Proof. intros [E | (l & k & n & L & A & B & Q)]; [left; exact E|right]. exists l, (k ++ n1), n. rewrite <- app_assoc. auto. Qed.

    Lemma eval_cut (e : expr F) : forall h, cut h (eval level b e h) (eval level b0 e h).
    Proof.
      induction e as [a l|a o cs IH] using expr_ind'; intros h.
      - cbn [ExprModel.eval]. destruct l; cbn [eval_leaf]; rewrite ?alike, ?free; try (left; reflexivity).
        match goal with |- cut _ (_, _, lim b ?l ?h) _ => destruct (lim b l h); [|left; reflexivity]; right; exists l, [], [] end. auto.
      - assert (NE : forall (e : expr F) h r h1 q, eval level b0 e h = (r, h1, q) -> exists n, h1 = n ++ h).
        { intros e h0 r h1 q E. destruct (eval_news (F := F) level b0 e h0 r h1 q E) as (n & -> & _). exists n. reflexivity. }
        assert (ND : forall c0 h0, In c0 cs -> cut h0 (eval level b c0 h0) (eval level b0 c0 h0)).
        { intros c0 h0 I. rewrite Forall_forall in IH. exact (IH c0 I h0). }
        clear IH. destruct o; cbn [ExprModel.eval].
        + destruct cs as [|c0 cs]; [left; reflexivity|]. specialize (ND c0 h (or_introl eq_refl)).
          destruct (eval level b c0 h) as [[r1 h1] q1], (eval level b0 c0 h) as [[r2 h2] q2].
          destruct ND as [E | (l & k & n & L & A & B & Q)]; [injection E as -> -> ->; left; reflexivity|right]. exists l, k, n. auto.
        + revert h. induction cs as [|c0 cs IHcs]; intros h; cbn [and_loop]; [left; reflexivity|]. assert (N0 := ND c0 h (or_introl eq_refl)).
          specialize (IHcs (fun c1 h1 I => ND c1 h1 (or_intror I))). assert (NE0 := NE c0 h).
          destruct (eval level b c0 h) as [[r1 h1] q1], (eval level b0 c0 h) as [[r2 h2] q2].
          destruct (NE0 _ _ _ eq_refl) as (n0 & H2).
          destruct N0 as [E | (l & k & n & L & A & B & Q)].
          * injection E as -> -> ->. destruct (negb r2 || q2); [left; reflexivity|]. rewrite H2. apply cut_later with n0. apply IHcs.
          * cbn [fst snd] in A, B, Q. rewrite Q, orb_true_r. right. destruct (negb r2 || q2); [exists l, k, n; auto|].
            destruct (and_loop (eval level b0) cs h2) as [[r3 h3] q3] eqn:E3.
            destruct (eval_news (F := F) level b0 (ExprModel.Node a OAnd cs) h2 r3 h3 q3 E3) as (n3 & H3 & _). exists l, k, (n3 ++ n). rewrite <- app_assoc, <- B. auto.
        + revert h. induction cs as [|c0 cs IHcs]; intros h; cbn [or_loop]; [left; reflexivity|]. assert (N0 := ND c0 h (or_introl eq_refl)).
          specialize (IHcs (fun c1 h1 I => ND c1 h1 (or_intror I))). assert (NE0 := NE c0 h).
          destruct (eval level b c0 h) as [[r1 h1] q1], (eval level b0 c0 h) as [[r2 h2] q2].
          destruct (NE0 _ _ _ eq_refl) as (n0 & H2).
          destruct N0 as [E | (l & k & n & L & A & B & Q)].
          * injection E as -> -> ->. destruct (r2 || q2); [left; reflexivity|]. rewrite H2. apply cut_later with n0. apply IHcs.
          * cbn [fst snd] in A, B, Q. rewrite Q, orb_true_r. right. destruct (r2 || q2); [exists l, k, n; auto|].
            destruct (or_loop (eval level b0) cs h2) as [[r3 h3] q3] eqn:E3.
            destruct (eval_news (F := F) level b0 (ExprModel.Node a OOr cs) h2 r3 h3 q3 E3) as (n3 & H3 & _). exists l, k, (n3 ++ n). rewrite <- app_assoc, <- B. auto.
        + revert h. generalize false. induction cs as [|c0 cs IHcs]; intros d h; cbn [comma_loop]; [left; reflexivity|]. assert (N0 := ND c0 h (or_introl eq_refl)).
          specialize (IHcs (fun c1 h1 I => ND c1 h1 (or_intror I))). assert (NE0 := NE c0 h).
          destruct (eval level b c0 h) as [[r1 h1] q1], (eval level b0 c0 h) as [[r2 h2] q2].
          destruct (NE0 _ _ _ eq_refl) as (n0 & H2).
          destruct N0 as [E | (l & k & n & L & A & B & Q)].
          * injection E as -> -> ->. destruct q2; [left; reflexivity|]. rewrite H2. apply cut_later with n0. apply IHcs.
          * cbn [fst snd] in A, B, Q. rewrite Q. right. destruct q2; [exists l, k, n; auto|].
            assert (X : exists n3, snd (fst (comma_loop (eval level b0) r2 cs h2)) = n3 ++ h2).
            { clear -NE. revert r2 h2. induction cs as [|c0 cs IH]; intros r h; [exists []; reflexivity|]. cbn [comma_loop]. assert (N := NE c0 h). destruct (eval level b0 c0 h) as [[r1 h1] q].
              destruct (N _ _ _ eq_refl) as (n & ->). destruct q; [exists n; reflexivity|]. destruct (IH r1 (n ++ h)) as (m & E). exists (m ++ n). rewrite E. apply app_assoc. }
            destruct X as (n3 & H3). exists l, k, (n3 ++ n). split; [exact L|]. split; [exact A|]. split; [rewrite <- app_assoc, <- B; exact H3|reflexivity].
    Qed.
  End Two.

  (** Expressions without -limit *)
  Lemma eval_plain b b0 (e : expr F) : (forall l h, val b l h = val b0 l h) -> Forall (fun l => is_limit l = false) (leaves e) -> forall h, eval level b e h = eval level b0 e h.
  Proof.
    intros AL. assert (G : forall b1, (forall l h, val b1 l h = val b l h) -> Forall (fun l => is_limit l = false) (leaves e) -> forall h, eval level b1 e h = eval level (mkBehaviour (val b) (fun _ _ => false)) e h).
    { intros b1 A1 NL h. destruct (eval level b1 e h) as [[r h1] q] eqn:E.
      destruct (eval_cut b1 (mkBehaviour (val b) (fun _ _ => false)) A1 (fun _ _ => eq_refl) e h) as [Z | (l & k & n & L & A & _)]; [congruence|]. exfalso.
      destruct (eval_news level b1 e h r h1 q E) as (m & M & IN & _). rewrite E in A. cbn [fst snd] in A. rewrite M in A.
      change (l :: k ++ h) with ((l :: k) ++ h) in A. apply app_inv_tail in A. rewrite Forall_forall in NL. rewrite (NL l) in L; [discriminate|]. apply IN. rewrite A. left. reflexivity. }
    intros NL h. rewrite (G b (fun _ _ => eq_refl) NL), (G b0 (fun l h0 => eq_sym (AL l h0)) NL). reflexivity.
  Qed.
End Limits.

Section Extensional.
  Context {F : Type}.
  Variable level : nat.
  Variables b b' : behaviour.
  Hypothesis vals : forall l h, val b l h = val b' l h.
  Hypothesis lims : forall l h, lim b l h = lim b' l h.

  Lemma eval_ext (e : expr F) : forall h, eval level b e h = eval level b' e h.
  Proof.
    induction e as [a l|a o cs IH] using expr_ind'; intros h.
    - cbn [ExprModel.eval]. destruct l; cbn [eval_leaf]; rewrite ?vals, ?lims; reflexivity.
    - destruct o; cbn [ExprModel.eval].
      + destruct IH as [|c0 cs X _]; [reflexivity|]. rewrite X. reflexivity.
      + revert h. induction IH as [|c0 cs X _ IHcs]; intros h; cbn [and_loop]; [reflexivity|]. rewrite X. destruct (eval level b' c0 h) as [[r h1] q]. destruct (negb r || q); [reflexivity|apply IHcs].
      + revert h. induction IH as [|c0 cs X _ IHcs]; intros h; cbn [or_loop]; [reflexivity|]. rewrite X. destruct (eval level b' c0 h) as [[r h1] q]. destruct (r || q); [reflexivity|apply IHcs].
      + revert h. generalize false. induction IH as [|c0 cs X _ IHcs]; intros d h; cbn [comma_loop]; [reflexivity|]. rewrite X. destruct (eval level b' c0 h) as [[r h1] q]. destruct q; [reflexivity|apply IHcs].
  Qed.
  Lemma after_ext h a : action_after b h a = action_after b' h a.
  Proof. induction h as [|l h IH]; [reflexivity|]. destruct l; cbn [action_after]; rewrite ?lims, ?IH; reflexivity. Qed.
End Extensional.

Section Calls.
  Context {F : Type}.
  Variables (level : nat) (c : OptModel.ctx F) (xargs post : bool) (st : strategy).

  Lemma call_ext (b b' : pos -> behaviour) e : (forall l h, val (b (e_pos e)) l h = val (b' (e_pos e)) l h) -> (forall l h, lim (b (e_pos e)) l h = lim (b' (e_pos e)) l h) ->
    file_callback level c xargs post st b e = file_callback level c xargs post st b' e.
  Proof.
    intros V L. unfold file_callback. destruct (CbModel.is_error (cb_file e)); [reflexivity|]. set (p := e_pos e) in *.
    assert (RX : run_exclude level c b p = run_exclude level c b' p) by (unfold run_exclude; rewrite (eval_ext level _ _ V L); reflexivity).
    assert (RE : run_expr level c b p = run_expr level c b' p) by (unfold run_expr; rewrite (eval_ext level _ _ V L), RX; reflexivity).
    unfold CbModel.eval_file. cbn [CbModel.exclude CbModel.expr cb_world]. rewrite RX, RE.
    destruct (fst (run_exclude level c b' p)); [reflexivity|]. destruct (CbModel.xargs_safe _ && _); [reflexivity|]. cbv zeta.
    match goal with |- context [if ?x then (CbModel.Evaluated, _) else _] => destruct x end; [|reflexivity]. rewrite (after_ext _ _ L). reflexivity.
  Qed.
  Lemma call_local (b b' : pos -> behaviour) e : b (e_pos e) = b' (e_pos e) -> file_callback level c xargs post st b e = file_callback level c xargs post st b' e.
  Proof. intros E. apply call_ext; intros l h; rewrite E; reflexivity. Qed.

  Lemma counted beh v p l h : lim (counting beh v p) l h = lim (after beh v p) l h.
  Proof.
    destruct l; try reflexivity. cbn [lim counting after eval_limit]. unfold evaluations, times. f_equal.
    assert (X : length (filter (fun x : pos * list byte * leaf => is_evaluation id (snd x)) v) = length (filter (fun l => match l with LLimit i _ => Nat.eqb i id | _ => false end) (map snd v))).
    { induction v as [|x v IH]; [reflexivity|]. cbn [filter map]. change (is_evaluation id (snd x)) with (match snd x with LLimit i _ => Nat.eqb i id | _ => false end).
      destruct (match snd x with LLimit i _ => Nat.eqb i id | _ => false end); cbn [length]; rewrite IH; reflexivity. }
    rewrite X. change (filter (is_evaluation id) h) with (filter (fun l => match l with LLimit i _ => Nat.eqb i id | _ => false end) h). lia.
  Qed.
End Calls.

Section Limited.
  Context {F : Type}.
  Variable fo : float_ops F.
  Variables (level : nat) (udb gdb : Z -> option bool) (u : size_unit).
  Variable st : strategy.
  Variable w : env (list effect).
  Variable c : OptModel.ctx F.
  Variable xargs : bool.
  Variable beh : pos -> behaviour.
  Variable type_at : pos -> ftype.
  Variable info_at : pos -> OptSpec.file.
  Hypothesis nm : named w.
  Hypothesis recover : fl_recover w = true.
  Hypothesis mounts : fl_prune_mounts w = true -> fl_post_order w = true -> st = SIds.
  Hypothesis still : forall n p, look w n p = type_at p.
  Notation c' := (bfs_optimize fo level udb gdb c).
  Hypothesis cb : callback w = search_callback level c' xargs (fl_post_order w) st beh.
  Hypothesis wx : wf (c_exclude c).
  Hypothesis we : wf (c_expr c).
  Hypothesis quiet : Forall (fun l => is_action l = false) (leaves (c_exclude c)).
  Hypothesis hmin : (0 <= c_mindepth c <= INT_MAX)%Z.
  Hypothesis hmax : (0 <= c_maxdepth c <= INT_MAX)%Z.
  Definition knows (b : pos -> behaviour) : Prop := forall p, node_at w p <> None ->
    wf_file (info_at p) /\ OptSpec.f_depth (info_at p) = depth p /\ about (info_at p) (b p) /\ optimizable level udb gdb (info_at p) u c.
  Hypothesis known : knows beh.

  (** Behaviours that differ in limits only *)
  Definition like (b : pos -> behaviour) : Prop := forall p l h, val (b p) l h = val (beh p) l h.
  Notation free := (unlimited beh).
  Lemma like_free : like free.
  Proof. intros p l h. reflexivity. Qed.
  Lemma like_after v : like (after beh v).
  Proof. intros p l h. reflexivity. Qed.
  Lemma like_knows b : like b -> knows b.
  Proof. intros L p N. destruct (known p N) as (A & B & C & D). split; [exact A|]. split; [exact B|]. split; [|exact D]. intros l v h E. rewrite L. exact (C l v h E). Qed.

  Lemma no_limits : Forall (fun l => is_limit l = false) (leaves (c_exclude c)).
  Proof. eapply Forall_impl; [|exact quiet]. intros l. destruct l; cbn; congruence. Qed.
  Lemma excludes b p : like b -> eval level (b p) (c_exclude c) [] = eval level (free p) (c_exclude c) [].
  Proof. intros L. apply eval_plain; [|exact no_limits]. intros l h. apply L. Qed.

  Lemma run_excludes b p : like b -> node_at w p <> None -> run_exclude level c' b p = run_exclude level c' free p.
  Proof.
    intros L N. destruct (p_exclude fo level udb gdb u w c b info_at wx we quiet hmin hmax (like_knows b L) p N) as (h0 & _ & E1 & E2 & _).
    destruct (p_exclude fo level udb gdb u w c free info_at wx we quiet hmin hmax (like_knows free like_free) p N) as (h1 & _ & E3 & E4 & _).
    rewrite (excludes b p L), E3 in E1. destruct (run_exclude level c' b p), (run_exclude level c' free p). cbn [fst snd] in *. congruence.
  Qed.

  Lemma none_acting h : filter is_action (rev h) = [] <-> Forall (fun l => is_action l = false) h.
  Proof.
    split; [|apply no_actions]. intros E. apply Forall_forall. intros l I. destruct (is_action l) eqn:A; [|reflexivity]. exfalso.
    assert (J : In l (filter is_action (rev h))) by (apply filter_In; rewrite <- in_rev; auto). rewrite E in J. destruct J.
  Qed.
  Lemma limit_acts l h : In l h -> is_limit l = true -> filter is_action (rev h) <> [].
  Proof. intros I L E. apply none_acting in E. rewrite Forall_forall in E. specialize (E l I). destruct l; discriminate. Qed.

  Notation call b e := (file_callback level c' xargs (fl_post_order w) st b e).
  Notation eff b e := (eff fo level udb gdb st w c xargs b e).
  Notation act b e := (act fo level udb gdb st w c xargs b e).
  Notation acted b l := (acted fo level udb gdb st w c xargs b l).

  (** Whether something is done with a file does not depend on limits. *)
  Lemma call_quiet b e : like b -> node_at w (e_pos e) <> None -> (eff free e = [] -> eff b e = [] /\ act b e = act free e) /\ (eff free e <> [] -> eff b e <> []).
  Proof.
    intros L N. unfold SearchProofs.eff, SearchProofs.act, file_callback. destruct (CbModel.is_error (cb_file e)); [split; [auto|intros Z; destruct (Z eq_refl)]|]. set (p := e_pos e) in *.
    assert (RX := run_excludes b p L N).
    assert (CU : cut (snd (run_exclude level c' free p)) (eval level (b p) (c_expr c') (snd (run_exclude level c' free p))) (eval level (free p) (c_expr c') (snd (run_exclude level c' free p)))).
    { apply eval_cut; [intros l h; apply L|reflexivity]. }
    assert (RE : run_expr level c' b p = run_expr level c' free p \/ (filter is_action (rev (run_expr level c' b p)) <> [] /\ filter is_action (rev (run_expr level c' free p)) <> [])).
    { unfold run_expr. rewrite RX. destruct (eval level (b p) _ _) as [[r h] q], (eval level (free p) _ _) as [[r0 h0] q0].
      destruct CU as [E | (l & k & n & IL & A & B & _)]; [left; congruence|right]. cbn [fst snd] in A, B. split; apply limit_acts with l; auto.
      - rewrite A. left. reflexivity.
      - rewrite B. apply in_or_app. right. left. reflexivity. }
    unfold CbModel.eval_file. cbn [CbModel.exclude CbModel.expr cb_world]. rewrite RX.
    destruct (fst (run_exclude level c' free p)); [split; [auto|intros Z; destruct (Z eq_refl)]|].
    destruct (CbModel.xargs_safe _ && _); [split; [auto|intros Z; destruct (Z eq_refl)]|]. cbv zeta.
    match goal with |- context [if ?x then (CbModel.Evaluated, _) else _] => destruct x end; [|split; [auto|intros Z; destruct (Z eq_refl)]]. cbn [fst snd].
    destruct RE as [RE | (R1 & R2)].
    - rewrite RE. split; [|auto]. intros Z. split; [exact Z|]. apply map_eq_nil, none_acting in Z. rewrite !after_plain by exact Z. reflexivity.
    - split; intros Z; [apply map_eq_nil in Z; destruct (R2 Z)|]. intros Y. apply map_eq_nil in Y. exact (R1 Y).
  Qed.

  Lemma acted_like b l : like b -> Forall (fun x => event_ok w (fst x)) l -> acted b l = acted free l.
  Proof.
    intros L. induction l as [|(e & a) l IH]; intros OK; [reflexivity|]. inversion OK as [|? ? O1 O2]; subst. cbn [fst] in O1. cbn [SearchProofs.acted]. rewrite (IH O2). f_equal.
    destruct (call_quiet b e L (proj1 O1)) as (A & B). destruct (eff free e) as [|x r]; [destruct (A eq_refl) as (-> & _); reflexivity|].
    destruct (eff b e); [destruct (B ltac:(discriminate) eq_refl)|reflexivity].
  Qed.

  Lemma doing_snoc l : forall v p, doing w level c beh v (l ++ [p]) = doing w level c beh v l ++ effects_of w level c (after beh (doing w level c beh v l)) p.
  Proof. induction l as [|x l IH]; intros v p; [reflexivity|]. cbn [app doing]. apply IH. Qed.

  (** A walk with limits is one without, for a choice of the file where a limit is reached. *)
  Lemma transfer tr v : plays w [] tr v -> Forall (fun x => event_ok w (fst x)) tr -> typed type_at tr -> NoDup (acted free tr) ->
    exists bs, like bs /\ (forall p, ~ In p (acted free tr) -> bs p = free p) /\ (forall l1 p l2, acted free tr = l1 ++ p :: l2 -> bs p = after beh (doing w level c beh [] l1) p) /\
      Forall (fun x => snd x = act bs (fst x)) tr /\ v = doing w level c beh [] (acted free tr).
  Proof.
    induction 1 as [|e l v P IH]; intros OK TY ND.
    { exists free. split; [exact like_free|]. split; [reflexivity|]. split; [intros [|? ?] ? ? Z; discriminate|]. split; [constructor|reflexivity]. }
    inversion OK as [|? ? O1 O2]; subst. inversion TY as [|? ? TT T']; subst. cbn [fst] in O1, TT. assert (N := proj1 O1).
    assert (CB : callback w v e = (act (after beh v) e, v ++ eff (after beh v) e)).
    { rewrite cb. unfold search_callback. rewrite (call_ext level c' xargs (fl_post_order w) st (counting beh v) (after beh v) e (fun _ _ => eq_refl) (counted beh v (e_pos e))).
      unfold SearchProofs.act, SearchProofs.eff. destruct (call (after beh v) e). reflexivity. }
    rewrite CB. cbn [fst snd]. destruct (call_quiet (after beh v) e (like_after v) N) as (Q1 & Q2). cbn [SearchProofs.acted] in *. destruct (eff free e) as [|x0 r0] eqn:E; cbn [SearchProofs.nonempty] in *.
    - rewrite app_nil_r in *. destruct (IH O2 T' ND) as (bs & L & NI & SP & AC & V). destruct (Q1 eq_refl) as (Q3 & Q4). rewrite Q3, Q4, app_nil_r. exists bs.
      split; [exact L|]. split; [exact NI|]. split; [exact SP|]. split; [|exact V]. constructor; [|exact AC]. cbn [fst snd]. destruct (call_quiet bs e L N) as (A & _). destruct (A E) as (_ & ->). reflexivity.
    - assert (ND2 : NoDup (e_pos e :: acted free l)) by (apply (Permutation_NoDup (Permutation_sym (Permutation_cons_append (acted free l) (e_pos e)))); exact ND).
      inversion ND2 as [|? ? NI0 ND']; subst. destruct (IH O2 T' ND') as (bs & L & NI & SP & AC & V).
      set (bs' := fun p => if list_eq_dec Nat.eq_dec p (e_pos e) then after beh v p else bs p).
      assert (L' : like bs') by (intros p la h; unfold bs'; destruct (list_eq_dec _ _ _); [reflexivity|apply L]).
      assert (B1 : bs' (e_pos e) = after beh v (e_pos e)) by (unfold bs'; destruct (list_eq_dec _ _ _) as [_ | Z]; [reflexivity|destruct (Z eq_refl)]).
      assert (B2 : forall p, p <> e_pos e -> bs' p = bs p) by (intros p NP; unfold bs'; destruct (list_eq_dec _ _ _) as [Z | _]; [destruct (NP Z)|reflexivity]).
      exists bs'. split; [exact L'|]. split; [|split; [|split]].
      + intros p I. rewrite in_app_iff in I. rewrite B2; [apply NI; tauto|]. intros ->. apply I. right. left. reflexivity.
      + intros l1 p l2 EQ. destruct (exists_last (l := p :: l2)) as (m & y & EM); [discriminate|].
        assert (EQ2 : acted free l ++ [e_pos e] = (l1 ++ m) ++ [y]) by (rewrite EQ, EM; apply app_assoc).
        apply app_inj_tail in EQ2 as (EA & EY). subst y. destruct m as [|p' m].
        * cbn [app] in EM. injection EM as -> _. rewrite app_nil_r in EA. rewrite B1, V, EA. reflexivity.
        * injection EM as <- _. rewrite B2; [exact (SP l1 p m EA)|]. intros ->. apply NI0. rewrite EA. apply in_or_app. right. left. reflexivity.
      + constructor; cbn [fst snd].
        * unfold SearchProofs.act. rewrite (call_local level c' xargs (fl_post_order w) st bs' (after beh v) e B1). reflexivity.
        * rewrite Forall_forall in AC, O2 |- *. intros (e1 & a1) I. rewrite (AC _ I). cbn [fst]. destruct (list_eq_dec Nat.eq_dec (e_pos e1) (e_pos e)) as [Z | Z].
          -- assert (N1 := proj1 (O2 _ I)). cbn [fst] in N1. destruct (eff free e1) as [|x1 r1] eqn:E1.
             ++ destruct (call_quiet bs e1 L N1) as (A & _), (call_quiet bs' e1 L' N1) as (A' & _). destruct (A E1) as (_ & ->), (A' E1) as (_ & ->). reflexivity.
             ++ exfalso. apply NI0. apply (in_acted fo level udb gdb st w c xargs free). exists e1, a1. rewrite E1. repeat split; auto. discriminate.
          -- unfold SearchProofs.act. rewrite (call_local level c' xargs (fl_post_order w) st bs' bs e1 (B2 _ Z)). reflexivity.
      + rewrite doing_snoc, <- V. f_equal.
        apply (eff_call fo level udb gdb u st w c xargs (after beh v) type_at info_at recover mounts still wx we quiet hmin hmax (like_knows _ (like_after v)) e O1 TT). apply Q2. discriminate.
  Qed.

  (** The calls of a search *)
  Hypothesis how : match st with SBfs => strat w = BFTW_BFS | SDfs => strat w = BFTW_DFS | _ => (forall p, node_at w p <> None -> type_at p <> BFS_ERROR) /\ distinct w end.

  Lemma called : exists ok v tr, bftw st w [] = Some (ok, v) /\ plays w [] tr v /\ Forall (fun x => event_ok w (fst x)) tr /\ typed type_at tr /\
    forall b, knows b -> NoDup (acted b tr) /\ (Forall (fun x => snd x = act b (fst x)) tr -> result level st w c xargs b type_at ok (acted b tr)).
  Proof.
    assert (X : (st = SBfs \/ st = SDfs) \/ ((st = SIds \/ st = SEds) /\ steady w type_at /\ distinct w)).
    { pose proof how as H. destruct st; [left; left; reflexivity|left; right; reflexivity|right|right]; (split; [auto|]); destruct H as (H1 & H2); (split; [|exact H2]); intros n p N; (split; [apply still|exact (H1 p N)]). }
    destruct X as [X | (X & SD & DI)].
    - destruct (walk_ok w [] nm) as (ok & s & E & K). exists ok, (user s), (trace s). split; [destruct X as [X | X]; rewrite X; cbn [bftw]; rewrite E; reflexivity|].
      split; [exact (wk_plays _ _ _ _ K)|]. split; [exact (wk_ok _ _ _ _ K)|]. split; [exact (order_typed w type_at still _ (wk_order _ _ _ _ K))|]. intros b KB. split.
      + exact (acted_once fo level udb gdb u st w c xargs b type_at info_at recover mounts still wx we quiet hmin hmax KB _ (wk_order _ _ _ _ K) (wk_ok _ _ _ _ K)).
      + exact (searched_walk fo level udb gdb u st w c xargs b type_at info_at recover mounts still wx we quiet hmin hmax KB ok s X K).
    - assert (NH : ~ (st = SBfs \/ st = SDfs)) by (destruct X as [X | X]; rewrite X; intros [Z | Z]; discriminate). destruct X as [X | X].
      + destruct (ids_searched w type_at [] nm SD DI) as (ok & s & pre & post & E & _ & LO & P & O & K & BD & V & PO & ST & LS & OR & AL & GO).
        exists ok, (d_user (user s)), (post ++ pre). split; [rewrite X; cbn [bftw]; rewrite E; reflexivity|]. split; [exact P|].
        split; [exact (deep_ok w type_at pre post K LS)|]. split; [exact (deep_typed w type_at still pre post O LS)|]. intros b KB. rewrite acted_app. split; [apply (deep_once fo level udb gdb u st w c xargs b type_at info_at); assumption|].
        intros AC. apply (deepened fo level udb gdb u st w c xargs b type_at info_at); auto.
        * intros NP. rewrite NP in PO. exact PO.
        * intros PP OK p KE _. apply (AL PP OK p). exact KE.
        * intros NO. destruct (ST NO) as [(_ & Z) | Z]; [congruence|exact Z].
        * apply (ss_nodup _ _ _) with (2 := ls_once _ _ _ _ LS) (3 := OR). intros x y IX _ NE L r ->. cbv beta in L. rewrite app_length in L.
          destruct r as [|k r]; [exact (NE eq_refl)|]. destruct x as [|j x]; [exfalso; destruct (ls_kept _ _ _ _ LS [] IX) as (e & a & I & PE & _); rewrite Forall_forall in K; apply (proj1 (K _ I)); cbn [fst]; rewrite PE; reflexivity|]. cbn [length] in L. lia.
        * intros Z. rewrite X in Z. discriminate.
      + destruct (eds_searched w type_at [] nm SD DI) as (ok & s & pre & post & E & _ & LO & P & O & K & BD & V & PO & ST & LS & OR & AL & GO).
        exists ok, (d_user (user s)), (post ++ pre). split; [rewrite X; cbn [bftw]; rewrite E; reflexivity|]. split; [exact P|].
        split; [exact (deep_ok w type_at pre post K LS)|]. split; [exact (deep_typed w type_at still pre post O LS)|]. intros b KB. rewrite acted_app. split; [apply (deep_once fo level udb gdb u st w c xargs b type_at info_at); assumption|].
        intros AC. apply (deepened fo level udb gdb u st w c xargs b type_at info_at); auto.
        * intros NP. rewrite NP in PO. exact PO.
        * intros PP OK p _ EN. apply (AL PP OK p). apply EN. rewrite X. reflexivity.
        * intros NO. destruct (ST NO) as [(_ & Z) | Z]; [congruence|exact Z].
        * intros Z. rewrite X in Z. discriminate.
  Qed.

  (** Limits end the evaluation only. *)
  Lemma limit_does b p : like b -> (~ quits level c b p -> does level c b p = does level c free p) /\ (does level c b p <> [] <-> does level c free p <> []).
  Proof.
    intros L. unfold quits, does. change acts with is_action. rewrite (excludes b p L). destruct (eval level (free p) (c_exclude c) []) as [[r0 h0] q0].
    assert (CU := eval_cut level (b p) (free p) (L p) (fun _ _ => eq_refl) (c_expr c) h0).
    destruct (eval level (b p) _ _) as [[r h] q], (eval level (free p) _ _) as [[r1 h1] q1].
    destruct CU as [E | (l & k & n & IL & A & B & Q)]; [injection E as -> -> ->; tauto|]. cbn [fst snd] in A, B, Q. split; [intros Z; destruct (Z Q)|].
    assert (X : filter is_action (rev h) <> []) by (apply limit_acts with l; [rewrite A; left; reflexivity|exact IL]).
    assert (Y : filter is_action (rev h1) <> []) by (apply limit_acts with l; [rewrite B; apply in_or_app; right; left; reflexivity|exact IL]). tauto.
  Qed.
  Lemma limit_excluded b p : like b -> excluded level c b p <-> excluded level c free p.
  Proof. intros L. unfold excluded. rewrite (excludes b p L). reflexivity. Qed.
  Lemma local_quits b b' p : b p = b' p -> quits level c b p <-> quits level c b' p.
  Proof. intros E. unfold quits. rewrite E. reflexivity. Qed.
  Lemma local_does b b' p : b p = b' p -> does level c b p = does level c b' p.
  Proof. intros E. unfold does. rewrite E. reflexivity. Qed.

  Lemma quits_dec b p : quits level c b p \/ ~ quits level c b p.
  Proof. unfold quits. destruct (eval level (b p) (c_exclude c) []) as [[r0 h0] q0]. destruct (eval level (b p) (c_expr c) h0) as [[r h] [|]]; [left; reflexivity|right; discriminate]. Qed.

  Lemma like_selected b b' p : like b -> like b' -> (forall q r, p = r ++ q -> r <> [] -> q <> [] -> fl_post_order w = false -> In LPrune (does level c b' q) -> In LPrune (does level c b q)) ->
    selected w type_at level c xargs b p -> selected w type_at level c xargs b' p.
  Proof.
    intros L L' PR (N & D & SK & WI & UP).
    assert (DR : forall q, dropped w type_at level c xargs b' q -> dropped w type_at level c xargs b q).
    { intros q [Z | [Z | Z]]; [left; exact Z|right; left|right; right; exact Z]. apply (limit_excluded b q L), (limit_excluded b' q L'), Z. }
    split; [exact N|]. split; [intros Z; exact (D (DR p Z))|]. split; [exact SK|]. split; [exact WI|]. intros r q E NR NQ.
    destruct (UP r q E NR NQ) as (D1 & SK1 & FS & TY & DM & NP). split; [intros Z; exact (D1 (DR q Z))|]. split; [exact SK1|]. split; [exact FS|]. split; [exact TY|]. split; [exact DM|].
    intros PO WQ I. apply (NP PO WQ). exact (PR q r E NR NQ PO I).
  Qed.

  Lemma limited : exists ok v l, bftw st w [] = Some (ok, v) /\ v = doing w level c beh [] l /\ NoDup l /\
    (forall p, In p l -> selected w type_at level c xargs free p /\ does level c free p <> []) /\
    (if ok then (forall p, selected w type_at level c xargs free p -> does level c free p <> [] -> In p l) /\ (forall l1 p l2, l = l1 ++ p :: l2 -> ~ quits level c (after beh (doing w level c beh [] l1)) p)
     else exists l' p, l = l' ++ [p] /\ quits level c (after beh (doing w level c beh [] l')) p /\ forall l1 q l2, l' = l1 ++ q :: l2 -> ~ quits level c (after beh (doing w level c beh [] l1)) q) /\
    sequence w st l.
  Proof.
    destruct called as (ok & v & tr & E & P & OK & TY & R). destruct (R free (like_knows _ like_free)) as (ND & _).
    destruct (transfer tr v P OK TY ND) as (bs & L & NI & SP & AC & V). destruct (R bs (like_knows _ L)) as (_ & RS). specialize (RS AC). rewrite (acted_like bs tr L OK) in RS.
    set (l := acted free tr) in *. clearbody l. destruct RS as (_ & S1 & S2 & SQ).
    assert (SAME : forall q, (In q l -> ~ quits level c bs q) -> does level c bs q = does level c free q).
    { intros q H. destruct (in_dec (list_eq_dec Nat.eq_dec) q l) as [I | I]; [|exact (local_does bs free q (NI q I))]. exact (proj1 (limit_does bs q L) (H I)). }
    exists ok, v, l. split; [exact E|]. split; [exact V|]. split; [exact ND|]. split; [|split; [|exact SQ]].
    - intros p I. destruct (S1 p I) as (A & B). split; [|apply (limit_does bs p L), B]. apply (like_selected bs free p L like_free); [|exact A]. intros q r EQ NR NQ PO J.
      rewrite (SAME q); [exact J|]. intros IQ. destruct ok; [exact (proj2 (S2 q) IQ)|]. destruct S2 as (l' & p0 & EL & Q0 & NQ0). intros Q.
      assert (q = p0). { rewrite EL in IQ. apply in_app_or in IQ as [IQ | [IQ | []]]; [destruct (NQ0 q IQ Q)|auto]. } subst p0.
      assert (PL : In p l'). { rewrite EL in I. apply in_app_or in I as [I | [I | []]]; [exact I|]. exfalso. apply (f_equal (@length nat)) in EQ. rewrite app_length, I in EQ. destruct r; [destruct (NR eq_refl)|cbn [length] in EQ; lia]. }
      assert (SS := q_parents _ _ _ SQ). rewrite PO, EL in SS. apply ss_app in SS as (_ & _ & SS). exact (SS p q PL (or_introl eq_refl) r EQ).
    - destruct ok.
      + split.
        * intros p A B. apply (S2 p); [|apply (limit_does bs p L); exact B]. apply (like_selected free bs p like_free L); [|exact A]. intros q r _ _ _ _ J. rewrite <- (SAME q); [exact J|]. intros IQ. exact (proj2 (S2 q) IQ).
        * intros l1 p l2 EQ. rewrite <- (local_quits bs _ p (SP l1 p l2 EQ)). apply (S2 p). rewrite EQ. apply in_or_app. right. left. reflexivity.
      + destruct S2 as (l' & p0 & EL & Q0 & NQ0). exists l', p0. split; [exact EL|]. split; [apply (local_quits bs _ p0 (SP l' p0 [] EL)); exact Q0|].
        intros l1 q l2 EQ. assert (EL2 : l = l1 ++ q :: (l2 ++ [p0])) by (rewrite EL, EQ, <- app_assoc; reflexivity). rewrite <- (local_quits bs _ q (SP l1 q _ EL2)). apply NQ0. rewrite EQ. apply in_or_app. right. left. reflexivity.
  Qed.

  (** Without -limit *)
  Section Plain.
    Hypothesis no_limit : Forall (fun l => is_limit l = false) (leaves (c_expr c)).

    Lemma plain_eval b p h : like b -> eval level (b p) (c_expr c) h = eval level (beh p) (c_expr c) h.
    Proof. intros L. apply eval_plain; [intros l h1; apply L|exact no_limit]. Qed.
    Lemma plain_exclude b p : like b -> eval level (b p) (c_exclude c) [] = eval level (beh p) (c_exclude c) [].
    Proof. intros L. apply eval_plain; [intros l h1; apply L|exact no_limits]. Qed.
    Lemma plain_does b p : like b -> does level c b p = does level c beh p.
    Proof. intros L. unfold does. rewrite (plain_exclude b p L). destruct (eval level (beh p) (c_exclude c) []) as [[r0 h0] q0]. rewrite (plain_eval b p h0 L). reflexivity. Qed.
    Lemma plain_quits b p : like b -> quits level c b p <-> quits level c beh p.
    Proof. intros L. unfold quits. rewrite (plain_exclude b p L). destruct (eval level (beh p) (c_exclude c) []) as [[r0 h0] q0]. rewrite (plain_eval b p h0 L). reflexivity. Qed.
    Lemma like_beh : like beh.
    Proof. intros p l h. reflexivity. Qed.
    Lemma plain_selected p : selected w type_at level c xargs free p <-> selected w type_at level c xargs beh p.
    Proof. split; apply like_selected; try apply like_free; try apply like_beh; intros q r _ _ _ _; rewrite (plain_does free q like_free); auto. Qed.
    Lemma plain_doing l : forall v, doing w level c beh v l = v ++ flat_map (effects_of w level c beh) l.
    Proof.
      induction l as [|p l IH]; intros v; cbn [doing flat_map]; [symmetry; apply app_nil_r|]. rewrite IH, <- app_assoc. unfold effects_of at 1. rewrite (plain_does _ p (like_after v)). reflexivity.
    Qed.

    Lemma searched : exists ok v l, bftw st w [] = Some (ok, v) /\ v = flat_map (effects_of w level c beh) l /\ NoDup l /\
      (forall p, In p l -> selected w type_at level c xargs beh p /\ does level c beh p <> []) /\
      (if ok then forall p, (selected w type_at level c xargs beh p -> does level c beh p <> [] -> In p l) /\ (In p l -> ~ quits level c beh p)
       else exists l' p, l = l' ++ [p] /\ quits level c beh p /\ forall q, In q l' -> ~ quits level c beh q) /\
      sequence w st l.
    Proof.
      destruct limited as (ok & v & l & E & V & ND & S1 & S2 & SQ). exists ok, v, l. split; [exact E|]. split; [rewrite V; apply plain_doing|]. split; [exact ND|]. split; [|split; [|exact SQ]].
      - intros p I. destruct (S1 p I) as (A & B). rewrite <- plain_selected, <- (plain_does free p like_free). auto.
      - destruct ok.
        + destruct S2 as (A & B). intros p. rewrite <- plain_selected, <- (plain_does free p like_free). split; [apply A|]. intros I. destruct (in_split _ _ I) as (l1 & l2 & EQ).
          rewrite <- (plain_quits _ p (like_after (doing w level c beh [] l1))). exact (B l1 p l2 EQ).
        + destruct S2 as (l' & p & EL & Q & NQ). exists l', p. split; [exact EL|]. split; [apply (plain_quits _ p (like_after _)) in Q; exact Q|]. intros q I. destruct (in_split _ _ I) as (l1 & l2 & EQ).
          rewrite <- (plain_quits _ q (like_after (doing w level c beh [] l1))). exact (NQ l1 q l2 EQ).
    Qed.
  End Plain.

  (** Without -quit and -exit *)
  Hypothesis lasting : Forall (fun l => may_quit l = false) (leaves (c_expr c)).
  Lemma never_quits p : ~ quits level c beh p.
  Proof.
    unfold SearchSpec.quits. destruct (eval level (beh p) (c_exclude c) []) as [[r h0] q0]. destruct (eval level (beh p) (c_expr c) h0) as [[r1 h1] q] eqn:E. intros ->.
    destruct (eval_news level (beh p) _ _ _ _ _ E) as (n & _ & A & B & _). destruct (B eq_refl) as (l & I & M). assert (LA := lasting). rewrite Forall_forall in LA. rewrite (LA l (A l I)) in M. discriminate.
  Qed.
  Lemma lasting_limits : Forall (fun l => is_limit l = false) (leaves (c_expr c)).
  Proof. eapply Forall_impl; [|exact lasting]. intros l. destruct l; cbn; congruence. Qed.

  Lemma searched_all : exists v l, bftw st w [] = Some (true, v) /\ v = flat_map (effects_of w level c beh) l /\ NoDup l /\
    (forall p, In p l <-> selected w type_at level c xargs beh p /\ does level c beh p <> []) /\ sequence w st l.
  Proof.
    destruct (searched lasting_limits) as (ok & v & l & E & US & ND & S1 & S2 & SO). destruct ok.
    - exists v, l. split; [exact E|]. split; [exact US|]. split; [exact ND|]. split; [|exact SO]. intros p. split; [apply S1|]. intros (A & B). apply S2; assumption.
    - destruct S2 as (l' & p & _ & Q & _). destruct (never_quits p Q).
  Qed.
End Limited.

(** ** How often a -limit is reached *)
Section Count.
  Context {F : Type}.
  Variables (level : nat) (id : nat) (n : Z).
  Definition sole (e : expr F) : Prop := Forall (fun l => may_quit l = true -> l = LLimit id n) (leaves e).

  Lemma times_app a b : times id (a ++ b) = times id a + times id b.
  Proof. unfold times. rewrite filter_app. apply app_length. Qed.
  Lemma times_rev a : times id (rev a) = times id a.
  Proof. induction a as [|x a IH]; [reflexivity|]. cbn [rev]. rewrite times_app, IH. change (x :: a) with ([x] ++ a). rewrite times_app. lia. Qed.
  Lemma times_acts a : times id (filter acts a) = times id a.
  Proof.
    induction a as [|x a IH]; [reflexivity|]. cbn [filter]. change (x :: a) with ([x] ++ a). rewrite times_app. destruct (acts x) eqn:A.
    - change (x :: filter acts a) with ([x] ++ filter acts a). rewrite times_app, IH. reflexivity.
    - rewrite IH. destruct x; try reflexivity. discriminate.
  Qed.
  Lemma times_plain a : Forall (fun l => is_action l = false) a -> times id a = 0.
  Proof. induction 1 as [|x a A _ IH]; [reflexivity|]. change (x :: a) with ([x] ++ a). rewrite times_app, IH. destruct x; try reflexivity. discriminate. Qed.

  Section Eval.
    Variables (beh : pos -> behaviour) (v : list effect) (p : pos).
    Notation count h := (Z.of_nat (times id (map snd v) + times id h)).
    Notation b := (after beh v p).
    Definition counts (h : hist) (x : ExprModel.outcome) : Prop := let '(_, h1, q) := x in (count h < n)%Z -> if q then count h1 = n else (count h1 < n)%Z.

    Lemma times_cons l h : may_quit l = false -> times id (l :: h) = times id h.
    Proof. destruct l; try reflexivity. discriminate. Qed.
    Lemma leaf_counts l h : (may_quit l = true -> l = LLimit id n) -> counts h (eval_leaf level b l h).
    Proof.
      intros S. assert (T := times_cons l h). destruct (may_quit l) eqn:M.
      - rewrite (S eq_refl) in *. cbn [eval_leaf counts lim after]. assert (X : times id (LLimit id n :: h) = 1 + times id h) by (unfold times; cbn [filter]; rewrite Nat.eqb_refl; reflexivity).
        rewrite X. intros C. destruct (Z.leb_spec n (Z.of_nat (times id (map snd v) + times id h + 1))); lia.
      - specialize (T eq_refl). clear S. destruct l; try discriminate; cbn [eval_leaf counts]; try tauto; try (rewrite T; tauto).
        all: match goal with |- context [leaf_pure level ?l] => destruct (leaf_pure level l) end; rewrite ?T; tauto.
    Qed.
    Lemma counts_trans h r h1 x : counts h (r, h1, false) -> counts h1 x -> counts h x.
    Proof. unfold counts. destruct x as [[r2 h2] q2]. tauto. Qed.

    Lemma eval_counts (e : expr F) : sole e -> forall h, counts h (eval level b e h).
    Proof.
      unfold sole. induction e as [a l|a o cs IH] using expr_ind'; intros SO h.
      - cbn [ExprModel.eval]. inversion SO; subst. apply leaf_counts. assumption.
      - cbn [leaves] in SO.
        assert (ND : Forall (fun c0 => forall h0, counts h0 (eval level b c0 h0)) cs).
        { clear h. induction IH as [|c0 cs X _ IHcs]; [constructor|]. cbn [flat_map] in SO. apply Forall_app in SO as (S1 & S2). constructor; [exact (X S1)|exact (IHcs S2)]. }
        clear IH SO. destruct o; cbn [ExprModel.eval].
        + destruct ND as [|c0 cs X _]; [cbn; tauto|]. specialize (X h). destruct (eval level b c0 h) as [[r h1] q]. exact X.
        + revert h. induction ND as [|c0 cs X _ IHcs]; intros h; cbn [and_loop]; [cbn; tauto|]. specialize (X h). destruct (eval level b c0 h) as [[r h1] q].
          destruct r, q; cbn [negb orb]; try exact X. apply (counts_trans _ _ _ _ X), IHcs.
        + revert h. induction ND as [|c0 cs X _ IHcs]; intros h; cbn [or_loop]; [cbn; tauto|]. specialize (X h). destruct (eval level b c0 h) as [[r h1] q].
          destruct r, q; cbn [negb orb]; try exact X. apply (counts_trans _ _ _ _ X), IHcs.
        + revert h. generalize false. induction ND as [|c0 cs X _ IHcs]; intros d h; cbn [comma_loop]; [cbn; tauto|]. specialize (X h). destruct (eval level b c0 h) as [[r h1] q].
          destruct q; try exact X. apply (counts_trans _ _ _ _ X), IHcs.
    Qed.
  End Eval.

  Lemma file_counts {U} (w : env U) (c : OptModel.ctx F) beh v p : sole (c_expr c) -> Forall (fun l => is_action l = false) (leaves (c_exclude c)) ->
    (Z.of_nat (times id (map snd v)) < n)%Z -> let v' := v ++ effects_of w level c (after beh v) p in
    (quits level c (after beh v) p -> Z.of_nat (times id (map snd v')) = n) /\ (~ quits level c (after beh v) p -> (Z.of_nat (times id (map snd v')) < n)%Z).
  Proof.
    intros SO QU LT v'. assert (TV : times id (map snd v') = times id (map snd v) + times id (does level c (after beh v) p)).
    { unfold v', effects_of. rewrite map_app, map_map, times_app. cbn [snd]. rewrite map_id. reflexivity. }
    rewrite TV. unfold quits, does. destruct (eval level (after beh v p) (c_exclude c) []) as [[r0 h0] q0] eqn:E0.
    destruct (exclude_quiet level _ _ QU _ _ _ _ E0) as (_ & m & HM & FM). rewrite app_nil_r in HM. subst m.
    assert (C := eval_counts beh v p (c_expr c) SO h0). destruct (eval level (after beh v p) (c_expr c) h0) as [[r h] q]. cbn [counts] in C. rewrite (times_plain h0 FM), times_acts, times_rev in *.
    rewrite Nat.add_0_r in C. specialize (C LT). destruct q; split; intros Z; congruence || (destruct (Z eq_refl)) || exact C.
  Qed.

  Lemma doing_counts {U} (w : env U) (c : OptModel.ctx F) beh l : sole (c_expr c) -> Forall (fun l => is_action l = false) (leaves (c_exclude c)) -> (0 < n)%Z ->
    (forall l1 p l2, l = l1 ++ p :: l2 -> ~ quits level c (after beh (doing w level c beh [] l1)) p) -> (Z.of_nat (times id (map snd (doing w level c beh [] l))) < n)%Z.
  Proof.
    intros SO QU N0. induction l as [|p l IH] using rev_ind; intros NQ; [exact N0|].
    assert (D : doing w level c beh [] (l ++ [p]) = doing w level c beh [] l ++ effects_of w level c (after beh (doing w level c beh [] l)) p).
    { generalize (@nil effect). clear. induction l as [|x l IH]; intros v; [reflexivity|]. cbn [app doing]. apply IH. }
    rewrite D. apply (file_counts w c beh); [exact SO|exact QU| |exact (NQ l p [] eq_refl)]. apply IH. intros l1 q l2 EQ. apply (NQ l1 q (l2 ++ [p])). rewrite EQ, <- app_assoc. reflexivity.
  Qed.
End Count.

(** ** In terms of [searches] *)
Section Statements.
  Context {F : Type}.

  Lemma search_limit (fo : float_ops F) level udb gdb u st w c xargs beh type_at info_at :
    searches fo level udb gdb u st w c xargs beh type_at info_at ->
    exists ok v l, bftw st w [] = Some (ok, v) /\ v = doing w level c beh [] l /\ NoDup l /\
      (forall p, In p l -> selected w type_at level c xargs (unlimited beh) p /\ does level c (unlimited beh) p <> []) /\
      (if ok then (forall p, selected w type_at level c xargs (unlimited beh) p -> does level c (unlimited beh) p <> [] -> In p l) /\
                  (forall l1 p l2, l = l1 ++ p :: l2 -> ~ quits level c (after beh (doing w level c beh [] l1)) p)
       else exists l' p, l = l' ++ [p] /\ quits level c (after beh (doing w level c beh [] l')) p /\
                         forall l1 q l2, l' = l1 ++ q :: l2 -> ~ quits level c (after beh (doing w level c beh [] l1)) q) /\
      sequence w st l.
  Proof.
    intros [CB RE HW MO NM ST WX WE QX MI MA KN]. exact (limited fo level udb gdb u st w c xargs beh type_at info_at NM RE MO ST CB WX WE QX MI MA KN HW).
  Qed.

  Lemma search_count (fo : float_ops F) level udb gdb u st w c xargs beh type_at info_at id n :
    searches fo level udb gdb u st w c xargs beh type_at info_at -> (0 < n)%Z ->
    Forall (fun l => may_quit l = true -> l = LLimit id n) (leaves (c_expr c)) ->
    exists ok v, bftw st w [] = Some (ok, v) /\ if ok then (Z.of_nat (times id (map snd v)) < n)%Z else Z.of_nat (times id (map snd v)) = n.
  Proof.
    intros S N0 SO. assert (QU := s_tests _ _ _ _ _ _ _ _ _ _ _ _ S). destruct (search_limit _ _ _ _ _ _ _ _ _ _ _ _ S) as (ok & v & l & E & V & _ & _ & S2 & _).
    exists ok, v. split; [exact E|]. rewrite V. destruct ok.
    - apply (doing_counts level id n w c beh l SO QU N0). exact (proj2 S2).
    - destruct S2 as (l' & p & EL & Q & NQ).
      assert (D : doing w level c beh [] l = doing w level c beh [] l' ++ effects_of w level c (after beh (doing w level c beh [] l')) p).
      { rewrite EL. generalize (@nil effect). clear. induction l' as [|x l IH]; intros v; [reflexivity|]. cbn [app doing]. apply IH. }
      rewrite D. apply (file_counts level id n w c beh _ p SO QU); [|exact Q]. exact (doing_counts level id n w c beh l' SO QU N0 NQ).
  Qed.

  Lemma search_any (fo : float_ops F) level udb gdb u st w c xargs beh type_at info_at :
    searches fo level udb gdb u st w c xargs beh type_at info_at ->
    Forall (fun l => is_limit l = false) (leaves (c_expr c)) ->
    exists ok v l, bftw st w [] = Some (ok, v) /\ v = flat_map (effects_of w level c beh) l /\ NoDup l /\
      (forall p, In p l -> selected w type_at level c xargs beh p /\ does level c beh p <> []) /\
      (if ok then forall p, (selected w type_at level c xargs beh p -> does level c beh p <> [] -> In p l) /\ (In p l -> ~ quits level c beh p)
       else exists l' p, l = l' ++ [p] /\ quits level c beh p /\ forall q, In q l' -> ~ quits level c beh q) /\
      sequence w st l.
  Proof.
    intros [CB RE HW MO NM ST WX WE QX MI MA KN] NL. exact (searched fo level udb gdb u st w c xargs beh type_at info_at NM RE MO ST CB WX WE QX MI MA KN HW NL).
  Qed.

  Lemma search_all (fo : float_ops F) level udb gdb u st w c xargs beh type_at info_at :
    searches fo level udb gdb u st w c xargs beh type_at info_at ->
    Forall (fun l => may_quit l = false) (leaves (c_expr c)) ->
    exists v l, bftw st w [] = Some (true, v) /\ v = flat_map (effects_of w level c beh) l /\ NoDup l /\
      (forall p, In p l <-> selected w type_at level c xargs beh p /\ does level c beh p <> []) /\
      sequence w st l.
  Proof.
    intros [CB RE HW MO NM ST WX WE QX MI MA KN] LA. exact (searched_all fo level udb gdb u st w c xargs beh type_at info_at NM RE MO ST CB WX WE QX MI MA KN HW LA).
  Qed.

  Lemma same_kids {U V} (w1 : env U) (w2 : env V) : roots w1 = roots w2 -> forall p, kids_at w1 p = kids_at w2 p.
  Proof. intros R p. induction p as [|k p IH]; cbn [kids_at]; [exact R|]. rewrite IH. reflexivity. Qed.
  Lemma same_node {U V} (w1 : env U) (w2 : env V) : roots w1 = roots w2 -> forall p, node_at w1 p = node_at w2 p.
  Proof. intros R [|k p]; [reflexivity|]. cbn [node_at]. rewrite (same_kids w1 w2 R). reflexivity. Qed.
  Lemma same_path {U V} (w1 : env U) (w2 : env V) : roots w1 = roots w2 -> forall p, path_at w1 p = path_at w2 p.
  Proof.
    intros R p. induction p as [|k p IH]; [reflexivity|]. cbn [path_at]. rewrite IH. unfold name_at. rewrite !(same_node w1 w2 R). reflexivity.
  Qed.

  Lemma eval_level level1 level2 b (e : expr F) : Forall (fun l => leaf_pure level1 l = leaf_pure level2 l) (leaves e) ->
    forall h, eval level1 b e h = eval level2 b e h.
  Proof.
    induction e as [a l|a o cs IH] using expr_ind'; intros P h.
    - inversion P as [|? ? Q _]; subst. cbn [ExprModel.eval]. destruct l; cbn [eval_leaf]; rewrite ?Q; reflexivity.
    - assert (ND : Forall (fun c0 => forall h0, eval level1 b c0 h0 = eval level2 b c0 h0) cs).
      { cbn [leaves] in P. clear h. induction IH as [|c0 cs X _ IHcs]; [constructor|]. cbn [flat_map] in P. apply Forall_app in P as (P1 & P2).
        constructor; [exact (X P1)|exact (IHcs P2)]. }
      clear IH P. destruct o; cbn [ExprModel.eval].
      + destruct ND as [|c0 cs X _]; [reflexivity|]. rewrite X. reflexivity.
      + revert h. induction ND as [|c0 cs X _ IHcs]; intros h; cbn [and_loop]; [reflexivity|]. rewrite X. destruct (eval level2 b c0 h) as [[r h1] q]. destruct (negb r || q); [reflexivity|apply IHcs].
      + revert h. induction ND as [|c0 cs X _ IHcs]; intros h; cbn [or_loop]; [reflexivity|]. rewrite X. destruct (eval level2 b c0 h) as [[r h1] q]. destruct (r || q); [reflexivity|apply IHcs].
      + revert h. generalize false. induction ND as [|c0 cs X _ IHcs]; intros d h; cbn [comma_loop]; [reflexivity|]. rewrite X. destruct (eval level2 b c0 h) as [[r h1] q]. destruct q; [reflexivity|apply IHcs].
  Qed.

  Lemma same_levels level1 level2 (c : OptModel.ctx F) : same_tests level1 level2 c -> forall b,
    (forall h, eval level1 b (c_exclude c) h = eval level2 b (c_exclude c) h) /\ (forall h, eval level1 b (c_expr c) h = eval level2 b (c_expr c) h).
  Proof.
    intros S b. assert (G : Forall (fun l => leaf_pure level1 l = leaf_pure level2 l) (leaves (c_exclude c) ++ leaves (c_expr c))).
    { destruct S as [(A & B) | S].
      - apply Forall_forall. intros l _. destruct l; cbn [leaf_pure]; try reflexivity.
        all: destruct (Nat.leb_spec 4 level1), (Nat.leb_spec 4 level2); try lia; reflexivity.
      - eapply Forall_impl; [|exact S]. intros l. destruct l; intros X; try reflexivity; destruct X. }
    apply Forall_app in G as (G1 & G2). split; intros h; apply eval_level; assumption.
  Qed.

  Lemma same_does level1 level2 (c : OptModel.ctx F) beh : same_tests level1 level2 c -> forall p, does level1 c beh p = does level2 c beh p.
  Proof.
    intros S p. destruct (same_levels level1 level2 c S (beh p)) as (A & B). unfold does. rewrite A. destruct (eval level2 (beh p) (c_exclude c) []) as [[r h0] q]. rewrite B. reflexivity.
  Qed.

  Lemma same_selected (w1 w2 : env (list effect)) type_at level1 level2 (c : OptModel.ctx F) xargs beh : same_tests level1 level2 c ->
    same_files w1 w2 -> forall p, selected w1 type_at level1 c xargs beh p -> selected w2 type_at level2 c xargs beh p.
  Proof.
    intros S (R & MO & PO & SM & PM) p (N & D & SK & WI & UP).
    assert (KR : forall q, skip w2 q -> skip w1 q) by (intros q; unfold skip; rewrite SM, MO; auto).
    assert (FR : forall q, other_fs w2 q -> other_fs w1 q) by (intros q; unfold other_fs; rewrite PM, MO; auto).
    assert (DR : forall q, dropped w2 type_at level2 c xargs beh q -> dropped w1 type_at level1 c xargs beh q).
    { intros q [Z | [Z | (Z & Y)]]; [left; exact Z|right; left|right; right; split; [exact Z|]].
      - destruct (same_levels level1 level2 c S (beh q)) as (A & _). unfold excluded. rewrite A. exact Z.
      - rewrite (same_path w1 w2 R). exact Y. }
    split; [rewrite <- (same_node w1 w2 R); exact N|]. split; [intros Z; exact (D (DR p Z))|]. split; [intros Z; exact (SK (KR p Z))|]. split; [exact WI|].
    intros r q E NR NQ. destruct (UP r q E NR NQ) as (D1 & SK1 & FS & TY & DM & PR). split; [intros Z; exact (D1 (DR q Z))|].
    split; [intros Z; exact (SK1 (KR q Z))|]. split; [intros Z; exact (FS (FR q Z))|]. split; [exact TY|]. split; [exact DM|].
    rewrite <- PO, <- (same_does level1 level2 c beh S). exact PR.
  Qed.

  Lemma search_same (fo1 fo2 : float_ops F) level1 level2 udb1 gdb1 udb2 gdb2 u1 u2 st1 st2 w1 w2 c xargs beh type_at info1 info2 :
    searches fo1 level1 udb1 gdb1 u1 st1 w1 c xargs beh type_at info1 ->
    searches fo2 level2 udb2 gdb2 u2 st2 w2 c xargs beh type_at info2 ->
    same_tests level1 level2 c -> same_files w1 w2 ->
    Forall (fun l => may_quit l = false) (leaves (c_expr c)) ->
    exists v1 v2, bftw st1 w1 [] = Some (true, v1) /\ bftw st2 w2 [] = Some (true, v2) /\ Permutation v1 v2.
  Proof.
    intros S1 S2 LV SF LA. assert (SF' : same_files w2 w1) by (destruct SF as (A & B & C & D & E); repeat split; auto). assert (R := proj1 SF).
    assert (LV' : same_tests level2 level1 c) by (destruct LV as [(A & B) | LV]; [left; auto|right; exact LV]).
    destruct (search_all _ _ _ _ _ _ _ _ _ _ _ _ S1 LA) as (s1 & l1 & E1 & US1 & ND1 & I1 & _).
    destruct (search_all _ _ _ _ _ _ _ _ _ _ _ _ S2 LA) as (s2 & l2 & E2 & US2 & ND2 & I2 & _).
    exists s1, s2. split; [exact E1|]. split; [exact E2|]. rewrite US1, US2.
    rewrite (flat_map_ext (effects_of w1 level1 c beh) (effects_of w2 level2 c beh)).
    2:{ intros p. unfold effects_of. rewrite (same_path w1 w2 R), (same_does level1 level2 c beh LV). reflexivity. }
    apply Permutation_flat_map, NoDup_Permutation; [exact ND1|exact ND2|]. intros p. rewrite I1, I2, (same_does level1 level2 c beh LV).
    split; intros (A & B); (split; [|exact B]); [apply (same_selected w1 w2 type_at level1 level2)|apply (same_selected w2 w1 type_at level2 level1)]; auto.
  Qed.
End Statements.
