(** * One round of deepening: from the walk to the calls of the user's callback *)
From Coq Require Import List Bool Arith Lia Init.Byte.
From Verif Require Import WalkSpec PathModel PathSpec SortModel BftwModel BftwSpec BftwFacts DeepenModel.
Import ListNotations.

Section Log.
  Context {U : Type}.
  Variable w : env U.
  Notation ids := (ids U).
  Notation wd := (deepen w false).
  Implicit Types (tr L l : list (event * action)) (x : event * action).

  (** Whether the user is told of an event, when nothing above the depth [m] is to be visited *)
  Definition del (m : nat) x : bool :=
    match e_type (fst x) with BFS_ERROR => m <=? e_depth (fst x) + 1 | _ => m <=? e_depth (fst x) end.
  (** Directories that are left for the next round *)
  Definition cut (M : nat) x : bool :=
    match snd x with BFTW_CONTINUE => is_dir (e_type (fst x)) && (M <=? e_depth (fst x) + 1) | _ => false end.
  Definition nest (M : nat) x : event * action := (fst x, if cut M x then BFTW_PRUNE else snd x).
  Definition prunes x : list (list byte) :=
    match snd x with BFTW_PRUNE => if is_dir (e_type (fst x)) then [e_path (fst x)] else [] | _ => [] end.

  Lemma is_pruned_in (d : ids) e : is_pruned d e = true <-> In (e_path e) (d_pruned d).
  Proof.
    unfold is_pruned. rewrite existsb_exists. split.
    - intros (x & I & E). unfold same_path in E. destruct (list_eq_dec Byte.byte_eq_dec (e_path e) x); [congruence|discriminate].
    - intros I. exists (e_path e). split; [exact I|]. unfold same_path. destruct (list_eq_dec Byte.byte_eq_dec (e_path e) (e_path e)); congruence.
  Qed.

  Record logged (d0 d1 : ids) tr L1 : Prop := {
    lg_visit : d_visit d1 = BFTW_PRE; lg_force : d_force d1 = false; lg_min : d_min d1 = d_min d0; lg_max : d_max d1 = d_max d0;
    lg_log : d_log d1 = L1 ++ d_log d0;
    lg_trace : filter (del (d_min d0)) tr = map (nest (d_max d0)) L1;
    lg_plays : plays w (d_user d0) L1 (d_user d1);
    lg_pruned : d_pruned d1 = flat_map prunes L1 ++ d_pruned d0;
    lg_bottom : d_bottom d1 = d_bottom d0 && forallb (fun x => negb (cut (d_max d0) x)) L1;
    lg_quiet : forall e a, In (e, a) tr -> del (d_min d0) (e, a) = false ->
      a = BFTW_PRUNE /\ (e_type e = BFS_ERROR \/ In (e_path e) (d_pruned d1)) \/
      a = BFTW_CONTINUE /\ e_type e <> BFS_ERROR /\ ~ In (e_path e) (d_pruned d0) }.

  Lemma del_error m e a : e_type e = BFS_ERROR -> del m (e, a) = (m <=? e_depth e + 1).
  Proof. intros T. unfold del. cbn [fst]. rewrite T. reflexivity. Qed.
  Lemma del_other m e a : e_type e <> BFS_ERROR -> del m (e, a) = (m <=? e_depth e).
  Proof. intros T. unfold del. cbn [fst]. destruct (e_type e); [congruence| |]; reflexivity. Qed.
  Lemma plays_more u l v e a u' : plays w u l v -> callback w v e = (a, u') -> plays w u ((e, a) :: l) u'.
  Proof. intros P C. replace a with (fst (callback w v e)) by (rewrite C; reflexivity). replace u' with (snd (callback w v e)) by (rewrite C; reflexivity). constructor. exact P. Qed.
  Lemma plays_log (d0 : ids) tr d1 : d_visit d0 = BFTW_PRE -> d_force d0 = false -> Forall (fun x => e_visit (fst x) = BFTW_PRE) tr -> plays wd d0 tr d1 ->
    exists L1, logged d0 d1 tr L1.
  Proof.
    intros V F PR P. induction P as [|e l v P IH].
    { exists []. constructor; auto; try reflexivity; [constructor|cbn [forallb]; symmetry; apply andb_true_r|intros ? ? []]. }
    rewrite Forall_cons_iff in PR. destruct PR as (EV & PR). cbn [fst] in EV. destruct (IH PR) as (L1 & [K1 K2 K3 K4 K5 K6 K7 K8 K9 K10]). clear IH.
    cbn [callback deepen].
    assert (QT : forall (d : list (list byte)), incl (d_pruned v) d -> forall e0 a, In (e0, a) l -> del (d_min d0) (e0, a) = false ->
      a = BFTW_PRUNE /\ (e_type e0 = BFS_ERROR \/ In (e_path e0) d) \/ a = BFTW_CONTINUE /\ e_type e0 <> BFS_ERROR /\ ~ In (e_path e0) (d_pruned d0)).
    { intros d IN e0 a I D. destruct (K10 e0 a I D) as [(A & [B | B]) | B]; [left; auto|left; split; [exact A|right; apply IN, B]|right; exact B]. }
    assert (ED : {e_type e = BFS_ERROR} + {e_type e <> BFS_ERROR}) by (destruct (e_type e); [left; reflexivity|right; discriminate|right; discriminate]).
    destruct ED as [ET | ET].
    - unfold ids_callback. rewrite K2, K3, ET. destruct (d_min d0 <=? e_depth e + 1) eqn:DM.
      + unfold delegate. destruct (callback w (d_user v) e) as (a & u) eqn:CB. cbn [fst snd]. exists ((e, a) :: L1). constructor; cbn [d_visit d_force d_min d_max d_log d_user d_pruned d_bottom]; auto.
        * rewrite K5. reflexivity.
        * cbn [filter map]. rewrite (del_error _ _ _ ET), DM, K6. f_equal. unfold nest, cut. cbn [fst snd]. rewrite ET. cbn [is_dir andb]. destruct a; reflexivity.
        * eapply plays_more; eassumption.
        * cbn [flat_map]. unfold prunes at 1. cbn [fst snd]. rewrite ET. cbn [is_dir]. rewrite K8. destruct a; reflexivity.
        * cbn [forallb]. unfold cut at 1. cbn [fst snd]. rewrite ET. cbn [is_dir andb]. rewrite K9. destruct a; reflexivity.
        * intros e0 a0 [[= <- <-] | I] D; [rewrite (del_error _ _ _ ET) in D; congruence|]. apply (QT _ (incl_refl _) e0 a0 I D).
      + cbn [fst snd]. exists L1. constructor; auto.
        * cbn [filter]. rewrite (del_error _ _ _ ET), DM. exact K6.
        * intros e0 a0 [[= <- <-] | I] D; [left; auto|]. apply (QT _ (incl_refl _) e0 a0 I D).
    - replace (ids_callback w v e) with (
          if e_depth e <? d_min d0 then (if is_pruned v e then BFTW_PRUNE else BFTW_CONTINUE, v)
          else
          let (a, d) := delegate w v e in
          match a with
          | BFTW_CONTINUE => if is_dir (e_type e) && (d_max d <=? e_depth e + 1) then (BFTW_PRUNE, set_bottom false d) else (BFTW_CONTINUE, d)
          | BFTW_PRUNE => (BFTW_PRUNE, if is_dir (e_type e) then set_pruned (e_path e :: d_pruned d) d else d)
          | BFTW_STOP => (BFTW_STOP, d)
          end).
      2:{ unfold ids_callback. rewrite K2, K3, K1, EV. cbn [same_visit andb]. destruct (e_type e); [congruence|reflexivity|reflexivity]. }
      destruct (e_depth e <? d_min d0) eqn:DM.
      + cbn [fst snd]. exists L1. constructor; auto.
        * cbn [filter]. rewrite (del_other _ _ _ ET). replace (d_min d0 <=? e_depth e) with false by (symmetry; apply Nat.leb_gt; apply Nat.ltb_lt in DM; exact DM). exact K6.
        * intros e0 a0 [[= <- <-] | I] D; [|apply (QT _ (incl_refl _) e0 a0 I D)]. destruct (is_pruned v e) eqn:IP.
          -- left. split; [reflexivity|]. right. apply is_pruned_in, IP.
          -- right. split; [reflexivity|]. split; [exact ET|]. intros Z. assert (Y : is_pruned v e = true) by (apply is_pruned_in; rewrite K8; apply in_or_app; auto). congruence.
      + assert (DL : d_min d0 <=? e_depth e = true) by (apply Nat.leb_le; apply Nat.ltb_ge in DM; exact DM).
        unfold delegate. destruct (callback w (d_user v) e) as (a & u) eqn:CB. cbn [d_max]. rewrite K4. pose proof (plays_more _ _ _ _ _ _ K7 CB) as PL.
        assert (DE : forall a0, del (d_min d0) (e, a0) = true) by (intros a0; rewrite (del_other _ _ _ ET); exact DL).
        assert (QT' : forall (d : list (list byte)), incl (d_pruned v) d -> forall e0 a0 b, In (e0, a0) ((e, b) :: l) -> del (d_min d0) (e0, a0) = false ->
          a0 = BFTW_PRUNE /\ (e_type e0 = BFS_ERROR \/ In (e_path e0) d) \/ a0 = BFTW_CONTINUE /\ e_type e0 <> BFS_ERROR /\ ~ In (e_path e0) (d_pruned d0)).
        { intros d IN e0 a0 b [[= <- <-] | I] D; [rewrite DE in D; discriminate|]. apply (QT d IN e0 a0 I D). }
        destruct a.
        * destruct (is_dir (e_type e) && (d_max d0 <=? e_depth e + 1)) eqn:MX; cbn [fst snd]; exists ((e, BFTW_CONTINUE) :: L1); constructor; cbn [set_bottom d_visit d_force d_min d_max d_log d_user d_pruned d_bottom]; auto.
          -- rewrite K5. reflexivity.
          -- cbn [filter map]. rewrite DE, K6. f_equal. unfold nest, cut. cbn [fst snd]. rewrite MX. reflexivity.
          -- cbn [forallb]. unfold cut at 1. cbn [fst snd]. rewrite MX. cbn [negb andb]. rewrite andb_false_r. reflexivity.
          -- intros e0 a0. apply QT'. apply incl_refl.
          -- rewrite K5. reflexivity.
          -- cbn [filter map]. rewrite DE, K6. f_equal. unfold nest, cut. cbn [fst snd]. rewrite MX. reflexivity.
          -- cbn [forallb]. unfold cut at 1. cbn [fst snd]. rewrite MX. exact K9.
          -- intros e0 a0. apply QT'. apply incl_refl.
        * cbn [fst snd]. exists ((e, BFTW_PRUNE) :: L1). destruct (is_dir (e_type e)) eqn:DI; constructor; cbn [set_pruned d_visit d_force d_min d_max d_log d_user d_pruned d_bottom]; auto.
          -- rewrite K5. reflexivity.
          -- cbn [filter map]. rewrite DE, K6. reflexivity.
          -- cbn [flat_map]. unfold prunes at 1. cbn [fst snd]. rewrite DI, K8. reflexivity.
          -- intros e0 a0. apply QT'. intros z Z. right. exact Z.
          -- rewrite K5. reflexivity.
          -- cbn [filter map]. rewrite DE, K6. reflexivity.
          -- cbn [flat_map]. unfold prunes at 1. cbn [fst snd]. rewrite DI, K8. reflexivity.
          -- intros e0 a0. apply QT'. apply incl_refl.
        * cbn [fst snd]. exists ((e, BFTW_STOP) :: L1). constructor; cbn [d_visit d_force d_min d_max d_log d_user d_pruned d_bottom]; auto.
          -- rewrite K5. reflexivity.
          -- cbn [filter map]. rewrite DE, K6. reflexivity.
          -- intros e0 a0. apply QT'. apply incl_refl.
  Qed.
End Log.
