From Coq Require Import String List ZArith NArith Arith Bool Lia Permutation.
From Coq Require Import Init.Byte.
From Verif Require Import WalkSpec BftwModel BftwSpec BftwWalk BftwProofs BftwFacts DeepenModel DeepenSpec DeepenFacts SearchModel UniqModel UniqSpec.
From Verif Require TrieModel CbModel CbSpec CbProofs.
Import ListNotations.

Definition ordinary (e : event) : bool := match e_type e with BFS_ERROR => false | _ => true end.
Definition is_pre (e : event) : bool := match e_visit e with BFTW_PRE => true | BFTW_POST => false end.

Section Search.
  Variable st : strategy.
  Variable w : env args.
  Variable omax : nat.
  Variable c : CbModel.ctx.
  Variable answers : pos -> CbModel.world.
  Variable ident : pos -> N * N.
  Variable type_at : pos -> ftype.
  Hypothesis US : unique_search st w omax c answers ident type_at.

  (** The visit on which a file is evaluated, if it is *)
  Definition late (e : event) : bool :=
    CbModel.post_order c && (CbModel.ids c || CbModel.is_dir (event_file e)) && (CbModel.f_depth (event_file e) <? CbModel.size_t (CbModel.maxdepth c))%N.
  Lemma evaluated_visit e x : fst (CbModel.eval_file c (event_file e) x) = CbModel.Evaluated -> is_pre e = negb (late e).
  Proof.
    unfold CbModel.eval_file. destruct (CbModel.exclude x CbModel.Continue) as [ex a]. destruct ex; [discriminate|]. destruct (CbModel.xargs_safe c && _); [discriminate|].
    fold (late e). unfold is_pre, event_file at 1. cbn [CbModel.f_visit]. unfold of_visit. destruct (e_visit e), (late e); cbn [andb negb fst]; try discriminate; auto.
  Qed.

  (** ** One call *)
  Definition known (u : args) (fresh : list pos) : Prop := CbProofs.Uinv omax (seen u) (map ident fresh) /\ NoDup (map ident fresh).
  Lemma id_dec (x y : N * N) : {x = y} + {x <> y}. Proof. decide equality; apply N.eq_dec. Qed.

  Lemma one_call u e fresh : known u fresh -> exists fresh', known (snd (callback w u e)) fresh' /\ incl fresh fresh' /\
    (fresh' = fresh \/ fresh' = e_pos e :: fresh) /\
    (ordinary e = true -> is_pre e = true -> In (ident (e_pos e)) (map ident fresh')) /\
    (ordinary e = true -> is_pre e = true -> fst (callback w u e) <> BFTW_PRUNE -> In (e_pos e) fresh') /\
    (evaluated (snd (callback w u e)) = evaluated u \/
     evaluated (snd (callback w u e)) = e_pos e :: evaluated u /\ ordinary e = true /\ is_pre e = negb (late e) /\ (is_pre e = true -> In (e_pos e) fresh')) /\
    (fresh' = e_pos e :: fresh -> ordinary e = true /\ is_pre e = true /\
       fst (callback w u e) = to_action (snd (CbModel.eval_file c (event_file e) (answers (e_pos e)))) /\
       (fst (CbModel.eval_file c (event_file e) (answers (e_pos e))) = CbModel.Evaluated -> evaluated (snd (callback w u e)) = e_pos e :: evaluated u)) /\
    (ordinary e = true -> is_pre e = false -> fst (CbModel.eval_file c (event_file e) (answers (e_pos e))) = CbModel.Evaluated ->
       evaluated (snd (callback w u e)) = e_pos e :: evaluated u).
  Proof.
    intros (UI & ND). rewrite (u_callback _ _ _ _ _ _ _ US). unfold unique_callback. destruct (u_ident _ _ _ _ _ _ _ US (e_pos e)) as (S & F & M1 & M2 & M3).
    assert (FI : CbSpec.fits (event_file e, answers (e_pos e))) by (unfold CbSpec.fits; cbn [snd]; rewrite S; destruct (ident (e_pos e)); exact F).
    destruct (CbProofs.unique_ok omax (u_omax _ _ _ _ _ _ _ US) c (event_file e) (answers (e_pos e)) (seen u) (map ident fresh) UI FI (u_unique _ _ _ _ _ _ _ US)) as (seen' & r & ids' & -> & J & U').
    unfold CbSpec.judged in J. destruct r as [o a]. cbn [fst snd evaluated].
    assert (OE : CbModel.is_error (event_file e) = negb (ordinary e)) by (unfold ordinary, event_file; cbn; destruct (e_type e); reflexivity). rewrite OE in J.
    assert (VE : CbModel.f_visit (event_file e) = if is_pre e then CbModel.Pre else CbModel.Post) by (unfold is_pre, event_file, of_visit; cbn; destruct (e_visit e); reflexivity). rewrite VE in J.
    destruct (ordinary e) eqn:OR; cbn [negb] in J.
    2:{ destruct J as (J & ->). injection J as -> ->. exists fresh. split; [split; assumption|]. split; [apply incl_refl|]. split; [auto|]. split; [discriminate|]. split; [discriminate|]. split; [auto|].
        split; [intros Z; exfalso; apply (f_equal (@length pos)) in Z; cbn in Z; lia|discriminate]. }
    destruct (is_pre e) eqn:PR.
    - rewrite S in J. destruct J as [(I & J & ->)|[(I & J & ->)|(_ & SC & _)]].
      + injection J as -> ->. exists fresh. split; [split; assumption|]. split; [apply incl_refl|]. split; [auto|]. split; [auto|]. split; [intros _ _ Z; exfalso; apply Z; reflexivity|]. split; [auto|].
        split; [intros Z; exfalso; apply (f_equal (@length pos)) in Z; cbn in Z; lia|discriminate].
      + exists (e_pos e :: fresh). split; [split; [exact U'|constructor; assumption]|]. split; [apply incl_tl, incl_refl|]. split; [auto|]. split; [intros _ _; left; reflexivity|]. split; [intros _ _ _; left; reflexivity|]. split.
        * destruct o; auto. right. split; [reflexivity|]. split; [reflexivity|]. split; [|intros _; left; reflexivity]. rewrite <- PR. apply (evaluated_visit e (answers (e_pos e))). rewrite <- J. reflexivity.
        * split; [|discriminate]. intros _. split; [reflexivity|]. split; [reflexivity|]. rewrite <- J. cbn [fst snd]. split; [reflexivity|]. intros ->. reflexivity.
      + exfalso. unfold CbSpec.scarce in SC. cbn [snd] in SC. destruct SC as [Z|[(n & Z)|Z]]; [congruence|rewrite M2 in Z; discriminate|congruence].
    - destruct J as (J & ->). exists fresh. split; [split; assumption|]. split; [apply incl_refl|]. split; [auto|]. split; [discriminate|]. split; [discriminate|]. split.
      + destruct o; auto. right. split; [reflexivity|]. split; [reflexivity|]. split; [|discriminate]. rewrite <- PR. apply (evaluated_visit e (answers (e_pos e))). rewrite <- J. reflexivity.
      + split; [intros Z; exfalso; apply (f_equal (@length pos)) in Z; cbn in Z; lia|]. intros _ _. rewrite <- J. cbn [fst]. intros ->. reflexivity.
  Qed.

  (** ** All calls *)
  Definition times (p : pos) (l : list pos) : nat := count_occ (list_eq_dec Nat.eq_dec) l p.
  Definition chances (p : pos) (l : list (event * action)) : nat :=
    length (filter (fun x => same_pos (e_pos (fst x)) p && ordinary (fst x) && Bool.eqb (is_pre (fst x)) (negb (late (fst x)))) l).

  Record sum (l : list (event * action)) (u : args) (fresh : list pos) : Prop := {
    s_known : known u fresh;
    s_met : forall e a, In (e, a) l -> ordinary e = true -> is_pre e = true -> In (ident (e_pos e)) (map ident fresh);
    s_fresh : forall e a, In (e, a) l -> ordinary e = true -> is_pre e = true -> a <> BFTW_PRUNE -> In (e_pos e) fresh;
    s_done : forall p, In p (evaluated u) -> exists e a, In (e, a) l /\ e_pos e = p /\ ordinary e = true /\ is_pre e = negb (late e) /\ (is_pre e = true -> In p fresh);
    s_count : forall p, times p (evaluated u) <= chances p l;
    s_owners : forall p, In p fresh -> exists e a, In (e, a) l /\ e_pos e = p /\ ordinary e = true /\ is_pre e = true /\
      a = to_action (snd (CbModel.eval_file c (event_file e) (answers p))) /\
      (fst (CbModel.eval_file c (event_file e) (answers p)) = CbModel.Evaluated -> In p (evaluated u));
    s_last : forall e a, In (e, a) l -> ordinary e = true -> is_pre e = false ->
      fst (CbModel.eval_file c (event_file e) (answers (e_pos e))) = CbModel.Evaluated -> In (e_pos e) (evaluated u)
  }.
  Lemma summed l u : plays w start l u -> exists fresh, sum l u fresh.
  Proof.
    induction 1 as [|e l v P IH].
    - exists []. constructor.
      1: split; [unfold known, start; cbn [seen map]; apply CbProofs.Uinv_init; exact (u_omax _ _ _ _ _ _ _ US)|constructor].
      4: { intros p; cbn; lia. }
      all: intros; contradiction.
    - destruct IH as (fresh & [K ME FR DO CO OW LA]). destruct (one_call v e fresh K) as (fresh' & K' & IN & FF & A & B & E & OO & LL).
      exists fresh'. constructor.
      + exact K'.
      + intros e1 a1 [Z|I] O1 P1; [injection Z as <- <-; auto|]. eapply incl_map; [exact IN|]. eauto.
      + intros e1 a1 [Z|I] O1 P1 N1; [injection Z as <- <-; auto|]. apply IN. eauto.
      + intros p I. destruct E as [E|(E & O & V & F)].
        * rewrite E in I. destruct (DO p I) as (e1 & a1 & I1 & P1 & O1 & V1 & F1). exists e1, a1. split; [right; exact I1|]. repeat split; auto.
        * rewrite E in I. destruct I as [<-|I]; [eexists; eexists; split; [left; reflexivity|]; repeat split; auto|].
          destruct (DO p I) as (e1 & a1 & I1 & P1 & O1 & V1 & F1). exists e1, a1. split; [right; exact I1|]. repeat split; auto.
      + intros p. specialize (CO p). unfold chances. cbn [filter fst].
        assert (MONO : length (filter (fun x => same_pos (e_pos (fst x)) p && ordinary (fst x) && Bool.eqb (is_pre (fst x)) (negb (late (fst x)))) l) <=
          length (if same_pos (e_pos e) p && ordinary e && Bool.eqb (is_pre e) (negb (late e)) then (e, fst (callback w v e)) :: filter (fun x => same_pos (e_pos (fst x)) p && ordinary (fst x) && Bool.eqb (is_pre (fst x)) (negb (late (fst x)))) l
            else filter (fun x => same_pos (e_pos (fst x)) p && ordinary (fst x) && Bool.eqb (is_pre (fst x)) (negb (late (fst x)))) l)) by (destruct (same_pos (e_pos e) p && _ && _); cbn [length]; lia).
        unfold chances in CO. destruct E as [E|(E & O & V & F)]; rewrite E; [lia|]. unfold times in *. cbn [count_occ]. destruct (list_eq_dec Nat.eq_dec (e_pos e) p) as [EQ|NE]; [|lia].
        assert (SP : same_pos (e_pos e) p = true) by (unfold same_pos; destruct (list_eq_dec Nat.eq_dec (e_pos e) p); congruence). rewrite SP, O, V, eqb_reflx. cbn [andb length]. lia.
      + intros p I. assert (KE : forall q, In q (evaluated v) -> In q (evaluated (snd (callback w v e)))) by (intros q Q; destruct E as [E|(E & _)]; rewrite E; [exact Q|right; exact Q]).
        destruct FF as [->|FF].
        * destruct (OW p I) as (e1 & a1 & I1 & P1 & O1 & V1 & Y1 & X1). exists e1, a1. split; [right; exact I1|]. repeat split; auto.
        * rewrite FF in I. destruct I as [<-|I].
          -- destruct (OO FF) as (O & V & Y & X). eexists; eexists. split; [left; reflexivity|]. split; [reflexivity|]. split; [exact O|]. split; [exact V|]. split; [exact Y|]. intros Z. rewrite (X Z). left. reflexivity.
          -- destruct (OW p I) as (e1 & a1 & I1 & P1 & O1 & V1 & Y1 & X1). exists e1, a1. split; [right; exact I1|]. repeat split; auto.
      + intros e1 a1 [Z|I] O1 P1 V1; [injection Z as <- <-; rewrite (LL O1 P1 V1); left; reflexivity|]. specialize (LA e1 a1 I O1 P1 V1).
        destruct E as [E|(E & _)]; rewrite E; [exact LA|right; exact LA].
  Qed.

  (** ** What is needed of the visits *)
  Record sound (l : list (event * action)) : Prop := {
    v_types : forall e a, In (e, a) l -> ordinary e = true -> e_type e = type_at (e_pos e);
    v_ok : forall e a, In (e, a) l -> event_ok w e;
    v_once : forall p b, length (filter (fun x => same_pos (e_pos (fst x)) p && ordinary (fst x) && Bool.eqb (is_pre (fst x)) b) l) <= 1;
    v_entry : forall e a, In (e, a) l -> ordinary e = true -> is_pre e = false -> e_type e = BFS_DIR ->
      exists e' a', In (e', a') l /\ e_pos e' = e_pos e /\ ordinary e' = true /\ is_pre e' = true /\ a' = BFTW_CONTINUE;
    v_first : fl_post_order w = false -> forall e a, In (e, a) l -> is_pre e = true
  }.

  Lemma late_same l e e' a a' : sound l -> In (e, a) l -> In (e', a') l -> ordinary e = true -> ordinary e' = true -> e_pos e = e_pos e' -> late e = late e'.
  Proof.
    intros S I I' O O' P. pose proof (v_types _ S _ _ I O) as T. pose proof (v_types _ S _ _ I' O') as T'. destruct (v_ok _ S _ _ I) as (_ & D & _). destruct (v_ok _ S _ _ I') as (_ & D' & _).
    unfold late, event_file. cbn [CbModel.is_dir CbModel.f_depth]. rewrite T, T', D, D', P. reflexivity.
  Qed.

  Lemma inj_on {A B} (f : A -> B) l x y : NoDup (map f l) -> In x l -> In y l -> f x = f y -> x = y.
  Proof.
    induction l as [|z l IH]; intros ND; [intros []|]. cbn [map] in ND. inversion ND as [|? ? N ND']; subst. intros [->|I] [->|J] E; auto.
    - exfalso. apply N. rewrite E. apply in_map, J.
    - exfalso. apply N. rewrite <- E. apply in_map, I.
  Qed.
  Lemma nodup_map {A B} (f : A -> B) l : NoDup l -> (forall x y, In x l -> In y l -> f x = f y -> x = y) -> NoDup (map f l).
  Proof.
    induction 1 as [|x l N ND IH]; intros INJ; [constructor|]. cbn [map]. constructor.
    - intros I. apply in_map_iff in I as (y & E & I). apply N. rewrite <- (INJ y x); auto; [right; exact I|left; reflexivity].
    - apply IH. intros a b A1 B1. apply INJ; right; assumption.
  Qed.

  Lemma evaluated_nodup l u : plays w start l u -> sound l -> NoDup (evaluated u) /\ exists fresh, NoDup (map ident fresh) /\
    forall p, In p (evaluated u) -> (type_at p = BFS_DIR \/ CbModel.post_order c = false \/ CbModel.ids c = false) -> In p fresh.
  Proof.
    intros P S. destruct (summed l u P) as (fresh & [K ME FR DO CO OW LA]). split.
    - apply (NoDup_count_occ (list_eq_dec Nat.eq_dec)). intros p. etransitivity; [apply CO|].
      (* all chances of a file are on the same kind of visit *)
      destruct (filter (fun x => same_pos (e_pos (fst x)) p && ordinary (fst x)) l) as [|[e0 a0] r] eqn:FI.
      + unfold chances. assert (Z : filter (fun x => same_pos (e_pos (fst x)) p && ordinary (fst x) && Bool.eqb (is_pre (fst x)) (negb (late (fst x)))) l = []); [|rewrite Z; cbn; lia].
        clear - FI. induction l as [|x l IH]; [reflexivity|]. cbn [filter] in *. destruct (same_pos (e_pos (fst x)) p && ordinary (fst x)); [discriminate|]. cbn [andb]. exact (IH FI).
      + assert (I0 : In (e0, a0) (filter (fun x => same_pos (e_pos (fst x)) p && ordinary (fst x)) l)) by (rewrite FI; left; reflexivity).
        apply filter_In in I0. destruct I0 as (I0 & X0). apply andb_true_iff in X0. destruct X0 as (P0 & O0). cbn [fst] in P0, O0.
        assert (EP0 : e_pos e0 = p) by (unfold same_pos in P0; destruct (list_eq_dec Nat.eq_dec (e_pos e0) p); [assumption|discriminate]).
        etransitivity; [|exact (v_once _ S p (negb (late e0)))]. unfold chances. apply Nat.eq_le_incl. f_equal. apply filter_ext_in. intros [e a] I. cbn [fst].
        destruct (same_pos (e_pos e) p) eqn:SP; [|reflexivity]. destruct (ordinary e) eqn:O; [|reflexivity]. cbn [andb].
        assert (EP : e_pos e = p) by (unfold same_pos in SP; destruct (list_eq_dec Nat.eq_dec (e_pos e) p); [assumption|discriminate]).
        rewrite (late_same l e e0 a a0 S I I0 O O0); [reflexivity|congruence].
    - exists fresh. split; [apply K|]. intros p I T. destruct (DO p I) as (e & a & I1 & P1 & O1 & V1 & F1). destruct (is_pre e) eqn:PR; [auto|].
      assert (LT : late e = true) by (destruct (late e); [reflexivity|discriminate]).
      destruct (v_entry _ S _ _ I1 O1 PR) as (e' & a' & I' & P' & O' & PR' & ->).
      + destruct T as [T|T]; [rewrite (v_types _ S _ _ I1 O1), P1; exact T|]. unfold late in LT. destruct T as [T|T]; rewrite T in LT; [discriminate|].
        cbn [orb event_file CbModel.is_dir] in LT. destruct (e_type e); try reflexivity; rewrite andb_false_r in LT; discriminate.
      + rewrite <- P1, <- P'. apply (FR _ _ I' O' PR'). discriminate.
  Qed.
  Lemma once l u : plays w start l u -> sound l -> (CbModel.post_order c = false \/ CbModel.ids c = false) -> NoDup (map ident (evaluated u)).
  Proof.
    intros P S T. destruct (evaluated_nodup l u P S) as (ND & fresh & K & INC). apply nodup_map; [exact ND|]. intros x y IX IY. apply (inj_on ident fresh); auto.
  Qed.
  Lemma once_dirs l u : plays w start l u -> sound l -> NoDup (map ident (filter (fun p => is_dir (type_at p)) (evaluated u))).
  Proof.
    intros P S. destruct (evaluated_nodup l u P S) as (ND & fresh & K & INC). apply nodup_map; [apply NoDup_filter, ND|]. intros x y IX IY. apply filter_In in IX as (IX & DX). apply filter_In in IY as (IY & DY).
    unfold is_dir in DX, DY. apply (inj_on ident fresh); auto; apply INC; auto; left; [destruct (type_at x)|destruct (type_at y)]; congruence.
  Qed.

  (** Every last visit that is due is made. *)
  Definition full (l : list (event * action)) : Prop := forall e a, In (e, a) l -> ordinary e = true -> is_pre e = true -> (e_type e = BFS_DIR -> a = BFTW_CONTINUE) -> late e = true ->
    exists e' a', In (e', a') l /\ e_pos e' = e_pos e /\ ordinary e' = true /\ is_pre e' = false.

  Lemma evaluation e : event_ok w e -> unlimited c answers w ->
    (is_pre e = negb (late e) -> fst (CbModel.eval_file c (event_file e) (answers (e_pos e))) = CbModel.Evaluated) /\
    (is_pre e = true -> late e = true -> snd (CbModel.eval_file c (event_file e) (answers (e_pos e))) = CbModel.Continue).
  Proof.
    intros (N1 & D1 & _) (X1 & X2 & X3 & X4 & X5). pose proof (X5 _ N1) as L1. unfold CbModel.eval_file. rewrite X4, X1. fold (late e). rewrite X2. cbn [andb].
    change (CbModel.size_t 0) with 0%N. rewrite (proj2 (N.leb_le 0 _)) by lia.
    assert (MX : (CbModel.f_depth (event_file e) <=? CbModel.size_t (CbModel.maxdepth c))%N = true).
    { rewrite X3. change (CbModel.size_t (2 ^ 31 - 1)) with 2147483647%N. unfold event_file. cbn [CbModel.f_depth]. apply N.leb_le. rewrite D1. lia. }
    rewrite MX. unfold event_file at 1 4. cbn [CbModel.f_visit]. unfold is_pre. split.
    - destruct (e_visit e), (late e); cbn [of_visit negb andb fst]; try discriminate; reflexivity.
    - intros PR LT. rewrite LT. destruct (e_visit e); [|discriminate]. cbn [of_visit andb snd]. unfold late in LT. apply andb_true_iff in LT as (_ & LT). apply N.ltb_lt in LT.
      rewrite (proj2 (N.leb_gt _ _) LT), X3. reflexivity.
  Qed.

  Lemma some l u : plays w start l u -> sound l -> (fl_post_order w = true -> full l) -> unlimited c answers w ->
    forall e a, In (e, a) l -> ordinary e = true -> is_pre e = true -> exists q, In q (evaluated u) /\ ident q = ident (e_pos e).
  Proof.
    intros P S FU UL e a I O PR. destruct (summed l u P) as (fresh & [K ME FR DO CO OW LA]).
    pose proof (ME e a I O PR) as M. apply in_map_iff in M as (q & E & Q). exists q. split; [|exact E]. destruct (OW q Q) as (e1 & a1 & I1 & P1 & O1 & V1 & A1 & X).
    destruct (evaluation e1 (v_ok _ S _ _ I1) UL) as (EV & EC). rewrite P1 in EV, EC. destruct (late e1) eqn:LT; [|apply X, EV; rewrite V1; reflexivity].
    assert (PO : fl_post_order w = true). { rewrite <- (u_post _ _ _ _ _ _ _ US). unfold late in LT. destruct (CbModel.post_order c); [reflexivity|discriminate]. }
    destruct (FU PO e1 a1 I1 O1 V1) as (e2 & a2 & I2 & P2 & O2 & V2); [intros _; rewrite A1, (EC V1 eq_refl); reflexivity|exact LT|].
    rewrite <- P1, <- P2. apply (LA e2 a2 I2 O2 V2). destruct (evaluation e2 (v_ok _ S _ _ I2) UL) as (EV2 & _). apply EV2. rewrite V2, (late_same l e2 e1 a2 a1 S I2 I1 O2 O1) by congruence. rewrite LT. reflexivity.
  Qed.

  (** ** The searches *)
  Lemma filter_le1 {A} (f : A -> bool) l : (forall l1 x l2, l = l1 ++ x :: l2 -> f x = true -> filter f l2 = []) -> length (filter f l) <= 1.
  Proof.
    induction l as [|x l IH]; intros H; [cbn; lia|]. cbn [filter]. destruct (f x) eqn:F.
    - rewrite (H [] x l eq_refl F). cbn. lia.
    - apply IH. intros l1 y l2 -> Y. apply (H (x :: l1) y l2 eq_refl Y).
  Qed.
  Lemma order_suffix {U} (v : env U) l1 l2 : in_order v (l1 ++ l2) -> in_order v l2.
  Proof. induction l1 as [|x l1 IH]; intros O; [exact O|]. cbn [app] in O. inversion O; subst. auto. Qed.
  Lemma order_once {U} (v : env U) l p b : in_order v l -> length (filter (fun x => same_pos (e_pos (fst x)) p && ordinary (fst x) && Bool.eqb (is_pre (fst x)) b) l) <= 1.
  Proof.
    intros O. apply filter_le1. intros l1 [e a] l2 -> F. apply order_suffix in O. cbn [fst] in F. apply andb_true_iff in F as (F & F3). apply andb_true_iff in F as (F1 & F2).
    assert (EP : e_pos e = p) by (unfold same_pos in F1; destruct (list_eq_dec Nat.eq_dec (e_pos e) p); [assumption|discriminate]). apply eqb_prop in F3.
    inversion O as [|? ? ? O' _ LA _ FI _ _ _]; subst. destruct (filter _ l2) as [|[e1 a1] r] eqn:Q; [reflexivity|exfalso].
    assert (I1 : In (e1, a1) (filter (fun x => same_pos (e_pos (fst x)) (e_pos e) && ordinary (fst x) && Bool.eqb (is_pre (fst x)) (is_pre e)) l2)) by (rewrite Q; left; reflexivity).
    apply filter_In in I1 as (I1 & G). cbn [fst] in G. apply andb_true_iff in G as (G & G3). apply andb_true_iff in G as (G1 & G2). apply eqb_prop in G3.
    assert (EP1 : e_pos e1 = e_pos e) by (unfold same_pos in G1; destruct (list_eq_dec Nat.eq_dec (e_pos e1) (e_pos e)); [assumption|discriminate]).
    destruct (is_pre e) eqn:PR.
    - destruct FI as [Z|(Z & _)].
      + unfold is_pre in PR. destruct (e_visit e); [reflexivity|discriminate].
      + assert (J : In (e1, a1) (visits_of (e_pos e) l2)) by (apply in_visits; auto). rewrite Z in J. destruct J.
      + unfold ordinary in F2. rewrite Z in F2. discriminate.
    - apply (LA (e1, a1) [] (e_pos e) I1); auto. unfold is_pre in G3. cbn [fst]. destruct (e_visit e1); [discriminate|reflexivity].
  Qed.
  Lemma order_types {U} (v : env U) l : (forall n p, look v n p = type_at p) -> in_order v l -> forall e a, In (e, a) l -> ordinary e = true -> e_type e = type_at (e_pos e).
  Proof.
    intros ST. induction 1 as [|e0 a0 l O IH _ _ _ _ TY _ _]; intros e a I OR; [destruct I|]. destruct I as [E | I]; [|exact (IH e a I OR)].
    injection E as <- <-. destruct TY as [(n & T) | (T & _)]; [rewrite T; apply ST|]. unfold ordinary in OR. rewrite T in OR. discriminate.
  Qed.
  Lemma order_post {U} (v : env U) l : in_order v l -> fl_post_order v = false -> forall e a, In (e, a) l -> is_pre e = true.
  Proof.
    intros O NP. induction O as [|e0 a0 l O IH _ _ _ _ _ PO _]; intros e a I; [destruct I|]. destruct I as [E | I]; [|exact (IH e a I)]. injection E as <- <-.
    unfold is_pre. destruct (e_visit e0); [reflexivity|]. rewrite (proj1 (PO eq_refl)) in NP. discriminate.
  Qed.

  Lemma walk_sound ok s : walked w start ok s -> sound (trace s).
  Proof.
    intros [_ _ OK O _ _]. constructor.
    - apply (order_types w); [apply (u_still _ _ _ _ _ _ _ US)|exact O].
    - intros e a I. rewrite Forall_forall in OK. exact (OK _ I).
    - intros p b. apply (order_once w), O.
    - intros e a I OR PR _. apply in_split in I as (l1 & l2 & EQ). rewrite EQ in *. apply order_suffix in O. inversion O as [|? ? ? _ _ _ _ _ _ PO _]; subst.
      destruct PO as (_ & [e1 a1] & I1 & P1 & E1 & E2 & E3 & _); [unfold is_pre in PR; destruct (e_visit e); [discriminate|reflexivity]|].
      exists e1, a1. split; [apply in_app_iff; right; right; exact I1|]. split; [exact P1|]. unfold ordinary, is_pre. rewrite E1, E2. auto.
    - intros NP. exact (order_post w _ O NP).
  Qed.

  Lemma deep_sound pre post : in_order (preorder w) pre -> Forall (fun x => event_ok w (fst x)) pre -> lasts w type_at pre post ->
    (fl_post_order w = false -> post = []) -> sound (post ++ pre).
  Proof.
    intros O OK LS PP. rewrite Forall_forall in OK. destruct LS as [L1 L2 L3 L4 L5]. rewrite Forall_forall in L1, L2.
    assert (STP : forall n p, look (preorder w) n p = type_at p) by exact (u_still _ _ _ _ _ _ _ US).
    pose proof (order_post (preorder w) pre O eq_refl) as PRE.
    assert (POS : forall e a, In (e, a) post -> ordinary e = true -> is_pre e = false /\ e_type e = type_at (e_pos e)).
    { intros e a I OR. destruct (L2 _ I) as [Z|(Z1 & Z2)]; cbn [fst] in *; [unfold ordinary in OR; rewrite Z in OR; discriminate|]. unfold is_pre. rewrite Z1. auto. }
    constructor.
    - intros e a I OR. apply in_app_iff in I as [I|I]; [exact (proj2 (POS _ _ I OR))|]. exact (order_types (preorder w) pre STP O e a I OR).
    - intros e a I. apply in_app_iff in I as [I|I]; [exact (L1 _ I)|exact (OK _ I)].
    - intros p b. rewrite filter_app, app_length. pose proof (order_once (preorder w) pre p b O) as C1. destruct b.
      + assert (Z : filter (fun x => same_pos (e_pos (fst x)) p && ordinary (fst x) && Bool.eqb (is_pre (fst x)) true) post = []); [|rewrite Z; exact C1].
        destruct (filter _ post) as [|[e a] r] eqn:Q; [reflexivity|exfalso].
        assert (I : In (e, a) (filter (fun x => same_pos (e_pos (fst x)) p && ordinary (fst x) && Bool.eqb (is_pre (fst x)) true) post)) by (rewrite Q; left; reflexivity).
        apply filter_In in I as (I & G). cbn [fst] in G. apply andb_true_iff in G as (G & G3). apply andb_true_iff in G as (G1 & G2). destruct (POS _ _ I G2) as (Z & _). rewrite Z in G3. discriminate.
      + assert (Z : filter (fun x => same_pos (e_pos (fst x)) p && ordinary (fst x) && Bool.eqb (is_pre (fst x)) false) pre = []).
        { destruct (filter _ pre) as [|[e a] r] eqn:Q; [reflexivity|exfalso].
          assert (I : In (e, a) (filter (fun x => same_pos (e_pos (fst x)) p && ordinary (fst x) && Bool.eqb (is_pre (fst x)) false) pre)) by (rewrite Q; left; reflexivity).
          apply filter_In in I as (I & G). cbn [fst] in G. apply andb_true_iff in G as (_ & G3). rewrite (PRE _ _ I) in G3. discriminate. }
        rewrite Z. cbn [length]. rewrite Nat.add_0_r. clear - L4.
        assert (X : forall l, NoDup (places l) -> length (filter (fun x => same_pos (e_pos (fst x)) p && ordinary (fst x)) l) <= 1).
        { clear. intros l ND. unfold places in ND. apply NoDup_rev in ND. rewrite rev_involutive in ND. apply filter_le1. intros l1 [e a] l2 -> F. cbn [fst] in F. apply andb_true_iff in F as (F1 & F2).
          rewrite filter_app, map_app in ND. assert (OE : (match e_type (fst (e, a)) with BFS_ERROR => false | _ => true end) = true) by exact F2. cbn [filter] in ND. rewrite OE in ND. cbn [map] in ND. apply NoDup_remove in ND as (_ & ND).
          destruct (filter (fun x => same_pos (e_pos (fst x)) p && ordinary (fst x)) l2) as [|[e1 a1] r] eqn:Q; [reflexivity|exfalso]. assert (I : In (e1, a1) (filter (fun x => same_pos (e_pos (fst x)) p && ordinary (fst x)) l2)) by (rewrite Q; left; reflexivity).
          apply filter_In in I as (I & G). cbn [fst] in G. apply andb_true_iff in G as (G1 & G2). apply ND. apply in_app_iff. right. apply in_map_iff. exists (e1, a1). split.
          - cbn [fst]. unfold same_pos in F1, G1. destruct (list_eq_dec Nat.eq_dec (e_pos e) p), (list_eq_dec Nat.eq_dec (e_pos e1) p); congruence.
          - apply filter_In. split; [exact I|exact G2]. }
        specialize (X post L4). etransitivity; [|exact X]. clear. induction post as [|x l IH]; [cbn; lia|]. cbn [filter]. destruct (same_pos (e_pos (fst x)) p && ordinary (fst x)); cbn [andb]; [destruct (Bool.eqb _ _); cbn [length]; lia|exact IH].
    - intros e a I OR PR DI. apply in_app_iff in I as [I|I]; [|rewrite (PRE _ _ I) in PR; discriminate].
      destruct (L3 (e_pos e)) as (e' & a' & I' & P' & T' & C').
      { unfold places. apply -> in_rev. apply in_map_iff. exists (e, a). split; [reflexivity|]. apply filter_In. split; [exact I|exact OR]. }
      exists e', a'. assert (OR' : ordinary e' = true) by (unfold ordinary; destruct (e_type e'); congruence).
      split; [apply in_app_iff; right; exact I'|]. split; [exact P'|]. split; [exact OR'|]. split; [exact (PRE _ _ I')|]. apply C'.
      rewrite (order_types (preorder w) pre STP O e' a' I' OR'), P'. rewrite <- DI. symmetry. exact (proj2 (POS _ _ I OR)).
    - intros NP. rewrite (PP NP). exact PRE.
  Qed.

  Lemma late_dir e : st <> SIds -> late e = true -> e_type e = BFS_DIR.
  Proof.
    intros NS LT. unfold late in LT. rewrite (u_ids _ _ _ _ _ _ _ US) in LT. assert (IS : is_ids st = false) by (clear - NS; destruct st; try reflexivity; congruence). rewrite IS in LT.
    cbn [orb event_file CbModel.is_dir] in LT. destruct (e_type e); try reflexivity; rewrite andb_false_r in LT; discriminate.
  Qed.
  Lemma walk_full s : st <> SIds -> walked w start true s -> fl_post_order w = true -> fl_prune_mounts w = false -> full (trace s).
  Proof.
    intros NS [_ _ OK O (_ & VR) _] PO PM e a I OR PR AC LT. pose proof (late_dir e NS LT) as DI. specialize (AC DI). subst a.
    assert (EN : enters w (e, BFTW_CONTINUE)) by (unfold enters; rewrite PM; unfold is_pre in PR; destruct (e_visit e); [auto|discriminate]).
    destruct (VR (e_pos e)) as (V1 & V2). assert (IV : In (e, BFTW_CONTINUE) (visits_of (e_pos e) (rev (trace s)))) by (apply in_visits; split; [rewrite <- in_rev; exact I|reflexivity]).
    destruct (reached_dec w (e_pos e) (rev (trace s))) as [RE|NR]; [|exfalso; rewrite V2 in IV; [destruct IV|intros (Z & _); exact (NR Z)]].
    destruct (skipped w (e_pos e)) eqn:SK; [exfalso; rewrite V2 in IV; [destruct IV|intros (_ & Z); discriminate]|].
    destruct (V1 (conj RE eq_refl)) as (e1 & a1 & rest & VI & PV & E1 & E2). destruct (enters_dec w (e1, a1)) as [EE|NE].
    - destruct (E1 EE) as (errs & posts & -> & _ & PP). rewrite PO in PP. destruct PP as (e2 & a2 & -> & P2).
      assert (I2 : In (e2, a2) (visits_of (e_pos e) (rev (trace s)))) by (rewrite VI; right; apply in_app_iff; right; left; reflexivity). apply in_visits in I2 as (I2 & Q2). cbn [fst] in Q2. rewrite <- in_rev in I2.
      exists e2, a2. split; [exact I2|]. split; [exact Q2|]. split; [|unfold is_pre; rewrite P2; reflexivity].
      apply in_split in I2 as (l1 & l2 & EQ). pose proof O as O'. rewrite EQ in O'. apply order_suffix in O'. inversion O' as [|? ? ? _ _ _ _ _ TY _ _]; subst. destruct TY as [(n & TY)|(_ & _ & Z & _)]; [|congruence].
      unfold ordinary. rewrite TY, (u_still _ _ _ _ _ _ _ US), Q2, <- (order_types w _ (u_still _ _ _ _ _ _ _ US) O _ _ I OR), DI. reflexivity.
    - rewrite VI, (E2 NE) in IV. destruct IV as [Z|[]]. injection Z as -> ->. contradiction.
  Qed.
  Lemma deep_full pre post : (forall e a, In (e, a) pre -> ordinary e = true -> (e_type e = BFS_DIR -> a = BFTW_CONTINUE) -> late e = true -> is_pre e = true -> In (e_pos e) (places post)) ->
    Forall (fun x => e_type (fst x) = BFS_ERROR \/ e_visit (fst x) = BFTW_POST /\ e_type (fst x) = type_at (e_pos (fst x))) post -> full (post ++ pre).
  Proof.
    intros H L2 e a I OR PR AC LT. rewrite Forall_forall in L2.
    assert (IP : In (e_pos e) (places post)).
    { apply in_app_iff in I as [I|I]; [|eauto]. exfalso. destruct (L2 _ I) as [Z|(Z & _)]; cbn [fst] in Z; [unfold ordinary in OR; rewrite Z in OR; discriminate|unfold is_pre in PR; rewrite Z in PR; discriminate]. }
    unfold places in IP. apply in_rev in IP. apply in_map_iff in IP as ([e2 a2] & Q2 & I2). apply filter_In in I2 as (I2 & O2). cbn [fst] in *. exists e2, a2. split; [apply in_app_iff; left; exact I2|]. split; [exact Q2|]. split; [exact O2|].
    destruct (L2 _ I2) as [Z|(Z & _)]; cbn [fst] in Z; [rewrite Z in O2; discriminate|unfold is_pre; rewrite Z; reflexivity].
  Qed.

  Lemma searched : exists ok v l, bftw st w start = Some (ok, v) /\ plays w start l v /\ sound l /\
    (ok = true -> fl_post_order w = true -> fl_prune_mounts w = false -> full l).
  Proof.
    assert (X : (st = SBfs \/ st = SDfs) \/ ((st = SIds \/ st = SEds) /\ steady w type_at /\ distinct w)).
    { pose proof (u_strategy _ _ _ _ _ _ _ US) as H. destruct st; [left; left; reflexivity|left; right; reflexivity|right|right]; (split; [auto|]); destruct H as (H1 & H2); (split; [|exact H2]); intros n p N; (split; [apply (u_still _ _ _ _ _ _ _ US)|exact (H1 p N)]). }
    pose proof (u_named _ _ _ _ _ _ _ US) as NM. destruct X as [X | (X & SD & DI)].
    - destruct (walk_ok w start NM) as (ok & s & E & K). exists ok, (user s), (trace s). split; [destruct X as [-> | ->]; cbn [bftw]; rewrite E; reflexivity|].
      split; [exact (wk_plays _ _ _ _ K)|]. split; [exact (walk_sound ok s K)|]. intros ->. apply walk_full; [destruct X; congruence|exact K].
    - destruct X as [X | X].
      + destruct (ids_searched w type_at start NM SD DI) as (ok & s & pre & post & E & _ & LO & P & O & K & BD & V & PO & ST & LS & _ & AL & _).
        exists ok, (d_user (user s)), (post ++ pre). split; [rewrite X; cbn [bftw]; rewrite E; reflexivity|]. split; [exact P|]. split; [apply deep_sound; auto; intros Z; rewrite Z in PO; exact PO|].
        intros OKT PP PM. apply deep_full; [|exact (ls_types _ _ _ _ LS)]. intros e a I OR AC _ _. apply (AL PP OKT). exists e, a. split; [exact I|]. split; [reflexivity|]. split; [unfold ordinary in OR; destruct (e_type e); congruence|exact AC].
      + destruct (eds_searched w type_at start NM SD DI) as (ok & s & pre & post & E & _ & LO & P & O & K & BD & V & PO & ST & LS & _ & AL & _).
        exists ok, (d_user (user s)), (post ++ pre). split; [rewrite X; cbn [bftw]; rewrite E; reflexivity|]. split; [exact P|]. split; [apply deep_sound; auto; intros Z; rewrite Z in PO; exact PO|].
        intros OKT PP PM. apply deep_full; [|exact (ls_types _ _ _ _ LS)]. intros e a I OR AC LT PR. apply (AL PP OKT).
        assert (D : e_type e = BFS_DIR) by (apply late_dir; [congruence|exact LT]). exists (e, a). split; [exact I|]. split; [reflexivity|]. unfold enters. rewrite (AC D), D, PM. unfold is_pre in PR. destruct (e_visit e); [auto|discriminate].
  Qed.

  Lemma unique_once : (st = SIds -> fl_post_order w = false) -> exists ok v, bftw st w start = Some (ok, v) /\ NoDup (map ident (evaluated v)).
  Proof.
    intros NI. destruct searched as (ok & v & l & E & P & S & _). exists ok, v. split; [exact E|]. apply (once l v P S).
    rewrite (u_post _ _ _ _ _ _ _ US), (u_ids _ _ _ _ _ _ _ US). destruct st; auto.
  Qed.
  Lemma unique_dirs : exists ok v, bftw st w start = Some (ok, v) /\ NoDup (map ident (filter (fun p => is_dir (type_at p)) (evaluated v))).
  Proof. destruct searched as (ok & v & l & E & P & S & _). exists ok, v. split; [exact E|]. exact (once_dirs l v P S). Qed.

  Lemma unique_some : unlimited c answers w -> (fl_post_order w = true -> fl_prune_mounts w = false) ->
    exists ok v calls, bftw st w start = Some (ok, v) /\ plays w start calls v /\
    (fl_post_order w = false \/ ok = true -> forall e a, In (e, a) calls -> e_visit e = BFTW_PRE -> e_type e <> BFS_ERROR -> exists q, In q (evaluated v) /\ ident q = ident (e_pos e)).
  Proof.
    intros UL PM. destruct searched as (ok & v & l & E & P & S & FU). exists ok, v, l. split; [exact E|]. split; [exact P|]. intros H e a I VE NE.
    assert (O : ordinary e = true) by (unfold ordinary; destruct (e_type e); congruence).
    apply (some l v P S) with (a := a); auto; [|unfold is_pre; rewrite VE; reflexivity]. intros PO. destruct H as [H|H]; [congruence|]. apply FU; auto.
  Qed.
End Search.

(** ** A tree with two hard links, and a directory with two names *)
Definition bytes (s : string) : list byte := list_byte_of_string s.
Definition dir s kids := Node {| name := bytes s; broken := false |} kids.
Definition typed (p : pos) : ftype :=
  match p with [_] => BFS_DIR | [k; _] => if Nat.ltb k 2 then BFS_OTHER 8 else BFS_DIR | _ => BFS_OTHER 8 end.
Definition identity (p : pos) : N * N :=
  (7%N, match p with [_] => 1%N | [k; _] => if Nat.ltb k 2 then 2%N else 3%N | _ => 4%N end).
Definition answered (p : pos) : CbModel.world :=
  CbModel.mkWorld (Some (identity p)) {| TrieModel.a_leaf := true; TrieModel.a_jump := fun _ => true; TrieModel.a_node := true |} (fun a => (false, a)) (fun a => a).
Definition search (st : strategy) (post : bool) : CbModel.ctx := CbModel.mkCtx true false 0 (2 ^ 31 - 1) post (is_ids st).
Definition tree_for (st : strategy) (post : bool) : env args :=
  {| strat := BFTW_BFS; fl_sort := false; fl_buffer := false; fl_stat := false; fl_post_order := post; fl_recover := true; fl_skip_mounts := false; fl_prune_mounts := false;
     nthreads := 1; roots := [dir "d" [dir "a" []; dir "b" []; dir "s" [dir "x" []]; dir "t" [dir "x" []]]]; callback := unique_callback 8 (search st post) answered; collate := fun _ _ => true;
     must_stat := fun _ => true; whiteout := fun _ => false; mounted := fun _ => false; look := fun _ p => typed p; choose := fun n => 0; junk := "?"%byte |}.
Lemma tree_meets st post : unique_search st (tree_for st post) 8 (search st post) answered identity typed /\ unlimited (search st post) answered (tree_for st post).
Proof.
  split.
  - constructor; try reflexivity.
    + lia.
    + intros p. split; [reflexivity|]. split; [|auto]. unfold identity. cbn [fst snd]. split; [reflexivity|]. destruct p as [|k [|j [|i p]]]; try reflexivity. destruct (k <? 2); reflexivity.
    + apply named_all. vm_compute. reflexivity.
    + assert (X : (forall p, node_at (tree_for st post) p <> None -> typed p <> BFS_ERROR) /\ distinct (tree_for st post)); [split|destruct st; auto].
      * intros p _. unfold typed. destruct p as [|k [|j [|i p]]]; try discriminate. destruct (k <? 2); discriminate.
      * apply distinct_all. vm_compute. repeat constructor; cbn; intuition discriminate.
  - repeat split. intros p N. apply all_pos_in in N. assert (F : forallb (fun p => length p <=? 3) (all_pos (tree_for st post)) = true) by (vm_compute; reflexivity).
    rewrite forallb_forall in F. specialize (F p N). apply Nat.leb_le in F. lia.
Qed.
Lemma twice : exists w omax c answers ident type_at v,
  unique_search SIds w omax c answers ident type_at /\ fl_post_order w = true /\ unlimited c answers w /\
  bftw SIds w start = Some (true, v) /\ ~ NoDup (map ident (evaluated v)).
Proof.
  assert (X : option_map (fun r => (fst r, map identity (evaluated (snd r)))) (bftw SIds (tree_for SIds true) start) = Some (true, [(7, 1); (7, 3); (7, 2); (7, 2); (7, 4)]%N)) by (vm_compute; reflexivity).
  destruct (bftw SIds (tree_for SIds true) start) as [[ok v]|] eqn:E; [|discriminate]. cbn [option_map fst snd] in X. injection X as -> X.
  exists (tree_for SIds true), 8, (search SIds true), answered, identity, typed, v. destruct (tree_meets SIds true) as (A & B). split; [exact A|]. split; [reflexivity|]. split; [exact B|]. split; [exact E|].
  rewrite X. intros ND. inversion ND as [|? ? _ N1]; subst. inversion N1 as [|? ? _ N2]; subst. inversion N2 as [|? ? N3 _]; subst. apply N3. left. reflexivity.
Qed.
