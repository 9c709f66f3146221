(** * Last visits in deepening searches *)
From Coq Require Import List Bool Arith Lia Sorted Init.Byte.
From Verif Require Import WalkSpec PathModel PathSpec SortModel BftwModel BftwIo BftwHeap BftwFiles BftwGc BftwHist BftwSpec BftwProofs BftwFacts DeepenModel DeepenLog DeepenRound DeepenSpec DeepenProofs.
Import ListNotations.

Section Post.
  Context {U : Type}.
  Variable w : env U.
  Notation ids := (ids U).
  Notation state := (state ids).
  Implicit Types (tr L l : list (event * action)) (x y : event * action) (e : event).
  Variable T : pos -> ftype.
  Hypothesis ST : steady w T.
  Hypothesis DI : distinct w.

  Definition fine x : bool := match e_type (fst x) with BFS_ERROR => false | _ => true end.
  Lemma places_rev l : rev (places l) = map (fun x => e_pos (fst x)) (filter fine l).
  Proof. unfold places. rewrite rev_involutive. reflexivity. Qed.
  Lemma fine_iff x : fine x = true <-> e_type (fst x) <> BFS_ERROR.
  Proof. unfold fine. destruct (e_type (fst x)); split; congruence. Qed.
  Lemma places_app l l' : places (l ++ l') = places l' ++ places l.
  Proof. unfold places. rewrite filter_app, map_app, rev_app_distr. reflexivity. Qed.
  Lemma in_places p l : In p (places l) <-> exists x, In x l /\ e_pos (fst x) = p /\ e_type (fst x) <> BFS_ERROR.
  Proof.
    unfold places. rewrite <- in_rev. fold fine. rewrite in_map_iff. split.
    - intros (x & E & I). apply filter_In in I as (I & F). exists x. rewrite fine_iff in F. auto.
    - intros (x & I & E & F). exists x. split; [exact E|]. apply filter_In. split; [exact I|apply fine_iff, F].
  Qed.

  (** ** One walk *)
  Section Walk.
    Variable b : bool.
    Notation wv := (deepen w b).
    Variables (P : list (list byte)) (d0 : ids).
    Hypothesis VI : d_visit d0 = BFTW_POST.
    Hypothesis FO : d_force d0 = negb b.
    Hypothesis BF : b = false -> d_max d0 = S (d_min d0).
    Hypothesis P1 : incl P (d_pruned d0).
    Hypothesis P2 : forall z, In z (d_pruned d0) -> In z P \/ b = false /\ exists p, node_at w p <> None /\ path_at w p = z /\ d_min d0 < depth p.

    Definition inP e : bool := existsb (same_path (e_path e)) P.
    Lemma inP_iff e : inP e = true <-> In (e_path e) P.
    Proof.
      unfold inP. rewrite existsb_exists. split.
      - intros (x & I & E). unfold same_path in E. destruct (list_eq_dec Byte.byte_eq_dec (e_path e) x); [congruence|discriminate].
      - intros I. exists (e_path e). split; [exact I|]. unfold same_path. destruct (list_eq_dec Byte.byte_eq_dec (e_path e) (e_path e)); congruence.
    Qed.
    (** The user is told of this. *)
    Definition tells x : bool := fine x && (d_min d0 <=? e_depth (fst x)) && negb (inP (fst x)) && (negb b || is_post x).

    Record walked (d1 : ids) tr L1 : Prop := {
      wd_visit : d_visit d1 = BFTW_POST; wd_force : d_force d1 = negb b; wd_min : d_min d1 = d_min d0; wd_max : d_max d1 = d_max d0;
      wd_log : d_log d1 = L1 ++ d_log d0; wd_plays : plays w (d_user d0) L1 (d_user d1);
      wd_ok : Forall (fun x => event_ok w (fst x)) L1;
      wd_types : Forall (fun x => e_type (fst x) = BFS_ERROR \/ e_visit (fst x) = BFTW_POST /\ e_type (fst x) = T (e_pos (fst x))) L1;
      wd_errors : Forall (fun x => e_visit (fst x) = BFTW_POST \/ e_type (fst x) = BFS_ERROR /\ b = true) L1;
      wd_places : rev (places L1) = map (fun x => e_pos (fst x)) (filter tells tr);
      wd_walk : forall e a, In (e, a) tr -> e_type e <> BFS_ERROR -> e_visit e = BFTW_PRE ->
        (In (e_path e) P -> a = BFTW_PRUNE) /\ (~ In (e_path e) P -> e_depth e < d_min d0 -> a = BFTW_CONTINUE) /\
        (~ In (e_path e) P -> d_min d0 <= e_depth e -> if b then a = (if is_dir (e_type e) && (d_max d0 <=? e_depth e + 1) then BFTW_PRUNE else BFTW_CONTINUE)
                                                       else is_dir (e_type e) = true -> a <> BFTW_CONTINUE);
      wd_p1 : incl (d_pruned d0) (d_pruned d1);
      wd_p2 : forall z, In z (d_pruned d1) -> In z (d_pruned d0) \/ exists p, In p (places L1) /\ path_at w p = z;
      wd_stop : (exists x, In x tr /\ snd x = BFTW_STOP) <-> exists x, In x L1 /\ snd x = BFTW_STOP;
      wd_tl : forall x, In x (tl L1) -> snd x <> BFTW_STOP }.

    Definition told_as e : event :=
      if b then e else {| e_pos := e_pos e; e_visit := BFTW_POST; e_type := e_type e; e_depth := e_depth e; e_path := e_path e; e_nameoff := e_nameoff e |}.
    Lemma told_same e : e_pos (told_as e) = e_pos e /\ e_type (told_as e) = e_type e /\ e_depth (told_as e) = e_depth e /\ e_path (told_as e) = e_path e /\ e_nameoff (told_as e) = e_nameoff e.
    Proof. unfold told_as. destruct b; auto. Qed.
    Lemma told_ok e : event_ok w e -> event_ok w (told_as e).
    Proof. unfold told_as. destruct b; auto. Qed.

    Lemma error_callback (v : ids) e : d_visit v = BFTW_POST -> d_force v = negb b -> e_type e = BFS_ERROR ->
      ids_callback w v e = if d_min v <=? e_depth e + 1 then delegate w v (told_as e) else (BFTW_PRUNE, v).
    Proof. intros A B C. unfold ids_callback, told_as. rewrite A, B. destruct b; cbn [negb]; rewrite C; reflexivity. Qed.
    Lemma post_callback (v : ids) e : d_visit v = BFTW_POST -> d_force v = negb b -> e_type e <> BFS_ERROR ->
      ids_callback w v e =
        if e_depth e <? d_min v then (if is_pruned v e then BFTW_PRUNE else BFTW_CONTINUE, v)
        else if is_pruned v e then (BFTW_PRUNE, v)
        else if negb b || is_post (e, BFTW_CONTINUE) then
          let (a, d) := delegate w v (told_as e) in
          match a with
          | BFTW_CONTINUE => if is_dir (e_type e) && (d_max d <=? e_depth e + 1) then (BFTW_PRUNE, set_bottom false d) else (BFTW_CONTINUE, d)
          | BFTW_PRUNE => (BFTW_PRUNE, if is_dir (e_type e) then set_pruned (e_path e :: d_pruned d) d else d)
          | BFTW_STOP => (BFTW_STOP, d)
          end
        else if is_dir (e_type e) && (d_max v <=? e_depth e + 1) then (BFTW_PRUNE, set_bottom false v) else (BFTW_CONTINUE, v).
    Proof.
      intros A B C. unfold ids_callback, told_as. rewrite A, B. destruct b; cbn [negb orb].
      - unfold is_post. cbn [fst]. destruct (e_visit e); cbn [same_visit andb]; destruct (e_type e); try congruence; reflexivity.
      - cbn [e_type e_depth e_visit e_path same_visit andb]. destruct (e_type e); try congruence; reflexivity.
    Qed.

    Lemma walk_log tr d1 : plays wv d0 tr d1 -> in_order wv tr -> Forall (fun x => event_ok w (fst x)) tr -> exists L1, walked d1 tr L1.
    Proof.
      induction 1 as [|e tr v PL IH]; intros O OK.
      { exists []. constructor; auto; try (constructor; fail); try reflexivity; try (intros ? ? []; fail); try (intros z Z; exact Z); try (split; intros (x & [] & _)); try (intros x []). }
      inversion O as [|? ? ? O' EN PO NS FR TY PV SK]; subst e0 a l. rewrite Forall_cons_iff in OK. destruct OK as (OK1 & OK2). cbn [fst] in OK1.
      destruct (IH O' OK2) as (L1 & [A1 A2 A3 A4 A5 A6 A7 A8 A8' A9 A10 A11 A12 A13 A14]). clear IH.
      change (callback wv v e) with (ids_callback w v e) in *.
      assert (NL : forall x, In x L1 -> snd x <> BFTW_STOP).
      { intros x I Z. destruct (proj2 A13 (ex_intro _ x (conj I Z))) as (y & J & Y). exact (NS y J Y). }
      destruct (told_same e) as (S1 & S2 & S3 & S4 & S5).
      assert (TV : b = false -> e_visit (told_as e) = BFTW_POST) by (unfold told_as; intros ->; reflexivity).
      assert (ED : {e_type e = BFS_ERROR} + {e_type e <> BFS_ERROR}) by (destruct (e_type e); [left; reflexivity|right; discriminate|right; discriminate]).
      (** Calls of the user's callback *)
      assert (MORE : forall a u c z t, callback w (d_user v) (told_as e) = (a, u) -> (c = BFTW_STOP <-> a = BFTW_STOP) ->
        (e_type e = BFS_ERROR \/ tells (e, c) = true) -> (e_type e <> BFS_ERROR -> e_visit (told_as e) = BFTW_POST) ->
        (e_type e <> BFS_ERROR -> e_visit e = BFTW_PRE -> b = false /\ (is_dir (e_type e) = true -> c <> BFTW_CONTINUE)) ->
        (z = d_pruned v \/ e_type e <> BFS_ERROR /\ z = e_path e :: d_pruned v) ->
        exists L, walked {| d_user := u; d_log := (told_as e, a) :: d_log v; d_visit := d_visit v; d_force := d_force v; d_min := d_min v; d_max := d_max v; d_pruned := z; d_bottom := t |} ((e, c) :: tr) L).
      { intros a u c z t CB CA TL EV AC Z. exists ((told_as e, a) :: L1). constructor; cbn [d_user d_log d_visit d_force d_min d_max d_pruned d_bottom tl]; auto.
        - rewrite A5. reflexivity.
        - eapply plays_more; eassumption.
        - constructor; [apply told_ok, OK1|exact A7].
        - constructor; [|exact A8]. cbn [fst]. rewrite S1, S2.
          destruct ED as [ET | ET]; [left; exact ET|right; split; [exact (EV ET)|]]. destruct TY as [(k & X) | (X & _)]; [|congruence]. rewrite X. apply ST; apply OK1.
        - constructor; [|exact A8']. cbn [fst]. rewrite S2. destruct ED as [ET | ET]; [|left; exact (EV ET)]. destruct b; [right; auto|left; auto].
        - cbn [filter]. destruct TL as [TL | TL].
          + assert (F1 : fine (told_as e, a) = false) by (unfold fine; cbn [fst]; rewrite S2, TL; reflexivity). assert (F2 : tells (e, c) = false) by (unfold tells, fine; cbn [fst]; rewrite TL; reflexivity).
            rewrite F2. rewrite places_rev in *. cbn [filter]. rewrite F1. exact A9.
          + rewrite TL. rewrite places_rev in *. cbn [filter]. replace (fine (told_as e, a)) with true; [cbn [map fst]; rewrite S1, A9; reflexivity|].
            symmetry. apply fine_iff. cbn [fst]. rewrite S2. unfold tells in TL. apply andb_true_iff in TL as (TL & _). apply andb_true_iff in TL as (TL & _). apply andb_true_iff in TL as (TL & _). apply fine_iff in TL. exact TL.
        - intros e1 a1 [E | I]; [|exact (A10 e1 a1 I)]. apply (f_equal fst) in E as E1. apply (f_equal snd) in E as E2. cbn [fst snd] in E1, E2. subst e1 a1. intros NE VE.
          destruct (AC NE VE) as (BE & AC'). destruct TL as [TL | TL]; [congruence|]. unfold tells in TL. cbn [fst] in TL. apply andb_true_iff in TL as (TL & _). apply andb_true_iff in TL as (TL & NI). apply andb_true_iff in TL as (_ & DE).
          apply Nat.leb_le in DE. split; [intros I; apply inP_iff in I; rewrite I in NI; discriminate|]. split; [intros _ Z1; lia|]. intros _ _. rewrite BE. exact AC'.
        - destruct Z as [-> | (_ & ->)]; [exact A11|]. intros y Y. right. apply A11, Y.
        - intros y Y. assert (X : In y (d_pruned v) \/ y = e_path e /\ e_type e <> BFS_ERROR) by (destruct Z as [-> | (NE & ->)]; [auto|destruct Y; auto]).
          destruct X as [X | (-> & NE)].
          + destruct (A12 y X) as [X1 | (p & I & X1)]; [left; exact X1|right]. exists p. split; [|exact X1]. apply in_places in I as (x & I & X2). apply in_places. exists x. split; [right; exact I|exact X2].
          + right. exists (e_pos e). split; [|symmetry; apply OK1]. apply in_places. exists (told_as e, a). split; [left; reflexivity|]. cbn [fst]. rewrite S1, S2. auto.
        - split.
          + intros (x & [<- | I] & X); [exists (told_as e, a); split; [left; reflexivity|apply CA, X]|]. destruct (NS x I X).
          + intros (x & [<- | I] & X); [exists (e, c); split; [left; reflexivity|apply CA, X]|]. destruct (NL x I X). }
      (** No calls *)
      assert (NONE : forall c t, c <> BFTW_STOP -> (e_type e = BFS_ERROR \/ tells (e, c) = false) ->
        (e_type e <> BFS_ERROR -> e_visit e = BFTW_PRE ->
         (In (e_path e) P -> c = BFTW_PRUNE) /\ (~ In (e_path e) P -> e_depth e < d_min d0 -> c = BFTW_CONTINUE) /\
         (~ In (e_path e) P -> d_min d0 <= e_depth e -> if b then c = (if is_dir (e_type e) && (d_max d0 <=? e_depth e + 1) then BFTW_PRUNE else BFTW_CONTINUE)
                                                        else is_dir (e_type e) = true -> c <> BFTW_CONTINUE)) ->
        exists L, walked {| d_user := d_user v; d_log := d_log v; d_visit := d_visit v; d_force := d_force v; d_min := d_min v; d_max := d_max v; d_pruned := d_pruned v; d_bottom := t |} ((e, c) :: tr) L).
      { intros c t NC TL AC. exists L1. constructor; cbn [d_user d_log d_visit d_force d_min d_max d_pruned d_bottom]; auto.
        - cbn [filter]. replace (tells (e, c)) with false; [exact A9|]. destruct TL as [TL | TL]; [|symmetry; exact TL]. unfold tells, fine. cbn [fst]. rewrite TL. reflexivity.
        - intros e1 a1 [E | I]; [|exact (A10 e1 a1 I)]. apply (f_equal fst) in E as E1. apply (f_equal snd) in E as E2. cbn [fst snd] in E1, E2. subst e1 a1. exact AC.
        - rewrite <- A13. split; [intros (x & [<- | I] & X); [destruct (NC X)|exists x; auto]|intros (x & I & X); exists x; split; [right; exact I|exact X]]. }
      assert (VS : {| d_user := d_user v; d_log := d_log v; d_visit := d_visit v; d_force := d_force v; d_min := d_min v; d_max := d_max v; d_pruned := d_pruned v; d_bottom := d_bottom v |} = v) by (destruct v; reflexivity).
      destruct ED as [ET | ET].
      { rewrite (error_callback v e A1 A2 ET). destruct (d_min v <=? e_depth e + 1); cbn [fst snd].
        - unfold delegate. destruct (callback w (d_user v) (told_as e)) as (a & u) eqn:CB. cbn [fst snd]. apply MORE; try reflexivity; auto; intros Z; congruence.
        - rewrite <- VS. apply NONE; [discriminate|auto|congruence]. }
      (** The set of pruned paths is what it was, as far as this file is concerned. *)
      assert (IP : is_pruned v e = inP e).
      { destruct (inP e) eqn:I1.
        - apply is_pruned_in, A11, P1. apply inP_iff, I1.
        - destruct (is_pruned v e) eqn:I2; [|reflexivity]. exfalso. apply is_pruned_in in I2. pose proof OK1 as (NO & DE & PA & _).
          destruct (A12 _ I2) as [Z | (p & I & E)].
          + destruct (P2 _ Z) as [Z1 | (BE & p & N & E & D)]; [apply inP_iff in Z1; congruence|].
            rewrite PA in E. assert (p = e_pos e) by (apply DI; assumption). subst p. destruct (e_pos e) as [|k q] eqn:EP; [destruct (NO eq_refl)|].
            destruct q as [|j q]; [unfold depth in D; cbn [length] in D; lia|]. destruct (EN k (j :: q) eq_refl ltac:(discriminate)) as ((e1 & a1) & I1' & EP1 & V1 & T1 & C1 & _). cbn [fst] in *.
            destruct (A10 e1 a1 I1' ltac:(congruence) V1) as (W1 & W2 & W3). rewrite Forall_forall in OK2. pose proof (OK2 _ I1') as (_ & DE1 & _). cbn [fst] in DE1. rewrite EP1 in DE1.
            assert (NI : ~ In (e_path e1) P) by (intros Z1; specialize (W1 Z1); congruence). specialize (W3 NI). rewrite BE, T1 in W3. unfold depth in D. cbn [length] in *. apply W3; [lia|reflexivity|exact C1].
          + rewrite PA in E. rewrite in_rev, A9 in I. apply in_map_iff in I as ((e1 & a1) & EP1 & I). apply filter_In in I as (I & TE). cbn [fst] in EP1. rewrite Forall_forall in OK2. pose proof (OK2 _ I) as (NO1 & _). cbn [fst] in NO1. rewrite EP1 in NO1.
            assert (Q : p = e_pos e) by (apply DI; assumption). rewrite Q in EP1. unfold tells in TE. apply andb_true_iff in TE as (TE & PB). destruct (e_visit e1) eqn:V1.
            * assert (BE : b = false). { destruct b; [|reflexivity]. cbn [negb orb] in PB. unfold is_post in PB. cbn [fst] in PB. rewrite V1 in PB. discriminate. }
              destruct (e_visit e) eqn:V0; [|destruct (PV eq_refl) as (PV' & _); cbn [deepen fl_post_order] in PV'; congruence].
              destruct (FR eq_refl) as [Z | (Z & _)]; [|congruence]. assert (J : In (e1, a1) (visits_of (e_pos e) tr)) by (apply in_visits; auto). rewrite Z in J. destruct J.
            * exact (PO (e1, a1) [] (e_pos e) I V1 eq_refl EP1). }
      rewrite (post_callback v e A1 A2 ET), IP. rewrite A3.
      assert (FI : forall c, fine (e, c) = true) by (intros c; apply fine_iff; exact ET).
      destruct (e_depth e <? d_min d0) eqn:DM.
      { cbn [fst snd]. apply Nat.ltb_lt in DM. rewrite <- VS. apply NONE.
        - destruct (inP e); discriminate.
        - right. unfold tells. cbn [fst]. rewrite (proj2 (Nat.leb_gt _ _) DM), andb_false_r. reflexivity.
        - intros _ _. split; [intros I; apply inP_iff in I; rewrite I; reflexivity|]. split; [|intros _ Z; lia]. intros NI _. destruct (inP e) eqn:I; [apply inP_iff in I; contradiction|reflexivity]. }
      apply Nat.ltb_ge in DM. destruct (inP e) eqn:II.
      { cbn [fst snd]. rewrite <- VS. apply NONE; [discriminate|right; unfold tells; cbn [fst]; rewrite II; cbn [negb]; rewrite andb_false_r; reflexivity|].
        intros _ _. assert (Z := proj1 (inP_iff e) II). split; [reflexivity|]. split; contradiction. }
      assert (NI : ~ In (e_path e) P) by (intros Z; apply inP_iff in Z; congruence).
      destruct (negb b || is_post (e, BFTW_CONTINUE)) eqn:BP.
      - assert (TL : forall c, tells (e, c) = true). { intros c. unfold tells. cbn [fst]. rewrite FI, (proj2 (Nat.leb_le _ _) DM), II. exact BP. }
        assert (EV : e_visit (told_as e) = BFTW_POST). { unfold told_as. destruct b; [|reflexivity]. unfold is_post in BP. cbn [fst negb orb] in BP. destruct (e_visit e); [discriminate|reflexivity]. }
        assert (BE : e_visit e = BFTW_PRE -> b = false). { intros Z. destruct b; [|reflexivity]. unfold is_post in BP. cbn [fst negb orb] in BP. rewrite Z in BP. discriminate. }
        unfold delegate. destruct (callback w (d_user v) (told_as e)) as (a & u) eqn:CB. cbn [d_max d_pruned]. rewrite A4. destruct a.
        + destruct (is_dir (e_type e) && (d_max d0 <=? e_depth e + 1)) eqn:MX; cbn [fst snd set_bottom]; unfold set_bottom; cbn [d_user d_log d_visit d_force d_min d_max d_pruned d_bottom].
          * rewrite <- ?A4. apply MORE; auto; [split; discriminate|]. intros _ Z. split; [exact (BE Z)|discriminate].
          * rewrite <- ?A4. rewrite <- A4 in MX. apply MORE; auto; [reflexivity|]. intros _ Z. split; [exact (BE Z)|]. intros Y. rewrite Y in MX. cbn [andb] in MX. apply Nat.leb_gt in MX. rewrite A4, (BF (BE Z)) in MX. lia.
        + destruct (is_dir (e_type e)) eqn:DR; cbn [fst snd set_pruned]; unfold set_pruned; cbn [d_user d_log d_visit d_force d_min d_max d_pruned d_bottom].
          * rewrite <- ?A4. apply MORE; auto; [reflexivity|]. intros _ Z. split; [exact (BE Z)|discriminate].
          * rewrite <- ?A4. apply MORE; auto; [reflexivity|]. intros _ Z. split; [exact (BE Z)|discriminate].
        + cbn [fst snd]. rewrite <- ?A4. apply MORE; auto; [reflexivity|]. intros _ Z. split; [exact (BE Z)|discriminate].
      - apply orb_false_iff in BP as (B1 & B2). apply negb_false_iff in B1.
        assert (TL : forall c, tells (e, c) = false). { intros c. unfold tells. rewrite B1. cbn [negb orb]. unfold is_post in *. cbn [fst] in *. rewrite B2, andb_false_r. reflexivity. }
        rewrite A4. destruct (is_dir (e_type e) && (d_max d0 <=? e_depth e + 1)) eqn:MX; cbn [fst snd].
        + unfold set_bottom. apply NONE; [discriminate|auto|]. intros _ _. split; [contradiction|]. split; [intros _ Z; lia|]. intros _ _. rewrite B1. reflexivity.
        + rewrite <- VS. apply NONE; [discriminate|auto|]. intros _ _. split; [contradiction|]. split; [intros _ Z; lia|]. intros _ _. rewrite B1. reflexivity.
    Qed.
    (** What the walk found, compared to what was found before *)
    Section After.
      Variables (m : nat) (L : list (event * action)).
      Hypothesis J : told w T m L P.
      Hypothesis ALL : forall p, visited_right (deepen w false) p (rev L).
      Hypothesis BT : b = true -> d_min d0 = 0 /\ m < d_max d0.
      Variables (tr L1 : list (event * action)) (d1 : ids).
      Hypothesis O : in_order wv tr.
      Hypothesis OK : Forall (fun x => event_ok w (fst x)) tr.
      Hypothesis WD : walked d1 tr L1.

      Lemma tr_ok x : In x tr -> node_at w (e_pos (fst x)) <> None /\ e_depth (fst x) = depth (e_pos (fst x)) /\ e_path (fst x) = path_at w (e_pos (fst x)).
      Proof. intros I. rewrite Forall_forall in OK. destruct (OK x I) as (A & B & C & _). auto. Qed.
      Lemma old_ok x : In x L -> node_at w (e_pos (fst x)) <> None /\ e_depth (fst x) = depth (e_pos (fst x)) /\ e_path (fst x) = path_at w (e_pos (fst x)).
      Proof. intros I. pose proof (j_ok _ _ _ _ _ J) as F. rewrite Forall_forall in F. destruct (F x I) as (A & B & C & _). auto. Qed.
      Lemma tr_type l : in_order wv l -> Forall (fun x => event_ok w (fst x)) l -> forall x, In x l -> e_type (fst x) = T (e_pos (fst x)) \/ e_type (fst x) = BFS_ERROR.
      Proof.
        clear O OK WD. induction 1 as [|e a l O IH _ _ _ _ TY _ _]; intros F x I; [destruct I|]. rewrite Forall_cons_iff in F. destruct F as (F1 & F2). destruct I as [<- | I]; [|auto].
        cbn [fst] in *. destruct TY as [(n & ->) | (Z & _)]; [left; apply ST, F1|right; exact Z].
      Qed.
      Lemma tr_skipped l : in_order wv l -> forall x, In x l -> skipped w (e_pos (fst x)) = false.
      Proof. induction 1 as [|e a l O' IH _ _ _ _ _ _ SK]; intros x I; [destruct I|]. destruct I as [<- | I]; [exact SK|auto]. Qed.
      Lemma tr_parent k q x : q <> [] -> In x tr -> e_pos (fst x) = k :: q -> entered wv q tr.
      Proof.
        intros N I E. destruct x as (e & a). apply in_split in I as (l2 & l1 & S1). cbn [fst] in E. rewrite S1. change (l2 ++ (e, a) :: l1) with (l2 ++ [(e, a)] ++ l1). rewrite app_assoc.
        apply entered_more. rewrite S1 in O. apply (parents_first wv [k] q l1 e a l2 O); [exact E|discriminate|exact N].
      Qed.
      Lemma old_rev p : reached w p (rev L) <-> reached w p L.
      Proof. destruct p as [|k q]; [reflexivity|]. unfold reached. rewrite entered_rev. reflexivity. Qed.
      (** The first visit of a file that was reached *)
      Lemma old_first p : reached w p L -> skipped w p = false -> exists e a rest, visits_of p (rev L) = (e, a) :: rest /\ In (e, a) L /\ e_pos e = p /\ e_visit e = BFTW_PRE /\ e_type e = T p /\ T p <> BFS_ERROR.
      Proof.
        intros R SK. destruct (ALL p) as (A & _). destruct A as (e & a & rest & V & EV & _); [split; [apply old_rev; exact R|exact SK]|].
        assert (I : In (e, a) (visits_of p (rev L))) by (rewrite V; left; reflexivity). apply in_visits in I as (I & E). apply in_rev in I. cbn [fst] in E.
        destruct (first_type (deepen w false) p L e a rest (j_order _ _ _ _ _ J) V) as (n & TY). assert (N : node_at w p <> None) by (destruct p; [destruct R|apply R]).
        destruct (ST n p N) as (X & Y). exists e, a, rest. split; [exact V|]. split; [exact I|]. split; [exact E|]. split; [exact EV|]. split; [rewrite TY; exact X|exact Y].
      Qed.
      Lemma old_visited p : visits_of p L <> [] <-> reached w p L /\ skipped w p = false.
      Proof.
        split; [intros V; destruct (told_visited w T m L P p J V) as (_ & A); exact A|]. intros (R & SK). destruct (old_first p R SK) as (e & a & rest & V & _). rewrite visits_rev in V. intros Z. rewrite Z in V. discriminate.
      Qed.
      Lemma pruned_first p e a rest : node_at w p <> None -> visits_of p (rev L) = (e, a) :: rest -> e_type e <> BFS_ERROR -> In (path_at w p) P -> a = BFTW_PRUNE /\ e_type e = BFS_DIR.
      Proof.
        intros N V TY I. apply (j_pruned _ _ _ _ _ J) in I as (e' & I & TE & PA). destruct (old_ok _ I) as (N' & _ & PA'). cbn [fst] in *.
        assert (Q : e_pos e' = p) by (apply DI; [exact N'|exact N|congruence]).
        destruct (first_of w T m L P J p (e', BFTW_PRUNE) J) as (rest' & V'); [apply in_visits; auto|cbn [fst]; congruence|]. rewrite V in V'. injection V' as -> -> _. auto.
      Qed.
      Lemma kept_iff p : kept p L <-> visits_of p L <> [] /\ ~ In (path_at w p) P.
      Proof.
        split.
        - intros (e & a & I & E & NE & C). assert (V : In (e, a) (visits_of p L)) by (apply in_visits; auto). split; [intros Z; rewrite Z in V; destruct V|]. intros IP.
          destruct (first_of w T m L P J p (e, a) J V NE) as (rest & V'). destruct (old_ok _ I) as (N & _). cbn [fst] in N. rewrite E in N. destruct (pruned_first p e a rest N V' NE IP) as (A & B). specialize (C B). congruence.
        - intros (V & NI). apply old_visited in V as (R & SK). destruct (old_first p R SK) as (e & a & rest & V & I & E & EV & TY & NE). exists e, a. split; [exact I|]. split; [exact E|]. split; [congruence|]. intros TE.
          destruct a; [reflexivity| |destruct (j_stop _ _ _ _ _ J _ I); reflexivity]. exfalso. apply NI. apply (j_pruned _ _ _ _ _ J). exists e. split; [exact I|]. split; [exact TE|]. rewrite <- E. apply (old_ok _ I).
      Qed.

      Lemma tr_entered q : entered w q tr -> entered w q L /\ (b = false -> depth q < d_min d0).
      Proof.
        induction q as [|k q IH]; intros ((e & a) & I & E & EV & TY & AC & MP); cbn [fst] in E.
        { destruct (tr_ok _ I) as (N & _). cbn [fst] in N. rewrite E in N. destruct (N eq_refl). }
        destruct (tr_ok _ I) as (N & DE & PA). cbn [fst] in *. rewrite E in *.
        assert (R : reached w (k :: q) L). { split; [exact N|]. destruct q as [|j q]; [left; reflexivity|right]. apply IH. apply (tr_parent k (j :: q) (e, a)); [discriminate|exact I|exact E]. }
        assert (SK : skipped w (k :: q) = false) by (rewrite <- E; exact (tr_skipped tr O _ I)).
        destruct (old_first _ R SK) as (e0 & a0 & rest & V & I0 & E0 & EV0 & TY0 & NE).
        destruct (tr_type tr O OK _ I) as [TT | TT]; cbn [fst] in TT; [|congruence]. rewrite E in TT.
        destruct (wd_walk _ _ _ WD e a I ltac:(congruence) EV) as (W1 & W2 & W3).
        assert (NI : ~ In (e_path e) P) by (intros Z; specialize (W1 Z); congruence). split.
        - exists (e0, a0). split; [exact I0|]. split; [exact E0|]. split; [exact EV0|]. split; [congruence|]. split; [|rewrite E0; exact MP].
          destruct a0; [reflexivity| |destruct (j_stop _ _ _ _ _ J _ I0); reflexivity]. exfalso. apply NI. apply (j_pruned _ _ _ _ _ J). exists e0. split; [exact I0|]. split; [congruence|]. rewrite PA, <- E0. apply (old_ok _ I0).
        - intros BE. destruct (le_lt_dec (d_min d0) (e_depth e)) as [Z | Z]; [|rewrite <- DE; exact Z]. exfalso. specialize (W3 NI Z). rewrite BE, TY in W3. exact (W3 eq_refl AC).
      Qed.

      (** The files that the user was told of *)
      Lemma told_place p : In p (places L1) -> exists x, In x tr /\ e_pos (fst x) = p /\ tells x = true.
      Proof. rewrite in_rev, (wd_places _ _ _ WD). intros I. apply in_map_iff in I as (x & E & I). apply filter_In in I as (I & TL). exists x. auto. Qed.
      Lemma tells_facts x : tells x = true -> e_type (fst x) <> BFS_ERROR /\ d_min d0 <= e_depth (fst x) /\ ~ In (e_path (fst x)) P /\ (b = true -> e_visit (fst x) = BFTW_POST).
      Proof.
        unfold tells. intros H. apply andb_true_iff in H as (H & V). apply andb_true_iff in H as (H & I). apply andb_true_iff in H as (F & D). split; [apply fine_iff, F|]. split; [apply Nat.leb_le, D|].
        split; [intros Z; apply inP_iff in Z; rewrite Z in I; discriminate|]. intros BE. rewrite BE in V. cbn [negb orb] in V. unfold is_post in V. destruct (e_visit (fst x)); [discriminate|reflexivity].
      Qed.
      Lemma sound p : In p (places L1) -> kept p L /\ (b = false -> depth p = d_min d0).
      Proof.
        intros I. destruct (told_place p I) as (x & I1 & E & TL). destruct (tells_facts x TL) as (NE & D & NI & _). destruct (tr_ok x I1) as (N & DE & PA). rewrite E in *. split.
        - apply kept_iff. split; [|rewrite <- PA; exact NI]. apply old_visited. split; [|rewrite <- E; exact (tr_skipped tr O _ I1)].
          destruct p as [|k q]; [destruct (N eq_refl)|]. split; [exact N|]. destruct q as [|j q]; [left; reflexivity|right]. apply (tr_entered (j :: q)). apply (tr_parent k (j :: q) x); [discriminate|exact I1|exact E].
        - intros BE. destruct p as [|k q]; [destruct (N eq_refl)|]. destruct q as [|j q]; [unfold depth in *; cbn [length] in *; lia|].
          destruct (tr_entered (j :: q)) as (_ & Z); [apply (tr_parent k (j :: q) x); [discriminate|exact I1|exact E]|]. specialize (Z BE). unfold depth in *. cbn [length] in *. lia.
      Qed.

      Lemma once_each l : in_order wv l -> Forall (fun x => event_ok w (fst x)) l -> NoDup (map (fun x => e_pos (fst x)) (filter tells l)).
      Proof.
        clear O OK WD. induction 1 as [|e a l O IH _ PO _ FR _ PV _]; intros F; [constructor|]. rewrite Forall_cons_iff in F. destruct F as (F1 & F2). cbn [filter].
        destruct (tells (e, a)) eqn:TL; [|auto]. destruct (tells_facts _ TL) as (NE & _ & _ & BE). cbn [fst map] in *. constructor; [|auto].
        intros I. apply in_map_iff in I as (x & E & I). apply filter_In in I as (I & TX). destruct (e_visit (fst x)) eqn:VX.
        - destruct (e_visit e) eqn:VE.
          + destruct (FR eq_refl) as [Z | (Z & _)]; [|congruence]. assert (In x (visits_of (e_pos e) l)) by (apply in_visits; auto). rewrite Z in *. contradiction.
          + destruct (PV eq_refl) as (PV' & _). cbn [deepen fl_post_order] in PV'. destruct (tells_facts _ TX) as (_ & _ & _ & BX). specialize (BX PV'). congruence.
        - exact (PO x [] (e_pos e) I VX eq_refl E).
      Qed.
      Lemma told_once : NoDup (places L1).
      Proof. rewrite <- (rev_involutive (places L1)). apply NoDup_rev. rewrite (wd_places _ _ _ WD). apply once_each; assumption. Qed.
      Lemma upwards l : b = true -> in_order wv l -> StronglySorted (fun p q => forall r, p <> r ++ q) (map (fun x => e_pos (fst x)) (filter tells l)).
      Proof.
        intros BE. clear O OK WD. induction 1 as [|e a l O IH _ PO _ FR _ PV _]; [constructor|]. cbn [filter]. destruct (tells (e, a)); [|auto]. cbn [map fst]. constructor; [exact IH|].
        apply Forall_forall. intros q I r E. apply in_map_iff in I as (x & EX & I). apply filter_In in I as (I & TX). destruct (tells_facts _ TX) as (_ & _ & _ & BX). exact (PO x r q I (BX BE) E EX).
      Qed.
      Lemma told_upwards : b = true -> StronglySorted (fun p q => forall r, q <> r ++ p) (places L1).
      Proof.
        intros BE. assert (S := upwards tr BE O). rewrite <- (wd_places _ _ _ WD) in S. rewrite <- (rev_involutive (places L1)).
        induction S as [|a l S IH F]; [constructor|]. cbn [rev]. apply sorted_app; [exact IH|constructor; constructor|]. intros x y I [<- | []]. apply in_rev in I. rewrite Forall_forall in F. exact (F x I).
      Qed.

      Hypothesis RIGHT : forall p, visited_right wv p (rev tr).
      Lemma tr_rev p : reached w p (rev tr) <-> reached w p tr.
      Proof. destruct p as [|k q]; [reflexivity|]. unfold reached. rewrite entered_rev. reflexivity. Qed.
      Lemma tr_first p : reached w p tr -> skipped w p = false -> exists e a rest, visits_of p (rev tr) = (e, a) :: rest /\ In (e, a) tr /\ e_pos e = p /\ e_visit e = BFTW_PRE /\ e_type e = T p /\ T p <> BFS_ERROR /\
        (enters w (e, a) -> later_visits wv p rest) /\ (~ enters w (e, a) -> rest = []).
      Proof.
        intros R SK. destruct (RIGHT p) as (A & _). destruct A as (e & a & rest & V & EV & L1' & L2'); [split; [apply tr_rev; exact R|exact SK]|].
        assert (I : In (e, a) (visits_of p (rev tr))) by (rewrite V; left; reflexivity). apply in_visits in I as (I & E). apply in_rev in I. cbn [fst] in E.
        destruct (first_type wv p tr e a rest O V) as (n & TY). assert (N : node_at w p <> None) by (destruct p; [destruct R|apply R]).
        destruct (ST n p N) as (X & Y). exists e, a, rest. split; [exact V|]. split; [exact I|]. split; [exact E|]. split; [exact EV|]. split; [rewrite TY; exact X|]. split; [exact Y|]. split; assumption.
      Qed.
      Lemma old_entered q : entered w q L -> (b = false -> depth q < d_min d0) -> entered w q tr.
      Proof.
        induction q as [|k q IH]; intros ((e & a) & I & E & EV & TY & AC & MP) D; cbn [fst] in E.
        { destruct (old_ok _ I) as (N & _). cbn [fst] in N. rewrite E in N. destruct (N eq_refl). }
        destruct (old_ok _ I) as (N & DE & PA). cbn [fst] in *. rewrite E in *.
        assert (V : In (e, a) (visits_of (k :: q) L)) by (apply in_visits; auto). assert (VN : visits_of (k :: q) L <> []) by (intros Z; rewrite Z in V; destruct V).
        destruct (told_visited w T m L P (k :: q) J VN) as (DL & _ & SK). change (skipped w (k :: q) = false) in SK.
        assert (R : reached w (k :: q) tr).
        { split; [exact N|]. destruct q as [|j q]; [left; reflexivity|right]. apply IH.
          - apply (parent w L k (j :: q) (j_order _ _ _ _ _ J)) with (x := (e, a)); [discriminate|exact I|exact E].
          - intros BE. specialize (D BE). unfold depth in *. cbn [length] in *. lia. }
        destruct (tr_first _ R SK) as (e1 & a1 & rest1 & V1 & I1 & E1 & EV1 & TY1 & NE & _).
        assert (K : kept (k :: q) L) by (exists e, a; split; [exact I|]; split; [exact E|]; split; [congruence|auto]). apply kept_iff in K as (_ & NI).
        destruct (tr_ok _ I1) as (_ & DE1 & PA1). cbn [fst] in *. rewrite E1 in *.
        assert (TT : T (k :: q) = BFS_DIR). { destruct (types w T ST L (j_order _ _ _ _ _ J) (j_ok _ _ _ _ _ J) _ I) as [Z | Z]; cbn [fst] in Z; [rewrite E in Z|]; congruence. }
        destruct (wd_walk _ _ _ WD e1 a1 I1 ltac:(congruence) EV1) as (_ & W2 & W3). rewrite PA1 in W2, W3. specialize (W2 NI). specialize (W3 NI).
        exists (e1, a1). split; [exact I1|]. split; [exact E1|]. split; [exact EV1|]. split; [congruence|]. split; [|rewrite E1; exact MP].
        destruct (le_lt_dec (d_min d0) (e_depth e1)) as [Z | Z]; [|exact (W2 Z)]. specialize (W3 Z). destruct b.
        - destruct (BT eq_refl) as (_ & BM). rewrite W3. rewrite (proj2 (Nat.leb_gt (d_max d0) (e_depth e1 + 1))); [rewrite andb_false_r; reflexivity|]. rewrite DE1. lia.
        - specialize (D eq_refl). lia.
      Qed.
      Lemma full_ids p : b = false -> kept p L -> depth p = d_min d0 -> In p (places L1).
      Proof.
        intros BE K D. apply kept_iff in K as (V & NI). assert (V' := V). apply old_visited in V as (R & SK).
        assert (R' : reached w p tr).
        { destruct p as [|k q]; [destruct R|]. destruct R as (N & R). split; [exact N|]. destruct R as [R | R]; [left; exact R|]. destruct q as [|j q]; [left; reflexivity|right]. apply old_entered; [exact R|].
          intros _. unfold depth in *. cbn [length] in *. lia. }
        destruct (tr_first p R' SK) as (e & a & rest & _ & I & E & EV & TY & NE & _). destruct (tr_ok _ I) as (_ & DE & PA). cbn [fst] in *. rewrite E in *.
        rewrite in_rev, (wd_places _ _ _ WD). apply in_map_iff. exists (e, a). split; [exact E|]. apply filter_In. split; [exact I|]. unfold tells. cbn [fst].
        rewrite (proj2 (fine_iff (e, a))) by (cbn [fst]; congruence). rewrite DE, D, Nat.leb_refl, BE. destruct (inP e) eqn:IP; [|reflexivity]. apply inP_iff in IP. rewrite PA in IP. contradiction.
      Qed.
      Lemma full_eds p : b = true -> entered w p L -> In p (places L1).
      Proof.
        intros BE EN. assert (ET : entered w p tr) by (apply old_entered; [exact EN|congruence]). destruct ET as ((e & a) & I & E & EE). cbn [fst] in E.
        assert (V : visits_of p (rev tr) <> []). { intros Z. assert (Y : In (e, a) (visits_of p (rev tr))) by (apply in_visits; split; [apply in_rev; rewrite rev_involutive; exact I|exact E]). rewrite Z in Y. destruct Y. }
        destruct (reached_dec wv p (rev tr)) as [R | R]; [|destruct V; apply (RIGHT p); tauto]. change (reached w p (rev tr)) in R. apply tr_rev in R.
        assert (SK : skipped w p = false) by (rewrite <- E; exact (tr_skipped tr O _ I)).
        destruct (tr_first p R SK) as (e1 & a1 & rest & V1 & I1 & E1 & EV1 & TY1 & NE & L2 & L3).
        assert (EE1 : enters w (e1, a1)).
        { destruct (enters_dec wv (e1, a1)) as [Z | Z]; [exact Z|]. specialize (L3 Z). subst rest. assert (Y : In (e, a) (visits_of p (rev tr))) by (apply in_visits; split; [apply in_rev; rewrite rev_involutive; exact I|exact E]).
          rewrite V1 in Y. destruct Y as [Y | []]. rewrite Y. exact EE. }
        destruct (L2 EE1) as (er & po & RS & _ & POS). cbn [deepen fl_post_order] in POS. rewrite BE in POS. destruct POS as (e2 & a2 & -> & V2).
        assert (I2 : In (e2, a2) (visits_of p (rev tr))) by (rewrite V1, RS; right; apply in_or_app; right; left; reflexivity). apply in_visits in I2 as (I2 & E2). apply in_rev in I2. cbn [fst] in E2.
        destruct (tr_ok _ I2) as (_ & DE & PA). cbn [fst] in *. rewrite E2 in *.
        assert (T2 : e_type e2 <> BFS_ERROR).
        { assert (G : forall l, in_order wv l -> forall x, In x l -> e_visit (fst x) = BFTW_POST -> exists n, e_type (fst x) = look wv n (e_pos (fst x))).
          { clear. induction 1 as [|e0 a0 l O IH _ _ _ _ TY _ _]; intros x I VX; [destruct I|]. destruct I as [<- | I]; [|auto]. cbn [fst] in *. destruct TY as [TY | (_ & _ & Z & _)]; [exact TY|congruence]. }
          destruct (G tr O _ I2 V2) as (n & TY2). cbn [fst] in TY2. rewrite TY2, E2. assert (N2 : node_at w p <> None) by (destruct p; [destruct R|apply R]). change (look wv n p) with (look w n p). rewrite (proj1 (ST n p N2)). exact NE. }
        rewrite in_rev, (wd_places _ _ _ WD). apply in_map_iff. exists (e2, a2). split; [exact E2|]. apply filter_In. split; [exact I2|]. unfold tells. cbn [fst].
        rewrite (proj2 (fine_iff (e2, a2))) by exact T2. destruct (BT BE) as (-> & _). rewrite BE. unfold is_post. cbn [fst]. rewrite V2. cbn [negb orb andb Nat.leb].
        assert (K : kept p L). { destruct EN as ((e3 & a3) & I3 & E3 & _ & T3 & A3 & _). exists e3, a3. split; [exact I3|]. split; [exact E3|]. split; [congruence|]. auto. }
        apply kept_iff in K as (_ & NI). destruct (inP e2) eqn:IP; [|reflexivity]. apply inP_iff in IP. rewrite PA in IP. contradiction.
      Qed.
      Lemma sound_eds p : b = true -> In p (places L1) -> entered w p L.
      Proof.
        intros BE IP. destruct (told_place p IP) as ((e & a) & I & E & TL). destruct (tells_facts _ TL) as (_ & _ & _ & V). specialize (V BE). cbn [fst] in *. apply tr_entered.
        assert (Y : In (e, a) (visits_of p (rev tr))) by (apply in_visits; split; [apply in_rev; rewrite rev_involutive; exact I|exact E]).
        destruct (reached_dec wv p (rev tr)) as [R | R]; [|exfalso; destruct (RIGHT p) as (_ & Z); rewrite Z in Y; [destruct Y|tauto]]. change (reached w p (rev tr)) in R. apply tr_rev in R.
        assert (SK : skipped w p = false) by (rewrite <- E; exact (tr_skipped tr O _ I)).
        destruct (tr_first p R SK) as (e1 & a1 & rest & V1 & I1 & E1 & EV1 & TY1 & NE & L2 & L3). exists (e1, a1). split; [exact I1|]. split; [exact E1|].
        destruct (enters_dec wv (e1, a1)) as [Z | Z]; [exact Z|]. specialize (L3 Z). subst rest. rewrite V1 in Y. destruct Y as [Y | []]. injection Y as -> _. congruence.
      Qed.
    End After.
  End Walk.

  (** ** All walks *)
  Hypothesis NM : named w.
  Notation wd := (deepen w false).
  Notation we := (deepen w true).

  Lemma impl_last b (s : state) : idle (deepen w b) s -> exists ok s' tr, impl (deepen w b) s = Some (ok, s') /\ heap (deepen w b) s' /\ counted (deepen w b) s' /\ direrror s' = false /\ plays (deepen w b) (user s) tr (user s') /\
    in_order (deepen w b) tr /\ Forall (fun x => event_ok w (fst x)) tr /\
    (if ok then idle (deepen w b) s' /\ (forall p, visited_right (deepen w b) p (rev tr)) /\ (forall x, In x tr -> snd x <> BFTW_STOP)
     else failed s' = true /\ fl_recover w = false \/ exists x, In x tr /\ snd x = BFTW_STOP).
  Proof.
    intros I. destruct (impl_ok (deepen w b) (trace s) (user s) NM s I eq_refl eq_refl) as (ok & s' & tr & E & [H C D HI RES SO]). exists ok, s', tr.
    split; [exact E|]. split; [exact H|]. split; [exact C|]. split; [exact D|]. split; [apply (hi_plays _ _ _ _ _ HI)|]. split; [apply (hi_order _ _ _ _ _ HI)|]. split; [apply (hi_ok _ _ _ _ _ HI)|].
    destruct ok; [|exact RES]. destruct RES as (G & OV). split; [apply (over_idle _ G tr s'); assumption|].
    split; [apply (over_right _ (trace s) (user s) G tr s'); assumption|]. apply (t_stop _ _ _ _ (ov_phase _ _ _ _ OV)).
  Qed.

  Section All.
    Variables (m : nat) (L : list (event * action)) (P : list (list byte)).
    Hypothesis J : told w T m L P.
    Hypothesis ALL : forall p, visited_right wd p (rev L).

    Record ended (n : nat) (ok : bool) (d0 : ids) (s : state) (post : list (event * action)) : Prop := {
      en_log : d_log (user s) = post ++ d_log d0; en_plays : plays w (d_user d0) post (d_user (user s));
      en_ok : Forall (fun x => event_ok w (fst x)) post;
      en_types : Forall (fun x => e_type (fst x) = BFS_ERROR \/ e_visit (fst x) = BFTW_POST /\ e_type (fst x) = T (e_pos (fst x))) post;
      en_visits : Forall (fun x => e_visit (fst x) = BFTW_POST) post;
      en_kept : forall p, In p (places post) -> kept p L /\ depth p < n;
      en_once : NoDup (places post);
      en_order : StronglySorted (fun p q => depth q <= depth p) (places post);
      en_all : ok = true -> (forall p, kept p L -> depth p < n -> In p (places post)) /\ forall x, In x post -> snd x <> BFTW_STOP;
      en_tl : forall x, In x (tl post) -> snd x <> BFTW_STOP;
      en_fail : ok = false -> failed s = true /\ fl_recover w = false \/ exists x, In x post /\ snd x = BFTW_STOP }.

    Lemma ids_last n : forall s, idle wd s -> d_visit (user s) = BFTW_POST -> d_force (user s) = true -> d_max (user s) = S n ->
      incl P (d_pruned (user s)) -> (forall z, In z (d_pruned (user s)) -> In z P \/ exists p, node_at w p <> None /\ path_at w p = z /\ n <= depth p) ->
      exists ok s' post, ids_posts w n s = Some (ok, s') /\ heap wd s' /\ counted wd s' /\ direrror s' = false /\ ended n ok (user s) s' post.
    Proof.
      induction n as [|n IH]; intros s I V FO MX PR1 PR2; cbn [ids_posts].
      - exists true, s, []. split; [reflexivity|]. split; [apply (id_heap _ _ I)|]. split; [apply (id_counted _ _ I)|]. split; [apply (id_direrror _ _ I)|].
        constructor; try (constructor; fail); try reflexivity; try (intros x []; fail); [|discriminate]. intros _. split; [intros p _ Z; lia|intros x []].
      - set (d0 := set_depths n (d_max (user s) - 1) (user s)). destruct (impl_last false (set_user d0 s) (idle_user w d0 s I)) as (ok & s1 & tr & E & H1 & C1 & D1 & PL & O & OK & RES). rewrite E.
        change (user (set_user d0 s)) with d0 in PL.
        assert (BF : false = false -> d_max d0 = S (d_min d0)) by (intros _; cbn [d0 set_depths d_max d_min]; unfold d0; cbn [set_depths d_max d_min]; lia).
        assert (Q2 : forall z, In z (d_pruned d0) -> In z P \/ false = false /\ exists p, node_at w p <> None /\ path_at w p = z /\ d_min d0 < depth p).
        { intros z Z. destruct (PR2 z Z) as [Z1 | (p & A & B & C)]; [left; exact Z1|right]. split; [reflexivity|]. exists p. split; [exact A|]. split; [exact B|]. unfold d0. cbn [set_depths d_min]. lia. }
        assert (BT : false = true -> d_min d0 = 0 /\ m < d_max d0) by discriminate.
        destruct (walk_log false P d0 V FO BF PR1 Q2 tr (user s1) PL O OK) as (L1 & WD).
        assert (SD := fun p => sound false P d0 FO BF Q2 m L J ALL BT tr L1 (user s1) O OK WD p).
        assert (ON := told_once false P d0 tr L1 (user s1) O OK WD).
        assert (DM : d_min d0 = n) by reflexivity.
        assert (VS : Forall (fun x => e_visit (fst x) = BFTW_POST) L1) by (eapply Forall_impl; [|exact (wd_errors _ _ _ _ _ _ WD)]; intros x [X | (_ & X)]; [exact X|discriminate]).
        assert (SO : StronglySorted (fun p q => depth q <= depth p) (places L1)).
        { apply sorted_all. intros a b IA IB. destruct (SD a IA) as (_ & DA). destruct (SD b IB) as (_ & DB). specialize (DA eq_refl). specialize (DB eq_refl). lia. }
        destruct ok.
        + destruct RES as (I1 & VR & NS).
          assert (NL : forall x, In x L1 -> snd x <> BFTW_STOP). { intros x IX Z. destruct (proj2 (wd_stop _ _ _ _ _ _ WD) (ex_intro _ x (conj IX Z))) as (y & IY & Y). exact (NS y IY Y). }
          destruct (IH s1 I1 (wd_visit _ _ _ _ _ _ WD) (wd_force _ _ _ _ _ _ WD)) as (ok & s' & post & E' & H' & C' & D' & [B1 B2 B3 B4 B5 B6 B7 B8 B9 B10 B11]).
          * rewrite (wd_max _ _ _ _ _ _ WD). unfold d0. cbn [set_depths d_max]. lia.
          * intros z Z. apply (wd_p1 _ _ _ _ _ _ WD), PR1, Z.
          * intros z Z. destruct (wd_p2 _ _ _ _ _ _ WD z Z) as [Z1 | (p & IP & EP)].
            -- destruct (PR2 z Z1) as [Z2 | (p & A & B & C)]; [left; exact Z2|right]. exists p. split; [exact A|]. split; [exact B|lia].
            -- right. exists p. destruct (SD p IP) as (K & DP). specialize (DP eq_refl). split; [|split; [exact EP|lia]].
               destruct K as (e0 & a0 & I0 & E0 & _). pose proof (j_ok _ _ _ _ _ J) as JO. rewrite Forall_forall in JO. destruct (JO _ I0) as (NO & _). cbn [fst] in NO. rewrite E0 in NO. exact NO.
          * exists ok, s', (post ++ L1). split; [exact E'|]. split; [exact H'|]. split; [exact C'|]. split; [exact D'|]. constructor.
            -- rewrite B1, (wd_log _ _ _ _ _ _ WD), app_assoc. reflexivity.
            -- apply (plays_app _ _ _ _ _ _ (wd_plays _ _ _ _ _ _ WD) B2).
            -- apply Forall_app. split; [exact B3|exact (wd_ok _ _ _ _ _ _ WD)].
            -- apply Forall_app. split; [exact B4|exact (wd_types _ _ _ _ _ _ WD)].
            -- apply Forall_app. split; [exact B5|exact VS].
            -- intros p IP. rewrite places_app in IP. apply in_app_iff in IP as [IP | IP]; [destruct (SD p IP) as (K & DP); specialize (DP eq_refl); split; [exact K|lia]|]. destruct (B6 p IP). split; [assumption|lia].
            -- rewrite places_app. clear - ON B7 B6 SD DM. induction ON as [|a l NI ON IHl]; [exact B7|]. cbn [app]. constructor.
               ++ rewrite in_app_iff. intros [Z | Z]; [exact (NI Z)|]. destruct (B6 a Z) as (_ & X). destruct (SD a (or_introl eq_refl)) as (_ & Y). specialize (Y eq_refl). lia.
               ++ apply IHl. intros p Z. apply SD. right. exact Z.
            -- rewrite places_app. apply sorted_app; [exact SO|exact B8|]. intros a b IA IB. destruct (SD a IA) as (_ & DA). specialize (DA eq_refl). destruct (B6 b IB) as (_ & DB). lia.
            -- intros Z. destruct (B9 Z) as (X1 & X2). split.
               ++ intros p K DP. rewrite places_app, in_app_iff. destruct (le_lt_dec n (depth p)) as [Q | Q]; [left|right; apply X1; assumption].
                  apply (full_ids false P d0 FO BF Q2 m L J ALL BT tr L1 (user s1) O OK WD VR p eq_refl K). lia.
               ++ intros x IX. apply in_app_iff in IX as [IX | IX]; auto.
            -- intros x IX. destruct post as [|y post]; [cbn [app] in IX; exact (wd_tl _ _ _ _ _ _ WD x IX)|]. cbn [app tl] in *. apply in_app_iff in IX as [IX | IX]; auto.
            -- intros Z. destruct (B11 Z) as [B | (x & X1 & X2)]; [left; exact B|right; exists x; split; [apply in_or_app; auto|exact X2]].
        + exists false, s1, L1. split; [reflexivity|]. split; [exact H1|]. split; [exact C1|]. split; [exact D1|]. constructor; try discriminate.
          * exact (wd_log _ _ _ _ _ _ WD). * exact (wd_plays _ _ _ _ _ _ WD). * exact (wd_ok _ _ _ _ _ _ WD). * exact (wd_types _ _ _ _ _ _ WD). * exact VS.
          * intros p IP. destruct (SD p IP) as (K & DP). specialize (DP eq_refl). split; [exact K|lia].
          * exact ON. * exact SO. * exact (wd_tl _ _ _ _ _ _ WD).
          * intros _. destruct RES as [RES | RES]; [left; exact RES|right; apply (wd_stop _ _ _ _ _ _ WD), RES].
    Qed.
  End All.

  (** ** Whole searches *)
  Variable u0 : U.

  Lemma stop_tl (v : env ids) l : in_order v l -> forall x, In x (tl l) -> snd x <> BFTW_STOP.
  Proof. intros O x I. destruct O as [|e a l _ _ _ NS]; [destruct I|]. exact (NS x I). Qed.
  Lemma kept_depth m L P p : told w T m L P -> kept p L -> depth p < m.
  Proof.
    intros J (e & a & I & PE & _). apply (told_visited w T m L P p J). intros Z. assert (X : In (e, a) (visits_of p L)) by (apply in_visits; auto). rewrite Z in X. destruct X.
  Qed.
  Lemma lasts_none L : in_order wd L -> lasts w T L [].
  Proof. intros O. constructor; [constructor|constructor|intros p []|constructor|exact (stop_tl _ _ O)]. Qed.
  Lemma tl_both (l l' : list (event * action)) : (forall x, In x (tl l) -> snd x <> BFTW_STOP) -> (forall x, In x l' -> snd x <> BFTW_STOP) -> forall x, In x (tl (l ++ l')) -> snd x <> BFTW_STOP.
  Proof.
    intros A B x I. destruct l as [|y l]; [cbn [app] in I; apply B; destruct l'; [destruct I|right; exact I]|]. cbn [app tl] in *. apply in_app_iff in I as [I | I]; auto.
  Qed.

  Lemma ids_all : exists ok s pre post, bftw_ids w u0 = Some (ok, s) /\ searched w u0 true (fun d => d) ok s pre post /\ lasts w T pre post /\
    StronglySorted (fun p q => depth q <= depth p) (places post) /\ (fl_post_order w = true -> ok = true -> forall p, In p (places post) <-> kept p pre) /\ (ok = true -> forall x, In x (post ++ pre) -> snd x <> BFTW_STOP).
  Proof.
    unfold bftw_ids. destruct (rounds_ok w NM T ST DI ids_next u0 one (fun d => d) (few w) (S (forest_size (roots w))) (ids_goes w T ST) (ids_leveled w T ST) (few_suffice w T ST DI _ _ (ids_goes w T ST)) (ids_init u0) (ready_init w T ST DI u0 one (fun d => d) eq_refl)) as (ok & s & E & F & R).
    { intros _. cbn [ids_init state_init user d_max]. unfold few. lia. }
    rewrite E. destruct ok; cbn [andb]; [destruct (fl_post_order w) eqn:PO|].
    - specialize (R eq_refl). destruct F as [G1 G2 G3 G4 G5 G6 (G7 & G7' & G7'') G8]. assert (J := rd_told _ _ _ _ _ _ R). set (L := d_log (user s)) in *.
      destruct (ids_last (d_min (user s)) L (d_pruned (user s)) J G7' (d_min (user s)) (set_user (set_post true (user s)) s)) as (ok & s1 & post & E1 & H1 & C1 & D1 & [B1 B2 B3 B4 B5 B6 B7 B8 B9 B10 B11]).
      { apply idle_user. apply (rd_idle _ _ _ _ _ _ R). }
      { reflexivity. }
      { reflexivity. }
      { exact (rd_band _ _ _ _ _ _ R). }
      { intros z Z. exact Z. }
      { intros z Z. left. exact Z. }
      rewrite E1. cbn [set_user user set_post d_log d_force d_user] in *. destruct (destroyed wd s1 H1 C1 D1) as (s2 & E2 & F2 & U2 & FA2). rewrite E2. exists ok, s2, L, post. split; [reflexivity|]. split; [|split; [|split; [|split]]].
      + constructor; rewrite ?U2, ?FA2; auto.
        * apply (plays_app _ _ _ _ _ _ G4 B2).
        * rewrite PO. eapply Forall_impl; [|exact B5]. intros x X. left. exact X.
        * intros Z. destruct (B11 Z) as [B | (x & X1 & X2)]; [left; exact B|right; exists x; split; [apply in_or_app; auto|exact X2]].
      + constructor; [exact B3|exact B4| |exact B7|apply tl_both; assumption]. intros p I. exact (proj1 (B6 p I)).
      + exact B8.
      + intros _ Z. destruct (B9 Z) as (X & _). intros p. split; [intros I; exact (proj1 (B6 p I))|]. intros K. apply X; [exact K|]. exact (kept_depth _ _ _ p J K).
      + intros Z x I. destruct (B9 Z) as (_ & X). apply in_app_iff in I as [I | I]; [exact (X x I)|exact (G7'' x I)].
    - destruct F as [G1 G2 G3 G4 G5 G6 (G7 & G7') G8]. destruct (destroyed wd s G1 G2 G3) as (s2 & E2 & F2 & U2 & FA2). rewrite E2. exists true, s2, (d_log (user s)), []. split; [reflexivity|]. split; [|split; [|split; [|split]]].
      + constructor; rewrite ?U2, ?FA2, ?PO; auto; try exact G4; discriminate.
      + apply lasts_none, G6.
      + constructor.
      + discriminate.
      + intros _. exact (proj2 G7').
    - destruct F as [G1 G2 G3 G4 G5 G6 G7 G8]. destruct (destroyed wd s G1 G2 G3) as (s2 & E2 & F2 & U2 & FA2). rewrite E2. exists false, s2, (d_log (user s)), []. split; [reflexivity|]. split; [|split; [|split; [|split]]].
      + constructor; rewrite ?U2, ?FA2; auto; try exact G4; try (intros [Z | Z]; congruence); try (destruct (fl_post_order w); [constructor|reflexivity]).
      + apply lasts_none, G6.
      + constructor.
      + discriminate.
      + discriminate.
  Qed.

  Lemma eds_all : exists ok s pre post, bftw_eds w u0 = Some (ok, s) /\ searched w u0 false doublings ok s pre post /\ lasts w T pre post /\
    StronglySorted (fun p q => forall r, q <> r ++ p) (places post) /\ (fl_post_order w = true -> ok = true -> forall p, In p (places post) <-> entered w p pre) /\ (ok = true -> forall x, In x (post ++ pre) -> snd x <> BFTW_STOP).
  Proof.
    unfold bftw_eds. destruct (rounds_ok w NM T ST DI eds_next u0 twice doublings (few w) (S (forest_size (roots w))) (eds_goes w T ST) (eds_leveled w T ST) (few_suffice w T ST DI _ _ (eds_goes w T ST)) (ids_init u0) (ready_init w T ST DI u0 twice doublings (or_introl (conj eq_refl eq_refl)))) as (ok & s & E & F & R).
    { intros _. cbn [ids_init state_init user d_max]. unfold few. lia. }
    rewrite E. destruct ok; cbn [andb]; [destruct (fl_post_order w) eqn:PO|].
    - specialize (R eq_refl). destruct F as [G1 G2 G3 G4 G5 G6 (G7 & G7' & G7'') G8]. assert (J := rd_told _ _ _ _ _ _ R). set (L := d_log (user s)) in *. set (d0 := set_depths 0 (d_max (user s)) (set_post false (user s))).
      destruct (impl_last true (set_user d0 s)) as (ok & s1 & tr & E1 & H1 & C1 & D1 & PL & O & OK & RES).
      { apply idle_post. apply idle_user. apply (rd_idle _ _ _ _ _ _ R). }
      rewrite E1. change (user (set_user d0 s)) with d0 in PL.
      assert (BF : true = false -> d_max d0 = S (d_min d0)) by discriminate.
      assert (P1 : incl (d_pruned (user s)) (d_pruned d0)) by (intros z Z; exact Z).
      assert (Q2 : forall z, In z (d_pruned d0) -> In z (d_pruned (user s)) \/ true = false /\ exists p, node_at w p <> None /\ path_at w p = z /\ d_min d0 < depth p) by (intros z Z; left; exact Z).
      assert (BT : true = true -> d_min d0 = 0 /\ d_min (user s) < d_max d0) by (intros _; split; [reflexivity|exact (rd_depths _ _ _ _ _ _ R)]).
      destruct (walk_log true (d_pruned (user s)) d0 eq_refl eq_refl BF P1 Q2 tr (user s1) PL O OK) as (post & WD).
      destruct (destroyed we s1 H1 C1 D1) as (s2 & E2 & F2 & U2 & FA2). rewrite E2. exists ok, s2, L, post. split; [reflexivity|]. split; [|split; [|split; [|split]]].
      + constructor; rewrite ?U2, ?FA2; auto.
        * exact (wd_log _ _ _ _ _ _ WD).
        * apply (plays_app _ _ _ _ _ _ G4 (wd_plays _ _ _ _ _ _ WD)).
        * rewrite PO. eapply Forall_impl; [|exact (wd_errors _ _ _ _ _ _ WD)]. intros x [X | (X & _)]; [left; exact X|right; auto].
        * intros ->. destruct RES as [B | X]; [left; exact B|right]. destruct (proj1 (wd_stop _ _ _ _ _ _ WD) X) as (x & X1 & X2). exists x. split; [apply in_or_app; auto|exact X2].
      + constructor.
        * exact (wd_ok _ _ _ _ _ _ WD).
        * exact (wd_types _ _ _ _ _ _ WD).
        * intros p I. exact (proj1 (sound true _ d0 eq_refl BF Q2 _ L J G7' BT tr post (user s1) O OK WD p I)).
        * exact (told_once true _ d0 tr post (user s1) O OK WD).
        * apply tl_both; [exact (wd_tl _ _ _ _ _ _ WD)|exact G7''].
      + exact (told_upwards true _ d0 tr post (user s1) O WD eq_refl).
      + intros _ ->. destruct RES as (_ & VR & _). intros p. split.
        * exact (sound_eds true _ d0 _ L J G7' BT tr post (user s1) O OK WD VR p eq_refl).
        * exact (full_eds true _ d0 eq_refl BF Q2 _ L J G7' BT tr post (user s1) O OK WD VR p eq_refl).
      + intros -> x I. destruct RES as (_ & _ & NS). apply in_app_iff in I as [I | I]; [|exact (G7'' x I)]. intros Z. destruct (proj2 (wd_stop _ _ _ _ _ _ WD) (ex_intro _ x (conj I Z))) as (y & IY & Y). exact (NS y IY Y).
    - destruct F as [G1 G2 G3 G4 G5 G6 (G7 & G7') G8]. destruct (destroyed wd s G1 G2 G3) as (s2 & E2 & F2 & U2 & FA2). rewrite E2. exists true, s2, (d_log (user s)), []. split; [reflexivity|]. split; [|split; [|split; [|split]]].
      + constructor; rewrite ?U2, ?FA2, ?PO; auto; try exact G4; discriminate.
      + apply lasts_none, G6.
      + constructor.
      + discriminate.
      + intros _. exact (proj2 G7').
    - destruct F as [G1 G2 G3 G4 G5 G6 G7 G8]. destruct (destroyed wd s G1 G2 G3) as (s2 & E2 & F2 & U2 & FA2). rewrite E2. exists false, s2, (d_log (user s)), []. split; [reflexivity|]. split; [|split; [|split; [|split]]].
      + constructor; rewrite ?U2, ?FA2; auto; try exact G4; try (intros [Z | Z]; congruence); try (destruct (fl_post_order w); [constructor|reflexivity]).
      + apply lasts_none, G6.
      + constructor.
      + discriminate.
      + discriminate.
  Qed.
End Post.
