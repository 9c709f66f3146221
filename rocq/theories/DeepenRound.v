(** * One round of deepening: how the calls of the user's callback go on *)
From Coq Require Import List Bool Arith Lia Init.Byte.
From Verif Require Import WalkSpec PathModel PathSpec SortModel BftwModel BftwSpec BftwFacts DeepenModel DeepenLog.
Import ListNotations.

Section Round.
  Context {U : Type}.
  Variable w : env U.
  Notation ids := (ids U).
  Notation wd := (deepen w false).
  Implicit Types (tr L l : list (event * action)) (x y : event * action).
  Variable T : pos -> ftype.
  Hypothesis steady : forall n p, node_at wd p <> None -> look wd n p = T p /\ T p <> BFS_ERROR.
  Hypothesis distinct : forall p q, node_at wd p <> None -> node_at wd q <> None -> path_at wd p = path_at wd q -> p = q.

  Definition depth (p : pos) : nat := length p - 1.

  Lemma cons_eq {A} (x y : A) (l l' : list A) : x :: l = y :: l' -> x = y /\ l = l'.
  Proof. intros [= -> ->]. auto. Qed.

  (** ** Walks *)
  Lemma all_pre l : in_order wd l -> Forall (fun x => e_visit (fst x) = BFTW_PRE) l.
  Proof.
    intros O. induction O as [|e a l O IH _ _ _ _ _ PV _]; constructor; auto. cbn [fst]. destruct (e_visit e); [reflexivity|]. destruct (PV eq_refl); discriminate.
  Qed.
  Lemma types l : in_order wd l -> Forall (fun x => event_ok wd (fst x)) l ->
    forall x, In x l -> e_type (fst x) = T (e_pos (fst x)) \/ e_type (fst x) = BFS_ERROR.
  Proof.
    intros O. induction O as [|e a l O IH _ _ _ _ TY _ _]; intros F x I; [destruct I|]. rewrite Forall_cons_iff in F. destruct F as (F1 & F2). destruct I as [<- | I]; [|auto].
    cbn [fst] in *. destruct TY as [(n & ->) | (Z & _)]; [left; apply steady, F1|right; exact Z].
  Qed.
  Lemma unskipped l : in_order wd l -> forall x, In x l -> skipped wd (e_pos (fst x)) = false.
  Proof. intros O. induction O as [|e a l O IH _ _ _ _ _ _ SK]; intros x I; [destruct I|]. destruct I as [<- | I]; auto. Qed.
  Lemma parent l k q : in_order wd l -> q <> [] -> forall x, In x l -> e_pos (fst x) = k :: q -> entered wd q l.
  Proof.
    intros O N (e & a) I E. apply in_split in I as (l2 & l1 & ->). cbn [fst] in E. change (l2 ++ (e, a) :: l1) with (l2 ++ [(e, a)] ++ l1). rewrite app_assoc.
    apply entered_more. apply (parents_first wd [k] q l1 e a l2 O); [exact E|discriminate|exact N].
  Qed.
  Lemma entered_depth q : entered wd q [] -> False.
  Proof. intros (x & [] & _). Qed.
  Lemma entered_visits q l : entered wd q l <-> exists x, In x (visits_of q l) /\ enters wd x.
  Proof. split; intros (x & A); exists x; rewrite in_visits in *; tauto. Qed.
  Lemma reached_parent k q l l' : (q = [] \/ entered wd q l -> q = [] \/ entered wd q l') -> reached wd (k :: q) l -> reached wd (k :: q) l'.
  Proof. cbn [reached]. tauto. Qed.
  Lemma reached_node p l : reached wd p l -> node_at wd p <> None.
  Proof. destruct p; [intros []|]. intros (N & _). exact N. Qed.

  (** ** What the user was told before *)

  (** The visits of [p] after the first one, [x] *)
  Definition rests (m : nat) (p : pos) x (rest : list (event * action)) : Prop :=
    (enters wd x -> S (depth p) < m -> broken_at wd p = true -> exists e a, rest = [(e, a)] /\ e_visit e = BFTW_PRE /\ e_type e = BFS_ERROR) /\
    (~ (enters wd x /\ S (depth p) < m /\ broken_at wd p = true) -> rest = []).

  Record told (m : nat) L (P : list (list byte)) : Prop := {
    j_right : forall p, depth p < m -> reached wd p L -> skipped wd p = false ->
      exists e a rest, visits_of p (rev L) = (e, a) :: rest /\ e_visit e = BFTW_PRE /\ e_type e = T p /\ rests m p (e, a) rest;
    j_none : forall p, m <= depth p \/ ~ reached wd p L \/ skipped wd p = true -> visits_of p L = [];
    j_pruned : forall z, In z P <-> exists e, In (e, BFTW_PRUNE) L /\ e_type e = BFS_DIR /\ e_path e = z;
    j_stop : forall x, In x L -> snd x <> BFTW_STOP;
    j_ok : Forall (fun x => event_ok wd (fst x)) L;
    j_order : in_order wd L }.

  Lemma told_none : told 0 [] [].
  Proof.
    constructor; [intros; lia|reflexivity| |intros ? []|constructor|constructor]. intros z. split; [intros []|]. intros (e & Z & _). destruct Z.
  Qed.

  Lemma told_visited m L P p : told m L P -> visits_of p L <> [] -> depth p < m /\ reached wd p L /\ skipped wd p = false.
  Proof.
    intros J N. destruct (le_lt_dec m (depth p)) as [Z | Z]; [destruct N; apply (j_none _ _ _ J); auto|]. split; [exact Z|].
    destruct (reached_dec wd p L) as [R | R]; [|destruct N; apply (j_none _ _ _ J); auto]. split; [exact R|].
    destruct (skipped wd p) eqn:S; [destruct N; apply (j_none _ _ _ J); auto|reflexivity].
  Qed.

  (** ** A round *)
  Section One.
    Variables (m M : nat) (L : list (event * action)) (P : list (list byte)) (d0 : ids).
    Hypotheses (mM : m < M) (J : told m L P) (Dm : d_min d0 = m) (DM : d_max d0 = M) (DP : d_pruned d0 = P).

    (** [tr] is the walk, [L1] what the user was told *)
    Record round tr L1 (d1 : ids) : Prop := {
      r_order : in_order wd tr; r_ok : Forall (fun x => event_ok wd (fst x)) tr; r_log : logged w d0 d1 tr L1 }.

    Lemma del_act k e a a' : del k (e, a) = del k (e, a').
    Proof. reflexivity. Qed.
    Lemma nest_fst k x : fst (nest k x) = fst x.
    Proof. destruct x; reflexivity. Qed.
    Lemma log_trace tr L1 d1 : round tr L1 d1 -> filter (del m) tr = map (nest M) L1.
    Proof. intros [_ _ K]. pose proof (lg_trace _ _ _ _ _ K) as Z. rewrite Dm, DM in Z. exact Z. Qed.
    Lemma log_in tr L1 d1 y : round tr L1 d1 -> In y L1 -> In (nest M y) tr /\ del m y = true.
    Proof.
      intros R I. pose proof (log_trace _ _ _ R) as K. assert (Z : In (nest M y) (filter (del m) tr)) by (rewrite K; apply in_map, I).
      apply filter_In in Z as (A & B). split; [exact A|]. rewrite <- B. destruct y; reflexivity.
    Qed.
    Lemma trace_in tr L1 d1 x : round tr L1 d1 -> In x tr -> del m x = true -> exists y, In y L1 /\ nest M y = x.
    Proof.
      intros R I D. pose proof (log_trace _ _ _ R) as K. assert (Z : In x (filter (del m) tr)) by (apply filter_In; auto). rewrite K in Z. apply in_map_iff in Z as (y & E & Z). exists y. auto.
    Qed.
    Lemma log_ok tr L1 d1 : round tr L1 d1 -> Forall (fun x => event_ok wd (fst x)) L1.
    Proof. intros R. apply Forall_forall. intros y I. destruct (log_in _ _ _ _ R I) as (A & _). pose proof (r_ok _ _ _ R) as K. rewrite Forall_forall in K. specialize (K _ A). rewrite nest_fst in K. exact K. Qed.
    Lemma ok_depth l x : Forall (fun x => event_ok wd (fst x)) l -> In x l -> e_depth (fst x) = depth (e_pos (fst x)) /\ e_path (fst x) = path_at wd (e_pos (fst x)) /\ node_at wd (e_pos (fst x)) <> None.
    Proof. intros F I. rewrite Forall_forall in F. destruct (F x I) as (A & B & C & _). auto. Qed.
    Lemma log_deep tr L1 d1 y : round tr L1 d1 -> In y L1 -> e_type (fst y) <> BFS_ERROR -> m <= depth (e_pos (fst y)).
    Proof.
      intros R I N. destruct (log_in _ _ _ _ R I) as (_ & D). destruct (ok_depth _ _ (log_ok _ _ _ R) I) as (<- & _). destruct y as (e & a). cbn [fst] in *.
      rewrite (del_other _ _ _ N) in D. apply Nat.leb_le, D.
    Qed.
    Lemma log_visits tr L1 d1 p : round tr L1 d1 -> map (nest M) (visits_of p (rev L1)) = filter (del m) (visits_of p (rev tr)).
    Proof.
      intros R. pose proof (log_trace _ _ _ R) as K.
      assert (F : forall (f g : event * action -> bool) l, filter f (filter g l) = filter g (filter f l)).
      { intros f g l. induction l as [|x l IH]; [reflexivity|]. cbn [filter]. destruct (f x) eqn:A, (g x) eqn:B; cbn [filter]; rewrite ?A, ?B, IH; reflexivity. }
      assert (G : forall l, map (nest M) (visits_of p l) = visits_of p (map (nest M) l)).
      { intros l. induction l as [|x l IH]; [reflexivity|]. cbn [map]. unfold visits_of in *. cbn [filter]. rewrite nest_fst. destruct (same_pos (e_pos (fst x)) p); cbn [map]; rewrite IH; reflexivity. }
      assert (H : forall l, filter (del m) (rev l) = rev (filter (del m) l)).
      { intros l. induction l as [|x l IH]; [reflexivity|]. cbn [rev filter]. rewrite filter_app, IH. cbn [filter]. destruct (del m x); [reflexivity|apply app_nil_r]. }
      rewrite G, map_rev, <- K, <- H. unfold visits_of. apply F.
    Qed.
    Lemma log_visits' tr L1 d1 p : round tr L1 d1 -> map (nest M) (visits_of p L1) = filter (del m) (visits_of p tr).
    Proof.
      intros R. pose proof (log_visits _ _ _ p R) as K. rewrite !visits_rev, map_rev in K.
      assert (H : forall l, filter (del m) (rev l) = rev (filter (del m) l)).
      { intros l. induction l as [|x l IH]; [reflexivity|]. cbn [rev filter]. rewrite filter_app, IH. cbn [filter]. destruct (del m x); [reflexivity|apply app_nil_r]. }
      rewrite H in K. apply (f_equal (@rev _)) in K. rewrite !rev_involutive in K. exact K.
    Qed.
    Lemma log_novisits tr L1 d1 p : round tr L1 d1 -> visits_of p (rev tr) = [] -> visits_of p L1 = [].
    Proof.
      intros R E. pose proof (log_visits _ _ _ p R) as K. rewrite E in K. cbn [filter] in K. apply map_eq_nil in K. rewrite visits_rev in K. apply (f_equal (@rev _)) in K. rewrite rev_involutive in K. exact K.
    Qed.
    Lemma nest_continue y : snd (nest M y) = BFTW_CONTINUE -> nest M y = y /\ cut M y = false.
    Proof. destruct y as (e & a). unfold nest. destruct (cut M (e, a)) eqn:C; cbn [fst snd]; [discriminate|]. auto. Qed.

    (** Less deep directories are entered in the walk if and only if they were before. *)
    Lemma before_entered tr L1 d1 q : round tr L1 d1 -> depth q < m -> entered wd q (L1 ++ L) -> entered wd q L.
    Proof.
      intros R D (y & I & E & EN). apply in_app_iff in I as [I | I]; [|exists y; auto]. exfalso. assert (Z : m <= depth q); [|lia].
      rewrite <- E. apply (log_deep _ _ _ _ R I). destruct y as (e & a). destruct EN as (_ & TY & _). cbn [fst]. congruence.
    Qed.
    Lemma first_of p x : told m L P -> In x (visits_of p L) -> e_type (fst x) <> BFS_ERROR -> exists rest, visits_of p (rev L) = x :: rest.
    Proof.
      intros _ I N. assert (V : visits_of p L <> []) by (intros Z; rewrite Z in I; destruct I). destruct (told_visited _ _ _ _ J V) as (D & R & SK).
      destruct (j_right _ _ _ J p D R SK) as (e & a & rest & E & _ & _ & (R1 & R2)). apply in_rev in I. rewrite <- visits_rev, E in I. destruct I as [<- | I]; [exists rest; exact E|]. exfalso.
      assert (DC : {enters wd (e, a) /\ S (depth p) < m /\ broken_at wd p = true} + {~ (enters wd (e, a) /\ S (depth p) < m /\ broken_at wd p = true)}).
      { destruct (enters_dec wd (e, a)); [|right; tauto]. destruct (lt_dec (S (depth p)) m); [|right; tauto]. destruct (broken_at wd p); [left; auto|right; intros (_ & _ & Z); discriminate]. }
      destruct DC as [(A & B & C) | C]; [|rewrite (R2 C) in I; destruct I]. destruct (R1 A B C) as (e' & a' & -> & _ & TY). destruct I as [<- | []]. apply N. exact TY.
    Qed.

    (** Directories that are entered in the walk were entered by the user. *)
    Lemma entered_told tr L1 d1 : round tr L1 d1 -> forall q, entered wd q tr -> S (depth q) < M /\ entered wd q (L1 ++ L).
    Proof.
      intros R q. induction q as [|k q IH]; intros (x & I & E & EN).
      { pose proof (ok_depth _ _ (r_ok _ _ _ R) I) as (_ & _ & Z). rewrite E in Z. destruct (Z eq_refl). }
      destruct x as (e & a). cbn [fst] in E. pose proof (ok_depth _ _ (r_ok _ _ _ R) I) as (ED & EP & NO). cbn [fst] in *. rewrite E in ED, EP, NO.
      pose proof EN as (EV & TY & EA & MP). subst a. assert (NE : e_type e <> BFS_ERROR) by congruence.
      pose proof (types _ (r_order _ _ _ R) (r_ok _ _ _ R) _ I) as TT. cbn [fst] in TT. rewrite E in TT. destruct TT as [TT | TT]; [|congruence].
      destruct (le_lt_dec m (depth (k :: q))) as [D | D].
      - destruct (trace_in _ _ _ _ R I) as (y & IY & NY). { rewrite (del_other _ _ _ NE). apply Nat.leb_le. lia. }
        assert (NC : snd (nest M y) = BFTW_CONTINUE) by (rewrite NY; reflexivity). destruct (nest_continue y NC) as (Y & C). rewrite NY in Y. subst y. split.
        + unfold cut in C. cbn [fst snd] in C. rewrite TY in C. cbn [is_dir andb] in C. apply Nat.leb_gt in C. lia.
        + exists (e, BFTW_CONTINUE). split; [apply in_or_app; auto|]. split; [exact E|exact EN].
      - split; [lia|]. assert (QU : ~ In (e_path e) P).
        { rewrite <- DP. destruct (lg_quiet _ _ _ _ _ (r_log _ _ _ R) e BFTW_CONTINUE I) as [(Z & _) | (_ & _ & Z)]; [rewrite Dm, (del_other _ _ _ NE); apply Nat.leb_gt; lia|discriminate|exact Z]. }
        assert (RE : reached wd (k :: q) L).
        { split; [exact NO|]. destruct q as [|j q]; [auto|right]. destruct (IH) as (_ & Z).
          - apply (parent tr k (j :: q) (r_order _ _ _ R)) with (x := (e, BFTW_CONTINUE)); [discriminate|exact I|exact E].
          - apply (before_entered _ _ _ _ R); [|exact Z]. unfold depth in *. cbn [length] in *. lia. }
        pose proof (unskipped _ (r_order _ _ _ R) _ I) as SK. cbn [fst] in SK. rewrite E in SK.
        destruct (j_right _ _ _ J (k :: q) D RE SK) as (e0 & a0 & rest & V & V0 & T0 & _).
        assert (I0 : In (e0, a0) (visits_of (k :: q) L)) by (apply in_rev; rewrite <- visits_rev, V; left; reflexivity). apply in_visits in I0 as (I0 & P0). cbn [fst] in P0.
        exists (e0, a0). split; [apply in_or_app; auto|]. split; [exact P0|]. split; [exact V0|]. split; [congruence|]. split; [|rewrite P0, <- E; exact MP].
        destruct a0; [reflexivity| |destruct (j_stop _ _ _ J _ I0 eq_refl)]. exfalso. apply QU. apply (j_pruned _ _ _ J). exists e0. split; [exact I0|]. split; [congruence|].
        destruct (ok_depth _ _ (j_ok _ _ _ J) I0) as (_ & Z & _). cbn [fst] in Z. rewrite Z, P0, EP. reflexivity.
    Qed.

    Lemma walk_depth tr L1 d1 : round tr L1 d1 -> forall x, In x tr -> depth (e_pos (fst x)) < M.
    Proof.
      intros R x I. destruct (ok_depth _ _ (r_ok _ _ _ R) I) as (_ & _ & NO). destruct (e_pos (fst x)) as [|k q] eqn:E; [destruct (NO eq_refl)|].
      destruct q as [|j q]; [unfold depth; cbn [length]; lia|].
      destruct (entered_told _ _ _ R (j :: q)) as (Z & _); [|unfold depth in *; cbn [length] in *; lia].
      apply (parent tr k (j :: q) (r_order _ _ _ R)) with (x := x); [discriminate|exact I|exact E].
    Qed.
    Lemma callback_log (v : ids) e : d_force v = false ->
      d_log (snd (ids_callback w v e)) = d_log v \/ exists a, d_log (snd (ids_callback w v e)) = (e, a) :: d_log v.
    Proof.
      intros F. unfold ids_callback, delegate. rewrite F. destruct (callback w (d_user v) e) as (a & u).
      destruct (e_type e); destruct (d_min v <=? e_depth e + 1), (e_depth e <? d_min v), (same_visit (d_visit v) BFTW_POST && is_pruned v e), (same_visit (e_visit e) (d_visit v)); cbn [snd d_log]; auto;
        try (right; exists a; destruct a; cbn [is_dir andb d_max]; try destruct (d_max v <=? e_depth e + 1); reflexivity);
        left; cbn [is_dir andb]; try destruct (d_max v <=? e_depth e + 1); reflexivity.
    Qed.

    (** The calls of the callback are in order, and those for new files are of files that are deep enough. *)
    Lemma order_more tr d1 : d_visit d0 = BFTW_PRE -> d_force d0 = false -> plays wd d0 tr d1 -> in_order wd tr -> Forall (fun x => event_ok wd (fst x)) tr ->
      forall L1, logged w d0 d1 tr L1 -> in_order wd (L1 ++ L) /\ exists N, first_visits (L1 ++ L) = first_visits L ++ N /\ Forall (fun p => m <= depth p /\ depth p < M) N.
    Proof.
      intros DV DF PL. induction PL as [|e tr v PL IH]; intros O F L1 K.
      { pose proof (lg_trace _ _ _ _ _ K) as Z. cbn [filter] in Z. symmetry in Z. apply map_eq_nil in Z. subst L1. split; [apply (j_order _ _ _ J)|]. exists []. rewrite app_nil_r. split; [reflexivity|constructor]. }
      cbn [callback deepen] in *. set (a := fst (ids_callback w v e)) in *. set (d1 := snd (ids_callback w v e)) in *.
      assert (R : round ((e, a) :: tr) L1 d1) by (constructor; assumption).
      inversion O as [|? ? ? O' EN PO NS FR TY PV SK]; subst e0 a0 l. rewrite Forall_cons_iff in F. destruct F as (F1 & F2). cbn [fst] in F1.
      destruct (plays_log w d0 tr v DV DF (all_pre _ O') PL) as (L0 & K0). destruct (IH O' F2 L0 K0) as (IO & N & IN & IF). clear IH.
      assert (R0 : round tr L0 v) by (constructor; assumption).
      pose proof (lg_log _ _ _ _ _ K) as KL. pose proof (lg_log _ _ _ _ _ K0) as KL0.
      destruct (callback_log v e (lg_force _ _ _ _ _ K0)) as [E | (a' & E)]; fold d1 in E; rewrite KL, KL0 in E.
      { apply app_inv_tail in E. subst L1. split; [exact IO|]. exists N. auto. }
      change ((e, a') :: L0 ++ d_log d0) with (((e, a') :: L0) ++ d_log d0) in E. apply app_inv_tail in E. subst L1.
      pose proof (log_trace _ _ _ R) as T1. pose proof (log_trace _ _ _ R0) as T0.
      assert (DE : del m (e, a) = true).
      { cbn [filter map] in T1. destruct (del m (e, a)) eqn:D; [reflexivity|]. rewrite T0 in T1. apply (f_equal (@length _)) in T1. cbn [length] in T1. lia. }
      pose proof F1 as (NO & ED & EP & _). fold (depth (e_pos e)) in ED.
      assert (FT : visits_of (e_pos e) tr = [] -> e_type e <> BFS_ERROR).
      { intros V. destruct TY as [(n & ->) | (_ & _ & _ & Z)]; [|congruence]. destruct (steady n _ NO) as (-> & Z). exact Z. }
      assert (V1 : visits_of (e_pos e) tr = [] -> visits_of (e_pos e) (L0 ++ L) = [] /\ m <= depth (e_pos e)).
      { intros V. rewrite (del_other _ _ _ (FT V)) in DE. apply Nat.leb_le in DE. rewrite ED in DE. split; [|exact DE]. rewrite visits_app.
        rewrite (log_novisits _ _ _ (e_pos e) R0) by (rewrite visits_rev, V; reflexivity). apply (j_none _ _ _ J). auto. }
      assert (V2 : forall x, visits_of (e_pos e) tr = [x] -> e_type e = BFS_ERROR -> enters wd x -> exists y, visits_of (e_pos e) (L0 ++ L) = [y] /\ enters wd y).
      { intros x V ET EX. assert (IX : In x (visits_of (e_pos e) tr)) by (rewrite V; left; reflexivity). apply in_visits in IX as (IX & PX).
        assert (NX : e_type (fst x) <> BFS_ERROR) by (destruct x; destruct EX as (_ & Z & _); cbn [fst]; congruence).
        destruct (ok_depth _ _ F2 IX) as (DX & _). rewrite PX in DX. rewrite (del_error _ _ _ ET) in DE. apply Nat.leb_le in DE.
        pose proof (log_visits' _ _ _ (e_pos e) R0) as LV. rewrite V in LV. cbn [filter] in LV. destruct x as (ex & ax). cbn [fst] in *. rewrite (del_other _ _ _ NX) in LV. rewrite DX in LV. rewrite visits_app.
        destruct (le_lt_dec m (depth (e_pos e))) as [D | D].
        - rewrite (proj2 (Nat.leb_le _ _) D) in LV. destruct (visits_of (e_pos e) L0) as [|y vs] eqn:VL; [discriminate|]. cbn [map] in LV. apply cons_eq in LV as (EY & LV). apply map_eq_nil in LV. subst vs.
          assert (NC : snd (nest M y) = BFTW_CONTINUE) by (rewrite EY; destruct EX as (_ & _ & Z & _); exact Z). destruct (nest_continue y NC) as (Y & _). rewrite Y in EY. subst y.
          exists (ex, ax). split; [|exact EX]. rewrite (j_none _ _ _ J (e_pos e)) by auto. reflexivity.
        - rewrite (proj2 (Nat.leb_gt _ _) D) in LV. apply map_eq_nil in LV. rewrite LV. cbn [app].
          destruct (entered_told _ _ _ R0 (e_pos e)) as (_ & Z). { exists (ex, ax). auto. }
          apply (before_entered _ _ _ _ R0 D) in Z. apply entered_visits in Z as (y & IY & EY). exists y. split; [|exact EY].
          assert (NE : visits_of (e_pos e) L <> []) by (intros Z; rewrite Z in IY; destruct IY). destruct (told_visited _ _ _ _ J NE) as (_ & RE & SKP).
          destruct (j_right _ _ _ J (e_pos e) D RE SKP) as (e0 & a0 & rest & VR & _ & _ & (_ & R2)). rewrite R2 in VR by lia. rewrite visits_rev in VR. apply (f_equal (@rev _)) in VR. rewrite rev_involutive in VR. cbn [rev app] in VR.
          rewrite VR in IY |- *. destruct IY as [<- | []]. reflexivity. }
      change (((e, a') :: L0) ++ L) with ((e, a') :: (L0 ++ L)). split.
      - constructor; auto.
        + intros k q EQ NQ. apply (entered_told _ _ _ R0 q). apply (EN k q EQ NQ).
        + intros x r q I PX. pose proof (all_pre _ IO) as Z. rewrite Forall_forall in Z. rewrite (Z x I) in PX. discriminate.
        + intros x I. apply in_app_iff in I as [I | I]; [|apply (j_stop _ _ _ J x I)]. destruct (log_in _ _ _ _ R0 I) as (I' & _). intros Z. apply (NS _ I'). destruct x as (ex & ax). cbn [snd] in Z. subst ax. reflexivity.
        + intros PR. destruct (FR PR) as [V | (ET & x & V & EX)]; [left; apply V1, V|right]. split; [exact ET|]. apply (V2 x V ET EX).
        + destruct TY as [TY | (ET & BR & PR & NV)]; [left; exact TY|right]. split; [exact ET|]. split; [exact BR|]. split; [exact PR|].
          destruct (FR PR) as [V | (_ & x & V & EX)]; [congruence|]. destruct (V2 x V ET EX) as (y & -> & _). discriminate.
        + intros Z. destruct (PV Z). discriminate.
      - cbn [app first_visits]. destruct (existsb (fun x => same_pos (e_pos (fst x)) (e_pos e)) (L0 ++ L)) eqn:EX; [exists N; auto|].
        assert (VN : visits_of (e_pos e) (L0 ++ L) = []).
        { destruct (visits_of (e_pos e) (L0 ++ L)) as [|x vs] eqn:V; [reflexivity|]. exfalso. assert (I : In x (visits_of (e_pos e) (L0 ++ L))) by (rewrite V; left; reflexivity). apply in_visits in I as (I & PX).
          assert (Z : existsb (fun x => same_pos (e_pos (fst x)) (e_pos e)) (L0 ++ L) = true); [|congruence]. apply existsb_exists. exists x. split; [exact I|]. unfold same_pos. rewrite PX. destruct (list_eq_dec Nat.eq_dec (e_pos e) (e_pos e)); congruence. }
        exists (N ++ [e_pos e]). rewrite IN, app_assoc. split; [reflexivity|]. apply Forall_app. split; [exact IF|]. constructor; [|constructor]. split.
        + pose proof (all_pre _ O) as AP. rewrite Forall_cons_iff in AP. destruct AP as (AP & _). cbn [fst] in AP. destruct (FR AP) as [V | (ET & x & V & EN')]; [apply (V1 V)|].
          destruct (V2 x V ET EN') as (y & Z & _). congruence.
        + apply (walk_depth _ _ _ R (e, a)). left. reflexivity.
    Qed.
    (** ** Complete rounds *)
    Section Full.
      Variables (tr L1 : list (event * action)) (d1 : ids).
      Hypotheses (R : round tr L1 d1) (right_ : forall p, visited_right wd p (rev tr)) (unstopped : forall x, In x tr -> snd x <> BFTW_STOP)
        (ordered : in_order wd (L1 ++ L)).

      Lemma all_ok : Forall (fun x => event_ok wd (fst x)) (L1 ++ L).
      Proof. apply Forall_app. split; [apply (log_ok _ _ _ R)|apply (j_ok _ _ _ J)]. Qed.

      Lemma first_walk p : reached wd p tr -> skipped wd p = false -> exists e a rest, visits_of p (rev tr) = (e, a) :: rest /\ In (e, a) tr /\ e_pos e = p /\ e_visit e = BFTW_PRE /\ e_type e = T p /\
        (enters wd (e, a) -> if broken_at wd p then exists e a, rest = [(e, a)] /\ e_visit e = BFTW_PRE /\ e_type e = BFS_ERROR else rest = []) /\ (~ enters wd (e, a) -> rest = []).
      Proof.
        intros RE SK. destruct (right_ p) as (A & _). destruct A as (e & a & rest & V & EV & EN & NE).
        { split; [|exact SK]. destruct p as [|k q]; [destruct RE|]. apply (reached_parent k q tr); [|exact RE]. rewrite entered_rev. auto. }
        exists e, a, rest. assert (I : In (e, a) (visits_of p (rev tr))) by (rewrite V; left; reflexivity). apply in_visits in I as (I & E). apply in_rev in I. cbn [fst] in E.
        split; [exact V|]. split; [exact I|]. split; [exact E|]. split; [exact EV|]. split.
        - destruct (first_type wd p tr e a rest (r_order _ _ _ R) V) as (n & ->). apply steady. apply (reached_node p tr RE).
        - split; [|exact NE]. intros X. destruct (EN X) as (er & po & -> & EO & PO). cbn [fl_post_order deepen] in PO. subst po. rewrite app_nil_r. exact EO.
      Qed.

      Lemma told_entered : forall q, S (depth q) < M -> entered wd q (L1 ++ L) -> entered wd q tr.
      Proof.
        intros q. induction q as [|k q IH]; intros D (y & I & E & EN).
        { destruct (ok_depth _ _ all_ok I) as (_ & _ & Z). rewrite E in Z. destruct (Z eq_refl). }
        assert (NE : e_type (fst y) <> BFS_ERROR) by (destruct y; destruct EN as (_ & Z & _); cbn [fst]; congruence).
        apply in_app_iff in I as [I | I].
        - destruct (log_in _ _ _ _ R I) as (I' & _). exists y. split; [|auto]. destruct (ok_depth _ _ (log_ok _ _ _ R) I) as (DY & _). rewrite E in DY.
          replace y with (nest M y); [exact I'|]. destruct y as (e & a). unfold nest, cut. cbn [fst snd] in *. destruct a; try reflexivity. rewrite (proj2 (Nat.leb_gt M (e_depth e + 1))) by lia. rewrite andb_false_r. reflexivity.
        - assert (IV : In y (visits_of (k :: q) L)) by (apply in_visits; auto). assert (NV : visits_of (k :: q) L <> []) by (intros Z; rewrite Z in IV; destruct IV).
          destruct (told_visited _ _ _ _ J NV) as (DM' & RE & SK).
          assert (RT : reached wd (k :: q) tr).
          { apply (reached_parent k q L); [|exact RE]. destruct q as [|j q]; [auto|]. intros [Z | Z]; [discriminate|right]. apply IH; [unfold depth in *; cbn [length] in *; lia|]. apply entered_more, Z. }
          destruct (first_walk (k :: q) RT SK) as (e & a & rest & V & IT & EP & EV & ET & _).
          destruct (ok_depth _ _ (r_ok _ _ _ R) IT) as (DE & PE & NO). cbn [fst] in *. rewrite EP in *.
          pose proof (types _ (j_order _ _ _ J) (j_ok _ _ _ J) _ I) as TY. rewrite E in TY. destruct TY as [TY | TY]; [|congruence].
          destruct y as (e0 & a0). cbn [fst] in *. destruct EN as (EV0 & ET0 & EA0 & MP). subst a0.
          exists (e, a). split; [exact IT|]. split; [exact EP|]. split; [exact EV|]. split; [congruence|]. split; [|rewrite EP, <- E; exact MP].
          destruct (lg_quiet _ _ _ _ _ (r_log _ _ _ R) e a IT) as [(_ & Z) | (Z & _)]; [rewrite Dm, del_other by congruence; apply Nat.leb_gt; lia| |exact Z]. exfalso.
          destruct Z as [Z | Z]; [congruence|]. rewrite (lg_pruned _ _ _ _ _ (r_log _ _ _ R)), DP in Z. apply in_app_iff in Z as [Z | Z].
          + apply in_flat_map in Z as ((e1 & a1) & I1 & Z). unfold prunes in Z. cbn [fst snd] in Z. destruct a1; try destruct Z. destruct (e_type e1) eqn:T1; cbn [is_dir] in Z; try destruct Z. 2:{ destruct H. }
            destruct (ok_depth _ _ (log_ok _ _ _ R) I1) as (_ & P1 & N1). cbn [fst] in P1, N1. assert (E1 : e_pos e1 = k :: q) by (apply distinct; auto; congruence).
            pose proof (log_deep _ _ _ _ R I1) as D1. cbn [fst] in D1. rewrite E1 in D1. assert (m <= depth (k :: q)) by (apply D1; congruence). lia.
          + apply (j_pruned _ _ _ J) in Z as (e1 & I1 & T1 & P1). destruct (ok_depth _ _ (j_ok _ _ _ J) I1) as (_ & P1' & N1). cbn [fst] in P1', N1. assert (E1 : e_pos e1 = k :: q) by (apply distinct; auto; congruence).
            assert (IV1 : In (e1, BFTW_PRUNE) (visits_of (k :: q) L)) by (apply in_visits; auto).
            destruct (first_of (k :: q) (e1, BFTW_PRUNE) J IV1) as (r1 & V1); [cbn [fst]; congruence|]. destruct (first_of (k :: q) (e0, BFTW_CONTINUE) J IV NE) as (r0 & V0). congruence.
      Qed.

      Lemma reached_told p : depth p < M -> (reached wd p tr <-> reached wd p (L1 ++ L)).
      Proof.
        destruct p as [|k q]; [intros _; split; intros []|]. intros D. split; apply reached_parent; intros [-> | E]; auto.
        - right. apply (entered_told _ _ _ R), E.
        - destruct q as [|j q]; [auto|]. right. apply told_entered; [unfold depth in *; cbn [length] in *; lia|exact E].
      Qed.
      Lemma reached_before p : depth p < m -> reached wd p (L1 ++ L) -> reached wd p L.
      Proof.
        destruct p as [|k q]; [intros _ []|]. intros D. apply reached_parent. intros [-> | E]; auto. destruct q as [|j q]; [auto|]. right. apply (before_entered _ _ _ _ R); [unfold depth in *; cbn [length] in *; lia|exact E].
      Qed.
      Lemma reached_more p : reached wd p L -> reached wd p (L1 ++ L).
      Proof. destruct p as [|k q]; [intros []|]. apply reached_parent. intros [-> | E]; auto. right. apply entered_more, E. Qed.

      Lemma unreached p : ~ (reached wd p tr /\ skipped wd p = false) -> visits_of p L1 = [].
      Proof.
        intros N. apply (log_novisits _ _ _ _ R). apply (right_ p). intros (A & B). apply N. split; [|exact B]. destruct p as [|k q]; [destruct A|]. apply (reached_parent k q (rev tr)); [|exact A]. rewrite entered_rev. auto.
      Qed.

      Lemma rest_map l r : map (nest M) l = r -> (exists e a, r = [(e, a)] /\ e_visit e = BFTW_PRE /\ e_type e = BFS_ERROR) -> exists e a, l = [(e, a)] /\ e_visit e = BFTW_PRE /\ e_type e = BFS_ERROR.
      Proof.
        intros E (e & a & -> & A & B). destruct l as [|(e' & a') l]; [discriminate|]. cbn [map] in E. apply cons_eq in E as (E & E'). apply map_eq_nil in E'. subst l. exists e', a'. split; [reflexivity|].
        apply (f_equal fst) in E. cbn [fst nest] in E. subst e'. auto.
      Qed.

      Lemma told_right p : depth p < M -> reached wd p (L1 ++ L) -> skipped wd p = false ->
        exists e a rest, visits_of p (rev (L1 ++ L)) = (e, a) :: rest /\ e_visit e = BFTW_PRE /\ e_type e = T p /\ rests M p (e, a) rest.
      Proof.
        intros D RE SK. apply (reached_told p D) in RE as RT. destruct (first_walk p RT SK) as (e & a & rest & V & I & EP & EV & ET & R1 & R2).
        pose proof (log_visits _ _ _ p R) as LV. rewrite V in LV. cbn [filter] in LV. pose proof (reached_node p _ RE) as NO. destruct (steady 0 p NO) as (_ & NE). rewrite del_other in LV by congruence.
        destruct (ok_depth _ _ (r_ok _ _ _ R) I) as (DE & _). cbn [fst] in DE. rewrite EP in DE. rewrite DE in LV. rewrite rev_app_distr, visits_app.
        assert (ER : forall x, In x rest -> e_type (fst x) = BFS_ERROR /\ e_depth (fst x) = depth p).
        { intros x IX. split.
          - destruct (enters_dec wd (e, a)) as [X | X]; [|rewrite (R2 X) in IX; destruct IX]. specialize (R1 X). destruct (broken_at wd p); [|rewrite R1 in IX; destruct IX]. destruct R1 as (e1 & a1 & -> & _ & Z). destruct IX as [<- | []]. exact Z.
          - assert (IX' : In x (visits_of p (rev tr))) by (rewrite V; right; exact IX). apply in_visits in IX' as (IX' & PX). apply in_rev in IX'. destruct (ok_depth _ _ (r_ok _ _ _ R) IX') as (Z & _). congruence. }
        assert (FD : forall b, b = (m <=? depth p + 1) -> filter (del m) rest = if b then rest else []).
        { intros b B. clear -B ER. induction rest as [|(e1 & a1) rest IH]; [destruct b; reflexivity|]. cbn [filter]. destruct (ER _ (or_introl eq_refl)) as (A1 & A2). cbn [fst] in A1, A2. rewrite (del_error _ _ _ A1), A2, <- B.
          rewrite IH by (intros x IX; apply ER; right; exact IX). destruct b; reflexivity. }
        destruct (le_lt_dec m (depth p)) as [C | C].
        - rewrite (proj2 (Nat.leb_le _ _) C) in LV. rewrite (FD true) in LV by (symmetry; apply Nat.leb_le; lia).
          assert (V0 : visits_of p (rev L) = []) by (rewrite visits_rev, (j_none _ _ _ J p) by auto; reflexivity). rewrite V0. cbn [app].
          destruct (visits_of p (rev L1)) as [|(e1 & a1) rest1] eqn:V1; [discriminate|]. cbn [map] in LV. apply cons_eq in LV as (LE & LR). pose proof (f_equal fst LE) as LF. cbn [fst nest] in LF. subst e1.
          exists e, a1, rest1. split; [reflexivity|]. split; [exact EV|]. split; [exact ET|]. split.
          + intros X DD B. assert (EQ : nest M (e, a1) = (e, a1)).
            { unfold nest, cut. cbn [fst snd]. destruct a1; try reflexivity. rewrite (proj2 (Nat.leb_gt M (e_depth e + 1))) by lia. rewrite andb_false_r. reflexivity. }
            rewrite EQ in LE. injection LE as <-. specialize (R1 X). rewrite B in R1. apply (rest_map _ _ LR R1).
          + intros N. assert (Z : rest = []); [|rewrite Z in LR; apply map_eq_nil in LR; exact LR].
            destruct (enters_dec wd (e, a)) as [X | X]; [|auto]. specialize (R1 X). destruct (broken_at wd p); [|exact R1]. exfalso. apply N. pose proof X as (_ & X2 & -> & _).
            assert (NC : snd (nest M (e, a1)) = BFTW_CONTINUE) by (rewrite LE; reflexivity). destruct (nest_continue _ NC) as (EQ & CU). rewrite EQ in LE. injection LE as ->. split; [exact X|]. split; [|reflexivity].
            unfold cut in CU. cbn [fst snd] in CU. rewrite X2 in CU. cbn [is_dir andb] in CU. apply Nat.leb_gt in CU. lia.
        - rewrite (proj2 (Nat.leb_gt _ _) C) in LV. destruct (j_right _ _ _ J p C (reached_before p C RE) SK) as (e0 & a0 & rest0 & V0 & EV0 & ET0 & (Q1 & Q2)). rewrite V0. cbn [app].
          exists e0, a0, (rest0 ++ visits_of p (rev L1)). split; [reflexivity|]. split; [exact EV0|]. split; [exact ET0|].
          assert (I0 : In (e0, a0) (visits_of p (rev L))) by (rewrite V0; left; reflexivity). apply in_visits in I0 as (I0 & P0). apply in_rev in I0. cbn [fst] in P0.
          assert (EE : enters wd (e, a) <-> enters wd (e0, a0)).
          { split; intros X.
            - destruct (entered_told _ _ _ R p) as (_ & Z); [exists (e, a); auto|]. apply (before_entered _ _ _ _ R C) in Z. apply entered_visits in Z as (y & IY & EY).
              destruct (first_of p y J IY) as (r & VR); [destruct y; destruct EY as (_ & Z & _); cbn [fst]; congruence|]. rewrite V0 in VR. injection VR as <- _. exact EY.
            - assert (Z : entered wd p tr). { apply told_entered; [lia|]. apply entered_more. exists (e0, a0). auto. }
              apply entered_visits in Z as (y & IY & EY). apply in_rev in IY. rewrite <- visits_rev, V in IY. destruct IY as [<- | IY]; [exact EY|]. destruct (ER y IY) as (Z & _). destruct y. destruct EY as (_ & Z' & _). cbn [fst] in Z. congruence. }
          destruct (le_lt_dec m (S (depth p))) as [C2 | C2].
          + rewrite (FD true) in LV by (symmetry; apply Nat.leb_le; lia). rewrite Q2 by lia. cbn [app]. split.
            * intros X DD B. apply EE in X. specialize (R1 X). rewrite B in R1. apply (rest_map _ _ LV R1).
            * intros N. assert (Z : rest = []); [|rewrite Z in LV; apply map_eq_nil in LV; exact LV].
              destruct (enters_dec wd (e, a)) as [X | X]; [|auto]. specialize (R1 X). destruct (broken_at wd p); [|exact R1]. exfalso. apply N. split; [apply EE, X|]. split; [lia|reflexivity].
          + rewrite (FD false) in LV by (symmetry; apply Nat.leb_gt; lia). apply map_eq_nil in LV. rewrite LV, app_nil_r. split.
            * intros X _ B. apply Q1; assumption.
            * intros N. apply Q2. intros (A & _ & B). apply N. split; [exact A|]. split; [lia|exact B].
      Qed.

      Lemma told_next : told M (L1 ++ L) (d_pruned d1).
      Proof.
        constructor.
        - apply told_right.
        - intros p N. rewrite visits_app. assert (Z : visits_of p L1 = [] /\ visits_of p L = []); [|destruct Z as (-> & ->); reflexivity]. split.
          + apply unreached. intros (A & B). destruct N as [N | [N | N]]; [|apply N|congruence].
            * destruct p as [|k [|j q]]; [destruct A|unfold depth in N; cbn [length] in N; lia|]. destruct A as (_ & [A | A]); [discriminate|]. destruct (entered_told _ _ _ R _ A) as (Z & _). unfold depth in *. cbn [length] in *. lia.
            * destruct (le_lt_dec M (depth p)) as [D | D]; [|apply reached_told; assumption]. exfalso.
              destruct p as [|k [|j q]]; [destruct A|unfold depth in D; cbn [length] in D; lia|]. destruct A as (_ & [A | A]); [discriminate|]. destruct (entered_told _ _ _ R _ A) as (Z & _). unfold depth in *. cbn [length] in *. lia.
          + apply (j_none _ _ _ J). destruct N as [N | [N | N]]; [left; lia|right; left|auto]. intros Z. apply N, reached_more, Z.
        - intros z. rewrite (lg_pruned _ _ _ _ _ (r_log _ _ _ R)), DP, in_app_iff, (j_pruned _ _ _ J). split.
          + intros [I | (e & I & A)]; [|exists e; rewrite in_app_iff; auto]. apply in_flat_map in I as ((e & a) & I & Z). unfold prunes in Z. cbn [fst snd] in Z. destruct a; try destruct Z. destruct (e_type e) eqn:TE; cbn [is_dir] in Z; try destruct Z; [|destruct H].
            exists e. rewrite in_app_iff. auto.
          + intros (e & I & A & B). apply in_app_iff in I as [I | I]; [left|right; exists e; auto]. apply in_flat_map. exists (e, BFTW_PRUNE). split; [exact I|]. unfold prunes. cbn [fst snd]. rewrite A. cbn [is_dir]. left. exact B.
        - intros x I. apply in_app_iff in I as [I | I]; [|apply (j_stop _ _ _ J x I)]. destruct (log_in _ _ _ _ R I) as (I' & _). intros Z. apply (unstopped _ I'). destruct x as (ex & ax). cbn [snd] in Z. subst ax. reflexivity.
        - exact all_ok.
        - exact ordered.
      Qed.

      (** The last round *)
      Lemma told_all : (forall x, In x L1 -> cut M x = false) -> forall p, visited_right wd p (rev (L1 ++ L)).
      Proof.
        intros NC p.
        assert (SH : forall q, entered wd q (L1 ++ L) -> S (depth q) < M).
        { intros q (y & I & E & EN). destruct (le_lt_dec M (S (depth q))) as [D | D]; [exfalso|exact D]. apply in_app_iff in I as [I | I].
          - pose proof (NC y I) as Z. destruct (ok_depth _ _ (log_ok _ _ _ R) I) as (DY & _). rewrite E in DY. destruct y as (e & a). destruct EN as (_ & TY & EA & _). unfold cut in Z. cbn [fst snd] in *. rewrite EA, TY in Z. cbn [is_dir andb] in Z. apply Nat.leb_gt in Z. lia.
          - assert (NV : visits_of q L <> []). { intros Z. assert (IV : In y (visits_of q L)) by (apply in_visits; auto). rewrite Z in IV. destruct IV. } destruct (told_visited _ _ _ _ J NV) as (Z & _). lia. }
        assert (RR : reached wd p (rev (L1 ++ L)) <-> reached wd p (L1 ++ L)). { destruct p as [|k q]; [reflexivity|]. split; apply reached_parent; rewrite entered_rev; auto. }
        assert (RD : reached wd p (L1 ++ L) -> depth p < M). { destruct p as [|k [|j q]]; [intros []|unfold depth; cbn [length]; lia|]. intros (_ & [Z | Z]); [discriminate|]. specialize (SH _ Z). unfold depth in *. cbn [length] in *. lia. }
        split; rewrite RR.
        - intros (A & B). destruct (told_right p (RD A) A B) as (e & a & rest & V & EV & ET & (R1 & R2)). exists e, a, rest. split; [exact V|]. split; [exact EV|]. split.
          + intros X. exists rest, []. rewrite app_nil_r. split; [reflexivity|]. split; [|reflexivity].
            assert (SD : S (depth p) < M). { apply SH. exists (e, a). assert (I : In (e, a) (visits_of p (rev (L1 ++ L)))) by (rewrite V; left; reflexivity). apply in_visits in I as (I & E). apply in_rev in I. auto. }
            destruct (broken_at wd p) eqn:B'; [apply R1; auto|apply R2; intros (_ & _ & Z); discriminate].
          + intros X. apply R2. tauto.
        - intros N. rewrite visits_rev, (j_none _ _ _ told_next p); [reflexivity|]. right. destruct (reached_dec wd p (L1 ++ L)) as [A | A]; [right|left; exact A]. destruct (skipped wd p); [reflexivity|]. destruct N. auto.
      Qed.
    End Full.
  End One.
End Round.
