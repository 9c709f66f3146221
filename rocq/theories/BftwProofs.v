(** * Whole walks, continued *)
From Coq Require Import List Bool Arith Lia Permutation Sorted Init.Byte.
From Coq Require Import ZifyBool ZifyNat.
From Verif Require Import PathModel PathSpec WalkSpec SortModel SortSpec SortProofs BftwModel BftwIo BftwQueue BftwPop BftwSpec BftwPath BftwHeap BftwFiles BftwGc BftwHist BftwSteps BftwEntry BftwMain BftwLoop BftwOrder BftwWalk.
Import ListNotations.

Section Proofs.
  Context {U : Type}.
  Variable w : env U.
  Notation state := (state U).
  Notation IO := (IO w None).
  Notation heap := (heap w).
  Notation counted := (counted w).
  Notation contents := (contents w).
  Notation in_queue := (in_queue w None).
  Notation at_phase := (at_phase w).
  Notation stopped := (stopped w).
  Notation born := (born w).
  Notation shape := (shape w).
  Notation enters := (enters w).
  Notation skipped := (skipped w).
  Notation kids_sorted := (kids_sorted w).
  Notation queue_inv := (queue_inv w).
  Notation measure := (measure w).
  Notation walk_before := (walk_before w).
  Variable base : list (event * action).
  Variable u0 : U.
  Notation hist := (hist w base u0).
  Notation stepped := (stepped w base u0).
  Hypothesis NM : named w.

  Definition sorts : Prop := fl_sort w = true /\ total_preorder (collate w).
  Definition in_turn (tr : list (event * action)) (s : state) : Prop :=
    sorts -> queue_inv (first_visits tr) (map (pos_of s) (ready (fileq s))) (map (pos_of s) (ready (dirq s))).

  Lemma sorted_contents q s : fl_sort w = true -> buffer (queue_of q s) = [] -> contents q s = ready (queue_of q s).
  Proof. intros S B. unfold BftwIo.contents. rewrite B, qorder_sort, S. reflexivity. Qed.
  Lemma ready_in q x s : In x (ready (queue_of q s)) -> In x (contents q s).
  Proof. intros I. unfold BftwIo.contents. apply in_app_iff. right. destruct (qorder (flags w q)); [exact I|]. apply in_app_iff. right. apply in_app_iff. left. exact I. Qed.
  Lemma ready_live q x s : heap s -> In x (ready (queue_of q s)) -> live x s.
  Proof. intros H I. apply (queue_live w s x H). left. exists q. apply ready_in, I. Qed.

  Lemma pop_dir_ok s : IO s -> cur s = None -> (forall q, buffer (queue_of q s) = []) ->
    (pop_dir w s = Some (false, s) /\ (contents DirQ s = [] \/ contents FileQ s <> []) /\ (fl_sort w = true -> not_bfs w = true -> ready (dirq s) = [])) \/
    exists x s', pop_dir w s = Some (true, s') /\ IO s' /\ took w DirQ x s s' /\ (fl_sort w = true -> not_bfs w = false -> ready (fileq s) = []).
  Proof.
    intros I CU BE. unfold pop_dir. rewrite CU. unfold queue_ready.
    assert (RF : forall y l, ready (fileq s) = y :: l -> contents FileQ s <> []).
    { intros y l E Z. assert (J : In y (contents FileQ s)) by (apply ready_in; cbn [queue_of]; rewrite E; left; reflexivity). rewrite Z in J. destruct J. }
    pose proof (pop_ok w DirQ s I (BE DirQ)) as PO.
    destruct (fl_sort w) eqn:SR.
    - destruct (not_bfs w) eqn:NB; cbn [negb andb].
      + destruct PO as [(CE & ->) | (x & s' & -> & I' & TK)]; [left|right; exists x, s'; split; [reflexivity|]; split; [exact I'|]; split; [exact TK|discriminate]].
        split; [reflexivity|]. split; [left; exact CE|]. intros _ _. pose proof (sorted_contents DirQ s SR (BE DirQ)) as Z. cbn [queue_of] in Z. congruence.
      + destruct (ready (fileq s)) as [|y l] eqn:E; cbn [hd_error].
        * destruct PO as [(CE & ->) | (x & s' & -> & I' & TK)]; [left|right; exists x, s'; auto]. split; [reflexivity|]. split; [left; exact CE|discriminate].
        * left. split; [reflexivity|]. split; [right; apply (RF y l eq_refl)|discriminate].
    - destruct (hd_error (ready (dirq s))) as [z|] eqn:ED; cbn [negb andb].
      + destruct PO as [(CE & ->) | (x & s' & -> & I' & TK)]; [left|right; exists x, s'; split; [reflexivity|]; split; [exact I'|]; split; [exact TK|discriminate]]. split; [reflexivity|]. split; [left; exact CE|discriminate].
      + destruct (ready (fileq s)) as [|y l] eqn:E; cbn [hd_error].
        * destruct PO as [(CE & ->) | (x & s' & -> & I' & TK)]; [left|right; exists x, s'; split; [reflexivity|]; split; [exact I'|]; split; [exact TK|discriminate]]. split; [reflexivity|]. split; [left; exact CE|discriminate].
        * left. split; [reflexivity|]. split; [right; apply (RF y l eq_refl)|discriminate].
  Qed.

  (** The end of a walk *)
  Record over (G : pos -> phase) (tr : list (event * action)) (s : state) : Prop := {
    ov_phase : at_phase G tr s; ov_root : G [] = Reading (length (roots w));
    ov_files : files s = []; ov_cur : cur s = None; ov_buffer : forall q, buffer (queue_of q s) = []; ov_contents : forall q, contents q s = [] }.

  Record ended (ok : bool) (s' : state) (tr' : list (event * action)) : Prop := {
    ed_heap : heap s'; ed_counted : counted s'; ed_direrror : direrror s' = false; ed_hist : hist tr' s';
    ed_result : if ok then exists G', over G' tr' s' else stopped tr' s';
    ed_sorted : sorts -> StronglySorted walk_before (first_visits tr') }.

  Lemma main_loop_ok fuel : forall G tr s, heap s -> counted s -> hist tr s -> at_phase G tr s -> direrror s = false -> cur s = None -> (forall q, buffer (queue_of q s) = []) ->
    G [] = Reading (length (roots w)) -> measure G < fuel -> in_turn tr s ->
    exists ok s' tr', main_loop w fuel s = Some (ok, s') /\ ended ok s' tr'.
  Proof.
    induction fuel as [|fuel IH]; intros G tr s H C HI T D CU BE GR ME TU; [lia|]. cbn [main_loop].
    destruct (pop_dir_ok s (h_io _ _ H) CU BE) as [(-> & CD & OD) | (x & s1 & -> & I1 & TK & OD)].
    - unfold pop_file. rewrite CU. destruct (pop_ok w FileQ s (h_io _ _ H) (BE FileQ)) as [(CE & ->) | (x & s1 & -> & I1 & TK)].
      + exists true, s, tr. split; [reflexivity|]. constructor; auto.
        * assert (CA : forall q, contents q s = []) by (destruct CD as [CD | CD]; [intros []; assumption|congruence]).
          exists G. constructor; auto. apply (no_files w s); assumption.
        * intros SO. apply (q_sorted w _ _ _ (TU SO)).
      + destruct (took_step w base u0 G tr s s1 FileQ x H C HI T CU I1 TK) as (f & v & H1 & C1 & HI1 & F1 & F & NC & CH & FI1 & PH & T1).
        destruct PH as [(_ & GT & ->) | (Z & _)]; [|discriminate]. pose proof (took_same _ _ _ _ _ TK) as SM.
        assert (D1 : direrror s1 = false) by (rewrite <- D; exact (same_direrror _ _ SM)).
        destruct (find_in _ _ _ F) as (FI & FX). pose proof (h_ok _ _ H f FI) as FO. pose proof (ok_pos _ _ _ FO) as NP.
        assert (M1 : measure (upd G (f_pos f) Visiting) < measure G).
        { apply measure_upd; [apply all_pos_in; rewrite (ok_node _ _ _ FO); discriminate|rewrite GT; cbn [rank]; lia]. }
        destruct (visit_step_ok w base u0 NM (upd G (f_pos f) Visiting) tr s1 x f H1 C1 HI1 T1 D1 (took_cur _ _ _ _ _ TK) F1 (upd_same _ _ _) NC CH) as (ok & s2 & tr2 & E2 & (tr1 & NW & LT) & RES).
        rewrite E2.
        assert (QV : sorts -> queue_inv (first_visits tr1) (map (pos_of s) (ready (fileq s1))) (map (pos_of s) (ready (dirq s1))) /\
                     queue_inv (first_visits tr ++ [f_pos f]) (map (pos_of s) (ready (fileq s1))) (map (pos_of s) (ready (dirq s1)) ++ [f_pos f])).
        { intros SO. pose proof (TU SO) as Q. destruct SO as (SR & TP). pose proof (took_order _ _ _ _ _ TK) as TO. rewrite qorder_sort in TO. specialize (TO SR). cbn [queue_of] in TO.
          assert (TD : ready (dirq s1) = ready (dirq s)). { pose proof (took_order' _ _ _ _ _ TK DirQ) as Z. rewrite qorder_sort in Z. apply Z; [discriminate|exact SR]. }
          rewrite TO in Q. cbn [map] in Q. assert (PX : pos_of s x = f_pos f) by (unfold pos_of; rewrite F; reflexivity). rewrite PX in Q. rewrite TD.
          assert (DN : not_bfs w = true -> map (pos_of s) (ready (dirq s)) = []) by (intros Z; rewrite (OD SR Z); reflexivity). destruct (q_visit w _ _ _ _ DN Q) as (Q1 & Q2 & Q3). split; [|exact Q3].
          destruct NW as [-> | (y & -> & EY)]; [exact Q1|]. destruct (first_or y tr) as [-> | ->]; [exact Q1|rewrite EY; exact Q2]. }
        destruct ok.
        * destruct RES as (s3 & E3 & SP & SO3). rewrite E3. destruct SP as [H3 C3 D3 HI3 RES3]. destruct RES3 as (CU3 & BE3 & G3 & T3 & FW3 & GR3).
          apply (IH G3 tr2 s3); auto.
          -- rewrite GR3, upd_other by congruence. exact GR.
          -- pose proof (measure_forward w _ _ FW3). lia.
          -- intros SO. destruct (QV SO) as (Q1 & Q2). destruct SO as (SR & TP).
             assert (B1 : buffer (fileq s1) = []) by (rewrite <- (BE FileQ); exact (took_buffer _ _ _ _ _ TK FileQ)).
             destruct (SO3 SR B1) as (IC & RF & RD). rewrite FI1 in IC.
             assert (PK : forall y, live y s3 -> live y s -> pos_of s3 y = pos_of s y).
             { intros y A B. apply (pos_keep (files s)); auto; [apply (h_ids _ _ H)|apply incl_refl]. }
             assert (L1 : forall q y, In y (ready (queue_of q s1)) -> live y s).
             { intros q y J. pose proof (ready_live q y s1 H1 J) as Z. apply live_in in Z. apply live_in. rewrite FI1 in Z. exact Z. }
             rewrite RF. rewrite (map_ext_in (pos_of s3) (pos_of s) (ready (fileq s1))).
             2: { intros y J. apply PK; [apply (ready_live FileQ y s3 H3); cbn [queue_of]; rewrite RF; exact J|apply (L1 FileQ y J)]. }
             destruct RD as [RD | (RD & y & -> & EY & EV)].
             ++ rewrite RD. rewrite (map_ext_in (pos_of s3) (pos_of s) (ready (dirq s1))).
                2: { intros y J. apply PK; [apply (ready_live DirQ y s3 H3); cbn [queue_of]; rewrite RD; exact J|apply (L1 DirQ y J)]. }
                rewrite (first_later _ _ LT). exact Q1.
             ++ rewrite RD, map_app. rewrite (map_ext_in (pos_of s3) (pos_of s) (ready (dirq s1))).
                2: { intros z J. apply PK; [apply (ready_live DirQ z s3 H3); cbn [queue_of]; rewrite RD; apply in_app_iff; left; exact J|apply (L1 DirQ z J)]. }
                cbn [map]. rewrite PK; [|apply (ready_live DirQ x s3 H3); cbn [queue_of]; rewrite RD; apply in_app_iff; right; left; reflexivity|exists f; exact F].
                replace (pos_of s x) with (f_pos f) by (unfold pos_of; rewrite F; reflexivity). rewrite first_new by (rewrite EY; exact EV). rewrite EY. exact Q2.
        * destruct RES as [H3 C3 D3 HI3 RES3]. exists false, s2, tr2. split; [reflexivity|]. constructor; auto.
          intros SO. rewrite (first_later _ _ LT). apply (q_sorted w _ _ _ (proj1 (QV SO))).
    - destruct (took_step w base u0 G tr s s1 DirQ x H C HI T CU I1 TK) as (f & v & H1 & C1 & HI1 & F1 & F & NC & CH & FI1 & PH & T1).
      destruct PH as [(Z & _) | (_ & GT & ->)]; [discriminate|].
      destruct (find_in _ _ _ F) as (FI & FX). pose proof (h_ok _ _ H f FI) as FO. pose proof (ok_pos _ _ _ FO) as NP.
      assert (M1 : measure (upd G (f_pos f) (Reading 0)) < measure G).
      { apply measure_upd; [apply all_pos_in; rewrite (ok_node _ _ _ FO); discriminate|rewrite GT; cbn [rank]; lia]. }
      destruct (read_dir_ok w base u0 NM (upd G (f_pos f) (Reading 0)) tr s1 x f H1 C1 HI1 T1 (took_cur _ _ _ _ _ TK) F1 (upd_same _ _ _)) as (ok & s2 & tr2 & E2 & SP & SO2). rewrite E2.
      destruct SP as [H2 C2 D2 HI2 RES2].
      destruct ok.
      + destruct RES2 as (CU2 & BE2 & G2 & T2 & FW2 & GR2). apply (IH G2 tr2 s2); auto.
        * rewrite GR2, upd_other by congruence. exact GR.
        * pose proof (measure_forward w _ _ FW2). lia.
        * intros SO. pose proof (TU SO) as Q. destruct SO as (SR & TP). destruct (SO2 SR) as (LT & RR). rewrite (first_later _ _ LT).
          assert (B1 : buffer (fileq s1) = []) by (rewrite <- (BE FileQ); exact (took_buffer _ _ _ _ _ TK FileQ)).
          destruct (RR eq_refl B1) as (fs & l & ND & IC & FP & SL & RF & RD). rewrite FI1 in *.
          pose proof (took_order _ _ _ _ _ TK) as TO. rewrite qorder_sort in TO. specialize (TO SR). cbn [queue_of] in TO.
          assert (TF : ready (fileq s1) = ready (fileq s)). { pose proof (took_order' _ _ _ _ _ TK FileQ) as Z. rewrite qorder_sort in Z. apply Z; [discriminate|exact SR]. }
          rewrite TO in Q. cbn [map] in Q. replace (pos_of s x) with (f_pos f) in Q by (unfold pos_of; rewrite F; reflexivity).
          assert (L2 : forall y, In y (ready (fileq s)) \/ In y l -> live y s2).
          { intros y J. apply (ready_live FileQ y s2 H2). cbn [queue_of]. rewrite RF, TF. destruct (not_bfs w); apply in_app_iff; tauto. }
          assert (PK : forall y, live y s2 -> live y s -> pos_of s2 y = pos_of s y).
          { intros y A B. apply (pos_keep (files s ++ fs)); auto. apply incl_appl, incl_refl. }
          assert (KS : kids_sorted (f_pos f) (map (pos_of s2) l)) by (apply (sort_kids w s2 (files s) fs l (f_pos f) _ TP ND IC H2 FP SL); auto).
          assert (EF : map (pos_of s2) (ready (fileq s)) = map (pos_of s) (ready (fileq s))).
          { apply map_ext_in. intros y J. apply PK; [auto|apply (ready_live FileQ y s H J)]. }
          assert (ED : map (pos_of s2) (ready (dirq s2)) = map (pos_of s) (ready (dirq s1))).
          { rewrite RD. apply map_ext_in. intros y J. apply PK; [apply (ready_live DirQ y s2 H2); cbn [queue_of]; rewrite RD; exact J|]. pose proof (ready_live DirQ y s1 H1 J) as Z. apply live_in in Z. apply live_in. rewrite FI1 in Z. exact Z. }
          rewrite ED. rewrite RF, TF. assert (FN : not_bfs w = false -> map (pos_of s) (ready (fileq s)) = []) by (intros Z; rewrite (OD SR Z); reflexivity). pose proof (q_read w _ _ _ _ _ FN Q KS) as Q'. destruct (not_bfs w); rewrite map_app, EF; exact Q'.
      + exists false, s2, tr2. split; [reflexivity|]. constructor; auto. intros SO. pose proof (q_sorted w _ _ _ (TU SO)) as Q. destruct SO as (SR & TP). destruct (SO2 SR) as (LT & _). rewrite (first_later _ _ LT). exact Q.
  Qed.

  (** ** From the roots *)

  (** Nothing is left from an earlier walk. *)
  Record idle (s : state) : Prop := {
    id_heap : heap s; id_counted : counted s; id_direrror : direrror s = false; id_failed : failed s = false;
    id_files : files s = []; id_cur : cur s = None; id_buffer : forall q, buffer (queue_of q s) = []; id_contents : forall q, contents q s = [] }.

  Lemma impl_ok s : idle s -> trace s = base -> user s = u0 -> exists ok s' tr', impl w s = Some (ok, s') /\ ended ok s' tr'.
  Proof.
    intros [H C D FA FI CU BE CE] TR US. unfold impl.
    assert (HI : hist [] s). { constructor; [exact TR|rewrite US; constructor|constructor|constructor]. }
    set (G := fun p : pos => match p with [] => Reading 0 | _ => Unborn end).
    assert (T : at_phase G [] s).
    { constructor.
      - exact FA.
      - intros x [].
      - intros p. rewrite FI. split; [intros (f & [] & _)|]. intros (N & A). destruct p; [congruence|discriminate].
      - intros f. rewrite FI. intros [].
      - intros k p. cbn [G]. split; [congruence|]. destruct p; cbn [G BftwHist.born]; lia.
      - intros p k. destruct p; cbn [G]; [intros [= <-]; lia|discriminate].
      - intros p N. destruct p; [congruence|]. reflexivity.
      - reflexivity. }
    assert (PN : previous s = None).
    { destruct (previous s) as [x|] eqn:E; [|reflexivity]. destruct (h_prev _ _ H x E) as (f & F & _). destruct (find_in _ _ _ F) as (Z & _). rewrite FI in Z. destruct Z. }
    destruct (visit_all_ok w base u0 NM (roots w) 0 G [] s [] H C HI T D) as (ok & s1 & tr1 & E1 & [H1 C1 HI1 D1 CU1 AD1 FI1 RES1 SO1]).
    { unfold at_dir. rewrite CU. auto. }
    { reflexivity. }
    { intros j. reflexivity. }
    rewrite E1. destruct ok.
    - destruct RES1 as (G1 & T1 & FW1 & GR1 & _). destruct (flush_step w base u0 G1 tr1 s1 H1 C1 HI1 T1) as (s2 & E2 & H2 & C2 & HI2 & T2 & SM2 & BE2 & SO2). rewrite E2.
      apply (main_loop_ok (S (2 * forest_size (roots w))) G1 tr1 s2); auto.
      + rewrite (same_direrror _ _ SM2). congruence.
      + rewrite (same_cur _ _ SM2). congruence.
      + pose proof (measure_max w G1). lia.
      + intros (SR & TP). destruct (SO1 SR) as (_ & -> & fs & F1 & F2 & F3 & F4 & F5). destruct (SO2 SR) as (l & L1 & L2 & L3).
        assert (RE : ready (fileq s) = [] /\ ready (dirq s) = []).
        { pose proof (sorted_contents FileQ s SR (BE FileQ)) as Z1. pose proof (sorted_contents DirQ s SR (BE DirQ)) as Z2. rewrite CE in Z1, Z2. auto. }
        destruct RE as (RF & RD). rewrite F5, RD in L3. rewrite F4, RF, app_nil_r in L2. assert (L2' : ready (fileq s2) = l) by (destruct (not_bfs w); exact L2).
        pose proof (BE FileQ) as B0. cbn [queue_of] in B0. rewrite F3, B0 in L1. cbn [app] in L1. rewrite map_length in L1. rewrite FI in F1. cbn [app] in F1.
        rewrite L3. cbn [map first_visits]. apply q_init. rewrite L2'.
        apply (sort_kids w s2 [] fs l [] (length (roots w)) TP); auto.
        * cbn [app]. rewrite <- F1. apply (h_ids _ _ H1).
        * cbn [app]. rewrite (same_files _ _ SM2), F1. apply incl_refl.
        * intros x J. apply (ready_live FileQ x s2 H2). cbn [queue_of]. rewrite L2'. exact J.
    - exists false, s1, tr1. split; [reflexivity|]. constructor; auto; [congruence|]. intros (SR & _). destruct (SO1 SR). discriminate.
  Qed.

  Lemma over_idle G tr s : heap s -> counted s -> direrror s = false -> over G tr s -> idle s.
  Proof. intros H C D [T _ A1 A2 A3 A4]. constructor; auto. apply (t_failed _ _ _ _ T). Qed.

  (** What a complete walk has visited *)
  Lemma over_right G tr s : hist tr s -> over G tr s -> forall p, visited_right w p (rev tr).
  Proof.
    intros HI [T GR FI CU BE CE] p.
    assert (DEAD : forall q, q <> [] -> alive (G q) = false).
    { intros q N. destruct (alive (G q)) eqn:A; [|reflexivity]. destruct (proj2 (t_live _ _ _ _ T q) (conj N A)) as (f & F & _). rewrite FI in F. destruct F. }
    assert (ENT : forall q, q <> [] -> (entered w q (rev tr) <-> G q = Closed)).
    { intros q N. pose proof (t_evs _ _ _ _ T q N) as SH. pose proof (DEAD q N) as DQ. unfold entered.
      assert (EQ : (exists ea, In ea (rev tr) /\ e_pos (fst ea) = q /\ enters ea) <-> exists ea, In ea (evs q tr) /\ enters ea).
      { split; intros (ea & A); exists ea; [destruct A as (A1 & A2 & A3)|destruct A as (A1 & A3)]; rewrite evs_in, <- in_rev in *; tauto. }
      rewrite EQ. destruct (G q); try discriminate; cbn [BftwHist.shape] in SH.
      - rewrite SH. split; [intros (ea & [] & _)|discriminate].
      - split; [reflexivity|]. intros _. destruct SH as (_ & x & er & po & -> & EN & _). exists x. split; [left; reflexivity|exact EN].
      - split; [|discriminate]. intros (ea & A & EN). exfalso. destruct SH as [(_ & Z) | (_ & x & Z & _ & NE)]; rewrite Z in A; [destruct A|]. destruct A as [<- | []]. exact (NE EN). }
    assert (REACH : forall k q, reached w (k :: q) (rev tr) <-> G (k :: q) <> Unborn).
    { intros k q. rewrite (t_born _ _ _ _ T). cbn [reached node_at]. destruct q as [|j q].
      - rewrite GR. cbn [BftwHist.born]. rewrite nth_error_Some. cbn [kids_at]. tauto.
      - rewrite (ENT (j :: q)) by discriminate. rewrite nth_error_Some. split.
        + intros (L & [Z | Z]); [discriminate|]. rewrite Z. cbn [BftwHist.born]. exact L.
        + intros L. pose proof (DEAD (j :: q) ltac:(discriminate)) as DQ. destruct (G (j :: q)); try discriminate; cbn [BftwHist.born] in L; try lia. auto. }
    unfold visited_right. change (visits_of p (rev tr)) with (evs p tr). destruct p as [|k q].
    - split; [intros (Z & _); destruct Z|]. intros _. destruct (evs [] tr) as [|x l] eqn:E; [reflexivity|]. exfalso.
      assert (J : In x (evs [] tr)) by (rewrite E; left; reflexivity). apply evs_in in J as (J & Z). pose proof (hi_ok _ _ _ _ _ HI) as O. rewrite Forall_forall in O. destruct (O x J) as (ND & _). rewrite Z in ND. apply ND. reflexivity.
    - rewrite REACH. pose proof (t_evs _ _ _ _ T (k :: q) ltac:(discriminate)) as SH. pose proof (DEAD (k :: q) ltac:(discriminate)) as DQ.
      destruct (G (k :: q)); try discriminate; cbn [BftwHist.shape] in SH.
      + split; [tauto|]. intros _. exact SH.
      + destruct SH as (SK & (e & a) & er & po & EQ & EN & EO & PO). split.
        * intros _. exists e, a, (er ++ po). split; [exact EQ|]. split; [apply EN|]. split; [|intros Z; destruct (Z EN)]. intros _. exists er, po. split; [reflexivity|]. split; [exact EO|exact PO].
        * intros Z. exfalso. apply Z. split; [discriminate|exact SK].
      + destruct SH as [(SK & EQ) | (SK & (e & a) & EQ & EV & NE)].
        * split; [intros (_ & Z); congruence|]. intros _. exact EQ.
        * split; [|intros Z; exfalso; apply Z; split; [discriminate|exact SK]]. intros _. exists e, a, []. split; [exact EQ|]. split; [exact EV|]. split; [intros Z; destruct (NE Z)|reflexivity].
  Qed.
End Proofs.

Section Whole.
  Context {U : Type}.
  Variable w : env U.

  Lemma contents_init u q : contents w q (state_init u) = [].
  Proof. unfold contents. destruct q; cbn [queue_of state_init fileq dirq buffer ready waiting inflight fly app]; [destruct (qorder (flags w FileQ))|destruct (qorder (flags w DirQ))]; reflexivity. Qed.

  Lemma idle_init u : idle w (state_init u).
  Proof.
    assert (NQ : forall x, ~ BftwIo.in_queue w None x (state_init u)). { intros x [(q & I) | Z]; [rewrite contents_init in I; destruct I|discriminate]. }
    assert (I : BftwIo.IO w None (state_init u)).
    { constructor.
      - intros q. constructor; rewrite ?contents_init.
        + destruct q; reflexivity.
        + destruct q; reflexivity.
        + intros _. destruct q; cbn; constructor.
        + destruct q; intros x [].
        + destruct q; intros x [].
        + destruct q; reflexivity.
      - rewrite !contents_init. constructor.
      - constructor.
      - intros x Z. destruct (NQ x Z).
      - intros x [].
      - apply Permutation_refl.
      - reflexivity. }
    constructor; auto.
    - constructor; [exact I|constructor|intros g []|intros g []|intros g g' []|intros g p []|discriminate|discriminate].
    - intros f [].
    - intros q. destruct q; reflexivity.
    - intros q. apply contents_init.
  Qed.

  (** All about a walk *)
  Record walked (u : U) (ok : bool) (s : state U) : Prop := {
    wk_files : files s = [];
    wk_plays : plays w u (trace s) (user s);
    wk_ok : Forall (fun x => event_ok w (fst x)) (trace s);
    wk_order : in_order w (trace s);
    wk_result : if ok then (failed s = false /\ forall x, In x (trace s) -> snd x <> BFTW_STOP) /\ forall p, visited_right w p (rev (trace s))
                else failed s = true /\ fl_recover w = false \/ exists x, In x (trace s) /\ snd x = BFTW_STOP;
    wk_sorted : fl_sort w = true -> total_preorder (collate w) ->
      StronglySorted (if not_bfs w then dfs_before w else bfs_before w) (first_visits (trace s)) }.

  Lemma walk_ok u : named w -> exists ok s, bftw_walk w u = Some (ok, s) /\ walked u ok s.
  Proof.
    intros NM. unfold bftw_walk. destruct (impl_ok w [] u NM (state_init u) (idle_init u) eq_refl eq_refl) as (ok & s1 & tr & E1 & [H1 C1 D1 HI1 RES1 SO1]). rewrite E1.
    destruct (destroy_ok w s1 H1 C1 D1) as (s2 & E2 & H2 & C2 & SI2 & F2). rewrite E2. exists ok, s2. split; [reflexivity|].
    pose proof (hi_trace _ _ _ _ _ HI1) as TR. rewrite app_nil_r in TR. destruct HI1 as [_ HP HO HI]. 
    assert (T2 : trace s2 = tr) by (rewrite (silent_trace _ _ SI2); exact TR). constructor; rewrite ?T2; auto.
    - rewrite (silent_user _ _ SI2). exact HP.
    - rewrite (silent_failed _ _ SI2). destruct ok; [|exact RES1]. destruct RES1 as (G & OV). split.
      + pose proof (ov_phase _ _ _ _ OV) as T. split; [apply (t_failed _ _ _ _ T)|apply (t_stop _ _ _ _ T)].
      + apply (over_right w [] u G tr s1); [|exact OV]. constructor; auto. rewrite app_nil_r. exact TR.
    - intros SR TP. apply SO1. split; assumption.
  Qed.
End Whole.
