(** * The steps of the main loop of a walk *)
From Coq Require Import List Bool Arith Lia Permutation Init.Byte.
From Coq Require Import ZifyBool ZifyNat.
From Verif Require Import PathModel PathSpec WalkSpec BftwModel BftwIo BftwQueue BftwPop BftwSpec BftwPath BftwHeap BftwFiles BftwGc BftwHist BftwSteps BftwEntry BftwMain.
Import ListNotations.

Section Loop.
  Context {U : Type}.
  Variable w : env U.
  Notation state := (state U).
  Notation IO := (IO w None).
  Notation contents := (contents w).
  Notation in_queue := (in_queue w None).
  Notation heap := (heap w).
  Notation kept := (kept w).
  Notation counted := (counted w).
  Notation calm := (calm w).
  Notation crowded := (crowded w).
  Notation enters := (enters w).
  Notation skipped := (skipped w).
  Notation shape := (shape w).
  Notation at_phase := (at_phase w).
  Notation stopped := (stopped w).
  Notation born := (born w).
  Variable base : list (event * action).
  Variable u0 : U.
  Notation hist := (hist w base u0).
  Hypothesis NM : named w.

  Lemma t_arranged G tr s s' : at_phase G tr s -> arranged w s s' -> at_phase G tr s'.
  Proof.
    intros [] AR. pose proof (arranged_same _ _ _ AR) as SM. constructor; auto.
    - rewrite (same_failed _ _ SM). assumption.
    - rewrite (same_files _ _ SM). assumption.
    - intros f. rewrite (same_files _ _ SM). intros I. specialize (t_place f I). destruct (G (f_pos f)); cbn [place] in *; rewrite ?(same_cur _ _ SM); auto.
      + eapply Permutation_in; [apply Permutation_sym, (arranged_contents _ _ _ AR)|exact t_place].
      + eapply Permutation_in; [apply Permutation_sym, (arranged_contents _ _ _ AR)|exact t_place].
      + rewrite (arranged_in_queue _ _ _ _ AR). exact t_place.
  Qed.

  Lemma flush_step G tr s : heap s -> counted s -> hist tr s -> at_phase G tr s -> exists s', flush w s = Some s' /\ heap s' /\ counted s' /\ hist tr s' /\ at_phase G tr s' /\ same s s' /\
    (forall q, buffer (queue_of q s') = []) /\
    (fl_sort w = true -> exists l, SortModel.list_sort (name_le w s') (length (buffer (fileq s))) (buffer (fileq s)) = Some l /\
        ready (fileq s') = (if not_bfs w then l ++ ready (fileq s) else ready (fileq s) ++ l) /\ ready (dirq s') = ready (dirq s)).
  Proof.
    intros H C HI T. destruct (flush_all w s (h_io _ _ H)) as (s' & E & I & AR & BE & SO). pose proof (arranged_same _ _ _ AR) as SM. exists s'.
    split; [exact E|]. split; [apply (heap_arranged w s); assumption|]. split; [apply (counted_arranged w s); assumption|].
    split; [apply (hist_eq w base u0 tr s); [exact HI|apply (same_trace _ _ SM)|apply (same_user _ _ SM)]|]. split; [apply (t_arranged G tr s); assumption|].
    split; [exact SM|]. split; [exact BE|]. intros SR. unfold name_le, name_of, find_file. rewrite (same_files _ _ SM). exact (SO SR).
  Qed.

  Lemma opendir_ok G tr s x f : heap s -> counted s -> hist tr s -> at_phase G tr s -> cur s = Some x -> find_file x s = Some f ->
    exists s', opendir w s = Some s' /\ heap s' /\ counted s' /\ hist tr s' /\ at_phase G tr s' /\ calm s s' /\ files s' = files s /\ cur s' = cur s /\ direrror s' = false.
  Proof.
    intros H C HI T CU F. unfold opendir. rewrite CU. cbn [ask].
    destruct (set_direrror_same w s false H C) as (H0 & C0 & CA0). set (s0 := set_direrror false s) in *.
    assert (HI0 : hist tr s0) by (apply (hist_eq w base u0 tr s); auto).
    assert (T0 : at_phase G tr s0) by (apply (t_calm w G tr s); auto).
    destruct (clock_all w base u0 (S (clock s0)) G tr s0 H0 C0 HI0 T0) as (H1 & C1 & HI1 & T1). set (s1 := set_clock (S (clock s0)) s0) in *.
    assert (CA1 : calm s s1) by (constructor; auto).
    destruct (choose w (clock s0) =? 0).
    - change (find_file x s1) with (find_file x s). rewrite F. exists s1. split; [reflexivity|]. split; [exact H1|]. split; [exact C1|]. split; [exact HI1|]. split; [exact T1|]. split; [exact CA1|]. auto.
    - assert (F1 : find_file x s1 = Some f) by exact F.
      assert (TA : target_at w None (f_pos f) s1). { unfold target_at. change (cur s1) with (cur s). rewrite CU. exists f. auto. }
      rewrite (build_path_ok w None (f_pos f) s1 NM (h_ok _ _ H1) (h_ids _ _ H1) (h_prev _ _ H1) TA).
      set (s2 := set_previous (cur s1) (set_path (path_at w (f_pos f)) s1)).
      assert (H2 : heap s2).
      { apply (heap_eq w s1); auto; [apply (io_eq w s1); auto; apply (h_io _ _ H1)|intros y; reflexivity|]. right. intros y E. exists f. change (cur s = Some y) in E. rewrite CU in E. injection E as <-.
        split; [exact F|]. exists []. rewrite app_nil_r. reflexivity. }
      assert (NQ : ~ in_queue x s2) by (apply (h_cur _ _ H2 x); exact CU).
      destruct (file_open_ok w x s2 f H2 F NQ) as (s3 & E3 & I3 & P3). rewrite E3. pose proof (popped_moved _ _ _ _ P3) as M3. pose proof (moved_same _ _ _ _ M3) as SM.
      exists s3. split; [reflexivity|]. split; [apply (heap_moved w s2); assumption|].
      assert (CA3 : calm s1 s3) by (apply (calm_trans w s1 s2); [constructor; auto|apply calm_moved, M3]).
      split; [apply (counted_eq w s1); auto; try (destruct SM; assumption); intros y; apply (calm_in_queue _ _ _ y CA3)|].
      split; [apply (hist_eq w base u0 tr s1); [exact HI1|apply (same_trace _ _ SM)|apply (same_user _ _ SM)]|].
      split; [apply (t_calm w G tr s1); auto; [apply (same_failed _ _ SM)|apply (same_files _ _ SM)|apply (same_cur _ _ SM)]|].
      split; [eapply calm_trans; eassumption|]. split; [apply (same_files _ _ SM)|]. split; [rewrite (same_cur _ _ SM); exact CU|]. rewrite (same_direrror _ _ SM). reflexivity.
  Qed.

  (** A step of the main loop *)
  Record stepped (G : pos -> phase) (tr : list (event * action)) (ok : bool) (s' : state) (tr' : list (event * action)) : Prop := {
    sp_heap : heap s'; sp_counted : counted s'; sp_direrror : direrror s' = false; sp_hist : hist tr' s';
    sp_result : if ok then cur s' = None /\ (forall q, buffer (queue_of q s') = []) /\ exists G', at_phase G' tr' s' /\ forward G G' /\ G' [] = G [] else stopped tr' s' }.

  Lemma f_kids_at s f : file_ok w s f -> kids_at w (f_pos f) = f_kids f.
  Proof.
    intros FO. pose proof (ok_node _ _ _ FO) as N. unfold f_kids. destruct (f_pos f) as [|k q]; [discriminate|]. cbn [node_at] in N. cbn [kids_at]. rewrite N. reflexivity.
  Qed.

  Lemma read_dir_ok G tr s x f : heap s -> counted s -> hist tr s -> at_phase G tr s -> cur s = Some x -> find_file x s = Some f -> G (f_pos f) = Reading 0 ->
    exists ok s' tr', read_dir w s = Some (ok, s') /\ stepped G tr ok s' tr' /\
      (fl_sort w = true -> later tr tr' /\ (ok = true -> buffer (fileq s) = [] ->
         exists fs l, NoDup (map f_id (files s ++ fs)) /\ incl (files s') (files s ++ fs) /\ map f_pos fs = map (fun j => j :: f_pos f) (seq 0 (length (kids_at w (f_pos f)))) /\
           SortModel.list_sort (name_le w s') (length fs) (map f_id fs) = Some l /\
           ready (fileq s') = (if not_bfs w then l ++ ready (fileq s) else ready (fileq s) ++ l) /\ ready (dirq s') = ready (dirq s))).
  Proof.
    intros H C HI T CU F GR. unfold read_dir. destruct (opendir_ok G tr s x f H C HI T CU F) as (s1 & E1 & H1 & C1 & HI1 & T1 & CA1 & FI1 & CU1 & D1). rewrite E1, CU1, CU.
    assert (F1 : find_file x s1 = Some f) by (unfold find_file in *; rewrite FI1; exact F). rewrite F1. pose proof (find_ok _ _ _ _ (h_ok _ _ H1) F1) as FO.
    pose proof (ok_pos _ _ _ FO) as NP. pose proof (f_kids_at s1 f FO) as KA.
    destruct (visit_all_ok w base u0 NM (f_kids f) 0 G tr s1 (f_pos f) H1 C1 HI1 T1 D1) as (ok & s2 & tr2 & E2 & [H2 C2 HI2 D2 CU2 AD2 FI2 RES2 SO2]).
    { unfold at_dir. rewrite CU1, CU. exists f. auto. }
    { exact GR. }
    { intros j. rewrite KA. reflexivity. }
    rewrite E2. destruct ok.
    - destruct RES2 as (G2 & T2 & FW2 & GQ2 & GR2). set (s3 := set_direrror (broken (f_info f)) s2).
      destruct (set_direrror_same w s2 (broken (f_info f)) H2 C2) as (H3 & C3 & CA3). fold s3 in H3, C3, CA3.
      assert (T3 : at_phase G2 tr2 s3) by (apply (t_calm w G2 tr2 s2); auto).
      assert (HI3 : hist tr2 s3) by (apply (hist_eq w base u0 tr2 s2); auto).
      assert (BR : broken (f_info f) = broken_at w (f_pos f)). { unfold broken_at, f_info. rewrite (ok_node _ _ _ FO). destruct (f_node f). reflexivity. }
      assert (CU3 : cur s3 = Some x) by (change (cur s2 = Some x); congruence).
      assert (F3 : find_file x s3 = Some f) by (change (find_file x s2 = Some f); apply (find_more w x s1 s2 f H2 F1 FI2)).
      unfold closedir. destruct (gc_close w base u0 NM G2 tr2 s3 x f H3 C3 HI3 T3) as (ret & s4 & tr4 & E4 & [H4 C4 CA4 D4 CU4 HI4 LT4 RES4]); auto.
      { rewrite GQ2, KA. reflexivity. }
      rewrite E4. destruct ret.
      + destruct RES4 as (IC4 & G4 & T4 & FW4 & GR4). destruct (flush_step G4 tr4 s4 H4 C4 HI4 T4) as (s5 & E5 & H5 & C5 & HI5 & T5 & SM5 & BE5 & SO5). rewrite E5.
        exists true, s5, tr4. split; [reflexivity|]. split.
        * constructor; auto; [rewrite (same_direrror _ _ SM5); exact D4|]. split; [rewrite (same_cur _ _ SM5); exact CU4|]. split; [exact BE5|]. exists G4. split; [exact T5|].
          split; [eapply forward_trans; eassumption|]. rewrite GR4. apply GR2, NP.
        * intros SR. destruct (SO2 SR) as (_ & -> & fs & A1 & A2 & A3 & A4 & A5). split; [exact LT4|]. intros _ BE. destruct (SO5 SR) as (l & B1 & B2 & B3). exists fs, l.
          pose proof (calm_order _ _ _ CA4 SR) as O4. pose proof (calm_order _ _ _ CA1 SR) as O1.
          destruct (O4 FileQ) as (O4a & O4b). destruct (O4 DirQ) as (_ & O4d). destruct (O1 FileQ) as (O1a & O1b). destruct (O1 DirQ) as (_ & O1d). cbn [queue_of] in *.
          assert (BF : buffer (fileq s4) = map f_id fs) by (rewrite O4a; change (buffer (fileq s3)) with (buffer (fileq s2)); rewrite A3, O1a, BE; reflexivity).
          assert (RF : ready (fileq s4) = ready (fileq s)) by (rewrite O4b; change (ready (fileq s3)) with (ready (fileq s2)); congruence).
          assert (RD : ready (dirq s4) = ready (dirq s)) by (rewrite O4d; change (ready (dirq s3)) with (ready (dirq s2)); congruence).
          split; [rewrite <- FI1, <- A1; apply (h_ids _ _ H2)|]. split; [|split; [|split; [|split]]].
          -- intros g I. rewrite (same_files _ _ SM5) in I. apply IC4 in I. change (In g (files s2)) in I. rewrite A1, FI1 in I. exact I.
          -- rewrite KA. exact A2.
          -- rewrite BF, map_length in B1. exact B1.
          -- rewrite B2, RF. reflexivity.
          -- congruence.
      + exists false, s4, tr4. split; [reflexivity|]. split; [constructor; auto|]. intros SR. destruct (SO2 SR) as (_ & -> & _). split; [exact LT4|]. discriminate.
    - exists false, s2, tr2. split; [reflexivity|]. split; [constructor; auto; congruence|]. intros SR. destruct (SO2 SR). discriminate.
  Qed.

  Lemma visit_step_ok G tr s x f : heap s -> counted s -> hist tr s -> at_phase G tr s -> direrror s = false -> cur s = Some x -> find_file x s = Some f -> G (f_pos f) = Visiting ->
    ~ In x (to_close s) -> (forall g, In g (files s) -> f_parent g <> Some x) ->
    exists ok s1 tr', bftw_visit w None s = Some (ok, s1) /\
      (exists tr1, (tr1 = tr \/ exists y, tr1 = y :: tr /\ e_pos (fst y) = f_pos f) /\ later tr1 tr') /\
      if ok then exists s', flush w s1 = Some s' /\ stepped G tr true s' tr' /\
        (fl_sort w = true -> buffer (fileq s) = [] -> incl (files s') (files s) /\ ready (fileq s') = ready (fileq s) /\
           (ready (dirq s') = ready (dirq s) \/ ready (dirq s') = ready (dirq s) ++ [x] /\ exists y, tr' = y :: tr /\ e_pos (fst y) = f_pos f /\ evs (f_pos f) tr = []))
      else stepped G tr false s1 tr'.
  Proof.
    intros H C HI T D CU F GV NC CH. unfold bftw_visit. cbn [buffer_file]. destruct (find_in _ _ _ F) as (FI & FX). pose proof (ok_pos _ _ _ (h_ok _ _ H f FI)) as NP.
    assert (E0 : evs (f_pos f) tr = []). { pose proof (t_evs _ _ _ _ T (f_pos f) NP) as E. rewrite GV in E. exact E. }
    destruct (through_parent w G tr s f H T FI) as (k & q & EP & TH & PL).
    destruct (call_step w base u0 NM G tr s None BFTW_PRE k q H T HI) as (a & s1 & tr1 & E1 & H1 & ST).
    { unfold target_at. rewrite CU. exists f. auto. }
    { exact TH. }
    { exact PL. }
    { left. rewrite <- EP, GV. reflexivity. }
    { intros _. left. rewrite <- EP. exact E0. }
    { congruence. }
    { discriminate. }
    rewrite E1. rewrite <- EP in ST. pose proof (st_kept _ _ _ _ _ _ _ _ _ _ ST) as K1. destruct (kept_fields w _ _ K1) as (FI1 & NX1 & RF1 & CU1 & DE1).
    pose proof (counted_kept w _ _ C K1) as C1. pose proof (st_hist _ _ _ _ _ _ _ _ _ _ ST) as HI1. pose proof (calm_kept _ _ _ K1) as CA1.
    assert (F1 : find_file x s1 = Some f) by (unfold find_file in *; rewrite FI1; exact F).
    assert (CX : cur s1 = Some x) by congruence.
    assert (NEWS : tr1 = tr \/ exists y, tr1 = y :: tr /\ e_pos (fst y) = f_pos f) by apply (st_news _ _ _ _ _ _ _ _ _ _ ST).
    destruct (st_result _ _ _ _ _ _ _ _ _ _ ST) as [(-> & SP) | (NST & FA & RES)].
    { destruct (gc_quiet w s1 H1 C1 ltac:(congruence)) as (s2 & E2 & H2 & C2 & CA2 & SI2 & CU2). rewrite E2. exists false, s2, tr1. split; [reflexivity|].
      split; [exists tr1; split; [exact NEWS|apply later_id]|]. constructor; auto.
      - rewrite (silent_direrror _ _ SI2). congruence.
      - apply (hist_eq w base u0 tr1 s1); [exact HI1|apply (silent_trace _ _ SI2)|apply (silent_user _ _ SI2)].
      - unfold stopped in *. rewrite (silent_failed _ _ SI2). exact SP. }
    assert (ST1 : forall y, In y tr1 -> snd y <> BFTW_STOP).
    { destruct RES as [(Z & _) | [(_ & -> & _) | (_ & _ & e & b & -> & _ & _ & B & _)]]; [discriminate|apply (t_stop _ _ _ _ T)|]. intros y [<- | I]; [exact B|apply (t_stop _ _ _ _ T y I)]. }
    assert (FL : forall s2 G2 tr2 (P : state -> Prop), heap s2 -> counted s2 -> hist tr2 s2 -> at_phase G2 tr2 s2 -> direrror s2 = false -> cur s2 = None -> forward G G2 -> G2 [] = G [] -> later tr1 tr2 ->
      (fl_sort w = true -> buffer (fileq s) = [] -> incl (files s2) (files s) /\ buffer (fileq s2) = [] /\ ready (fileq s2) = ready (fileq s) /\
           (ready (dirq s2) = ready (dirq s) \/ ready (dirq s2) = ready (dirq s) ++ [x] /\ exists y, tr2 = y :: tr /\ e_pos (fst y) = f_pos f /\ evs (f_pos f) tr = [])) ->
      exists s', flush w s2 = Some s' /\ stepped G tr true s' tr2 /\
        (fl_sort w = true -> buffer (fileq s) = [] -> incl (files s') (files s) /\ ready (fileq s') = ready (fileq s) /\
           (ready (dirq s') = ready (dirq s) \/ ready (dirq s') = ready (dirq s) ++ [x] /\ exists y, tr2 = y :: tr /\ e_pos (fst y) = f_pos f /\ evs (f_pos f) tr = []))).
    { clear - U w base u0 NM. intros s2 G2 tr2 P H2 C2 HI2 T2 D2 CU2 FW2 GR2 LT2 SO2. destruct (flush_step G2 tr2 s2 H2 C2 HI2 T2) as (s3 & E3 & H3 & C3 & HI3 & T3 & SM3 & BE3 & SO3).
      exists s3. split; [exact E3|]. split.
      - constructor; auto; [rewrite (same_direrror _ _ SM3); exact D2|]. split; [rewrite (same_cur _ _ SM3); exact CU2|]. split; [exact BE3|]. exists G2. auto.
      - intros SR BE. destruct (SO2 SR BE) as (IC & B2 & R2 & DD). destruct (SO3 SR) as (l & L1 & L2 & L3). rewrite B2 in L1. cbn in L1. injection L1 as <-. rewrite (same_files _ _ SM3), L3.
        split; [exact IC|]. split; [rewrite L2, R2; destruct (not_bfs w); [reflexivity|apply app_nil_r]|exact DD]. }
    destruct a; [| |congruence].
    - rewrite CX.
      assert (NC1 : ~ In x (to_close s1)).
      { intros I. destruct (moved_close _ _ _ _ K1 x I) as [Z | (y & g & _ & Fg & Pg)]; [exact (NC Z)|]. apply (CH g); [apply (find_in _ _ _ Fg)|exact Pg]. }
      assert (CH1 : forall g, In g (files s1) -> f_parent g <> Some x) by (rewrite FI1; exact CH).
      destruct (requeue_ok w x s1 H1 C1 CX NC1 CH1) as (s2 & E2 & H2 & C2 & SM2 & PU2). rewrite E2.
      exists true, s2, tr1. split; [reflexivity|]. split; [exists tr1; split; [exact NEWS|apply later_id]|].
      destruct RES as [(Z & _) | [(_ & _ & Z) | (SK & _ & e & b & -> & EE & EV & B & _ & AN)]]; [discriminate|discriminate|].
      assert (T1 : at_phase G tr s1) by (apply (t_calm w G tr s); auto).
      assert (FI2 : files s2 = files s) by (rewrite (same_files _ _ SM2); exact FI1).
      assert (CU2 : cur s2 = None) by (rewrite (same_cur _ _ SM2); reflexivity).
      assert (AL : alive (G (f_pos f)) = true) by (rewrite GV; reflexivity).
      assert (T2 : at_phase (upd G (f_pos f) Fresh) ((e, b) :: tr) s2).
      { constructor.
        - rewrite (same_failed _ _ SM2). apply (t_failed _ _ _ _ T1).
        - exact ST1.
        - intros p. rewrite FI2, (t_live _ _ _ _ T p). destruct (pos_dec p (f_pos f)) as [-> | D1]; [rewrite upd_same, GV; reflexivity|rewrite upd_other by exact D1; reflexivity].
        - intros g I. rewrite FI2 in I. destruct (pos_dec (f_pos g) (f_pos f)) as [EG | D1].
          + rewrite EG, upd_same. cbn [place]. rewrite (h_pos _ _ H g f I FI EG), FX. eapply Permutation_in; [apply Permutation_sym, (put_in _ _ _ _ _ PU2)|left; reflexivity].
          + rewrite upd_other by exact D1. rewrite <- FI1 in I. pose proof (t_place _ _ _ _ T1 g I) as P. rewrite FI1 in I.
            assert (NX : f_id g <> x) by (intros Z; apply D1; f_equal; apply (id_unique s); [apply (h_ids _ _ H)|exact I|exact FI|congruence]).
            destruct (G (f_pos g)); cbn [place] in *; try congruence; try tauto.
            * eapply Permutation_in; [apply Permutation_sym, (put_out _ _ _ _ _ PU2 FileQ); discriminate|exact P].
            * eapply Permutation_in; [apply Permutation_sym, (put_in _ _ _ _ _ PU2)|right; exact P].
            * rewrite (put_in_queue _ _ _ _ _ _ PU2), CU2. split; [|discriminate]. intros [Z | Z]; [exact (NX Z)|exact (proj1 P Z)].
        - apply born_keep; [apply (t_born _ _ _ _ T)|rewrite GV; split; discriminate|rewrite GV; reflexivity].
        - intros p j. destruct (pos_dec p (f_pos f)) as [-> | D1]; [rewrite upd_same; discriminate|rewrite upd_other by exact D1; apply (t_read _ _ _ _ T)].
        - apply evs_upd; [apply (t_evs _ _ _ _ T)|exact EE|]. rewrite E0. cbn [app BftwHist.shape]. split; [exact SK|]. exists (e, b). split; [reflexivity|]. apply (answer_continue w b BFTW_PRE e); auto.
        - rewrite upd_other by congruence. apply (t_root _ _ _ _ T). }
      apply (FL s2 (upd G (f_pos f) Fresh) ((e, b) :: tr) (fun _ => True)); auto.
      + apply (hist_eq w base u0 ((e, b) :: tr) s1); [exact HI1|apply (same_trace _ _ SM2)|apply (same_user _ _ SM2)].
      + rewrite (same_direrror _ _ SM2). change (direrror s1 = false). congruence.
      + apply forward_upd. rewrite GV. cbn [rank]. lia.
      + apply upd_other. congruence.
      + apply later_id.
      + intros SR BE. destruct (put_order _ _ _ _ _ PU2 SR) as ((P1 & P2) & P3). pose proof (calm_order _ _ _ CA1 SR) as O. destruct (O FileQ) as (Oa & Ob). destruct (O DirQ) as (_ & Od). cbn [queue_of] in *.
        split; [rewrite FI2; apply incl_refl|]. split; [rewrite P1, app_nil_r; congruence|]. split; [congruence|]. right. split; [congruence|]. exists (e, b). auto.
    - assert (GL : at_phase (upd G (f_pos f) Leaving) tr1 s1).
      { apply (t_cur w G tr tr1 s s1 x f Leaving); auto.
        - rewrite GV. reflexivity.
        - discriminate.
        - destruct RES as [(Z & _) | [(SK & -> & _) | (SK & _ & e & b & -> & EE & EV & B & _ & AN)]]; [discriminate| |].
          + apply evs_upd_none; [apply (t_evs _ _ _ _ T)|]. rewrite E0. left. auto.
          + apply evs_upd; [apply (t_evs _ _ _ _ T)|exact EE|]. rewrite E0. right. split; [exact SK|]. exists (e, b). split; [reflexivity|]. split; [exact EV|]. apply (answer_prune w b BFTW_PRE e); auto. rewrite <- AN. discriminate. }
      destruct (gc_leave w base u0 NM (upd G (f_pos f) Leaving) tr1 s1 x f H1 C1 HI1 GL) as (ret & s2 & tr2 & E2 & [H2 C2 CA2 D2 CU2 HI2 LT2 RES2]); auto; [congruence|apply upd_same|].
      rewrite E2. exists ret, s2, tr2. split; [reflexivity|]. split; [exists tr1; auto|]. destruct ret.
      + destruct RES2 as (IC2 & G2 & T2 & FW2 & GR2). apply (FL s2 G2 tr2 (fun _ => True)); auto.
        * eapply forward_trans; [|exact FW2]. apply forward_upd. cbn [rank]. lia.
        * rewrite GR2. apply upd_other. congruence.
        * intros SR BE. pose proof (calm_order _ _ _ (calm_trans _ _ _ _ CA1 CA2) SR) as O. destruct (O FileQ) as (Oa & Ob). destruct (O DirQ) as (_ & Od). cbn [queue_of] in *.
          split; [rewrite <- FI1; exact IC2|]. split; [congruence|]. auto.
      + constructor; auto.
  Qed.

  (** Files are taken from the queues. *)
  Lemma took_step G tr s s' Q x : heap s -> counted s -> hist tr s -> at_phase G tr s -> cur s = None -> IO s' -> took w Q x s s' ->
    exists f v, heap s' /\ counted s' /\ hist tr s' /\ find_file x s' = Some f /\ find_file x s = Some f /\ ~ In x (to_close s') /\ (forall g, In g (files s') -> f_parent g <> Some x) /\ files s' = files s /\
      (Q = FileQ /\ G (f_pos f) = Todo /\ v = Visiting \/ Q = DirQ /\ G (f_pos f) = Fresh /\ v = Reading 0) /\
      at_phase (upd G (f_pos f) v) tr s'.
  Proof.
    intros H C HI T CU I' TK. destruct (took_ok w Q x s s' H C CU I' TK) as (H' & C' & NC & CH). pose proof (took_same _ _ _ _ _ TK) as SM. pose proof (took_cur _ _ _ _ _ TK) as CU'.
    assert (FI' : files s' = files s) by (exact (same_files _ _ SM)).
    destruct (h_cur _ _ H' x CU') as ((f & F) & NQ). exists f. destruct (find_in _ _ _ F) as (FI & FX). assert (FS : find_file x s = Some f) by (unfold find_file in *; rewrite <- FI'; exact F).
    destruct (find_in _ _ _ FS) as (FIs & _). pose proof (ok_pos _ _ _ (h_ok _ _ H f FIs)) as NP.
    assert (XQ : In x (contents Q s)) by (eapply Permutation_in; [apply Permutation_sym, (took_from _ _ _ _ _ TK)|left; reflexivity]).
    assert (AL : alive (G (f_pos f)) = true) by (apply (t_live _ _ _ _ T); eauto).
    assert (ND : NoDup (contents FileQ s ++ contents DirQ s)) by apply (io_nodup _ _ _ (h_io _ _ H)).
    assert (GF : G (f_pos f) = match Q with FileQ => Todo | DirQ => Fresh end).
    { pose proof (t_place _ _ _ _ T f FIs) as P. rewrite nodup_app in ND. destruct ND as (_ & _ & ND).
      assert (IQ : in_queue x s) by (left; exists Q; exact XQ).
      destruct (G (f_pos f)); cbn [place alive] in *; try discriminate; rewrite ?CU, ?FX in P; try discriminate; try (destruct P; tauto).
      - destruct Q; [reflexivity|]. destruct (ND x P XQ).
      - destruct Q; [|reflexivity]. destruct (ND x XQ P). }
    exists (match Q with FileQ => Visiting | DirQ => Reading 0 end).
    split; [exact H'|]. split; [exact C'|]. split; [apply (hist_eq w base u0 tr s); [exact HI|exact (same_trace _ _ SM)|exact (same_user _ _ SM)]|].
    split; [exact F|]. split; [exact FS|]. split; [exact NC|]. split; [exact CH|]. split; [exact FI'|]. split; [destruct Q; [left|right]; auto|].
    set (v := match Q with FileQ => Visiting | DirQ => Reading 0 end).
    assert (VA : alive v = true /\ born v (f_pos f) = 0 /\ v <> Unborn) by (subst v; destruct Q; repeat split; discriminate). destruct VA as (VA & VB & VU).
    constructor.
    - rewrite <- (t_failed _ _ _ _ T). exact (same_failed _ _ SM).
    - apply (t_stop _ _ _ _ T).
    - intros p. rewrite FI', (t_live _ _ _ _ T p). destruct (pos_dec p (f_pos f)) as [-> | D1]; [rewrite upd_same, AL, VA; reflexivity|rewrite upd_other by exact D1; reflexivity].
    - intros g I. destruct (pos_dec (f_pos g) (f_pos f)) as [EG | D1].
      + rewrite EG, upd_same. rewrite (h_pos _ _ H' g f I FI EG). subst v. destruct Q; cbn [place]; rewrite FX; exact CU'.
      + rewrite upd_other by exact D1. rewrite FI' in I. pose proof (t_place _ _ _ _ T g I) as P.
        assert (NX : f_id g <> x) by (intros Z; apply D1; f_equal; apply (id_unique s); [apply (h_ids _ _ H)|exact I|exact FIs|congruence]).
        assert (CO : forall q', In (f_id g) (contents q' s) -> In (f_id g) (contents q' s')).
        { intros q' J. assert (DQ : q' = Q \/ q' <> Q) by (destruct q', Q; (left; reflexivity) || (right; discriminate)). destruct DQ as [-> | DQ].
          - apply (Permutation_in _ (took_from _ _ _ _ _ TK)) in J as [Z | J]; [congruence|exact J].
          - eapply Permutation_in; [apply Permutation_sym, (took_other _ _ _ _ _ TK q' DQ)|exact J]. }
        destruct (G (f_pos g)); cbn [place] in *; rewrite ?CU in P; try discriminate; auto; try tauto.
        rewrite CU'. destruct (took_in_queue w Q x s s' (f_id g) (h_io _ _ H) TK) as (Z & _). split; [|congruence]. intros J. apply (proj1 P). apply Z. right. exact J.
    - apply born_keep; [apply (t_born _ _ _ _ T)|split; [intros _ Z; rewrite Z in AL; discriminate|intros _; exact VU]|]. rewrite VB, GF. destruct Q; reflexivity.
    - intros p j. destruct (pos_dec p (f_pos f)) as [-> | D1]; [rewrite upd_same; subst v; destruct Q; [discriminate|intros [= <-]; lia]|rewrite upd_other by exact D1; apply (t_read _ _ _ _ T)].
    - apply evs_upd_none; [apply (t_evs _ _ _ _ T)|]. pose proof (t_evs _ _ _ _ T (f_pos f) NP) as SH. rewrite GF in SH. subst v. destruct Q; exact SH.
    - rewrite upd_other by congruence. apply (t_root _ _ _ _ T).
  Qed.
End Loop.
