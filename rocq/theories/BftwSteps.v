(** * The steps of a walk *)
From Coq Require Import List Bool Arith Lia Permutation Init.Byte.
From Coq Require Import ZifyBool ZifyNat.
From Verif Require Import PathModel PathSpec WalkSpec BftwModel BftwIo BftwQueue BftwPop BftwSpec BftwPath BftwHeap BftwFiles BftwGc BftwHist.
Import ListNotations.

Section Steps.
  Context {U : Type}.
  Variable w : env U.
  Notation state := (state U).
  Notation IO := (IO w None).
  Notation contents := (contents w).
  Notation in_queue := (in_queue w None).
  Notation heap := (heap w).
  Notation kept := (kept w).
  Notation counted := (counted w).
  Notation calm := (calm w).
  Notation crowded := (crowded w).
  Notation enters := (enters w).
  Notation skipped := (skipped w).
  Notation shape := (shape w).
  Notation at_phase := (at_phase w).
  Notation stopped := (stopped w).
  Notation born := (born w).
  Variable base : list (event * action).
  Variable u0 : U.
  Notation hist := (hist w base u0).
  Hypothesis NM : named w.

  Lemma kept_fields s s' : kept s s' -> files s' = files s /\ next_id s' = next_id s /\ refs s' = refs s /\ cur s' = cur s /\ direrror s' = direrror s.
  Proof. intros K. destruct (moved_same _ _ _ _ K). auto. Qed.
  Lemma counted_kept s s' : counted s -> kept s s' -> counted s'.
  Proof.
    intros C K. destruct (kept_fields _ _ K) as (A & _ & B & D & _). apply (counted_eq w s); auto. intros x. apply (calm_in_queue _ _ _ x (calm_kept _ _ _ K)).
  Qed.

  Lemma answer_continue b v e : answer w b v e = BFTW_CONTINUE -> e_visit e = v -> enters (e, b) /\ b <> BFTW_STOP.
  Proof.
    unfold answer, BftwSpec.enters. intros A E. destruct b, v; try discriminate. split; [|discriminate]. destruct (e_type e); cbn [is_dir andb] in A; try discriminate.
    split; [exact E|]. split; [reflexivity|]. split; [reflexivity|]. destruct (fl_prune_mounts w && mount_point w (e_pos e)); [discriminate|reflexivity].
  Qed.
  Lemma answer_prune b v e : answer w b v e <> BFTW_CONTINUE -> e_visit e = BFTW_PRE -> v = BFTW_PRE -> ~ enters (e, b).
  Proof.
    unfold answer, BftwSpec.enters. intros A E -> (_ & T & -> & M). apply A. rewrite T. cbn [is_dir andb]. rewrite M. reflexivity.
  Qed.
  Lemma answer_stop b v e : answer w b v e = BFTW_STOP <-> b = BFTW_STOP.
  Proof. unfold answer. destruct b, v; try (split; congruence). destruct (is_dir _ && _); split; congruence. Qed.

  (** What happens when the callback may be called *)
  Record step (v : visit) (p : pos) (s : state) (tr : list (event * action)) (a : action) (s' : state) (tr' : list (event * action)) : Prop := {
    st_kept : kept s s';
    st_hist : hist tr' s';
    st_previous : previous s' = cur s \/ s' = s;
    st_result : (a = BFTW_STOP /\ stopped tr' s') \/
      a <> BFTW_STOP /\ failed s' = failed s /\
      ((v = BFTW_POST /\ fl_post_order w = false /\ tr' = tr /\ a = BFTW_PRUNE) \/
       (skipped p = true /\ tr' = tr /\ a = BFTW_PRUNE) \/
       (skipped p = false /\ (v = BFTW_POST -> fl_post_order w = true) /\ exists e b, tr' = (e, b) :: tr /\ e_pos e = p /\ e_visit e = v /\ b <> BFTW_STOP /\
          (direrror s = true -> e_type e = BFS_ERROR) /\ a = answer w b v e));
    st_news : tr' = tr \/ exists x, tr' = x :: tr /\ e_pos (fst x) = p }.

  Lemma call_step G tr s t v k q : heap s -> at_phase G tr s -> hist tr s -> target_at w t (k :: q) s ->
    through (G q) = true -> (q = [] \/ exists f, In f (files s) /\ f_pos f = q) ->
    (alive (G (k :: q)) = true \/ G (k :: q) = Unborn) ->
    (v = BFTW_PRE -> evs (k :: q) tr = [] \/ direrror s = true /\ exists x, evs (k :: q) tr = [x] /\ enters x) ->
    (direrror s = true -> broken_at w (k :: q) = true /\ v = BFTW_PRE /\ evs (k :: q) tr <> []) ->
    (v = BFTW_POST -> through (G (k :: q)) = true) ->
    exists a s' tr', call_back w t v s = Some (a, s') /\ heap s' /\ step v (k :: q) s tr a s' tr'.
  Proof.
    intros H T HI TA TH PL AL V DB TP. destruct (call_back_ok w t v (k :: q) s NM H TA) as (a & s' & E & H' & [KP OUT]).
    destruct OUT as [(-> & PO & -> & ->) | (PO & PV & e & EP & EV & EO & (ED & EL) & OUT)].
    - exists BFTW_PRUNE, s, tr. split; [exact E|]. split; [exact H'|]. constructor; auto. right. split; [discriminate|]. split; [reflexivity|]. left. auto.
    - destruct OUT as [(ET & NR & -> & FA & TR & US) | [(FA & SK & -> & TR & US) | (FA & SK & b & CB & TR & ->)]].
      + exists BFTW_STOP, s', tr. split; [exact E|]. split; [exact H'|]. constructor; auto; [apply (hist_eq w base u0 tr s); assumption|]. left. split; [reflexivity|]. left. auto.
      + exists BFTW_PRUNE, s', tr. split; [exact E|]. split; [exact H'|]. constructor; auto; [apply (hist_eq w base u0 tr s); assumption|].
        right. split; [discriminate|]. split; [exact FA|]. right. left. auto.
      + exists (answer w b v e), s', ((e, b) :: tr). split; [exact E|]. split; [exact H'|]. constructor; auto.
        * eapply (hist_call w base u0 G tr s s' e b k q); eauto. rewrite EV. intros EP'. destruct (V EP') as [Z | (D & X)]; [left; exact Z|right]. split; [apply ED, D|exact X]. destruct (direrror s) eqn:DE; [right|left; auto]. destruct (DB eq_refl) as (D1 & D2 & D3). rewrite EV. auto. rewrite EV. auto.
        * destruct b eqn:B.
          -- right. split; [intros Z; apply answer_stop in Z; discriminate|]. split; [exact FA|]. right. right. split; [exact SK|]. split; [exact PO|]. exists e, BFTW_CONTINUE. repeat split; auto. discriminate.
          -- right. split; [intros Z; apply answer_stop in Z; discriminate|]. split; [exact FA|]. right. right. split; [exact SK|]. split; [exact PO|]. exists e, BFTW_PRUNE. repeat split; auto. discriminate.
          -- left. split; [apply answer_stop; reflexivity|]. right. exists (e, BFTW_STOP). split; [left; reflexivity|reflexivity].
        * right. exists (e, b). auto.
  Qed.

  (** [tr'] continues [tr] with further visits of files that have been visited before. *)
  Definition later (tr tr' : list (event * action)) : Prop :=
    exists l, tr' = l ++ tr /\ Forall (fun x => exists y, In y tr /\ e_pos (fst y) = e_pos (fst x)) l.
  Lemma later_id tr : later tr tr.
  Proof. exists []. split; [reflexivity|constructor]. Qed.
  Lemma later_trans a b c : later a b -> later b c -> later a c.
  Proof.
    intros (l & -> & F) (m & -> & K). exists (m ++ l). split; [apply app_assoc|]. apply Forall_app. split; [|exact F].
    eapply Forall_impl; [|exact K]. intros x (y & I & E). apply in_app_iff in I as [I | I]; [|exists y; auto].
    rewrite Forall_forall in F. destruct (F y I) as (z & J & E'). exists z. split; [exact J|congruence].
  Qed.
  Lemma later_step tr tr' p : tr' = tr \/ (exists x, tr' = x :: tr /\ e_pos (fst x) = p) -> evs p tr <> [] -> later tr tr'.
  Proof.
    intros [-> | (x & -> & E)] N; [apply later_id|]. exists [x]. split; [reflexivity|]. constructor; [|constructor].
    destruct (evs p tr) as [|y l] eqn:Q; [congruence|]. assert (I : In y (evs p tr)) by (rewrite Q; left; reflexivity). apply evs_in in I as (I & J). exists y. split; [exact I|congruence].
  Qed.

  (** ** Garbage collection *)

  Lemma through_parent G tr s f : heap s -> at_phase G tr s -> In f (files s) ->
    exists k q, f_pos f = k :: q /\ through (G q) = true /\ (q = [] \/ exists g, In g (files s) /\ f_pos g = q).
  Proof.
    intros H T I. pose proof (ok_pos _ _ _ (h_ok _ _ H f I)) as N. destruct (f_pos f) as [|k q] eqn:E; [congruence|]. exists k, q. split; [reflexivity|].
    assert (A : alive (G (k :: q)) = true) by (apply (t_live _ _ _ _ T); eauto). split.
    - apply (through_born w G tr s k q T). intros Z. rewrite Z in A. discriminate.
    - destruct q as [|j q]; [left; reflexivity|right]. apply (ancestors_live w s f (j :: q) H I); [|discriminate]. rewrite E. exists [k]. reflexivity.
  Qed.

  (** The current file is gone, and its parent is the current file. *)
  Lemma t_free G tr tr' s s5 x f v : heap s -> at_phase G tr s -> cur s = Some x -> find_file x s = Some f ->
    (v = Closed /\ G (f_pos f) = Held \/ v = Left /\ G (f_pos f) = Leaving) ->
    failed s5 = false -> (forall y, In y tr' -> snd y <> BFTW_STOP) ->
    (forall q, q <> [] -> shape q (upd G (f_pos f) v q) (evs q tr')) ->
    files s5 = filter (fun g => negb (f_id g =? x)) (files s) -> cur s5 = f_parent f -> calm s s5 ->
    exists G', at_phase G' tr' s5 /\ forward G G' /\ G' [] = G [] /\
      (forall y g, cur s5 = Some y -> find_file y s5 = Some g -> G' (f_pos g) = Held /\ S (length (f_pos g)) = length (f_pos f)).
  Proof.
    intros H T CU F V FA ST EV F5 C5 CA. destruct (find_in _ _ _ F) as (FI & FX). pose proof (ok_pos _ _ _ (h_ok _ _ H f FI)) as NP.
    set (p := f_pos f) in *. set (G1 := upd G p v).
    assert (IN5 : forall g, In g (files s5) <-> In g (files s) /\ g <> f).
    { intros g. rewrite F5, filter_In, negb_true_iff, Nat.eqb_neq. split; intros (A & B); (split; [exact A|]); intros E; [congruence|]. apply B. apply (id_unique s); [apply (h_ids _ _ H)|exact A|exact FI|congruence]. }
    assert (PN : forall g, In g (files s) -> g <> f -> f_pos g <> p) by (intros g A B E; apply B; exact (h_pos _ _ H g f A FI E)).
    assert (AV : alive v = false /\ v <> Unborn /\ rank v = 0 /\ born v p = born (G p) p /\ G p <> Unborn /\ (forall k, v <> Reading k)).
    { destruct V as [(-> & E) | (-> & E)]; rewrite E; repeat split; discriminate. }
    destruct AV as (AV & VU & VR & VB & GU & VK).
    assert (L1 : forall r, (exists g, In g (files s5) /\ f_pos g = r) <-> r <> [] /\ alive (G1 r) = true).
    { intros r. subst G1. destruct (pos_dec r p) as [-> | D].
      - rewrite upd_same, AV. split; [|intros (_ & Z); discriminate]. intros (g & A & E). apply IN5 in A as (A & B). destruct (PN g A B E).
      - rewrite upd_other by exact D. rewrite <- (t_live _ _ _ _ T r). split; intros (g & A & E); exists g; (split; [|exact E]).
        + apply IN5 in A. tauto.
        + apply IN5. split; [exact A|]. intros ->. apply D. symmetry. exact E. }
    assert (B1 : forall k q, G1 (k :: q) <> Unborn <-> k < born (G1 q) q).
    { apply born_keep; [apply (t_born _ _ _ _ T)|tauto|exact VB]. }
    assert (R1 : forall r k, G1 r = Reading k -> k <= length (kids_at w r)).
    { intros r k. subst G1. destruct (pos_dec r p) as [-> | D]; [rewrite upd_same; intros E; destruct (VK k E)|rewrite upd_other by exact D; apply (t_read _ _ _ _ T)]. }
    assert (G1R : G1 [] = G []) by (apply upd_other; congruence).
    assert (FW : forward G G1) by (apply forward_upd; rewrite VR; lia).
    assert (PL : forall g, In g (files s5) -> f_parent f <> Some (f_id g) -> place w g s5 (G1 (f_pos g))).
    { intros g A D. apply IN5 in A as (A & B). subst G1. rewrite upd_other by (apply PN; assumption). pose proof (t_place _ _ _ _ T g A) as P.
      assert (NX : f_id g <> x) by (intros E; apply B, (id_unique s); [apply (h_ids _ _ H)|exact A|exact FI|congruence]).
      destruct (G (f_pos g)); cbn [place] in *; rewrite ?C5; try congruence; try tauto.
      - eapply Permutation_in; [apply Permutation_sym, (calm_contents _ _ _ CA)|exact P].
      - eapply Permutation_in; [apply Permutation_sym, (calm_contents _ _ _ CA)|exact P].
      - rewrite (calm_in_queue _ _ _ _ CA). tauto. }
    pose proof (ok_parent _ _ _ (h_ok _ _ H f FI)) as OP. destruct (f_parent f) as [y|] eqn:FP.
    - destruct OP as (g & k & Fg & E & _). destruct (find_in _ _ _ Fg) as (GI & GX). pose proof (ok_pos _ _ _ (h_ok _ _ H g GI)) as NG.
      assert (GF : g <> f) by (intros ->; fold p in E; apply (f_equal (@length nat)) in E; cbn [length] in E; lia).
      assert (GR : G (f_pos g) = Read).
      { assert (A : alive (G (f_pos g)) = true) by (apply (t_live _ _ _ _ T); eauto). pose proof (t_place _ _ _ _ T g GI) as P.
        assert (NQ : ~ in_queue (f_id g) s) by (rewrite GX; apply (h_parent _ _ H f y FI FP)).
        assert (NC : cur s <> Some (f_id g)) by (rewrite CU; intros [= Z]; apply GF, (id_unique s); [apply (h_ids _ _ H)|exact GI|exact FI|congruence]).
        destruct (G (f_pos g)); cbn [place alive] in *; try discriminate; try (destruct (NC P)); try reflexivity; exfalso; apply NQ; left; eexists; exact P. }
      assert (GP : f_pos g <> p) by (apply PN; assumption).
      assert (G1g : G1 (f_pos g) = Read) by (subst G1; rewrite upd_other by exact GP; exact GR).
      exists (upd G1 (f_pos g) Held). split; [|split; [|split]].
      + constructor.
        * exact FA.
        * exact ST.
        * intros r. rewrite L1. destruct (pos_dec r (f_pos g)) as [-> | D]; [rewrite upd_same, G1g; reflexivity|rewrite upd_other by exact D; reflexivity].
        * intros h A. destruct (pos_dec (f_pos h) (f_pos g)) as [EH | D].
          -- rewrite EH, upd_same. cbn [place]. apply IN5 in A as (A & _). rewrite (h_pos _ _ H h g A GI EH), C5. congruence.
          -- rewrite upd_other by exact D. apply PL; [exact A|]. intros Z. apply D. apply IN5 in A as (A & _). f_equal. apply (id_unique s); [apply (h_ids _ _ H)|exact A|exact GI|congruence].
        * apply born_keep; [exact B1|rewrite G1g; split; discriminate|rewrite G1g; reflexivity].
        * intros r j. destruct (pos_dec r (f_pos g)) as [-> | D]; [rewrite upd_same; discriminate|rewrite upd_other by exact D; apply R1].
        * apply evs_upd_none; [exact EV|]. pose proof (EV (f_pos g) NG) as SG. fold G1 in SG. rewrite G1g in SG. exact SG.
        * rewrite upd_other by congruence. rewrite G1R. apply (t_root _ _ _ _ T).
      + eapply forward_trans; [exact FW|]. apply forward_upd. cbn [rank]. lia.
      + rewrite upd_other by congruence. exact G1R.
      + intros z h CZ Fh. rewrite C5 in CZ. injection CZ as <-. destruct (find_in _ _ _ Fh) as (HI & HX). apply IN5 in HI as (HI & _).
        assert (h = g) by (apply (id_unique s); [apply (h_ids _ _ H)|exact HI|exact GI|congruence]). subst h. rewrite upd_same. split; [reflexivity|]. fold p in E. rewrite E. reflexivity.
    - exists G1. split; [|split; [exact FW|split; [exact G1R|rewrite C5; discriminate]]]. constructor; auto.
      + intros g A. apply PL; [exact A|discriminate].
      + rewrite G1R. apply (t_root _ _ _ _ T).
  Qed.

  Lemma gc_loop_alive fuel G tr s x f vt : heap s -> counted s -> crowded s -> hist tr s -> at_phase G tr s -> direrror s = false ->
    cur s = Some x -> find_file x s = Some f -> (vt = true /\ G (f_pos f) = Held \/ vt = false /\ G (f_pos f) = Leaving) -> length (f_pos f) <= fuel ->
    exists ret s' tr', gc_loop w fuel vt true true s = Some (ret, s') /\ heap s' /\ counted s' /\ calm s s' /\ direrror s' = false /\ cur s' = None /\ hist tr' s' /\
      later tr tr' /\ if ret then incl (files s') (files s) /\ exists G', at_phase G' tr' s' /\ forward G G' /\ G' [] = G [] else stopped tr' s'.
  Proof.
    revert G tr s x f vt. induction fuel as [|fuel IH]; intros G tr s x f vt H C CR HI T D CU F V L.
    { exfalso. pose proof (ok_pos _ _ _ (find_ok _ _ _ _ (h_ok _ _ H) F)). destruct (f_pos f); [congruence|cbn [length] in L; lia]. }
    cbn [gc_loop]. rewrite CU, F. destruct (find_in _ _ _ F) as (FI & FX). destruct (C f FI) as (P & RC). rewrite FX in P, RC.
    pose proof (ok_pos _ _ _ (h_ok _ _ H f FI)) as NP.
    destruct (refs s x) as [|[|n]] eqn:R; [lia| |].
    - set (s0 := set_ref x 0 s).
      assert (H0 : heap s0). { apply (heap_eq w s); auto; [|intros y; reflexivity]. apply (io_eq w s); auto. apply (h_io _ _ H). }
      assert (T0 : at_phase G tr s0). { apply (t_calm w G tr s); auto. constructor; auto. }
      assert (HI0 : hist tr s0) by (apply (hist_eq w base u0 tr s); auto).
      destruct (through_parent G tr s f H T FI) as (k & q & EP & TH & PL).
      assert (AL : alive (G (k :: q)) = true) by (rewrite <- EP; destruct V as [(_ & ->) | (_ & ->)]; reflexivity).
      assert (SH : shape (f_pos f) (G (f_pos f)) (evs (f_pos f) tr)) by (apply (t_evs _ _ _ _ T); exact NP).
      (* the callback *)
      assert (K : exists vp s1 tr1, (if vt then ' (a, s) <- call_back w None BFTW_POST s0 ;;
                     match a with BFTW_STOP => Some (false, false, s) | _ => Some (true, true, s) end
                   else Some (true, true, s0)) = Some (vp, vp, s1) /\ heap s1 /\ kept s0 s1 /\ hist tr1 s1 /\ later tr tr1 /\
                   if vp then failed s1 = false /\ (forall y, In y tr1 -> snd y <> BFTW_STOP) /\ (forall r, r <> [] -> shape r (upd G (f_pos f) (if vt then Closed else Left) r) (evs r tr1))
                   else stopped tr1 s1).
      { destruct V as [(-> & GH) | (-> & GL)].
        - destruct (call_step G tr s0 None BFTW_POST k q H0 T0 HI0) as (a & s1 & tr1 & E & H1 & ST).
          + unfold target_at. change (cur s0) with (cur s). rewrite CU. exists f. split; [exact F|]. symmetry. exact EP.
          + exact TH.
          + exact PL.
          + left. exact AL.
          + discriminate.
          + change (direrror s0) with (direrror s). congruence.
          + intros _. rewrite <- EP, GH. reflexivity.
          + rewrite E. rewrite GH in SH. cbn [BftwHist.shape] in SH. destruct SH as (SK & x0 & errs & EE & EN & ER).
            assert (LT : later tr tr1) by (apply (later_step tr tr1 (k :: q) (st_news _ _ _ _ _ _ _ ST)); rewrite <- EP, EE; discriminate).
            destruct (st_result _ _ _ _ _ _ _ ST) as [(-> & SP) | (NS & FA & RES)].
            * exists false, s1, tr1. split; [reflexivity|]. split; [exact H1|]. split; [apply (st_kept _ _ _ _ _ _ _ ST)|]. split; [apply (st_hist _ _ _ _ _ _ _ ST)|]. auto.
            * exists true, s1, tr1. split; [destruct a; congruence|]. split; [exact H1|]. split; [apply (st_kept _ _ _ _ _ _ _ ST)|]. split; [apply (st_hist _ _ _ _ _ _ _ ST)|]. split; [exact LT|].
              split; [rewrite FA; apply (t_failed _ _ _ _ T)|]. rewrite <- EP in RES. destruct RES as [(_ & PO & -> & _) | [(SK' & _) | (_ & PO & e & b & -> & E1 & E2 & E3 & _)]]; [| congruence |].
              -- split; [apply (t_stop _ _ _ _ T)|]. apply evs_upd_none; [apply (t_evs _ _ _ _ T)|]. cbn [BftwHist.shape]. split; [exact SK|]. exists x0, errs, []. rewrite app_nil_r. split; [exact EE|]. split; [exact EN|]. split; [exact ER|].
                 unfold posts_ok. rewrite PO. reflexivity.
              -- split; [intros y [<- | I]; [exact E3|apply (t_stop _ _ _ _ T y I)]|]. apply evs_upd; [apply (t_evs _ _ _ _ T)|exact E1|]. cbn [BftwHist.shape]. split; [exact SK|]. exists x0, errs, [(e, b)]. rewrite EE.
                 split; [reflexivity|]. split; [exact EN|]. split; [exact ER|]. unfold posts_ok. rewrite (PO eq_refl). exists e, b. auto.
        - exists true, s0, tr. split; [reflexivity|]. split; [exact H0|]. split; [apply kept_moved, moved_id|]. split; [exact HI0|]. split; [apply later_id|].
          split; [apply (t_failed _ _ _ _ T)|]. split; [apply (t_stop _ _ _ _ T)|]. apply evs_upd_none; [apply (t_evs _ _ _ _ T)|]. rewrite GL in SH. exact SH. }
      destruct K as (vp & s1 & tr1 & E1 & H1 & K1 & HI1 & LT1 & RES).
      match goal with |- context [match ?e with Some _ => _ | None => None end] => replace e with (Some (vp, vp, s1)) by (symmetry; exact E1) end. cbn match.
      destruct (free_ok w s s1 x f H C CR CU F R H1 K1) as (s4 & E4 & NL & H5 & C5 & CR5 & CA5 & F5 & CU5 & D5 & FA5 & U5 & T5). rewrite E4, NL.
      set (s5 := set_files _ s4) in *. assert (DE : direrror s5 = false) by (rewrite D5; destruct (kept_fields _ _ K1) as (_ & _ & _ & _ & ->); exact D).
      assert (HI5 : hist tr1 s5) by (apply (hist_eq w base u0 tr1 s1); assumption). 
      assert (LP : forall y g, cur s5 = Some y -> find_file y s5 = Some g -> length (f_pos g) <= fuel).
      { intros y g CY G0. rewrite CU5 in CY. pose proof (ok_parent _ _ _ (h_ok _ _ H f FI)) as FP. rewrite CY in FP. destruct FP as (h & j & Fh & EH & _).
        rewrite EH in L. cbn [length] in L. assert (h = g); [|subst; lia]. destruct (find_in _ _ _ G0) as (GI & GX). rewrite F5 in GI. apply filter_In in GI as (GI & _).
        destruct (find_in _ _ _ Fh) as (HI' & HX). apply (id_unique s); [apply (h_ids _ _ H)|exact HI'|exact GI|congruence]. }
      destruct vp.
      + destruct RES as (FA & ST & EV). destruct (t_free G tr tr1 s s5 x f (if vt then Closed else Left) H T CU F) as (G' & T' & FW & GR & NX); auto.
        { destruct V as [(-> & GH) | (-> & GL)]; auto. }
        { rewrite FA5. exact FA. }
        destruct (cur s5) as [y|] eqn:CY.
        * destruct (h_cur _ _ H5 y CY) as ((g & Fg) & _). destruct (NX y g eq_refl Fg) as (GH & _).
          destruct (IH G' tr1 s5 y g true H5 C5 CR5 HI5 T' DE CY Fg (or_introl (conj eq_refl GH)) (LP y g eq_refl Fg)) as (ret & s' & tr' & E' & H' & C' & CA' & D' & CU' & HI' & LT' & RES').
          exists ret, s', tr'. split; [exact E'|]. split; [exact H'|]. split; [exact C'|]. split; [eapply calm_trans; eassumption|]. split; [exact D'|]. split; [exact CU'|]. split; [exact HI'|].
          split; [eapply later_trans; eassumption|]. destruct ret; [|exact RES']. destruct RES' as (IC & G2 & T2 & FW2 & GR2). split; [intros h A; specialize (IC h A); rewrite F5 in IC; apply filter_In in IC; tauto|]. exists G2. split; [exact T2|]. split; [eapply forward_trans; eassumption|congruence].
        * exists true, s5, tr1. split; [destruct fuel; cbn [gc_loop]; rewrite CY; reflexivity|]. split; [exact H5|]. split; [exact C5|]. split; [exact CA5|]. split; [exact DE|]. split; [exact CY|]. split; [exact HI5|]. split; [exact LT1|].
          split; [intros g A; rewrite F5 in A; apply filter_In in A; tauto|]. exists G'. auto.
      + destruct (gc_loop_quiet w fuel false s5 H5 C5 CR5 LP) as (s' & E' & H' & C' & CA' & SI' & CU'). exists false, s', tr1. split; [exact E'|]. split; [exact H'|]. split; [exact C'|]. split; [eapply calm_trans; eassumption|].
        split; [rewrite (silent_direrror _ _ SI'); exact DE|]. split; [exact CU'|]. split; [apply (hist_eq w base u0 tr1 s5); [exact HI5|apply (silent_trace _ _ SI')|apply (silent_user _ _ SI')]|]. split; [exact LT1|].
        unfold stopped in *. rewrite (silent_failed _ _ SI'), FA5. exact RES.
    - (* other references *)
      destruct (release_ok w s x n H C CU R) as (H1 & C1). set (s1 := set_cur None (set_ref x (S n) s)) in *.
      assert (CA : calm s s1) by (constructor; auto).
      assert (GH : G (f_pos f) = Held).
      { destruct V as [(_ & GH) | (_ & GL)]; [exact GH|]. exfalso. replace (heldb w x s) with true in RC by (symmetry; apply heldb_iff; right; exact CU).
        unfold children in RC. destruct (filter (child_of x) (files s)) as [|g l] eqn:EF; [cbn [length] in RC; lia|].
        assert (I : In g (filter (child_of x) (files s))) by (rewrite EF; left; reflexivity). apply filter_In in I as (I & J).
        assert (GP : f_parent g = Some x) by (unfold child_of in J; destruct (f_parent g); [apply Nat.eqb_eq in J; congruence|discriminate]).
        pose proof (ok_parent _ _ _ (h_ok _ _ H g I)) as FP. rewrite GP in FP. destruct FP as (h & k & Fh & EP & _). rewrite F in Fh. injection Fh as <-.
        assert (A : alive (G (f_pos g)) = true) by (apply (t_live _ _ _ _ T); eauto). rewrite EP in A.
        assert (U1 : G (k :: f_pos f) <> Unborn) by (intros Z; rewrite Z in A; discriminate). apply (t_born _ _ _ _ T) in U1. rewrite GL in U1. cbn [born] in U1. lia. }
      exists true, s1, tr. split; [reflexivity|]. split; [exact H1|]. split; [exact C1|]. split; [exact CA|]. split; [exact D|]. split; [reflexivity|].
      split; [apply (hist_eq w base u0 tr s); auto|]. split; [apply later_id|]. split; [apply incl_refl|]. exists (upd G (f_pos f) Read). split; [|split; [apply forward_upd; cbn; lia|apply upd_other; congruence]].
      constructor.
      + apply (t_failed _ _ _ _ T).
      + apply (t_stop _ _ _ _ T).
      + intros p. change (files s1) with (files s). rewrite (t_live _ _ _ _ T p). destruct (pos_dec p (f_pos f)) as [-> | D1]; [rewrite upd_same, GH; reflexivity|rewrite upd_other by exact D1; reflexivity].
      + intros g I. change (files s1) with (files s) in I. destruct (pos_dec (f_pos g) (f_pos f)) as [E | D1].
        * rewrite E, upd_same. cbn [place]. rewrite (h_pos _ _ H g f I FI E), FX. split; [exact (proj2 (h_cur _ _ H x CU))|discriminate].
        * rewrite upd_other by exact D1. pose proof (t_place _ _ _ _ T g I) as PL. assert (NX : cur s <> Some (f_id g)).
          { rewrite CU. intros [= Z]. apply D1. f_equal. apply (id_unique s); [apply (h_ids _ _ H)|exact I|exact FI|congruence]. }
          destruct (G (f_pos g)); cbn [place] in *; try congruence; try exact PL. split; [exact (proj1 PL)|discriminate].
      + apply born_keep; [apply (t_born _ _ _ _ T)|rewrite GH; split; discriminate|rewrite GH; reflexivity].
      + intros p k. destruct (pos_dec p (f_pos f)) as [-> | D1]; [rewrite upd_same; discriminate|rewrite upd_other by exact D1; apply (t_read _ _ _ _ T)].
      + apply evs_upd_none; [apply (t_evs _ _ _ _ T)|]. pose proof (t_evs _ _ _ _ T (f_pos f) NP) as SH. rewrite GH in SH. exact SH.
      + rewrite upd_other by congruence. apply (t_root _ _ _ _ T).
  Qed.
End Steps.
