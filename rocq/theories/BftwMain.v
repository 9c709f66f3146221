(** * The main loop of a walk *)
From Coq Require Import List Bool Arith Lia Permutation Init.Byte.
From Coq Require Import ZifyBool ZifyNat.
From Verif Require Import PathModel PathSpec WalkSpec BftwModel BftwIo BftwQueue BftwPop BftwSpec BftwPath BftwHeap BftwFiles BftwGc BftwHist BftwSteps BftwEntry.
Import ListNotations.

Section Main.
  Context {U : Type}.
  Variable w : env U.
  Notation state := (state U).
  Notation IO := (IO w None).
  Notation contents := (contents w).
  Notation in_queue := (in_queue w None).
  Notation heap := (heap w).
  Notation kept := (kept w).
  Notation counted := (counted w).
  Notation calm := (calm w).
  Notation crowded := (crowded w).
  Notation enters := (enters w).
  Notation skipped := (skipped w).
  Notation shape := (shape w).
  Notation at_phase := (at_phase w).
  Notation stopped := (stopped w).
  Notation born := (born w).
  Variable base : list (event * action).
  Variable u0 : U.
  Notation hist := (hist w base u0).
  Hypothesis NM : named w.

  (** ** The entries of a directory *)

  (** The directory at [q] is being read. *)
  Definition at_dir (q : pos) (s : state) : Prop :=
    match cur s with None => q = [] /\ previous s = None | Some x => exists f, find_file x s = Some f /\ f_pos f = q end.

  Record scanned (k n : nat) (q : pos) (G : pos -> phase) (tr : list (event * action)) (s : state) (ok : bool) (s' : state) (tr' : list (event * action)) : Prop := {
    sc_heap : heap s'; sc_counted : counted s'; sc_hist : hist tr' s'; sc_direrror : direrror s' = direrror s; sc_cur : cur s' = cur s;
    sc_dir : at_dir q s';
    sc_files : forall f, In f (files s) -> In f (files s');
    sc_result : if ok then exists G', at_phase G' tr' s' /\ forward G G' /\ G' q = Reading (k + n) /\ (q <> [] -> G' [] = G []) else stopped tr' s';
    sc_sort : fl_sort w = true -> ok = true /\ tr' = tr /\ exists fs, files s' = files s ++ fs /\ map f_pos fs = map (fun j => j :: q) (seq k n) /\
      buffer (fileq s') = buffer (fileq s) ++ map f_id fs /\ ready (fileq s') = ready (fileq s) /\ ready (dirq s') = ready (dirq s) }.

  Lemma visit_all_ok l : forall k G tr s q, heap s -> counted s -> hist tr s -> at_phase G tr s -> direrror s = false -> at_dir q s -> G q = Reading k ->
    (forall j, nth_error l j = nth_error (kids_at w q) (k + j)) ->
    exists ok s' tr', visit_all w k l s = Some (ok, s') /\ scanned k (length l) q G tr s ok s' tr'.
  Proof.
    induction l as [|t l IH]; intros k G tr s q H C HI T D AD GQ NT; cbn [visit_all].
    - exists true, s, tr. split; [reflexivity|]. constructor; auto.
      + exists G. split; [exact T|]. split; [apply forward_id|]. cbn [length]. rewrite Nat.add_0_r. auto.
      + intros _. split; [reflexivity|]. split; [reflexivity|]. exists []. rewrite !app_nil_r. auto.
    - pose proof (NT 0) as N0. cbn [nth_error] in N0. rewrite Nat.add_0_r in N0.
      assert (TA : target_at w (Some (k, t)) (k :: q) s).
      { unfold target_at, at_dir in *. cbn [node_at]. destruct (cur s) as [x|]; [destruct AD as (f & F & E); exists f; rewrite E; auto|destruct AD as (-> & P); auto]. }
      destruct (entry_step w base u0 NM G tr s k t q H C HI T D TA GQ) as (ok & s1 & tr1 & E & EN). rewrite E. destruct EN as [H1 C1 HI1 D1 CU1 PR1 FI1 RES1 SO1].
      assert (AD1 : at_dir q s1).
      { unfold at_dir in *. rewrite CU1. destruct (cur s) as [x|]; [destruct AD as (f & F & EF); exists f; split; [apply (find_more w x s s1 f H1 F FI1)|exact EF]|destruct AD as (-> & P); auto]. }
      destruct ok.
      + destruct RES1 as (G1 & T1 & FW1 & GQ1 & GR1). destruct (IH (S k) G1 tr1 s1 q H1 C1 HI1 T1 ltac:(congruence) AD1 GQ1) as (ok & s' & tr' & E' & [H' C' HI' D' CU' AD' FI' RES' SO']).
        { intros j. specialize (NT (S j)). cbn [nth_error] in NT. rewrite NT. f_equal. lia. }
        exists ok, s', tr'. split; [exact E'|]. constructor; auto; try congruence.
        * destruct ok; [|exact RES']. destruct RES' as (G' & T' & FW' & GQ' & GR'). exists G'. split; [exact T'|]. split; [eapply forward_trans; eassumption|]. split; [cbn [length]; rewrite GQ'; f_equal; lia|]. intros N. rewrite GR', GR1 by exact N. reflexivity.
        * intros SR. destruct (SO1 SR) as (_ & -> & f & AF & FP). destruct (SO' SR) as (-> & -> & fs & F1 & F2 & F3 & F4 & F5). split; [reflexivity|]. split; [reflexivity|].
          pose proof (put_order _ _ _ _ _ (add_put _ _ _ _ _ AF) SR) as ((P1 & P2) & P3). rewrite app_nil_r in P3. exists (f :: fs). cbn [map length seq].
          rewrite F1, (add_files _ _ _ _ _ AF), F3, P1, F4, F5, P2, P3, F2, FP, <- !app_assoc. auto.
      + exists false, s1, tr1. split; [reflexivity|]. constructor; auto. intros SR. destruct (SO1 SR). discriminate.
  Qed.

  (** ** Leaving the current file *)

  Record gone (G : pos -> phase) (tr : list (event * action)) (s : state) (ret : bool) (s' : state) (tr' : list (event * action)) : Prop := {
    gn_heap : heap s'; gn_counted : counted s'; gn_calm : calm s s'; gn_direrror : direrror s' = false; gn_cur : cur s' = None; gn_hist : hist tr' s'; gn_later : later tr tr';
    gn_result : if ret then incl (files s') (files s) /\ exists G', at_phase G' tr' s' /\ forward G G' /\ G' [] = G [] else stopped tr' s' }.

  Definition gc_rest (vf vp ret : bool) (s : state) : option (bool * state) :=
    let s := set_direrror false s in
    ' s <- drain_all w (length (to_close s) + length (inflight s)) s ;;
    ' f <- get (cur s) s ;;
    gc_loop w (match f with Some f => S (f_depth f) | None => 0 end) vf vp ret s.

  Lemma gc_rest_alive G tr s x f vt : heap s -> counted s -> hist tr s -> at_phase G tr s -> cur s = Some x -> find_file x s = Some f ->
    (vt = true /\ G (f_pos f) = Held \/ vt = false /\ G (f_pos f) = Leaving) ->
    exists ret s' tr', gc_rest vt true true s = Some (ret, s') /\ gone G tr s ret s' tr'.
  Proof.
    intros H C HI T CU F V. unfold gc_rest. destruct (set_direrror_same w s false H C) as (H1 & C1 & CA1). set (s1 := set_direrror false s) in *.
    destruct (drain_heap w s1 H1 C1) as (s2 & E2 & H2 & C2 & S2 & CA2 & CR2). rewrite E2.
    destruct (depth_fuel w s2 H2) as (n & EN & LN). destruct (get (cur s2) s2) as [o|]; [|discriminate]. injection EN as ->.
    assert (CA : calm s s2) by (eapply calm_trans; eassumption).
    assert (CU2 : cur s2 = Some x) by (rewrite (same_cur _ _ S2); exact CU).
    assert (FI2 : files s2 = files s) by (rewrite (same_files _ _ S2); reflexivity).
    assert (F2 : find_file x s2 = Some f) by (unfold find_file in *; rewrite FI2; exact F).
    assert (D2 : direrror s2 = false) by (rewrite (same_direrror _ _ S2); reflexivity).
    assert (HI2 : hist tr s2) by (apply (hist_eq w base u0 tr s); [exact HI|rewrite (same_trace _ _ S2); reflexivity|rewrite (same_user _ _ S2); reflexivity]).
    assert (T2 : at_phase G tr s2) by (apply (t_calm w G tr s); auto; [rewrite (same_failed _ _ S2); reflexivity|congruence]).
    destruct (gc_loop_alive w base u0 NM n G tr s2 x f vt H2 C2 CR2 HI2 T2 D2 CU2 F2 V (LN x f CU2 F2)) as (ret & s' & tr' & E & H' & C' & CA' & D' & CU' & HI' & LT & RES).
    exists ret, s', tr'. split; [exact E|]. constructor; auto; [eapply calm_trans; eassumption|]. rewrite FI2 in RES. exact RES.
  Qed.

  Lemma gc_rest_quiet G tr s : heap s -> counted s -> hist tr s -> stopped tr s -> exists s', gc_rest false false false s = Some (false, s') /\ gone G tr s false s' tr.
  Proof.
    intros H C HI ST. unfold gc_rest. destruct (set_direrror_same w s false H C) as (H1 & C1 & CA1). set (s1 := set_direrror false s) in *.
    destruct (drain_heap w s1 H1 C1) as (s2 & E2 & H2 & C2 & S2 & CA2 & CR2). rewrite E2.
    destruct (depth_fuel w s2 H2) as (n & EN & LN). destruct (get (cur s2) s2) as [o|]; [|discriminate]. injection EN as ->.
    destruct (gc_loop_quiet w n false s2 H2 C2 CR2 LN) as (s' & E' & H' & C' & CA' & SI' & CU'). exists s'. split; [exact E'|]. constructor; auto.
    - eapply calm_trans; [|exact CA']. eapply calm_trans; eassumption.
    - rewrite (silent_direrror _ _ SI'), (same_direrror _ _ S2). reflexivity.
    - apply (hist_eq w base u0 tr s); [exact HI| |].
      + rewrite (silent_trace _ _ SI'), (same_trace _ _ S2). reflexivity.
      + rewrite (silent_user _ _ SI'), (same_user _ _ S2). reflexivity.
    - apply later_id.
    - unfold stopped in *. rewrite (silent_failed _ _ SI'), (same_failed _ _ S2). exact ST.
  Qed.

  Lemma gone_after G0 G tr0 tr s0 s ret s' tr' : gone G tr s ret s' tr' -> calm s0 s -> files s = files s0 -> later tr0 tr -> forward G0 G -> G [] = G0 [] -> gone G0 tr0 s0 ret s' tr'.
  Proof.
    intros [A1 A2 A3 A4 A5 A6 A7 A8] CA FI LT FW GR. constructor; auto; [eapply calm_trans; eassumption|eapply later_trans; eassumption|].
    destruct ret; [|exact A8]. destruct A8 as (IC & G' & T & FW' & GR'). split; [rewrite <- FI; exact IC|]. exists G'. split; [exact T|]. split; [eapply forward_trans; eassumption|congruence].
  Qed.

  (** After the visit of a file that is not entered *)
  Lemma gc_leave G tr s x f : heap s -> counted s -> hist tr s -> at_phase G tr s -> direrror s = false -> cur s = Some x -> find_file x s = Some f -> G (f_pos f) = Leaving ->
    exists ret s' tr', gc w false false true s = Some (ret, s') /\ gone G tr s ret s' tr'.
  Proof.
    intros H C HI T D CU F GL. unfold gc. destruct (unwrap_ok w s H) as (s1 & E1 & H1 & S1 & CA1). rewrite E1. pose proof (counted_calm w _ _ C S1 CA1) as C1.
    rewrite (same_direrror _ _ S1), D.
    destruct (gc_rest_alive G tr s1 x f false H1 C1) as (ret & s' & tr' & E & GN); auto.
    - apply (hist_eq w base u0 tr s); [exact HI|apply (same_trace _ _ S1)|apply (same_user _ _ S1)].
    - apply (t_calm w G tr s); auto; [apply (same_failed _ _ S1)|apply (same_files _ _ S1)|apply (same_cur _ _ S1)].
    - rewrite (same_cur _ _ S1). exact CU.
    - unfold find_file in *. rewrite (same_files _ _ S1). exact F.
    - exists ret, s', tr'. split; [exact E|]. eapply gone_after; [exact GN|exact CA1|apply (same_files _ _ S1)|apply later_id|apply forward_id|reflexivity].
  Qed.

  (** After all entries of a directory *)
  Lemma gc_close G tr s x f : heap s -> counted s -> hist tr s -> at_phase G tr s -> direrror s = broken_at w (f_pos f) -> cur s = Some x -> find_file x s = Some f ->
    G (f_pos f) = Reading (length (kids_at w (f_pos f))) ->
    exists ret s' tr', gc w true true true s = Some (ret, s') /\ gone G tr s ret s' tr'.
  Proof.
    intros H C HI T D CU F GR. unfold gc. destruct (unwrap_ok w s H) as (s1 & E1 & H1 & S1 & CA1). rewrite E1. pose proof (counted_calm w _ _ C S1 CA1) as C1.
    rewrite (same_direrror _ _ S1). assert (D1 : direrror s1 = broken_at w (f_pos f)) by (rewrite (same_direrror _ _ S1); exact D).
    assert (HI1 : hist tr s1) by (apply (hist_eq w base u0 tr s); [exact HI|apply (same_trace _ _ S1)|apply (same_user _ _ S1)]).
    assert (T1 : at_phase G tr s1) by (apply (t_calm w G tr s); auto; [apply (same_failed _ _ S1)|apply (same_files _ _ S1)|apply (same_cur _ _ S1)]).
    assert (CU1 : cur s1 = Some x) by (rewrite (same_cur _ _ S1); exact CU).
    assert (F1 : find_file x s1 = Some f) by (unfold find_file in *; rewrite (same_files _ _ S1); exact F).
    destruct (find_in _ _ _ F1) as (FI & FX). pose proof (ok_pos _ _ _ (h_ok _ _ H1 f FI)) as NP.
    pose proof (t_evs _ _ _ _ T1 (f_pos f) NP) as SH. rewrite GR in SH. destruct SH as (SK & y & EY & EN).
    assert (FWH : forward G (upd G (f_pos f) Held)) by (apply forward_upd; cbn [rank]; lia).
    assert (GRH : upd G (f_pos f) Held [] = G []) by (apply upd_other; congruence).
    rewrite D. destruct (broken_at w (f_pos f)) eqn:B.
    - destruct (through_parent w G tr s1 f H1 T1 FI) as (k & q & EP & TH & PL).
      destruct (call_step w base u0 NM G tr s1 None BFTW_PRE k q H1 T1 HI1) as (a & s2 & tr2 & E2 & H2 & ST).
      + unfold target_at. rewrite CU1. exists f. auto.
      + exact TH.
      + exact PL.
      + left. rewrite <- EP, GR. reflexivity.
      + intros _. right. split; [exact D1|]. exists y. rewrite <- EP. auto.
      + intros _. rewrite <- EP. split; [exact B|]. split; [reflexivity|]. rewrite EY. discriminate.
      + discriminate.
      + rewrite E2. rewrite <- EP in ST. pose proof (st_kept _ _ _ _ _ _ _ _ _ _ ST) as K2. destruct (kept_fields w _ _ K2) as (FI2 & NX2 & RF2 & CU2 & DE2).
        pose proof (counted_kept w _ _ C1 K2) as C2. pose proof (st_hist _ _ _ _ _ _ _ _ _ _ ST) as HI2.
        assert (CA2 : calm s s2) by (eapply calm_trans; [exact CA1|apply calm_kept, K2]).
        assert (FE : files s2 = files s) by (rewrite FI2; apply (same_files _ _ S1)).
        assert (LT : later tr tr2) by (apply (later_step tr tr2 (f_pos f) (st_news _ _ _ _ _ _ _ _ _ _ ST)); rewrite EY; discriminate).
        destruct (st_result _ _ _ _ _ _ _ _ _ _ ST) as [(-> & SP) | (NST & FA & RES)].
        * destruct (gc_rest_quiet G tr2 s2 H2 C2 HI2 SP) as (s' & E' & GN). exists false, s', tr2. split; [exact E'|].
          eapply gone_after; [exact GN|exact CA2|exact FE|exact LT|apply forward_id|reflexivity].
        * destruct RES as [(Z & _) | [(Z & _) | (_ & _ & e & b & -> & E3 & E4 & E5 & E6 & _)]]; [discriminate|congruence|].
          assert (T2 : at_phase (upd G (f_pos f) Held) ((e, b) :: tr) s2).
          { apply (t_cur w G tr ((e, b) :: tr) s1 s2 x f Held); auto.
            - rewrite GR. reflexivity.
            - discriminate.
            - apply calm_kept, K2.
            - intros z [<- | I]; [exact E5|apply (t_stop _ _ _ _ T1 z I)].
            - apply evs_upd; [apply (t_evs _ _ _ _ T1)|exact E3|]. cbn [BftwHist.shape]. split; [exact SK|]. exists y, [(e, b)]. rewrite EY. split; [reflexivity|]. split; [exact EN|].
              unfold errors_ok. rewrite B. exists e, b. split; [reflexivity|]. split; [exact E4|]. apply E6, D1. }
          destruct (gc_rest_alive (upd G (f_pos f) Held) ((e, b) :: tr) s2 x f true H2 C2 HI2 T2) as (ret & s' & tr' & E & GN).
          -- congruence.
          -- unfold find_file in *. rewrite FI2. exact F1.
          -- left. split; [reflexivity|apply upd_same].
          -- exists ret, s', tr'. split; [destruct a; try congruence; exact E|]. eapply gone_after; [exact GN|exact CA2|exact FE|exact LT|exact FWH|exact GRH].
    - assert (T2 : at_phase (upd G (f_pos f) Held) tr s1).
      { apply (t_cur w G tr tr s1 s1 x f Held); auto.
        - rewrite GR. reflexivity.
        - discriminate.
        - apply calm_id.
        - apply (t_stop _ _ _ _ T1).
        - apply evs_upd_none; [apply (t_evs _ _ _ _ T1)|]. cbn [BftwHist.shape]. split; [exact SK|]. exists y, []. split; [exact EY|]. split; [exact EN|]. unfold errors_ok. rewrite B. reflexivity. }
      destruct (gc_rest_alive (upd G (f_pos f) Held) tr s1 x f true H1 C1 HI1 T2 CU1 F1) as (ret & s' & tr' & E & GN).
      + left. split; [reflexivity|apply upd_same].
      + exists ret, s', tr'. split; [exact E|]. eapply gone_after; [exact GN|exact CA1|apply (same_files _ _ S1)|apply later_id|exact FWH|exact GRH].
  Qed.
End Main.
