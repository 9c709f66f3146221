(** * Reading and leaving directories *)
From Coq Require Import List Bool Arith Lia Permutation Init.Byte.
From Coq Require Import ZifyBool ZifyNat.
From Verif Require Import PathModel PathSpec WalkSpec BftwModel BftwIo BftwQueue BftwPop BftwSpec BftwPath BftwHeap BftwFiles BftwGc BftwHist BftwSteps.
Import ListNotations.

Section Entry.
  Context {U : Type}.
  Variable w : env U.
  Notation state := (state U).
  Notation IO := (IO w None).
  Notation contents := (contents w).
  Notation in_queue := (in_queue w None).
  Notation heap := (heap w).
  Notation kept := (kept w).
  Notation counted := (counted w).
  Notation calm := (calm w).
  Notation crowded := (crowded w).
  Notation enters := (enters w).
  Notation skipped := (skipped w).
  Notation shape := (shape w).
  Notation at_phase := (at_phase w).
  Notation stopped := (stopped w).
  Notation born := (born w).
  Variable base : list (event * action).
  Variable u0 : U.
  Notation hist := (hist w base u0).
  Hypothesis NM : named w.

  (** ** A new entry *)

  Lemma cons_neq (k : nat) (q : pos) : k :: q <> q.
  Proof. intros E. apply (f_equal (@length nat)) in E. cbn [length] in E. lia. Qed.

  Definition seen (G : pos -> phase) (k : nat) (q : pos) (v : phase) : pos -> phase := upd (upd G q (Reading (S k))) (k :: q) v.
  Lemma seen_new G k q v : seen G k q v (k :: q) = v.
  Proof. apply upd_same. Qed.
  Lemma seen_dir G k q v : seen G k q v q = Reading (S k).
  Proof. unfold seen. rewrite upd_other by (intros E; symmetry in E; destruct (cons_neq k q E)). apply upd_same. Qed.
  Lemma seen_other G k q v p : p <> q -> p <> k :: q -> seen G k q v p = G p.
  Proof. intros A B. unfold seen. rewrite !upd_other by assumption. reflexivity. Qed.

  Lemma born_entry G k q v : (forall k q, G (k :: q) <> Unborn <-> k < born (G q) q) -> G q = Reading k -> v <> Unborn -> born v (k :: q) = 0 ->
    forall j r, seen G k q v (j :: r) <> Unborn <-> j < born (seen G k q v r) r.
  Proof.
    intros B GQ VU VB j r.
    assert (GU : G (k :: q) = Unborn). { destruct (G (k :: q)) eqn:E; try reflexivity; exfalso; assert (Z : G (k :: q) <> Unborn) by (rewrite E; discriminate); apply B in Z; rewrite GQ in Z; cbn [BftwHist.born] in Z; lia. }
    destruct (pos_dec (j :: r) (k :: q)) as [E | D].
    - injection E as -> ->. rewrite seen_new, seen_dir. cbn [BftwHist.born]. split; [lia|intros _; exact VU].
    - assert (L : seen G k q v (j :: r) <> Unborn <-> G (j :: r) <> Unborn).
      { destruct (pos_dec (j :: r) q) as [<- | D']; [rewrite seen_dir, GQ; split; discriminate|rewrite seen_other by assumption; reflexivity]. }
      rewrite L, B. destruct (pos_dec r (k :: q)) as [-> | D1].
      + rewrite seen_new, VB, GU. cbn [BftwHist.born]. lia.
      + destruct (pos_dec r q) as [-> | D2]; [|rewrite seen_other by assumption; reflexivity]. rewrite seen_dir, GQ. cbn [BftwHist.born].
        assert (j <> k) by (intros ->; apply D; reflexivity). lia.
  Qed.

  Lemma entry_unborn G tr s k q : at_phase G tr s -> G q = Reading k -> G (k :: q) = Unborn.
  Proof.
    intros T GQ. destruct (G (k :: q)) eqn:E; try reflexivity; exfalso; assert (Z : G (k :: q) <> Unborn) by (rewrite E; discriminate); apply (t_born _ _ _ _ T) in Z; rewrite GQ in Z; cbn [BftwHist.born] in Z; lia.
  Qed.

  Lemma seen_forward G k q v : G q = Reading k -> G (k :: q) = Unborn -> forward G (seen G k q v).
  Proof.
    intros GQ GU p. destruct (pos_dec p (k :: q)) as [-> | D]; [rewrite seen_new, GU; destruct v; cbn [rank]; lia|].
    destruct (pos_dec p q) as [-> | D']; [rewrite seen_dir; cbn [rank]; lia|rewrite seen_other by assumption; lia].
  Qed.

  Lemma seen_evs G tr tr' s k q v : at_phase G tr s -> G q = Reading k -> (forall r, r <> k :: q -> evs r tr' = evs r tr) -> shape (k :: q) v (evs (k :: q) tr') ->
    forall r, r <> [] -> shape r (seen G k q v r) (evs r tr').
  Proof.
    intros T GQ EV SH r N. destruct (pos_dec r (k :: q)) as [-> | D]; [rewrite seen_new; exact SH|]. rewrite EV by exact D. pose proof (t_evs _ _ _ _ T r N) as E.
    destruct (pos_dec r q) as [-> | D']; [rewrite seen_dir; rewrite GQ in E; exact E|rewrite seen_other by assumption; exact E].
  Qed.

  (** A file is added. *)
  Lemma t_added G tr tr' s s' Q k q f v : heap s -> at_phase G tr s -> G q = Reading k -> node_at w (k :: q) <> None -> added w Q f s s' -> f_pos f = k :: q -> f_id f = next_id s ->
    (Q = FileQ /\ v = Todo \/ Q = DirQ /\ v = Fresh) ->
    (forall y, In y tr' -> snd y <> BFTW_STOP) -> (forall r, r <> k :: q -> evs r tr' = evs r tr) -> shape (k :: q) v (evs (k :: q) tr') ->
    at_phase (seen G k q v) tr' s'.
  Proof.
    intros H T GQ ND AD FP FX V ST EV SH. pose proof (entry_unborn G tr s k q T GQ) as GU.
    assert (VA : alive v = true /\ v <> Unborn /\ born v (k :: q) = 0) by (destruct V as [(_ & ->) | (_ & ->)]; repeat split; discriminate). destruct VA as (VA & VU & VB).
    constructor.
    - rewrite (add_failed _ _ _ _ _ AD). apply (t_failed _ _ _ _ T).
    - exact ST.
    - intros p. rewrite (add_files _ _ _ _ _ AD). pose proof (t_live _ _ _ _ T p) as TL. destruct (pos_dec p (k :: q)) as [-> | D].
      + rewrite seen_new. split; [intros _; split; [discriminate|exact VA]|]. intros _. exists f. split; [apply in_app_iff; right; left; reflexivity|exact FP].
      + assert (L : (exists g, In g (files s ++ [f]) /\ f_pos g = p) <-> exists g, In g (files s) /\ f_pos g = p).
        { split; intros (g & A & B); exists g; (split; [|exact B]); [|apply in_app_iff; left; exact A]. apply in_app_iff in A as [A | [<- | []]]; [exact A|]. exfalso. apply D. rewrite <- B. exact FP. }
        rewrite L, TL. destruct (pos_dec p q) as [-> | D']; [rewrite seen_dir, GQ; reflexivity|rewrite seen_other by assumption; reflexivity].
    - intros g A. rewrite (add_files _ _ _ _ _ AD) in A. apply in_app_iff in A as [A | [<- | []]].
      + assert (NX : f_id g <> f_id f).
        { rewrite FX. pose proof (live_next w (f_id g) s H) as L. rewrite live_in in L. specialize (L (ex_intro _ g (conj A eq_refl))). lia. }
        assert (NP : f_pos g <> k :: q). { intros E. assert (Z : alive (G (k :: q)) = true) by (apply (t_live _ _ _ _ T); eauto). rewrite GU in Z. discriminate. }
        pose proof (t_place _ _ _ _ T g A) as P. pose proof (add_put _ _ _ _ _ AD) as PU.
        destruct (pos_dec (f_pos g) q) as [E | D'].
        * rewrite E, seen_dir. rewrite E, GQ in P. cbn [place] in *. rewrite (add_cur _ _ _ _ _ AD). exact P.
        * rewrite seen_other by assumption.
          assert (CO : forall q', In (f_id g) (contents q' s) -> In (f_id g) (contents q' s')).
          { intros q' I. assert (DQ : q' = Q \/ q' <> Q) by (destruct q', Q; (left; reflexivity) || (right; discriminate)). destruct DQ as [-> | DQ].
            - eapply Permutation_in; [apply Permutation_sym, (put_in _ _ _ _ _ PU)|right; exact I].
            - eapply Permutation_in; [apply Permutation_sym, (put_out _ _ _ _ _ PU q' DQ)|exact I]. }
          destruct (G (f_pos g)); cbn [place] in *; rewrite ?(add_cur _ _ _ _ _ AD); auto.
          rewrite (put_in_queue _ _ _ _ _ _ PU). tauto.
      + rewrite FP, seen_new. pose proof (put_in _ _ _ _ _ (add_put _ _ _ _ _ AD)) as P.
        destruct V as [(-> & ->) | (-> & ->)]; cbn [place]; (eapply Permutation_in; [apply Permutation_sym, P|left; reflexivity]).
    - apply born_entry; auto. apply (t_born _ _ _ _ T).
    - intros p j. destruct (pos_dec p (k :: q)) as [-> | D]; [rewrite seen_new; intros ->; destruct V as [(_ & Z) | (_ & Z)]; discriminate|].
      destruct (pos_dec p q) as [-> | D']; [rewrite seen_dir; intros [= <-]; cbn [node_at] in ND; apply nth_error_Some in ND; lia|rewrite seen_other by assumption; apply (t_read _ _ _ _ T)].
    - apply (seen_evs G tr tr' s k q v); assumption.
    - destruct q as [|j q]; [rewrite seen_dir; reflexivity|rewrite seen_other by discriminate; apply (t_root _ _ _ _ T)].
  Qed.

  (** No file is added. *)
  Lemma t_passed G tr tr' s s' k q : heap s -> at_phase G tr s -> G q = Reading k -> node_at w (k :: q) <> None -> kept s s' -> failed s' = failed s ->
    (forall y, In y tr' -> snd y <> BFTW_STOP) -> (forall r, r <> k :: q -> evs r tr' = evs r tr) -> shape (k :: q) Left (evs (k :: q) tr') ->
    at_phase (seen G k q Left) tr' s'.
  Proof.
    intros H T GQ ND KP FA ST EV SH. pose proof (entry_unborn G tr s k q T GQ) as GU. destruct (kept_fields w _ _ KP) as (FI & _ & _ & CU & _).
    assert (T' : at_phase G tr s') by (apply (t_calm w G tr s); auto; apply calm_kept, KP). constructor.
    - apply (t_failed _ _ _ _ T').
    - exact ST.
    - intros p. rewrite (t_live _ _ _ _ T' p). destruct (pos_dec p (k :: q)) as [-> | D]; [rewrite seen_new, GU; reflexivity|].
      destruct (pos_dec p q) as [-> | D']; [rewrite seen_dir, GQ; reflexivity|rewrite seen_other by assumption; reflexivity].
    - intros g A. pose proof (t_place _ _ _ _ T' g A) as P.
      assert (NP : f_pos g <> k :: q). { intros E. assert (Z : alive (G (k :: q)) = true) by (apply (t_live _ _ _ _ T'); eauto). rewrite GU in Z. discriminate. }
      destruct (pos_dec (f_pos g) q) as [E | D']; [|rewrite seen_other by assumption; exact P]. rewrite E, seen_dir. rewrite E, GQ in P. exact P.
    - apply born_entry; auto; [apply (t_born _ _ _ _ T)|discriminate].
    - intros p j. destruct (pos_dec p (k :: q)) as [-> | D]; [rewrite seen_new; discriminate|].
      destruct (pos_dec p q) as [-> | D']; [rewrite seen_dir; intros [= <-]; cbn [node_at] in ND; apply nth_error_Some in ND; lia|rewrite seen_other by assumption; apply (t_read _ _ _ _ T)].
    - apply (seen_evs G tr tr' s k q Left); assumption.
    - destruct q as [|j q]; [rewrite seen_dir; reflexivity|rewrite seen_other by discriminate; apply (t_root _ _ _ _ T)].
  Qed.

  Lemma clock_all c G tr s : heap s -> counted s -> hist tr s -> at_phase G tr s -> heap (set_clock c s) /\ counted (set_clock c s) /\ hist tr (set_clock c s) /\ at_phase G tr (set_clock c s).
  Proof.
    intros H C HI T. pose proof (clock_popped w None c s) as P. pose proof (popped_moved _ _ _ _ P) as M. split; [|split; [|split]].
    - apply (heap_moved w s); [exact H|apply clock_io, (h_io _ _ H)|exact M].
    - apply (counted_calm w s); [exact C|apply (moved_same _ _ _ _ M)|apply calm_moved, M].
    - apply (hist_eq w base u0 tr s); auto.
    - apply (t_calm w G tr s); auto. apply calm_moved, M.
  Qed.

  Lemma target_eq t p (s s' : state) : target_at w t p s -> files s' = files s -> cur s' = cur s -> (cur s = None -> previous s' = previous s) -> target_at w t p s'.
  Proof.
    unfold target_at, find_file. intros T F C P. rewrite C, F. destruct t as [(k & tr)|], (cur s); try exact T. rewrite P by reflexivity. exact T.
  Qed.

  Lemma buffer_file_ok k t p s : heap s -> target_at w (Some (k, t)) p s ->
    exists b s', buffer_file w (Some (k, t)) s = Some (b, s') /\ (s' = s \/ exists c, s' = set_clock c s) /\ (fl_sort w = true -> b = true /\ s' = s).
  Proof.
    intros H TA. unfold buffer_file. destruct (buffering w) eqn:B; [exists true, s; auto|].
    assert (NS : fl_sort w = false). { unfold buffering, must_buffer in B. destruct (fl_sort w); [|reflexivity]. cbn [orb] in B. rewrite orb_true_r in B. discriminate. }
    rewrite NS. destruct (nthreads w =? 0); [exists false, s; repeat split; auto; discriminate|].
    unfold balanced. destruct (qbalance (flags w FileQ)).
    - cbn [ask]. destruct (0 <? choose w (clock s)); cbn [negb].
      + set (s1 := set_clock _ s). assert (G : exists o, get (cur s1) s1 = Some o).
        { change (cur s1) with (cur s). unfold target_at in TA. destruct (cur s) as [x|]; [|exists None; reflexivity]. destruct TA as (f & F & _). exists (Some f). cbn [get]. change (find_file x s1) with (find_file x s). rewrite F. reflexivity. }
        destruct G as (o & ->). eexists _, s1. split; [reflexivity|]. split; [right; eexists; reflexivity|discriminate].
      + eexists false, _. split; [reflexivity|]. split; [right; eexists; reflexivity|discriminate].
    - cbn [negb]. assert (G : exists o, get (cur s) s = Some o).
      { unfold target_at in TA. destruct (cur s) as [x|]; [|exists None; reflexivity]. destruct TA as (f & F & _). exists (Some f). cbn [get]. rewrite F. reflexivity. }
      destruct G as (o & ->). eexists _, s. split; [reflexivity|]. split; [left; reflexivity|discriminate].
  Qed.

  Lemma find_more x (s s' : state) f : heap s' -> find_file x s = Some f -> (forall g, In g (files s) -> In g (files s')) -> find_file x s' = Some f.
  Proof. intros H F I. destruct (find_in _ _ _ F) as (A & B). apply find_id; [apply (h_ids _ _ H)|apply I, A|exact B]. Qed.

  Record entry_done (k : nat) (q : pos) (t : tree info) (G : pos -> phase) (tr : list (event * action)) (s : state) (ok : bool) (s' : state) (tr' : list (event * action)) : Prop := {
    en_heap : heap s'; en_counted : counted s'; en_hist : hist tr' s'; en_direrror : direrror s' = direrror s; en_cur : cur s' = cur s;
    en_previous : cur s = None -> previous s' = None;
    en_files : forall f, In f (files s) -> In f (files s');
    en_result : if ok then exists G', at_phase G' tr' s' /\ forward G G' /\ G' q = Reading (S k) /\ (q <> [] -> G' [] = G []) else stopped tr' s';
    en_sort : fl_sort w = true -> ok = true /\ tr' = tr /\ exists f, added w FileQ f s s' /\ f_pos f = k :: q }.

  Lemma entry_step G tr s k t q : heap s -> counted s -> hist tr s -> at_phase G tr s -> direrror s = false -> target_at w (Some (k, t)) (k :: q) s -> G q = Reading k ->
    exists ok s' tr', bftw_visit w (Some (k, t)) s = Some (ok, s') /\ entry_done k q t G tr s ok s' tr'.
  Proof.
    intros H C HI T D TA GQ. unfold bftw_visit. pose proof (entry_unborn G tr s k q T GQ) as GU.
    assert (ND : node_at w (k :: q) <> None). { unfold target_at in TA. destruct (cur s); [destruct TA as (f & _ & _ & ->)|destruct TA as (_ & -> & _)]; discriminate. }
    assert (E0 : evs (k :: q) tr = []). { pose proof (t_evs _ _ _ _ T (k :: q)) as E. rewrite GU in E. apply E. discriminate. }
    assert (PN : cur s = None -> previous s = None). { intros Z. unfold target_at in TA. rewrite Z in TA. apply TA. }
    destruct (buffer_file_ok k t (k :: q) s H TA) as (b & s0 & -> & CL & SO).
    assert (A0 : heap s0 /\ counted s0 /\ hist tr s0 /\ at_phase G tr s0). { destruct CL as [-> | (c & ->)]; [auto|apply clock_all; assumption]. }
    destruct A0 as (H0 & C0 & HI0 & T0).
    assert (EQ : files s0 = files s /\ cur s0 = cur s /\ previous s0 = previous s /\ direrror s0 = direrror s /\ failed s0 = failed s) by (destruct CL as [-> | (c & ->)]; auto).
    destruct EQ as (FI0 & CU0 & PR0 & DE0 & FA0).
    assert (TA0 : target_at w (Some (k, t)) (k :: q) s0) by (apply (target_eq _ _ s); auto).
    assert (NF : forall f, In f (files s) -> f_pos f <> k :: q). { intros f A E. assert (Z : alive (G (k :: q)) = true) by (apply (t_live _ _ _ _ T); eauto). rewrite GU in Z. discriminate. }
    destruct b.
    - destruct (add_ok w FileQ k t (k :: q) s0 NM H0 C0 TA0) as (x & s1 & s' & f & E1 & E2 & H' & C' & AD & FX & FP & _); [intros f; rewrite FI0; apply NF|].
      rewrite E1. cbn match. cbn [push] in E2. rewrite E2. exists true, s', tr. split; [reflexivity|]. constructor; auto.
      + apply (hist_eq w base u0 tr s0); [exact HI0|apply (add_trace _ _ _ _ _ AD)|apply (add_user _ _ _ _ _ AD)].
      + rewrite (add_direrror _ _ _ _ _ AD). congruence.
      + rewrite (add_cur _ _ _ _ _ AD). exact CU0.
      + intros Z. rewrite (add_previous _ _ _ _ _ AD), PR0. auto.
      + intros g A. rewrite (add_files _ _ _ _ _ AD), FI0. apply in_app_iff. left. exact A.
      + exists (seen G k q Todo). split; [|split; [apply seen_forward; assumption|split; [apply seen_dir|intros N; apply seen_other; congruence]]].
        apply (t_added G tr tr s0 s' FileQ k q f); auto. apply (t_stop _ _ _ _ T).
      + intros SR. destruct (SO SR) as (_ & ->). split; [reflexivity|]. split; [reflexivity|]. exists f. auto.
    - assert (NS : fl_sort w = true -> False) by (intros SR; destruct (SO SR); discriminate).
      assert (PL : q = [] \/ exists f, In f (files s0) /\ f_pos f = q).
      { unfold target_at in TA0. destruct (cur s0); [right|left; destruct TA0 as (Z & _); injection Z; auto]. destruct TA0 as (f & F & Z & _). injection Z as ->. exists f. split; [apply (find_in _ _ _ F)|reflexivity]. }
      destruct (call_step w base u0 NM G tr s0 (Some (k, t)) BFTW_PRE k q H0 T0 HI0 TA0) as (a & s1 & tr1 & E & H1 & ST); auto; [rewrite GQ; reflexivity|congruence|discriminate|].
      rewrite E. cbn match. pose proof (st_kept _ _ _ _ _ _ _ _ _ _ ST) as K1. destruct (kept_fields w _ _ K1) as (FI1 & NX1 & RF1 & CU1 & DE1).
      pose proof (counted_kept w _ _ C0 K1) as C1. pose proof (st_hist _ _ _ _ _ _ _ _ _ _ ST) as HI1.
      assert (PR1 : cur s = None -> previous s1 = None). { intros Z. destruct (st_previous _ _ _ _ _ _ _ _ _ _ ST) as [-> | ->]; [congruence|rewrite PR0; auto]. }
      destruct (st_result _ _ _ _ _ _ _ _ _ _ ST) as [(-> & SP) | (NST & FA & RES)].
      { exists false, s1, tr1. split; [reflexivity|]. constructor; auto; try congruence. }
      assert (EV : (forall y, In y tr1 -> snd y <> BFTW_STOP) /\ (forall r, r <> k :: q -> evs r tr1 = evs r tr) /\
                   match a with BFTW_CONTINUE => shape (k :: q) Fresh (evs (k :: q) tr1) | _ => shape (k :: q) Left (evs (k :: q) tr1) end).
      { destruct RES as [(Z & _) | [(SK & -> & ->) | (SK & _ & e & b & -> & EP & EV & B & _ & AN)]]; [discriminate| |].
        - split; [apply (t_stop _ _ _ _ T)|]. split; [reflexivity|]. left. auto.
        - split; [intros y [<- | I]; [exact B|apply (t_stop _ _ _ _ T y I)]|]. split; [intros r N; apply evs_there; cbn [fst]; congruence|].
          rewrite evs_here, E0 by exact EP. cbn [app]. destruct a.
          + split; [exact SK|]. exists (e, b). split; [reflexivity|]. apply (answer_continue w b BFTW_PRE e); auto.
          + right. split; [exact SK|]. exists (e, b). split; [reflexivity|]. split; [exact EV|]. apply (answer_prune w b BFTW_PRE e); auto. rewrite <- AN. discriminate.
          + congruence. }
      destruct EV as (ST1 & EV1 & SH1). destruct a; [| |congruence].
      + assert (TA1 : target_at w (Some (k, t)) (k :: q) s1). { apply (target_eq _ _ s0); auto. intros Z. rewrite PR1, PR0, PN; congruence. }
        destruct (add_ok w DirQ k t (k :: q) s1 NM H1 C1 TA1) as (x & s2 & s' & f & E1 & E2 & H' & C' & AD & FX & FP & _); [intros f; rewrite FI1, FI0; apply NF|].
        rewrite E1. cbn match. cbn [push] in E2. rewrite E2. exists true, s', tr1. split; [reflexivity|]. constructor; auto.
        * apply (hist_eq w base u0 tr1 s1); [exact HI1|apply (add_trace _ _ _ _ _ AD)|apply (add_user _ _ _ _ _ AD)].
        * rewrite (add_direrror _ _ _ _ _ AD). congruence.
        * rewrite (add_cur _ _ _ _ _ AD). congruence.
        * intros Z. rewrite (add_previous _ _ _ _ _ AD). auto.
        * intros g A. rewrite (add_files _ _ _ _ _ AD), FI1, FI0. apply in_app_iff. left. exact A.
        * exists (seen G k q Fresh). split; [|split; [apply seen_forward; assumption|split; [apply seen_dir|intros N; apply seen_other; congruence]]].
          assert (T1 : at_phase G tr s1) by (apply (t_calm w G tr s0); auto; apply calm_kept, K1).
          apply (t_added G tr tr1 s1 s' DirQ k q f); auto.
        * intros SR. destruct (NS SR).
      + exists true, s1, tr1. split; [reflexivity|]. constructor; auto; try congruence.
        exists (seen G k q Left). split; [|split; [apply seen_forward; assumption|split; [apply seen_dir|intros N; apply seen_other; congruence]]]. apply (t_passed G tr tr1 s0 s1); auto.
  Qed.
End Entry.
