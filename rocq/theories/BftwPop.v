(** * The walk's queues: taking files out of them *)
From Coq Require Import List Bool Arith Lia Permutation Init.Byte.
From Coq Require Import ZifyBool ZifyNat.
From Verif Require Import PathModel SortModel WalkSpec BftwModel BftwIo BftwQueue SortProperties.
Import ListNotations.

Section Pop.
  Context {U : Type}.
  Variable w : env U.
  Notation state := (state U).
  Notation IO := (IO w None).
  Notation moved := (moved w None).
  Notation popped := (popped w None).
  Notation contents := (contents w).
  Notation in_queue := (in_queue w None).

  Lemma wait_ready_ok fuel q s : IO s -> buffer (queue_of q s) = [] -> length (inflight s) <= fuel ->
    exists s', wait_ready w fuel q s = Some s' /\ IO s' /\ popped s s' /\
      (ready (queue_of q s') <> [] \/ waiting (queue_of q s') <> [] \/ fly q (inflight s') = []).
  Proof.
    revert s. induction fuel as [|fuel IH]; intros s H B L.
    - assert (I0 : inflight s = []) by (destruct (inflight s); [reflexivity|cbn in L; lia]).
      exists s. cbn [wait_ready]. split; [|split; [exact H|split; [apply popped_id|right; right; rewrite I0; destruct q; reflexivity]]].
      unfold queue_ready. destruct (ready (queue_of q s)); [|reflexivity]. cbn [hd_error]. rewrite (q_io _ _ _ _ (io_q _ _ _ H q)), I0. destruct q; reflexivity.
    - cbn [wait_ready]. unfold queue_ready. destruct (ready (queue_of q s)) as [|y r] eqn:R; cbn [hd_error].
      2: { exists s. split; [reflexivity|]. split; [exact H|]. split; [apply popped_id|]. left. rewrite R. discriminate. }
      pose proof (q_io _ _ _ _ (io_q _ _ _ H q)) as IQ. destruct (ioqueued (queue_of q s)) as [|n].
      { exists s. split; [reflexivity|]. split; [exact H|]. split; [apply popped_id|]. right. right. destruct (fly q (inflight s)); [reflexivity|discriminate]. }
      set (block := negb _). destruct (ioq_pop_ok w None block s H) as (ok & s1 & E & H1 & P1 & C & BL & _). rewrite E.
      destruct ok.
      + destruct (IH s1 H1) as (s2 & E2 & H2 & P2 & D); [destruct (popped_lists _ _ _ _ P1 q) as (-> & _); exact B|lia|].
        exists s2. split; [exact E2|]. split; [exact H2|]. split; [eapply popped_trans; eassumption|exact D].
      + exists s1. split; [reflexivity|]. split; [exact H1|]. split; [exact P1|]. right. left.
        destruct block eqn:EB.
        * assert (X : false = true); [|discriminate]. apply BL; [reflexivity|]. intros E0. rewrite E0 in IQ. destruct q; discriminate.
        * subst block. destruct (popped_lists _ _ _ _ P1 q) as (_ & ->). unfold queue_waiting in EB. rewrite B in EB.
          destruct (waiting (queue_of q s)); [|discriminate]. exfalso. cbn [hd_error] in EB.
          destruct (qbuffer _); cbn [negb] in EB; [|discriminate]. destruct (qorder _); [discriminate|]. destruct (qlifo _); discriminate.
  Qed.

  Lemma wait_file_ok fuel x s f : BftwIo.IO w (Some x) s -> find_file x s = Some f -> length (inflight s) <= fuel ->
    exists s', wait_file w fuel x s = Some s' /\ BftwIo.IO w (Some x) s' /\ BftwIo.popped w (Some x) s s' /\ ~ In x (busy s').
  Proof.
    revert s. induction fuel as [|fuel IH]; intros s H F L.
    - exists s. cbn [wait_file]. rewrite F. assert (NB : ~ In x (busy s)).
      { intros I. assert (I0 : inflight s = []) by (destruct (inflight s); [reflexivity|cbn in L; lia]).
        eapply Permutation_in in I; [|apply (io_busy _ _ _ H)]. rewrite I0 in I. destruct I. }
      unfold is_busy. replace (existsb (Nat.eqb x) (busy s)) with false by (symmetry; apply existsb_eqb_false, NB).
      split; [reflexivity|]. split; [exact H|]. split; [apply popped_id|exact NB].
    - cbn [wait_file]. rewrite F. destruct (is_busy x s) eqn:B.
      + unfold is_busy in B. apply existsb_eqb in B. destruct (ioq_pop_ok w (Some x) true s H) as (ok & s1 & E & H1 & P1 & C & BL & _). rewrite E.
        assert (N : inflight s <> []).
        { intros I0. eapply Permutation_in in B; [|apply (io_busy _ _ _ H)]. rewrite I0 in B. destruct B. }
        rewrite (BL eq_refl N) in C.
        destruct (IH s1 H1) as (s2 & E2 & H2 & P2 & D); [rewrite (same_find _ _ x (moved_same _ _ _ _ (popped_moved _ _ _ _ P1))); exact F|lia|].
        exists s2. split; [exact E2|]. split; [exact H2|]. split; [eapply popped_trans; eassumption|exact D].
      + exists s. split; [reflexivity|]. split; [exact H|]. split; [apply popped_id|]. apply existsb_eqb_false, B.
  Qed.

  (** A state from which [x] was taken out of queue [q] *)
  Record took (q : qsel) (x : nat) (s s' : state) : Prop := {
    took_cur : cur s' = Some x;
    took_same : same s (set_cur (cur s) s');
    took_from : Permutation (contents q s) (x :: contents q s');
    took_other : forall q', q' <> q -> Permutation (contents q' s') (contents q' s);
    took_buffer : forall q', buffer (queue_of q' s') = buffer (queue_of q' s);
    took_order : qorder (flags w q) = true -> ready (queue_of q s) = x :: ready (queue_of q s');
    took_order' : forall q', q' <> q -> qorder (flags w q') = true -> ready (queue_of q' s') = ready (queue_of q' s);
    took_close : forall y, In y (to_close s') -> In y (to_close s) \/
      exists z f, in_queue z s /\ find_file z s = Some f /\ f_parent f = Some y }.

  Lemma queue_pop_spec q s : IO s -> buffer (queue_of q s) = [] -> size (queue_of q s) <> 0 ->
    (ready (queue_of q s) <> [] \/ waiting (queue_of q s) <> [] \/ fly q (inflight s) = []) ->
    exists x v, queue_pop (queue_of q s) = Some (Some x, v) /\
      buffer v = [] /\ S (size v) = size (queue_of q s) /\ ioqueued v = ioqueued (queue_of q s) /\
      (if qorder (flags w q) then ready (queue_of q s) = x :: ready v /\ sub (waiting v) (ready v)
       else Permutation (waiting (queue_of q s) ++ ready (queue_of q s)) (x :: waiting v ++ ready v)) /\
      (forall y, In y (waiting v) -> In y (waiting (queue_of q s))).
  Proof.
    intros H B N R. pose proof (contents_nodup w None q s H) as ND. pose proof (io_q _ _ _ H q) as Q.
    pose proof (q_size _ _ _ _ Q) as SZ. unfold BftwIo.contents in ND, SZ. rewrite B in ND, SZ. cbn [app] in ND, SZ.
    unfold queue_pop. rewrite B. destruct (size (queue_of q s)) as [|n] eqn:ES; [congruence|].
    destruct (ready (queue_of q s)) as [|x r] eqn:ER.
    - destruct (qorder (flags w q)) eqn:O; [discriminate|]. destruct (waiting (queue_of q s)) as [|x l] eqn:EW.
      + exfalso. destruct R as [R | [R | R]]; [congruence|congruence|]. rewrite R in SZ. discriminate.
      + cbn [hd_error tl]. eexists x, _. split; [reflexivity|]. cbn. rewrite app_nil_r. repeat split; auto.
    - destruct (waiting (queue_of q s)) as [|y l] eqn:EW; cbn [hd_error].
      + eexists x, _. split; [reflexivity|]. cbn. split; [reflexivity|]. split; [reflexivity|]. split; [reflexivity|]. split; [|tauto].
        destruct (qorder _); [split; [reflexivity|apply sub_empty]|apply Permutation_refl].
      + destruct (x =? y) eqn:XY.
        * apply Nat.eqb_eq in XY. subst y. cbn [tl]. destruct (qorder (flags w q)) eqn:O.
          -- eexists x, _. split; [reflexivity|]. cbn. split; [reflexivity|]. split; [reflexivity|]. split; [reflexivity|]. split; [|tauto]. split; [reflexivity|].
             pose proof (q_order _ _ _ _ Q O) as SB. rewrite ER, EW in SB. inversion SB; subst; [|assumption].
             exfalso. inversion ND; subst. eapply sub_in in H2; [|left; reflexivity]. contradiction.
          -- exfalso. cbn [app] in ND. inversion ND; subst. apply H2. rewrite in_app_iff. right. left. reflexivity.
        * apply Nat.eqb_neq in XY. eexists x, _. split; [reflexivity|]. cbn [buffer size ioqueued waiting ready]. split; [reflexivity|]. split; [reflexivity|]. split; [reflexivity|]. split; [|tauto].
          destruct (qorder (flags w q)) eqn:O.
          -- split; [reflexivity|]. pose proof (q_order _ _ _ _ Q O) as SB. rewrite ER, EW in SB. inversion SB; subst; [assumption|congruence].
          -- symmetry. apply Permutation_middle.
  Qed.

  Lemma same_set_cur (a b : state) x : same a b -> same a (set_cur (cur a) (set_cur x b)).
  Proof. intros []. constructor; cbn; auto. Qed.

  Lemma cur_io h x s : BftwIo.IO w h s -> BftwIo.IO w h (set_cur x s).
  Proof. intros []. constructor; auto. intros q. destruct (io_q q). constructor; auto. Qed.

  Lemma pop_ok q s : IO s -> buffer (queue_of q s) = [] ->
    (contents q s = [] /\ bftw_pop w q s = Some (false, s)) \/
    exists x s', bftw_pop w q s = Some (true, s') /\ IO s' /\ took q x s s'.
  Proof.
    intros H B. unfold bftw_pop. pose proof (q_size _ _ _ _ (io_q _ _ _ H q)) as SZ. destruct (size (queue_of q s)) as [|n] eqn:ES.
    { left. split; [destruct (contents q s); [reflexivity|discriminate]|reflexivity]. }
    right. cbn [Nat.eqb]. destruct (wait_ready_ok (length (inflight s)) q s H B (le_n _)) as (s1 & -> & H1 & P1 & R).
    pose proof (popped_moved _ _ _ _ P1) as M1.
    assert (B1 : buffer (queue_of q s1) = []) by (destruct (popped_lists _ _ _ _ P1 q) as (-> & _); exact B).
    assert (S1 : size (queue_of q s1) <> 0).
    { rewrite (q_size _ _ _ _ (io_q _ _ _ H1 q)), (Permutation_length (moved_contents _ _ _ _ M1 q)), <- SZ. discriminate. }
    destruct (queue_pop_spec q s1 H1 B1 S1 R) as (x & v & -> & V1 & V2 & V3 & V4 & V5).
    set (s2 := set_queue q v s1).
    assert (QE : queue_of q s2 = v) by (subst s2; destruct q; reflexivity).
    assert (QO : forall q', q' <> q -> queue_of q' s2 = queue_of q' s1) by (intros q' D'; subst s2; destruct q, q'; reflexivity || congruence).
    assert (IE : inflight s2 = inflight s1) by (subst s2; destruct q; reflexivity).
    assert (TC : to_close s2 = to_close s1) by (subst s2; destruct q; reflexivity).
    assert (BU : busy s2 = busy s1) by (subst s2; destruct q; reflexivity).
    assert (SM : same s1 s2) by (subst s2; destruct q; constructor; reflexivity).
    assert (CE : Permutation (contents q s1) (x :: contents q s2)).
    { unfold BftwIo.contents. rewrite QE, IE, B1, V1. cbn [app]. destruct (qorder (flags w q)); [destruct V4 as (-> & _); reflexivity|].
      rewrite !app_assoc, V4. cbn [app]. rewrite <- app_assoc. reflexivity. }
    assert (CO : forall q', q' <> q -> contents q' s2 = contents q' s1) by (intros q' D; unfold BftwIo.contents; rewrite (QO q' D), IE; reflexivity).
    assert (IQ : forall y, BftwIo.in_queue w (Some x) y s2 <-> in_queue y s1).
    { intros y. unfold BftwIo.in_queue. split.
      - intros [(q' & I) | I].
        + left. exists q'. destruct (qsel_dec q q') as [-> | D]; [|rewrite <- (CO q' D); exact I]. eapply Permutation_in; [apply Permutation_sym, CE|right; exact I].
        + injection I as <-. left. exists q. eapply Permutation_in; [apply Permutation_sym, CE|left; reflexivity].
      - intros [(q' & I) | I]; [|discriminate]. destruct (qsel_dec q q') as [-> | D]; [|left; exists q'; rewrite (CO q' D); exact I].
        eapply Permutation_in in I; [|exact CE]. destruct I as [<- | I]; [right; reflexivity|left; exists q; exact I]. }
    assert (XQ : in_queue x s1) by (apply IQ; right; reflexivity).
    assert (LV : forall y, live y s2 <-> live y s1) by (intros y; unfold live; rewrite (same_find _ _ y SM); tauto).
    assert (ND : NoDup (x :: contents q s2)) by (eapply Permutation_NoDup; [exact CE|apply contents_nodup with (hole := None); exact H1]).
    assert (H2 : BftwIo.IO w (Some x) s2).
    { constructor.
      - intros q'. destruct (qsel_dec q q') as [-> | D].
        + destruct (io_q _ _ _ H1 q) as [A1 A2 A3 A4 A6 A7]. constructor.
          * rewrite QE. apply Permutation_length in CE. cbn [length] in CE. lia.
          * rewrite QE, IE, V3. exact A2.
          * intros O. rewrite QE. rewrite O in V4. apply V4.
          * intros y I. rewrite IE in I. destruct (A4 y I) as [K | (_ & K)]; [|discriminate]. eapply Permutation_in in K; [|exact CE]. destruct K as [<- | K]; [|left; exact K].
            right. split; [|reflexivity]. destruct (qorder (flags w q)) eqn:O; [reflexivity|exfalso].
            apply NoDup_cons_iff in ND as (ND & _). apply ND. unfold BftwIo.contents. rewrite O, IE, !in_app_iff. tauto.
          * intros y I. rewrite IE in I. destruct (A6 y I) as (K1 & K2). rewrite QE, V1. split; [intros []|]. intros K. apply K2, V5, K.
          * intros _. rewrite QE. exact V1.
        + destruct (io_q _ _ _ H1 q') as [A1 A2 A3 A4 A6 A7]. constructor; rewrite ?(QO q' D), ?IE, ?(CO q' D); auto.
          intros y I. destruct (A4 y I) as [K | (_ & K)]; [left; exact K|discriminate].
      - assert (PP : Permutation (contents FileQ s1 ++ contents DirQ s1) (x :: contents FileQ s2 ++ contents DirQ s2)).
        { destruct q; [rewrite (CO DirQ) by discriminate; rewrite CE; reflexivity|rewrite (CO FileQ) by discriminate; rewrite CE; symmetry; apply Permutation_middle]. }
        pose proof (io_nodup _ _ _ H1) as N. rewrite PP in N. inversion N; assumption.
      - rewrite IE. apply (io_once _ _ _ H1).
      - intros y I. rewrite IQ in I. rewrite (same_find _ _ y SM). destruct (io_live _ _ _ H1 y I) as (g & G & K). exists g. split; [exact G|].
        intros p E. rewrite LV, IQ. apply K, E.
      - intros y I. rewrite TC in I. rewrite LV, IQ. apply (io_close _ _ _ H1 y I).
      - rewrite BU, IE. apply (io_busy _ _ _ H1).
      - rewrite IE. apply (io_none _ _ _ H1). }
    destruct (io_live _ _ _ H1 x XQ) as (f & F & _).
    destruct (wait_file_ok (length (inflight s2)) x s2 f H2) as (s3 & E3 & H3 & P3 & NB); [rewrite (same_find _ _ x SM); exact F|apply le_n|].
    change (set_queue q v s1) with s2. rewrite E3. exists x, (set_cur (Some x) s3). split; [reflexivity|].
    pose proof (popped_moved _ _ _ _ P3) as M3.
    split.
    - apply cur_io. destruct H3 as [Q3 N3 O3 L3 C3 B3 T3]. constructor; auto.
      + intros q'. destruct (Q3 q') as [A1 A2 A3 A4 A6 A7]. constructor; auto. intros y I. destruct (A4 y I) as [K | (K & K')]; [left; exact K|].
        exfalso. injection K' as <-. apply NB. eapply Permutation_in; [apply Permutation_sym, B3|]. rewrite in_app_iff. destruct q'; tauto.
      + intros y [I | I]; [|discriminate]. destruct (L3 y) as (g & G & K); [left; exact I|]. exists g. split; [exact G|]. intros p E. destruct (K p E) as (K1 & K2). split; [exact K1|].
        intros [J | J]; [|discriminate]. apply K2. left. exact J.
      + intros y I. destruct (C3 y I) as (K1 & K2). split; [exact K1|]. intros [J | J]; [|discriminate]. apply K2. left. exact J.
    - constructor.
      + reflexivity.
      + apply same_set_cur. eapply same_trans; [apply (moved_same _ _ _ _ M1)|]. eapply same_trans; [exact SM|apply (moved_same _ _ _ _ M3)].
      + rewrite <- (moved_contents _ _ _ _ M1 q), CE. apply perm_skip. symmetry. apply (moved_contents _ _ _ _ M3 q).
      + intros q' D. transitivity (contents q' s2); [apply (moved_contents _ _ _ _ M3 q')|]. rewrite (CO q' D). apply (moved_contents _ _ _ _ M1 q').
      + intros q'. transitivity (buffer (queue_of q' s3)); [destruct q'; reflexivity|]. destruct (popped_lists _ _ _ _ P3 q') as (-> & _).
        destruct (qsel_dec q q') as [-> | D]; [rewrite QE, V1, B; reflexivity|]. rewrite (QO q' D). apply (popped_lists _ _ _ _ P1 q').
      + intros O. replace (queue_of q (set_cur (Some x) s3)) with (queue_of q s3) by (destruct q; reflexivity).
        destruct (moved_order _ _ _ _ M3 q O) as (_ & ->). rewrite QE. destruct (moved_order _ _ _ _ M1 q O) as (_ & <-). rewrite O in V4. apply V4.
      + intros q' D O. replace (queue_of q' (set_cur (Some x) s3)) with (queue_of q' s3) by (destruct q'; reflexivity).
        destruct (moved_order _ _ _ _ M3 q' O) as (_ & ->). rewrite (QO q' D). apply (moved_order _ _ _ _ M1 q' O).
      + intros y I. change (to_close (set_cur (Some x) s3)) with (to_close s3) in I. 
        assert (G : forall z g, in_queue z s1 -> find_file z s1 = Some g -> f_parent g = Some y -> exists z f, in_queue z s /\ find_file z s = Some f /\ f_parent f = Some y).
        { intros z g J K E. exists z, g. rewrite <- (moved_in_queue _ _ _ _ z M1), <- (same_find _ _ z (moved_same _ _ _ _ M1)). auto. }
        destruct (moved_close _ _ _ _ M3 y I) as [J | (z & g & J & K & E)].
        * rewrite TC in J. apply (moved_close _ _ _ _ M1 y J).
        * right. apply (G z g); [apply IQ; exact J|rewrite <- (same_find _ _ z SM); exact K|exact E].
  Qed.

  (** ** Flushing *)

  Definition name_of (s : state) (x : nat) : list byte := match find_file x s with Some f => f_name f | None => [] end.
  Definition name_le (s : state) (x y : nat) : bool := collate w (name_of s x) (name_of s y).

  Lemma perm_buffer_io s l : IO s -> Permutation l (buffer (fileq s)) ->
    let v := fileq s in
    let s' := set_fileq {| buffer := l; waiting := waiting v; ready := ready v; size := size v; ioqueued := ioqueued v |} s in
    IO s' /\ arranged w s s'.
  Proof.
    intros H P v s'.
    assert (CE : forall q, Permutation (contents q s') (contents q s)).
    { intros [|]; unfold BftwIo.contents; subst s' v; cbn; [apply Permutation_app_tail, P|reflexivity]. }
    assert (AR : arranged w s s').
    { constructor; [constructor; reflexivity|exact CE|auto]. }
    split; [|exact AR]. constructor.
    - intros q. destruct (io_q _ _ _ H q) as [A1 A2 A3 A4 A6 A7]. constructor; try (destruct q; assumption).
      + rewrite (Permutation_length (CE q)). destruct q; exact A1.
      + intros y I. destruct (A4 y I) as [K | K]; [left; eapply Permutation_in; [apply Permutation_sym, CE|exact K]|right; exact K].
      + intros y I. destruct (A6 y I) as (K1 & K2). destruct q; [|auto]. cbn. split; [|exact K2]. intros K. apply K1. eapply Permutation_in; [exact P|exact K].
      + intros B. specialize (A7 B). destruct q; [|exact A7]. cbn in *. rewrite A7 in P. apply Permutation_nil. symmetry. exact P.
    - eapply Permutation_NoDup; [|apply (io_nodup _ _ _ H)]. apply Permutation_sym, Permutation_app; apply CE.
    - apply (io_once _ _ _ H).
    - intros y I. rewrite (arranged_in_queue _ _ _ y AR) in I. destruct (io_live _ _ _ H y I) as (g & G & K). exists g. split; [exact G|].
      intros p E. destruct (K p E) as (J & L). split; [exact J|]. rewrite (arranged_in_queue _ _ _ p AR). exact L.
    - intros y I. rewrite (arranged_in_queue _ _ _ y AR). apply (io_close _ _ _ H y I).
    - apply (io_busy _ _ _ H).
    - apply (io_none _ _ _ H).
  Qed.

  Lemma flush_all s : IO s -> exists s', flush w s = Some s' /\ IO s' /\ arranged w s s' /\ (forall q, buffer (queue_of q s') = []) /\
    (fl_sort w = true -> exists l, SortModel.list_sort (name_le s) (length (buffer (fileq s))) (buffer (fileq s)) = Some l /\
       ready (fileq s') = (if not_bfs w then l ++ ready (fileq s) else ready (fileq s) ++ l) /\ ready (dirq s') = ready (dirq s)).
  Proof.
    intros H. unfold flush.
    assert (K : exists s1, (if fl_sort w then
              let q := fileq s in
              ' l <- list_sort w (buffer q) s ;;
              Some (set_fileq {| buffer := l; waiting := waiting q; ready := ready q; size := size q; ioqueued := ioqueued q |} s)
            else Some s) = Some s1 /\ IO s1 /\ arranged w s s1 /\ 
       (fl_sort w = true -> SortModel.list_sort (name_le s) (length (buffer (fileq s))) (buffer (fileq s)) = Some (buffer (fileq s1)) /\ ready (fileq s1) = ready (fileq s) /\ ready (dirq s1) = ready (dirq s))).
    { destruct (fl_sort w) eqn:SO; [|exists s; split; [reflexivity|split; [exact H|split; [apply arranged_id|discriminate]]]].
      destruct (C29_permutation _ (name_le s) (length (buffer (fileq s))) (buffer (fileq s))) as (l & E & P); [lia|].
      unfold list_sort. change (fun x y => collate w _ _) with (name_le s). rewrite E.
      destruct (perm_buffer_io s l H) as (H1 & A1); [symmetry; exact P|]. eexists. split; [reflexivity|]. split; [exact H1|]. split; [exact A1|]. auto. }
    destruct K as (s1 & E1 & H1 & A1 & O1).
    match goal with |- context [match ?e with Some _ => _ | None => None end] => replace e with (Some s1) by (symmetry; exact E1) end.
    destruct (flush_ok w FileQ s1 H1) as (H2 & A2 & B2 & Q2 & O2). set (s2 := set_queue FileQ _ s1) in *.
    change (set_fileq (queue_flush (fileq_flags w) (fileq s1)) s1) with s2.
    destruct (stat_files_ok w s2 H2) as (s3 & -> & H3 & M3).
    destruct (flush_ok w DirQ s3 H3) as (H4 & A4 & B4 & Q4 & O4). set (s4 := set_queue DirQ _ s3) in *.
    change (set_dirq (queue_flush (dirq_flags w) (dirq s3)) s3) with s4.
    destruct (opendirs_ok w s4 H4) as (s5 & E5 & H5 & M5). exists s5. split; [exact E5|]. split; [exact H5|]. split.
    { eapply arranged_trans; [exact A1|]. eapply arranged_trans; [exact A2|]. eapply arranged_trans; [apply arranged_moved; exact M3|].
      eapply arranged_trans; [exact A4|]. apply arranged_moved. exact M5. }
    split.
    - intros q. apply (moved_empty _ _ _ _ M5). destruct q; [|exact B4]. rewrite (Q4 FileQ) by discriminate. apply (moved_empty _ _ _ _ M3). exact B2.
    - intros SO. destruct (O1 SO) as (E & R1 & R2). exists (buffer (fileq s1)). split; [exact E|].
      assert (OF : qorder (flags w FileQ) = true) by exact SO.
      assert (OD : qorder (flags w DirQ) = true) by (cbn; unfold dirq_flags; destruct (_ || _); exact SO).
      destruct (moved_order _ _ _ _ M5 FileQ OF) as (_ & F5). destruct (moved_order _ _ _ _ M5 DirQ OD) as (_ & D5).
      destruct (moved_order _ _ _ _ M3 FileQ OF) as (_ & F3). destruct (moved_order _ _ _ _ M3 DirQ OD) as (_ & D3).
      specialize (O2 OF). specialize (O4 OD). pose proof (Q4 FileQ ltac:(discriminate)) as QF. pose proof (Q2 DirQ ltac:(discriminate)) as QD. cbn [queue_of] in *.
      split.
      + rewrite F5, QF, F3, O2, R1. reflexivity.
      + rewrite D5. destruct (order_dirs w OD) as (QB & QL). pose proof (q_buffer _ _ _ _ (io_q _ _ _ H3 DirQ) QB) as BB. cbn [queue_of flags] in BB, QL, O4. rewrite ?QL in O4. rewrite O4, BB, app_nil_r. rewrite D3, QD. exact R2.
  Qed.
End Pop.
