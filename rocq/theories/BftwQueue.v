(** * The walk's queues: moving files into, within and out of them *)
From Coq Require Import List Bool Arith Lia Permutation Init.Byte.
From Coq Require Import ZifyBool ZifyNat.
From Verif Require Import PathModel SortModel WalkSpec BftwModel BftwIo.
Import ListNotations.

Section Queue.
  Context {U : Type}.
  Variable w : env U.
  Notation state := (state U).
  Notation IO := (IO w None).
  Notation moved := (moved w None).
  Notation popped := (popped w None).
  Notation contents := (contents w).
  Notation in_queue := (in_queue w None).

  Lemma in_queue_iff x s : in_queue x s <-> exists q, In x (contents q s).
  Proof. split; [intros [H | H]; [exact H|discriminate]|intros H; left; exact H]. Qed.

  (** The next file to service *)
  Lemma waiting_spec q s x : IO s -> queue_waiting (flags w q) (queue_of q s) = Some x ->
    (qorder (flags w q) = false /\ exists b, buffer (queue_of q s) = x :: b) \/
    (~ In x (buffer (queue_of q s)) /\ exists l, waiting (queue_of q s) = x :: l).
  Proof.
    intros H E. pose proof (contents_nodup w None q s H) as N. pose proof (io_q _ _ _ H q) as Q.
    unfold queue_waiting in E. assert (W : hd_error (waiting (queue_of q s)) = Some x -> ~ In x (buffer (queue_of q s)) /\ exists l, waiting (queue_of q s) = x :: l).
    { intros W. destruct (waiting (queue_of q s)) as [|y l] eqn:EW; [discriminate|]. injection W as ->. split; [|exists l; reflexivity].
      intros I. unfold BftwIo.contents in N. destruct (qorder (flags w q)) eqn:O.
      - rewrite nodup_app in N. apply (proj2 (proj2 N) x I). eapply sub_in; [apply (q_order _ _ _ _ Q O)|]. rewrite EW. left. reflexivity.
      - rewrite nodup_app in N. apply (proj2 (proj2 N) x I). rewrite EW. left. reflexivity. }
    destruct (qbuffer (flags w q)) eqn:B; cbn [negb] in E; [|right; apply W, E].
    destruct (qorder (flags w q)) eqn:O; [right; apply W, E|].
    destruct (qlifo (flags w q)).
    - destruct (buffer (queue_of q s)) as [|y b] eqn:EB; cbn [hd_error] in E; [right; apply W, E|]. injection E as ->. left. split; [reflexivity|exists b; reflexivity].
    - destruct (waiting (queue_of q s)) as [|y l] eqn:EW; cbn [hd_error] in E.
      + destruct (buffer (queue_of q s)) as [|y b]; [discriminate|]. injection E as ->. left. split; [reflexivity|exists b; reflexivity].
      + right. apply W. exact E.
  Qed.

  (** What is left of the lists when the next file is taken from them *)
  Definition taken (q : qsel) (x : nat) (v v' : queue) : Prop :=
    ready v' = ready v /\ size v' = size v /\ ioqueued v' = ioqueued v /\
    ((qorder (flags w q) = false /\ buffer v = x :: buffer v' /\ waiting v' = waiting v) \/
     (buffer v' = buffer v /\ waiting v = x :: waiting v')).

  Lemma detach_spec q s x async : IO s -> queue_waiting (flags w q) (queue_of q s) = Some x ->
    exists v, taken q x (queue_of q s) v /\
      forall i, queue_detach w q x async (set_inflight i s) = Some
        (if async then set_busy (x :: busy s) (set_queue q {| buffer := buffer v; waiting := waiting v; ready := ready v; size := size v; ioqueued := S (ioqueued v) |} (set_inflight i s))
         else set_queue q v (set_inflight i s)).
  Proof.
    intros H E. pose proof (io_q _ _ _ H q) as Q.
    assert (X : In x (buffer (queue_of q s)) \/ In x (waiting (queue_of q s))).
    { destruct (waiting_spec q s x H E) as [(_ & b & EB) | (_ & l & EW)]; [left; rewrite EB|right; rewrite EW]; left; reflexivity. }
    assert (XQ : In x (contents q s)).
    { unfold BftwIo.contents. rewrite in_app_iff. destruct X as [X | X]; [tauto|]. right. destruct (qorder (flags w q)) eqn:O.
      - eapply sub_in; [apply (q_order _ _ _ _ Q O)|exact X].
      - rewrite in_app_iff. tauto. }
    destruct (io_live _ _ _ H x) as (f & F & _); [left; exists q; exact XQ|].
    assert (NB : is_busy x s = false).
    { apply existsb_eqb_false. intros I. assert (J : In x (fly FileQ (inflight s) ++ fly DirQ (inflight s))) by (eapply Permutation_in; [apply (io_busy _ _ _ H)|exact I]).
      apply in_app_iff in J. assert (K : exists q', In x (fly q' (inflight s))) by (destruct J; eauto). destruct K as (q' & K).
      destruct (qsel_dec q q') as [-> | D].
      - destruct (q_away _ _ _ _ Q x K). tauto.
      - destruct (q_fly _ _ _ _ (io_q _ _ _ H q') x K) as [L | (_ & L)]; [|discriminate].
        pose proof (io_nodup _ _ _ H) as N. rewrite nodup_app in N. destruct q, q'; try congruence; apply (proj2 (proj2 N) x); assumption. }
    unfold queue_detach. unfold find_file, is_busy in *.
    destruct (waiting_spec q s x H E) as [(O & b & EB) | (NI & l & EW)].
    - exists {| buffer := b; waiting := waiting (queue_of q s); ready := ready (queue_of q s); size := size (queue_of q s); ioqueued := ioqueued (queue_of q s) |}.
      split; [unfold taken; cbn; rewrite O, EB; auto 10|]. intros i. cbn [set_inflight files busy]. rewrite F, NB.
      replace (queue_of q (set_inflight i s)) with (queue_of q s) by (destruct q; reflexivity). rewrite EB. cbn [hd_error tl]. rewrite Nat.eqb_refl, O.
      destruct async; reflexivity.
    - exists {| buffer := buffer (queue_of q s); waiting := l; ready := ready (queue_of q s); size := size (queue_of q s); ioqueued := ioqueued (queue_of q s) |}.
      split; [unfold taken; cbn; rewrite EW; auto 10|]. intros i. cbn [set_inflight files busy]. rewrite F, NB.
      replace (queue_of q (set_inflight i s)) with (queue_of q s) by (destruct q; reflexivity). rewrite EW. cbn [hd_error tl].
      replace (match hd_error (buffer (queue_of q s)) with Some y => x =? y | None => false end) with false.
      + rewrite Nat.eqb_refl. destruct async; reflexivity.
      + destruct (buffer (queue_of q s)) as [|y b]; [reflexivity|]. cbn [hd_error]. symmetry. apply Nat.eqb_neq. intros ->. apply NI. left. reflexivity.
  Qed.

  Definition todo_size (v : queue) : nat := length (buffer v) + length (waiting v).
  Lemma taken_size q x v v' : taken q x v v' -> todo_size v = S (todo_size v').
  Proof. unfold taken, todo_size. intros (_ & _ & _ & [(_ & -> & ->) | (-> & ->)]); cbn; lia. Qed.

  (** If the contents of the queues stay the same, and so does what else matters, then so does the rest. *)
  Lemma io_moved s s' : IO s -> moved s s' -> (forall q, q_ok w None q s') -> NoDup (fly FileQ (inflight s') ++ fly DirQ (inflight s')) ->
    (forall x, In x (to_close s') -> live x s /\ ~ in_queue x s) ->
    Permutation (busy s') (fly FileQ (inflight s') ++ fly DirQ (inflight s')) ->
    (nthreads w = 0 -> inflight s' = []) -> IO s'.
  Proof.
    intros H M Q O C B N. pose proof (moved_same _ _ _ _ M) as S. constructor; auto.
    - eapply Permutation_NoDup; [|apply (io_nodup _ _ _ H)]. apply Permutation_sym, Permutation_app; apply (moved_contents _ _ _ _ M).
    - intros y I. apply (moved_in_queue _ _ _ _ y M) in I. destruct (io_live _ _ _ H y I) as (g & G & K). exists g.
      rewrite (same_find _ _ _ S). split; [exact G|]. intros p E. destruct (K p E) as ((h & J) & L). unfold live. rewrite (same_find _ _ _ S).
      split; [exists h; exact J|]. rewrite (moved_in_queue _ _ _ _ p M). exact L.
    - intros x I. unfold live. rewrite (same_find _ _ _ S), (moved_in_queue _ _ _ _ x M). apply C, I.
  Qed.

  Lemma detach_async q s x : IO s -> nthreads w <> 0 -> queue_waiting (flags w q) (queue_of q s) = Some x ->
    exists s', queue_detach w q x true (set_inflight (inflight s ++ [request_of q x]) s) = Some s' /\ IO s' /\ moved s s' /\
      todo_size (queue_of q s) = S (todo_size (queue_of q s')).
  Proof.
    intros H NT E. destruct (detach_spec q s x true H E) as (v & T & ->). eexists. split; [reflexivity|]. cbn [negb].
    set (s' := set_busy _ _).
    assert (QE : queue_of q s' = {| buffer := buffer v; waiting := waiting v; ready := ready v; size := size v; ioqueued := S (ioqueued v) |}) by (subst s'; destruct q; reflexivity).
    assert (QO : forall q', q' <> q -> queue_of q' s' = queue_of q' s) by (intros q' D; subst s'; destruct q, q'; reflexivity || congruence).
    assert (FE : fly q (inflight s') = fly q (inflight s) ++ [x]).
    { subst s'. replace (inflight _) with (inflight s ++ [request_of q x]) by (destruct q; reflexivity). rewrite fly_app. destruct q; reflexivity. }
    assert (FO : forall q', q' <> q -> fly q' (inflight s') = fly q' (inflight s)).
    { intros q' D. subst s'. replace (inflight _) with (inflight s ++ [request_of q x]) by (destruct q; reflexivity). rewrite fly_app. destruct q, q'; cbn; congruence || apply app_nil_r. }
    assert (TC : to_close s' = to_close s) by (subst s'; destruct q; reflexivity).
    assert (BU : busy s' = x :: busy s) by (subst s'; destruct q; reflexivity).
    assert (SM : same s s') by (subst s'; destruct q; constructor; reflexivity).
    pose proof (taken_size _ _ _ _ T) as TS. destruct T as (T1 & T2 & T3 & T4).
    assert (XQ : In x (contents q s)).
    { unfold BftwIo.contents. rewrite in_app_iff. destruct T4 as [(_ & -> & _) | (_ & EW)]; [left; left; reflexivity|]. right. destruct (qorder (flags w q)) eqn:O.
      - eapply sub_in; [apply (q_order _ _ _ _ (io_q _ _ _ H q) O)|]. rewrite EW. left. reflexivity.
      - rewrite EW. left. reflexivity. }
    assert (CE : forall q', Permutation (contents q' s') (contents q' s)).
    { intros q'. unfold BftwIo.contents. destruct (qsel_dec q q') as [-> | D].
      - rewrite QE, FE. cbn [buffer waiting ready]. rewrite T1. destruct T4 as [(O & -> & ->) | (-> & EW)].
        + rewrite O. cbn [app]. rewrite !app_assoc. rewrite <- Permutation_cons_append. reflexivity.
        + destruct (qorder (flags w q)); [reflexivity|]. apply Permutation_app_head. rewrite EW. cbn [app].
          rewrite !app_assoc. rewrite <- Permutation_cons_append. reflexivity.
      - rewrite (QO q' D), (FO q' D). reflexivity. }
    assert (EM : forall q', buffer (queue_of q' s) = [] -> buffer (queue_of q' s') = []).
    { intros q' EB. destruct (qsel_dec q q') as [-> | DD]; [|rewrite (QO q' DD); exact EB]. rewrite QE. cbn [buffer].
      destruct T4 as [(_ & EB' & _) | (-> & _)]; [rewrite EB in EB'; discriminate|exact EB]. }
    assert (M : moved s s').
    { constructor; [exact SM|exact CE| |exact EM|rewrite TC; auto]. intros q' O. destruct (qsel_dec q q') as [-> | D]; [|rewrite (QO q' D); auto].
      rewrite QE. cbn. split; [|exact T1]. destruct T4 as [(O' & _) | (-> & _)]; [congruence|reflexivity]. }
    assert (XF : ~ In x (fly q (inflight s)) /\ ~ In x (buffer v) /\ ~ In x (waiting v)).
    { pose proof (contents_nodup w None q s H) as N. unfold BftwIo.contents in N.
      split.
      - intros I. destruct (q_away _ _ _ _ (io_q _ _ _ H q) x I) as (A & B). destruct T4 as [(_ & EB & _) | (_ & EW)]; [rewrite EB in A; apply A|rewrite EW in B; apply B]; left; reflexivity.
      - destruct T4 as [(O & EB & EW) | (EB & EW)].
        + rewrite O, EB in N. cbn [app] in N. apply NoDup_cons_iff in N as (N & _). rewrite !in_app_iff in N. rewrite EW. tauto.
        + destruct (qorder (flags w q)) eqn:O.
          * pose proof (q_order _ _ _ _ (io_q _ _ _ H q) O) as SB. rewrite nodup_app in N. destruct N as (_ & N2 & N3).
            split; [rewrite EB; intros I; apply (N3 x I); eapply sub_in; [exact SB|rewrite EW; left; reflexivity]|].
            apply (sub_nodup _ _ SB) in N2. rewrite EW in N2. inversion N2; assumption.
          * rewrite EW, nodup_app in N. cbn [app] in N. destruct N as (_ & N2 & N3). apply NoDup_cons_iff in N2 as (N2 & _). rewrite in_app_iff in N2.
            split; [rewrite EB; intros I; apply (N3 x I); left; reflexivity|tauto]. }
    split; [|split; [exact M|rewrite QE; exact TS]].
    apply (io_moved s); auto.
    - intros q'. destruct (io_q _ _ _ H q') as [A1 A2 A3 A4 A6 A7]. destruct (qsel_dec q q') as [-> | D].
      + constructor.
        * rewrite QE. cbn [size]. rewrite T2, A1. symmetry. apply Permutation_length, CE.
        * rewrite QE, FE, app_length. cbn [ioqueued length]. rewrite T3, A2. lia.
        * intros O. rewrite QE. cbn [waiting ready]. rewrite T1. specialize (A3 O). destruct T4 as [(O' & _) | (_ & EW)]; [congruence|]. rewrite EW in A3. eapply sub_tl. exact A3.
        * intros y I. left. eapply Permutation_in; [apply Permutation_sym, CE|]. rewrite FE in I. apply in_app_iff in I as [I | [<- | []]]; [|exact XQ].
          destruct (A4 y I) as [K | (_ & K)]; [exact K|discriminate].
        * intros y I. rewrite QE. cbn [buffer waiting]. rewrite FE in I. apply in_app_iff in I as [I | [<- | []]]; [|tauto].
          destruct (A6 y I) as (A & B). destruct T4 as [(_ & EB & EW) | (EB & EW)].
          -- rewrite EB in A. rewrite EW. split; [intros K; apply A; right; exact K|exact B].
          -- rewrite EW in B. rewrite EB. split; [exact A|intros K; apply B; right; exact K].
        * intros O. specialize (A7 O). rewrite QE. cbn [buffer]. destruct T4 as [(_ & EB & _) | (EB & _)]; [rewrite A7 in EB; discriminate|rewrite EB; exact A7].
      + constructor; rewrite ?(QO q' D), ?(FO q' D); auto.
        * rewrite A1. symmetry. apply Permutation_length, CE.
        * intros y I. destruct (A4 y I) as [K | K]; [left; eapply Permutation_in; [apply Permutation_sym, CE|exact K]|right; exact K].
    - assert (P : Permutation (fly FileQ (inflight s') ++ fly DirQ (inflight s')) (x :: fly FileQ (inflight s) ++ fly DirQ (inflight s))).
      { destruct q; [rewrite FE, (FO DirQ) by discriminate; rewrite <- app_assoc; symmetry; apply Permutation_middle|].
        rewrite FE, (FO FileQ) by discriminate. rewrite app_assoc. symmetry. apply Permutation_cons_append. }
      eapply Permutation_NoDup; [apply Permutation_sym, P|]. constructor; [|apply (io_once _ _ _ H)].
      intros I. apply in_app_iff in I. assert (K : exists q', In x (fly q' (inflight s))) by (destruct I; eauto). destruct K as (q' & K).
      destruct (qsel_dec q q') as [-> | D]; [tauto|]. destruct (q_fly _ _ _ _ (io_q _ _ _ H q') x K) as [L | (_ & L)]; [|discriminate].
      pose proof (io_nodup _ _ _ H) as N. rewrite nodup_app in N. destruct q, q'; try congruence; apply (proj2 (proj2 N) x); assumption.
    - rewrite TC. apply (io_close _ _ _ H).
    - rewrite BU. destruct q; [rewrite FE, (FO DirQ) by discriminate; rewrite <- app_assoc; cbn [app]; rewrite <- Permutation_middle; apply perm_skip, (io_busy _ _ _ H)|].
      rewrite FE, (FO FileQ) by discriminate. rewrite app_assoc, <- Permutation_cons_append. apply perm_skip, (io_busy _ _ _ H).
    - intros; contradiction.
  Qed.

  Lemma set_inflight_id (s : state) : set_inflight (inflight s) s = s.
  Proof. destruct s; reflexivity. Qed.

  Lemma waiting_in q s x : IO s -> queue_waiting (flags w q) (queue_of q s) = Some x -> In x (contents q s) /\ ~ In x (busy s).
  Proof.
    intros H E. pose proof (io_q _ _ _ H q) as Q.
    assert (X : In x (buffer (queue_of q s)) \/ In x (waiting (queue_of q s))).
    { destruct (waiting_spec q s x H E) as [(_ & b & EB) | (_ & l & EW)]; [left; rewrite EB|right; rewrite EW]; left; reflexivity. }
    assert (XQ : In x (contents q s)).
    { unfold BftwIo.contents. rewrite in_app_iff. destruct X as [X | X]; [tauto|]. right. destruct (qorder (flags w q)) eqn:O.
      - eapply sub_in; [apply (q_order _ _ _ _ Q O)|exact X].
      - rewrite in_app_iff. tauto. }
    split; [exact XQ|]. intros I. assert (J : In x (fly FileQ (inflight s) ++ fly DirQ (inflight s))) by (eapply Permutation_in; [apply (io_busy _ _ _ H)|exact I]).
    apply in_app_iff in J. assert (K : exists q', In x (fly q' (inflight s))) by (destruct J; eauto). destruct K as (q' & K).
    destruct (qsel_dec q q') as [-> | D].
    - destruct (q_away _ _ _ _ Q x K). tauto.
    - destruct (q_fly _ _ _ _ (io_q _ _ _ H q') x K) as [L | (_ & L)]; [|discriminate].
      pose proof (io_nodup _ _ _ H) as N. rewrite nodup_app in N. destruct q, q'; try congruence; apply (proj2 (proj2 N) x); assumption.
  Qed.

  Lemma skip_ok q s x : IO s -> queue_waiting (flags w q) (queue_of q s) = Some x ->
    exists s', queue_skip w q x s = Some s' /\ IO s' /\ moved s s' /\ todo_size (queue_of q s) = S (todo_size (queue_of q s')).
  Proof.
    intros H E. destruct (detach_spec q s x false H E) as (v & T & D). specialize (D (inflight s)). rewrite set_inflight_id in D.
    destruct (waiting_in q s x H E) as (XC & XB). assert (XQ : in_queue x s) by (left; exists q; exact XC).
    destruct (io_live _ _ _ H x XQ) as (f & F & _).
    assert (XL : existsb (Nat.eqb x) (to_close s) = false) by (apply existsb_eqb_false; intros I; apply (io_close _ _ _ H) in I; tauto).
    pose proof XB as XB'. apply existsb_eqb_false in XB.
    set (r := if qorder (flags w q) then ready v else ready v ++ [x]).
    set (s' := set_queue q {| buffer := buffer v; waiting := waiting v; ready := r; size := size v; ioqueued := ioqueued v |} s).
    assert (EQ : queue_skip w q x s = Some s').
    { unfold queue_skip. rewrite D. unfold queue_attach, is_busy. unfold find_file in *. subst s' r.
      destruct q; cbn [set_queue set_fileq set_dirq files busy to_close queue_of fileq dirq]; rewrite F, XB; destruct (qorder _); cbn; rewrite ?XL; try reflexivity; destruct v; reflexivity. }
    exists s'. split; [exact EQ|].
    assert (QE : queue_of q s' = {| buffer := buffer v; waiting := waiting v; ready := r; size := size v; ioqueued := ioqueued v |}) by (subst s'; destruct q; reflexivity).
    assert (QO : forall q', q' <> q -> queue_of q' s' = queue_of q' s) by (intros q' D'; subst s'; destruct q, q'; reflexivity || congruence).
    assert (IE : inflight s' = inflight s) by (subst s'; destruct q; reflexivity).
    assert (TC : to_close s' = to_close s) by (subst s'; destruct q; reflexivity).
    assert (BU : busy s' = busy s) by (subst s'; destruct q; reflexivity).
    assert (SM : same s s') by (subst s'; destruct q; constructor; reflexivity).
    pose proof (taken_size _ _ _ _ T) as TS. destruct T as (T1 & T2 & T3 & T4).
    assert (CE : forall q', Permutation (contents q' s') (contents q' s)).
    { intros q'. unfold BftwIo.contents. destruct (qsel_dec q q') as [-> | D'].
      - rewrite QE, IE. cbn [buffer waiting ready]. subst r. rewrite T1. destruct T4 as [(O & -> & ->) | (-> & EW)].
        + rewrite O. cbn [app]. rewrite <- app_assoc. cbn [app]. rewrite !app_assoc. rewrite <- Permutation_middle. reflexivity.
        + destruct (qorder (flags w q)); [reflexivity|]. apply Permutation_app_head. rewrite EW. cbn [app].
          rewrite <- app_assoc. cbn [app]. rewrite !app_assoc. rewrite <- Permutation_middle. reflexivity.
      - rewrite (QO q' D'), IE. reflexivity. }
    assert (EM : forall q', buffer (queue_of q' s) = [] -> buffer (queue_of q' s') = []).
    { intros q' EB. destruct (qsel_dec q q') as [-> | DD]; [|rewrite (QO q' DD); exact EB]. rewrite QE. cbn [buffer].
      destruct T4 as [(_ & EB' & _) | (-> & _)]; [rewrite EB in EB'; discriminate|exact EB]. }
    assert (M : moved s s').
    { constructor; [exact SM|exact CE| |exact EM|rewrite TC; auto]. intros q' O. destruct (qsel_dec q q') as [-> | D']; [|rewrite (QO q' D'); auto].
      rewrite QE. cbn. subst r. rewrite O. split; [|exact T1]. destruct T4 as [(O' & _) | (-> & _)]; [congruence|reflexivity]. }
    split; [|split; [exact M|rewrite QE; exact TS]].
    apply (io_moved s); auto.
    - intros q'. destruct (io_q _ _ _ H q') as [A1 A2 A3 A4 A6 A7]. destruct (qsel_dec q q') as [-> | D'].
      + constructor.
        * rewrite QE. cbn [size]. rewrite T2, A1. symmetry. apply Permutation_length, CE.
        * rewrite QE, IE. cbn [ioqueued length]. rewrite T3, A2. reflexivity.
        * intros O. rewrite QE. cbn [waiting ready]. subst r. rewrite O, T1. specialize (A3 O). destruct T4 as [(O' & _) | (_ & EW)]; [congruence|]. rewrite EW in A3. eapply sub_tl. exact A3.
        * intros y I. left. eapply Permutation_in; [apply Permutation_sym, CE|]. rewrite IE in I.
          destruct (A4 y I) as [K | (_ & K)]; [exact K|discriminate].
        * intros y I. rewrite QE. cbn [buffer waiting]. rewrite IE in I.
          destruct (A6 y I) as (A & B). destruct T4 as [(_ & EB & EW) | (EB & EW)].
          -- rewrite EB in A. rewrite EW. split; [intros K; apply A; right; exact K|exact B].
          -- rewrite EW in B. rewrite EB. split; [exact A|intros K; apply B; right; exact K].
        * intros O. specialize (A7 O). rewrite QE. cbn [buffer]. destruct T4 as [(_ & EB & _) | (EB & _)]; [rewrite A7 in EB; discriminate|rewrite EB; exact A7].
      + constructor; rewrite ?(QO q' D'), ?IE; auto.
        * rewrite A1. symmetry. apply Permutation_length, CE.
        * intros y I. destruct (A4 y I) as [K | K]; [left; eapply Permutation_in; [apply Permutation_sym, CE|exact K]|right; exact K].
    - rewrite IE. apply (io_once _ _ _ H).
    - rewrite TC. apply (io_close _ _ _ H).
    - rewrite BU, IE. apply (io_busy _ _ _ H).
    - rewrite IE. apply (io_none _ _ _ H).
  Qed.

  (** ** Requests *)

  Lemma popped_waiting q s s' : popped s s' -> queue_waiting (flags w q) (queue_of q s') = queue_waiting (flags w q) (queue_of q s).
  Proof. intros P. unfold queue_waiting. destruct (popped_lists _ _ _ _ P q) as (-> & ->). reflexivity. Qed.
  Lemma popped_todo q s s' : popped s s' -> todo_size (queue_of q s') = todo_size (queue_of q s).
  Proof. intros P. unfold todo_size. destruct (popped_lists _ _ _ _ P q) as (-> & ->). reflexivity. Qed.

  Lemma request_ok q s x : IO s -> queue_waiting (flags w q) (queue_of q s) = Some x ->
    exists s', IO s' /\ popped s s' /\
      (ioq_request w q x s = Some (false, s') \/
       ioq_request w q x s = Some (true, set_inflight (inflight s' ++ [request_of q x]) s') /\ nthreads w <> 0).
  Proof.
    intros H E. unfold ioq_request. destruct (reserve_ok w None s H) as (ok & s1 & -> & H1 & P1 & NT).
    destruct ok; cbn [negb]; [|exists s1; auto]. specialize (NT eq_refl).
    assert (E1 : queue_waiting (flags w q) (queue_of q s1) = Some x) by (rewrite (popped_waiting q _ _ P1); exact E).
    assert (K : forall s2, IO s2 -> queue_waiting (flags w q) (queue_of q s2) = Some x -> exists f, find_file x s2 = Some f /\ forall p, f_parent f = Some p -> exists g, find_file p s2 = Some g).
    { intros s2 H2 E2. destruct (waiting_in q s2 x H2 E2) as (XC & _). destruct (io_live _ _ _ H2 x) as (f & F & P); [left; exists q; exact XC|].
      exists f. split; [exact F|]. intros p EP. apply P, EP. }
    destruct (K s1 H1 E1) as (f & F & P). rewrite F.
    assert (PL : (match f_parent f with None => Some tt | Some p => ' _ <- find_file p s1 ;; Some tt end) = Some tt).
    { destruct (f_parent f) as [p|]; [|reflexivity]. destruct (P p eq_refl) as (g & ->). reflexivity. }
    rewrite PL. cbn [ask]. set (s2 := set_clock (S (clock s1)) s1).
    assert (H2 : IO s2) by (apply clock_io, H1). assert (P2 : popped s s2) by (eapply popped_trans; [exact P1|apply clock_popped]).
    destruct (choose w (clock s1) =? 0); [exists s2; auto|].
    assert (K3 : exists s3, (match q with DirQ => pump w s2 | FileQ => Some s2 end) = Some s3 /\ IO s3 /\ popped s s3).
    { destruct q; [exists s2; auto|]. destruct (pump_ok w None s2 H2) as (s3 & E3 & H3 & P3). exists s3. split; [exact E3|]. split; [exact H3|eapply popped_trans; eassumption]. }
    destruct K3 as (s3 & -> & H3 & P3). cbn [ask]. set (s4 := set_clock (S (clock s3)) s3).
    assert (H4 : IO s4) by (apply clock_io, H3). assert (P4 : popped s s4) by (eapply popped_trans; [exact P3|apply clock_popped]).
    destruct (choose w (clock s3) =? 0).
    - assert (E4 : queue_waiting (flags w q) (queue_of q s4) = Some x) by (rewrite (popped_waiting q _ _ P4); exact E).
      destruct (K s4 H4 E4) as (f4 & F4 & PP). unfold unpin_parent. rewrite F4. destruct (f_parent f4) as [p|].
      + destruct (PP p eq_refl) as (g & ->). cbn [ask andb]. eexists. split; [|split; [|left; reflexivity]]; [apply clock_io, H4|]. eapply popped_trans; [exact P4|apply clock_popped].
      + exists s4. auto.
    - exists s4. split; [exact H4|]. split; [exact P4|]. right. split; [destruct q; reflexivity|exact NT].
  Qed.

  Lemma balanced_ok q s : IO s -> exists ok s', balanced w q s = (ok, s') /\ IO s' /\ popped s s'.
  Proof.
    intros H. unfold balanced. destruct (qbalance _); [|exists true, s; split; [reflexivity|split; [exact H|apply popped_id]]].
    cbn [ask]. eexists _, _. split; [reflexivity|]. split; [apply clock_io, H|apply clock_popped].
  Qed.

  Lemma opendirs_loop_ok fuel s : IO s -> todo_size (dirq s) <= fuel -> exists s', opendirs_loop w fuel s = Some s' /\ IO s' /\ moved s s'.
  Proof.
    revert s. induction fuel as [|fuel IH]; intros s H L.
    - cbn [opendirs_loop]. destruct (balanced_ok DirQ s H) as (ok & s1 & -> & H1 & P1).
      destruct ok; cbn [negb]; [|exists s1; split; [reflexivity|split; [exact H1|apply (popped_moved _ _ _ _ P1)]]].
      assert (W : queue_waiting (dirq_flags w) (dirq s1) = None).
      { pose proof (popped_todo DirQ _ _ P1) as T. cbn [queue_of] in T. rewrite <- T in L. clear T. unfold queue_waiting. unfold todo_size in L.
        destruct (buffer (dirq s1)), (waiting (dirq s1)); cbn [length] in L; try lia. cbn [hd_error]; repeat match goal with |- context[if ?b then _ else _] => destruct b end; reflexivity. }
      rewrite W. exists s1. split; [reflexivity|split; [exact H1|apply (popped_moved _ _ _ _ P1)]].
    - cbn [opendirs_loop]. destruct (balanced_ok DirQ s H) as (ok & s1 & -> & H1 & P1).
      destruct ok; cbn [negb]; [|exists s1; split; [reflexivity|split; [exact H1|apply (popped_moved _ _ _ _ P1)]]].
      destruct (queue_waiting (dirq_flags w) (dirq s1)) as [x|] eqn:W; [|exists s1; split; [reflexivity|split; [exact H1|apply (popped_moved _ _ _ _ P1)]]].
      destruct (request_ok DirQ s1 x H1 W) as (s2 & H2 & P2 & [-> | (-> & NT)]).
      + exists s2. split; [reflexivity|split; [exact H2|]]. eapply moved_trans; eapply popped_moved; eassumption.
      + assert (W2 : queue_waiting (flags w DirQ) (queue_of DirQ s2) = Some x) by (rewrite (popped_waiting DirQ _ _ P2); exact W).
        destruct (detach_async DirQ s2 x H2 NT W2) as (s3 & -> & H3 & M3 & T3).
        destruct (IH s3 H3) as (s4 & E4 & H4 & M4).
        { pose proof (popped_todo DirQ _ _ P1) as A. pose proof (popped_todo DirQ _ _ P2) as B. cbn [queue_of] in *. lia. }
        exists s4. split; [exact E4|]. split; [exact H4|]. eapply moved_trans; [eapply popped_moved; exact P1|].
        eapply moved_trans; [eapply popped_moved; exact P2|]. eapply moved_trans; [exact M3|exact M4].
  Qed.
  Lemma opendirs_ok s : IO s -> exists s', ioq_opendirs w s = Some s' /\ IO s' /\ moved s s'.
  Proof. intros H. apply opendirs_loop_ok; [exact H|apply Nat.le_refl]. Qed.

  Lemma stat_loop_ok fuel s : IO s -> todo_size (fileq s) <= fuel -> exists s', stat_loop w fuel s = Some s' /\ IO s' /\ moved s s'.
  Proof.
    revert s. induction fuel as [|fuel IH]; intros s H L.
    - cbn [stat_loop].
      assert (W : queue_waiting (fileq_flags w) (fileq s) = None).
      { unfold queue_waiting. unfold todo_size in L.
        destruct (buffer (fileq s)), (waiting (fileq s)); cbn [length] in L; try lia. cbn [hd_error]; repeat match goal with |- context[if ?b then _ else _] => destruct b end; reflexivity. }
      rewrite W. exists s. split; [reflexivity|split; [exact H|apply moved_id]].
    - cbn [stat_loop]. destruct (queue_waiting (fileq_flags w) (fileq s)) as [x|] eqn:W; [|exists s; split; [reflexivity|split; [exact H|apply moved_id]]].
      destruct (waiting_in FileQ s x H W) as (XC & _). destruct (io_live _ _ _ H x) as (f & F & _); [left; exists FileQ; exact XC|]. rewrite F.
      destruct (should_ioq_stat w f); cbn [negb].
      + destruct (balanced_ok FileQ s H) as (ok & s1 & -> & H1 & P1).
        destruct ok; cbn [negb]; [|exists s1; split; [reflexivity|split; [exact H1|apply (popped_moved _ _ _ _ P1)]]].
        assert (W1 : queue_waiting (flags w FileQ) (queue_of FileQ s1) = Some x) by (rewrite (popped_waiting FileQ _ _ P1); exact W).
        destruct (request_ok FileQ s1 x H1 W1) as (s2 & H2 & P2 & [-> | (-> & NT)]).
        * exists s2. split; [reflexivity|split; [exact H2|]]. eapply moved_trans; eapply popped_moved; eassumption.
        * assert (W2 : queue_waiting (flags w FileQ) (queue_of FileQ s2) = Some x) by (rewrite (popped_waiting FileQ _ _ P2); exact W1).
          destruct (detach_async FileQ s2 x H2 NT W2) as (s3 & -> & H3 & M3 & T3).
          destruct (IH s3 H3) as (s4 & E4 & H4 & M4).
          { pose proof (popped_todo FileQ _ _ P1) as A. pose proof (popped_todo FileQ _ _ P2) as B. cbn [queue_of] in *. lia. }
          exists s4. split; [exact E4|]. split; [exact H4|]. eapply moved_trans; [eapply popped_moved; exact P1|].
          eapply moved_trans; [eapply popped_moved; exact P2|]. eapply moved_trans; [exact M3|exact M4].
      + destruct (skip_ok FileQ s x H W) as (s1 & -> & H1 & M1 & T1). destruct (IH s1 H1) as (s2 & E2 & H2 & M2); [cbn [queue_of] in T1; lia|].
        exists s2. split; [exact E2|]. split; [exact H2|]. eapply moved_trans; eassumption.
  Qed.
  Lemma stat_files_ok s : IO s -> exists s', stat_files w s = Some s' /\ IO s' /\ moved s s'.
  Proof. intros H. apply stat_loop_ok; [exact H|apply Nat.le_refl]. Qed.

  (** ** Adding files *)

  (** Files are only moved between the lists of a queue. *)
  Record arranged (s s' : state) : Prop := {
    arranged_same : same s s';
    arranged_contents : forall q, Permutation (contents q s') (contents q s);
    arranged_close : forall x, In x (to_close s') -> In x (to_close s) \/
      exists y f, in_queue y s /\ find_file y s = Some f /\ f_parent f = Some x }.
  Lemma arranged_moved s s' : moved s s' -> arranged s s'.
  Proof. intros []. constructor; assumption. Qed.
  Lemma arranged_in_queue a b x : arranged a b -> in_queue x b <-> in_queue x a.
  Proof.
    intros H. split; (intros [(q & I) | I]; [left; exists q|right; exact I]).
    - eapply Permutation_in; [apply (arranged_contents _ _ H)|exact I].
    - eapply Permutation_in; [apply Permutation_sym, (arranged_contents _ _ H)|exact I].
  Qed.
  Lemma arranged_trans a b c : arranged a b -> arranged b c -> arranged a c.
  Proof.
    intros H J. constructor.
    - eapply same_trans; [apply (arranged_same _ _ H)|apply (arranged_same _ _ J)].
    - intros q. eapply Permutation_trans; [apply (arranged_contents _ _ J)|apply (arranged_contents _ _ H)].
    - intros x I. destruct (arranged_close _ _ J x I) as [K | (y & f & K & L & M)].
      + apply (arranged_close _ _ H x K).
      + right. exists y, f. split; [rewrite <- (arranged_in_queue _ _ y H); exact K|].
        split; [rewrite <- (same_find _ _ y (arranged_same _ _ H)); exact L|exact M].
  Qed.
  Lemma arranged_id s : arranged s s.
  Proof. constructor; [apply same_id|reflexivity|auto]. Qed.

  Lemma lifo_buffers q : qlifo (flags w q) = true -> qbuffer (flags w q) = true.
  Proof.
    destruct q; cbn [flags]; unfold dirq_flags, fileq_flags; cbn.
    - unfold not_bfs, buffering. destruct (strat w); cbn; congruence.
    - destruct (negb (not_bfs w) || buffering w) eqn:E; cbn; [congruence|]. destruct (not_bfs w); cbn; congruence.
  Qed.
  Lemma order_buffers : qorder (flags w FileQ) = true -> qbuffer (flags w FileQ) = true.
  Proof. cbn. unfold buffering, must_buffer. intros ->. cbn. rewrite !orb_true_r. reflexivity. Qed.
  Lemma order_dirs : qorder (flags w DirQ) = true -> qbuffer (flags w DirQ) = false /\ qlifo (flags w DirQ) = false.
  Proof. cbn. unfold dirq_flags, buffering, must_buffer. destruct (fl_sort w) eqn:E; cbn; rewrite ?orb_true_r; cbn; [auto|]. destruct (_ || _); cbn; rewrite E; discriminate. Qed.

  Lemma push_ok q x s f : IO s -> find_file x s = Some f -> ~ in_queue x s -> ~ In x (to_close s) ->
    (forall p, f_parent f = Some p -> p <> x /\ live p s /\ ~ in_queue p s) ->
    (forall y g, in_queue y s -> find_file y s = Some g -> f_parent g <> Some x) ->
    let s' := set_queue q (queue_push (flags w q) x (queue_of q s)) s in
    IO s' /\ same s s' /\ Permutation (contents q s') (x :: contents q s) /\ to_close s' = to_close s /\
    (forall q', q' <> q -> contents q' s' = contents q' s /\ queue_of q' s' = queue_of q' s) /\
    (qorder (flags w q) = true -> match q with
      | FileQ => buffer (queue_of q s') = buffer (queue_of q s) ++ [x] /\ ready (queue_of q s') = ready (queue_of q s)
      | DirQ => buffer (queue_of q s') = buffer (queue_of q s) /\ ready (queue_of q s') = ready (queue_of q s) ++ [x]
      end).
  Proof.
    intros H F NQ NC P C s'.
    assert (QE : queue_of q s' = queue_push (flags w q) x (queue_of q s)) by (subst s'; destruct q; reflexivity).
    assert (QO : forall q', q' <> q -> queue_of q' s' = queue_of q' s) by (intros q' D'; subst s'; destruct q, q'; reflexivity || congruence).
    assert (IE : inflight s' = inflight s) by (subst s'; destruct q; reflexivity).
    assert (TC : to_close s' = to_close s) by (subst s'; destruct q; reflexivity).
    assert (BU : busy s' = busy s) by (subst s'; destruct q; reflexivity).
    assert (SM : same s s') by (subst s'; destruct q; constructor; reflexivity).
    clearbody s'.
    assert (CE : Permutation (contents q s') (x :: contents q s)).
    { unfold BftwIo.contents. rewrite QE, IE. pose proof (lifo_buffers q) as LB. unfold queue_push.
      destruct (qbuffer (flags w q)); cbn [buffer waiting ready].
      - rewrite <- app_assoc. cbn [app]. symmetry. apply Permutation_middle.
      - destruct (qlifo (flags w q)); [specialize (LB eq_refl); discriminate|]. cbn [buffer waiting ready]. destruct (qorder (flags w q)).
        + rewrite app_assoc. symmetry. apply Permutation_cons_append.
        + rewrite <- app_assoc. cbn [app]. rewrite !(app_assoc (buffer _)). symmetry. apply Permutation_middle. }
    assert (CO : forall q', q' <> q -> contents q' s' = contents q' s) by (intros q' D; unfold BftwIo.contents; rewrite (QO q' D), IE; reflexivity).
    assert (IQ : forall y, in_queue y s' <-> y = x \/ in_queue y s).
    { intros y. rewrite !in_queue_iff. split.
      - intros (q' & I). destruct (qsel_dec q q') as [-> | D].
        + eapply Permutation_in in I; [|exact CE]. destruct I as [-> | I]; [auto|right; exists q; exact I].
        + rewrite (CO q' D) in I. right. exists q'. exact I.
      - intros [-> | (q' & I)].
        + exists q. eapply Permutation_in; [apply Permutation_sym, CE|]. left. reflexivity.
        + exists q'. destruct (qsel_dec q q') as [-> | D]; [eapply Permutation_in; [apply Permutation_sym, CE|]; right; exact I|rewrite (CO q' D); exact I]. }
    assert (LV : forall y, live y s' <-> live y s) by (intros y; unfold live; rewrite (same_find _ _ y SM); tauto).
    assert (NX : forall q', ~ In x (contents q' s)) by (intros q' I; apply NQ; left; exists q'; exact I).
    split; [|split; [exact SM|split; [exact CE|split; [exact TC|split; [intros q' D; split; [apply CO, D|apply QO, D]|]]]]].
    - constructor.
      + intros q'. destruct (qsel_dec q q') as [-> | D].
        * destruct (io_q _ _ _ H q) as [A1 A2 A3 A4 A6 A7]. constructor.
          -- rewrite (Permutation_length CE). cbn [length]. rewrite <- A1, QE. unfold queue_push. destruct (qbuffer (flags w q)), (qlifo (flags w q)); reflexivity.
          -- rewrite IE, <- A2, QE. unfold queue_push. destruct (qbuffer (flags w q)), (qlifo (flags w q)); reflexivity.
          -- intros O. rewrite QE. specialize (A3 O). unfold queue_push. rewrite O. destruct (qbuffer _); [exact A3|]. destruct (qlifo _); cbn [waiting ready]; [apply sub_keep, A3|].
             apply sub_app; [exact A3|apply sub_refl].
          -- intros y I. rewrite IE in I. destruct (A4 y I) as [K | K]; [left|right; exact K]. eapply Permutation_in; [apply Permutation_sym, CE|]. right. exact K.
          -- intros y I. rewrite IE in I. destruct (A4 y I) as [K | (_ & K)]; [|discriminate].
             assert (y <> x) by (intros ->; exact (NX q K)). destruct (A6 y I) as (B1 & B2).
             rewrite QE. unfold queue_push. destruct (qbuffer _); [|destruct (qlifo _)]; cbn [buffer waiting]; rewrite ?in_app_iff; cbn [In]; intuition congruence.
          -- intros B. rewrite QE. unfold queue_push. rewrite B. specialize (A7 B). destruct (qlifo _); exact A7.
        * destruct (io_q _ _ _ H q') as [A1 A2 A3 A4 A6 A7]. constructor; rewrite ?(QO q' D), ?IE, ?(CO q' D); auto.
      + assert (PP : Permutation (contents FileQ s' ++ contents DirQ s') (x :: contents FileQ s ++ contents DirQ s)).
        { destruct q; [rewrite (CO DirQ) by discriminate; rewrite CE; reflexivity|rewrite (CO FileQ) by discriminate; rewrite CE; symmetry; apply Permutation_middle]. }
        eapply Permutation_NoDup; [apply Permutation_sym, PP|]. constructor; [|apply (io_nodup _ _ _ H)]. rewrite in_app_iff. intros [I | I]; eapply NX; exact I.
      + rewrite IE. apply (io_once _ _ _ H).
      + intros y I. apply IQ in I. rewrite (same_find _ _ y SM). destruct I as [-> | I].
        * exists f. split; [exact F|]. intros p E. destruct (P p E) as (P1 & P2 & P3). rewrite LV, IQ. tauto.
        * destruct (io_live _ _ _ H y I) as (g & G & K). exists g. split; [exact G|]. intros p E. destruct (K p E) as (K1 & K2). rewrite LV, IQ. split; [exact K1|].
          intros [-> | K3]; [|tauto]. exact (C y g I G E).
      + intros y I. rewrite TC in I. rewrite LV, IQ. destruct (io_close _ _ _ H y I). split; [assumption|]. intros [-> | K]; tauto.
      + rewrite BU, IE. apply (io_busy _ _ _ H).
      + rewrite IE. apply (io_none _ _ _ H).
    - intros O. rewrite QE. unfold queue_push. destruct q.
      + rewrite (order_buffers O). auto.
      + destruct (order_dirs O) as (-> & ->). rewrite O. auto.
  Qed.

  Lemma flush_ok q s : IO s -> let s' := set_queue q (queue_flush (flags w q) (queue_of q s)) s in
    IO s' /\ arranged s s' /\ buffer (queue_of q s') = [] /\ (forall q', q' <> q -> queue_of q' s' = queue_of q' s) /\
    (qorder (flags w q) = true -> ready (queue_of q s') =
       if qlifo (flags w q) then buffer (queue_of q s) ++ ready (queue_of q s) else ready (queue_of q s) ++ buffer (queue_of q s)).
  Proof.
    intros H s'.
    assert (QE : queue_of q s' = queue_flush (flags w q) (queue_of q s)) by (subst s'; destruct q; reflexivity).
    assert (QO : forall q', q' <> q -> queue_of q' s' = queue_of q' s) by (intros q' D'; subst s'; destruct q, q'; reflexivity || congruence).
    assert (IE : inflight s' = inflight s) by (subst s'; destruct q; reflexivity).
    assert (TC : to_close s' = to_close s) by (subst s'; destruct q; reflexivity).
    assert (BU : busy s' = busy s) by (subst s'; destruct q; reflexivity).
    assert (SM : same s s') by (subst s'; destruct q; constructor; reflexivity).
    clearbody s'. pose proof (io_q _ _ _ H q) as Q.
    assert (BE : buffer (queue_of q s') = []).
    { rewrite QE. unfold queue_flush. destruct (qbuffer (flags w q)) eqn:B; [reflexivity|]. cbn [negb]. apply (q_buffer _ _ _ _ Q B). }
    assert (CE : forall q', Permutation (contents q' s') (contents q' s)).
    { intros q'. unfold BftwIo.contents. destruct (qsel_dec q q') as [-> | D]; [|rewrite (QO q' D), IE; reflexivity].
      rewrite QE, IE. unfold queue_flush. destruct (qbuffer (flags w q)); cbn [negb]; [|reflexivity]. cbn [buffer waiting ready app].
      destruct (qorder (flags w q)); destruct (qlifo (flags w q)); cbn [app]; rewrite <- ?app_assoc; try reflexivity.
      - apply Permutation_app_comm.
      - rewrite !app_assoc. apply Permutation_app_tail, Permutation_app_tail, Permutation_app_comm. }
    assert (AR : arranged s s').
    { constructor; [exact SM|exact CE|rewrite TC; auto]. }
    split; [|split; [exact AR|split; [exact BE|split; [exact QO|]]]].
    - constructor.
      + intros q'. destruct (qsel_dec q q') as [-> | D].
        * destruct Q as [A1 A2 A3 A4 A6 A7]. constructor.
          -- rewrite (Permutation_length (CE q)), <- A1, QE. unfold queue_flush. destruct (qbuffer _); reflexivity.
          -- rewrite IE, <- A2, QE. unfold queue_flush. destruct (qbuffer _); reflexivity.
          -- intros O. rewrite QE. specialize (A3 O). unfold queue_flush. rewrite O. destruct (qbuffer _); [|exact A3]. cbn [negb waiting ready].
             destruct (qlifo _); cbn [app]; (apply sub_app; [|]); try exact A3; apply sub_refl.
          -- intros y I. rewrite IE in I. destruct (A4 y I) as [K | K]; [left|right; exact K]. eapply Permutation_in; [apply Permutation_sym, CE|exact K].
          -- intros y I. rewrite IE in I. destruct (A6 y I) as (B1 & B2). rewrite BE. split; [intros []|].
             rewrite QE. unfold queue_flush. destruct (qbuffer _); cbn [negb waiting]; [|exact B2]. destruct (qlifo _); cbn [app]; rewrite in_app_iff; tauto.
          -- intros _. exact BE.
        * destruct (io_q _ _ _ H q') as [A1 A2 A3 A4 A6 A7]. constructor; rewrite ?(QO q' D), ?IE; auto.
          -- rewrite A1. symmetry. apply Permutation_length, CE.
          -- intros y I. destruct (A4 y I) as [K | K]; [left; eapply Permutation_in; [apply Permutation_sym, CE|exact K]|right; exact K].
      + eapply Permutation_NoDup; [|apply (io_nodup _ _ _ H)]. apply Permutation_sym, Permutation_app; apply CE.
      + rewrite IE. apply (io_once _ _ _ H).
      + intros y I. apply (arranged_in_queue _ _ y AR) in I. destruct (io_live _ _ _ H y I) as (g & G & K). exists g.
        rewrite (same_find _ _ _ SM). split; [exact G|]. intros p E. destruct (K p E) as ((h & J) & L). unfold live. rewrite (same_find _ _ _ SM).
        split; [exists h; exact J|]. rewrite (arranged_in_queue _ _ p AR). exact L.
      + intros x I. rewrite TC in I. unfold live. rewrite (same_find _ _ _ SM), (arranged_in_queue _ _ x AR). apply (io_close _ _ _ H x I).
      + rewrite BU, IE. apply (io_busy _ _ _ H).
      + rewrite IE. apply (io_none _ _ _ H).
    - intros O. rewrite QE. unfold queue_flush. destruct (qbuffer (flags w q)) eqn:B; cbn [negb ready].
      + rewrite O. destruct (qlifo _); reflexivity.
      + rewrite (q_buffer _ _ _ _ Q B), app_nil_r. destruct (qlifo _); reflexivity.
  Qed.
End Queue.
