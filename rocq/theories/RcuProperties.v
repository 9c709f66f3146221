(** * C62: hooks for signals can be added and removed while signals arrive.

    [Sem], [Spin] and [NoSem] say whether semaphores work, do not work, or are not there when bfs is compiled.
    The steps of the handlers and of the thread that adds or removes a hook are interleaved in any way. *)
From Coq Require Import List Arith Bool Lia Sorted.
From Verif Require Import RcuModel RcuSpec RcuProofs RcuRuns RcuFull RcuDemo.
Import ListNotations.

(** No handler uses a hook that was freed, and no assertion fails. *)
Theorem C62_safe : forall cfg threads st e, cfg <> Spin -> reachable cfg threads st -> allowed st e -> step cfg e st <> Bad.
Proof. exact safe. Qed.
Print Assumptions C62_safe.

(** That is not so if semaphores are compiled in, but sem_init() fails: the handler that gives up the last reference looks at the hook after that. *)
Theorem C62_spin_refuted : exists threads st e, reachable Spin threads st /\ allowed st e /\ step Spin e st = Bad.
Proof. exact spin. Qed.
Print Assumptions C62_spin_refuted.

(** sigunhook() does not return while a handler is running the hook, ... *)
Theorem C62_not_while_running : forall cfg threads st n, cfg <> Spin -> reachable cfg threads st -> running st n -> ~ gone st n.
Proof. exact not_gone. Qed.
Print Assumptions C62_not_while_running.

(** ... and the hook does not run any more after that. *)
Theorem C62_not_after : forall cfg ok st es st' n, runs_to cfg ok st es st' -> gone st n -> gone st' n /\ exists l, runs st' = l ++ runs st /\ ~ In n l.
Proof. exact gone_stays. Qed.
Print Assumptions C62_not_after.

(** A one-shot hook runs at most once, however many handlers run at a time. *)
Theorem C62_one_shot : forall cfg threads st n, reachable cfg threads st -> oneshot st n = true -> count_occ Nat.eq_dec (runs st) n <= 1.
Proof. exact one_shot. Qed.
Print Assumptions C62_one_shot.

(** A handler runs hooks in the order in which they were added, and none of them twice. *)
Theorem C62_order : forall cfg threads st i l, cfg <> Spin -> reachable cfg threads st -> returned st i l -> StronglySorted lt l.
Proof. exact in_order. Qed.
Print Assumptions C62_order.

(** A handler does not wait for any other thread, such as the one that it has interrupted. *)
Theorem C62_no_wait : forall cfg threads st i, cfg <> Spin -> reachable cfg threads st -> in_progress st i ->
  exists k st' l, runs_to cfg allowed st (repeat (Read i) k) st' /\ returned st' i l.
Proof. exact finishes. Qed.
Print Assumptions C62_no_wait.

(** sighook() and sigunhook() return once no handler is running. *)
Theorem C62_returns : forall cfg threads st, cfg <> Spin -> reachable cfg threads st -> all_idle st ->
  exists k st', runs_to cfg allowed st (repeat Write k) st' /\ w st' = WIdle.
Proof. exact returns. Qed.
Print Assumptions C62_returns.

(** A hook that was there when the signal arrived, and is not removed until the handler returns, is run by it (or was run already, if it is one-shot).
    Missing: histories in which the newest of several hooks was removed. *)
Theorem C62_delivery_partial : forall cfg threads es0 st i st1 es st2 n l, cfg <> Spin ->
  runs_to cfg orderly (init threads) es0 st -> registered st n -> step cfg (Begin i) st = Next st1 ->
  runs_to cfg orderly st1 es st2 -> ~ In (Begin i) es -> ~ In (Remove n) es -> returned st2 i l ->
  In n l \/ (oneshot st2 n = true /\ In n (runs st2)).
Proof. exact delivery. Qed.
Print Assumptions C62_delivery_partial.

(** In those, hooks get lost. *)
Theorem C62_delivery_refuted : exists threads es0 st st1 es st2 n l,
  runs_to Sem allowed (init threads) es0 st /\ registered st n /\ oneshot st n = false /\ step Sem (Begin 0) st = Next st1 /\
  runs_to Sem allowed st1 es st2 /\ ~ In (Begin 0) es /\ ~ In (Remove n) es /\ returned st2 0 l /\ ~ In n l.
Proof. exact lost. Qed.
Print Assumptions C62_delivery_refuted.

Module Examples.
  (** One handler waits in hook 1 while that is being removed; another one starts in the middle. *)
  Example mid : exists st, reachable Sem 2 st /\ in_progress st 0 /\ in_progress st 1 /\ w st <> WIdle /\ running st 2 /\ allowed st (Read 0).
  Proof.
    destruct (play_some Sem true allowed (busy_before ++ Begin 0 :: handle 0 5 ++ (Remove 1 :: repeat Write 4) ++ handle 0 5 ++ repeat Write 4 ++ Begin 1 :: handle 1 4) (init 2)
      (fun st => match map pc (rs st), w st with [At _ _; Run 2 _], WWait _ _ _ => true | _, _ => false end) (okb_allowed true)) as (st & R & _ & Q); [vm_compute; reflexivity|].
    destruct (rs st) as [|a [|b [|]]] eqn:E; try discriminate; cbn [map] in Q; destruct (pc a) eqn:A; try discriminate; destruct (pc b) eqn:B; try discriminate.
    all: destruct n0 as [|[|[|]]]; try discriminate. destruct (w st) eqn:W; try discriminate. exists st. split; [eexists; exact R|].
    split; [exists a; rewrite E; split; [reflexivity|congruence]|]. split; [exists b; rewrite E; split; [reflexivity|congruence]|]. split; [congruence|]. split; [|exact I].
    exists b, h0. rewrite E. split; [right; left; reflexivity|exact B].
  Qed.

  (** After that: the first handler has run hooks 1 and 3, the other one hook 2, which is one-shot, and hook 1 is gone. *)
  Example whole : exists st st1 st2 st3, runs_to Sem orderly (init 2) busy_before st /\ step Sem (Begin 0) st = Next st1 /\
    runs_to Sem orderly st1 busy_handler st2 /\ runs_to Sem orderly st2 busy_end st3 /\
    registered st 2 /\ registered st 3 /\ ~ In (Begin 0) busy_handler /\ ~ In (Remove 3) busy_handler /\ ~ In (Remove 2) busy_handler /\
    returned st2 0 [1; 3] /\ oneshot st2 2 = true /\ In 2 (runs st2) /\ gone st3 1.
  Proof.
    destruct (play_some Sem true orderly busy_before (init 2) (fun st => regb st 2 && regb st 3 && match step Sem (Begin 0) st with
      | Next st1 => match play Sem true busy_handler st1 with
        | Some st2 => idle st2 0 && (if list_eq_dec Nat.eq_dec (ran_of st2 0) [1; 3] then true else false) && oneshot st2 2 && existsb (Nat.eqb 2) (runs st2) &&
            match play Sem true busy_end st2 with Some st3 => negb (alive st3 1) && (1 <? fresh st3) | None => false end
        | None => false end
      | _ => false end) okb_orderly) as (st & R & _ & Q); [vm_compute; reflexivity|].
    apply andb_true_iff in Q as (Q1 & Q2). apply andb_true_iff in Q1 as (Q0 & Q1).
    destruct (step Sem (Begin 0) st) as [st1| |] eqn:B; try discriminate. destruct (play Sem true busy_handler st1) as [st2|] eqn:P; [|discriminate].
    apply andb_true_iff in Q2 as (Q2 & Q3). apply andb_true_iff in Q2 as (Q2 & Q4). apply andb_true_iff in Q2 as (Q2 & Q5). apply andb_true_iff in Q2 as (Q2 & Q6).
    destruct (play Sem true busy_end st2) as [st3|] eqn:P3; [|discriminate]. apply andb_true_iff in Q3 as (Q3 & Q7). destruct (list_eq_dec Nat.eq_dec (ran_of st2 0) [1; 3]) as [X|]; [|discriminate].
    exists st, st1, st2, st3. split; [exact R|]. split; [exact B|]. split; [exact (play_ok Sem true orderly okb_orderly _ _ _ P)|]. split; [exact (play_ok Sem true orderly okb_orderly _ _ _ P3)|].
    split; [exact (regb_ok _ _ Q0)|]. split; [exact (regb_ok _ _ Q1)|].
    assert (NI : forall e, existsb (fun x => match x, e with Begin i, Begin j => i =? j | Remove i, Remove j => i =? j | _, _ => false end) busy_handler = false ->
      (match e with Begin _ | Remove _ => True | _ => False end) -> ~ In e busy_handler).
    { intros e F T J. assert (G : existsb (fun x => match x, e with Begin i, Begin j => i =? j | Remove i, Remove j => i =? j | _, _ => false end) busy_handler = true); [|congruence].
      apply existsb_exists. exists e. split; [exact J|]. destruct e; try contradiction; apply Nat.eqb_refl. }
    split; [apply NI; [reflexivity|exact I]|]. split; [apply NI; [reflexivity|exact I]|]. split; [apply NI; [reflexivity|exact I]|].
    split; [rewrite <- X; exact (idle_returned _ _ Q2)|]. split; [exact Q5|]. split.
    - apply existsb_exists in Q4 as (m & J & Y). apply Nat.eqb_eq in Y. subst m. exact J.
    - apply Nat.ltb_lt in Q7. split; [lia|]. destruct (alive st3 1); [discriminate|reflexivity].
  Qed.
End Examples.
