(** Property theorems for intrusive lists: C32. *)
From Coq Require Import List Arith Bool Lia.
From Verif Require Import ListModel ListSpec ListProofs ListDoubly.
Import ListNotations.

(** C32: one operation on singly-linked lists has its effect on the sequences, leaves
    every list well formed with a correct tail, and returns the item removed. *)
Theorem C32_step : forall h f o, world h f -> allowed o f ->
  exists h', run o h f = Some (h', returned o f) /\ world h' (after o f).
Proof.
  exact step_ok.
Qed.
Print Assumptions C32_step.

(** C32: so does any sequence of operations, from initialised lists and items. *)
Theorem C32_history : forall os h, fresh h -> allowed_all os (fun _ => []) ->
  exists h', run_all os h (fun _ => []) = Some (h', returned_all os (fun _ => [])) /\
             world h' (after_all os (fun _ => [])).
Proof.
  exact fresh_run_all.
Qed.
Print Assumptions C32_history.

(** C32: what is observed of a list is its sequence: iterating meets its items in
    order, the head and tail are its first and last items, and an item on no other
    list is attached exactly if it is on this one. *)
Theorem C32_observe : forall h f l, world h f ->
  (forall n, length (f l) <= n -> slist_walk n h (Head l) = Some (f l)) /\
  slist_head h l = nth_error (f l) 0 /\
  slist_tail h l = nth_error (rev (f l)) 0 /\
  (slist_empty h l = true <-> f l = []) /\
  (forall i, (forall m, m <> l -> ~ In i (f m)) -> (slist_attached h l i = true <-> In i (f l))).
Proof.
  exact observe.
Qed.
Print Assumptions C32_observe.

(** C32: the same for doubly-linked lists *)
Theorem C32_doubly_step : forall h f o, dworld h f -> dallowed o f ->
  exists h', drun o h f = Some h' /\ dworld h' (dafter o f).
Proof.
  exact dstep_ok.
Qed.
Print Assumptions C32_doubly_step.

Theorem C32_doubly_history : forall os h, dfresh h -> dallowed_all os (fun _ => []) ->
  exists h', drun_all os h (fun _ => []) = Some h' /\ dworld h' (dafter_all os (fun _ => [])).
Proof.
  exact dfresh_run_all.
Qed.
Print Assumptions C32_doubly_history.

Theorem C32_doubly_attached : forall h f l i, dworld h f -> (forall m, m <> l -> ~ In i (f m)) ->
  (list_attached h l i = true <-> In i (f l)).
Proof.
  exact dattached.
Qed.
Print Assumptions C32_doubly_attached.

Module Examples.
  Definition h0 : heap := mkHeap (fun _ => None) Head.
  Example h0_fresh : fresh h0.
  Proof.
    split; intros x; exists h0; cbn; rewrite ?Nat.eqb_refl; auto.
  Qed.
  (** Two lists are filled and one is spliced into the other; then the items leave. *)
  Definition os : list op :=
    [Append 0 10; Append 0 11; Prepend 0 9; Append 1 20; Insert 1 1 21; Splice 0 2 1;
     Remove 0 4; Append 0 12; Append 1 11; Extend 0 1; Pop 0; Pop 1].
  Example os_allowed : allowed_all os (fun _ => []).
  Proof.
    cbn. unfold detached.
    repeat split; try lia; intros l; unfold put, insert_at; cbn; destruct l as [|[|l]]; cbn; lia.
  Qed.
  Example os_results : returned_all os (fun _ => []) =
    [None; None; None; None; None; None; Some 11; None; None; None; Some 9; None] /\
    after_all os (fun _ => []) 0 = [10; 20; 21; 12; 11] /\ after_all os (fun _ => []) 1 = [].
  Proof. vm_compute. auto. Qed.
  Example os_run : match run_all os h0 (fun _ => []) with
                   | Some (h, _) => slist_walk 10 h (Head 0) = Some [10; 20; 21; 12; 11] /\ tail h 0 = Next 11
                   | None => False
                   end.
  Proof. vm_compute. auto. Qed.

  Definition d0 : dheap := mkDheap (fun _ => None) (fun _ => None) (fun _ => None) (fun _ => None).
  Example d0_fresh : dfresh d0.
  Proof. split; intros x; exists d0; cbn; unfold upd; rewrite Nat.eqb_refl; auto. Qed.
  Definition ds : list dop := [LAppend 0 1; LAppend 0 2; LPrepend 0 3; LInsert 0 1 4; LRemove 0 2; LAppend 1 2; LRemove 0 3].
  Example ds_allowed : dallowed_all ds (fun _ => []).
  Proof.
    cbn. unfold detached, put, insert_at. cbn.
    repeat split; try lia; try tauto; intros l; destruct l as [|[|l]]; cbn; lia.
  Qed.
  Example ds_after : dafter_all ds (fun _ => []) 0 = [4; 1] /\ dafter_all ds (fun _ => []) 1 = [2].
  Proof. vm_compute. auto. Qed.
End Examples.
