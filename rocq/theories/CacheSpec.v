(** * What a cache of open directories may do

    The log of a cache lists its events, the latest one first.  Everything
    here is about logs; nothing refers to how the cache works. *)

From Coq Require Import List Arith ZArith Bool.
Import ListNotations.
From Verif Require Import CacheModel.

Definition without (x : nat) (l : list nat) : list nat :=
  filter (fun y => negb (y =? x)) l.

(** The descriptors that are open. *)
Fixpoint live (l : list event) : list nat :=
  match l with
  | [] => []
  | Acquire d :: r => d :: live r
  | Release d :: r => without d (live r)
  | _ :: r => live r
  end.

(** The descriptor of a file, if it has one. *)
Fixpoint holds (l : list event) (f : nat) : option nat :=
  match l with
  | [] => None
  | Cached g d :: r | Swap g d :: r => if g =? f then Some d else holds r f
  | Uncached g :: r => if g =? f then None else holds r f
  | _ :: r => holds r f
  end.

(** The number of users of the descriptor of a file. *)
Fixpoint pinned (l : list event) (f : nat) : nat :=
  match l with
  | [] => 0
  | Pin g :: r => if g =? f then S (pinned r f) else pinned r f
  | Unpin g :: r => if g =? f then pred (pinned r f) else pinned r f
  | _ :: r => pinned r f
  end.

(** The files that have a descriptor that nobody uses, the one that became so
    last first. *)
Fixpoint idle (l : list event) : list nat :=
  match l with
  | [] => []
  | Cached f _ :: r => f :: idle r
  | Uncached f :: r => without f (idle r)
  | Pin f :: r => without f (idle r)
  | Unpin f :: r => if pinned r f =? 1 then f :: idle r else idle r
  | _ :: r => idle r
  end.

(** The roots of the walk. *)
Fixpoint root (l : list event) (f : nat) : bool :=
  match l with
  | [] => false
  | Created g b :: r => if g =? f then b else root r f
  | _ :: r => root r f
  end.

(** The order in which unused descriptors are given up: first those of files
    that are not roots, the one that is unused for the longest time first;
    then those of the roots. *)
Definition eviction (l : list event) : list nat :=
  rev (filter (fun f => negb (root l f)) (idle l)) ++ filter (root l) (idle l).

(** The number of directory streams. *)
Fixpoint streams (l : list event) : nat :=
  match l with
  | [] => 0
  | Dir_alloc _ :: r => S (streams r)
  | Dir_free :: r => pred (streams r)
  | _ :: r => streams r
  end.

(** The number of directory streams from which on no more directories are
    opened ahead. *)
Definition ahead (budget : nat) : nat := Nat.min 1024 (budget - 1).

Section Proper.

Variable budget : nat.

(** What an event needs, after those in [l]. *)
Definition ok (l : list event) (e : event) : Prop :=
  match e with
  | Created _ _ => True
  (* There is always room in the budget. *)
  | Acquire d => length (live l) < budget /\ ~ In d (live l)
  (* Descriptors are closed once, when no file has them any more. *)
  | Release d => In d (live l) /\ forall f, holds l f <> Some d
  (* Only open descriptors are used. *)
  | Use d => In d (live l)
  (* No two files have the same descriptor. *)
  | Cached f d => holds l f = None /\ In d (live l) /\ forall g, holds l g <> Some d
  | Swap f d => holds l f <> None /\ In d (live l) /\ (forall g, holds l g <> Some d) /\ pinned l f = 0
  (* The descriptor of a file stays the same while it has users. *)
  | Uncached f => holds l f <> None /\ pinned l f = 0
  | Pin f => holds l f <> None
  | Unpin f => 0 < pinned l f
  (* Descriptors are given up in the above order. *)
  | Evict f => hd_error (eviction l) = Some f
  (* There are not too many directories opened ahead. *)
  | Dir_alloc force => force = false -> streams l < ahead budget
  | Dir_free => 0 < streams l
  end.

Fixpoint proper (l : list event) : Prop :=
  match l with
  | [] => True
  | e :: r => ok r e /\ proper r
  end.

End Proper.
