(** * Lists as sequences *)
From Coq Require Import List Arith Bool.
From Verif Require Import ListModel.
Import ListNotations.

(** ** Singly-linked lists *)

(** The cursor at which the [k]th item of the list [l] is found *)
Definition cursor_at (l : nat) (xs : list nat) (k : nat) : cursor :=
  match k with
  | O => Head l
  | S k => match nth_error xs k with Some i => Next i | None => Head l end
  end.

(** The list [l] consists of the items [xs], and its tail is the cursor at its end. *)
Definition represents (h : heap) (l : nat) (xs : list nat) : Prop :=
  NoDup xs /\
  (forall k, k <= length xs -> link h (cursor_at l xs k) = nth_error xs k) /\
  tail h l = cursor_at l xs (length xs).

(** Every list [l] consists of [f l], no item is on two lists, and the others are
    detached. *)
Definition world (h : heap) (f : nat -> list nat) : Prop :=
  (forall l, represents h l (f l)) /\
  (forall l m i, In i (f l) -> In i (f m) -> l = m) /\
  (forall i, (forall l, ~ In i (f l)) -> link h (Next i) = None).

Definition detached (f : nat -> list nat) (i : nat) : Prop := forall l, ~ In i (f l).

(** Replacing one sequence *)
Definition put (f : nat -> list nat) (l : nat) (xs : list nat) : nat -> list nat :=
  fun x => if Nat.eqb x l then xs else f x.

(** Operations at positions *)
Inductive op :=
| Insert (l k i : nat)
| Append (l i : nat)
| Prepend (l i : nat)
| Remove (l k : nat)
| Pop (l : nat)
| Splice (dest k src : nat)
| Extend (dest src : nat).

(** Running an operation; the result is the item removed, if any. *)
Definition run (o : op) (h : heap) (f : nat -> list nat) : option (heap * option nat) :=
  let ins r := match r with Some (h, _) => Some (h, None) | None => None end in
  match o with
  | Insert l k i => ins (slist_insert h l (cursor_at l (f l) k) i)
  | Append l i => ins (slist_append h l i)
  | Prepend l i => ins (slist_prepend h l i)
  | Remove l k => match slist_remove h l (cursor_at l (f l) k) with
                  | Some (h, i) => Some (h, Some i)
                  | None => None
                  end
  | Pop l => slist_pop h l
  | Splice d k s => Some (slist_splice h d (cursor_at d (f d) k) s, None)
  | Extend d s => Some (slist_extend h d s, None)
  end.

Definition insert_at {A} (k : nat) (ys xs : list A) : list A := firstn k xs ++ ys ++ skipn k xs.

Definition allowed (o : op) (f : nat -> list nat) : Prop :=
  match o with
  | Insert l k i => detached f i /\ k <= length (f l)
  | Append l i | Prepend l i => detached f i
  | Remove l k => k < length (f l)
  | Pop l => True
  | Splice d k s => d <> s /\ k <= length (f d)
  | Extend d s => d <> s
  end.

(** The effect on the sequences *)
Definition after (o : op) (f : nat -> list nat) : nat -> list nat :=
  match o with
  | Insert l k i => put f l (insert_at k [i] (f l))
  | Append l i => put f l (f l ++ [i])
  | Prepend l i => put f l (i :: f l)
  | Remove l k => put f l (firstn k (f l) ++ skipn (S k) (f l))
  | Pop l => put f l (List.tl (f l))
  | Splice d k s => put (put f d (insert_at k (f s) (f d))) s []
  | Extend d s => put (put f d (f d ++ f s)) s []
  end.
Definition returned (o : op) (f : nat -> list nat) : option nat :=
  match o with
  | Remove l k => nth_error (f l) k
  | Pop l => nth_error (f l) 0
  | _ => None
  end.

(** Sequences of operations *)
Fixpoint run_all (os : list op) (h : heap) (f : nat -> list nat) : option (heap * list (option nat)) :=
  match os with
  | [] => Some (h, [])
  | o :: os => match run o h f with
               | None => None
               | Some (h, r) => match run_all os h (after o f) with
                                | None => None
                                | Some (h, rs) => Some (h, r :: rs)
                                end
               end
  end.
Fixpoint allowed_all (os : list op) (f : nat -> list nat) : Prop :=
  match os with [] => True | o :: os => allowed o f /\ allowed_all os (after o f) end.
Fixpoint after_all (os : list op) (f : nat -> list nat) : nat -> list nat :=
  match os with [] => f | o :: os => after_all os (after o f) end.
Fixpoint returned_all (os : list op) (f : nat -> list nat) : list (option nat) :=
  match os with [] => [] | o :: os => returned o f :: returned_all os (after o f) end.

(** Initialised lists and items *)
Definition fresh (h : heap) : Prop :=
  (forall l, exists h0, link h (Head l) = link (slist_init h0 l) (Head l) /\ tail h l = tail (slist_init h0 l) l) /\
  (forall i, exists h0, link h (Next i) = link (slist_item_init h0 i) (Next i)).

(** ** Doubly-linked lists *)
Definition drepresents (h : dheap) (l : nat) (xs : list nat) : Prop :=
  NoDup xs /\
  first h l = nth_error xs 0 /\
  last h l = nth_error (rev xs) 0 /\
  (forall a i b, xs = a ++ i :: b -> prev h i = nth_error (rev a) 0 /\ next h i = nth_error b 0).

Definition dworld (h : dheap) (f : nat -> list nat) : Prop :=
  (forall l, drepresents h l (f l)) /\
  (forall l m i, In i (f l) -> In i (f m) -> l = m) /\
  (forall i, (forall l, ~ In i (f l)) -> prev h i = None /\ next h i = None).

(** [LInsert l k i] inserts [i] after the first [k] items. *)
Inductive dop := LInsert (l k i : nat) | LAppend (l i : nat) | LPrepend (l i : nat) | LRemove (l i : nat).
Definition drun (o : dop) (h : dheap) (f : nat -> list nat) : option dheap :=
  match o with
  | LInsert l k i => list_insert h l (nth_error (rev (firstn k (f l))) 0) i
  | LAppend l i => list_append h l i
  | LPrepend l i => list_prepend h l i
  | LRemove l i => Some (list_remove h l i)
  end.
Definition dallowed (o : dop) (f : nat -> list nat) : Prop :=
  match o with
  | LInsert l k i => detached f i /\ k <= length (f l)
  | LAppend l i | LPrepend l i => detached f i
  | LRemove l i => In i (f l)
  end.
Definition dafter (o : dop) (f : nat -> list nat) : nat -> list nat :=
  match o with
  | LInsert l k i => put f l (insert_at k [i] (f l))
  | LAppend l i => put f l (f l ++ [i])
  | LPrepend l i => put f l (i :: f l)
  | LRemove l i => put f l (filter (fun j => negb (Nat.eqb i j)) (f l))
  end.

Fixpoint drun_all (os : list dop) (h : dheap) (f : nat -> list nat) : option dheap :=
  match os with
  | [] => Some h
  | o :: os => match drun o h f with None => None | Some h => drun_all os h (dafter o f) end
  end.
Fixpoint dallowed_all (os : list dop) (f : nat -> list nat) : Prop :=
  match os with [] => True | o :: os => dallowed o f /\ dallowed_all os (dafter o f) end.
Fixpoint dafter_all (os : list dop) (f : nat -> list nat) : nat -> list nat :=
  match os with [] => f | o :: os => dafter_all os (dafter o f) end.
Definition dfresh (h : dheap) : Prop :=
  (forall l, exists h0, first h l = first (list_init h0 l) l /\ last h l = last (list_init h0 l) l) /\
  (forall i, exists h0, prev h i = prev (list_item_init h0 i) i /\ next h i = next (list_item_init h0 i) i).
