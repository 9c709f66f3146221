(** * Model of src/list.h

    Items and lists are numbered.  The macros are modelled for one choice of the
    node member, so that each item has one link (or two for doubly-linked lists). *)
From Coq Require Import List Arith Bool.
Import ListNotations.

(** ** Singly-linked lists *)

(** A cursor is the address of a link: that of [list->head] or [item->next]. *)
Inductive cursor := Head (l : nat) | Next (i : nat).
Definition cursor_eqb (a b : cursor) : bool :=
  match a, b with
  | Head l, Head m => Nat.eqb l m
  | Next i, Next j => Nat.eqb i j
  | _, _ => false
  end.

Record heap := mkHeap { link : cursor -> option nat; tail : nat -> cursor }.
Definition set_link (h : heap) (c : cursor) (v : option nat) : heap :=
  mkHeap (fun x => if cursor_eqb x c then v else link h x) (tail h).
Definition set_tail (h : heap) (l : nat) (c : cursor) : heap :=
  mkHeap (link h) (fun x => if Nat.eqb x l then c else tail h x).

(** src/list.h 102-110, SLIST_INIT *)
Definition slist_init (h : heap) (l : nat) : heap := set_tail (set_link h (Head l) None) l (Head l).

(** 142 and 189-193, SLIST_ITEM_INIT *)
Definition slist_item_init (h : heap) (i : nat) : heap := set_link h (Next i) None.

(** 209-219, SLIST_HEAD and SLIST_EMPTY *)
Definition slist_head (h : heap) (l : nat) : option nat := link h (Head l).
Definition slist_empty (h : heap) (l : nat) : bool := match slist_head h l with None => true | Some _ => false end.

(** 225-245, SLIST_TAIL.  The container of a [next] link is its item; NULL is
    returned for the empty list, so that the tail is not [&list->head]. *)
Definition slist_tail (h : heap) (l : nat) : option nat :=
  match link h (Head l) with
  | None => None
  | Some _ => match tail h l with Next i => Some i | Head _ => None end
  end.

(** 259-266, SLIST_ATTACHED *)
Definition slist_attached (h : heap) (l i : nat) : bool :=
  match link h (Next i) with
  | Some _ => true
  | None => cursor_eqb (tail h l) (Next i)
  end.

(** 282-293, SLIST_INSERT.  [None] is a failed assertion.  The returned cursor is
    [&item->next]. *)
Definition slist_insert (h : heap) (l : nat) (c : cursor) (i : nat) : option (heap * cursor) :=
  if slist_attached h l i then None
  else
    let h := set_link h (Next i) (link h c) in
    let h := set_link h c (Some i) in
    let h := set_tail h l (match link h (Next i) with Some _ => tail h l | None => Next i end) in
    Some (h, Next i).

(** 305-325, SLIST_APPEND and SLIST_PREPEND *)
Definition slist_append (h : heap) (l i : nat) : option (heap * cursor) := slist_insert h l (tail h l) i.
Definition slist_prepend (h : heap) (l i : nat) : option (heap * cursor) := slist_insert h l (Head l) i.

(** 337-344, SLIST_SPLICE *)
Definition slist_splice (h : heap) (dest : nat) (c : cursor) (src : nat) : heap :=
  let h := set_link h (tail h src) (link h c) in
  let h := set_link h c (link h (Head src)) in
  let h := set_tail h dest (match link h (tail h dest) with Some _ => tail h src | None => tail h dest end) in
  slist_init h src.

(** 354-355, SLIST_EXTEND *)
Definition slist_extend (h : heap) (dest src : nat) : heap := slist_splice h dest (tail h dest) src.

(** 369-387, SLIST_REMOVE.  [None] is a NULL dereference. *)
Definition slist_remove (h : heap) (l : nat) (c : cursor) : option (heap * nat) :=
  match link h c with
  | None => None
  | Some i =>
      let h := set_tail h l (match link h (Next i) with Some _ => tail h l | None => c end) in
      let h := set_link h c (link h (Next i)) in
      let h := set_link h (Next i) None in
      Some (h, i)
  end.

(** 399-406, SLIST_POP *)
Definition slist_pop (h : heap) (l : nat) : option (heap * option nat) :=
  match link h (Head l) with
  | None => Some (h, None)
  | Some _ => match slist_remove h l (Head l) with
              | None => None
              | Some (h, i) => Some (h, Some i)
              end
  end.

(** 420-429, for_slist: the items met.  [fuel] bounds the number of iterations. *)
Fixpoint slist_walk (fuel : nat) (h : heap) (c : cursor) : option (list nat) :=
  match link h c with
  | None => Some []
  | Some i => match fuel with
              | O => None
              | S fuel => option_map (cons i) (slist_walk fuel h (Next i))
              end
  end.

(** ** Doubly-linked lists *)
Record dheap := mkDheap { prev : nat -> option nat; next : nat -> option nat;
                          first : nat -> option nat; last : nat -> option nat }.
Definition upd (f : nat -> option nat) (i : nat) (v : option nat) : nat -> option nat :=
  fun x => if Nat.eqb x i then v else f x.
Definition set_prev h i v := mkDheap (upd (prev h) i v) (next h) (first h) (last h).
Definition set_next h i v := mkDheap (prev h) (upd (next h) i v) (first h) (last h).
Definition set_first h l v := mkDheap (prev h) (next h) (upd (first h) l v) (last h).
Definition set_last h l v := mkDheap (prev h) (next h) (first h) (upd (last h) l v).

(** 452-456, LIST_INIT *)
Definition list_init (h : dheap) (l : nat) : dheap := set_first (set_last h l None) l None.

(** 473-480, LIST_ITEM_INIT *)
Definition list_item_init (h : dheap) (i : nat) : dheap := set_prev (set_next h i None) i None.

Definition some {A} (o : option A) : bool := match o with Some _ => true | None => false end.
Definition is (i : nat) (o : option nat) : bool := match o with Some j => Nat.eqb i j | None => false end.

(** 535-542, LIST_ATTACHED *)
Definition list_attached (h : dheap) (l i : nat) : bool :=
  some (prev h i) || some (next h i) || is i (first h l) || is i (last h l).

(** The assignments to [*(item->prev ? &item->prev->next : &list->head)] and to
    [*(item->next ? &item->next->prev : &list->tail)] *)
Definition set_from (h : dheap) (l : nat) (p : option nat) (v : option nat) : dheap :=
  match p with Some j => set_next h j v | None => set_first h l v end.
Definition set_to (h : dheap) (l : nat) (n : option nat) (v : option nat) : dheap :=
  match n with Some j => set_prev h j v | None => set_last h l v end.

(** 556-567, LIST_INSERT; [None] is a failed assertion. *)
Definition list_insert (h : dheap) (l : nat) (c : option nat) (i : nat) : option dheap :=
  if list_attached h l i then None
  else
    let h := set_prev h i c in
    let h := set_next h i (match c with Some j => next h j | None => first h l end) in
    let h := set_from h l (prev h i) (Some i) in
    Some (set_to h l (next h i) (Some i)).

(** 507-521, LIST_APPEND and LIST_PREPEND *)
Definition list_append (h : dheap) (l i : nat) : option dheap := list_insert h l (last h l) i.
Definition list_prepend (h : dheap) (l i : nat) : option dheap := list_insert h l None i.

(** 579-588, LIST_REMOVE *)
Definition list_remove (h : dheap) (l i : nat) : dheap :=
  let h := set_from h l (prev h i) (next h i) in
  let h := set_to h l (next h i) (prev h i) in
  let h := set_next h i None in
  set_prev h i None.
