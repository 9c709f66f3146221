(** * Model of the list sort in src/bftw.c (also used by src/opt.c)

    Lists are sequences here; that the SLIST macros implement sequences is a
    property of its own. *)
From Coq Require Import List Arith.
Import ListNotations.

Section Sort.
  Context {A : Type}.
  (** [le x y] is strcoll(x->name, y->name) <= 0. *)
  Variable le : A -> A -> bool.

  (** src/bftw.c 1923-1927: the hare's position is a suffix of the original
      list; [None] is a NULL dereference. *)
  Fixpoint split_loop (hare xs left : list A) : option (list A * list A) :=
    match hare with
    | _ :: _ :: hare' =>
        match xs with
        | [] => None
        | tortoise :: xs' => split_loop hare' xs' (left ++ [tortoise])
        end
    | _ => Some (left, xs)
    end.

  (** src/bftw.c 1935-1949: the merge loop, then the two SLIST_EXTENDs *)
  Fixpoint merge (left : list A) : list A -> list A :=
    match left with
    | [] => fun right => right
    | lf :: left' =>
        fix inner right :=
          match right with
          | [] => left
          | rf :: right' =>
              if le lf rf then lf :: merge left' right else rf :: inner right'
          end
    end.

  (** src/bftw.c 1914-1950, bftw_list_sort.  [fuel] bounds the depth of the
      recursion; [None] when it runs out. *)
  Fixpoint list_sort (fuel : nat) (xs : list A) : option (list A) :=
    match xs with
    | [] | [_] => Some xs
    | _ =>
        match fuel with
        | O => None
        | S n =>
            match split_loop xs xs [] with
            | None => None
            | Some (l, r) =>
                match list_sort n l, list_sort n r with
                | Some l, Some r => Some (merge l r)
                | _, _ => None
                end
            end
        end
    end.
End Sort.
