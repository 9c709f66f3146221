(** * What it means to sort stably *)
From Coq Require Import List Permutation Sorted Bool.
Import ListNotations.

Section Spec.
  Context {A : Type} (le : A -> A -> bool).

  (** A total preorder: what strcoll() is required to be *)
  Definition total_preorder : Prop :=
    (forall x y, le x y = true \/ le y x = true) /\
    (forall x y z, le x y = true -> le y z = true -> le x z = true).

  Definition ordered (l : list A) : Prop := StronglySorted (fun x y => le x y = true) l.

  (** Equal elements keep their order: for each element [x], those that
      compare equal to it are the same sequence before and after. *)
  Definition equal_to (x y : A) : bool := le x y && le y x.
  Definition keeps_order (before after : list A) : Prop :=
    forall x, filter (equal_to x) after = filter (equal_to x) before.
End Spec.
