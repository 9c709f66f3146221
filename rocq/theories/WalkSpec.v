(** * File trees and the visits of a walk *)
From Coq Require Import List NArith Bool.
Import ListNotations.

(** Files with whatever is known about each, and what they contain *)
Inductive tree (A : Type) := Node (a : A) (kids : list (tree A)).
Arguments Node {A} a kids.

Section Induction.
Context {A : Type} (P : tree A -> Prop).
Hypothesis step : forall a kids, Forall P kids -> P (Node a kids).
Fixpoint tree_induction (t : tree A) : P t :=
  match t with
  | Node a kids => step a kids ((fix go (l : list (tree A)) : Forall P l :=
      match l with [] => Forall_nil P | t :: l => Forall_cons t (tree_induction t) (go l) end) kids)
  end.
End Induction.
