(** Property theorem for the list sort: C29. *)
From Coq Require Import List Permutation ZArith Lia.
From Verif Require Import SortModel SortSpec SortProofs.
Import ListNotations.

(** C29: sorting always finishes with an ordered, stable permutation. *)
Theorem C29_stable_sort : forall (A : Type) (le : A -> A -> bool), total_preorder le ->
  forall xs, exists s,
    list_sort le (length xs) xs = Some s /\
    Permutation xs s /\ ordered le s /\ keeps_order le xs s.
Proof.
  exact @sort_correct.
Qed.
Print Assumptions C29_stable_sort.

(** C29: whatever the comparison does, no element is lost or duplicated. *)
Theorem C29_permutation : forall (A : Type) (le : A -> A -> bool) fuel xs,
  length xs <= S fuel -> exists s, list_sort le fuel xs = Some s /\ Permutation xs s.
Proof.
  exact @sort_perm.
Qed.
Print Assumptions C29_permutation.

Module Examples.
  Definition by_fst (x y : Z * Z) : bool := Z.leb (fst x) (fst y).
  Example preorder : total_preorder by_fst.
  Proof. unfold total_preorder, by_fst. split; intros; rewrite ?Z.leb_le in *; lia. Qed.
  Example sorted : list_sort by_fst 5 [(2, 0); (1, 1); (2, 2); (0, 3); (1, 4)]%Z =
    Some [(0, 3); (1, 1); (1, 4); (2, 0); (2, 2)]%Z.
  Proof. reflexivity. Qed.
End Examples.
