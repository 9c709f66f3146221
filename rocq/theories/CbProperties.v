(** Property theorems for what is done with each file: C34, C35. *)
From Coq Require Import List ZArith NArith Arith Bool Lia Permutation.
From Coq Require Import Init.Byte.
From Verif Require Import TrieModel CbModel WalkSpec CbSpec CbProofs CbDepth.
Import ListNotations.

(** C34: with -unique, whatever files the walk reports and in whatever order, each one is
    processed if no file with its device and inode numbers was met before; otherwise it is
    not, and nothing below it is. *)
Theorem C34_unique : forall omax, 1 <= omax -> forall c calls, unique c = true -> Forall fits calls -> Forall plenty calls ->
  exists rs, callbacks omax c trie_init calls = Some rs /\ length rs = length calls /\
  forall i fw r id, nth_error calls i = Some fw -> nth_error rs i = Some r -> subject fw = Some id ->
    (met (firstn i calls) id -> r = (Duplicate, Prune)) /\
    (~ met (firstn i calls) id -> r = eval_file c (fst fw) (snd fw)).
Proof.
  exact unique_first.
Qed.
Print Assumptions C34_unique.

(** C34: a file for which memory runs out is not processed, and not taken for met. *)
Theorem C34_refused : forall omax, 1 <= omax -> forall c calls, unique c = true -> Forall fits calls ->
  exists rs, callbacks omax c trie_init calls = Some rs /\ judged_all c [] calls rs.
Proof.
  exact unique_histories.
Qed.
Print Assumptions C34_refused.

(** C35: in a walk of any tree, with any limits, the expression is evaluated exactly once for
    each file whose depth is within the limits (and that was not excluded, nor is below a
    directory that was excluded or pruned), and for no other. *)
Theorem C35_selected : forall (A : Type) (dir : A -> bool) path answers c, limits c -> (forall a, tame (answers a)) ->
  forall t d, Permutation (evaluated dir path answers c (walk dir path answers c d t)) (selected dir path answers c d t).
Proof.
  exact @selected_perm.
Qed.
Print Assumptions C35_selected.

(** C35: without -depth they are evaluated in the order of the walk. *)
Theorem C35_order : forall (A : Type) (dir : A -> bool) path answers c, limits c -> (forall a, tame (answers a)) ->
  forall t, post_order c = false -> forall d, evaluated dir path answers c (walk dir path answers c d t) = selected dir path answers c d t.
Proof.
  exact @selected_eq.
Qed.
Print Assumptions C35_order.

(** C35: nothing deeper than -maxdepth is visited. *)
Theorem C35_not_descended : forall (A : Type) (dir : A -> bool) path answers c, limits c -> (forall a, tame (answers a)) ->
  forall t d, (Z.of_N d <= maxdepth c)%Z ->
  forall v e a, In (v, e, a) (walk dir path answers c d t) -> (Z.of_N e <= maxdepth c)%Z.
Proof.
  exact @walk_shallow.
Qed.
Print Assumptions C35_not_descended.

Module Examples.
  Definition ok : allocs := Allocs true (fun _ => true) true.
  Definition w (d i : N) : world := mkWorld (Some (d, i)) ok (fun a => (false, a)) (fun a => a).
  Definition f (v : visit) : file := mkFile false true 1 v [x61].
  Definition calls : list (file * world) :=
    [(f Pre, w 1 5); (f Pre, w 2 5); (f Pre, w 1 5); (f Post, w 1 5); (f Pre, mkWorld None ok (fun a => (false, a)) (fun a => a));
     (f Pre, w 1 6); (f Pre, w 2 5)].
  Definition c : ctx := mkCtx true false 0 (2 ^ 31 - 1) false false.

  Example calls_ok : Forall fits calls /\ Forall plenty calls.
  Proof. unfold calls, fits, plenty, f, w. split; repeat constructor; cbn; auto; intros; lia. Qed.
  Example calls_value : callbacks 8 c trie_init calls =
    Some [(Evaluated, Continue); (Evaluated, Continue); (Duplicate, Prune); (Skipped, Continue); (Unknown, Continue);
          (Evaluated, Continue); (Duplicate, Prune)].
  Proof. vm_compute. reflexivity. Qed.

  (** Directories 1, 2 (in 1) and 5 (in 2, excluded); files 3, 4 (in 2), 6 (in 5), 7 (in 1); 8 (in 1) is pruned *)
  Definition t : tree nat :=
    Node 1 [Node 2 [Node 3 []; Node 4 []; Node 5 [Node 6 []]]; Node 7 []; Node 8 [Node 9 []]].
  Definition dir (n : nat) : bool := existsb (Nat.eqb n) [1; 2; 5; 8].
  Definition answers (n : nat) : world :=
    mkWorld None ok (fun a => (Nat.eqb n 5, a)) (fun a => if Nat.eqb n 8 then Prune else a).
  Definition lim (mn mx : Z) (post : bool) : ctx := mkCtx false false mn mx post false.

  Example limits_ok : limits (lim 1 2 true). Proof. unfold limits, lim; cbn. lia. Qed.
  Example tame_ok n : tame (answers n).
  Proof. unfold tame, answers. cbn. split; [congruence|]. now destruct (Nat.eqb n 8); auto. Qed.
  Example some : map snd (selected dir (fun _ => []) answers (lim 1 2 false) 0 t) = [2; 3; 4; 7; 8].
  Proof. vm_compute. reflexivity. Qed.
  Example post : map snd (evaluated dir (fun _ => []) answers (lim 1 3 true) (walk dir (fun _ => []) answers (lim 1 3 true) 0 t)) = [3; 4; 2; 7; 9; 8].
  Proof. vm_compute. reflexivity. Qed.
End Examples.
