(** * Proofs about the xs sort *)
From Coq Require Import List Arith Permutation Sorted Bool Lia.
From Verif Require Import SortModel SortSpec.
Import ListNotations.

Section Sort.
  Context {A : Type} (le : A -> A -> bool).

  Lemma merge_nil_r l : merge le l [] = l.
  Proof. destruct l; reflexivity. Qed.
  Lemma merge_cons x l y r :
    merge le (x :: l) (y :: r) = if le x y then x :: merge le l (y :: r) else y :: merge le (x :: l) r.
  Proof. reflexivity. Qed.

  Lemma merge_perm l : forall r, Permutation (l ++ r) (merge le l r).
  Proof.
    induction l as [|x l IH]; intros r; [reflexivity|].
    induction r as [|y r IHr]; [rewrite merge_nil_r, app_nil_r; reflexivity|].
    rewrite merge_cons. destruct (le x y).
    - cbn [app]. constructor. apply IH.
    - rewrite <- IHr. symmetry. apply Permutation_cons_app. reflexivity.
  Qed.

  (** The split *)
  Lemma split_halves : forall n (hare xs left : list A), length hare <= n -> length hare <= length xs ->
    split_loop hare xs left =
      Some (left ++ firstn (Nat.div2 (length hare)) xs, skipn (Nat.div2 (length hare)) xs).
  Proof.
    induction n as [|n IH]; intros hare xs left L L'.
    - destruct hare; [|cbn in L; lia]. cbn. rewrite app_nil_r. reflexivity.
    - destruct hare as [|a [|b hare]]; cbn [split_loop length Nat.div2].
      + cbn. rewrite app_nil_r. reflexivity.
      + cbn. rewrite app_nil_r. reflexivity.
      + destruct xs as [|t xs]; [cbn in L'; lia|]. cbn [length] in *.
        rewrite IH by lia. cbn [firstn skipn]. rewrite <- app_assoc. reflexivity.
  Qed.

  Lemma sort_step fuel xs :
    list_sort le fuel xs =
      match xs with
      | [] | [_] => Some xs
      | _ =>
        match fuel with
        | O => None
        | S n =>
            match list_sort le n (firstn (Nat.div2 (length xs)) xs),
                  list_sort le n (skipn (Nat.div2 (length xs)) xs) with
            | Some l, Some r => Some (merge le l r)
            | _, _ => None
            end
        end
      end.
  Proof.
    destruct xs as [|a [|b xs]]; [destruct fuel; reflexivity|destruct fuel; reflexivity|].
    destruct fuel as [|n]; [reflexivity|].
    cbn [list_sort]. rewrite (split_halves (length (a :: b :: xs))) by lia. reflexivity.
  Qed.

  Lemma div2_half n : 2 <= n -> 1 <= Nat.div2 n /\ Nat.div2 n < n.
  Proof.
    intros H. split; [|apply Nat.lt_div2; lia].
    destruct n as [|[|n]]; cbn; lia.
  Qed.

  (** It works by induction on the length, given what the merge preserves. *)
  Lemma sort_ind (P : list A -> list A -> Prop) :
    (forall l, length l <= 1 -> P l l) ->
    (forall l r l' r', P l l' -> P r r' -> P (l ++ r) (merge le l' r')) ->
    forall fuel xs, length xs <= S fuel -> exists s, list_sort le fuel xs = Some s /\ P xs s.
  Proof.
    intros B S. induction fuel as [|n IH]; intros xs L; rewrite sort_step.
    - destruct xs as [|a [|b xs]]; [| |cbn in L; lia]; eexists; (split; [reflexivity|apply B; cbn; lia]).
    - destruct xs as [|a [|b xs]]; [eexists; (split; [reflexivity|apply B; cbn; lia])..|].
      set (l := a :: b :: xs) in *. destruct (div2_half (length l)) as [H1 H2]; [unfold l; cbn; lia|].
      destruct (IH (firstn (Nat.div2 (length l)) l)) as (s1 & E1 & P1); [rewrite firstn_length; lia|].
      destruct (IH (skipn (Nat.div2 (length l)) l)) as (s2 & E2 & P2); [rewrite skipn_length; lia|].
      rewrite E1, E2. exists (merge le s1 s2). split; [reflexivity|].
      rewrite <- (firstn_skipn (Nat.div2 (length l)) l) at 1. apply S; assumption.
  Qed.

  Lemma sort_perm fuel xs : length xs <= S fuel ->
    exists s, list_sort le fuel xs = Some s /\ Permutation xs s.
  Proof.
    apply (sort_ind (@Permutation A)); [reflexivity|].
    intros l r l' r' P1 P2. rewrite P1, P2. apply merge_perm.
  Qed.

  Hypothesis T : total_preorder le.

  Lemma le_refl x : le x x = true.
  Proof. destruct (proj1 T x x); assumption. Qed.

  Lemma merge_ordered l : forall r, ordered le l -> ordered le r -> ordered le (merge le l r).
  Proof.
    induction l as [|x l IH]; intros r Sl Sr; [exact Sr|].
    induction r as [|y r IHr]; [exact Sl|].
    rewrite merge_cons. inversion Sl as [|? ? Sl' Fl]; subst. inversion Sr as [|? ? Sr' Fr]; subst.
    destruct (le x y) eqn:E.
    - constructor; [apply IH; assumption|].
      rewrite <- merge_perm. apply Forall_app. split; [exact Fl|].
      constructor; [exact E|]. eapply Forall_impl; [|exact Fr]. intros z Hz. eapply (proj2 T); eassumption.
    - assert (E' : le y x = true) by (destruct (proj1 T x y); congruence).
      constructor; [apply IHr; assumption|].
      rewrite <- merge_perm. cbn [app]. constructor; [exact E'|]. apply Forall_app. split; [|exact Fr].
      eapply Forall_impl; [|exact Fl]. intros z Hz. eapply (proj2 T); eassumption.
  Qed.

  (** An element that goes before the whole left part is not equal to any of it. *)
  Lemma merge_stable z l : forall r, ordered le l -> ordered le r ->
    filter (equal_to le z) (merge le l r) = filter (equal_to le z) l ++ filter (equal_to le z) r.
  Proof.
    induction l as [|x l IH]; intros r Sl Sr; [reflexivity|].
    induction r as [|y r IHr]; [rewrite merge_nil_r, app_nil_r; reflexivity|].
    rewrite merge_cons. inversion Sl as [|? ? Sl' Fl]; subst. inversion Sr as [|? ? Sr' Fr]; subst.
    destruct (le x y) eqn:E.
    - cbn [filter]. rewrite IH by assumption. cbn [filter]. destruct (equal_to le z x); reflexivity.
    - cbn [filter] in *. rewrite IHr by assumption.
      destruct (equal_to le z y) eqn:Z; [|reflexivity].
      assert (N : filter (equal_to le z) (x :: l) = []).
      { assert (Fx : forall w, In w (x :: l) -> le w y = false).
        { intros w [<-|W]; [exact E|]. rewrite Forall_forall in Fl. specialize (Fl _ W).
          destruct (le w y) eqn:Ew; [|reflexivity]. rewrite (proj2 T x w y Fl Ew) in E. discriminate. }
        destruct (filter (equal_to le z) (x :: l)) as [|w f] eqn:F; [reflexivity|].
        assert (W : In w (filter (equal_to le z) (x :: l))) by (rewrite F; left; reflexivity).
        apply filter_In in W. destruct W as [W1 W2].
        unfold equal_to in Z, W2. apply andb_true_iff in Z, W2.
        pose proof (proj2 T w z y (proj2 W2) (proj1 Z)) as X. rewrite (Fx w W1) in X. discriminate. }
      cbn [filter] in N. rewrite N. reflexivity.
  Qed.

  Lemma sort_correct : forall xs, exists s,
    list_sort le (length xs) xs = Some s /\
    Permutation xs s /\ ordered le s /\ keeps_order le xs s.
  Proof.
    intros xs. apply (sort_ind (fun l s => Permutation l s /\ ordered le s /\ keeps_order le l s)); [| |lia].
    - intros l L. split; [reflexivity|]. split; [|intros x; reflexivity].
      destruct l as [|a [|b l]]; [constructor|repeat constructor|cbn in L; lia].
    - intros l r l' r' (P1 & O1 & K1) (P2 & O2 & K2). split; [rewrite P1, P2; apply merge_perm|].
      split; [apply merge_ordered; assumption|]. intros x. rewrite merge_stable by assumption.
      rewrite filter_app, K1, K2. reflexivity.
  Qed.
End Sort.
