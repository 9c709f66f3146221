(** Proofs about the trie model. *)
From Coq Require Import List ZArith NArith Arith Bool Lia ZifyBool ZifyNat ZifyN Permutation.
From Coq Require Import Init.Byte.
From Coq Require Strings.Byte.
From Verif Require Import TrieModel TrieSpec TrieBits TrieMismatch.
Import ListNotations.
Ltac Zify.zify_post_hook ::= Z.div_mod_to_equations.

Section TreeInd.
  Variable P : tree -> Prop.
  Hypothesis Hleaf : forall l, P (TLeaf l).
  Hypothesis Hnode : forall b o cs, Forall P cs -> P (TNode b o cs).
  Fixpoint tree_rect' (t : tree) : P t :=
    match t with
    | TLeaf l => Hleaf l
    | TNode b o cs => Hnode b o cs
        ((fix all cs : Forall P cs :=
            match cs with
            | [] => Forall_nil _
            | c :: cs => Forall_cons _ (tree_rect' c) (all cs)
            end) cs)
    end.
End TreeInd.

Fixpoint leaves (t : tree) : list leaf :=
  match t with TLeaf l => [l] | TNode _ _ cs => flat_map leaves cs end.

Definition pos_node (t : tree) : Prop :=
  match t with TLeaf _ => True | TNode _ o _ => 1 <= o end.

(** All leaves of child [c] of nibble [n] start with [p ++ [n]]. *)
Definition branch (p : list N) (n : N) (c : tree) : Prop :=
  forall l, In l (leaves c) -> prefix (p ++ [n]) (nibs (lkey l)).

Section WF.
  Variable omax : nat.

  Fixpoint wf (o : nat) (t : tree) : Prop :=
    match t with
    | TLeaf _ => True
    | TNode bm off cs =>
        ((bm < 2 ^ 16)%N /\ off <= omax /\ cs <> []) /\
        (exists p, length p = o + off /\ Forall2 (branch p) (bits bm) cs) /\
        (fix all cs := match cs with
                       | [] => True
                       | c :: cs => (wf (o + off) c /\ pos_node c) /\ all cs
                       end) cs
    end.

  Lemma wf_node o bm off cs :
    wf o (TNode bm off cs) <->
    ((bm < 2 ^ 16)%N /\ off <= omax /\ cs <> []) /\
    (exists p, length p = o + off /\ Forall2 (branch p) (bits bm) cs) /\
    Forall (fun c => wf (o + off) c /\ pos_node c) cs.
  Proof.
    cbn [wf]. repeat apply and_iff_compat_l.
    induction cs; split; intros H; auto.
    - constructor; [apply H|]. apply IHcs, H.
    - inversion H; subst. split; auto. apply IHcs; auto.
  Qed.
End WF.

Lemma pick_app {A B} (f : A -> option B) c1 c c2 : pick f (c1 ++ c :: c2) (length c1) = f c.
Proof. induction c1; simpl; auto. Qed.

Lemma pick_ext {A B} (f g : A -> option B) cs i :
  (forall c, In c cs -> f c = g c) -> pick f cs i = pick g cs i.
Proof. revert i. induction cs; intros [] H; simpl; auto with datatypes. Qed.

Lemma pick_removed_app f c1 c c2 : pick_removed f (c1 ++ c :: c2) (length c1) = f c.
Proof. induction c1; simpl; auto. Qed.

Lemma update_app f c1 c c2 :
  update f (c1 ++ c :: c2) (length c1) =
  match f c with Some (c', ok) => Some (c1 ++ c' :: c2, ok) | None => None end.
Proof.
  induction c1; simpl.
  - destruct (f c) as [[]|]; auto.
  - rewrite IHc1. destruct (f c) as [[]|]; auto.
Qed.

Lemma replace_nth_app c1 c c2 t : replace_nth (length c1) t (c1 ++ c :: c2) = c1 ++ t :: c2.
Proof. induction c1; simpl; congruence. Qed.

Lemma remove_nth_app {A} (c1 : list A) c c2 : remove_nth (length c1) (c1 ++ c :: c2) = c1 ++ c2.
Proof. induction c1; simpl; congruence. Qed.

(** Descending along a set bit. *)
Lemma descend p bm cs n : Forall2 (branch p) (bits bm) cs -> (n < 16)%N -> N.testbit bm n = true ->
  exists c1 c c2, cs = c1 ++ c :: c2 /\ length c1 = count_ones (N.land bm (N.shiftl 1 n - 1)) /\
    Forall2 (branch p) (low bm n) c1 /\ branch p n c /\ Forall2 (branch p) (high bm n) c2.
Proof.
  intros F Hn T. rewrite (bits_split bm n Hn), T in F.
  apply Forall2_app_inv_l in F. destruct F as (c1 & c' & F1 & F2 & ->).
  simpl in F2. inversion F2; subst.
  exists c1, y, l'. repeat split; auto.
  rewrite count_low by auto. symmetry. eapply Forall2_length; eauto.
Qed.

(** The same for an unset bit. *)
Lemma descend_unset p bm cs n : Forall2 (branch p) (bits bm) cs -> (n < 16)%N -> N.testbit bm n = false ->
  exists c1 c2, cs = c1 ++ c2 /\ length c1 = count_ones (N.land (N.lor bm (N.shiftl 1 n)) (N.shiftl 1 n - 1)) /\
    Forall2 (branch p) (low bm n) c1 /\ Forall2 (branch p) (high bm n) c2.
Proof.
  intros F Hn T. rewrite (bits_split bm n Hn), T in F.
  apply Forall2_app_inv_l in F. destruct F as (c1 & c2 & F1 & F2 & ->).
  exists c1, c2. repeat split; auto.
  rewrite count_low_set by auto. symmetry. eapply Forall2_length; eauto.
Qed.

Lemma Forall2_in_r {A B} (R : A -> B -> Prop) l1 l2 y : Forall2 R l1 l2 -> In y l2 ->
  exists x, In x l1 /\ R x y.
Proof.
  induction 1; simpl; [tauto|]. intros [->|H1]; eauto. destruct (IHForall2 H1) as (a & ? & ?); eauto.
Qed.

(** A leaf of a node lies in the child of its own nibble. *)
Lemma leaf_child p bm cs l : Forall2 (branch p) (bits bm) cs ->
  In l (flat_map leaves cs) ->
  exists n, nth_error (nibs (lkey l)) (length p) = Some n /\ prefix (p ++ [n]) (nibs (lkey l)) /\ (n < 16)%N /\
    N.testbit bm n = true /\
  exists c1 c c2, cs = c1 ++ c :: c2 /\ length c1 = count_ones (N.land bm (N.shiftl 1 n - 1)) /\
    Forall2 (branch p) (low bm n) c1 /\ branch p n c /\ Forall2 (branch p) (high bm n) c2 /\ In l (leaves c).
Proof.
  intros F H. pose proof H as H0. apply in_flat_map in H. destruct H as (c & Hc & Hl).
  destruct (Forall2_in_r _ _ _ _ F Hc) as (n & Hn & B).
  apply in_bits in Hn. destruct Hn as [Hn T].
  exists n. pose proof (B l Hl) as Bl.
  assert (Nth : nth_error (nibs (lkey l)) (length p) = Some n).
  { eapply prefix_nth; eauto. rewrite nth_error_app2 by lia. rewrite Nat.sub_diag. reflexivity. }
  repeat split; auto.
  destruct (descend p bm cs n F Hn T) as (c1 & c' & c2 & -> & L & F1 & B' & F2).
  exists c1, c', c2. repeat split; auto.
  rewrite flat_map_app in H0. simpl in H0. rewrite !in_app_iff in H0.
  assert (K : forall n' c0, branch p n' c0 -> In l (leaves c0) -> n' = n).
  { intros n' c0 B0 I0. specialize (B0 l I0).
    assert (nth_error (nibs (lkey l)) (length p) = Some n').
    { eapply prefix_nth; eauto. rewrite nth_error_app2 by lia. rewrite Nat.sub_diag. reflexivity. }
    congruence. }
  destruct H0 as [H0|[H0|H0]]; auto; exfalso; apply in_flat_map in H0; destruct H0 as (c0 & I1 & I2).
  - destruct (Forall2_in_r _ _ _ _ F1 I1) as (n' & I & B0).
    pose proof (K _ _ B0 I2). subst n'. unfold low in I. rewrite filter_In, in_nseq in I. lia.
  - destruct (Forall2_in_r _ _ _ _ F2 I1) as (n' & I & B0).
    pose proof (K _ _ B0 I2). subst n'. unfold high in I. rewrite filter_In, in_nseq in I. lia.
Qed.

Lemma in_leaves_mid l c1 c c2 : In l (leaves c) -> In l (flat_map leaves (c1 ++ c :: c2)).
Proof. intros. rewrite flat_map_app. simpl. rewrite !in_app_iff. auto. Qed.

Section Proofs.
  Variable omax : nat.
  Hypothesis Homax : 1 <= omax.
  Notation wf := (wf omax).

  Lemma leaves_nonempty t : forall o, wf o t -> exists l, In l (leaves t).
  Proof.
    induction t as [l|b off cs IH] using tree_rect'; intros o W.
    - exists l. simpl. auto.
    - apply wf_node in W. destruct W as ((_ & _ & Hc) & _ & W).
      destruct cs as [|c cs]; [congruence|].
      inversion IH; subst. inversion W; subst. destruct H3 as [W1 _].
      destruct (H1 _ W1) as [l Hl]. exists l. simpl. apply in_app_iff. auto.
  Qed.

  (** ** trie_representative *)
  Lemma rep_exists k t : forall o, wf o t ->
    exists r, representative k t o = Some r /\ In r (leaves t).
  Proof.
    induction t as [l|b off cs IH] using tree_rect'; intros o W.
    - exists l. simpl. auto.
    - apply wf_node in W. destruct W as ((Hb & Ho & Hc) & (p & Lp & F) & W).
      cbn [representative].
      assert (Go : forall c1 c c2, cs = c1 ++ c :: c2 ->
         exists r, pick (fun c => representative k c (o + off)) cs (length c1) = Some r /\ In r (leaves (TNode b off cs))).
      { intros c1 c c2 ->. rewrite Forall_forall in IH, W.
        destruct (W c) as [W1 _]; auto with datatypes.
        destruct (IH c ltac:(auto with datatypes) _ W1) as (r & R & I).
        exists r. rewrite pick_app. split; auto. simpl. apply in_leaves_mid; auto. }
      assert (Go0 : exists r, pick (fun c => representative k c (o + off)) cs 0 = Some r /\ In r (leaves (TNode b off cs))).
      { destruct cs as [|c cs]; [congruence|]. apply (Go [] c cs). reflexivity. }
      destruct (Nat.ltb_spec (o + off) (2 * length k)).
      + rewrite key_nibble_nth.
        destruct (nth_error (nibs k) (o + off)) as [n|] eqn:En.
        2:{ apply nth_error_None in En. rewrite nibs_length in En. lia. }
        rewrite bit_test. destruct (N.testbit b n) eqn:T; cbn [negb]; auto.
        destruct (descend p b cs n F (nib_lt _ _ _ En) T) as (c1 & c & c2 & E & L & _).
        rewrite <- L. apply (Go _ _ _ E).
      + apply Go0.
  Qed.

  Lemma rep_longer k t : forall o l, wf o t -> In l (leaves t) -> prefix (lkey l) k ->
    representative k t o = Some l.
  Proof.
    induction t as [l'|b off cs IH] using tree_rect'; intros o l W I P.
    - simpl in *. destruct I as [->|[]]. auto.
    - apply wf_node in W. destruct W as ((Hb & Ho & Hc) & (p & Lp & F) & W).
      cbn [representative leaves] in *.
      destruct (leaf_child _ _ _ _ F I) as (n & Nth & _ & Hn & T & c1 & c & c2 & E & L & _ & _ & _ & Il).
      rewrite Lp in Nth.
      assert (Nk : nth_error (nibs k) (o + off) = Some n).
      { eapply prefix_nth; eauto. apply prefix_nibs; auto. }
      assert (o + off < 2 * length k).
      { rewrite <- nibs_length. apply nth_error_Some. congruence. }
      destruct (Nat.ltb_spec (o + off) (2 * length k)); [|lia].
      rewrite key_nibble_nth, Nk, bit_test, T. cbn [negb]. rewrite <- L, E, pick_app.
      rewrite Forall_forall in IH, W. subst cs. apply IH; auto with datatypes. apply W. auto with datatypes.
  Qed.

  Lemma prefix_trans_len {A} (a b c : list A) : prefix a c -> prefix b c -> length a <= length b -> prefix a b.
  Proof.
    intros [x ->] [y H] L. exists (skipn (length a) b).
    assert (E : firstn (length a) b = a).
    { assert (E1 : firstn (length a) (a ++ x) = firstn (length a) (b ++ y)) by congruence.
      rewrite firstn_app, Nat.sub_diag, firstn_O, app_nil_r, firstn_all in E1.
      rewrite firstn_app in E1. replace (length a - length b) with 0 in E1 by lia.
      rewrite firstn_O, app_nil_r in E1. auto. }
    rewrite <- E at 1. symmetry. apply firstn_skipn.
  Qed.

  Lemma prefix_trans {A} (a b c : list A) : prefix a b -> prefix b c -> prefix a c.
  Proof. intros [x ->] [y ->]. exists (x ++ y). symmetry. apply app_assoc. Qed.

  Lemma prefix_app_l {A} (a b c : list A) : prefix (a ++ b) c -> prefix a c.
  Proof. intros [x ->]. exists (b ++ x). symmetry. apply app_assoc. Qed.

  (** If a stored key extends (at least nibble-wise) the first [m] nibbles of
      the searched key, so does the representative. *)
  Lemma rep_shorter k t : forall o l q, wf o t -> In l (leaves t) ->
    prefix q (nibs k) -> prefix q (nibs (lkey l)) ->
    exists r, representative k t o = Some r /\ In r (leaves t) /\ prefix q (nibs (lkey r)).
  Proof.
    induction t as [l'|b off cs IH] using tree_rect'; intros o l q W I Pk Pl.
    - simpl in *. destruct I as [->|[]]. eauto.
    - pose proof (rep_exists k _ _ W) as (r & R & Ir).
      apply wf_node in W. destruct W as ((Hb & Ho & Hc) & (p & Lp & F) & W).
      destruct (Nat.ltb_spec (o + off) (length q)) as [Hq|Hq].
      + cbn [representative leaves] in *.
        destruct (leaf_child _ _ _ _ F I) as (n & Nth & _ & Hn & T & c1 & c & c2 & E & L & _ & _ & _ & Il).
        rewrite Lp in Nth.
        assert (Nk : nth_error (nibs k) (o + off) = Some n).
        { destruct (nth_error q (o + off)) as [x|] eqn:Q; [|apply nth_error_None in Q; lia].
          rewrite (prefix_nth _ _ _ _ Pk Q). rewrite <- Nth. symmetry. eapply prefix_nth; eauto. }
        assert (o + off < 2 * length k).
        { rewrite <- nibs_length. apply nth_error_Some. congruence. }
        destruct (Nat.ltb_spec (o + off) (2 * length k)); [|lia].
        rewrite key_nibble_nth, Nk, bit_test, T. cbn [negb]. rewrite <- L, E, pick_app.
        rewrite Forall_forall in IH, W. subst cs.
        destruct (IH c ltac:(auto with datatypes) (o + off) l q) as (r' & R' & I' & P'); auto.
        { apply W. auto with datatypes. }
        exists r'. repeat split; auto. apply in_leaves_mid; auto.
      + exists r. repeat split; auto. cbn [leaves] in *.
        destruct (leaf_child _ _ _ _ F I) as (n & _ & P1 & _).
        destruct (leaf_child _ _ _ _ F Ir) as (n' & _ & P2 & _).
        apply prefix_app_l in P1, P2.
        eapply prefix_trans; [|exact P2]. eapply prefix_trans_len; eauto. lia.
  Qed.

  (** Two leaves of a well-formed tree whose keys extend each other are the
      same leaf. *)
  Lemma wf_prefix_free t o l1 l2 : wf o t -> In l1 (leaves t) -> In l2 (leaves t) ->
    prefix (lkey l1) (lkey l2) -> l1 = l2.
  Proof.
    intros W I1 I2 P.
    pose proof (rep_longer (lkey l2) t o l1 W I1 P) as R1.
    assert (P2 : prefix (lkey l2) (lkey l2)) by (exists []; rewrite app_nil_r; auto).
    pose proof (rep_longer (lkey l2) t o l2 W I2 P2) as R2. congruence.
  Qed.

  (** ** Insertion *)
  Lemma firstn_S_nth {A} (l : list A) i x : nth_error l i = Some x -> firstn (S i) l = firstn i l ++ [x].
  Proof.
    revert i; induction l; intros [|i]; simpl; try discriminate.
    - congruence.
    - intros. f_equal. apply IHl; auto.
  Qed.

  Lemma prefix_firstn {A} i (l : list A) : prefix (firstn i l) l.
  Proof. exists (skipn i l). symmetry. apply firstn_skipn. Qed.

  Lemma prefix_firstn_nth {A} (l : list A) i x : nth_error l i = Some x -> prefix (firstn i l ++ [x]) l.
  Proof. intros H. rewrite <- (firstn_S_nth _ _ _ H). apply prefix_firstn. Qed.

  Section Ins.
    Variables (a : allocs) (l rep : leaf) (M : nat).
    Hypothesis HM : M = lcp (nibs (lkey rep)) (nibs (lkey l)).
    Hypothesis Hk : M < 2 * length (lkey l).
    Hypothesis Hr : M < 2 * length (lkey rep).

    Definition nomem : Prop :=
      a_leaf a = false \/ (exists n, a_jump a n = false) \/ a_node a = false.

    Definition good_change (o : nat) (t : tree) (res : changed) : Prop :=
      exists t' ok, res = Some (t', ok) /\ wf o t' /\ (o < M -> pos_node t -> pos_node t') /\
        (if ok : bool then Permutation (leaves t') (l :: leaves t)
         else Permutation (leaves t') (leaves t) /\ nomem).

    Lemma agree i : i < M -> nth_error (nibs (lkey l)) i = nth_error (nibs (lkey rep)) i.
    Proof. intros. symmetry. apply lcp_nth. lia. Qed.

    Lemma agree_firstn i : i <= M -> firstn i (nibs (lkey l)) = firstn i (nibs (lkey rep)).
    Proof.
      intros. pose proof (lcp_firstn (nibs (lkey rep)) (nibs (lkey l))) as E. rewrite <- HM in E.
      apply (f_equal (firstn i)) in E. rewrite !firstn_firstn in E.
      replace (Nat.min i M) with i in E by lia. auto.
    Qed.

    Lemma nibbles_at_M : exists x y, nth_error (nibs (lkey l)) M = Some x /\
      nth_error (nibs (lkey rep)) M = Some y /\ x <> y.
    Proof.
      destruct (nth_error (nibs (lkey l)) M) as [x|] eqn:Ex.
      2:{ apply nth_error_None in Ex. rewrite nibs_length in Ex. lia. }
      destruct (nth_error (nibs (lkey rep)) M) as [y|] eqn:Ey.
      2:{ apply nth_error_None in Ey. rewrite nibs_length in Ey. lia. }
      exists x, y. repeat split; auto. intros ->.
      apply (lcp_diff (nibs (lkey rep)) (nibs (lkey l))); rewrite <- ?HM, ?nibs_length; auto. congruence.
    Qed.

    (** trie_split, given that all leaves of [t] agree with [rep] up to and
        including nibble [M]. *)
    Lemma split_ok t o : wf o t -> pos_node t ->
      (forall l', In l' (leaves t) -> prefix (firstn (S M) (nibs (lkey rep))) (nibs (lkey l'))) ->
      o <= M -> M - o <= omax ->
      (match t with TLeaf _ => True | TNode _ off _ => M < o + off end) ->
      good_change o t (split a t l rep o M) .
    Proof.
      intros W Pn Hall HoM Hjump Hoff.
      destruct nibbles_at_M as (x & y & Ex & Ey & Hxy).
      unfold split. rewrite !key_nibble_nth, Ex, Ey.
      destruct (N.eqb_spec x y) as [|_]; [contradiction|].
      destruct (a_node a) eqn:An; cbn [negb].
      2:{ exists t, false. repeat split; auto. right; right; auto. }
      set (t' := match t with TNode b o0 cs => TNode b (o0 - (M - o)) cs | TLeaf _ => t end).
      assert (Lt : leaves t' = leaves t) by (destruct t; reflexivity).
      assert (Wt : wf M t' /\ pos_node t').
      { destruct t as [lf|b off cs]; cbn [t']; [split; exact I|].
        apply wf_node in W. destruct W as ((Hb & Ho & Hc) & (p & Lp & F) & W).
        replace (o + off) with (M + (off - (M - o))) in * by lia.
        split; [|cbn; lia].
        apply wf_node. repeat split; auto; [lia|]. exists p. auto. }
      assert (Bx : branch (firstn M (nibs (lkey rep))) x (TLeaf l)).
      { intros l' [<-|[]]. rewrite <- agree_firstn by lia. apply prefix_firstn_nth; auto. }
      assert (By : branch (firstn M (nibs (lkey rep))) y t').
      { intros l' Hl'. rewrite Lt in Hl'. rewrite <- (firstn_S_nth _ _ _ Ey). auto. }
      assert (Lp : length (firstn M (nibs (lkey rep))) = o + (M - o)).
      { rewrite firstn_length, nibs_length. lia. }
      assert (x < 16)%N by (eapply nib_lt; eauto). assert (y < 16)%N by (eapply nib_lt; eauto).
      assert (Hbm : (N.lor (N.shiftl 1 x) (N.shiftl 1 y) < 2 ^ 16)%N).
      { apply lor_bound; apply bit_bound; auto. }
      assert (Hsum : o + (M - o) = M) by lia.
      eexists _, true. split; [reflexivity|].
      split; [|split].
      - apply wf_node. rewrite Hsum. destruct (N.ltb_spec y x).
        + repeat split; auto; [discriminate| |repeat constructor; auto; apply Wt].
          exists (firstn M (nibs (lkey rep))). split; [lia|].
          rewrite lor_comm_shift, bits_pair by auto. repeat constructor; auto.
        + repeat split; auto; [discriminate| |repeat constructor; auto; apply Wt].
          exists (firstn M (nibs (lkey rep))). split; [lia|].
          rewrite bits_pair by (auto; lia). repeat constructor; auto.
      - intros. cbn. lia.
      - destruct (N.ltb_spec y x); cbn [leaves flat_map]; rewrite Lt, app_nil_r.
        + rewrite Permutation_app_comm. simpl. auto.
        + simpl. auto.
    Qed.

    Lemma jump_leaf_ok : forall fuel n o, M <= fuel + o -> o <= M ->
      good_change o (TLeaf rep) (jump_split omax a l rep M fuel n (TLeaf rep) o).
    Proof.
      assert (Sp : forall o, o <= M -> M - o <= omax ->
         good_change o (TLeaf rep) (split a (TLeaf rep) l rep o M)).
      { intros o Ho Hj. apply split_ok; auto; try exact I.
        intros l' [<-|[]]. apply prefix_firstn. }
      induction fuel as [|fuel IH]; intros n o Hf Ho; cbn [jump_split];
        destruct (Nat.ltb_spec omax (M - o)) as [Hj|Hj]; auto; [lia|].
      destruct (a_jump a n) eqn:An; cbn [negb].
      2:{ exists (TLeaf rep), false. repeat split; auto. right; left; eauto. }
      rewrite key_nibble_nth.
      destruct (nth_error (nibs (lkey rep)) (o + omax)) as [x|] eqn:Ex.
      2:{ apply nth_error_None in Ex. rewrite nibs_length in Ex. lia. }
      destruct (IH (S n) (o + omax) ltac:(lia) ltac:(lia)) as (c & ok & -> & Wc & Pc & Lc).
      assert (Hin : forall l', In l' (leaves c) -> l' = l \/ l' = rep).
      { intros l' I. destruct ok.
        - apply (Permutation_in _ Lc) in I. simpl in I. intuition auto.
        - destruct Lc as [Lc _]. apply (Permutation_in _ Lc) in I. simpl in I. intuition auto. }
      eexists _, ok. split; [reflexivity|]. split; [|split].
      - apply wf_node. assert (x < 16)%N by (eapply nib_lt; eauto).
        repeat split; auto; [apply bit_bound; auto|discriminate| |].
        + exists (firstn (o + omax) (nibs (lkey rep))).
          split; [rewrite firstn_length, nibs_length; lia|].
          rewrite bits_single by auto. repeat constructor.
          intros l' I. destruct (Hin _ I) as [->| ->].
          * rewrite <- agree_firstn by lia. apply prefix_firstn_nth. rewrite agree by lia. auto.
          * apply prefix_firstn_nth; auto.
        + repeat constructor; auto. apply Pc; [lia|exact I].
      - intros. cbn. auto.
      - cbn [leaves flat_map]. rewrite app_nil_r. exact Lc.
    Qed.

    Lemma insert_at_ok t : forall o, wf o t -> o <= M -> pos_node t \/ o = 0 ->
      representative (lkey l) t o = Some rep ->
      good_change o t (insert_at omax a l rep M t o).
    Proof.
      induction t as [l'|b off cs IH] using tree_rect'; intros o W Ho Hpos R.
      - simpl in R. injection R as ->. cbn [insert_at]. apply jump_leaf_ok; lia.
      - destruct (rep_exists (lkey l) _ _ W) as (r' & R' & Ir). rewrite R in R'. injection R' as <-.
        pose proof W as W0. apply wf_node in W. destruct W as ((Hb & Hoff & Hc) & (p & Lp & F) & W).
        cbn [insert_at].
        destruct (leaf_child _ _ _ _ F Ir) as (y & Ny & Py & Hy & Ty & c1 & c & c2 & E & L & F1 & B & F2 & Ic).
        rewrite Lp in Ny.
        destruct (Nat.ltb_spec M (o + off)) as [HM1|HM1].
        + (* the branch point is above this node *)
          assert (J : jump_split omax a l rep M M 0 (TNode b off cs) o = split a (TNode b off cs) l rep o M).
          { destruct M; cbn [jump_split]; destruct (Nat.ltb_spec omax (S n - o)) || destruct (Nat.ltb_spec omax (0 - o)); auto; lia. }
          rewrite J.
          destruct Hpos as [Hpos|Hpos].
          * apply split_ok; auto; [|lia].
            intros l' Hl'. destruct (leaf_child _ _ _ _ F Hl') as (n & _ & Pn & _).
            apply prefix_app_l in Py, Pn.
            eapply prefix_trans; [|exact Pn]. eapply prefix_trans_len; [apply prefix_firstn|exact Py|].
            rewrite firstn_length. lia.
          * apply split_ok; auto; [cbn; lia| |lia].
            intros l' Hl'. destruct (leaf_child _ _ _ _ F Hl') as (n & _ & Pn & _).
            apply prefix_app_l in Py, Pn.
            eapply prefix_trans; [|exact Pn]. eapply prefix_trans_len; [apply prefix_firstn|exact Py|].
            rewrite firstn_length. lia.
        + rewrite key_nibble_nth.
          destruct (nth_error (nibs (lkey l)) (o + off)) as [x|] eqn:Ex.
          2:{ apply nth_error_None in Ex. rewrite nibs_length in Ex. lia. }
          assert (Hx : (x < 16)%N) by (eapply nib_lt; eauto).
          rewrite bit_test. cbn [representative] in R.
          assert (o + off < 2 * length (lkey l)) by lia.
          destruct (Nat.ltb_spec (o + off) (2 * length (lkey l))); [|lia].
          rewrite key_nibble_nth, Ex, bit_test in R.
          destruct (N.testbit b x) eqn:Tx; cbn [negb] in R |- *.
          * (* go down *)
            clear E L F1 B F2 Ic c1 c c2.
            destruct (descend p b cs x F Hx Tx) as (d1 & d & d2 & E' & L' & G1 & D & G2).
            rewrite <- L', E', pick_app in R.
            assert (Hlt : o + off < M).
            { destruct (Nat.eq_dec (o + off) M) as [e|]; [|lia]. exfalso.
              destruct nibbles_at_M as (x' & y' & Ex' & Ey' & Hne). rewrite <- e in Ex', Ey'.
              assert (Id : In rep (leaves d)).
              { rewrite Forall_forall in W. assert (Ind : In d cs) by (subst; auto with datatypes). destruct (W d Ind) as [Wd _].
                destruct (rep_exists (lkey l) _ _ Wd) as (r' & R' & I'). congruence. }
              specialize (D _ Id).
              assert (nth_error (nibs (lkey rep)) (o + off) = Some x).
              { eapply prefix_nth; eauto. rewrite nth_error_app2 by lia. rewrite Lp, Nat.sub_diag. reflexivity. }
              congruence. }
            destruct (Nat.ltb_spec (o + off) M); [|lia].
            rewrite <- L', E', update_app.
            rewrite Forall_forall in IH, W.
            assert (Ind : In d cs) by (subst cs; auto with datatypes).
            destruct (W d Ind) as [Wd Pd].
            destruct (IH d Ind (o + off) Wd ltac:(lia) (or_introl Pd) R) as (t' & ok & -> & Wt & Pt & Lt).
            assert (Hin : forall l', In l' (leaves t') -> l' = l \/ In l' (leaves d)).
            { intros l' I. destruct ok.
              - apply (Permutation_in _ Lt) in I. simpl in I. intuition auto.
              - destruct Lt as [Lt _]. apply (Permutation_in _ Lt) in I. auto. }
            eexists _, ok. split; [reflexivity|]. split; [|split].
            { apply wf_node. repeat split; auto; [destruct d1; discriminate| |].
              - exists p. split; auto. rewrite (bits_split b x Hx), Tx.
                apply Forall2_app; auto. simpl. constructor; auto.
                intros l' I. destruct (Hin _ I) as [->|I']; auto.
                assert (Id : In rep (leaves d)).
                { destruct (rep_exists (lkey l) _ _ Wd) as (r' & R' & I'). congruence. }
                specialize (D _ Id).
                assert (Ep : p = firstn (o + off) (nibs (lkey rep))).
                { destruct D as [z Ez]. rewrite Ez. rewrite <- Lp, firstn_app, firstn_app, firstn_all.
                  rewrite app_length. replace (length p - (length p + length [x])) with 0 by lia.
                  rewrite Nat.sub_diag, firstn_O. simpl. rewrite !app_nil_r. auto. }
                rewrite Ep, <- agree_firstn by lia. apply prefix_firstn_nth; auto.
              - apply Forall_forall. intros c0 I0. apply in_app_iff in I0. destruct I0 as [I0|[<-|I0]].
                + apply W. subst cs. auto with datatypes.
                + split; auto.
                + apply W. subst cs. auto with datatypes. }
            { auto. }
            { cbn [leaves]. rewrite !flat_map_app. cbn [flat_map]. destruct ok.
              - rewrite Lt. simpl. symmetry. apply Permutation_middle.
              - destruct Lt as [Lt Hn]. split; auto. rewrite Lt. auto. }
          * (* insert here *)
            assert (HeqM : o + off = M).
            { destruct (Nat.eq_dec (o + off) M); auto. exfalso.
              assert (x = y) by (rewrite agree in Ex by lia; congruence). subst. congruence. }
            destruct (Nat.eqb_spec (o + off) M); [|lia].
            unfold node_insert.
            destruct (has_single_bit 32 (N.of_nat (count_ones b)) && negb (a_node a)) eqn:Eal.
            { eexists _, false. split; [reflexivity|]. split; [exact W0|]. split; auto. split; auto.
              right; right. destruct (a_node a); auto. rewrite andb_false_r in Eal. discriminate. }
            rewrite bit_test, Tx. cbn [negb].
            destruct (descend_unset p b cs x F Hx Tx) as (d1 & d2 & -> & L' & G1 & G2).
            rewrite <- L'. rewrite firstn_app, firstn_all, Nat.sub_diag, firstn_O, app_nil_r.
            rewrite skipn_app, skipn_all, Nat.sub_diag, skipn_O. cbn [app].
            eexists _, true. split; [reflexivity|]. split; [|split].
            { apply wf_node. repeat split; auto.
              - apply lor_bound; auto using bit_bound.
              - destruct d1; discriminate.
              - exists p. split; auto. rewrite bits_set by auto. apply Forall2_app; auto.
                constructor; auto. intros l' [<-|[]].
                assert (Ep : p = firstn (o + off) (nibs (lkey rep))).
                { destruct Py as [z Ez]. rewrite Ez. rewrite <- Lp, firstn_app, firstn_app, firstn_all.
                  rewrite app_length. replace (length p - (length p + length [y])) with 0 by lia.
                  rewrite Nat.sub_diag, firstn_O. simpl. rewrite !app_nil_r. auto. }
                rewrite Ep, <- agree_firstn by lia. apply prefix_firstn_nth; auto.
              - apply Forall_app in W. destruct W. apply Forall_app. split; auto.
                constructor; auto. split; exact I. }
            { auto. }
            { cbn [leaves]. rewrite !flat_map_app. cbn [flat_map leaves]. symmetry. apply Permutation_middle. }
    Qed.
  End Ins.

  (** ** Removal *)
  Lemma remove_at_ok l t : forall o, wf o t -> In l (leaves t) ->
    (remove_at omax l t o = Gone /\ leaves t = [l]) \/
    exists t', remove_at omax l t o = Kept t' /\ wf o t' /\ (pos_node t -> pos_node t') /\
      Permutation (leaves t) (l :: leaves t').
  Proof.
    induction t as [l'|b off cs IH] using tree_rect'; intros o W I.
    - simpl in I. destruct I as [->|[]]. left. cbn. unfold leaf_is. rewrite Nat.eqb_refl. auto.
    - pose proof W as W0. apply wf_node in W. destruct W as ((Hb & Hoff & Hc) & (p & Lp & F) & W).
      cbn [leaves] in I.
      destruct (leaf_child _ _ _ _ F I) as (n & Nn & _ & Hn & T & c1 & c & c2 & E & L & F1 & B & F2 & Ic).
      cbn [remove_at]. rewrite Lp in Nn. rewrite key_nibble_nth, Nn, bit_test, T. cbn [negb].
      rewrite <- L, E, pick_removed_app.
      rewrite Forall_forall in IH. rewrite Forall_forall in W.
      assert (Inc : In c cs) by (subst cs; auto with datatypes).
      destruct (W c Inc) as [Wc Pc].
      destruct (IH c Inc _ Wc Ic) as [[-> Lc]|(t' & -> & Wt & Pt & Lt)].
      2:{ right. rewrite replace_nth_app. eexists. split; [reflexivity|]. split; [|split].
          - apply wf_node. repeat split; auto; [destruct c1; discriminate| |].
            + exists p. split; auto. rewrite (bits_split b n Hn), T. apply Forall2_app; auto.
              constructor; auto. intros l' I'. apply B. eapply Permutation_in; [symmetry; exact Lt|]. simpl; auto.
            + apply Forall_forall. intros c0 I0. apply in_app_iff in I0. destruct I0 as [I0|[<-|I0]].
              * apply W. subst cs. auto with datatypes.
              * auto.
              * apply W. subst cs. auto with datatypes.
          - auto.
          - cbn [leaves]. rewrite !flat_map_app. cbn [flat_map]. rewrite Lt. simpl. symmetry. apply Permutation_middle. }
      assert (Hlen : length (bits b) = length cs) by (eapply Forall2_length; eauto).
      rewrite has_single_bit_ones, count_bits, Hlen by auto.
      destruct (Nat.eqb_spec (length cs) 1) as [H1|H1].
      { left. split; auto. cbn [leaves]. subst cs. rewrite app_length in H1. simpl in H1.
        destruct c1; [|simpl in *; lia]. destruct c2; [|simpl in *; lia].
        simpl. rewrite Lc. reflexivity. }
      right.
      assert (Shr : wf o (TNode (N.land b (N.lxor (N.ones 32) (N.shiftl 1 n))) off (c1 ++ c2)) /\
                    Permutation (leaves (TNode b off (c1 ++ c :: c2)))
                      (l :: leaves (TNode (N.land b (N.lxor (N.ones 32) (N.shiftl 1 n))) off (c1 ++ c2)))).
      { split.
        - apply wf_node. repeat split; auto.
          + apply land_bound; auto.
          + intros E0. apply app_eq_nil in E0. destruct E0 as [-> ->]. subst cs. simpl in H1. lia.
          + exists p. split; auto. rewrite bits_unset by auto. apply Forall2_app; auto.
          + apply Forall_forall. intros c0 I0. apply W. subst cs. apply in_app_iff in I0. apply in_app_iff. simpl. tauto.
        - cbn [leaves]. rewrite !flat_map_app. cbn [flat_map]. rewrite Lc. simpl. symmetry. apply Permutation_middle. }
      rewrite remove_nth_app.
      destruct (Nat.eqb_spec (length cs) 2) as [H2|H2].
      2:{ eexists. split; [reflexivity|]. split; [apply Shr|]. split; auto. apply Shr. }
      assert (Oth : exists other, nth_error (c1 ++ c :: c2) (1 - length c1) = Some other /\
         c1 ++ c2 = [other] /\ In other cs).
      { clear - E H2. subst cs. rewrite app_length in H2. simpl in H2.
        destruct c1 as [|x [|]]; simpl in *; try lia.
        - destruct c2 as [|y [|]]; simpl in *; try lia. exists y. auto.
        - destruct c2; simpl in *; try lia. exists x. auto. }
      destruct Oth as (other & Nth & Eo & Io).
      destruct Shr as [Shr1 Shr2].
      assert (Hrem : Permutation (leaves (TNode b off (c1 ++ c :: c2))) (l :: leaves other)).
      { rewrite Shr2. cbn [leaves]. rewrite Eo. cbn [flat_map]. rewrite app_nil_r. auto. }
      unfold collapse_node. rewrite Nth.
      destruct other as [lo|b' off' cs'].
      + exists (TLeaf lo). split; [reflexivity|]. split; [exact Logic.I|].
        split; [intros _; exact Logic.I|exact Hrem].
      + destruct (Nat.leb_spec (off' + off) omax).
        * eexists. split; [reflexivity|]. split; [|split].
          { destruct (W _ Io) as [Wo Po]. apply wf_node in Wo. apply wf_node.
            destruct Wo as ((? & ? & ?) & (p' & Lp' & F') & W').
            replace (o + (off' + off)) with (o + off + off') by lia.
            repeat split; auto. exists p'. auto. }
          { cbn. lia. }
          { exact Hrem. }
        * eexists. split; [reflexivity|]. split; [exact Shr1|]. split; [auto|]. exact Shr2.
  Qed.
End Proofs.
