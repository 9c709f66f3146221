(** Lemmas about bitmaps and nibbles used by the trie proofs. *)
From Coq Require Import List ZArith NArith Arith Bool Lia ZifyBool ZifyNat ZifyN.
From Coq Require Import Init.Byte.
From Coq Require Strings.Byte.
From Verif Require Import TrieModel TrieSpec.
Import ListNotations.
Ltac Zify.zify_post_hook ::= Z.div_mod_to_equations.

Definition nseq (a len : nat) : list N := map N.of_nat (seq a len).
Definition bits (bm : N) : list N := filter (N.testbit bm) (nseq 0 16).

Lemma nseq_app a b c : nseq a (b + c) = nseq a b ++ nseq (a + b) c.
Proof. unfold nseq. rewrite seq_app, map_app. reflexivity. Qed.

Lemma filter_ext_in' {A} (f g : A -> bool) l :
  (forall x, In x l -> f x = g x) -> filter f l = filter g l.
Proof. apply filter_ext_in. Qed.

Lemma filter_none {A} (f : A -> bool) l : (forall x, In x l -> f x = false) -> filter f l = [].
Proof.
  induction l; simpl; intros H; auto.
  rewrite H by auto. apply IHl; auto.
Qed.

Lemma in_nseq x a n : In x (nseq a n) <-> (N.of_nat a <= x < N.of_nat (a + n))%N.
Proof.
  unfold nseq. rewrite in_map_iff. setoid_rewrite in_seq. split.
  - intros [y [<- H]]. lia.
  - intros H. exists (N.to_nat x). lia.
Qed.

Lemma filter_succ (f : N -> bool) a n :
  length (filter f (nseq (S a) n)) = length (filter (fun i => f (N.succ i)) (nseq a n)).
Proof.
  unfold nseq. rewrite <- seq_shift, map_map.
  induction (seq a n) as [|x l IH]; auto.
  cbn [map filter]. rewrite Nat2N.inj_succ.
  destruct (f (N.succ (N.of_nat x))); cbn [length]; rewrite <- IH; auto.
Qed.

Lemma count_ones_filter w : forall x, (x < 2 ^ N.of_nat w)%N ->
  count_ones x = length (filter (N.testbit x) (nseq 0 w)).
Proof.
  induction w as [|w IH]; intros x Hx.
  - simpl in Hx. assert (x = 0%N) by lia. subst. reflexivity.
  - assert (Hd : (N.div2 x < 2 ^ N.of_nat w)%N).
    { rewrite Nat2N.inj_succ, N.pow_succ_r' in Hx. rewrite N.div2_div. lia. }
    change (nseq 0 (S w)) with (0%N :: nseq 1 w). cbn [filter].
    specialize (IH _ Hd).
    assert (E : length (filter (N.testbit x) (nseq 1 w)) = count_ones (N.div2 x)).
    { rewrite filter_succ, IH. f_equal. apply filter_ext_in'. intros i _.
      rewrite N.div2_spec. rewrite N.shiftr_spec' . rewrite N.add_1_r. reflexivity. }
    destruct x as [|[p|p|]]; cbn [N.testbit Pos.testbit]; cbn [length]; rewrite ?E; try reflexivity.
Qed.

Lemma shiftl_1 n : N.shiftl 1 n = (2 ^ n)%N.
Proof. rewrite N.shiftl_mul_pow2. lia. Qed.

Lemma testbit_pow2 n i : N.testbit (2 ^ n) i = (n =? i)%N.
Proof.
  destruct (N.eqb_spec n i); subst. apply N.pow2_bits_true. apply N.pow2_bits_false; auto.
Qed.

Lemma bit_test bm n : (N.land bm (N.shiftl 1 n) =? 0)%N = negb (N.testbit bm n).
Proof.
  rewrite shiftl_1. destruct (N.testbit bm n) eqn:E; simpl.
  - apply N.eqb_neq. intros H.
    assert (H1 : N.testbit (N.land bm (2 ^ n)) n = false) by (rewrite H; apply N.bits_0).
    rewrite N.land_spec, E, N.pow2_bits_true in H1. discriminate.
  - apply N.eqb_eq. apply N.bits_inj_0. intros i. rewrite N.land_spec, testbit_pow2.
    destruct (N.eqb_spec n i); subst. rewrite E. auto. apply andb_false_r.
Qed.

Lemma ones_low n : (2 ^ n - 1 = N.ones n)%N.
Proof. rewrite N.ones_equiv. lia. Qed.

Lemma testbit_low bm n i : N.testbit (N.land bm (N.shiftl 1 n - 1)) i = N.testbit bm i && (i <? n)%N.
Proof.
  rewrite shiftl_1, ones_low, N.land_spec.
  destruct (N.ltb_spec i n).
  - rewrite N.ones_spec_low; auto.
  - rewrite N.ones_spec_high; auto.
Qed.

Definition low (bm n : N) : list N := filter (N.testbit bm) (nseq 0 (N.to_nat n)).
Definition high (bm n : N) : list N := filter (N.testbit bm) (nseq (S (N.to_nat n)) (15 - N.to_nat n)).

Lemma bits_split bm n : (n < 16)%N ->
  bits bm = low bm n ++ (if N.testbit bm n then [n] else []) ++ high bm n.
Proof.
  intros H. unfold bits, low, high.
  replace 16 with (N.to_nat n + (1 + (15 - N.to_nat n))) at 1 by lia.
  rewrite !nseq_app, !filter_app. f_equal.
  replace (0 + N.to_nat n) with (N.to_nat n) by lia.
  replace (N.to_nat n + 1) with (S (N.to_nat n)) by lia. f_equal.
  unfold nseq. simpl. rewrite N2Nat.id. destruct (N.testbit bm n); reflexivity.
Qed.

Lemma count_low bm n : (n < 16)%N ->
  count_ones (N.land bm (N.shiftl 1 n - 1)) = length (low bm n).
Proof.
  intros H. rewrite (count_ones_filter (N.to_nat n)).
  - unfold low. f_equal. apply filter_ext_in'. intros x Hx. apply in_nseq in Hx.
    rewrite testbit_low. destruct (N.ltb_spec x n); [|lia]. apply andb_true_r.
  - rewrite N2Nat.id. rewrite shiftl_1, ones_low, N.land_ones. apply N.mod_lt. apply N.pow_nonzero. lia.
Qed.

Lemma low_ext bm bm' n : (forall i, (i < n)%N -> N.testbit bm i = N.testbit bm' i) -> low bm n = low bm' n.
Proof. intros H. apply filter_ext_in'. intros x Hx. apply in_nseq in Hx. apply H. lia. Qed.

Lemma high_ext bm bm' n : (n < 16)%N -> (forall i, (n < i < 16)%N -> N.testbit bm i = N.testbit bm' i) -> high bm n = high bm' n.
Proof. intros Hn H. apply filter_ext_in'. intros x Hx. apply in_nseq in Hx. apply H. lia. Qed.

Lemma bits_set bm n : (n < 16)%N ->
  bits (N.lor bm (N.shiftl 1 n)) = low bm n ++ n :: high bm n.
Proof.
  intros H. rewrite (bits_split _ n H).
  assert (T : forall i, N.testbit (N.lor bm (N.shiftl 1 n)) i = N.testbit bm i || (n =? i)%N).
  { intros. rewrite shiftl_1, N.lor_spec, testbit_pow2. reflexivity. }
  rewrite T, N.eqb_refl, orb_true_r.
  rewrite (low_ext _ bm), (high_ext _ bm); auto.
  - intros i Hi. rewrite T. destruct (N.eqb_spec n i); [lia|]. apply orb_false_r.
  - intros i Hi. rewrite T. destruct (N.eqb_spec n i); [lia|]. apply orb_false_r.
Qed.

Lemma count_low_set bm n : (n < 16)%N ->
  count_ones (N.land (N.lor bm (N.shiftl 1 n)) (N.shiftl 1 n - 1)) = length (low bm n).
Proof.
  intros H. rewrite count_low by auto. f_equal. apply low_ext. intros i Hi.
  rewrite shiftl_1, N.lor_spec, testbit_pow2. destruct (N.eqb_spec n i); [lia|]. apply orb_false_r.
Qed.

Lemma bits_unset bm n : (n < 16)%N ->
  bits (N.land bm (N.lxor (N.ones 32) (N.shiftl 1 n))) = low bm n ++ high bm n.
Proof.
  intros H. rewrite (bits_split _ n H).
  assert (T : forall i, (i < 16)%N -> N.testbit (N.land bm (N.lxor (N.ones 32) (N.shiftl 1 n))) i
              = N.testbit bm i && negb (n =? i)%N).
  { intros. rewrite shiftl_1, N.land_spec, N.lxor_spec, testbit_pow2.
    rewrite N.ones_spec_low by lia. reflexivity. }
  rewrite T, N.eqb_refl, andb_false_r by auto. rewrite app_nil_l.
  rewrite (low_ext _ bm), (high_ext _ bm); auto.
  - intros i Hi. rewrite T by lia. destruct (N.eqb_spec n i); [lia|]. apply andb_true_r.
  - intros i Hi. rewrite T by lia. destruct (N.eqb_spec n i); [lia|]. apply andb_true_r.
Qed.

Lemma bits_single n : (n < 16)%N -> bits (N.shiftl 1 n) = [n].
Proof.
  intros H. rewrite shiftl_1, (bits_split _ n H), N.pow2_bits_true.
  unfold low, high. rewrite !filter_none; auto.
  - intros x Hx. apply in_nseq in Hx. rewrite testbit_pow2. apply N.eqb_neq. lia.
  - intros x Hx. apply in_nseq in Hx. rewrite testbit_pow2. apply N.eqb_neq. lia.
Qed.

Lemma bits_pair n m : (n < 16)%N -> (m < 16)%N -> (n < m)%N ->
  bits (N.lor (N.shiftl 1 n) (N.shiftl 1 m)) = [n; m].
Proof.
  intros Hn Hm H. rewrite bits_set by auto. rewrite shiftl_1.
  pose proof (bits_single n Hn) as S. rewrite shiftl_1, (bits_split _ m Hm), testbit_pow2 in S.
  destruct (N.eqb_spec n m); [lia|]. simpl in S.
  assert (In n (low (2 ^ n) m)).
  { apply filter_In. split; [apply in_nseq; lia | apply N.pow2_bits_true]. }
  assert (HH : high (2 ^ n) m = []).
  { destruct (low (2 ^ n) m) as [|x [|y r]]; destruct (high (2 ^ n) m); simpl in *; try discriminate; tauto. }
  rewrite HH in *. rewrite app_nil_r in S. rewrite S. reflexivity.
Qed.

Lemma lor_comm_shift n m : N.lor (N.shiftl 1 n) (N.shiftl 1 m) = N.lor (N.shiftl 1 m) (N.shiftl 1 n).
Proof. apply N.lor_comm. Qed.

Lemma in_bits bm n : In n (bits bm) <-> (n < 16)%N /\ N.testbit bm n = true.
Proof.
  unfold bits. rewrite filter_In, in_nseq. change (N.of_nat (0+16)) with 16%N. intuition lia.
Qed.

Lemma count_bits bm : (bm < 2 ^ 16)%N -> count_ones bm = length (bits bm).
Proof. intros. apply (count_ones_filter 16). auto. Qed.

Lemma lor_bound a b w : (a < 2 ^ w)%N -> (b < 2 ^ w)%N -> (N.lor a b < 2 ^ w)%N.
Proof.
  intros Ha Hb.
  destruct (N.eq_dec a 0) as [->|Ea]; [rewrite N.lor_0_l; auto|].
  destruct (N.eq_dec b 0) as [->|Eb]; [rewrite N.lor_0_r; auto|].
  destruct (N.eq_dec (N.lor a b) 0) as [->|E]; [lia|].
  apply N.log2_lt_pow2; [lia|]. rewrite N.log2_lor.
  apply N.max_lub_lt; apply N.log2_lt_pow2; lia.
Qed.

Lemma land_bound a b w : (a < 2 ^ w)%N -> (N.land a b < 2 ^ w)%N.
Proof.
  intros Ha.
  replace a with (a mod 2 ^ w)%N by (apply N.mod_small; auto).
  rewrite <- N.land_ones, <- N.land_assoc, (N.land_comm _ b), N.land_assoc, N.land_ones.
  apply N.mod_lt, N.pow_nonzero. lia.
Qed.

Lemma bit_bound n : (n < 16)%N -> (N.shiftl 1 n < 2 ^ 16)%N.
Proof. intros. rewrite shiftl_1. apply N.pow_lt_mono_r; lia. Qed.

(** Checking all words of [w] bits *)
Fixpoint all_words (w : nat) (f : N -> bool) (acc : N) : bool :=
  match w with
  | 0 => f acc
  | S w => all_words w f (2 * acc) && all_words w f (2 * acc + 1)
  end.

Lemma all_words_spec w f : forall acc, all_words w f acc = true ->
  forall x, (x < 2 ^ N.of_nat w)%N -> f (acc * 2 ^ N.of_nat w + x)%N = true.
Proof.
  induction w as [|w IH]; intros acc H x Hx.
  - simpl in *. rewrite N.mul_1_r. assert (x = 0%N) by lia. subst. rewrite N.add_0_r. auto.
  - cbn [all_words] in H. apply andb_true_iff in H. destruct H as [H1 H2].
    rewrite Nat2N.inj_succ, N.pow_succ_r' in *.
    destruct (N.ltb_spec x (2 ^ N.of_nat w)).
    + specialize (IH _ H1 _ H). rewrite <- IH. f_equal. lia.
    + specialize (IH _ H2 (x - 2 ^ N.of_nat w)%N). rewrite <- IH by lia. f_equal. lia.
Qed.

(** A power of two has exactly one bit. *)
Lemma has_single_bit_ones bm : (bm < 2 ^ 16)%N ->
  has_single_bit 32 bm = (length (bits bm) =? 1).
Proof.
  intros H.
  assert (All : all_words 16 (fun b => Bool.eqb (has_single_bit 32 b) (length (bits b) =? 1)) 0 = true)
    by (vm_compute; reflexivity).
  apply eqb_prop. apply (all_words_spec _ _ _ All bm). exact H.
Qed.

(** Nibbles of a key *)
Definition nibbles_of (b : byte) : list N :=
  [N.shiftr (Byte.to_N b) 4; N.land (Byte.to_N b) 15].
Definition nibs (k : key) : list N := flat_map nibbles_of k.

Lemma nibs_length k : length (nibs k) = 2 * length k.
Proof. induction k; simpl in *; lia. Qed.

Lemma nibs_app a b : nibs (a ++ b) = nibs a ++ nibs b.
Proof. apply flat_map_app. Qed.

Lemma key_nibble_nth k o : key_nibble k o = nth_error (nibs k) o.
Proof.
  unfold key_nibble. revert o. induction k as [|b k IH]; intros o.
  - cbn [nibs flat_map]. generalize (o / 2). intros []; destruct o; reflexivity.
  - destruct o as [|[|o]].
    + simpl. destruct b; reflexivity.
    + simpl. destruct b; reflexivity.
    + replace (S (S o) / 2) with (S (o / 2)) by lia.
      replace ((S (S o) + 1) mod 2) with ((o + 1) mod 2) by lia.
      simpl nth_error. apply IH.
Qed.

Lemma to_N_inj a b : Byte.to_N a = Byte.to_N b -> a = b.
Proof.
  intros H. assert (E : Byte.of_N (Byte.to_N a) = Byte.of_N (Byte.to_N b)) by congruence.
  rewrite !Byte.of_to_N in E. congruence.
Qed.

Lemma to_N_lt a : (Byte.to_N a < 256)%N.
Proof. pose proof (Byte.to_N_bounded a). lia. Qed.

Lemma byte_nibbles b : (Byte.to_N b = 16 * N.shiftr (Byte.to_N b) 4 + N.land (Byte.to_N b) 15)%N.
Proof. destruct b; reflexivity. Qed.

Lemma nibbles_inj a b : nibbles_of a = nibbles_of b -> a = b.
Proof.
  intros H.
  assert (H1 : N.shiftr (Byte.to_N a) 4 = N.shiftr (Byte.to_N b) 4)
    by exact (f_equal (fun l => nth 0 l 0%N) H).
  assert (H2 : N.land (Byte.to_N a) 15 = N.land (Byte.to_N b) 15)
    by exact (f_equal (fun l => nth 1 l 0%N) H).
  apply to_N_inj. rewrite (byte_nibbles a), (byte_nibbles b), H1, H2. reflexivity.
Qed.

Lemma app_inv_len {A} (a b c d : list A) : a ++ b = c ++ d -> length a = length c -> a = c /\ b = d.
Proof.
  revert c. induction a as [|x a IH]; intros [|y c] H L; try discriminate; auto.
  injection H as -> H. injection L as L. destruct (IH _ H L). split; congruence.
Qed.

Lemma nibs_inj a b : nibs a = nibs b -> a = b.
Proof.
  revert b; induction a as [|x a IH]; intros [|y b] H; try discriminate; auto.
  change (nibbles_of x ++ nibs a = nibbles_of y ++ nibs b) in H.
  apply app_inv_len in H; [|reflexivity]. destruct H as [H1 H2]. f_equal; auto using nibbles_inj.
Qed.

Lemma nib_lt k o n : nth_error (nibs k) o = Some n -> (n < 16)%N.
Proof.
  intros H. apply nth_error_In in H. unfold nibs in H. apply in_flat_map in H.
  destruct H as [b [_ [<-|[<-|[]]]]]; destruct b; reflexivity.
Qed.

Lemma prefix_nibs a b : prefix (nibs a) (nibs b) <-> prefix a b.
Proof.
  split.
  - revert b. induction a as [|x a IH]; intros b [c H].
    + exists b. reflexivity.
    + destruct b as [|y b]; [discriminate|].
      change (nibbles_of y ++ nibs b = nibbles_of x ++ (nibs a ++ c)) in H.
      apply app_inv_len in H; [|reflexivity]. destruct H as [H1 H2].
      destruct (IH b) as [d ->]. { exists c. auto. }
      exists d. simpl. f_equal. apply nibbles_inj; auto.
  - intros [c ->]. exists (nibs c). apply nibs_app.
Qed.

Lemma prefix_nth {A} (p l : list A) i x : prefix p l -> nth_error p i = Some x -> nth_error l i = Some x.
Proof.
  intros [c ->] H. rewrite nth_error_app1; auto. apply nth_error_Some. congruence.
Qed.

Lemma key_eqb_spec a b : reflect (a = b) (key_eqb a b).
Proof.
  revert b; induction a as [|x a IH]; intros [|y b]; simpl; try (constructor; congruence).
  destruct (Byte.eqb x y) eqn:E; simpl.
  - apply Byte.byte_dec_bl in E. subst. destruct (IH b); constructor; congruence.
  - constructor. intros H. injection H as -> ->. rewrite Byte.byte_dec_lb in E by auto. discriminate.
Qed.

Lemma Forall2_length {A B} (R : A -> B -> Prop) l1 l2 : Forall2 R l1 l2 -> length l1 = length l2.
Proof. induction 1; simpl; congruence. Qed.
