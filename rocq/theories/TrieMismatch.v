(** trie_mismatch returns the length of the longest common nibble prefix. *)
From Coq Require Import List ZArith NArith Arith Bool Lia ZifyBool ZifyNat ZifyN.
From Coq Require Import Init.Byte.
From Coq Require Strings.Byte.
From Verif Require Import TrieModel TrieSpec TrieBits.
Import ListNotations.
Ltac Zify.zify_post_hook ::= Z.div_mod_to_equations.

Fixpoint lcp (a b : list N) : nat :=
  match a, b with
  | x :: a, y :: b => if (x =? y)%N then S (lcp a b) else 0
  | _, _ => 0
  end.

Lemma lcp_app p a b : lcp (p ++ a) (p ++ b) = length p + lcp a b.
Proof. induction p; simpl; auto. rewrite N.eqb_refl. lia. Qed.

Lemma lcp_le_l a b : lcp a b <= length a.
Proof. revert b. induction a; intros []; simpl; try lia. destruct (a =? n)%N; [|lia]. specialize (IHa l). lia. Qed.

Lemma lcp_comm a b : lcp a b = lcp b a.
Proof. revert b. induction a; intros []; simpl; auto. rewrite N.eqb_sym. destruct (n =? a)%N; auto. Qed.

Lemma lcp_le_r a b : lcp a b <= length b.
Proof. rewrite lcp_comm. apply lcp_le_l. Qed.

Lemma lcp_firstn a b : firstn (lcp a b) a = firstn (lcp a b) b.
Proof.
  revert b. induction a; intros []; simpl; auto.
  destruct (N.eqb_spec a n); subst; simpl; auto. f_equal. auto.
Qed.

Lemma lcp_nth a b i : i < lcp a b -> nth_error a i = nth_error b i.
Proof.
  revert b i. induction a; intros [] i; simpl; try lia.
  destruct (N.eqb_spec a n); subst; simpl; [|lia].
  intros. destruct i; simpl; auto. apply IHa. lia.
Qed.

Lemma lcp_diff a b : lcp a b < length a -> lcp a b < length b ->
  nth_error a (lcp a b) <> nth_error b (lcp a b).
Proof.
  revert b. induction a; intros []; simpl; try lia.
  destruct (N.eqb_spec a n); subst; simpl.
  - intros. apply IHa; lia.
  - intros _ _ H. congruence.
Qed.

Lemma load_be_acc l : forall acc,
  fold_left (fun acc b => (acc * 256 + Byte.to_N b)%N) l acc
  = (acc * 256 ^ N.of_nat (length l) + load_be l)%N.
Proof.
  unfold load_be. induction l as [|x l IH]; intros acc; cbn [fold_left length].
  - rewrite N.mul_1_r. lia.
  - rewrite IH. rewrite (IH (0 * 256 + Byte.to_N x)%N).
    rewrite Nat2N.inj_succ, N.pow_succ_r'. lia.
Qed.

Lemma load_be_cons x l : load_be (x :: l) = (Byte.to_N x * 2 ^ (8 * N.of_nat (length l)) + load_be l)%N.
Proof.
  unfold load_be. cbn [fold_left]. rewrite load_be_acc. rewrite N.pow_mul_r.
  change (2 ^ 8)%N with 256%N. unfold load_be. lia.
Qed.

Lemma load_be_bound l : (load_be l < 2 ^ (8 * N.of_nat (length l)))%N.
Proof.
  induction l as [|x l IH].
  - reflexivity.
  - rewrite load_be_cons. cbn [length]. pose proof (to_N_lt x).
    rewrite Nat2N.inj_succ, N.mul_succ_r, N.pow_add_r. change (2 ^ 8)%N with 256%N. nia.
Qed.

Lemma lxor_shift a b x y k : (x < 2 ^ k)%N -> (y < 2 ^ k)%N ->
  N.lxor (a * 2 ^ k + x) (b * 2 ^ k + y) = (N.lxor a b * 2 ^ k + N.lxor x y)%N.
Proof.
  intros Hx Hy.
  assert (D : forall c z, (z < 2 ^ k)%N -> (c * 2 ^ k + z = N.lxor (N.shiftl c k) z)%N).
  { intros c z Hz. rewrite N.shiftl_mul_pow2. symmetry. rewrite <- N.shiftl_mul_pow2.
    rewrite N.add_nocarry_lxor; auto.
    apply N.bits_inj_0. intros i. rewrite N.land_spec.
    destruct (N.ltb_spec i k).
    - rewrite N.shiftl_spec_low; auto.
    - replace z with (z mod 2 ^ k)%N by (apply N.mod_small; auto).
      rewrite N.mod_pow2_bits_high by auto. apply andb_false_r. }
  assert (Hxy : (N.lxor x y < 2 ^ k)%N).
  { destruct (N.eq_dec (N.lxor x y) 0) as [->|E]; [lia|].
    replace (N.lxor x y) with ((N.lxor x y) mod 2 ^ k)%N.
    - apply N.mod_lt. apply N.pow_nonzero. lia.
    - rewrite <- N.land_ones. apply N.bits_inj. intros i. rewrite N.land_spec, N.lxor_spec.
      destruct (N.ltb_spec i k).
      + rewrite N.ones_spec_low, andb_true_r; auto.
      + rewrite N.ones_spec_high, andb_false_r by auto.
        rewrite <- (N.mod_small x (2 ^ k)), <- (N.mod_small y (2 ^ k)) by auto.
        rewrite !N.mod_pow2_bits_high; auto. }
  rewrite !D by auto. rewrite N.shiftl_lxor.
  rewrite !N.lxor_assoc. f_equal. rewrite <- !N.lxor_assoc. f_equal. apply N.lxor_comm.
Qed.

Lemma size_shift d r k : (r < 2 ^ k)%N -> d <> 0%N -> N.size (d * 2 ^ k + r) = (k + N.size d)%N.
Proof.
  intros Hr Hd. assert (0 < 2 ^ k)%N by lia.
  assert (d * 2 ^ k + r <> 0)%N by nia.
  rewrite !N.size_log2 by auto.
  rewrite N.add_succ_r. f_equal.
  assert (E : N.log2 ((d * 2 ^ k + r) / 2 ^ k) = (N.log2 (d * 2 ^ k + r) - k)%N).
  { rewrite <- N.shiftr_div_pow2. apply N.log2_shiftr. }
  rewrite N.div_add_l, N.div_small, N.add_0_r in E by lia.
  assert (k <= N.log2 (d * 2 ^ k + r))%N; [|lia].
  apply N.log2_le_pow2; nia.
Qed.

Lemma lxor_lt a b w : (a < 2 ^ w)%N -> (b < 2 ^ w)%N -> (N.lxor a b < 2 ^ w)%N.
Proof.
  intros Ha Hb.
  destruct (N.eq_dec a 0) as [->|Ea]; [rewrite N.lxor_0_l; auto|].
  destruct (N.eq_dec b 0) as [->|Eb]; [rewrite N.lxor_0_r; auto|].
  destruct (N.eq_dec (N.lxor a b) 0) as [->|E]; [lia|].
  apply N.log2_lt_pow2; [lia|]. pose proof (N.log2_lxor a b).
  assert (N.log2 a < w)%N by (apply N.log2_lt_pow2; lia).
  assert (N.log2 b < w)%N by (apply N.log2_lt_pow2; lia). lia.
Qed.

Lemma byte_diff x y : x <> y ->
  N.lxor (Byte.to_N x) (Byte.to_N y) <> 0%N /\
  (8 - N.to_nat (N.size (N.lxor (Byte.to_N x) (Byte.to_N y)))) / 4
  = lcp (nibbles_of x) (nibbles_of y) /\ lcp (nibbles_of x) (nibbles_of y) < 2.
Proof.
  intros H. set (d := N.lxor (Byte.to_N x) (Byte.to_N y)).
  assert (Hd : d <> 0%N). { intros E. apply N.lxor_eq in E. apply to_N_inj in E. auto. }
  assert (Hb : (d < 2 ^ 8)%N) by (apply lxor_lt; apply to_N_lt).
  split; auto.
  assert (Hs : N.shiftr d 4 = N.lxor (N.shiftr (Byte.to_N x) 4) (N.shiftr (Byte.to_N y) 4)).
  { apply N.shiftr_lxor. }
  rewrite N.size_log2 by auto.
  assert (N.log2 d < 8)%N by (apply N.log2_lt_pow2; lia).
  unfold nibbles_of. cbn [lcp].
  destruct (N.eqb_spec (N.shiftr (Byte.to_N x) 4) (N.shiftr (Byte.to_N y) 4)) as [E|E].
  - rewrite E, N.lxor_nilpotent, N.shiftr_div_pow2 in Hs.
    assert (N.log2 d < 4)%N. { apply N.log2_lt_pow2; [lia|]. change (2 ^ 4)%N with 16%N in *. lia. }
    destruct (N.eqb_spec (N.land (Byte.to_N x) 15) (N.land (Byte.to_N y) 15)).
    + exfalso. apply H. apply nibbles_inj. unfold nibbles_of. congruence.
    + split; [|lia]. lia.
  - split; [|lia].
    assert (4 <= N.log2 d)%N.
    { apply N.log2_le_pow2; [lia|]. destruct (N.leb_spec (2 ^ 4) d); auto. exfalso. apply E.
      apply N.lxor_eq. rewrite <- Hs. rewrite N.shiftr_div_pow2. apply N.div_small; auto. }
    lia.
Qed.

Lemma lxor_0_iff a b : N.lxor a b = 0%N <-> a = b.
Proof. split. apply N.lxor_eq. intros ->. apply N.lxor_nilpotent. Qed.

Lemma chunk_diff a : forall b, length a = length b ->
  leading_zeros (8 * length a) (N.lxor (load_be a) (load_be b)) / 4 = lcp (nibs a) (nibs b) /\
  (load_be a = load_be b <-> a = b).
Proof.
  unfold leading_zeros. induction a as [|x a IH]; intros [|y b] L; try discriminate.
  - split; [reflexivity|tauto].
  - injection L as L. destruct (IH b L) as [IH1 IH2].
    rewrite !load_be_cons, <- L.
    pose proof (load_be_bound a) as Ba. pose proof (load_be_bound b) as Bb. rewrite <- L in Bb.
    rewrite lxor_shift by auto.
    assert (Hn : lcp (nibs (x :: a)) (nibs (y :: b)) =
                 if Byte.eqb x y then 2 + lcp (nibs a) (nibs b) else lcp (nibbles_of x) (nibbles_of y)).
    { change (nibs (x :: a)) with (nibbles_of x ++ nibs a).
      change (nibs (y :: b)) with (nibbles_of y ++ nibs b).
      destruct (Byte.eqb x y) eqn:E.
      - apply Byte.byte_dec_bl in E. subst. apply lcp_app.
      - apply Byte.eqb_false in E. destruct (byte_diff x y E) as (_ & _ & H2).
        revert H2. unfold nibbles_of. cbn [lcp app].
        destruct (_ =? _)%N; auto. destruct (_ =? _)%N; auto. lia. }
    rewrite Hn. destruct (Byte.eqb x y) eqn:E.
    + apply Byte.byte_dec_bl in E. subst y. rewrite N.lxor_nilpotent, N.mul_0_l, N.add_0_l.
      split.
      * rewrite <- IH1. cbn [length].
        assert (N.size (N.lxor (load_be a) (load_be b)) <= 8 * N.of_nat (length a))%N.
        { destruct (N.eq_dec (N.lxor (load_be a) (load_be b)) 0) as [->|E]; [simpl; lia|].
          rewrite N.size_log2 by auto.
          pose proof (lxor_lt _ _ _ Ba Bb) as Bx. apply N.log2_lt_pow2 in Bx; lia. }
        lia.
      * rewrite N.add_cancel_l, IH2. split; congruence.
    + apply Byte.eqb_false in E. destruct (byte_diff x y E) as (H0 & H1 & H2).
      rewrite size_shift by (auto using lxor_lt). split.
      * rewrite <- H1. cbn [length]. lia.
      * split; [|congruence]. intros Heq. exfalso. apply E, to_N_inj.
        set (M := (2 ^ (8 * N.of_nat (length a)))%N) in *. nia.
Qed.

Lemma firstn_skipn_lcp n a b : length (firstn n a) = length (firstn n b) ->
  lcp (nibs a) (nibs b) =
  if key_eqb (firstn n a) (firstn n b) then 2 * length (firstn n a) + lcp (nibs (skipn n a)) (nibs (skipn n b))
  else lcp (nibs (firstn n a)) (nibs (firstn n b)).
Proof.
  intros L. rewrite <- (firstn_skipn n a) at 1. rewrite <- (firstn_skipn n b) at 1. rewrite !nibs_app.
  destruct (key_eqb_spec (firstn n a) (firstn n b)) as [->|E].
  - rewrite lcp_app, nibs_length. reflexivity.
  - remember (firstn n a) as u. remember (firstn n b) as v. clear Hequ Heqv.
    revert v L E. induction u as [|x u IH]; intros [|y v] L E; try discriminate; try congruence.
    cbn [nibs flat_map]. fold (nibs u) (nibs v). unfold nibbles_of. cbn [lcp app].
    destruct (N.eqb_spec (N.shiftr (Byte.to_N x) 4) (N.shiftr (Byte.to_N y) 4)) as [E1|E1]; auto.
    destruct (N.eqb_spec (N.land (Byte.to_N x) 15) (N.land (Byte.to_N y) 15)) as [E2|E2]; auto.
    do 2 f_equal. apply IH; auto.
    intros ->. apply E. f_equal. apply nibbles_inj. unfold nibbles_of. congruence.
Qed.

(** One run of the chunk loop. *)
Lemma chunks_spec n : 0 < n -> forall fuel len rep k ret,
  len = Nat.min (length rep) (length k) ->
  match chunks fuel n len rep k ret with
  | (r, None) => r = ret + lcp (nibs rep) (nibs k)
  | (r, Some (rep', k', len')) =>
      len' = Nat.min (length rep') (length k') /\
      r + lcp (nibs rep') (nibs k') = ret + lcp (nibs rep) (nibs k) /\
      (len' + n * fuel <= len \/ (len' <= len /\ len' < n))
  end.
Proof.
  intros Hn. induction fuel as [|fuel IH]; intros len rep k ret Hlen; cbn [chunks].
  - split; auto. split; auto. lia.
  - destruct (Nat.leb_spec n len); [|split; auto; split; auto; lia].
    unfold chunk.
    assert (L1 : length (firstn n rep) = n) by (rewrite firstn_length; lia).
    assert (L2 : length (firstn n k) = n) by (rewrite firstn_length; lia).
    destruct (chunk_diff (firstn n rep) (firstn n k)) as [C1 C2]; [congruence|].
    rewrite L1 in C1.
    pose proof (firstn_skipn_lcp n rep k) as F. rewrite L1, L2 in F. specialize (F eq_refl).
    destruct (N.eqb_spec (N.lxor (load_be (firstn n rep)) (load_be (firstn n k))) 0) as [E|E].
    + apply N.lxor_eq in E. apply C2 in E. destruct (key_eqb_spec (firstn n rep) (firstn n k)); [|contradiction].
      specialize (IH (len - n) (skipn n rep) (skipn n k)
         (ret + leading_zeros (8 * n) (N.lxor (load_be (firstn n rep)) (load_be (firstn n k))) / 4)).
      rewrite !skipn_length in IH. specialize (IH ltac:(lia)).
      assert (Z : leading_zeros (8 * n) (N.lxor (load_be (firstn n rep)) (load_be (firstn n k))) / 4 = 2 * n).
      { rewrite e, N.lxor_nilpotent. unfold leading_zeros. cbn [N.size N.to_nat]. lia. }
      destruct (chunks _ _ _ _ _ _) as [r [[[rep' k'] len']|]].
      * destruct IH as (A & B & C). split; auto. split; lia.
      * lia.
    + destruct (key_eqb_spec (firstn n rep) (firstn n k)) as [e|e].
      { exfalso. apply E. rewrite e. apply N.lxor_nilpotent. }
      lia.
Qed.

Lemma lcp_nil_l b : lcp [] b = 0. Proof. reflexivity. Qed.
Lemma lcp_nil_r a : lcp a [] = 0. Proof. destruct a; reflexivity. Qed.

Theorem mismatch_lcp rep k : mismatch_of rep k = lcp (nibs rep) (nibs k).
Proof.
  unfold mismatch_of.
  pose proof (chunks_spec 8 ltac:(lia) (S (Nat.min (length rep) (length k) / 8))
     (Nat.min (length rep) (length k)) rep k 0 eq_refl) as H.
  destruct (chunks _ 8 _ _ _ _) as [r [[[rep' k'] len']|]]; [|lia].
  destruct H as (H1 & H2 & H3). assert (len' < 8) by lia. clear H3.
  pose proof (chunks_spec 4 ltac:(lia) 1 len' rep' k' r H1) as G.
  destruct (chunks _ 4 _ _ _ _) as [r1 [[[rep1 k1] len1]|]]; [|lia].
  destruct G as (G1 & G2 & G3). assert (len1 < 4) by lia. clear G3.
  pose proof (chunks_spec 2 ltac:(lia) 1 len1 rep1 k1 r1 G1) as I.
  destruct (chunks _ 2 _ _ _ _) as [r2 [[[rep2 k2] len2]|]]; [|lia].
  destruct I as (I1 & I2 & I3). assert (len2 < 2) by lia. clear I3.
  pose proof (chunks_spec 1 ltac:(lia) 1 len2 rep2 k2 r2 I1) as J.
  destruct (chunks _ 1 _ _ _ _) as [r3 [[[rep3 k3] len3]|]]; cbn [fst]; [|lia].
  destruct J as (J1 & J2 & J3). assert (len3 = 0) by lia.
  assert (lcp (nibs rep3) (nibs k3) = 0); [|lia].
  destruct rep3; [reflexivity|]. destruct k3; [apply lcp_nil_r|]. simpl in J1. lia.
Qed.
