(** * Proofs about the bit operations *)
From Coq Require Import List NArith Bool Lia ZifyN ZifyNat ZifyBool.
From Verif Require Import TrieModel TrieBits BitModel BitSpec.
Import ListNotations.
Local Open Scope N_scope.

Lemma pow_pos w : 0 < 2 ^ w.
Proof. apply N.neq_0_lt_0, N.pow_nonzero. discriminate. Qed.

Lemma pred_pos w n : 0 < n -> n < 2 ^ w -> pred_ w n = n - 1.
Proof.
  intros H L. unfold pred_. replace (n + 2 ^ w - 1) with (n - 1 + 1 * 2 ^ w) by lia.
  rewrite N.mod_add by (pose proof (pow_pos w); lia). apply N.mod_small. lia.
Qed.
Lemma pred_0 w : pred_ w 0 = 2 ^ w - 1.
Proof. unfold pred_. cbn [N.add]. apply N.mod_small. pose proof (pow_pos w). lia. Qed.
Lemma trunc_small w n : n < 2 ^ w -> trunc w n = n.
Proof. apply N.mod_small. Qed.

(** ** Counting *)
Lemma land_pred p : exists m, N.land (N.pos p) (N.pos p - 1) = m /\ TrieModel.count_ones (N.pos p) = S (TrieModel.count_ones m).
Proof.
  induction p as [p IH|p IH|].
  - exists (N.pos (xO p)). split; [|reflexivity].
    replace (N.pos (xI p) - 1) with (N.pos (xO p)) by lia.
    change (N.double (N.land (N.pos p) (N.pos p)) = N.pos (xO p)). rewrite N.land_diag. reflexivity.
  - destruct IH as (m & E & C). exists (2 * m). split.
    + apply N.bits_inj. intros i. rewrite N.land_spec.
      replace (N.pos (xO p)) with (2 * N.pos p) by lia.
      destruct (N.eq_dec i 0) as [->|Hi].
      * rewrite !N.testbit_even_0. reflexivity.
      * replace i with (N.succ (i - 1)) by lia. rewrite !N.testbit_even_succ by lia.
        replace (2 * N.pos p - 1) with (2 * (N.pos p - 1) + 1) by lia. rewrite N.testbit_odd_succ by lia.
        rewrite <- E, N.land_spec. reflexivity.
    + destruct m; exact C.
  - exists 0. split; reflexivity.
Qed.

Lemma count_loop_ok w fuel : forall n ret, n < 2 ^ w -> (TrieModel.count_ones n <= fuel)%nat ->
  count_loop w fuel n ret = Some (ret + N.of_nat (TrieModel.count_ones n)).
Proof.
  induction fuel as [|fuel IH]; intros n ret L F.
  - destruct n as [|p]; [cbn; f_equal; lia|]. destruct (land_pred p) as (m & _ & C). lia.
  - destruct n as [|p]; [cbn; f_equal; lia|]. destruct (land_pred p) as (m & E & C).
    cbn [count_loop]. replace (N.pos p =? 0) with false by reflexivity.
    rewrite pred_pos by lia. rewrite E, IH.
    + f_equal. lia.
    + rewrite <- E. apply land_bound. exact L.
    + lia.
Qed.

Lemma filter_le {A} (f : A -> bool) l : (length (filter f l) <= length l)%nat.
Proof. induction l as [|x l IH]; cbn [filter length]; [lia|]. destruct (f x); cbn [length]; lia. Qed.

Lemma count_ones_number w n : n < 2 ^ w -> count_ones w n = Some (number w (N.testbit n)).
Proof.
  intros L. unfold count_ones, number.
  assert (E : TrieModel.count_ones n = length (filter (N.testbit n) (map N.of_nat (seq 0 (N.to_nat w)))))
    by (apply count_ones_filter; rewrite N2Nat.id; exact L).
  rewrite count_loop_ok; [rewrite E; reflexivity|exact L|].
  rewrite E. etransitivity; [apply filter_le|]. rewrite map_length, seq_length. lia.
Qed.

(** ** Scanning from one end *)
Lemma bit_test' n k : negb (N.land n (2 ^ k) =? 0) = N.testbit n k.
Proof. rewrite <- shiftl_1, bit_test, negb_involutive. reflexivity. Qed.
Lemma pow_nz k : (2 ^ k =? 0) = false.
Proof. apply N.eqb_neq, N.pow_nonzero. discriminate. Qed.

Lemma leading_loop_ok w n k : forall ret, ret + N.of_nat k = w ->
  (forall i, i < ret -> N.testbit n (w - 1 - i) = false) ->
  exists r, leading_loop k n (match k with O => 0 | S k' => 2 ^ N.of_nat k' end) ret = Some r /\ leading w false n r.
Proof.
  induction k as [|k IH]; intros ret E B.
  - exists ret. split; [reflexivity|]. split; [lia|]. split; [exact B|lia].
  - cbn [leading_loop]. rewrite pow_nz, bit_test'. cbn [orb].
    assert (EK : N.of_nat k = w - 1 - ret) by lia.
    destruct (N.testbit n (N.of_nat k)) eqn:T; rewrite EK in T.
    + exists ret. split; [reflexivity|]. split; [lia|]. split; [exact B|]. intros _. exact T.
    + replace (N.shiftr (2 ^ N.of_nat k) 1) with (match k with O => 0 | S k' => 2 ^ N.of_nat k' end).
      * apply IH; [lia|]. intros i Hi. destruct (N.eq_dec i ret) as [->|]; [exact T|]. apply B. lia.
      * rewrite N.shiftr_div_pow2. destruct k as [|k]; [reflexivity|].
        rewrite Nat2N.inj_succ, N.pow_succ_r'. change (2 ^ 1) with 2. rewrite N.mul_comm, N.div_mul by discriminate. reflexivity.
Qed.

Lemma leading_zeros_ok w n : exists r, leading_zeros w n = Some r /\ leading w false n r.
Proof.
  unfold leading_zeros. destruct (leading_loop_ok w n (N.to_nat w) 0) as (r & E & L); [lia|lia|].
  exists r. split; [|exact L]. rewrite <- E. f_equal.
  rewrite shiftl_1. destruct (N.to_nat w) as [|k] eqn:K.
  - replace w with 0 by lia. reflexivity.
  - replace (N.of_nat k) with (w - 1) by lia. apply trunc_small. apply N.pow_lt_mono_r; lia.
Qed.

Lemma trailing_loop_ok w n k : forall ret, ret + N.of_nat k = w ->
  (forall i, i < ret -> N.testbit n i = false) ->
  exists r, trailing_loop w k n (trunc w (2 ^ ret)) ret = Some r /\ trailing w false n r.
Proof.
  induction k as [|k IH]; intros ret E B.
  - exists ret. cbn [trailing_loop]. replace ret with w by lia. unfold trunc. rewrite N.mod_same by (pose proof (pow_pos w); lia).
    split; [reflexivity|]. split; [lia|]. split; [intros; apply B; lia|lia].
  - cbn [trailing_loop]. rewrite trunc_small by (apply N.pow_lt_mono_r; lia). rewrite pow_nz, bit_test'. cbn [orb].
    destruct (N.testbit n ret) eqn:T.
    + exists ret. split; [reflexivity|]. split; [lia|]. split; [exact B|]. intros _. exact T.
    + replace (N.shiftl (2 ^ ret) 1) with (2 ^ (ret + 1)) by (rewrite N.shiftl_mul_pow2, N.pow_add_r; reflexivity).
      apply IH; [lia|]. intros i Hi. destruct (N.eq_dec i ret) as [->|]; [exact T|]. apply B. lia.
Qed.

Lemma trailing_zeros_ok w n : 0 < w -> exists r, trailing_zeros w n = Some r /\ trailing w false n r.
Proof.
  intros W. unfold trailing_zeros. destruct (trailing_loop_ok w n (N.to_nat w) 0) as (r & E & L); [lia|lia|].
  exists r. split; [|exact L]. rewrite <- E. f_equal. symmetry. apply trunc_small.
  apply (N.pow_lt_mono_r 2 0 w); lia.
Qed.

Lemma not_bits w n i : n < 2 ^ w -> i < w -> N.testbit (not_ w n) i = negb (N.testbit n i).
Proof.
  intros L Hi. unfold not_. rewrite ones_low. rewrite <- N.lnot_sub_low || idtac.
  - unfold N.lnot. rewrite N.lxor_spec, N.ones_spec_low by exact Hi. destruct (N.testbit n i); reflexivity.
  - destruct (N.eq_dec n 0) as [->|]; [cbn; lia|]. apply N.log2_lt_pow2; lia.
Qed.
Lemma not_lt w n : not_ w n < 2 ^ w.
Proof. unfold not_. pose proof (pow_pos w). lia. Qed.

Lemma leading_ones_ok w n : n < 2 ^ w -> exists r, leading_ones w n = Some r /\ leading w true n r.
Proof.
  intros L. destruct (leading_zeros_ok w (not_ w n)) as (r & E & R & B & T). exists r. split; [exact E|].
  split; [exact R|]. split.
  - intros i Hi. specialize (B i Hi). rewrite not_bits in B by lia. destruct (N.testbit n (w - 1 - i)); [reflexivity|discriminate].
  - intros Hr. specialize (T Hr). rewrite not_bits in T by lia. destruct (N.testbit n (w - 1 - r)); [discriminate|reflexivity].
Qed.
Lemma trailing_ones_ok w n : 0 < w -> n < 2 ^ w -> exists r, trailing_ones w n = Some r /\ trailing w true n r.
Proof.
  intros W L. destruct (trailing_zeros_ok w (not_ w n) W) as (r & E & R & B & T). exists r. split; [exact E|].
  split; [exact R|]. split.
  - intros i Hi. specialize (B i Hi). rewrite not_bits in B by lia. destruct (N.testbit n i); [reflexivity|discriminate].
  - intros Hr. specialize (T Hr). rewrite not_bits in T by lia. destruct (N.testbit n r); [discriminate|reflexivity].
Qed.
Lemma count_zeros_number w n : n < 2 ^ w -> count_zeros w n = Some (number w (fun i => negb (N.testbit n i))).
Proof.
  intros L. unfold count_zeros. rewrite count_ones_number by apply not_lt. f_equal. unfold number. f_equal. f_equal.
  apply filter_ext_in'. intros i Hi. apply not_bits; [exact L|].
  apply in_map_iff in Hi. destruct Hi as (j & <- & Hj). apply in_seq in Hj. lia.
Qed.

(** ** Positions *)
Lemma bits_lt n k : (forall i, k <= i -> N.testbit n i = false) -> n < 2 ^ k.
Proof.
  intros H. destruct (N.eq_dec n 0) as [->|NZ]; [apply pow_pos|].
  apply N.log2_lt_pow2; [lia|]. destruct (N.lt_ge_cases (N.log2 n) k) as [|G]; [assumption|].
  specialize (H _ G). rewrite N.bit_log2 in H by exact NZ. discriminate.
Qed.
Lemma bit_above n k i : n < 2 ^ k -> k <= i -> N.testbit n i = false.
Proof.
  intros L H. destruct (N.eq_dec n 0) as [->|NZ]; [apply N.bits_0|].
  apply N.bits_above_log2. apply N.log2_lt_pow2 in L; lia.
Qed.
Lemma bit_le n i : N.testbit n i = true -> 2 ^ i <= n.
Proof.
  intros H. destruct (N.le_gt_cases (2 ^ i) n) as [|G]; [assumption|].
  rewrite (bit_above n i i G) in H by lia. discriminate.
Qed.

Lemma leading_lt w n r : n < 2 ^ w -> leading w false n r -> n < 2 ^ (w - r).
Proof.
  intros L (R & B & _). apply bits_lt. intros i Hi. destruct (N.lt_ge_cases i w) as [H|H].
  - specialize (B (w - 1 - i)). replace (w - 1 - (w - 1 - i)) with i in B by lia. apply B. lia.
  - apply (bit_above n w); assumption.
Qed.

Lemma bit_width_ok w n : n < 2 ^ w ->
  n < 2 ^ bit_width w n /\ (0 < n -> 0 < bit_width w n <= w /\ 2 ^ (bit_width w n - 1) <= n).
Proof.
  intros L. unfold bit_width. destruct (leading_zeros_ok w n) as (r & -> & LZ). cbn [get].
  pose proof (leading_lt w n r L LZ) as LT. split; [exact LT|]. intros P.
  destruct LZ as (R & _ & T). destruct (N.eq_dec r w) as [->|NE].
  - rewrite N.sub_diag in LT. cbn in LT. lia.
  - split; [lia|]. apply bit_le. specialize (T ltac:(lia)). cbn [negb] in T. rewrite <- T. f_equal. lia.
Qed.
Lemma bit_width_le w n : bit_width w n <= w.
Proof. unfold bit_width. lia. Qed.
Lemma bit_width_0 w : bit_width w 0 = 0.
Proof.
  unfold bit_width. destruct (leading_zeros_ok w 0) as (r & -> & R & _ & T). cbn [get].
  destruct (N.eq_dec r w) as [->|NE]; [lia|]. specialize (T ltac:(lia)). rewrite N.bits_0 in T. discriminate.
Qed.

Lemma bit_floor_ok w n : 0 < n -> n < 2 ^ w -> exists k, bit_floor w n = 2 ^ k /\ 2 ^ k <= n < 2 ^ (k + 1).
Proof.
  intros P L. destruct (bit_width_ok w n L) as (H1 & H2). destruct (H2 P) as (H3 & H4).
  exists (bit_width w n - 1). unfold bit_floor. replace (n =? 0) with false by lia. rewrite shiftl_1.
  rewrite trunc_small by lia. split; [reflexivity|]. split; [exact H4|].
  replace (bit_width w n - 1 + 1) with (bit_width w n) by lia. exact H1.
Qed.

Lemma bit_ceil_ok w n : 0 < w -> n <= 2 ^ (w - 1) -> exists k, bit_ceil w n = 2 ^ k /\ n <= 2 ^ k /\
  (forall j, n <= 2 ^ j -> k <= j).
Proof.
  intros W L. assert (L' : 2 ^ (w - 1) < 2 ^ w) by (apply N.pow_lt_mono_r; lia).
  unfold bit_ceil. destruct (N.eqb_spec n 0) as [->|NZ].
  - exists 0. rewrite bit_width_0. split; [|split; [cbn; lia|lia]]. apply trunc_small. apply (N.pow_lt_mono_r 2 0 w); lia.
  - rewrite pred_pos by lia. destruct (bit_width_ok w (n - 1)) as (H1 & H2); [lia|].
    set (k := bit_width w (n - 1)) in *. exists k. rewrite shiftl_1.
    assert (K : k <= w - 1).
    { destruct (N.eq_dec n 1) as [->|]; [unfold k; rewrite bit_width_0; lia|].
      destruct (H2 ltac:(lia)) as (H3 & H4). assert (2 ^ (k - 1) < 2 ^ (w - 1)) by lia.
      apply N.pow_lt_mono_r_iff in H; lia. }
    split; [apply trunc_small; apply N.pow_lt_mono_r; lia|]. split; [lia|].
    intros j Hj. destruct (N.eq_dec n 1) as [->|]; [unfold k; rewrite bit_width_0; lia|].
    destruct (H2 ltac:(lia)) as (H3 & H4). assert (H5 : 2 ^ (k - 1) < 2 ^ j) by lia.
    apply N.pow_lt_mono_r_iff in H5; lia.
Qed.

Lemma first_leading_one_ok w n : n < 2 ^ w -> first_from_top w true n (first_leading_one w n).
Proof.
  intros L. unfold first_leading_one. destruct (N.eqb_spec n 0) as [->|NZ].
  - left. split; [reflexivity|]. intros. apply N.bits_0.
  - destruct (leading_zeros_ok w n) as (r & -> & LZ). cbn [get]. pose proof (leading_lt w n r L LZ) as LT.
    destruct LZ as (R & B & T). right.
    assert (r < w) by (destruct (N.eq_dec r w) as [->|]; [rewrite N.sub_diag in LT; cbn in LT; lia|lia]).
    split; [lia|]. replace (w - (r + 1)) with (w - 1 - r) by lia. split; [apply T; assumption|].
    intros i Hi. specialize (B (w - 1 - i)). replace (w - 1 - (w - 1 - i)) with i in B by lia. apply B. lia.
Qed.
Lemma first_trailing_one_ok w n : 0 < w -> n < 2 ^ w -> first_from_bottom w true n (first_trailing_one w n).
Proof.
  intros W L. unfold first_trailing_one. destruct (N.eqb_spec n 0) as [->|NZ].
  - left. split; [reflexivity|]. intros. apply N.bits_0.
  - destruct (trailing_zeros_ok w n W) as (r & -> & R & B & T). cbn [get].
    assert (r < w).
    { destruct (N.eq_dec r w) as [->|]; [|lia]. exfalso. apply NZ. apply N.bits_inj_0. intros i.
      destruct (N.lt_ge_cases i w); [apply B; assumption|apply (bit_above n w); assumption]. }
    right. split; [lia|]. rewrite N.add_sub. split; [apply T; assumption|exact B].
Qed.
Lemma first_leading_zero_ok w n : n < 2 ^ w -> first_from_top w false n (first_leading_zero w n).
Proof.
  intros L. unfold first_leading_zero.
  destruct (first_leading_one_ok w (not_ w n) (not_lt w n)) as [(-> & B)|(R & T & B)]; [left|right].
  - split; [reflexivity|]. intros i Hi. specialize (B i Hi). rewrite not_bits in B by assumption. destruct (N.testbit n i); [reflexivity|discriminate].
  - split; [exact R|]. split.
    + rewrite not_bits in T by lia. destruct (N.testbit n _); [discriminate|reflexivity].
    + intros i Hi. specialize (B i Hi). rewrite not_bits in B by lia. destruct (N.testbit n i); [reflexivity|discriminate].
Qed.
Lemma first_trailing_zero_ok w n : 0 < w -> n < 2 ^ w -> first_from_bottom w false n (first_trailing_zero w n).
Proof.
  intros W L. unfold first_trailing_zero.
  destruct (first_trailing_one_ok w (not_ w n) W (not_lt w n)) as [(-> & B)|(R & T & B)]; [left|right].
  - split; [reflexivity|]. intros i Hi. specialize (B i Hi). rewrite not_bits in B by assumption. destruct (N.testbit n i); [reflexivity|discriminate].
  - split; [exact R|]. split.
    + rewrite not_bits in T by lia. destruct (N.testbit n _); [discriminate|reflexivity].
    + intros i Hi. specialize (B i Hi). rewrite not_bits in B by lia. destruct (N.testbit n i); [reflexivity|discriminate].
Qed.

(** ** One bit *)
Fixpoint is_pow2 (p : positive) : bool := match p with xH => true | xO p => is_pow2 p | xI _ => false end.
Lemma is_pow2_spec p : is_pow2 p = true <-> exists k, N.pos p = 2 ^ k.
Proof.
  induction p as [p IH|p IH|]; cbn [is_pow2].
  - split; [discriminate|]. intros (k & E). destruct (N.eq_dec k 0) as [->|]; [cbn in E; lia|].
    replace k with (N.succ (k - 1)) in E by lia. rewrite N.pow_succ_r' in E. lia.
  - rewrite IH. split; intros (k & E).
    + exists (N.succ k). rewrite N.pow_succ_r'. lia.
    + destruct (N.eq_dec k 0) as [->|]; [cbn in E; lia|]. exists (k - 1).
      replace k with (N.succ (k - 1)) in E by lia. rewrite N.pow_succ_r' in E. lia.
  - split; [intros _; exists 0; reflexivity|reflexivity].
Qed.
Lemma lxor_pred p : (N.pos p - 1 <? N.lxor (N.pos p) (N.pos p - 1)) = is_pow2 p.
Proof.
  induction p as [p IH|p IH|]; cbn [is_pow2].
  - replace (N.pos (xI p) - 1) with (N.pos (xO p)) by lia.
    change (N.lxor (N.pos (xI p)) (N.pos (xO p))) with (N.succ_double (N.lxor (N.pos p) (N.pos p))).
    rewrite N.lxor_nilpotent. cbn. lia.
  - rewrite <- IH. replace (N.pos (xO p) - 1) with (2 * (N.pos p - 1) + 1) by lia.
    replace (N.lxor (N.pos (xO p)) (2 * (N.pos p - 1) + 1)) with (2 * N.lxor (N.pos p) (N.pos p - 1) + 1); [lia|].
    apply N.bits_inj. intros i. rewrite N.lxor_spec. replace (N.pos (xO p)) with (2 * N.pos p) by lia.
    destruct (N.eq_dec i 0) as [->|Hi].
    + rewrite N.testbit_even_0, !N.testbit_odd_0. reflexivity.
    + replace i with (N.succ (i - 1)) by lia. rewrite N.testbit_even_succ, !N.testbit_odd_succ by lia.
      apply N.lxor_spec.
  - reflexivity.
Qed.
Lemma has_single_bit_ok w n : n < 2 ^ w -> has_single_bit w n = true <-> exists k, n = 2 ^ k.
Proof.
  intros L. unfold has_single_bit. destruct n as [|p].
  - rewrite pred_0, N.lxor_0_l, N.ltb_irrefl. split; [discriminate|]. intros (k & E). pose proof (pow_pos k). lia.
  - rewrite pred_pos by lia. rewrite lxor_pred. apply is_pow2_spec.
Qed.

(** ** Rotation *)
Lemma rotate_left_ok w n c i : n < 2 ^ w -> c < w -> i < w ->
  N.testbit (rotate_left w n c) i = N.testbit n ((i + w - c) mod w).
Proof.
  intros L C I. unfold rotate_left, trunc. rewrite N.mod_pow2_bits_low by exact I. rewrite N.lor_spec, N.shiftr_spec'.
  destruct (N.eq_dec c 0) as [->|C0].
  - rewrite N.shiftl_0_r, !N.sub_0_r, N.mod_same by lia. rewrite N.add_0_r, orb_diag.
    replace (i + w) with (i + 1 * w) by lia. rewrite N.mod_add by lia. rewrite N.mod_small by lia. reflexivity.
  - rewrite (N.mod_small (w - c)) by lia. destruct (N.lt_ge_cases i c).
    + rewrite N.shiftl_spec_low by assumption. cbn [orb]. rewrite N.mod_small by lia. f_equal. lia.
    + rewrite N.shiftl_spec_high' by assumption. rewrite (bit_above n w (i + (w - c))) by lia. rewrite orb_false_r.
      replace (i + w - c) with (i - c + 1 * w) by lia. rewrite N.mod_add by lia. rewrite N.mod_small by lia. reflexivity.
Qed.
Lemma rotate_right_ok w n c i : n < 2 ^ w -> c < w -> i < w ->
  N.testbit (rotate_right w n c) i = N.testbit n ((i + c) mod w).
Proof.
  intros L C I. unfold rotate_right, trunc. rewrite N.mod_pow2_bits_low by exact I. rewrite N.lor_spec, N.shiftr_spec'.
  destruct (N.eq_dec c 0) as [->|C0].
  - rewrite N.sub_0_r, N.mod_same by lia. rewrite N.shiftl_0_r, !N.add_0_r, orb_diag. rewrite N.mod_small by lia. reflexivity.
  - rewrite (N.mod_small (w - c)) by lia. destruct (N.lt_ge_cases i (w - c)).
    + rewrite N.shiftl_spec_low by assumption. rewrite orb_false_r. rewrite N.mod_small by lia. reflexivity.
    + rewrite N.shiftl_spec_high' by assumption. rewrite (bit_above n w (i + c)) by lia. cbn [orb].
      replace (i + c) with (i - (w - c) + 1 * w) at 1 by lia. rewrite N.mod_add by lia. rewrite N.mod_small by lia. reflexivity.
Qed.
Lemma rotate_lt w n c : rotate_left w n c < 2 ^ w /\ rotate_right w n c < 2 ^ w.
Proof. pose proof (pow_pos w). split; apply N.mod_lt; lia. Qed.
