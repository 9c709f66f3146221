(** Proofs about sizes and growing arrays *)
From Coq Require Import List NArith Arith Bool Lia ZifyBool ZifyN ZifyNat.
From Coq Require Import Init.Byte.
From Verif Require Import BitModel BitProofs TrieBits AllocModel AllocSpec.
Import ListNotations.
Local Open Scope N_scope.

Lemma W_pos : 0 < W. Proof. reflexivity. Qed.
Lemma W_value : W = 18446744073709551616. Proof. reflexivity. Qed.
Lemma SIZE_MAX_value : SIZE_MAX = 18446744073709551615. Proof. reflexivity. Qed.
Lemma ALLOC_MAX_value : ALLOC_MAX = 9223372036854775807. Proof. reflexivity. Qed.

(** ** Alignment *)
Lemma align_floor_value k n : k <= 64 -> n < W -> align_floor (2 ^ k) n = n / 2 ^ k * 2 ^ k.
Proof.
  intros K L. unfold align_floor. rewrite <- N.shiftr_div_pow2, <- N.shiftl_mul_pow2. apply N.bits_inj. intros i.
  rewrite N.land_spec. destruct (N.ltb_spec i 64).
  - rewrite not_bits; [|apply N.lt_le_trans with (2 ^ k); [pose proof (pow_pos k); lia|apply N.pow_le_mono_r; lia]|assumption].
    rewrite ones_low. destruct (N.ltb_spec i k).
    + rewrite N.ones_spec_low by assumption. rewrite N.shiftl_spec_low by assumption. apply andb_false_r.
    + rewrite N.ones_spec_high by assumption. rewrite N.shiftl_spec_high' by assumption. rewrite N.shiftr_spec' by lia.
      replace (i - k + k) with i by lia. apply andb_true_r.
  - rewrite (bit_above n 64) by assumption. rewrite N.shiftl_spec_high' by lia. rewrite N.shiftr_spec' by lia.
    symmetry. replace (i - k + k) with i by lia. apply (bit_above n 64); assumption.
Qed.

Lemma is_aligned_value k n : is_aligned (2 ^ k) n = (n mod 2 ^ k =? 0).
Proof. unfold is_aligned. rewrite ones_low, N.land_ones. reflexivity. Qed.

Lemma align_ceil_value k n : k < 64 -> 0 < n -> n + 2 ^ k <= W -> align_ceil (2 ^ k) n = (n + 2 ^ k - 1) / 2 ^ k * 2 ^ k.
Proof.
  intros K N0 L. unfold align_ceil. pose proof (pow_pos k) as P.
  replace (n + W - 1) with (n - 1 + 1 * W) by lia. rewrite N.mod_add by (pose proof W_pos; lia).
  rewrite (N.mod_small (n - 1) W) by lia. rewrite ones_low.
  assert (E : N.lor (n - 1) (N.ones k) = (n - 1) / 2 ^ k * 2 ^ k + (2 ^ k - 1)).
  { rewrite ones_low. rewrite <- N.shiftr_div_pow2, <- N.shiftl_mul_pow2.
    rewrite N.add_nocarry_lxor.
    - apply N.bits_inj. intros i. rewrite N.lor_spec, N.lxor_spec. destruct (N.ltb_spec i k).
      + rewrite N.ones_spec_low, N.shiftl_spec_low by assumption. apply orb_true_r.
      + rewrite N.ones_spec_high, N.shiftl_spec_high', N.shiftr_spec' by lia.
        replace (i - k + k) with i by lia. rewrite orb_false_r, xorb_false_r. reflexivity.
    - apply N.bits_inj. intros i. rewrite N.land_spec, N.bits_0. destruct (N.ltb_spec i k).
      + rewrite N.shiftl_spec_low by assumption. reflexivity.
      + rewrite N.ones_spec_high by assumption. apply andb_false_r. }
  rewrite E. replace (_ + (2 ^ k - 1) + 1) with (((n - 1) / 2 ^ k + 1) * 2 ^ k) by lia.
  replace (n + 2 ^ k - 1) with (n - 1 + 1 * 2 ^ k) by lia. rewrite N.div_add by lia.
  pose proof (N.div_mod (n - 1) (2 ^ k) ltac:(lia)). set (q := (n - 1) / 2 ^ k) in *.
  assert (q * 2 ^ k <= n - 1) by lia.
  assert (HW : W = 2 ^ (64 - k) * 2 ^ k) by (rewrite <- N.pow_add_r; replace (64 - k + k) with 64 by lia; reflexivity).
  destruct (N.eq_dec ((q + 1) * 2 ^ k) W) as [E1|NE].
  - exfalso. nia.
  - apply N.mod_small. nia.
Qed.

(** ** Saturating arithmetic *)
Lemma size_add_value a b : a < W -> b < W -> size_add a b = N.min (a + b) SIZE_MAX.
Proof.
  intros A B. unfold size_add. rewrite SIZE_MAX_value, W_value in *.
  destruct (N.lt_ge_cases (a + b) 18446744073709551616).
  - rewrite N.mod_small by lia. replace (a <=? a + b) with true by lia. lia.
  - replace (a + b) with (a + b - 18446744073709551616 + 1 * 18446744073709551616) at 1 2 by lia. rewrite N.mod_add by lia.
    rewrite N.mod_small by lia. replace (a <=? _) with false by lia. lia.
Qed.
Lemma size_mul_value a b : 0 < a -> b < W -> size_mul a b = N.min (a * b) SIZE_MAX.
Proof.
  intros A B. unfold size_mul. rewrite SIZE_MAX_value.
  destruct (N.lt_ge_cases (a * b) W) as [L|G].
  - rewrite N.mod_small by assumption. rewrite N.mul_comm, N.div_mul by lia. rewrite N.eqb_refl. rewrite W_value in *. lia.
  - destruct (N.eqb_spec (a * b mod W / a) b) as [E|NE]; [|rewrite W_value in *; lia].
    exfalso. assert (a * b mod W < a * b) by (pose proof (N.mod_lt (a * b) W ltac:(discriminate)); lia).
    pose proof (N.mul_div_le (a * b mod W) a ltac:(lia)). nia.
Qed.

(** The exact size: the number of bytes rounded up to the alignment *)
Definition round_up (a n : N) : N := (n + a - 1) / a * a.
Lemma round_up_ge a n : 0 < a -> n <= round_up a n.
Proof.
  intros A. unfold round_up. pose proof (N.div_mod (n + a - 1) a ltac:(lia)). pose proof (N.mod_lt (n + a - 1) a ltac:(lia)). lia.
Qed.
Lemma round_up_lt a n : 0 < a -> round_up a n < n + a.
Proof. intros A. unfold round_up. pose proof (N.mul_div_le (n + a - 1) a ltac:(lia)). lia. Qed.
Lemma round_up_mod a n : 0 < a -> round_up a n mod a = 0.
Proof. intros. unfold round_up. apply N.mod_mul. lia. Qed.

Lemma flex_size_value k offset sz count : k <= 32 -> offset < 2 ^ 32 -> 0 < sz -> count < W ->
  flex_size (2 ^ k) offset sz count =
    if offset + sz * count + 2 ^ k - 1 <? W then round_up (2 ^ k) (offset + sz * count) else W - 2 ^ k.
Proof.
  intros K O S C. unfold flex_size. pose proof (pow_pos k) as P.
  assert (P32 : 2 ^ k <= 2 ^ 32) by (apply N.pow_le_mono_r; lia).
  assert (HW : W = 2 ^ (64 - k) * 2 ^ k) by (rewrite <- N.pow_add_r; replace (64 - k + k) with 64 by lia; reflexivity).
  change (2 ^ 32) with 4294967296 in *.
  rewrite size_mul_value by assumption. rewrite size_add_value by (rewrite W_value, ?SIZE_MAX_value; lia).
  rewrite align_floor_value by (rewrite ?W_value, ?SIZE_MAX_value; lia).
  destruct (N.ltb_spec (offset + sz * count + 2 ^ k - 1) W) as [L|G].
  - unfold round_up. rewrite !N.min_l by (rewrite ?W_value, ?SIZE_MAX_value in *; lia). f_equal. f_equal. lia.
  - rewrite N.min_r by (rewrite ?W_value, ?SIZE_MAX_value in *; lia).
    assert (E : SIZE_MAX / 2 ^ k = 2 ^ (64 - k) - 1).
    { symmetry. apply N.div_unique with (r := 2 ^ k - 1); [lia|]. pose proof (pow_pos (64 - k)).
      replace SIZE_MAX with (W - 1) by reflexivity. nia. }
    rewrite E. nia.
Qed.

Lemma flex_size_lt k offset sz count : k <= 32 -> offset < 2 ^ 32 -> 0 < sz -> count < W ->
  flex_size (2 ^ k) offset sz count < W.
Proof.
  intros K O S C. rewrite flex_size_value by assumption. pose proof (pow_pos k) as P.
  destruct (N.ltb_spec (offset + sz * count + 2 ^ k - 1) W); [|pose proof W_pos; lia].
  unfold round_up. pose proof (N.mul_div_le (offset + sz * count + 2 ^ k - 1) (2 ^ k) ltac:(lia)). lia.
Qed.
Lemma flex_size_aligned k offset sz count : k <= 32 -> offset < 2 ^ 32 -> 0 < sz -> count < W ->
  flex_size (2 ^ k) offset sz count mod 2 ^ k = 0.
Proof.
  intros K O S C. rewrite flex_size_value by assumption. pose proof (pow_pos k) as P.
  destruct (_ <? W); [apply round_up_mod; exact P|].
  assert (HW : W = 2 ^ (64 - k) * 2 ^ k) by (rewrite <- N.pow_add_r; replace (64 - k + k) with 64 by lia; reflexivity).
  rewrite HW. replace (_ - 2 ^ k) with ((2 ^ (64 - k) - 1) * 2 ^ k) by (pose proof (pow_pos (64 - k)); nia).
  apply N.mod_mul. lia.
Qed.
(** Allocations that are not refused are large enough. *)
Lemma flex_size_enough k offset sz count : k <= 32 -> offset < 2 ^ 32 -> 0 < sz -> count < W ->
  flex_size (2 ^ k) offset sz count <= ALLOC_MAX ->
  offset + sz * count <= flex_size (2 ^ k) offset sz count < offset + sz * count + 2 ^ k.
Proof.
  intros K O S C L. rewrite flex_size_value in * by assumption. pose proof (pow_pos k) as P.
  destruct (_ <? W); [split; [apply round_up_ge|apply round_up_lt]; exact P|].
  assert (P32 : 2 ^ k <= 2 ^ 32) by (apply N.pow_le_mono_r; lia). change (2 ^ 32) with 4294967296 in *.
  rewrite W_value, ALLOC_MAX_value in *. lia.
Qed.
Lemma round_up_mono a n m : 0 < a -> n <= m -> round_up a n <= round_up a m.
Proof. intros A L. unfold round_up. apply N.mul_le_mono_r. apply N.div_le_mono; lia. Qed.
Lemma flex_size_mono k offset sz c d : k <= 32 -> offset < 2 ^ 32 -> 0 < sz -> d < W -> c <= d ->
  flex_size (2 ^ k) offset sz c <= flex_size (2 ^ k) offset sz d.
Proof.
  intros K O S D L. pose proof (flex_size_lt k offset sz c K O S ltac:(lia)) as LT.
  pose proof (flex_size_aligned k offset sz c K O S ltac:(lia)) as AL.
  rewrite (flex_size_value k offset sz d) by assumption. pose proof (pow_pos k) as P.
  assert (M : sz * c <= sz * d) by (apply N.mul_le_mono_l; exact L).
  destruct (N.ltb_spec (offset + sz * d + 2 ^ k - 1) W).
  - rewrite flex_size_value by lia. replace (_ <? W) with true by lia. apply round_up_mono; lia.
  - apply N.mod_divide in AL; [|lia]. destruct AL as [q AL]. rewrite AL in *.
    assert (HW : W = 2 ^ (64 - k) * 2 ^ k) by (rewrite <- N.pow_add_r; replace (64 - k + k) with 64 by lia; reflexivity).
    assert (q < 2 ^ (64 - k)) by (apply (N.mul_lt_mono_pos_r (2 ^ k)); lia). nia.
Qed.

(** ** Growing arrays *)
Lemma land_pred_pow k : N.land (2 ^ k) (2 ^ k - 1) = 0.
Proof. rewrite ones_low, N.land_ones. apply N.mod_same. pose proof (pow_pos k). lia. Qed.
Lemma land_pred_zero p : N.land (N.pos p) (N.pos p - 1) = 0 -> is_pow2 p = true.
Proof.
  induction p as [p IH|p IH|]; cbn [is_pow2]; intros H; [| |reflexivity].
  - exfalso. replace (N.pos (xI p) - 1) with (N.pos (xO p)) in H by lia.
    change (N.land (N.pos (xI p)) (N.pos (xO p))) with (N.double (N.land (N.pos p) (N.pos p))) in H.
    rewrite N.land_diag in H. discriminate.
  - apply IH. replace (N.pos (xO p) - 1) with (2 * (N.pos p - 1) + 1) in H by lia.
    apply N.bits_inj. intros i. apply (f_equal (fun n => N.testbit n (N.succ i))) in H.
    replace (N.pos (xO p)) with (2 * N.pos p) in H by lia. rewrite N.land_spec in *.
    rewrite N.testbit_even_succ, N.testbit_odd_succ in H by lia. rewrite H. rewrite !N.bits_0. reflexivity.
Qed.

(** The contents of an array of [elems] *)
Definition array (size : N) (elems : list (list byte)) (st : list byte * N) : Prop :=
  let '(block, count) := st in
  count = N.of_nat (length elems) /\ firstn (N.to_nat (size * count)) block = concat elems /\ ((count = 0 /\ block = []) \/
   exists k, count <= 2 ^ k < 2 * count /\ length block = N.to_nat (size * 2 ^ k) /\ size * 2 ^ k <= ALLOC_MAX).

Lemma xrealloc_length old n a b : xrealloc old n a = Some b -> length b = N.to_nat n /\ n <= ALLOC_MAX /\
  (length old <= N.to_nat n -> firstn (length old) b = old)%nat.
Proof.
  unfold xrealloc. destruct (N.ltb_spec ALLOC_MAX n); [discriminate|]. destruct a as [junk|]; [|discriminate].
  intros [= <-]. split; [|split; [assumption|]].
  - rewrite app_length, firstn_length, map_length, seq_length. lia.
  - intros L. rewrite (firstn_all2 old) by lia. rewrite firstn_app, firstn_all, Nat.sub_diag, firstn_O, app_nil_r. reflexivity.
Qed.

Lemma push_room size elems block count cap (e : list byte) (block' : list byte) :
  count = N.of_nat (length elems) -> N.of_nat (length e) = size ->
  firstn (N.to_nat (size * count)) block' = concat elems ->
  count < cap -> length block' = N.to_nat (size * cap) ->
  block = firstn (N.to_nat (size * count)) block' ++ e ++ skipn (N.to_nat (size * count) + length e) block' ->
  (N.to_nat (size * count) + length e <= length block')%nat /\
  length block = length block' /\ firstn (N.to_nat (size * (count + 1))) block = concat (elems ++ [e]).
Proof.
  intros C E F L B ->.
  assert (R : (N.to_nat (size * count) + length e <= length block')%nat).
  { rewrite B, <- (Nat2N.id (length e)), E. rewrite <- N2Nat.inj_add. 
    assert (size * count + size <= size * cap) by nia. lia. }
  split; [exact R|]. split.
  - rewrite !app_length, firstn_length, skipn_length. lia.
  - assert (LF : length (firstn (N.to_nat (size * count)) block') = N.to_nat (size * count)) by (rewrite firstn_length; lia).
    replace (N.to_nat (size * (count + 1))) with (length (firstn (N.to_nat (size * count)) block' ++ e)).
    + rewrite app_assoc. rewrite firstn_app, Nat.sub_diag, firstn_O, firstn_all, app_nil_r.
      rewrite concat_app. cbn [concat]. rewrite app_nil_r. f_equal. exact F.
    + rewrite app_length, LF. rewrite <- (Nat2N.id (length e)), E. lia.
Qed.

Lemma push_ok size elems st e a : 0 < size -> N.of_nat (length e) = size -> array size elems st ->
  exists st', push size e a st = Some st' /\
    ((array size (elems ++ [e]) st' /\ snd st' = snd st + 1) \/
     (st' = st /\ (a = None \/ ALLOC_MAX < 2 * size * (snd st + 1)))).
Proof.
  destruct st as [block count]. intros S E (C & F & I). unfold push, reserve. cbn [snd].
  destruct I as [[-> ->]|(k & K1 & K2 & K3)].
  - change (N.land 0 (pred_ 64 0) =? 0) with true. cbn [negb]. change (0 =? 0) with true. cbv iota.
    destruct (xrealloc [] size a) as [b|] eqn:X.
    + destruct (xrealloc_length _ _ _ _ X) as (LB & MX & _).
      destruct elems; [|discriminate]. cbn [length concat] in *. rewrite N.mul_0_r in *.
      destruct (push_room size [] (firstn (N.to_nat (size * 0)) b ++ e ++ skipn (N.to_nat (size * 0) + length e) b) 0 1 e b)
        as (R & LL & FF); try assumption; try reflexivity; try lia.
      { rewrite N.mul_0_r. reflexivity. }
      rewrite N.mul_0_r in *. replace (Nat.leb _ _) with true by (symmetry; apply Nat.leb_le; exact R).
      eexists. split; [reflexivity|]. left. split; [|reflexivity]. cbn [array app]. split; [reflexivity|].
      split; [exact FF|]. right. exists 0. rewrite LL, LB. rewrite N.mul_1_r. repeat split; lia.
    + eexists. split; [reflexivity|]. right. split; [reflexivity|]. unfold xrealloc in X.
      destruct (N.ltb_spec ALLOC_MAX size); [right; lia|]. destruct a; [discriminate|auto].
  - assert (CW : count < W).
    { rewrite ALLOC_MAX_value, W_value in *. nia. }
    assert (CP : 0 < count) by lia. rewrite pred_pos by (assumption || lia).
    destruct (N.eqb_spec (N.land count (count - 1)) 0) as [Z|NZ]; cbn [negb].
    + assert (CK : count = 2 ^ k).
      { destruct count as [|p]; [lia|]. apply land_pred_zero in Z. apply is_pow2_spec in Z. destruct Z as (j & Z). rewrite Z in *.
        f_equal. destruct (N.lt_trichotomy j k) as [L|[L|L]]; [|exact L|].
        - exfalso. assert (2 ^ (j + 1) <= 2 ^ k) by (apply N.pow_le_mono_r; lia). rewrite N.pow_add_r in *. change (2 ^ 1) with 2 in *. lia.
        - exfalso. assert (2 ^ (k + 1) <= 2 ^ j) by (apply N.pow_le_mono_r; lia). rewrite N.pow_add_r in *. change (2 ^ 1) with 2 in *. lia. }
      replace (count =? 0) with false by lia.
      assert (SM : size * count < W / 2) by (rewrite CK; change (W / 2) with (ALLOC_MAX + 1); lia).
      rewrite (N.mod_small (size * count)) by (change W with (2 * (W / 2)); lia).
      rewrite (N.mod_small (2 * (size * count))) by (change W with (2 * (W / 2)); lia).
      destruct (xrealloc block (2 * (size * count)) a) as [b|] eqn:X.
      * destruct (xrealloc_length _ _ _ _ X) as (LB & MX & PR).
        assert (FB : firstn (length block) b = block) by (apply PR; rewrite K2, <- CK; lia).
        assert (LBK : length block = N.to_nat (size * count)) by (rewrite K2, CK; reflexivity).
        assert (FC : firstn (N.to_nat (size * count)) b = concat elems).
        { rewrite <- LBK, FB. rewrite <- F, <- LBK. symmetry. apply firstn_all. }
        destruct (push_room size elems (firstn (N.to_nat (size * count)) b ++ e ++ skipn (N.to_nat (size * count) + length e) b) count (2 * count) e b)
          as (R & LL & FF); try assumption; try reflexivity; try lia.
        replace (Nat.leb _ _) with true by (symmetry; apply Nat.leb_le; exact R).
        eexists. split; [reflexivity|]. left. split; [|reflexivity]. cbn [array]. rewrite app_length. cbn [length].
        split; [lia|]. split; [exact FF|]. right. exists (k + 1). rewrite N.pow_add_r. change (2 ^ 1) with 2. rewrite <- CK, LL, LB.
        split; [lia|]. split; [f_equal; lia|]. lia.
      * eexists. split; [reflexivity|]. right. split; [reflexivity|]. unfold xrealloc in X.
        destruct (N.ltb_spec ALLOC_MAX (2 * (size * count))); [right; lia|]. destruct a; [discriminate|auto].
    + assert (CK : count < 2 ^ k).
      { destruct (N.eq_dec count (2 ^ k)) as [->|]; [|lia]. exfalso. apply NZ, land_pred_pow. }
      destruct (push_room size elems (firstn (N.to_nat (size * count)) block ++ e ++ skipn (N.to_nat (size * count) + length e) block) count (2 ^ k) e block)
          as (R & LL & FF); try assumption; try reflexivity; try lia.
      replace (Nat.leb _ _) with true by (symmetry; apply Nat.leb_le; exact R).
      eexists. split; [reflexivity|]. left. split; [|reflexivity]. cbn [array]. rewrite app_length. cbn [length].
      split; [lia|]. split; [exact FF|]. right. exists k. rewrite LL. split; [lia|]. split; [exact K2|exact K3].
Qed.

Theorem pushes_ok size : 0 < size -> forall l elems st,
  (forall e a, In (e, a) l -> N.of_nat (length e) = size) -> array size elems st ->
  exists st' stored, pushes size l st = Some st' /\ sublist stored (map fst l) /\ array size (elems ++ stored) st' /\
    ((forall e, ~ In (e, None) l) -> 2 * size * (N.of_nat (length elems) + N.of_nat (length l)) <= ALLOC_MAX -> stored = map fst l).
Proof.
  intros SZ. induction l as [|[e a] l IH]; intros elems st E A; cbn [pushes map fst].
  - exists st, []. rewrite app_nil_r. split; [reflexivity|]. split; [constructor|]. auto.
  - destruct (push_ok size elems st e a SZ (E e a (or_introl eq_refl)) A) as (st1 & P & C). rewrite P.
    assert (E' : forall e a, In (e, a) l -> N.of_nat (length e) = size) by (intros; eapply E; right; eassumption).
    destruct C as [[A1 _]|[-> F]].
    + destruct (IH (elems ++ [e]) st1 E' A1) as (st' & stored & P' & SB & A' & ALL).
      exists st', (e :: stored). split; [exact P'|]. split; [constructor; exact SB|]. rewrite <- app_assoc in A'. split; [exact A'|].
      intros N M. f_equal. apply ALL; [intros x Hx; apply (N x); right; exact Hx|].
      rewrite app_length. cbn [length] in *. lia.
    + destruct (IH elems st E' A) as (st' & stored & P' & SB & A' & ALL).
      exists st', stored. split; [exact P'|]. split; [constructor; exact SB|]. split; [exact A'|].
      intros N M. exfalso. destruct F as [->|F].
      * apply (N e). left. reflexivity.
      * destruct st as [b c]. destruct A as [-> _]. cbn [snd length] in *. 
        assert (2 * size * (N.of_nat (length elems) + 1) <= 2 * size * (N.of_nat (length elems) + N.of_nat (S (length l)))) by (apply N.mul_le_mono_l; lia).
        lia.
Qed.

Theorem array_history size l : 0 < size -> (forall e a, In (e, a) l -> N.of_nat (length e) = size) ->
  exists block stored, pushes size l ([], 0) = Some (block, N.of_nat (length stored)) /\ sublist stored (map fst l) /\
    firstn (N.to_nat (size * N.of_nat (length stored))) block = concat stored /\
    ((forall e, ~ In (e, None) l) -> 2 * size * N.of_nat (length l) <= ALLOC_MAX -> stored = map fst l).
Proof.
  intros SZ E. destruct (pushes_ok size SZ l [] ([], 0) E) as ([b c] & stored & P & SB & A & ALL).
  - cbn [array length concat]. rewrite N.mul_0_r. split; [reflexivity|]. split; [reflexivity|]. left. auto.
  - cbn [app] in A. destruct A as (C & F & _). rewrite C in *. exists b, stored. split; [exact P|]. split; [exact SB|]. split; [exact F|].
    exact ALL.
Qed.
