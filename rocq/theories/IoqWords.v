(** * What the words of the slots mean *)

From Coq Require Import List Arith NArith Bool Lia ZifyBool ZifyN.
Import ListNotations.
From Verif Require Import IoqModel.
Local Open Scope N_scope.

(** A slot is empty, has an entry, or is skipped by the next [n] pushes
    (ioq.c 86-110). *)
Inductive view : Type := Empty | Full (e : N) | Skips (n : N).

Definition valid (v : view) : Prop :=
  match v with
  | Empty => True
  | Full e => 0 < e < 2 ^ 64 /\ e mod 4 = 0
  | Skips n => 0 < n <= 2 ^ 61
  end.

Definition word (v : view) (b : bool) : N :=
  let k := if b then 1 else 0 in
  match v with
  | Empty => k
  | Full e => e / 2 + k
  | Skips n => 2 ^ 64 - 2 * n + k
  end.

(** The entry of a slot *)
Definition entry_of (v : view) : N := match v with Full e => e | _ => 0 end.

(** ** Bits *)
Lemma W_val : W = 18446744073709551616. Proof. reflexivity. Qed.

Lemma land_ones x : x < W -> N.land x (W - 1) = x.
Proof. intros H. change (W - 1) with (N.ones 64). rewrite N.land_ones. apply N.mod_small, H. Qed.

Lemma clear_low x : x < W -> N.land x (not64 BLOCKED) = 2 * (x / 2).
Proof.
  intros H. replace (not64 BLOCKED) with (N.lxor (N.ones 64) 1) by reflexivity.
  apply N.bits_inj. intros n. rewrite N.land_spec, N.lxor_spec.
  replace (2 * (x / 2)) with (N.shiftl (N.shiftr x 1) 1) by (rewrite N.shiftl_mul_pow2, N.shiftr_div_pow2; change (2 ^ 1) with 2; lia).
  destruct (N.eq_dec n 0) as [-> | NZ].
  - rewrite N.shiftl_spec_low by lia. change (N.testbit (N.ones 64) 0) with true. cbn. apply andb_false_r.
  - rewrite N.shiftl_spec_high' by lia. rewrite N.shiftr_spec by lia. replace (n - 1 + 1) with n by lia.
    destruct (N.ltb_spec n 64).
    + rewrite N.ones_spec_low by lia. replace (N.testbit 1 n) with false; [rewrite xorb_false_r, andb_true_r; reflexivity|]. symmetry. change 1 with (2 ^ 0). apply N.pow2_bits_false. lia.
    + replace (N.testbit x n) with false; [reflexivity|]. symmetry. destruct (N.eq_dec x 0) as [-> | NX]; [apply N.bits_0|].
      apply N.bits_above_log2. assert (N.log2 x < 64); [|lia]. apply N.log2_lt_pow2; [lia|exact H].
Qed.

Lemma top_bit x : x < W -> N.shiftr x SKIP_BIT = if x <? 2 ^ 63 then 0 else 1.
Proof.
  intros H. unfold SKIP_BIT. rewrite N.shiftr_div_pow2. destruct (N.ltb_spec x (2 ^ 63)).
  - apply N.div_small. assumption.
  - symmetry. apply (N.div_unique x (2 ^ 63) 1 (x - 2 ^ 63)); [|lia]. rewrite W_val in H. change (2 ^ 63) with 9223372036854775808 in *. lia.
Qed.

Lemma blend_low slot skip full : slot < 2 ^ 63 -> full < W -> blend slot skip full = 2 * (full / 2).
Proof.
  intros L F. unfold blend. rewrite top_bit by (rewrite W_val; change (2 ^ 63) with 9223372036854775808 in L; lia).
  destruct (N.ltb_spec slot (2 ^ 63)); [|lia]. change ((W - 0) mod W) with 0. rewrite N.land_0_r, N.lor_0_l.
  change (not64 0) with (W - 1). rewrite land_ones by exact F. apply clear_low, F.
Qed.
Lemma blend_high slot skip full : 2 ^ 63 <= slot -> slot < W -> skip < W -> blend slot skip full = 2 * (skip / 2).
Proof.
  intros L L' F. unfold blend. rewrite top_bit by exact L'.
  destruct (N.ltb_spec slot (2 ^ 63)); [lia|]. change ((W - 1) mod W) with (W - 1). change (not64 (W - 1)) with 0. rewrite N.land_0_r, N.lor_0_r.
  rewrite land_ones by exact F. apply clear_low, F.
Qed.

Ltac consts := change (2 ^ 64) with 18446744073709551616 in *; change (2 ^ 63) with 9223372036854775808 in *; change (2 ^ 61) with 2305843009213693952 in *; change W with 18446744073709551616 in *; change SKIP_ONE with 18446744073709551614 in *.

Lemma word_lt v b : valid v -> word v b < W.
Proof. destruct v, b; cbn [valid word]; intros; consts; lia. Qed.

Lemma word_half v b : valid v -> 2 * (word v b / 2) = word v false.
Proof. destruct v as [|e|n], b; cbn [valid word]; intros; consts; lia. Qed.

Definition is_skip (v : view) : bool := match v with Skips _ => true | _ => false end.

Lemma word_top v b : valid v -> if is_skip v then 2 ^ 63 <= word v b else word v b < 2 ^ 63.
Proof. destruct v as [|e|n], b; cbn [valid word is_skip]; intros; consts; lia. Qed.

(** ** Flags *)
Lemma blocked_odd w : blocked w = N.odd w.
Proof. unfold blocked, BLOCKED. destruct w as [|[p|p|]]; reflexivity. Qed.

Lemma word_odd v b : valid v -> N.odd (word v b) = b.
Proof.
  intros V. assert (word v b = (if b then 1 else 0) + 2 * (word v b / 2)).
  { rewrite (word_half v b V). destruct v, b; cbn [word]; lia. }
  rewrite H. rewrite N.odd_add_mul_2. destruct b; reflexivity.
Qed.

Lemma word_blocked v b : valid v -> blocked (word v b) = b.
Proof. intros V. rewrite blocked_odd. apply word_odd, V. Qed.

Lemma word_mark v : valid v -> N.lor (word v false) BLOCKED = word v true.
Proof.
  intros V. pose proof (word_half v false V) as H. rewrite <- H at 1. replace (word v true) with (2 * (word v false / 2) + 1); [|rewrite H; destruct v; cbn [word]; lia].
  generalize (word v false / 2). intros x. unfold BLOCKED. destruct x; reflexivity.
Qed.

Lemma word_inj v b v' b' : valid v -> valid v' -> word v b = word v' b' -> v = v' /\ b = b'.
Proof.
  intros V V' E. assert (B : b = b') by (rewrite <- (word_odd v b V), <- (word_odd v' b' V'), E; reflexivity). split; [|exact B]. subst b'.
  destruct v as [|e|n], v' as [|e'|n']; cbn [valid word] in *; try reflexivity; try (f_equal; consts; destruct b; lia); exfalso; consts; destruct b; lia.
Qed.

Lemma word_pushed v b : valid v -> pushed (word v b) = negb (is_skip v).
Proof.
  intros V. unfold pushed, SKIP, SKIP_BIT. pose proof (word_top v b V) as T. pose proof (word_lt v b V) as L. rewrite N.shiftl_1_l.
  assert (Z : N.land (word v b) (2 ^ 63) = if is_skip v then 2 ^ 63 else 0).
  { apply N.bits_inj. intros n. rewrite N.land_spec, N.pow2_bits_eqb.
    assert (B : N.testbit (word v b) 63 = is_skip v).
    { rewrite N.testbit_eqb. pose proof (top_bit _ L) as TB. unfold SKIP_BIT in TB. rewrite N.shiftr_div_pow2 in TB. rewrite TB. destruct (is_skip v), (N.ltb_spec (word v b) (2 ^ 63)); try reflexivity; lia. }
    destruct (N.eqb_spec 63 n) as [<- | NE].
    - rewrite B. destruct (is_skip v); [reflexivity|]. reflexivity.
    - rewrite andb_false_r. destruct (is_skip v); [rewrite N.pow2_bits_false by exact NE; reflexivity|rewrite N.bits_0; reflexivity]. }
  rewrite Z. destruct (is_skip v); reflexivity.
Qed.

(** ** Transitions *)
Definition after_push (e : N) (v : view) : option view :=
  match v with
  | Empty => Some (Full e)
  | Full _ => None
  | Skips n => Some (if n =? 1 then Empty else Skips (n - 1))
  end.
Definition after_pop (block : bool) (v : view) : option view :=
  match v with
  | Full _ => Some Empty
  | Empty => if block then None else Some (Skips 1)
  | Skips n => if block then None else Some (Skips (n + 1))
  end.

Lemma word_push e v b : valid v -> valid (Full e) -> push_next e (word v b) = option_map (fun v => word v false) (after_push e v).
Proof.
  intros V VE. pose proof (word_lt v b V) as L. pose proof (word_top v b V) as T. pose proof (word_half v b V) as H. unfold push_next.
  destruct v as [|x|n]; cbn [is_skip after_push option_map] in *.
  - rewrite !blend_low by (try assumption; try reflexivity; rewrite N.shiftr_div_pow2; change (2 ^ 1) with 2; cbn [valid] in VE; consts; lia).
    rewrite H. cbn [word]. cbn [N.eqb]. f_equal. rewrite N.shiftr_div_pow2. change (2 ^ 1) with 2. cbn [valid] in VE. lia.
  - rewrite blend_low by assumption. rewrite H. cbn [word valid] in *. destruct (N.eqb_spec (x / 2 + 0) 0); [lia|reflexivity].
  - rewrite !blend_high by (try assumption; try reflexivity; apply N.mod_lt; discriminate). change (2 * (0 / 2) =? 0) with true. cbv iota. f_equal.
    cbn [valid word] in *. destruct (N.eqb_spec n 1) as [-> | NE]; cbn [word].
    + destruct b; vm_compute; reflexivity.
    + assert (E : (2 ^ 64 - 2 * n + (if b then 1 else 0) + W - SKIP_ONE) mod W = 2 ^ 64 - 2 * (n - 1) + (if b then 1 else 0)).
      { consts. rewrite N.mod_small by (destruct b; lia). destruct b; lia. }
      rewrite E. consts. destruct b; lia.
Qed.

Lemma word_pop block v b : valid v -> (forall n, v = Skips n -> n < 2 ^ 61) -> pop_next block (word v b) = option_map (fun v => word v false) (after_pop block v).
Proof.
  intros V NS. pose proof (word_lt v b V) as L. unfold pop_next.
  assert (M : (word v b + SKIP_ONE) mod W = match v with Full e => e / 2 - 2 + (if b then 1 else 0) | Empty => 2 ^ 64 - 2 + (if b then 1 else 0) | Skips n => 2 ^ 64 - 2 * (n + 1) + (if b then 1 else 0) end).
  { destruct v as [|e|n]; cbn [valid word] in *.
    - rewrite N.mod_small; consts; destruct b; lia.
    - replace (e / 2 + (if b then 1 else 0) + SKIP_ONE) with (e / 2 - 2 + (if b then 1 else 0) + 1 * W) by (consts; lia). rewrite N.mod_add by discriminate. apply N.mod_small. consts. destruct b; lia.
    - pose proof (NS n eq_refl). replace (2 ^ 64 - 2 * n + (if b then 1 else 0) + SKIP_ONE) with (2 ^ 64 - 2 * (n + 1) + (if b then 1 else 0) + 1 * W) by (consts; lia). rewrite N.mod_add by discriminate. apply N.mod_small. consts. destruct b; lia. }
  cbv zeta. rewrite M. destruct v as [|e|n]; cbn [after_pop valid word] in *.
  - rewrite blend_high by (consts; destruct b; lia). assert (Z : 2 * ((2 ^ 64 - 2 + (if b then 1 else 0)) / 2) = 2 ^ 64 - 2 * 1) by (consts; destruct b; lia). rewrite Z. destruct block; reflexivity.
  - rewrite blend_low by (consts; destruct b; lia). change (2 * (0 / 2)) with 0. rewrite andb_false_r. reflexivity.
  - pose proof (NS n eq_refl). rewrite blend_high by (consts; destruct b; lia). assert (Z : 2 * ((2 ^ 64 - 2 * (n + 1) + (if b then 1 else 0)) / 2) = 2 ^ 64 - 2 * (n + 1) + 0) by (consts; destruct b; lia). rewrite Z.
    destruct (N.eqb_spec (2 ^ 64 - 2 * (n + 1) + 0) 0); [consts; lia|]. destruct block; reflexivity.
Qed.

Lemma word_popped v b : valid v -> popped (word v b) = entry_of v.
Proof.
  intros V. pose proof (word_lt v b V) as L. pose proof (word_top v b V) as T. pose proof (word_half v b V) as H. unfold popped. rewrite N.shiftl_mul_pow2. change (2 ^ 1) with 2.
  destruct v as [|e|n]; cbn [is_skip entry_of] in *.
  - rewrite blend_low by assumption. rewrite H. reflexivity.
  - rewrite blend_low by assumption. rewrite H. cbn [word valid] in *. rewrite N.mod_small; consts; lia.
  - rewrite blend_high by (try assumption; reflexivity). reflexivity.
Qed.

(** ** Reading words *)
Definition see (w : N) : view :=
  if w / 2 =? 0 then Empty
  else if w <? 2 ^ 63 then Full (4 * (w / 2))
  else Skips (2 ^ 63 - w / 2).

Lemma see_word v b : valid v -> see (word v b) = v.
Proof.
  intros V. unfold see. destruct v as [|e|n]; cbn [valid word] in *.
  - destruct b; reflexivity.
  - destruct (N.eqb_spec ((e / 2 + (if b then 1 else 0)) / 2) 0); [destruct b; consts; lia|].
    destruct (N.ltb_spec (e / 2 + (if b then 1 else 0)) (2 ^ 63)); [|consts; destruct b; lia]. f_equal. consts. destruct b; lia.
  - destruct (N.eqb_spec ((2 ^ 64 - 2 * n + (if b then 1 else 0)) / 2) 0); [destruct b; consts; lia|].
    destruct (N.ltb_spec (2 ^ 64 - 2 * n + (if b then 1 else 0)) (2 ^ 63)); [consts; destruct b; lia|]. f_equal. consts. destruct b; lia.
Qed.

Lemma after_push_valid e v v' : valid v -> valid (Full e) -> after_push e v = Some v' -> valid v'.
Proof. destruct v as [|x|n]; cbn [after_push]; intros V VE E; inversion E; subst; [exact VE|]. destruct (N.eqb_spec n 1); cbn [valid] in *; [exact I|lia]. Qed.
Lemma after_pop_valid block v v' : valid v -> (forall n, v = Skips n -> n < 2 ^ 61) -> after_pop block v = Some v' -> valid v'.
Proof.
  destruct v as [|x|n]; cbn [after_pop]; intros V B E; [destruct block; inversion E; subst; cbn [valid]; consts; lia|inversion E; exact I|].
  destruct block; inversion E; subst. specialize (B n eq_refl). cbn [valid] in *. consts. lia.
Qed.
