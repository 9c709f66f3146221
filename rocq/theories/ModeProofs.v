(** Proofs about mode strings *)
From Coq Require Import List NArith Bool Lia.
From Coq Require Import Init.Byte Strings.Byte.
From Verif Require Import ModeModel ModeSpec TrieBits.
Import ListNotations.
Local Open Scope N_scope.

Definition round (m : N) : bool :=
  if known_type m then match read_mode (xstrmode m) with Some k => k =? m | None => false end else true.

Lemma round_all : all_words 16 round 0 = true.
Proof. vm_compute. reflexivity. Qed.

Lemma land_low m k : N.land 0xffff k = k -> N.land (N.land m 0xffff) k = N.land m k.
Proof. intros E. rewrite <- N.land_assoc, E. reflexivity. Qed.

Lemma xstrmode_low m : xstrmode (N.land m 0xffff) = xstrmode m.
Proof.
  unfold xstrmode, type_char, triple_end, has, when, S_IFMT. cbn [N.add Pos.add Pos.succ Pos.add_carry].
  rewrite !land_low by reflexivity. reflexivity.
Qed.

Lemma low_lt m : N.land m 0xffff < 2 ^ 16.
Proof. change 0xffff with (N.ones 16). rewrite N.land_ones. apply N.mod_lt. discriminate. Qed.

Lemma read_back m : known_type m = true -> read_mode (xstrmode m) = Some (N.land m 0xffff).
Proof.
  intros K. pose proof (all_words_spec _ _ _ round_all (N.land m 0xffff) (low_lt m)) as R.
  cbn [N.mul N.add] in R. unfold round in R.
  assert (K' : known_type (N.land m 0xffff) = true).
  { unfold known_type in *. rewrite land_low by reflexivity. exact K. }
  rewrite K', xstrmode_low in R. destruct (read_mode (xstrmode m)) as [k|]; [|discriminate].
  apply N.eqb_eq in R. congruence.
Qed.

Lemma mode_injective m1 m2 : known_type m1 = true -> known_type m2 = true ->
  xstrmode m1 = xstrmode m2 -> N.land m1 0xffff = N.land m2 0xffff.
Proof. intros K1 K2 E. pose proof (read_back m1 K1). pose proof (read_back m2 K2). congruence. Qed.

Definition unknown_round (m : N) : bool :=
  known_type m || (match xstrmode m with
                   | c :: s => Byte.eqb c "?" &&
                       match read_mode ("-"%byte :: s) with Some k => k =? 0x8000 + N.land m 0xfff | None => false end
                   | [] => false
                   end).
Lemma unknown_all : all_words 16 unknown_round 0 = true.
Proof. vm_compute. reflexivity. Qed.

Lemma unknown_type m : known_type m = false ->
  exists s, xstrmode m = "?"%byte :: s /\ read_mode ("-"%byte :: s) = Some (0x8000 + N.land m 0xfff).
Proof.
  intros K. pose proof (all_words_spec _ _ _ unknown_all (N.land m 0xffff) (low_lt m)) as R.
  cbn [N.mul N.add] in R. unfold unknown_round in R.
  assert (K' : known_type (N.land m 0xffff) = false).
  { unfold known_type in *. rewrite land_low by reflexivity. exact K. }
  rewrite K', xstrmode_low, land_low in R by reflexivity. cbn [orb] in R.
  destruct (xstrmode m) as [|c s]; [discriminate|]. apply andb_true_iff in R. destruct R as [R1 R2].
  apply Byte.byte_dec_bl in R1. subst c. exists s. split; [reflexivity|].
  destruct (read_mode _); [|discriminate]. apply N.eqb_eq in R2. congruence.
Qed.

Lemma xstrmode_length m : length (xstrmode m) = 10%nat.
Proof. reflexivity. Qed.
