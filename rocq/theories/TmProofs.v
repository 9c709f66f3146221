(** Proofs about the conversion of broken-down time *)
From Coq Require Import List ZArith Bool Lia ZifyBool.
From Verif Require Import TmModel TmSpec.
Import ListNotations.
Local Open Scope Z_scope.

Lemma int_inv x y : int_ x = Ok y -> y = x /\ INT_MIN <= x <= INT_MAX.
Proof. unfold int_. destruct (_ && _) eqn:E; [|discriminate]. intros [= <-]. lia. Qed.
Lemma int_in x : INT_MIN <= x <= INT_MAX -> int_ x = Ok x.
Proof. intros H. unfold int_. replace (_ && _) with true by lia. reflexivity. Qed.

Lemma bind_inv {A B} (r : result A) (f : A -> result B) b : bind r f = Ok b -> exists a, r = Ok a /\ f a = Ok b.
Proof. destruct r; try discriminate. eauto. Qed.

Lemma floor_value n d : 0 < d -> Z.quot (n + (if n <? 0 then 1 else 0)) d - (if n <? 0 then 1 else 0) = n / d.
Proof.
  intros D. destruct (Z.ltb_spec n 0).
  - replace (n + 1) with (- (- n - 1)) by lia. rewrite Z.quot_opp_l by lia. rewrite Z.quot_div_nonneg by lia.
    pose proof (Z.div_mod (- n - 1) d ltac:(lia)). pose proof (Z.mod_pos_bound (- n - 1) d D).
    apply Z.div_unique with (r := d - 1 - (- n - 1) mod d); nia.
  - rewrite Z.add_0_r, Z.sub_0_r. apply Z.quot_div_nonneg; lia.
Qed.
Lemma floor_div_inv n d q : 0 < d -> floor_div n d = Ok q -> q = n / d.
Proof. intros D H. unfold floor_div in H. apply int_inv in H. rewrite floor_value in H by exact D. tauto. Qed.
Lemma floor_div_in n d : 0 < d -> INT_MIN <= n <= INT_MAX -> floor_div n d = Ok (n / d).
Proof.
  intros D N. unfold floor_div. rewrite floor_value by exact D. apply int_in.
  unfold INT_MIN, INT_MAX in *. pose proof (Z.div_mod n d ltac:(lia)). pose proof (Z.mod_pos_bound n d D). nia.
Qed.

Lemma safe_add_inv v d r : safe_add v d = Ok r -> r = v + d.
Proof.
  unfold safe_add. destruct (0 <=? v); [destruct (_ <? d)|destruct (d <? _)]; try discriminate; intros H; apply int_inv in H; tauto.
Qed.
Lemma safe_add_in v d : INT_MIN <= v + d <= INT_MAX -> safe_add v d = Ok (v + d).
Proof.
  intros H. unfold safe_add. destruct (Z.leb_spec 0 v).
  - replace (_ <? d) with false by (unfold INT_MAX in *; lia). apply int_in. exact H.
  - replace (d <? _) with false by (unfold INT_MIN in *; lia). apply int_in. exact H.
Qed.

Lemma wrap_inv v max n v' n' : 0 < max -> wrap v max n = Ok (v', n') ->
  0 <= v' < max /\ v' = v mod max /\ n' = n + v / max.
Proof.
  intros M H. unfold wrap in H.
  apply bind_inv in H. destruct H as (c & H1 & H). apply floor_div_inv in H1; [|exact M]. subst c.
  apply bind_inv in H. destruct H as (p & H1 & H). apply int_inv in H1. destruct H1 as [-> _].
  apply bind_inv in H. destruct H as (w & H1 & H). apply int_inv in H1. destruct H1 as [-> _].
  apply bind_inv in H. destruct H as (x & H1 & H). apply safe_add_inv in H1. subst x.
  injection H as <- <-. rewrite Z.mod_eq by lia.
  pose proof (Z.div_mod v max ltac:(lia)). pose proof (Z.mod_pos_bound v max M). lia.
Qed.
Lemma wrap_in v max n : 0 < max <= 60 -> - 2 ^ 31 + 60 <= v <= INT_MAX -> INT_MIN <= n + v / max <= INT_MAX ->
  wrap v max n = Ok (v mod max, n + v / max).
Proof.
  intros M V N. unfold wrap. rewrite floor_div_in by (unfold INT_MIN in *; lia). cbn [bind].
  pose proof (Z.div_mod v max ltac:(lia)). pose proof (Z.mod_pos_bound v max ltac:(lia)).
  rewrite int_in by (unfold INT_MIN, INT_MAX in *; lia). cbn [bind].
  rewrite int_in by (unfold INT_MIN, INT_MAX in *; lia). cbn [bind].
  rewrite safe_add_in by exact N. cbn [bind]. f_equal. f_equal. lia.
Qed.

(** ** Months *)
Lemma rem_zero a b : 0 < b -> (Z.rem a b =? 0) = (a mod b =? 0).
Proof.
  intros B. apply eq_iff_eq_true. rewrite !Z.eqb_eq. rewrite Z.rem_divide, Z.mod_divide by lia. tauto.
Qed.

Lemma month_cases m : 0 <= m < 12 ->
  m = 0 \/ m = 1 \/ m = 2 \/ m = 3 \/ m = 4 \/ m = 5 \/ m = 6 \/ m = 7 \/ m = 8 \/ m = 9 \/ m = 10 \/ m = 11.
Proof. lia. Qed.

Ltac destruct_months m H := let E := fresh in pose proof (month_cases m H) as E; repeat destruct E as [E|E]; rewrite E in *; clear E.

Lemma month_div y m : 0 <= m < 12 -> (12 * y + m) / 12 = y.
Proof. intros. symmetry. apply Z.div_unique with (r := m); lia. Qed.
Lemma month_mod y m : 0 <= m < 12 -> (12 * y + m) mod 12 = m.
Proof. intros. symmetry. apply Z.mod_unique with (q := y); lia. Qed.

Lemma leap_shift y : leap (1900 + y) = (y mod 4 =? 0) && (negb (y mod 100 =? 0) || ((y + 300) mod 400 =? 0)).
Proof.
  unfold leap. replace (1900 + y) with (y + 475 * 4) at 1 by lia. rewrite Z.mod_add by lia.
  replace (1900 + y) with (y + 19 * 100) at 1 by lia. rewrite Z.mod_add by lia.
  replace (1900 + y) with (y + 300 + 4 * 400) by lia. rewrite Z.mod_add by lia. reflexivity.
Qed.

Definition february (y : Z) : Z := if leap (1900 + y) then 29 else 28.

Lemma month_length_inv y m l : 0 <= m < 12 -> month_length y m = Ok l -> l = days_in (12 * (1900 + y) + m).
Proof.
  intros M H. unfold days_in. rewrite month_div, month_mod by exact M. unfold month_length in H.
  destruct (Z.eqb_spec m 1) as [->|NE].
  - cbn [andb] in H. change (nth (Z.to_nat 1) month_lengths 0) with 28 in H. rewrite leap_shift.
    rewrite !rem_zero in H by lia. destruct (y mod 4 =? 0); cbn [andb]; [|injection H as <-; reflexivity].
    destruct (negb (y mod 100 =? 0)); cbn [orb]; [injection H as <-; reflexivity|].
    apply bind_inv in H. destruct H as (x & H1 & H). apply int_inv in H1. destruct H1 as [-> _].
    rewrite rem_zero in H by lia. injection H as <-. destruct (_ =? 0); reflexivity.
  - cbn [andb] in H. injection H as <-.
    destruct_months m M; try reflexivity. contradiction.
Qed.
Lemma month_length_in y m : 0 <= m < 12 -> INT_MIN <= y + 300 <= INT_MAX ->
  month_length y m = Ok (days_in (12 * (1900 + y) + m)).
Proof.
  intros M Y. assert (exists l, month_length y m = Ok l) as (l & E).
  { unfold month_length. destruct (_ && _); [|eauto]. destruct (negb _); [eauto|]. rewrite int_in by exact Y. cbn [bind]. eauto. }
  rewrite E. f_equal. apply month_length_inv; assumption.
Qed.

Lemma days_in_bound M : 28 <= days_in M <= 31.
Proof.
  unfold days_in. pose proof (Z.mod_pos_bound M 12 ltac:(lia)). set (m := M mod 12) in *. clearbody m.
  destruct_months m H; try lia.
  destruct (leap (M / 12)); lia.
Qed.

(** ** Counting *)
Lemma total_snoc f n : forall from, total f from (S n) = total f from n + f (from + Z.of_nat n).
Proof.
  induction n as [|n IH]; intros from.
  - cbn [total Z.of_nat]. rewrite !Z.add_0_r. reflexivity.
  - change (total f from (S (S n))) with (f from + total f (from + 1) (S n)). rewrite IH.
    change (total f from (S n)) with (f from + total f (from + 1) n).
    replace (from + 1 + Z.of_nat n) with (from + Z.of_nat (S n)) by lia. lia.
Qed.

Lemma days_to_next M : days_to (M + 1) = days_to M + days_in M.
Proof.
  unfold days_to. destruct (Z.leb_spec epoch M).
  - replace (epoch <=? M + 1) with true by lia.
    replace (Z.to_nat (M + 1 - epoch)) with (S (Z.to_nat (M - epoch))) by lia. rewrite total_snoc.
    f_equal. f_equal. lia.
  - destruct (Z.leb_spec epoch (M + 1)).
    + assert (M = epoch - 1) by lia. subst M. replace (Z.to_nat (epoch - 1 + 1 - epoch)) with O by lia.
      replace (Z.to_nat (epoch - (epoch - 1))) with 1%nat by lia. cbn [total]. lia.
    + replace (Z.to_nat (epoch - M)) with (S (Z.to_nat (epoch - (M + 1)))) by lia. cbn [total]. lia.
Qed.

(** Days before month [m] of a year *)
Definition month_offset (y m : Z) : Z := total days_in (12 * y) (Z.to_nat m).
Lemma days_to_month y n : days_to (12 * y + Z.of_nat n) = days_to (12 * y) + total days_in (12 * y) n.
Proof.
  induction n as [|n IH]; [rewrite Z.add_0_r; cbn; lia|].
  replace (12 * y + Z.of_nat (S n)) with (12 * y + Z.of_nat n + 1) by lia.
  rewrite days_to_next, IH, total_snoc. lia.
Qed.

Definition year_days (y : Z) : Z := if leap y then 366 else 365.
Lemma days_to_year_next y : days_to (12 * (y + 1)) = days_to (12 * y) + year_days y.
Proof.
  replace (12 * (y + 1)) with (12 * y + Z.of_nat 12) by lia. rewrite days_to_month. f_equal.
  cbn [total].
  assert (D : forall m, 0 <= m < 12 -> days_in (12 * y + m) =
    match m with 1 => if leap y then 29 else 28 | 3 | 5 | 8 | 10 => 30 | _ => 31 end).
  { intros m M. unfold days_in. rewrite month_div, month_mod by exact M. reflexivity. }
  replace (12 * y) with (12 * y + 0) by lia. rewrite <- !Z.add_assoc. cbn [Z.add Pos.add Pos.succ Pos.add_carry].
  rewrite !D by lia. unfold year_days. destruct (leap y); reflexivity.
Qed.

(** The closed form of the code *)
Definition leaps (y : Z) : Z := (y - 69) / 4 - (y - 1) / 100 + (y + 299) / 400.
Lemma div_step a d : 0 < d -> (a + 1) / d = a / d + (if (a + 1) mod d =? 0 then 1 else 0).
Proof.
  intros D. pose proof (Z.div_mod a d ltac:(lia)). pose proof (Z.mod_pos_bound a d D).
  pose proof (Z.div_mod (a + 1) d ltac:(lia)). pose proof (Z.mod_pos_bound (a + 1) d D).
  destruct (Z.eqb_spec ((a + 1) mod d) 0); nia.
Qed.
Lemma year_start y : days_to (12 * (1900 + y)) = 365 * (y - 70) + leaps y.
Proof.
  assert (E : forall y, leaps (y + 1) = leaps y + (if leap (1900 + y) then 1 else 0)).
  { clear y. intros y. unfold leaps. rewrite leap_shift.
    replace (y + 1 - 69) with (y - 69 + 1) by lia. replace (y + 1 - 1) with (y - 1 + 1) by lia.
    replace (y + 1 + 299) with (y + 299 + 1) by lia. rewrite !div_step by lia.
    replace (y - 69 + 1) with (y + (-17) * 4) by lia. rewrite Z.mod_add by lia.
    replace (y - 1 + 1) with y by lia. replace (y + 299 + 1) with (y + 300) by lia.
    assert (H4 : y mod 100 = 0 -> y mod 4 = 0).
    { intros H. apply Z.mod_divide in H; [|lia]. apply Z.mod_divide; [lia|]. apply Z.divide_trans with 100; [exists 25; reflexivity|exact H]. }
    assert (H100 : (y + 300) mod 400 = 0 -> y mod 100 = 0).
    { intros H. apply Z.mod_divide in H; [|lia]. destruct H as [k H]. apply Z.mod_divide; [lia|]. exists (4 * k - 3). lia. }
    destruct (Z.eqb_spec (y mod 4) 0), (Z.eqb_spec (y mod 100) 0), (Z.eqb_spec ((y + 300) mod 400) 0); cbn [andb orb negb];
      try lia; exfalso; tauto. }
  assert (S : forall y, days_to (12 * (1900 + (y + 1))) - (365 * (y + 1 - 70) + leaps (y + 1)) = days_to (12 * (1900 + y)) - (365 * (y - 70) + leaps y)).
  { clear y. intros y. replace (1900 + (y + 1)) with (1900 + y + 1) by lia. rewrite days_to_year_next, E. unfold year_days.
    destruct (leap (1900 + y)); lia. }
  assert (Z0 : days_to (12 * (1900 + 70)) - (365 * (70 - 70) + leaps 70) = 0) by reflexivity.
  destruct (Z_le_dec 70 y).
  - replace y with (70 + Z.of_nat (Z.to_nat (y - 70))) by lia. generalize (Z.to_nat (y - 70)). intros n.
    induction n as [|n IH]; [change (Z.of_nat 0) with 0; rewrite Z.add_0_r; lia|].
    replace (70 + Z.of_nat (Datatypes.S n)) with (70 + Z.of_nat n + 1) by lia. specialize (S (70 + Z.of_nat n)). lia.
  - replace y with (70 - Z.of_nat (Z.to_nat (70 - y))) by lia. generalize (Z.to_nat (70 - y)). intros m.
    induction m as [|m IH]; [change (Z.of_nat 0) with 0; rewrite Z.sub_0_r; lia|].
    specialize (S (70 - Z.of_nat (Datatypes.S m))). replace (70 - Z.of_nat (Datatypes.S m) + 1) with (70 - Z.of_nat m) in S by lia. lia.
Qed.

Lemma leap_days_value y :
  (if 0 <=? y then (y - 69) / 4 - (y - 1) / 100 + (y - 101) / 400 + 1
   else (y + 3) / 4 - (y + 99) / 100 + (y + 299) / 400 - 17) = leaps y.
Proof.
  unfold leaps. destruct (0 <=? y).
  - replace (y + 299) with (y - 101 + 1 * 400) by lia. rewrite Z.div_add by lia. lia.
  - replace (y + 3) with (y - 69 + 18 * 4) by lia. rewrite Z.div_add by lia.
    replace (y + 99) with (y - 1 + 1 * 100) by lia. rewrite Z.div_add by lia. lia.
Qed.
Lemma leap_days_inv y l : leap_days y = Ok l -> l = leaps y.
Proof.
  rewrite <- leap_days_value. unfold leap_days. intros H. destruct (0 <=? y).
  all: apply bind_inv in H; destruct H as (a & H1 & H); apply floor_div_inv in H1; [|lia].
  all: apply bind_inv in H; destruct H as (b & H2 & H); apply floor_div_inv in H2; [|lia].
  all: apply bind_inv in H; destruct H as (c & H3 & H); apply floor_div_inv in H3; [|lia].
  all: apply int_inv in H; destruct H as [-> _]; subst; reflexivity.
Qed.
Lemma leap_days_in y : INT_MIN <= y <= INT_MAX -> leap_days y = Ok (leaps y).
Proof.
  intros Y. unfold INT_MIN, INT_MAX in Y. unfold leap_days. rewrite <- leap_days_value. destruct (Z.leb_spec 0 y).
  - rewrite !floor_div_in by (unfold INT_MIN, INT_MAX; lia). cbn [bind]. apply int_in. unfold INT_MIN, INT_MAX.
    pose proof (Z.div_mod (y - 69) 4 ltac:(lia)). pose proof (Z.mod_pos_bound (y - 69) 4 ltac:(lia)).
    pose proof (Z.div_mod (y - 1) 100 ltac:(lia)). pose proof (Z.mod_pos_bound (y - 1) 100 ltac:(lia)).
    pose proof (Z.div_mod (y - 101) 400 ltac:(lia)). pose proof (Z.mod_pos_bound (y - 101) 400 ltac:(lia)). lia.
  - rewrite !floor_div_in by (unfold INT_MIN, INT_MAX; lia). cbn [bind]. apply int_in. unfold INT_MIN, INT_MAX.
    pose proof (Z.div_mod (y + 3) 4 ltac:(lia)). pose proof (Z.mod_pos_bound (y + 3) 4 ltac:(lia)).
    pose proof (Z.div_mod (y + 99) 100 ltac:(lia)). pose proof (Z.mod_pos_bound (y + 99) 100 ltac:(lia)).
    pose proof (Z.div_mod (y + 299) 400 ltac:(lia)). pose proof (Z.mod_pos_bound (y + 299) 400 ltac:(lia)). lia.
Qed.

(** ** The loops *)
Definition month_of (y m : Z) : Z := 12 * (1900 + y) + m.
Lemma wrap_month m y m' y' : wrap m 12 y = Ok (m', y') -> 0 <= m' < 12 /\ month_of y' m' = month_of y m.
Proof.
  intros H. apply wrap_inv in H; [|lia]. destruct H as (B & -> & ->). split; [exact B|]. unfold month_of.
  pose proof (Z.div_mod m 12 ltac:(lia)). lia.
Qed.

Lemma days_down_inv fuel : forall d m y d' m' y', 0 <= m < 12 -> d < 1 ->
  days_down fuel d m y = Ok (d', m', y') ->
  0 <= m' < 12 /\ 1 <= d' <= days_in (month_of y' m') /\ days_to (month_of y' m') + d' = days_to (month_of y m) + d.
Proof.
  induction fuel as [|fuel IH]; intros d m y d' m' y' M D H; [discriminate|]. cbn [days_down] in H.
  apply bind_inv in H. destruct H as ([m1 y1] & H1 & H). apply wrap_month in H1. destruct H1 as [M1 E1].
  apply bind_inv in H. destruct H as (l & H1 & H). apply month_length_inv in H1; [|exact M1]. fold (month_of y1 m1) in H1.
  apply bind_inv in H. destruct H as (d1 & H2 & H). apply int_inv in H2. destruct H2 as [-> _].
  assert (E : days_to (month_of y1 m1) + (d + l) = days_to (month_of y m) + d).
  { subst l. rewrite E1. replace (month_of y m) with (month_of y (m - 1) + 1) by (unfold month_of; lia).
    rewrite days_to_next. lia. }
  destruct (Z.ltb_spec (d + l) 1).
  - apply IH in H; [|assumption|assumption]. intuition lia.
  - injection H as <- <- <-. split; [exact M1|]. split; [lia|exact E].
Qed.

Lemma days_up_inv fuel : forall d m y d' m' y', 0 <= m < 12 -> 1 <= d ->
  days_up fuel d m y = Ok (d', m', y') ->
  0 <= m' < 12 /\ 1 <= d' <= days_in (month_of y' m') /\ days_to (month_of y' m') + d' = days_to (month_of y m) + d.
Proof.
  induction fuel as [|fuel IH]; intros d m y d' m' y' M D H; cbn [days_up] in H;
    apply bind_inv in H; destruct H as (l & H1 & H); apply month_length_inv in H1; try exact M; fold (month_of y m) in H1;
    (destruct (Z.leb_spec d l); [injection H as <- <- <-; split; [exact M|]; split; [lia|reflexivity]|]); [discriminate|].
  apply bind_inv in H. destruct H as ([m1 y1] & H2 & H). apply wrap_month in H2. destruct H2 as [M1 E1].
  apply IH in H; [|assumption|lia]. destruct H as (H3 & H4 & H5). split; [exact H3|]. split; [exact H4|].
  rewrite H5, E1. replace (month_of y (m + 1)) with (month_of y m + 1) by (unfold month_of; lia). rewrite days_to_next. lia.
Qed.

Lemma sum_months_inv n : forall y i acc r, 0 <= i -> i + Z.of_nat n <= 12 -> sum_months n y i acc = Ok r ->
  r = acc + total days_in (month_of y i) n.
Proof.
  induction n as [|n IH]; intros y i acc r I L H; cbn [sum_months] in H.
  - injection H as <-. cbn. lia.
  - apply bind_inv in H. destruct H as (l & H1 & H). apply month_length_inv in H1; [|lia]. fold (month_of y i) in H1.
    apply IH in H; [|lia|lia]. cbn [total]. rewrite H, H1.
    replace (month_of y (i + 1)) with (month_of y i + 1) by (unfold month_of; lia). lia.
Qed.

Lemma split_days fuel d m y d' m' y' : 0 <= m < 12 ->
  (if d <? 1 then days_down fuel d m y else days_up fuel d m y) = Ok (d', m', y') ->
  0 <= m' < 12 /\ 1 <= d' <= days_in (month_of y' m') /\ days_to (month_of y' m') + d' = days_to (month_of y m) + d.
Proof.
  intros M H. destruct (Z.ltb_spec d 1); [eapply days_down_inv|eapply days_up_inv]; eassumption || lia.
Qed.

Lemma rem_mod_7 x : (if Z.rem x 7 <? 0 then Z.rem x 7 + 7 else Z.rem x 7) = x mod 7.
Proof.
  pose proof (Z.quot_rem' x 7). pose proof (Z.rem_bound_abs x 7 ltac:(lia)).
  destruct (Z.ltb_spec (Z.rem x 7) 0).
  - apply Z.mod_unique with (q := Z.quot x 7 - 1); lia.
  - apply Z.mod_unique with (q := Z.quot x 7); lia.
Qed.

Lemma Ok_inj {A B} (a a' : A) (b b' : B) : Ok (a, b) = Ok (a', b') -> a = a' /\ b = b'.
Proof. intros H. injection H. auto. Qed.

Theorem xtimegm_correct bits t t' s : xtimegm bits t = Ok (t', s) ->
  s = second_of t /\ normalised t' /\ second_of t' = s /\ - 2 ^ (bits - 1) <= s < 2 ^ (bits - 1).
Proof.
  unfold xtimegm. intros H.
  apply bind_inv in H. destruct H as ([sec mn] & H1 & H). apply wrap_inv in H1; [|lia]. destruct H1 as (B1 & V1 & N1).
  apply bind_inv in H. destruct H as ([mn2 hr] & H1 & H). apply wrap_inv in H1; [|lia]. destruct H1 as (B2 & V2 & N2).
  apply bind_inv in H. destruct H as ([hr2 md] & H1 & H). apply wrap_inv in H1; [|lia]. destruct H1 as (B3 & V3 & N3).
  apply bind_inv in H. destruct H as ([mo yr] & H1 & H). apply wrap_month in H1. destruct H1 as (B4 & E4).
  apply bind_inv in H. destruct H as ([[md2 mo2] yr2] & H1 & H). apply split_days in H1; [|exact B4]. destruct H1 as (B5 & B6 & E5).
  apply bind_inv in H. destruct H as (before & H1 & H). apply sum_months_inv in H1; [|lia|lia].
  apply bind_inv in H. destruct H as (lp & H2 & H). apply leap_days_inv in H2.
  apply bind_inv in H. destruct H as (yy & H3 & H). apply int_inv in H3. destruct H3 as [-> _].
  assert (ED : 365 * (yr2 - 70) + lp + (before + (md2 - 1)) = days_to (month_of (tm_year t) (tm_mon t)) + (md - 1)).
  { rewrite <- E4. replace (days_to (month_of yr mo) + (md - 1)) with (days_to (month_of yr2 mo2) + (md2 - 1)) by lia.
    rewrite H1, H2, <- year_start. unfold month_of.
    replace (12 * (1900 + yr2) + mo2) with (12 * (1900 + yr2) + Z.of_nat (Z.to_nat mo2)) by lia.
    rewrite days_to_month, Z.add_0_r. lia. }
  set (ed := 365 * (yr2 - 70) + lp + (before + (md2 - 1))) in *.
  destruct (_ && _) eqn:R; [|discriminate]. apply Ok_inj in H. destruct H as [<- <-].
  assert (DO : days_to (month_of yr2 mo2) + (md2 - 1) = ed) by (rewrite <- E4 in ED; lia).
  assert (S1 : sec + 60 * (mn2 + 60 * (hr2 + 24 * ed)) = second_of t).
  { unfold second_of, day_of. fold (month_of (tm_year t) (tm_mon t)).
    pose proof (Z.div_mod (tm_sec t) 60 ltac:(lia)). pose proof (Z.div_mod mn 60 ltac:(lia)).
    pose proof (Z.div_mod hr 24 ltac:(lia)). lia. }
  split; [exact S1|]. split; [|split].
  - unfold normalised, day_of. cbn [tm_sec tm_min tm_hour tm_mday tm_mon tm_year tm_wday tm_yday].
    fold (month_of yr2 mo2). rewrite DO. repeat (split; [assumption|]). split.
    + unfold ed. rewrite H2, year_start. lia.
    + apply rem_mod_7.
  - unfold second_of, day_of. cbn [tm_sec tm_min tm_hour tm_mday tm_mon tm_year].
    fold (month_of yr2 mo2). lia.
  - lia.
Qed.

(** ** When it succeeds *)
Lemma days_up_in fuel : forall d m y, 0 <= m < 12 -> 1 <= d -> d <= Z.of_nat fuel ->
  INT_MIN <= y -> 12 * y + m + d < 12 * (INT_MAX - 301) ->
  exists d' m' y', days_up fuel d m y = Ok (d', m', y') /\ y <= y' /\ 12 * y' + m' <= 12 * y + m + d.
Proof.
  induction fuel as [|fuel IH]; intros d m y M D L Y U; [lia|]. cbn [days_up].
  assert (YB : y + 300 <= INT_MAX) by lia.
  rewrite month_length_in by (assumption || (unfold INT_MIN in *; lia)). cbn [bind].
  pose proof (days_in_bound (12 * (1900 + y) + m)) as DB. set (l := days_in _) in *.
  destruct (Z.leb_spec d l).
  - exists d, m, y. split; [reflexivity|]. lia.
  - rewrite wrap_in; [|lia|unfold INT_MAX; lia|]; cbn [bind].
    + pose proof (Z.div_mod (m + 1) 12 ltac:(lia)). pose proof (Z.mod_pos_bound (m + 1) 12 ltac:(lia)).
      destruct (IH (d - l) ((m + 1) mod 12) (y + (m + 1) / 12)) as (d' & m' & y' & E & Y' & U'); try lia.
      exists d', m', y'. split; [exact E|]. lia.
    + pose proof (Z.div_mod (m + 1) 12 ltac:(lia)). pose proof (Z.mod_pos_bound (m + 1) 12 ltac:(lia)). lia.
Qed.

Lemma days_down_in fuel : forall d m y, 0 <= m < 12 -> INT_MIN <= d < 1 -> - d < Z.of_nat fuel ->
  y <= INT_MAX - 301 -> 12 * (INT_MIN + 71) < 12 * y + m + d ->
  exists d' m' y', days_down fuel d m y = Ok (d', m', y') /\ y' <= y /\ 12 * y + m + d - 1 <= 12 * y' + m'.
Proof.
  induction fuel as [|fuel IH]; intros d m y M D L Y U; [lia|]. cbn [days_down].
  pose proof (Z.div_mod (m - 1) 12 ltac:(lia)) as DM. pose proof (Z.mod_pos_bound (m - 1) 12 ltac:(lia)) as MB.
  rewrite wrap_in; [|lia|unfold INT_MAX; lia|unfold INT_MIN, INT_MAX in *; lia]. cbn [bind].
  rewrite month_length_in; [|exact MB|unfold INT_MIN, INT_MAX in *; lia]. cbn [bind].
  pose proof (days_in_bound (12 * (1900 + (y + (m - 1) / 12)) + (m - 1) mod 12)) as DB. set (l := days_in _) in *.
  rewrite int_in by (unfold INT_MIN, INT_MAX in *; lia). cbn [bind].
  destruct (Z.ltb_spec (d + l) 1).
  - destruct (IH (d + l) ((m - 1) mod 12) (y + (m - 1) / 12)) as (d' & m' & y' & E & Y' & U'); try lia.
    exists d', m', y'. split; [exact E|]. lia.
  - eexists _, _, _. split; [reflexivity|]. lia.
Qed.

Lemma sum_months_in n : forall y i acc, 0 <= i -> i + Z.of_nat n <= 12 -> INT_MIN <= y + 300 <= INT_MAX ->
  exists r, sum_months n y i acc = Ok r.
Proof.
  induction n as [|n IH]; intros y i acc I L Y; cbn [sum_months]; [eauto|].
  rewrite month_length_in by (assumption || lia). cbn [bind]. apply IH; lia.
Qed.

Theorem xtimegm_total t : fields_within (2 ^ 30) t -> exists r, xtimegm 64 t = Ok r.
Proof.
  intros (F1 & F2 & F3 & F4 & F5 & F6).
  assert (Q : forall a d, 0 < d -> Z.abs (a / d) <= Z.abs a).
  { intros a d D. pose proof (Z.div_mod a d ltac:(lia)). pose proof (Z.mod_pos_bound a d D). nia. }
  assert (Q12 : forall a d, 12 <= d -> 12 * Z.abs (a / d) <= Z.abs a + 12).
  { intros a d D. pose proof (Z.div_mod a d ltac:(lia)). pose proof (Z.mod_pos_bound a d ltac:(lia)). nia. }
  unfold xtimegm.
  pose proof (Q12 (tm_sec t) 60 ltac:(lia)).
  rewrite wrap_in; [|lia|unfold INT_MAX in *; lia|unfold INT_MIN, INT_MAX in *; lia]. cbn [bind].
  set (mn := tm_min t + tm_sec t / 60) in *. pose proof (Q12 mn 60 ltac:(lia)).
  rewrite wrap_in; [|lia|unfold INT_MAX in *; lia|unfold INT_MIN, INT_MAX in *; lia]. cbn [bind].
  set (hr := tm_hour t + mn / 60) in *. pose proof (Q12 hr 24 ltac:(lia)).
  rewrite wrap_in; [|lia|unfold INT_MAX in *; lia|unfold INT_MIN, INT_MAX in *; lia]. cbn [bind].
  set (md := tm_mday t + hr / 24) in *. pose proof (Q12 (tm_mon t) 12 ltac:(lia)).
  rewrite wrap_in; [|lia|unfold INT_MAX in *; lia|unfold INT_MIN, INT_MAX in *; lia]. cbn [bind].
  pose proof (Z.mod_pos_bound (tm_mon t) 12 ltac:(lia)) as MB.
  set (mo := tm_mon t mod 12) in *. set (yr := tm_year t + tm_mon t / 12) in *.
  assert (Y : Z.abs yr <= 1170000000) by (unfold yr in *; lia).
  assert (D : Z.abs md <= 1200000000) by (unfold md, hr, mn in *; lia).
  pose proof (Z.mod_pos_bound (tm_sec t) 60 ltac:(lia)) as HS. pose proof (Z.mod_pos_bound mn 60 ltac:(lia)) as HM.
  pose proof (Z.mod_pos_bound hr 24 ltac:(lia)) as HH.
  generalize dependent (tm_sec t mod 60). generalize dependent (mn mod 60). generalize dependent (hr mod 24).
  clearbody md mo yr. clear - Y D MB. intros hh HH mm HM ss HS.
  assert (exists d' m' y', (if md <? 1 then days_down (S (Z.to_nat (Z.abs md))) md mo yr
            else days_up (S (Z.to_nat (Z.abs md))) md mo yr) = Ok (d', m', y') /\ Z.abs y' <= 1300000000 /\ 0 <= m' < 12 /\
            1 <= d' <= 31) as (d' & m' & y' & E & Y' & M' & D').
  { assert (exists d' m' y', (if md <? 1 then days_down (S (Z.to_nat (Z.abs md))) md mo yr
            else days_up (S (Z.to_nat (Z.abs md))) md mo yr) = Ok (d', m', y') /\ (0 <= m' < 12 -> Z.abs y' <= 1300000000))
      as (d' & m' & y' & E & Y').
    { destruct (Z.ltb_spec md 1).
      - destruct (days_down_in (S (Z.to_nat (Z.abs md))) md mo yr) as (d' & m' & y' & E & Y1 & Y2);
          try (unfold INT_MIN, INT_MAX; lia). exists d', m', y'. split; [exact E|]. intros. lia.
      - destruct (days_up_in (S (Z.to_nat (Z.abs md))) md mo yr) as (d' & m' & y' & E & Y1 & Y2);
          try (unfold INT_MIN, INT_MAX; lia). exists d', m', y'. split; [exact E|]. intros. lia. }
    pose proof (split_days _ _ _ _ _ _ _ MB E) as (M' & D' & _). pose proof (days_in_bound (month_of y' m')).
    exists d', m', y'. split; [exact E|]. split; [tauto|]. split; [exact M'|lia]. }
  rewrite E. cbn [bind].
  destruct (sum_months_in (Z.to_nat m') y' 0 0) as (b & Eb); [lia|lia|unfold INT_MIN, INT_MAX; lia|].
  rewrite Eb. cbn [bind]. apply sum_months_inv in Eb; [|lia|lia].
  rewrite leap_days_in by (unfold INT_MIN, INT_MAX; lia). cbn [bind].
  rewrite int_in by (unfold INT_MIN, INT_MAX; lia). cbn [bind].
  assert (B : 0 <= b <= 31 * 12).
  { rewrite Eb. assert (T : forall n from, 0 <= total days_in from n <= 31 * Z.of_nat n).
    { induction n as [|n IH]; intros from; cbn [total]; [lia|]. pose proof (days_in_bound from). specialize (IH (from + 1)). lia. }
    specialize (T (Z.to_nat m') (month_of y' 0)). lia. }
  assert (LP : Z.abs (leaps y') <= 700000000).
  { unfold leaps. pose proof (Z.div_mod (y' - 69) 4 ltac:(lia)). pose proof (Z.mod_pos_bound (y' - 69) 4 ltac:(lia)).
    pose proof (Z.div_mod (y' - 1) 100 ltac:(lia)). pose proof (Z.mod_pos_bound (y' - 1) 100 ltac:(lia)).
    pose proof (Z.div_mod (y' + 299) 400 ltac:(lia)). pose proof (Z.mod_pos_bound (y' + 299) 400 ltac:(lia)). lia. }
  replace (_ && _) with true; [eauto|]. symmetry. apply andb_true_iff. rewrite Z.leb_le, Z.ltb_lt.
  change (2 ^ (64 - 1)) with 9223372036854775808. lia.
Qed.


(** ** Undefined behaviour *)
Lemma seconds_undefined : exists t, ints t /\ xtimegm 64 t = Undefined.
Proof.
  exists (mkTm (- 2 ^ 31) 0 0 1 0 70 0 0). split; [|vm_compute; reflexivity].
  intros f H. cbn in H. repeat (destruct H as [<-|H]; [cbn; lia|]). contradiction.
Qed.
Lemma year_undefined : exists t, ints t /\ tm_sec t = 0 /\ tm_min t = 0 /\ tm_hour t = 0 /\ tm_mday t = 1 /\ tm_mon t = 0 /\
  xtimegm 64 t = Undefined.
Proof.
  exists (mkTm 0 0 0 1 0 (- 2 ^ 31 + 69) 0 0). split; [|vm_compute; tauto].
  intros f H. cbn in H. repeat (destruct H as [<-|H]; [cbn; lia|]). contradiction.
Qed.

(** ** The fuel is enough *)
Lemma bind_fuel {A B} (r : result A) (f : A -> result B) : r <> Fuel -> (forall a, r = Ok a -> f a <> Fuel) -> bind r f <> Fuel.
Proof. destruct r; cbn; intros H1 H2; try congruence. apply H2. reflexivity. Qed.
Lemma int_fuel x : int_ x <> Fuel.
Proof. unfold int_. destruct (_ && _); discriminate. Qed.
Lemma wrap_fuel v max n : wrap v max n <> Fuel.
Proof.
  unfold wrap, floor_div, safe_add. apply bind_fuel; [apply int_fuel|]. intros c _. apply bind_fuel; [apply int_fuel|]. intros p _.
  apply bind_fuel; [apply int_fuel|]. intros w _. apply bind_fuel; [|discriminate].
  repeat destruct (_ <=? _); repeat destruct (_ <? _); try discriminate; apply int_fuel.
Qed.
Lemma month_length_fuel y m : month_length y m <> Fuel.
Proof.
  unfold month_length. destruct (_ && _); [|discriminate]. destruct (negb _); [discriminate|].
  apply bind_fuel; [apply int_fuel|discriminate].
Qed.
Lemma month_length_pos y m l : 0 <= m < 12 -> month_length y m = Ok l -> 28 <= l.
Proof. intros M H. apply month_length_inv in H; [|exact M]. pose proof (days_in_bound (12 * (1900 + y) + m)). lia. Qed.

Lemma days_down_fuel fuel : forall d m y, - d < Z.of_nat fuel -> 0 < Z.of_nat fuel -> days_down fuel d m y <> Fuel.
Proof.
  induction fuel as [|fuel IH]; intros d m y L P; [lia|]. cbn [days_down].
  apply bind_fuel; [apply wrap_fuel|]. intros [m1 y1] W. apply wrap_month in W. destruct W as [M1 _].
  apply bind_fuel; [apply month_length_fuel|]. intros l ML. apply month_length_pos in ML; [|exact M1].
  apply bind_fuel; [apply int_fuel|]. intros d1 I. apply int_inv in I. destruct I as [-> _].
  destruct (Z.ltb_spec (d + l) 1); [|discriminate]. apply IH; lia.
Qed.
Lemma days_up_fuel fuel : forall d m y, 0 <= m < 12 -> d <= Z.of_nat fuel -> days_up fuel d m y <> Fuel.
Proof.
  induction fuel as [|fuel IH]; intros d m y M L; cbn [days_up];
    (apply bind_fuel; [apply month_length_fuel|]); intros l ML; apply month_length_pos in ML; try exact M;
    (destruct (Z.leb_spec d l); [discriminate|]); [lia|].
  apply bind_fuel; [apply wrap_fuel|]. intros [m1 y1] W. apply wrap_month in W. destruct W as [M1 _]. apply IH; [exact M1|lia].
Qed.
Lemma sum_months_fuel n : forall y i acc, sum_months n y i acc <> Fuel.
Proof.
  induction n as [|n IH]; intros; cbn [sum_months]; [discriminate|]. apply bind_fuel; [apply month_length_fuel|]. auto.
Qed.

Theorem fuel_enough bits t : xtimegm bits t <> Fuel.
Proof.
  unfold xtimegm. apply bind_fuel; [apply wrap_fuel|]. intros [sec mn] _.
  apply bind_fuel; [apply wrap_fuel|]. intros [mn2 hr] _. apply bind_fuel; [apply wrap_fuel|]. intros [hr2 md] _.
  apply bind_fuel; [apply wrap_fuel|]. intros [mo yr] W. apply wrap_month in W. destruct W as [MB _].
  apply bind_fuel. { destruct (md <? 1); [apply days_down_fuel|apply days_up_fuel]; lia. }
  intros [[d m] y] _. apply bind_fuel; [apply sum_months_fuel|]. intros b _. apply bind_fuel.
  { unfold leap_days, floor_div. destruct (0 <=? y); repeat (apply bind_fuel; [apply int_fuel|]; intros ? _); apply int_fuel. }
  intros lp _. apply bind_fuel; [apply int_fuel|]. intros yy _. destruct (_ && _); discriminate.
Qed.
