(** * When xtimegm() succeeds, close to the limits of ints *)
From Coq Require Import List ZArith Bool Lia.
From Verif Require Import TmModel TmSpec TmProofs.
Import ListNotations.
Local Open Scope Z_scope.

Lemma wrap_over v max n : 0 < max <= 60 -> - 2 ^ 31 + 60 <= v <= INT_MAX -> INT_MIN <= n <= INT_MAX ->
  ~ INT_MIN <= n + v / max <= INT_MAX -> wrap v max n = Overflow.
Proof.
  intros M V N O. unfold wrap. rewrite floor_div_in by (unfold INT_MIN in *; lia). cbn [bind].
  pose proof (Z.div_mod v max ltac:(lia)). pose proof (Z.mod_pos_bound v max ltac:(lia)).
  rewrite int_in by (unfold INT_MIN, INT_MAX in *; lia). cbn [bind].
  rewrite int_in by (unfold INT_MIN, INT_MAX in *; lia). cbn [bind].
  assert (C : Z.abs (v / max) <= Z.abs v) by nia.
  unfold safe_add. destruct (Z.leb_spec 0 n).
  - destruct (Z.ltb_spec (INT_MAX - n) (v / max)); [reflexivity|]. unfold INT_MIN, INT_MAX in *. lia.
  - destruct (Z.ltb_spec (v / max) (INT_MIN - n)); [reflexivity|]. unfold INT_MIN, INT_MAX in *. lia.
Qed.

Lemma days_up_far fuel : forall d m y, 0 <= m < 12 -> 1 <= d -> d <= Z.of_nat fuel ->
  INT_MIN <= y -> 28 * (12 * y + m) + d < 336 * (INT_MAX - 301) ->
  exists d' m' y', days_up fuel d m y = Ok (d', m', y') /\ y <= y' /\ 28 * (12 * y' + m') <= 28 * (12 * y + m) + d.
Proof.
  induction fuel as [|fuel IH]; intros d m y M D L Y U; [lia|]. cbn [days_up].
  assert (YB : y + 300 <= INT_MAX) by lia.
  rewrite month_length_in by (assumption || (unfold INT_MIN in *; lia)). cbn [bind].
  pose proof (days_in_bound (12 * (1900 + y) + m)) as DB. set (l := days_in _) in *.
  destruct (Z.leb_spec d l).
  - exists d, m, y. split; [reflexivity|]. lia.
  - pose proof (Z.div_mod (m + 1) 12 ltac:(lia)). pose proof (Z.mod_pos_bound (m + 1) 12 ltac:(lia)).
    rewrite wrap_in; [|lia|unfold INT_MAX; lia|lia]; cbn [bind].
    destruct (IH (d - l) ((m + 1) mod 12) (y + (m + 1) / 12)) as (d' & m' & y' & E & Y' & U'); try lia.
    exists d', m', y'. split; [exact E|]. lia.
Qed.

Lemma days_down_far fuel : forall d m y, 0 <= m < 12 -> INT_MIN <= d < 1 -> - d < Z.of_nat fuel ->
  y <= INT_MAX - 301 -> 336 * (INT_MIN + 72) < 28 * (12 * y + m) + d ->
  exists d' m' y', days_down fuel d m y = Ok (d', m', y') /\ y' <= y /\ 28 * (12 * y + m) + d - 28 <= 28 * (12 * y' + m').
Proof.
  induction fuel as [|fuel IH]; intros d m y M D L Y U; [lia|]. cbn [days_down].
  pose proof (Z.div_mod (m - 1) 12 ltac:(lia)) as DM. pose proof (Z.mod_pos_bound (m - 1) 12 ltac:(lia)) as MB.
  rewrite wrap_in; [|lia|unfold INT_MAX; lia|unfold INT_MIN, INT_MAX in *; lia]. cbn [bind].
  rewrite month_length_in; [|exact MB|unfold INT_MIN, INT_MAX in *; lia]. cbn [bind].
  pose proof (days_in_bound (12 * (1900 + (y + (m - 1) / 12)) + (m - 1) mod 12)) as DB. set (l := days_in _) in *.
  rewrite int_in by (unfold INT_MIN, INT_MAX in *; lia). cbn [bind].
  destruct (Z.ltb_spec (d + l) 1).
  - destruct (IH (d + l) ((m - 1) mod 12) (y + (m - 1) / 12)) as (d' & m' & y' & E & Y' & U'); try lia.
    exists d', m', y'. split; [exact E|]. lia.
  - eexists _, _, _. split; [reflexivity|]. lia.
Qed.

(** What is done after the carries *)
Definition rest (sec min hour mday mon year : Z) : result (tm * Z) :=
  let fuel := S (Z.to_nat (Z.abs mday)) in
  do (mday, mon, year) <-
    (if mday <? 1 then days_down fuel mday mon year else days_up fuel mday mon year);
  do before <- sum_months (Z.to_nat mon) year 0 0;
  let yday := before + (mday - 1) in
  do leaps <- leap_days year;
  do years <- int_ (year - 70);
  let epoch_days := 365 * years + leaps + yday in
  let wday := Z.rem (epoch_days + 4) 7 in
  let wday := if wday <? 0 then wday + 7 else wday in
  let epoch_time := sec + 60 * (min + 60 * (hour + 24 * epoch_days)) in
  if (- 2 ^ (64 - 1) <=? epoch_time) && (epoch_time <? 2 ^ (64 - 1))
  then Ok (mkTm sec min hour mday mon year wday yday, epoch_time)
  else Overflow.

Lemma rest_ok ss mm hh md mo yr : 0 <= ss < 60 -> 0 <= mm < 60 -> 0 <= hh < 24 -> INT_MIN <= md <= INT_MAX -> 0 <= mo < 12 ->
  Z.abs yr <= 2065000000 -> exists r, rest ss mm hh md mo yr = Ok r.
Proof.
  intros HS HM HH D MB Y. unfold rest.
  assert (exists d' m' y', (if md <? 1 then days_down (S (Z.to_nat (Z.abs md))) md mo yr
            else days_up (S (Z.to_nat (Z.abs md))) md mo yr) = Ok (d', m', y') /\ Z.abs y' <= 2080000000 /\ 0 <= m' < 12 /\
            1 <= d' <= 31) as (d' & m' & y' & E & Y' & M' & D').
  { assert (exists d' m' y', (if md <? 1 then days_down (S (Z.to_nat (Z.abs md))) md mo yr
            else days_up (S (Z.to_nat (Z.abs md))) md mo yr) = Ok (d', m', y') /\ (0 <= m' < 12 -> Z.abs y' <= 2080000000))
      as (d' & m' & y' & E & Y').
    { destruct (Z.ltb_spec md 1).
      - destruct (days_down_far (S (Z.to_nat (Z.abs md))) md mo yr) as (d' & m' & y' & E & Y1 & Y2);
          try (unfold INT_MIN, INT_MAX in *; lia). exists d', m', y'. split; [exact E|]. intros. unfold INT_MIN in *. lia.
      - destruct (days_up_far (S (Z.to_nat (Z.abs md))) md mo yr) as (d' & m' & y' & E & Y1 & Y2);
          try (unfold INT_MIN, INT_MAX in *; lia). exists d', m', y'. split; [exact E|]. intros. unfold INT_MAX in *. lia. }
    pose proof (split_days _ _ _ _ _ _ _ MB E) as (M' & D' & _). pose proof (days_in_bound (month_of y' m')).
    exists d', m', y'. split; [exact E|]. split; [tauto|]. split; [exact M'|lia]. }
  rewrite E. cbn [bind].
  destruct (sum_months_in (Z.to_nat m') y' 0 0) as (b & Eb); [lia|lia|unfold INT_MIN, INT_MAX; lia|].
  rewrite Eb. cbn [bind]. apply sum_months_inv in Eb; [|lia|lia].
  rewrite leap_days_in by (unfold INT_MIN, INT_MAX; lia). cbn [bind].
  rewrite int_in by (unfold INT_MIN, INT_MAX; lia). cbn [bind].
  assert (B : 0 <= b <= 31 * 12).
  { rewrite Eb. assert (T : forall n from, 0 <= total days_in from n <= 31 * Z.of_nat n).
    { induction n as [|n IH]; intros from; cbn [total]; [lia|]. pose proof (days_in_bound from). specialize (IH (from + 1)). lia. }
    specialize (T (Z.to_nat m') (month_of y' 0)). lia. }
  assert (LP : Z.abs (leaps y') <= 900000000).
  { unfold leaps. pose proof (Z.div_mod (y' - 69) 4 ltac:(lia)). pose proof (Z.mod_pos_bound (y' - 69) 4 ltac:(lia)).
    pose proof (Z.div_mod (y' - 1) 100 ltac:(lia)). pose proof (Z.mod_pos_bound (y' - 1) 100 ltac:(lia)).
    pose proof (Z.div_mod (y' + 299) 400 ltac:(lia)). pose proof (Z.mod_pos_bound (y' + 299) 400 ltac:(lia)). lia. }
  replace (_ && _) with true; [eauto|]. symmetry. apply andb_true_iff. rewrite Z.leb_le, Z.ltb_lt.
  change (2 ^ (64 - 1)) with 9223372036854775808. lia.
Qed.

Definition int_dec x : {INT_MIN <= x <= INT_MAX} + {~ INT_MIN <= x <= INT_MAX}.
Proof. destruct (Z_le_dec INT_MIN x); [|right; lia]. destruct (Z_le_dec x INT_MAX); [left|right]; lia. Defined.

Theorem limits t : ints t -> not_at_the_ends t ->
  (carries_fit t -> exists r, xtimegm 64 t = Ok r) /\ (~ carries_fit t -> xtimegm 64 t = Overflow).
Proof.
  intros I [N NY].
  assert (R : forall f, In f [tm_sec; tm_min; tm_hour; tm_mday; tm_mon; tm_year] -> INT_MIN <= f t <= INT_MAX).
  { intros f F. specialize (I f F). unfold INT_MIN, INT_MAX. lia. }
  pose proof (R tm_sec ltac:(cbn; tauto)) as R1. pose proof (R tm_min ltac:(cbn; tauto)) as R2. pose proof (R tm_hour ltac:(cbn; tauto)) as R3.
  pose proof (R tm_mday ltac:(cbn; tauto)) as R4. pose proof (R tm_mon ltac:(cbn; tauto)) as R5.
  pose proof (N tm_sec ltac:(cbn; tauto)) as N1. pose proof (N tm_min ltac:(cbn; tauto)) as N2. pose proof (N tm_hour ltac:(cbn; tauto)) as N3.
  pose proof (N tm_mon ltac:(cbn; tauto)) as N5. pose proof (N tm_year ltac:(cbn; tauto)) as N6. clear I N R.
  assert (C : carries_fit t <-> INT_MIN <= minutes t <= INT_MAX /\ INT_MIN <= hours t <= INT_MAX /\ INT_MIN <= days t <= INT_MAX).
  { unfold carries_fit, INT_MIN, INT_MAX. split.
    - intros A. pose proof (A minutes ltac:(cbn; tauto)). pose proof (A hours ltac:(cbn; tauto)). pose proof (A days ltac:(cbn; tauto)). lia.
    - intros A f F. cbn in F. repeat (destruct F as [<-|F]; [lia|]). contradiction. }
  rewrite C. clear C.
  assert (Q60 : forall a, 60 * (a / 60) <= a < 60 * (a / 60) + 60).
  { intros a. pose proof (Z.div_mod a 60 ltac:(lia)). pose proof (Z.mod_pos_bound a 60 ltac:(lia)). lia. }
  unfold xtimegm.
  pose proof (Q60 (tm_sec t)) as S1. pose proof (Q60 (minutes t)) as S2.
  destruct (int_dec (minutes t)) as [I1|I1].
  2:{ rewrite (wrap_over (tm_sec t)); [cbn [bind]; tauto|lia|unfold INT_MAX in *; lia|assumption|exact I1]. }
  rewrite (wrap_in (tm_sec t)); [|lia|unfold INT_MAX in *; lia|exact I1]. cbn [bind]. change (tm_min t + tm_sec t / 60) with (minutes t).
  assert (L1 : - 2 ^ 31 + 2 ^ 27 <= minutes t) by (unfold minutes in *; lia).
  destruct (int_dec (hours t)) as [I2|I2].
  2:{ rewrite (wrap_over (minutes t)); [cbn [bind]; tauto|lia|unfold INT_MAX in *; lia|assumption|exact I2]. }
  rewrite (wrap_in (minutes t)); [|lia|unfold INT_MAX in *; lia|exact I2]. cbn [bind]. change (tm_hour t + minutes t / 60) with (hours t).
  assert (L2 : - 2 ^ 31 + 2 ^ 27 <= hours t) by (unfold hours in *; lia).
  destruct (int_dec (days t)) as [I3|I3].
  2:{ rewrite (wrap_over (hours t)); [cbn [bind]; tauto|lia|unfold INT_MAX in *; lia|assumption|exact I3]. }
  rewrite (wrap_in (hours t)); [|lia|unfold INT_MAX in *; lia|exact I3]. cbn [bind]. change (tm_mday t + hours t / 24) with (days t).
  pose proof (Z.div_mod (tm_mon t) 12 ltac:(lia)). pose proof (Z.mod_pos_bound (tm_mon t) 12 ltac:(lia)).
  rewrite (wrap_in (tm_mon t)); [|lia|unfold INT_MAX in *; lia|unfold INT_MIN, INT_MAX in *; lia]. cbn [bind].
  split; [intros _|tauto].
  change (exists r, rest (tm_sec t mod 60) (minutes t mod 60) (hours t mod 24) (days t) (tm_mon t mod 12) (tm_year t + tm_mon t / 12) = Ok r).
  apply rest_ok; try (apply Z.mod_pos_bound; lia); [exact I3|unfold INT_MIN, INT_MAX in *; lia].
Qed.
