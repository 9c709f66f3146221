(** Proofs about timestamp arithmetic *)
From Coq Require Import ZArith Bool Lia ZifyBool.
From Verif Require Import TsModel TsSpec.
Local Open Scope Z_scope.

Lemma s64_in x : - 2 ^ 63 <= x < 2 ^ 63 -> s64 x = Some x.
Proof. intros H. unfold s64. replace (_ && _) with true by lia. reflexivity. Qed.
Lemma s64_out x : ~ (- 2 ^ 63 <= x < 2 ^ 63) -> s64 x = None.
Proof. intros H. unfold s64. replace (_ && _) with false by lia. reflexivity. Qed.

Lemma normal_inj a b : normal a -> normal b -> instant a = instant b -> a = b.
Proof.
  destruct a as [s n], b as [s' n']. unfold normal, instant. cbn [tv_sec tv_nsec]. intros A B E.
  assert (s = s') by lia. subst. f_equal. lia.
Qed.

Definition fits (x : Z) : Prop := - 2 ^ 63 <= x < 2 ^ 63.

Lemma add_ok a b c : normal a -> normal b ->
  timespec_add a b = Some c <->
  normal c /\ instant c = instant a + instant b /\ fits (tv_sec a + tv_sec b).
Proof.
  intros A B. split.
  - destruct a as [s n], b as [s' n']. unfold timespec_add, normal, instant, fits in *. cbn [tv_sec tv_nsec] in *.
    destruct (Z_le_dec (- 2 ^ 63) (s + s')); [destruct (Z_lt_dec (s + s') (2 ^ 63))|].
    + rewrite (s64_in (s + s')) by lia. cbn [bind]. rewrite (s64_in (n + n')) by lia. cbn [bind]. unfold NS.
      destruct (Z.leb_spec 1000000000 (n + n')).
      * destruct (Z_lt_dec (s + s' + 1) (2 ^ 63)).
        -- rewrite s64_in by lia. cbn [bind]. intros [= <-]. cbn [tv_sec tv_nsec]. lia.
        -- rewrite s64_out by lia. discriminate.
      * intros [= <-]. cbn [tv_sec tv_nsec]. lia.
    + rewrite s64_out by lia. discriminate.
    + rewrite s64_out by lia. discriminate.
  - intros (C & E & F).
    assert (exists d, timespec_add a b = Some d /\ normal d /\ instant d = instant a + instant b) as (d & -> & D & E').
    { destruct a as [s n], b as [s' n'], c as [s'' n'']. unfold timespec_add, normal, instant, fits in *. cbn [tv_sec tv_nsec] in *.
      rewrite (s64_in (s + s')) by lia. cbn [bind]. rewrite (s64_in (n + n')) by lia. cbn [bind]. unfold NS.
      destruct (Z.leb_spec 1000000000 (n + n')).
      - rewrite s64_in by lia. cbn [bind]. eexists. split; [reflexivity|]. cbn [tv_sec tv_nsec]. lia.
      - eexists. split; [reflexivity|]. cbn [tv_sec tv_nsec]. lia. }
    f_equal. apply normal_inj; congruence || assumption.
Qed.

Lemma sub_ok a b c : normal a -> normal b ->
  timespec_sub a b = Some c <->
  normal c /\ instant c = instant a - instant b /\ fits (tv_sec a - tv_sec b).
Proof.
  intros A B. split.
  - destruct a as [s n], b as [s' n']. unfold timespec_sub, normal, instant, fits in *. cbn [tv_sec tv_nsec] in *.
    destruct (Z_le_dec (- 2 ^ 63) (s - s')); [destruct (Z_lt_dec (s - s') (2 ^ 63))|].
    + rewrite (s64_in (s - s')) by lia. cbn [bind]. rewrite (s64_in (n - n')) by lia. cbn [bind]. unfold NS.
      destruct (Z.ltb_spec (n - n') 0).
      * destruct (Z_le_dec (- 2 ^ 63) (s - s' - 1)).
        -- rewrite s64_in by lia. cbn [bind]. intros [= <-]. cbn [tv_sec tv_nsec]. lia.
        -- rewrite s64_out by lia. discriminate.
      * intros [= <-]. cbn [tv_sec tv_nsec]. lia.
    + rewrite s64_out by lia. discriminate.
    + rewrite s64_out by lia. discriminate.
  - intros (C & E & F).
    assert (exists d, timespec_sub a b = Some d /\ normal d /\ instant d = instant a - instant b) as (d & -> & D & E').
    { destruct a as [s n], b as [s' n'], c as [s'' n'']. unfold timespec_sub, normal, instant, fits in *. cbn [tv_sec tv_nsec] in *.
      rewrite (s64_in (s - s')) by lia. cbn [bind]. rewrite (s64_in (n - n')) by lia. cbn [bind]. unfold NS.
      destruct (Z.ltb_spec (n - n') 0).
      - rewrite s64_in by lia. cbn [bind]. eexists. split; [reflexivity|]. cbn [tv_sec tv_nsec]. lia.
      - eexists. split; [reflexivity|]. cbn [tv_sec tv_nsec]. lia. }
    f_equal. apply normal_inj; congruence || assumption.
Qed.

Lemma cmp_ok a b : normal a -> normal b ->
  (timespec_cmp a b < 0 <-> instant a < instant b) /\
  (timespec_cmp a b = 0 <-> instant a = instant b) /\
  (timespec_cmp a b > 0 <-> instant a > instant b).
Proof.
  destruct a as [s n], b as [s' n']. unfold timespec_cmp, normal, instant. cbn [tv_sec tv_nsec]. intros A B.
  destruct (Z.ltb_spec s s'), (Z.ltb_spec s' s), (Z.ltb_spec n n'), (Z.ltb_spec n' n); lia.
Qed.

Lemma min_ok a b : normal a -> normal b ->
  (timespec_min a b = a \/ timespec_min a b = b) /\
  instant (timespec_min a b) = Z.min (instant a) (instant b).
Proof.
  intros A B. unfold timespec_min. destruct (cmp_ok b a B A) as (L & E & G).
  destruct (Z.ltb_spec (timespec_cmp b a) 0); (split; [tauto|]).
  - apply L in H. lia.
  - assert (~ instant b < instant a) by (rewrite <- L; lia). lia.
Qed.
Lemma max_ok a b : normal a -> normal b ->
  (timespec_max a b = a \/ timespec_max a b = b) /\
  instant (timespec_max a b) = Z.max (instant a) (instant b).
Proof.
  intros A B. unfold timespec_max. destruct (cmp_ok b a B A) as (L & E & G).
  destruct (Z.gtb_spec (timespec_cmp b a) 0); (split; [tauto|]).
  - assert (instant b > instant a) by (apply G; lia). lia.
  - assert (~ instant b > instant a) by (rewrite <- G; lia). lia.
Qed.
