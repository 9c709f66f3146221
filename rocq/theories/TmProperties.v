(** * C19: conversion of calendar dates to seconds *)
From Coq Require Import List ZArith Bool Lia.
From Verif Require Import TmModel TmSpec TmProofs TmLimits.
Import ListNotations.
Local Open Scope Z_scope.

(** A successful conversion gives the second that the fields denote, for fields
    in or out of range, and rewrites the fields to the canonical ones denoting
    the same second. *)
Theorem C19_timegm : forall bits t t' s, xtimegm bits t = Ok (t', s) ->
  s = second_of t /\ normalised t' /\ second_of t' = s /\ - 2 ^ (bits - 1) <= s < 2 ^ (bits - 1).
Proof. exact xtimegm_correct. Qed.
Print Assumptions C19_timegm.

(** It succeeds, without undefined behaviour, when the fields are not extreme.  Missing: all other ints (see below). *)
Theorem C19_timegm_total_partial : forall t, fields_within (2 ^ 30) t -> exists r, xtimegm 64 t = Ok r.
Proof. exact xtimegm_total. Qed.
Print Assumptions C19_timegm_total_partial.

(** More precisely, it reports an overflow if and only if the minutes, hours or days are not ints once the seconds, minutes and hours that
    are too many have been carried over to them; other than that it succeeds.  Missing: fields at the ends of ints (see below). *)
Theorem C19_timegm_limits_partial : forall t, ints t -> not_at_the_ends t ->
  (carries_fit t -> exists r, xtimegm 64 t = Ok r) /\ (~ carries_fit t -> xtimegm 64 t = Overflow).
Proof. exact limits. Qed.
Print Assumptions C19_timegm_limits_partial.

(** The loops over months end. *)
Theorem C19_timegm_ends : forall bits t, xtimegm bits t <> Fuel.
Proof. exact fuel_enough. Qed.
Print Assumptions C19_timegm_ends.

(** Not for all ints: with tm_sec = INT_MIN a multiplication overflows before
    any check, and with a very small year a subtraction does. *)
Theorem C19_timegm_defined_refuted : exists t, ints t /\ xtimegm 64 t = Undefined.
Proof. exact seconds_undefined. Qed.
Print Assumptions C19_timegm_defined_refuted.
Theorem C19_timegm_year_defined_refuted : exists t, ints t /\
  tm_sec t = 0 /\ tm_min t = 0 /\ tm_hour t = 0 /\ tm_mday t = 1 /\ tm_mon t = 0 /\ xtimegm 64 t = Undefined.
Proof. exact year_undefined. Qed.
Print Assumptions C19_timegm_year_defined_refuted.

Module Examples.
  (** The 366th day of a month -10 years before 2000, plus a leap second *)
  Definition odd : tm := mkTm 60 (-1) 25 366 (-120) 110 0 0.
  Example odd_small : fields_within (2 ^ 30) odd.
  Proof. unfold fields_within, odd. cbn. lia. Qed.
  Example odd_converts : xtimegm 64 odd = Ok (mkTm 0 0 1 1 0 101 1 0, 978310800).
  Proof. vm_compute. reflexivity. Qed.
  (** The largest ints, as far as possible, and one minute more *)
  Definition large : tm := mkTm (2 ^ 31 - 1) (2 ^ 31 - 1 - 35791394) (2 ^ 31 - 1 - 35791394) (2 ^ 31 - 1 - 89478485) (2 ^ 31 - 1) (2 ^ 31 - 2 ^ 28) 0 0.
  Definition larger : tm := mkTm (2 ^ 31 - 1) (2 ^ 31 - 35791394) (2 ^ 31 - 1 - 35791394) (2 ^ 31 - 1 - 89478485) (2 ^ 31 - 1) (2 ^ 31 - 2 ^ 28) 0 0.
  Example large_fits : ints large /\ not_at_the_ends large /\ carries_fit large /\ ints larger /\ not_at_the_ends larger /\ ~ carries_fit larger.
  Proof.
    assert (D : forall l (t : tm) a b, forallb (fun f => (a <=? f t) && (f t <? b)) l = true -> forall f, In f l -> a <= f t < b).
    { intros l t a b H f F. rewrite forallb_forall in H. specialize (H f F). lia. }
    assert (L : forall l (t : tm) a, forallb (fun f => a <=? f t) l = true -> forall f, In f l -> a <= f t).
    { intros l t a H f F. rewrite forallb_forall in H. specialize (H f F). lia. }
    split; [refine (D _ _ _ _ _); reflexivity|]. split; [split; [refine (L _ _ _ _); reflexivity|cbn; lia]|]. split; [refine (D _ _ _ _ _); reflexivity|].
    split; [refine (D _ _ _ _ _); reflexivity|]. split; [split; [refine (L _ _ _ _); reflexivity|cbn; lia]|].
    intros C. specialize (C minutes ltac:(cbn; tauto)). vm_compute in C. destruct C as [_ C]. discriminate C.
  Qed.
  Example overflows : xtimegm 32 (mkTm 0 0 0 1 0 200 0 0) = Overflow.
  Proof. vm_compute. reflexivity. Qed.
End Examples.
