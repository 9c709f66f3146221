(** * The proleptic Gregorian calendar, by counting days *)
From Coq Require Import List ZArith Bool.
From Verif Require Import TmModel.
Import ListNotations.
Local Open Scope Z_scope.

Definition leap (year : Z) : bool :=
  (year mod 4 =? 0) && (negb (year mod 100 =? 0) || (year mod 400 =? 0)).

(** Months are numbered consecutively: month [m] (0 to 11) of year [y] has
    number [12 * y + m]. *)
Definition days_in (month : Z) : Z :=
  match month mod 12 with
  | 1 => if leap (month / 12) then 29 else 28
  | 3 | 5 | 8 | 10 => 30
  | _ => 31
  end.

Fixpoint total (f : Z -> Z) (from : Z) (n : nat) : Z :=
  match n with O => 0 | S n => f from + total f (from + 1) n end.

(** Days from the first of January 1970 to the first of the month *)
Definition epoch : Z := 12 * 1970.
Definition days_to (month : Z) : Z :=
  if epoch <=? month then total days_in epoch (Z.to_nat (month - epoch))
  else - total days_in month (Z.to_nat (epoch - month)).

(** The day, counted from the epoch, and the second that a broken-down time
    denotes.  Fields may be out of range: the month may be outside 0-11, the day
    outside the month, and so on; 0 is the day before the first. *)
Definition day_of (t : tm) : Z := days_to (12 * (1900 + tm_year t) + tm_mon t) + (tm_mday t - 1).
Definition second_of (t : tm) : Z :=
  ((day_of t * 24 + tm_hour t) * 60 + tm_min t) * 60 + tm_sec t.

(** All fields are in range and agree. *)
Definition normalised (t : tm) : Prop :=
  0 <= tm_sec t < 60 /\ 0 <= tm_min t < 60 /\ 0 <= tm_hour t < 24 /\
  0 <= tm_mon t < 12 /\ 1 <= tm_mday t <= days_in (12 * (1900 + tm_year t) + tm_mon t) /\
  tm_yday t = day_of t - days_to (12 * (1900 + tm_year t)) /\
  tm_wday t = (day_of t + 4) mod 7.

Definition fields_within (bound : Z) (t : tm) : Prop :=
  Z.abs (tm_sec t) <= bound /\ Z.abs (tm_min t) <= bound /\ Z.abs (tm_hour t) <= bound /\
  Z.abs (tm_mday t) <= bound /\ Z.abs (tm_mon t) <= bound /\ Z.abs (tm_year t) <= bound.
(** All fields are ints. *)
Definition ints (t : tm) : Prop :=
  forall f, In f [tm_sec; tm_min; tm_hour; tm_mday; tm_mon; tm_year] -> - 2 ^ 31 <= f t < 2 ^ 31.

(** The minutes, hours and days with what is carried over to them.  The code computes them as ints. *)
Definition minutes (t : tm) : Z := tm_min t + tm_sec t / 60.
Definition hours (t : tm) : Z := tm_hour t + minutes t / 60.
Definition days (t : tm) : Z := tm_mday t + hours t / 24.
Definition carries_fit (t : tm) : Prop := forall f, In f [minutes; hours; days] -> - 2 ^ 31 <= f t < 2 ^ 31.
(** Seconds, minutes, hours and months are not close to the smallest int, and years not close to any limit of ints. *)
Definition not_at_the_ends (t : tm) : Prop :=
  (forall f, In f [tm_sec; tm_min; tm_hour; tm_mon; tm_year] -> - 2 ^ 31 + 2 ^ 28 <= f t) /\ tm_year t <= 2 ^ 31 - 2 ^ 28.
