(** * Model of the portable xtimegm() in src/xtime.c 69-184

    Used where the C library has no timegm().  [int] has 32 bits and [long long]
    64.  [Undefined] is signed overflow. *)
From Coq Require Import List ZArith Bool.
Import ListNotations.
Local Open Scope Z_scope.

Definition INT_MAX : Z := 2 ^ 31 - 1.
Definition INT_MIN : Z := - 2 ^ 31.

(** [Overflow] is the return value -1 with EOVERFLOW.  [Fuel] never happens. *)
Inductive result (A : Type) := Ok (a : A) | Overflow | Undefined | Fuel.
Arguments Ok {A}.
Arguments Overflow {A}.
Arguments Undefined {A}.
Arguments Fuel {A}.

Definition bind {A B} (r : result A) (f : A -> result B) : result B :=
  match r with
  | Ok a => f a
  | Overflow => Overflow
  | Undefined => Undefined
  | Fuel => Fuel
  end.
Notation "'do' x <- r ; k" := (bind r (fun x => k)) (at level 200, x pattern, r at level 100, k at level 200).

(** The result of int arithmetic *)
Definition int_ (x : Z) : result Z := if (INT_MIN <=? x) && (x <=? INT_MAX) then Ok x else Undefined.

(** 69-82; the new [*value] *)
Definition safe_add (value delta : Z) : result Z :=
  if 0 <=? value then
    if INT_MAX - value <? delta then Overflow else int_ (value + delta)
  else
    if delta <? INT_MIN - value then Overflow else int_ (value + delta).

(** 84-87 *)
Definition floor_div (n d : Z) : result Z :=
  let a := if n <? 0 then 1 else 0 in
  int_ (Z.quot (n + a) d - a).

(** 89-93; the new [*value] and [*next] *)
Definition wrap (value max next : Z) : result (Z * Z) :=
  do carry <- floor_div value max;
  do product <- int_ (carry * max);
  do value <- int_ (value - product);
  do next <- safe_add next carry;
  Ok (value, next).

(** 95-102 *)
Definition month_lengths : list Z := [31; 28; 31; 30; 31; 30; 31; 31; 30; 31; 30; 31].
Definition month_length (year month : Z) : result Z :=
  let ret := nth (Z.to_nat month) month_lengths 0 in
  if (month =? 1) && (Z.rem year 4 =? 0) then
    if negb (Z.rem year 100 =? 0) then Ok (ret + 1)
    else do y <- int_ (year + 300);
         Ok (if Z.rem y 400 =? 0 then ret + 1 else ret)
  else Ok ret.

(** struct tm, without tm_isdst *)
Record tm := mkTm {
  tm_sec : Z; tm_min : Z; tm_hour : Z; tm_mday : Z; tm_mon : Z; tm_year : Z; tm_wday : Z; tm_yday : Z
}.

(** 126-134, the do-while loop *)
Fixpoint days_down (fuel : nat) (mday mon year : Z) : result (Z * Z * Z) :=
  match fuel with
  | O => Fuel
  | S fuel =>
      do (mon, year) <- wrap (mon - 1) 12 year;
      do len <- month_length year mon;
      do mday <- int_ (mday + len);
      if mday <? 1 then days_down fuel mday mon year else Ok (mday, mon, year)
  end.

(** 136-147 *)
Fixpoint days_up (fuel : nat) (mday mon year : Z) : result (Z * Z * Z) :=
  do days <- month_length year mon;
  if mday <=? days then Ok (mday, mon, year)
  else
    match fuel with
    | O => Fuel
    | S fuel =>
        do (mon, year) <- wrap (mon + 1) 12 year;
        days_up fuel (mday - days) mon year
    end.

(** 150-153 *)
Fixpoint sum_months (n : nat) (year i : Z) (yday : Z) : result Z :=
  match n with
  | O => Ok yday
  | S n => do len <- month_length year i; sum_months n year (i + 1) (yday + len)
  end.

(** 156-162 *)
Definition leap_days (year : Z) : result Z :=
  if 0 <=? year then
    do a <- floor_div (year - 69) 4;
    do b <- floor_div (year - 1) 100;
    do c <- floor_div (year - 101) 400;
    int_ (a - b + c + 1)
  else
    do a <- floor_div (year + 3) 4;
    do b <- floor_div (year + 99) 100;
    do c <- floor_div (year + 299) 400;
    int_ (a - b + c - 17).

(** 104-184, for a [time_t] with [bits] bits.  The result is the new [*tm] and
    [*timep].  The 64 bit arithmetic at 164-171 cannot overflow. *)
Definition xtimegm (bits : Z) (t : tm) : result (tm * Z) :=
  do (sec, min) <- wrap (tm_sec t) 60 (tm_min t);
  do (min, hour) <- wrap min 60 (tm_hour t);
  do (hour, mday) <- wrap hour 24 (tm_mday t);
  do (mon, year) <- wrap (tm_mon t) 12 (tm_year t);
  let fuel := S (Z.to_nat (Z.abs mday)) in
  do (mday, mon, year) <-
    (if mday <? 1 then days_down fuel mday mon year else days_up fuel mday mon year);
  do before <- sum_months (Z.to_nat mon) year 0 0;
  let yday := before + (mday - 1) in
  do leaps <- leap_days year;
  do years <- int_ (year - 70);
  let epoch_days := 365 * years + leaps + yday in
  let wday := Z.rem (epoch_days + 4) 7 in
  let wday := if wday <? 0 then wday + 7 else wday in
  let epoch_time := sec + 60 * (min + 60 * (hour + 24 * epoch_days)) in
  if (- 2 ^ (bits - 1) <=? epoch_time) && (epoch_time <? 2 ^ (bits - 1))
  then Ok (mkTm sec min hour mday mon year wday yday, epoch_time)
  else Overflow.
