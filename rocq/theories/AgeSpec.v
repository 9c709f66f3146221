(** * What tests on timestamps mean *)
From Coq Require Import List ZArith NArith Bool.
From Coq Require Import Init.Byte Strings.Byte.
From Verif Require Import NumModel NumSpec TsModel TsSpec TmSpec AgeModel.
From Verif Require TmModel.
Import ListNotations.
Local Open Scope Z_scope.

(** Nanoseconds in a unit *)
Definition second : Z := 1000000000.
Definition length_of (u : time_unit) : Z :=
  match u with BFS_SECONDS => second | BFS_MINUTES => 60 * second | BFS_DAYS => 24 * 60 * 60 * second end.
(** Seconds in a unit *)

Definition secs (u : time_unit) : Z := match u with BFS_SECONDS => 1 | BFS_MINUTES => 60 | BFS_DAYS => 86400 end.

(** The difference of the seconds is a time_t. *)
Definition apart (a b : timespec) : Prop := - 2 ^ 63 < tv_sec a - tv_sec b < 2 ^ 63.

(** [n] whole units, and no more, have passed between the instants [from] and [to]. *)
Definition passed (u : time_unit) (from to n : Z) : Prop :=
  n * length_of u <= to - from < (n + 1) * length_of u.
(** [from] to [to] is more than [n - 1] and at most [n] units. *)
Definition at_most (u : time_unit) (from to n : Z) : Prop :=
  (n - 1) * length_of u < to - from <= n * length_of u.

(** A duration: numbers with units, as in 1w2d12h *)
Definition unit_seconds (unit : byte) (k : Z) : Prop :=
  In (unit, k) [("s", 1); ("m", 60); ("h", 60 * 60); ("d", 24 * 60 * 60); ("w", 7 * 24 * 60 * 60)]%byte.
Inductive duration : list byte -> Z -> Prop :=
| Last s n unit k : numeral 10 s n [unit] -> 0 <= n < 2 ^ 63 -> unit_seconds unit k -> duration s (n * k)
| More s n unit k rest total : numeral 10 s n (unit :: rest) -> 0 <= n < 2 ^ 63 -> unit_seconds unit k ->
    duration rest total -> duration s (n * k + total).

(** ** Dates: YYYY-MM-DD, YYYY-MM-DDThh:mm:ss and so on *)

(** A number with [n] digits *)
Definition field (n : nat) (s : list byte) (v : Z) : Prop :=
  length s = n /\ Forall (is_digit_of 10) s /\ v = value 10 s.
Definition optional (c : byte) (s : list byte) : Prop := s = [] \/ s = [c].

(** Nothing for local time; Z; +hh, +hhmm, +hh:mm and the same with a minus sign.
    The second argument is the difference from UTC in seconds. *)
Inductive zone : list byte -> option Z -> Prop :=
| Local : zone [] None
| Utc : zone ["Z"%byte] (Some 0)
| Offset sgn k h vh : sgn = "+"%byte /\ k = 1 \/ sgn = "-"%byte /\ k = -1 -> field 2 h vh ->
    zone (sgn :: h) (Some (k * (vh * 3600)))
| Offset_min sgn k h vh c m vm : sgn = "+"%byte /\ k = 1 \/ sgn = "-"%byte /\ k = -1 -> field 2 h vh ->
    optional ":" c -> field 2 m vm -> zone (sgn :: h ++ c ++ m) (Some (k * (vh * 3600 + vm * 60))).

(** Hours, then optionally minutes, then optionally seconds *)
Inductive clock : list byte -> Z -> Z -> Z -> Prop :=
| Hours h vh : field 2 h vh -> clock h vh 0 0
| Minutes h vh c m vm : field 2 h vh -> optional ":" c -> field 2 m vm -> clock (h ++ c ++ m) vh vm 0
| Seconds h vh c m vm d s vs : field 2 h vh -> optional ":" c -> field 2 m vm -> optional ":" d -> field 2 s vs ->
    clock (h ++ c ++ m ++ d ++ s) vh vm vs.

Inductive date : list byte -> parsed -> Prop :=
| Day y vy c m vm d md vd : field 4 y vy -> optional "-" c -> field 2 m vm -> optional "-" d -> field 2 md vd ->
    date (y ++ c ++ m ++ d ++ md) (mkParsed vy vm vd 0 0 0 None)
| Time y vy c m vm d md vd t k vh vmi vs z vz :
    field 4 y vy -> optional "-" c -> field 2 m vm -> optional "-" d -> field 2 md vd ->
    optional "T" t \/ optional " " t -> clock k vh vmi vs -> zone z vz ->
    date (y ++ c ++ m ++ d ++ md ++ t ++ k ++ z) (mkParsed vy vm vd vh vmi vs vz).

(** The second that a date denotes, if its zone is given.  Fields out of range
    are carried over, so 2024-13-01 is 2025-01-01. *)
Definition utc_second (p : parsed) (offset : Z) : Z :=
  second_of (TmModel.mkTm (p_sec p) (p_min p) (p_hour p) (p_mday p) (p_mon p - 1) (p_year p - 1900) 0 0) - offset.

(** The long long that [total] becomes: itself if it fits *)
Definition wrapped (total num : Z) : Prop :=
  - 2 ^ 63 <= num < 2 ^ 63 /\ exists k, num = total + k * 2 ^ 64.
