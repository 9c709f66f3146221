(** * Time zones, local days, and what the words for time tests mean *)
From Coq Require Import String List ZArith NArith Bool.
From Coq Require Import Init.Byte.
From Verif Require Import NumSpec TsModel TsSpec TmSpec AgeModel AgeSpec DayModel.
From Verif Require TmModel.
Import ListNotations.
Local Open Scope Z_scope.

(** A time zone: what is added to UTC, in seconds, in winter and in summer, and
    when it is summer *)
Record timezone := mkZone { z_std : Z; z_dst : Z; z_summer : Z -> bool }.
Definition offset (z : timezone) (second : Z) : Z := if z_summer z second then z_dst z else z_std z.

(** What ISO C and POSIX say about the C library's functions.  A broken-down time
    for mktime() says with tm_isdst whether it is summer time; if it does not
    say, the result shows it if anything does. *)
Record library (z : timezone) (localtime : Z -> option ltm) (gmtime : Z -> option TmModel.tm)
    (mktime : ltm -> option (Z * ltm)) : Prop := {
  lib_localtime : forall s l, localtime s = Some l ->
    normalised (l_tm l) /\ second_of (l_tm l) = s + offset z s /\
    l_isdst l = (if z_summer z s then 1 else 0) /\ l_gmtoff l = offset z s;
  lib_gmtime : forall s u, gmtime s = Some u -> normalised u /\ second_of u = s;
  lib_mktime : forall l r l', mktime l = Some (r, l') -> - 2 ^ 63 <= r < 2 ^ 63 /\ localtime r = Some l' /\
    (0 < l_isdst l -> r = second_of (l_tm l) - z_dst z) /\
    (l_isdst l = 0 -> r = second_of (l_tm l) - z_std z) /\
    (l_isdst l < 0 -> forall s, s + offset z s = second_of (l_tm l) -> r + offset z r = second_of (l_tm l));
  (** It does not fail for times in the year of the second before the epoch. *)
  lib_fails : forall l m, mktime l = None -> localtime (-1) = Some m -> TmModel.tm_year (l_tm l) <> TmModel.tm_year (l_tm m)
}.

(** What a clock on the wall shows, in nanoseconds since midnight of the first
    of January 1970 *)
Definition wall (z : timezone) (t : timespec) : Z := instant t + offset z (tv_sec t) * second.
Definition a_day : Z := 86400 * second.
Definition midnight (z : timezone) (t : timespec) : Prop := wall z t mod a_day = 0.
(** The number of the day on the calendar *)
Definition calendar_day (z : timezone) (t : timespec) : Z := wall z t / a_day.
(** The same, except that midnight belongs to the day that it ends *)
Definition day_ending (z : timezone) (t : timespec) : Z := (wall z t - 1) / a_day.

(** The letters of -newerXY *)
Definition letter (f : field) : byte :=
  match f with BFS_STAT_ATIME => "a" | BFS_STAT_BTIME => "B" | BFS_STAT_CTIME => "c" | BFS_STAT_MTIME => "m" end%byte.
Definition fields : list field := [BFS_STAT_ATIME; BFS_STAT_BTIME; BFS_STAT_CTIME; BFS_STAT_MTIME].

(** [-] letter name, and without the letter for the modification time *)
Definition with_letter (f : field) (name : string) : list byte := "-"%byte :: letter f :: bytes name.
Definition named (word : list byte) (f : field) (name : string) : Prop :=
  word = with_letter f name \/ f = BFS_STAT_MTIME /\ word = "-"%byte :: bytes name.

(** The timestamp that a date on the command line denotes.  Without a zone, it
    is what the C library makes of it. *)
Definition denotes (mktime : TmModel.tm -> option Z) (s : list byte) (ts : timespec) : Prop :=
  tv_nsec ts = 0 /\
  ((exists t, s = "@"%byte :: t /\ numeral 10 t (tv_sec ts) [] /\ - 2 ^ 63 <= tv_sec ts < 2 ^ 63) \/
   (exists p off, date s p /\ p_zone p = Some off /\ tv_sec ts = utc_second p off) \/
   (exists p, date s p /\ p_zone p = None /\ mktime (tm_of p) = Some (tv_sec ts))).

(** [reference … word arg f ref]: the test compares the time [f] of a file to [ref]. *)
Inductive reference (mktime : TmModel.tm -> option Z) (stat_of : list byte -> option stat) (word arg : list byte)
  : field -> timespec -> Prop :=
| Ref_newer f sb : named word f "newer" -> stat_of arg = Some sb ->
    reference mktime stat_of word arg f (s_time sb BFS_STAT_MTIME)
| Ref_xy f g sb : word = bytes "-newer" ++ [letter f; letter g] -> stat_of arg = Some sb -> s_mask sb g = true ->
    reference mktime stat_of word arg f (s_time sb g)
| Ref_xt f ts : word = bytes "-newer" ++ [letter f; "t"%byte] -> denotes mktime arg ts ->
    reference mktime stat_of word arg f ts
| Ref_since f ts : named word f "since" -> denotes mktime arg ts ->
    reference mktime stat_of word arg f ts.
