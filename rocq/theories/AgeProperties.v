(** C41: tests on timestamps and their arguments; C42: dates on the command line *)
From Coq Require Import String List ZArith NArith Bool Lia.
From Coq Require Import Init.Byte Strings.Byte.
From Verif Require Import NumModel NumSpec TsModel TsSpec AgeModel AgeSpec AgeProofs.
From Verif Require TmModel NumProperties.
Import ListNotations.
Local Open Scope Z_scope.

(** C41: -newer and its relatives compare instants to the nanosecond. *)
Theorem C41_newer : forall ref t, normal ref -> normal t ->
  (eval_newer ref t = true <-> instant ref < instant t).
Proof. exact newer_ok. Qed.
Print Assumptions C41_newer.

(** C41: for a timestamp that is not in the future, -atime, -mmin, -since and so
    on compare the number of whole units that have passed since. *)
Theorem C41_age : forall u cmp num ref t, normal ref -> normal t -> apart ref t -> instant t <= instant ref ->
  exists b, eval_time u cmp num ref t = Some b /\
    (b = true <-> exists n, passed u (instant t) (instant ref) n /\ comparison cmp n num).
Proof. exact time_past. Qed.
Print Assumptions C41_age.

(** C41: for one in the future the distance is first rounded up to seconds, then
    down to units, and counts as negative. *)
Theorem C41_age_future : forall u cmp num ref t, normal ref -> normal t -> apart ref t -> instant ref < instant t ->
  exists b, eval_time u cmp num ref t = Some b /\
    (b = true <-> exists k n, at_most BFS_SECONDS (instant ref) (instant t) k /\
                   n * secs u <= k < (n + 1) * secs u /\ comparison cmp (- n) num).
Proof. exact time_future. Qed.
Print Assumptions C41_age_future.

(** Not the number of whole units that are left: less than a day in the future
    can count as a day. *)
Theorem C41_age_future_whole_refuted : exists ref t b, normal ref /\ normal t /\ apart ref t /\
  (86400 - 1) * second < instant t - instant ref < 86400 * second /\
  eval_time BFS_DAYS BFS_INT_LESS 0 ref t = Some b /\ b = true.
Proof. exact future_truncates. Qed.
Print Assumptions C41_age_future_whole_refuted.

(** C41: -used compares the days from the last change to the last access, rounded
    up from whole seconds, and is false if the access came before the change. *)
Theorem C41_used : forall cmp num atime ctime, normal atime -> normal ctime -> apart atime ctime ->
  tv_sec atime - tv_sec ctime < 2 ^ 62 ->
  exists b, eval_used cmp num atime ctime = Some b /\
    (b = true <-> exists s n, 0 <= s /\ passed BFS_SECONDS (instant ctime) (instant atime) s /\
                   (n - 1) * 86400 < s <= n * 86400 /\ comparison cmp n num).
Proof. exact used_ok. Qed.
Print Assumptions C41_used.

(** C41: an argument of -mtime that is a plain number counts days, *)
Theorem C41_parse_days : forall isspace, sane isspace -> forall s cmp num,
  parse_time isspace s = TimeArg cmp num BFS_DAYS <->
  exists t, prefixed s cmp t /\ numeral 10 t num [] /\ 0 <= num < 2 ^ 63.
Proof. exact parse_time_days. Qed.
Print Assumptions C41_parse_days.

(** one with units counts seconds modulo 2^64, *)
Theorem C41_parse_duration : forall isspace, sane isspace -> forall s cmp num,
  parse_time isspace s = TimeArg cmp num BFS_SECONDS <->
  exists t total, prefixed s cmp t /\ duration t total /\ wrapped total num.
Proof. exact parse_time_seconds. Qed.
Print Assumptions C41_parse_duration.

(** which is the exact number of seconds if that fits, *)
Theorem C41_parse_duration_exact : forall isspace, sane isspace -> forall s cmp t total,
  prefixed s cmp t -> duration t total -> 0 <= total < 2 ^ 63 ->
  parse_time isspace s = TimeArg cmp total BFS_SECONDS.
Proof. exact parse_time_exact. Qed.
Print Assumptions C41_parse_duration_exact.

(** but too large a duration is accepted with the wrong value. *)
Theorem C41_parse_duration_range_refuted : forall isspace, sane isspace ->
  exists s t total num, prefixed s BFS_INT_GREATER t /\ duration t total /\
    parse_time isspace s = TimeArg BFS_INT_GREATER num BFS_SECONDS /\ num < 0 < total.
Proof. exact parse_time_wraps. Qed.
Print Assumptions C41_parse_duration_range_refuted.

(** Nothing else is accepted. *)
Theorem C41_parse_time_minutes : forall isspace, sane isspace -> forall s cmp num,
  parse_time isspace s <> TimeArg cmp num BFS_MINUTES.
Proof. exact parse_time_minutes. Qed.
Print Assumptions C41_parse_time_minutes.
Theorem C41_parse_time_ends : forall isspace, sane isspace -> forall s, parse_time isspace s <> TimeFuel.
Proof. exact parse_time_ends. Qed.
Print Assumptions C41_parse_time_ends.

(** C41: -mmin takes a plain number. *)
Theorem C41_parse_min : forall isspace, sane isspace -> forall s cmp num u,
  parse_min isspace s = TimeArg cmp num u <->
  u = BFS_MINUTES /\ exists t, prefixed s cmp t /\ numeral 10 t num [] /\ 0 <= num < 2 ^ 63.
Proof. exact parse_min_ok. Qed.
Print Assumptions C41_parse_min.

(** C42: a date is read exactly when it has one of the documented forms, and its
    fields are the ones written. *)
Theorem C42_date : forall s p, get_date s = Some p <-> date s p.
Proof. exact get_date_ok. Qed.
Print Assumptions C42_date.

(** C42: the instant it denotes.  A date with a zone never fails; one without is
    up to the C library's mktime(). *)
Theorem C42_getdate : forall isspace xmktime, sane isspace -> forall s ts,
  xgetdate isspace xmktime s = Some ts <->
  tv_nsec ts = 0 /\
  ((exists t, s = "@"%byte :: t /\ numeral 10 t (tv_sec ts) [] /\ - 2 ^ 63 <= tv_sec ts < 2 ^ 63) \/
   (exists p offset, date s p /\ p_zone p = Some offset /\ tv_sec ts = utc_second p offset) \/
   (exists p, date s p /\ p_zone p = None /\ xmktime (tm_of p) = Some (tv_sec ts))).
Proof. exact xgetdate_ok. Qed.
Print Assumptions C42_getdate.

Module Examples.
  Definition b (s : string) : list byte := list_byte_of_string s.
  Definition isspace := NumProperties.Examples.isspace.
  Definition posix : sane isspace := NumProperties.Examples.posix.
  (** A file changed a day, 23 hours and half a second ago *)
  Definition now := mkTs 1700000000 250000000.
  Definition before := mkTs (1700000000 - 47 * 3600 - 1) 750000000.
  Example normals : normal now /\ normal before /\ apart now before /\ instant before <= instant now.
  Proof. unfold normal, apart, now, before, instant. cbn. lia. Qed.
  Example a_day : passed BFS_DAYS (instant before) (instant now) 1.
  Proof. unfold passed. vm_compute. split; [discriminate|reflexivity]. Qed.
  Example mtime_1 : eval_time BFS_DAYS BFS_INT_EQUAL 1 now before = Some true. Proof. reflexivity. Qed.
  Example mtime_more_1 : eval_time BFS_DAYS BFS_INT_GREATER 1 now before = Some false. Proof. reflexivity. Qed.
  Example newer_yes : eval_newer before now = true. Proof. reflexivity. Qed.
  Example used_2 : eval_used BFS_INT_EQUAL 2 now before = Some true. Proof. reflexivity. Qed.
  Example week : parse_time isspace (b "+1w2d12h") = TimeArg BFS_INT_GREATER 820800 BFS_SECONDS. Proof. reflexivity. Qed.
  Example plain : parse_time isspace (b "-3") = TimeArg BFS_INT_LESS 3 BFS_DAYS. Proof. reflexivity. Qed.
  Example unit_missing : parse_time isspace (b "1w2") = BadTime. Proof. reflexivity. Qed.
  Example zoned : xgetdate isspace (fun _ => None) (b "2024-02-29T12:30:15+05:30") = Some (mkTs 1709190015 0).
  Proof. vm_compute. reflexivity. Qed.
  Example compact : xgetdate isspace (fun _ => None) (b "20240229123015Z") = Some (mkTs 1709209815 0).
  Proof. vm_compute. reflexivity. Qed.
  Example negative : xgetdate isspace (fun _ => None) (b "@-1") = Some (mkTs (-1) 0). Proof. reflexivity. Qed.
  Example zone_needs_time : get_date (b "2024-02-29Z") = None. Proof. reflexivity. Qed.
  Example local_day : get_date (b "2024-0229") = Some (mkParsed 2024 2 29 0 0 0 None). Proof. reflexivity. Qed.
End Examples.
