(** * C64: what time tests are compared to *)
From Coq Require Import String List ZArith NArith Bool Lia.
From Coq Require Import Init.Byte Strings.Byte.
From Verif Require Import NumModel NumSpec TsModel TsSpec TmSpec AgeModel AgeSpec DayModel DaySpec DayProofs.
From Verif Require NumProperties TmModel.
Import ListNotations.
Local Open Scope Z_scope.

(** C64: which words compare which time of a file to which reference: -newer and
    its variants, -newerXY and -since take exactly the arguments that name a file,
    with that time, or a date. *)
Theorem C64_reference : forall isspace localtime mktime bfs_stat, sane isspace ->
  forall follow now word arg f ref,
  parse_test isspace localtime mktime bfs_stat follow now word arg = Some (Newer f ref) <->
  reference (xmktime_date localtime mktime) (bfs_stat follow) word arg f ref.
Proof. exact reference_ok. Qed.
Print Assumptions C64_reference.

(** C64: -Xmin and -Xtime measure from now, or from what -daystart made of it. *)
Theorem C64_age : forall isspace localtime mktime bfs_stat follow now word arg f u cmp num ref,
  parse_test isspace localtime mktime bfs_stat follow now word arg = Some (Age f u cmp num ref) <->
  ref = now /\ (word = with_letter f "min" /\ AgeModel.parse_min isspace arg = TimeArg cmp num u \/
                word = with_letter f "time" /\ AgeModel.parse_time isspace arg = TimeArg cmp num u).
Proof. exact ages_ok. Qed.
Print Assumptions C64_age.

(** C64: a file passes if its time is known and later than the reference. *)
Theorem C64_newer : forall f ref sb, normal ref -> (forall f, normal (s_time sb f)) ->
  exists b, eval_test (Newer f ref) sb = Some b /\
    (b = true <-> s_mask sb f = true /\ instant ref < instant (s_time sb f)).
Proof. exact newer_test. Qed.
Print Assumptions C64_newer.

(** C64: a date without a zone is in local time: the timestamp is one at which
    clocks show it, if there is any. *)
Theorem C64_local_date : forall z localtime gmtime mktime, library z localtime gmtime mktime ->
  forall isspace, sane isspace -> forall s p ts, date s p -> p_zone p = None ->
  xgetdate isspace (xmktime_date localtime mktime) s = Some ts ->
  tv_nsec ts = 0 /\ forall x, x + offset z x = utc_second p 0 -> tv_sec ts + offset z (tv_sec ts) = utc_second p 0.
Proof. exact local_date. Qed.
Print Assumptions C64_local_date.

(** C64: the second before the epoch is not mistaken for an error. *)
Theorem C64_mktime : forall z localtime gmtime mktime, library z localtime gmtime mktime ->
  forall l r, xmktime localtime mktime l = Some r <-> exists l', mktime l = Some (r, l').
Proof. exact mktime_ok. Qed.
Print Assumptions C64_mktime.

(** C64: -daystart measures from the end of the day, by the offset from UTC that
    holds now.  That is the next midnight if the offset still holds then. *)
Theorem C64_daystart : forall z localtime gmtime mktime, library z localtime gmtime mktime ->
  forall now now', normal now -> parse_daystart localtime mktime now = Some now' ->
  normal now' /\ tv_nsec now' = 0 /\ (tv_sec now' + offset z (tv_sec now)) mod 86400 = 0 /\
  instant now' - a_day < instant now <= instant now'.
Proof. exact daystart_ok. Qed.
Print Assumptions C64_daystart.

Theorem C64_daystart_midnight : forall z localtime gmtime mktime, library z localtime gmtime mktime ->
  forall now now', normal now -> parse_daystart localtime mktime now = Some now' ->
  offset z (tv_sec now') = offset z (tv_sec now) ->
  midnight z now' /\ instant now' - a_day < instant now <= instant now'.
Proof. exact daystart_midnight. Qed.
Print Assumptions C64_daystart_midnight.

(** C64: at midnight, and so the second time, -daystart changes nothing. *)
Theorem C64_daystart_again : forall z localtime gmtime mktime, library z localtime gmtime mktime ->
  forall now now', normal now -> midnight z now -> parse_daystart localtime mktime now = Some now' -> now' = now.
Proof. exact daystart_again. Qed.
Print Assumptions C64_daystart_again.

(** C64: then -mtime n counts local days, if the offset is the same all along.
    Midnight belongs to the day that it ends. *)
Theorem C64_days_partial : forall z localtime gmtime mktime, library z localtime gmtime mktime ->
  forall now now', normal now -> parse_daystart localtime mktime now = Some now' ->
  offset z (tv_sec now') = offset z (tv_sec now) ->
  forall cmp num t, normal t -> apart now' t -> instant t <= instant now' ->
  offset z (tv_sec t) = offset z (tv_sec now) ->
  exists b, eval_time BFS_DAYS cmp num now' t = Some b /\
    (b = true <-> comparison cmp (day_ending z now - day_ending z t) num).
Proof. exact daystart_days. Qed.
Print Assumptions C64_days_partial.

(** On a day before the clocks change, -daystart does not measure from midnight. *)
Theorem C64_daystart_midnight_refuted : exists z localtime gmtime mktime now now', library z localtime gmtime mktime /\
  normal now /\ parse_daystart localtime mktime now = Some now' /\ ~ midnight z now'.
Proof. exact daystart_summer. Qed.
Print Assumptions C64_daystart_midnight_refuted.

(** On a day that has 23 hours, -daystart -mtime 0 finds a file from yesterday. *)
Theorem C64_days_refuted : exists z localtime gmtime mktime now now' t, library z localtime gmtime mktime /\
  normal now /\ normal t /\ parse_daystart localtime mktime now = Some now' /\ midnight z now' /\
  ~ midnight z now /\ ~ midnight z t /\
  eval_time BFS_DAYS BFS_INT_EQUAL 0 now' t = Some true /\ calendar_day z t = calendar_day z now - 1.
Proof. exact days_summer. Qed.
Print Assumptions C64_days_refuted.

(** A file from midnight today is not found by -daystart -mtime 0, without any
    change of clocks. *)
Theorem C64_calendar_refuted : exists z localtime gmtime mktime now now' t, library z localtime gmtime mktime /\
  normal now /\ normal t /\ parse_daystart localtime mktime now = Some now' /\ midnight z now' /\
  (forall s, tv_sec t <= s <= tv_sec now' -> offset z s = offset z (tv_sec now)) /\
  calendar_day z t = calendar_day z now /\ eval_time BFS_DAYS BFS_INT_EQUAL 0 now' t = Some false.
Proof. exact days_midnight. Qed.
Print Assumptions C64_calendar_refuted.

(** C64: the message about an invalid timestamp suggests four valid ones: the
    start of the day and now in local time, and now with its zone and in UTC. *)
Theorem C64_suggestions_partial : forall z localtime gmtime mktime, library z localtime gmtime mktime ->
  forall now l u, localtime (tv_sec now) = Some l -> gmtime (tv_sec now) = Some u ->
  0 <= TmModel.tm_year (l_tm l) + 1900 < 10000 -> 0 <= TmModel.tm_year u + 1900 < 10000 ->
  let off := offset z (tv_sec now) in
  off mod 60 = 0 -> 0 <= off < 360000 \/ -360000 < off <= -3600 ->
  exists s1 s2 s3 s4, suggestions localtime gmtime now = Some [s1; s2; s3; s4] /\
    (exists p, date s1 p /\ p_zone p = None /\ utc_second p 0 = (tv_sec now + off) / 86400 * 86400) /\
    (exists p, date s2 p /\ p_zone p = None /\ utc_second p 0 = tv_sec now + off) /\
    (exists p o, date s3 p /\ p_zone p = Some o /\ utc_second p o = tv_sec now) /\
    (exists p o, date s4 p /\ p_zone p = Some o /\ utc_second p o = tv_sec now).
Proof. exact suggestions_ok. Qed.
Print Assumptions C64_suggestions_partial.

(** Less than an hour behind UTC, the third is wrong: the sign is lost. *)
Theorem C64_suggestions_refuted : exists z localtime gmtime mktime now s1 s2 s3 s4 p o, library z localtime gmtime mktime /\
  normal now /\ suggestions localtime gmtime now = Some [s1; s2; s3; s4] /\
  date s3 p /\ p_zone p = Some o /\ utc_second p o = tv_sec now - 3600.
Proof. exact suggestion_wrong. Qed.
Print Assumptions C64_suggestions_refuted.

Module Examples.
  (** New York, on the third of July 2024 at 05:46:40 *)
  Definition now := mkTs 1720000000 0.
  Definition end_of_day := mkTs 1720065600 0.
  Definition localtime := lookup new_york_times.
  Definition gmtime := lookup utc_times.
  Definition mktime := table_mktime new_york new_york_times.
  Example faithful : library new_york localtime gmtime mktime. Proof. exact new_york_library. Qed.
  Example times : normal now /\ normal end_of_day. Proof. unfold normal, now, end_of_day. cbn. lia. Qed.
  Example daystart : parse_daystart localtime mktime now = Some end_of_day. Proof. vm_compute. reflexivity. Qed.
  Example at_midnight : midnight new_york end_of_day. Proof. vm_compute. reflexivity. Qed.
  Example again : parse_daystart localtime mktime end_of_day = Some end_of_day. Proof. vm_compute. reflexivity. Qed.
  Example same_offset : offset new_york (tv_sec end_of_day) = offset new_york (tv_sec now). Proof. reflexivity. Qed.
  (** A file from 23:59:59 yesterday is a day old, though only six hours have passed. *)
  Definition late := mkTs (1720065600 - 86400 - 1) 0.
  Example yesterday : eval_time BFS_DAYS BFS_INT_EQUAL 1 end_of_day late = Some true. Proof. reflexivity. Qed.
  Example yesterday' : day_ending new_york now - day_ending new_york late = 1. Proof. reflexivity. Qed.
  Example far : apart end_of_day late /\ instant late <= instant end_of_day. Proof. unfold apart. vm_compute. intuition discriminate. Qed.
  (** Files *)
  Definition sb := mkStat (fun f => match f with BFS_STAT_BTIME => false | _ => true end)
    (fun f => match f with BFS_STAT_ATIME => mkTs 30 5 | BFS_STAT_BTIME => mkTs 0 0 | BFS_STAT_CTIME => mkTs 20 0 | BFS_STAT_MTIME => mkTs 10 0 end).
  Definition bfs_stat (follow : bool) (p : list byte) : option stat := if strcmp0 p (bytes "file") then Some sb else None.
  Definition parse (word arg : string) :=
    parse_test NumProperties.Examples.isspace localtime mktime bfs_stat false now (bytes word) (bytes arg).
  Example anewer : parse "-anewer" "file" = Some (Newer BFS_STAT_ATIME (mkTs 10 0)). Proof. reflexivity. Qed.
  Example newerca : parse "-newerca" "file" = Some (Newer BFS_STAT_CTIME (mkTs 30 5)). Proof. reflexivity. Qed.
  Example newermB : parse "-newermB" "file" = None. Proof. reflexivity. Qed.
  Example newermt : parse "-newermt" "2024-02-29T12:30:15+05:30" = Some (Newer BFS_STAT_MTIME (mkTs 1709190015 0)).
  Proof. vm_compute. reflexivity. Qed.
  Example since : parse "-Bsince" "@5" = Some (Newer BFS_STAT_BTIME (mkTs 5 0)). Proof. reflexivity. Qed.
  Example missing : parse "-newer" "nothing" = None. Proof. reflexivity. Qed.
  Example too_long : parse "-newermtx" "file" = None. Proof. reflexivity. Qed.
  Example mtime : parse "-mtime" "+2" = Some (Age BFS_STAT_MTIME BFS_DAYS BFS_INT_GREATER 2 now). Proof. reflexivity. Qed.
  Example referenced : reference (xmktime_date localtime mktime) (bfs_stat false) (bytes "-newerca") (bytes "file") BFS_STAT_CTIME (mkTs 30 5).
  Proof. apply (Ref_xy _ _ _ _ BFS_STAT_CTIME BFS_STAT_ATIME sb); reflexivity. Qed.
  Example normals : forall f, normal (s_time sb f). Proof. intros []; unfold normal; cbn; lia. Qed.
  (** The suggestions *)
  Example suggested : suggestions localtime gmtime now =
    Some (map bytes ["2024-07-03"; "2024-07-03T05:46:40"; "2024-07-03T05:46:40-04:00"; "2024-07-03T09:46:40Z"]%string).
  Proof. vm_compute. reflexivity. Qed.
  Example minutes : offset new_york (tv_sec now) mod 60 = 0 /\ -360000 < offset new_york (tv_sec now) <= -3600.
  Proof. vm_compute. intuition discriminate. Qed.
  (** A date in local time *)
  Definition mktime' (l : ltm) : option (Z * ltm) :=
    if l_isdst l <? 0 then (if second_of (l_tm l) =? 1720000000 - 14400 then option_map (fun l => (1720000000, l)) (localtime 1720000000) else None)
    else mktime l.
  Example faithful' : library new_york localtime gmtime mktime'.
  Proof.
    destruct faithful as [A B C D]. constructor; [exact A|exact B| |].
    - intros l r l'. unfold mktime'. destruct (l_isdst l <? 0) eqn:E; [|apply C]. apply Z.ltb_lt in E.
      destruct (second_of (l_tm l) =? _) eqn:F; [|discriminate]. apply Z.eqb_eq in F. rewrite F.
      intros H. change (Some (1720000000, snd (nth 4 new_york_times (0, l'))) = Some (r, l')) in H. injection H as <- <-.
      split; [lia|]. split; [reflexivity|]. split; [lia|]. split; [lia|]. intros _ s _. reflexivity.
    - intros l m _ H. discriminate H.
  Qed.
  Example local_now : xgetdate NumProperties.Examples.isspace (xmktime_date localtime mktime') (bytes "2024-07-03 05:46:40") = Some now.
  Proof. vm_compute. reflexivity. Qed.
End Examples.
