(** * Model of the reference points of time tests: -daystart, -newer, -newerXY,
    -since, -min and -time in src/parse.c, and xmktime() in src/xtime.c

    [time_t] has 64 bits.  A word and its argument are given; missing arguments
    belong to the model of the grammar (GramModel). *)
From Coq Require Import String List ZArith NArith Bool.
From Coq Require Import Init.Byte Strings.Byte.
From Verif Require Import NumModel TsModel AgeModel.
From Verif Require TmModel.
Import TmModel.
Import ListNotations.
Local Open Scope Z_scope.

Definition bytes (s : string) : list byte := list_byte_of_string s.

(** src/stat.h, the part of enum bfs_stat_field that is about time *)
Inductive field := BFS_STAT_ATIME | BFS_STAT_BTIME | BFS_STAT_CTIME | BFS_STAT_MTIME.
(** src/stat.h, struct bfs_stat: the mask and the timestamps *)
Record stat := mkStat { s_mask : field -> bool; s_time : field -> timespec }.

(** [struct tm] of the C library, with tm_isdst and tm_gmtoff *)
Record ltm := mkLtm { l_tm : tm; l_isdst : Z; l_gmtoff : Z }.

(** ** fprintf() of int *)

Definition decimal (d : Z) : byte :=
  match Byte.of_N (Z.to_N (48 + d)) with Some c => c | None => "0"%byte end.
Fixpoint show (fuel : nat) (n : Z) (acc : list byte) : list byte :=
  match fuel with
  | O => acc
  | S fuel => if n <? 10 then decimal n :: acc else show fuel (n / 10) (decimal (n mod 10) :: acc)
  end.
(** %0<width>d, with a plus sign if [plus]; an int has no more than 10 digits *)
Definition printf_d (width : nat) (plus : bool) (v : Z) : list byte :=
  let sgn := if v <? 0 then ["-"%byte] else if plus then ["+"%byte] else [] in
  let ds := show 10 (Z.abs v) [] in
  sgn ++ repeat "0"%byte (width - length sgn - length ds) ++ ds.

Section Parse.
  Variable isspace : byte -> bool.
  (** localtime_r(), gmtime_r(): [None] is an error.  mktime(): [None] is the
      return value -1 for an error, which leaves its argument as it is; otherwise
      the result and the new contents of its argument *)
  Variable localtime : Z -> option ltm.
  Variable gmtime : Z -> option tm.
  Variable mktime : ltm -> option (Z * ltm).
  (** bfs_stat(AT_FDCWD, …) with BFS_STAT_TRYFOLLOW or BFS_STAT_NOFOLLOW *)
  Variable bfs_stat : bool -> list byte -> option stat.

  (** src/xtime.c 18-39; [None] is an error *)
  Definition xmktime (t : ltm) : option Z :=
    let '(time, t) := match mktime t with Some p => p | None => (-1, t) end in
    if time =? -1 then
      match localtime time with
      | None => None
      | Some tmp =>
          if negb (tm_year (l_tm t) =? tm_year (l_tm tmp)) || negb (tm_yday (l_tm t) =? tm_yday (l_tm tmp))
             || negb (tm_hour (l_tm t) =? tm_hour (l_tm tmp)) || negb (tm_min (l_tm t) =? tm_min (l_tm tmp))
             || negb (tm_sec (l_tm t) =? tm_sec (l_tm tmp))
          then None
          else Some time
      end
    else Some time.

  (** src/xtime.c 223-225 and 331: tm_isdst is -1 *)
  Definition xmktime_date (t : tm) : option Z := xmktime (mkLtm t (-1) 0).

  (** src/parse.c 1148-1175: the new [parser->now] *)
  Definition parse_daystart (now : timespec) : option timespec :=
    match localtime (tv_sec now) with
    | None => None
    | Some l =>
        let t := l_tm l in
        let mday := if negb (tm_hour t =? 0) || negb (tm_min t =? 0) || negb (tm_sec t =? 0) || negb (tv_nsec now =? 0)
                    then tm_mday t + 1 else tm_mday t in
        let t := mkTm 0 0 0 mday (tm_mon t) (tm_year t) (tm_wday t) (tm_yday t) in
        match xmktime (mkLtm t (l_isdst l) (l_gmtoff l)) with
        | None => None
        | Some time => Some (mkTs time 0)
        end
    end.

  (** The part of struct bfs_expr that these tests use *)
  Inductive test :=
  | Newer (stat_field : field) (reftime : timespec)
  | Age (stat_field : field) (time_unit : time_unit) (cmp : int_cmp) (num : Z) (reftime : timespec).

  (** src/parse.c 377-388; [follow] is whether BFTW_FOLLOW_ROOTS or
      BFTW_FOLLOW_ALL is set so far *)
  Definition stat_arg (follow : bool) (arg : list byte) : option stat := bfs_stat follow arg.

  (** src/stat.c 351-371 *)
  Definition bfs_stat_time (buf : stat) (f : field) : option timespec :=
    if s_mask buf f then Some (s_time buf f) else None.

  (** src/parse.c 938-952 *)
  Definition parse_newer (follow : bool) (f : field) (arg : list byte) : option test :=
    match stat_arg follow arg with
    | None => None
    | Some sb => Some (Newer f (s_time sb BFS_STAT_MTIME))
    end.

  (** src/parse.c 1708-1721 *)
  Definition parse_newerxy_field (c : byte) : option field :=
    match c with
    | "a" => Some BFS_STAT_ATIME
    | "B" => Some BFS_STAT_BTIME
    | "c" => Some BFS_STAT_CTIME
    | "m" => Some BFS_STAT_MTIME
    | _ => None
    end%byte.

  (** src/parse.c 1724-1725: the timestamp, if it is one *)
  Definition parse_reftime (arg : list byte) : option timespec := xgetdate isspace xmktime_date arg.

  (** src/parse.c 1771-1817 *)
  Definition parse_newerxy (follow : bool) (word arg : list byte) : option test :=
    match word with
    | [_; _; _; _; _; _; x; y] =>
        match parse_newerxy_field x with
        | None => None
        | Some f =>
            if Byte.eqb y "t" then option_map (Newer f) (parse_reftime arg)
            else
              match parse_newerxy_field y with
              | None => None
              | Some field =>
                  match stat_arg follow arg with
                  | None => None
                  | Some sb => option_map (Newer f) (bfs_stat_time sb field)
                  end
              end
        end
    | _ => None
    end.

  (** src/parse.c 2397-2409 *)
  Definition parse_since (f : field) (arg : list byte) : option test := option_map (Newer f) (parse_reftime arg).

  (** src/parse.c 957-967 and 972-1033, with the fields that AgeModel leaves out *)
  Definition aged (f : field) (now : timespec) (a : time_arg) : option test :=
    match a with TimeArg cmp num unit => Some (Age f unit cmp num now) | _ => None end.
  Definition parse_min (f : field) (now : timespec) (arg : list byte) : option test :=
    aged f now (AgeModel.parse_min isspace arg).
  Definition parse_time (f : field) (now : timespec) (arg : list byte) : option test :=
    aged f now (AgeModel.parse_time isspace arg).

  Inductive parser := P_newer | P_newerxy | P_since | P_min | P_time.
  (** The entries of src/parse.c 3037-3155 for these parsers, in order; the
      boolean is [prefix] *)
  Definition parse_table : list (string * bool * parser * field) :=
    [("-Bmin", false, P_min, BFS_STAT_BTIME);
     ("-Bnewer", false, P_newer, BFS_STAT_BTIME);
     ("-Bsince", false, P_since, BFS_STAT_BTIME);
     ("-Btime", false, P_time, BFS_STAT_BTIME);
     ("-amin", false, P_min, BFS_STAT_ATIME);
     ("-anewer", false, P_newer, BFS_STAT_ATIME);
     ("-asince", false, P_since, BFS_STAT_ATIME);
     ("-atime", false, P_time, BFS_STAT_ATIME);
     ("-cmin", false, P_min, BFS_STAT_CTIME);
     ("-cnewer", false, P_newer, BFS_STAT_CTIME);
     ("-csince", false, P_since, BFS_STAT_CTIME);
     ("-ctime", false, P_time, BFS_STAT_CTIME);
     ("-mmin", false, P_min, BFS_STAT_MTIME);
     ("-mnewer", false, P_newer, BFS_STAT_MTIME);
     ("-msince", false, P_since, BFS_STAT_MTIME);
     ("-mtime", false, P_time, BFS_STAT_MTIME);
     ("-newer", false, P_newer, BFS_STAT_MTIME);
     ("-newer", true, P_newerxy, BFS_STAT_MTIME);
     ("-since", false, P_since, BFS_STAT_MTIME)]%string.

  Fixpoint strncmp0 (prefix s : list byte) : bool :=
    match prefix, s with
    | [], _ => true
    | p :: prefix, c :: s => Byte.eqb p c && strncmp0 prefix s
    | _, [] => false
    end.
  Fixpoint strcmp0 (s t : list byte) : bool :=
    match s, t with
    | [], [] => true
    | a :: s, b :: t => Byte.eqb a b && strcmp0 s t
    | _, _ => false
    end.
  (** src/parse.c 3163-3177 *)
  Definition matches (word : list byte) (e : string * bool * parser * field) : bool :=
    let '(name, prefix, _, _) := e in if prefix then strncmp0 (bytes name) word else strcmp0 word (bytes name).

  (** The test that a word and its argument make (src/parse.c 3277-3330).  [None]
      is an error message, or a word that is none of these tests. *)
  Definition parse_test (follow : bool) (now : timespec) (word arg : list byte) : option test :=
    match find (matches word) parse_table with
    | None => None
    | Some (_, _, p, f) =>
        match p with
        | P_newer => parse_newer follow f arg
        | P_newerxy => parse_newerxy follow word arg
        | P_since => parse_since f arg
        | P_min => parse_min f now arg
        | P_time => parse_time f now arg
        end
    end.

  (** src/eval.c 239-288: a timestamp that is not there is an error, and the test
      is false.  [None] is signed overflow. *)
  Definition eval_test (t : test) (buf : stat) : option bool :=
    match t with
    | Newer f ref =>
        match bfs_stat_time buf f with None => Some false | Some time => Some (eval_newer ref time) end
    | Age f unit cmp num ref =>
        match bfs_stat_time buf f with None => Some false | Some time => eval_time unit cmp num ref time end
    end.

  (** src/parse.c 1731-1763: the timestamps in the message about an invalid one;
      [None] is an error of the C library *)
  Definition suggestions (now : timespec) : option (list (list byte)) :=
    match localtime (tv_sec now) with
    | None => None
    | Some l =>
        let p w v := printf_d w false v in
        let day t := p 4%nat (tm_year t + 1900) ++ bytes "-" ++ p 2%nat (tm_mon t + 1) ++ bytes "-" ++ p 2%nat (tm_mday t) in
        let clock t := bytes "T" ++ p 2%nat (tm_hour t) ++ bytes ":" ++ p 2%nat (tm_min t) ++ bytes ":" ++ p 2%nat (tm_sec t) in
        let gmtoff := l_gmtoff l in
        let tz_hour := Z.quot gmtoff 3600 in
        let tz_min := Z.rem (Z.quot (Z.abs gmtoff) 60) 60 in
        match gmtime (tv_sec now) with
        | None => None
        | Some u =>
            Some [day (l_tm l);
                  day (l_tm l) ++ clock (l_tm l);
                  day (l_tm l) ++ clock (l_tm l) ++ printf_d 3 true tz_hour ++ bytes ":" ++ p 2%nat tz_min;
                  day u ++ clock u ++ bytes "Z"]
        end
    end.
End Parse.
