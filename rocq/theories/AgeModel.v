(** * Model of the tests on timestamps (src/eval.c), their arguments
    (src/parse.c), and dates on the command line (xgetdate in src/xtime.c)

    [time_t] and [long long] have 64 bits.  Strings have no NUL; the empty list is
    the terminator. *)
From Coq Require Import List ZArith NArith Bool.
From Coq Require Import Init.Byte Strings.Byte.
From Verif Require Import NumModel TsModel.
From Verif Require TmModel.
Import ListNotations.
Local Open Scope Z_scope.

(** src/expr.h, enum bfs_time_unit *)
Inductive time_unit := BFS_SECONDS | BFS_MINUTES | BFS_DAYS.

(** src/eval.c 136-140; [None] is signed overflow *)
Definition timespec_diff (lhs rhs : timespec) : option Z :=
  option_map tv_sec (timespec_sub lhs rhs).

(** src/eval.c 248-260, after the call of bfs_stat() *)
Definition eval_newer (reftime time : timespec) : bool := timespec_cmp time reftime >? 0.

(** src/eval.c 276-288.  C division truncates. *)
Definition eval_time (unit : time_unit) (cmp : int_cmp) (num : Z) (reftime time : timespec) : option bool :=
  bind (timespec_diff reftime time) (fun diff =>
  let diff := match unit with BFS_DAYS => Z.quot diff (60 * 24) | _ => diff end in
  let diff := match unit with BFS_DAYS | BFS_MINUTES => Z.quot diff 60 | BFS_SECONDS => diff end in
  Some (bfs_expr_cmp cmp num diff)).

(** src/eval.c 302-316 *)
Definition eval_used (cmp : int_cmp) (num : Z) (atime ctime : timespec) : option bool :=
  bind (timespec_diff atime ctime) (fun diff =>
  if diff <? 0 then Some false
  else
    let day_seconds := 60 * 60 * 24 in
    bind (s64 (diff + day_seconds)) (fun sum =>
    Some (bfs_expr_cmp cmp num (Z.quot (sum - 1) day_seconds)))).

Section Arguments.
  (** isspace() in the current locale *)
  Variable isspace : byte -> bool.

  (** src/parse.c 992-1010: unsigned arithmetic *)
  Definition in_seconds (unit : byte) (time : Z) : option Z :=
    match unit with
    | "w" => Some ((time * 7 * 24 * 60 * 60) mod 2 ^ 64)
    | "d" => Some ((time * 24 * 60 * 60) mod 2 ^ 64)
    | "h" => Some ((time * 60 * 60) mod 2 ^ 64)
    | "m" => Some ((time * 60) mod 2 ^ 64)
    | "s" => Some time
    | _ => None
    end%byte.

  (** Conversion from unsigned long long to long long (src/parse.c 1012) *)
  Definition signed (n : Z) : Z := (n + 2 ^ 63) mod 2 ^ 64 - 2 ^ 63.

  Inductive time_result := Accepted (num : Z) | Rejected | Fuel.

  (** src/parse.c 991-1028, the loop; [tail] is not empty *)
  Fixpoint time_loop (fuel : nat) (num time : Z) (tail : list byte) : time_result :=
    match fuel with
    | O => Fuel
    | S fuel =>
        match tail with
        | [] => Rejected
        | c :: tail =>
            match in_seconds c time with
            | None => Rejected
            | Some time =>
                let num := signed ((num + time) mod 2 ^ 64) in
                match tail with
                | [] => Accepted num
                | _ =>
                    match parse_int isspace 10 IF_LONG_LONG true true tail with
                    | inr _ => Rejected
                    | inl (time, []) => Rejected
                    | inl (time, tail) => time_loop fuel num time tail
                    end
                end
            end
        end
    end.

  Inductive time_arg := TimeArg (cmp : int_cmp) (num : Z) (unit : time_unit) | BadTime | TimeFuel.

  (** src/parse.c 972-1033, parse_time *)
  Definition parse_time (s : list byte) : time_arg :=
    match parse_icmp isspace true s with
    | inr _ => BadTime
    | inl (cmp, num, []) => TimeArg cmp num BFS_DAYS
    | inl (cmp, time, tail) =>
        match time_loop (length s) 0 time tail with
        | Accepted num => TimeArg cmp num BFS_SECONDS
        | Rejected => BadTime
        | Fuel => TimeFuel
        end
    end.

  (** src/parse.c 957-967, parse_min *)
  Definition parse_min (s : list byte) : time_arg :=
    match parse_icmp isspace false s with
    | inr _ => BadTime
    | inl (cmp, num, _) => TimeArg cmp num BFS_MINUTES
    end.

  (** ** src/xtime.c *)

  (** 195-208: [n] digits *)
  Fixpoint xgetpart (n : nat) (result : Z) (s : list byte) : option (Z * list byte) :=
    match n with
    | O => Some (result, s)
    | S n =>
        match s with
        | [] => None
        | c :: s => match digit 10 c with Some d => xgetpart n (result * 10 + d) s | None => None end
        end
    end.

  (** Skipping an optional separator *)
  Definition skip (cs : list byte) (s : list byte) : list byte :=
    match s with
    | c :: s' => if existsb (Byte.eqb c) cs then s' else s
    | [] => s
    end.

  (** The fields of [struct tm] as the user wrote them, and the difference from
      UTC in seconds unless the time is local *)
  Record parsed := mkParsed {
    p_year : Z; p_mon : Z; p_mday : Z; p_hour : Z; p_min : Z; p_sec : Z; p_zone : option Z
  }.

  (** 289-322, from the label [zone]; [None] is the label [invalid] *)
  Definition get_zone (s : list byte) : option (option Z) :=
    match s with
    | [] => Some None
    | "Z" :: [] => Some (Some 0)
    | "Z" :: _ => None
    | ("+" | "-") as c :: s =>
        let signed x := if Byte.eqb c "-" then - x else x in
        match xgetpart 2 0 s with
        | None => None
        | Some (tz_hour, []) => Some (Some (signed ((tz_hour * 60 + 0) * 60)))
        | Some (tz_hour, s) =>
            match xgetpart 2 0 (skip [":"] s) with
            | Some (tz_min, []) => Some (Some (signed ((tz_hour * 60 + tz_min) * 60)))
            | _ => None
            end
        end
    | _ => None
    end%byte.

  (** 265-288: a two digit field that may be missing, in which case the zone
      follows; [k] is what comes after the field *)
  Definition get_field (s : list byte) (k : Z -> list byte -> option parsed) (zone : list byte -> option parsed)
    : option parsed :=
    match s with
    | [] => zone s
    | c :: _ =>
        if Byte.eqb c ":" || (match digit 10 c with Some _ => true | None => false end)
        then match xgetpart 2 0 (skip [":"%byte] s) with Some (v, s) => k v s | None => None end
        else zone s
    end.

  (** 227-322 *)
  Definition get_date (s : list byte) : option parsed :=
    match xgetpart 4 0 s with
    | None => None
    | Some (year, s) =>
        match xgetpart 2 0 (skip ["-"%byte] s) with
        | None => None
        | Some (mon, s) =>
            match xgetpart 2 0 (skip ["-"%byte] s) with
            | None => None
            | Some (mday, s) =>
                let zone hour min sec s := option_map (mkParsed year mon mday hour min sec) (get_zone s) in
                match s with
                | [] => zone 0 0 0 s
                | _ =>
                    match xgetpart 2 0 (skip ["T"; " "]%byte s) with
                    | None => None
                    | Some (hour, s) =>
                        get_field s (fun min s =>
                          get_field s (fun sec s => zone hour min sec s) (zone hour min 0))
                          (zone hour 0 0)
                    end
                end
            end
        end
    end.

  (** 223-225, 231, 242: tm_year counts from 1900 and tm_mon from 0 *)
  Definition tm_of (p : parsed) : TmModel.tm :=
    TmModel.mkTm (p_sec p) (p_min p) (p_hour p) (p_mday p) (p_mon p - 1) (p_year p - 1900) 0 0.

  (** xmktime() on a [struct tm] with [tm_isdst = -1]; [None] is an error *)
  Variable xmktime : TmModel.tm -> option Z.

  (** 211-355; [None] is an error.  The time zone's correction at 331-336 cannot
      overflow. *)
  Definition xgetdate (s : list byte) : option timespec :=
    match s with
    | "@"%byte :: s =>
        match xstrtoll isspace false 10 s with
        | inl (value, _) => Some (mkTs value 0)
        | inr _ => None
        end
    | _ =>
        match get_date s with
        | None => None
        | Some p =>
            match p_zone p with
            | None => option_map (fun t => mkTs t 0) (xmktime (tm_of p))
            | Some offset =>
                match TmModel.xtimegm 64 (tm_of p) with
                | TmModel.Ok (_, t) => Some (mkTs (t - offset) 0)
                | _ => None
                end
            end
        end
    end.
End Arguments.
