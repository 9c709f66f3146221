(** * Model of src/parse.c 1884-2144 and src/eval.c 656-684: -perm

    Modes are numbers; [mode_t] has at least 12 bits, and complements are only used in
    intersections.  Strings have no NUL; the empty list is the terminator. *)
From Coq Require Import List ZArith NArith Arith Bool.
From Coq Require Import Init.Byte Strings.Byte.
From Verif Require Import NumModel.
Import ListNotations.
Local Open Scope N_scope.

(** Octal constants *)
Definition o7 : N := 7.
Definition o70 : N := 56.
Definition o700 : N := 448.
Definition o777 : N := 511.
Definition o444 : N := 292.
Definition o222 : N := 146.
Definition o111 : N := 73.
Definition o7777 : N := 4095.
Definition S_ISUID : N := 2048.
Definition S_ISGID : N := 1024.
Definition S_ISVTX : N := 512.

(** parse.c 1921-1928 *)
Inductive mode_state := MODE_CLAUSE | MODE_WHO | MODE_ACTION | MODE_ACTION_APPLY | MODE_OP | MODE_PERM.
(** 1930-1934 *)
Inductive mode_op := MODE_PLUS | MODE_MINUS | MODE_EQUALS.

(** The variables of [parse_mode] *)
Record vars := mkVars {
  state : mode_state; op : mode_op; who : N; mask : N; file_change : N; dir_change : N; file_mode : N; dir_mode : N }.
Definition set_state (v : vars) (s : mode_state) : vars :=
  mkVars s (op v) (who v) (mask v) (file_change v) (dir_change v) (file_mode v) (dir_mode v).
Definition set_op (v : vars) (o : mode_op) : vars :=
  mkVars MODE_OP o (who v) (mask v) (file_change v) (dir_change v) (file_mode v) (dir_mode v).
Definition set_who (v : vars) (w m : N) : vars :=
  mkVars (state v) (op v) w m (file_change v) (dir_change v) (file_mode v) (dir_mode v).
Definition set_change (v : vars) (f d : N) : vars :=
  mkVars (state v) (op v) (who v) (mask v) f d (file_mode v) (dir_mode v).
Definition set_mode (v : vars) (f d : N) : vars :=
  mkVars (state v) (op v) (who v) (mask v) (file_change v) (dir_change v) f d.

(** What one iteration of the loop does: it goes on with the next character, or with the
    same one ([continue]); it ends in [done] or [fail]. *)
Inductive next := Advance (v : vars) | Again (v : vars) | Done (v : vars) | Fail.

(** 1952-1970 *)
Definition step_who (v : vars) (c : byte) : next :=
  match c with
  | "u" => Advance (set_who v (N.lor (who v) o700) (mask v))
  | "g" => Advance (set_who v (N.lor (who v) o70) (mask v))
  | "o" => Advance (set_who v (N.lor (who v) o7) (mask v))
  | "a" => Advance (set_who v (N.lor (who v) o777) (mask v))
  | _ => Again (set_state v MODE_ACTION)
  end%byte.

(** 1972-1986 *)
Definition apply_action (v : vars) : vars :=
  match op v with
  | MODE_EQUALS => set_mode v (N.lor (N.ldiff (file_mode v) (who v)) (file_change v))
                              (N.lor (N.ldiff (dir_mode v) (who v)) (dir_change v))
  | MODE_PLUS => set_mode v (N.lor (file_mode v) (file_change v)) (N.lor (dir_mode v) (dir_change v))
  | MODE_MINUS => set_mode v (N.ldiff (file_mode v) (file_change v)) (N.ldiff (dir_mode v) (dir_change v))
  end.

(** 1989-2027.  [applied] is [state == MODE_ACTION_APPLY]. *)
Definition step_action (umask : N) (applied : bool) (v : vars) (c : byte) : next :=
  let v := if who v =? 0 then set_who v o777 (N.ldiff o777 umask) else set_who v (who v) (who v) in
  match c with
  | "+" => Advance (set_op v MODE_PLUS)
  | "-" => Advance (set_op v MODE_MINUS)
  | "=" => Advance (set_op v MODE_EQUALS)
  | "," => if applied then Advance (set_state v MODE_CLAUSE) else Fail
  | x00 => if applied then Done v else Fail
  | _ => Fail
  end%byte.

(** 2029-2055 *)
Definition spread (v : vars) (f d : N) : next :=
  let copies x := N.land (N.lor x (N.lor (N.shiftl x 6) (N.shiftl x 3))) (mask v) in
  Advance (set_state (set_change v (copies f) (copies d)) MODE_ACTION_APPLY).
Definition step_op (v : vars) (c : byte) : next :=
  match c with
  | "u" => spread v (N.land (N.shiftr (file_mode v) 6) o7) (N.land (N.shiftr (dir_mode v) 6) o7)
  | "g" => spread v (N.land (N.shiftr (file_mode v) 3) o7) (N.land (N.shiftr (dir_mode v) 3) o7)
  | "o" => spread v (N.land (file_mode v) o7) (N.land (dir_mode v) o7)
  | _ => Again (set_state (set_change v 0 0) MODE_PERM)
  end%byte.

(** 2057-2093 *)
Definition add_change (v : vars) (f d : N) : vars := set_change v (N.lor (file_change v) f) (N.lor (dir_change v) d).
Definition step_perm (v : vars) (c : byte) : next :=
  match c with
  | "r" => Advance (add_change v (N.land (mask v) o444) (N.land (mask v) o444))
  | "w" => Advance (add_change v (N.land (mask v) o222) (N.land (mask v) o222))
  | "x" => Advance (add_change v (N.land (mask v) o111) (N.land (mask v) o111))
  | "X" => Advance (add_change v 0 (N.land (mask v) o111))
  | "s" =>
      let v := if (N.land (who v) o700 =? 0)%N then v else add_change v S_ISUID S_ISUID in
      Advance (if (N.land (who v) o70 =? 0)%N then v else add_change v S_ISGID S_ISGID)
  | "t" => Advance (if (N.land (who v) o7 =? 0)%N then v else add_change v S_ISVTX S_ISVTX)
  | _ => Again (set_state v MODE_ACTION_APPLY)
  end%byte.

(** 1943-2097, one iteration *)
Definition step (umask : N) (v : vars) (c : byte) : next :=
  match state v with
  | MODE_CLAUSE => step_who (set_state (set_who v 0 o777) MODE_WHO) c
  | MODE_WHO => step_who v c
  | MODE_ACTION_APPLY => step_action umask true (apply_action v) c
  | MODE_ACTION => step_action umask false v c
  | MODE_OP => step_op v c
  | MODE_PERM => step_perm v c
  end.

(** 1942-2106, the loop.  [None] if it does not end, or reads past the terminator. *)
Fixpoint loop (fuel : nat) (umask : N) (v : vars) (s : list byte) : option (option (N * N)) :=
  match fuel with
  | O => None
  | S fuel =>
      match step umask v (hd x00 s) with
      | Advance v => match s with [] => None | _ :: s => loop fuel umask v s end
      | Again v => loop fuel umask v s
      | Done v => Some (Some (file_mode v, dir_mode v))
      | Fail => Some None
      end
  end.

(** 1884-2107, [parse_mode]: the modes for files and for directories, if the string is valid.
    The variables that are not initialised are 0 here. *)
Definition init : vars := mkVars MODE_CLAUSE MODE_EQUALS 0 0 0 0 0 0.
Definition parse_mode (isspace : byte -> bool) (umask : N) (s : list byte) : option (option (N * N)) :=
  if is_digit s then
    match parse_int isspace 8 IF_INT true false s with
    | inl (n, _) => if (4095 <? n)%Z then Some None else Some (Some (Z.to_N n, Z.to_N n))
    | inr _ => Some None
    end
  else loop (3 * length s + 5)%nat umask init s.

(** 2112-2144, [parse_perm] *)
Inductive mode_cmp := BFS_MODE_EQUAL | BFS_MODE_ALL | BFS_MODE_ANY.
Definition parse_perm (isspace : byte -> bool) (umask : N) (s : list byte) : option (option (mode_cmp * N * N)) :=
  let '(cmp, t) := match s with
                   | "-" :: t => (BFS_MODE_ALL, t)
                   | "/" :: t => (BFS_MODE_ANY, t)
                   | "+" :: t => if is_digit t then (BFS_MODE_ANY, t) else (BFS_MODE_EQUAL, s)
                   | _ => (BFS_MODE_EQUAL, s)
                   end%byte in
  match parse_mode isspace umask t with
  | Some (Some (f, d)) => Some (Some (cmp, f, d))
  | Some None => Some None
  | None => None
  end.

(** eval.c 656-684, [eval_perm], when stat() succeeds.  C's [!] of a mode is whether it is 0. *)
Definition eval_perm (cmp : mode_cmp) (file_mode dir_mode : N) (is_dir : bool) (mode : N) : bool :=
  let target := if is_dir then dir_mode else file_mode in
  match cmp with
  | BFS_MODE_EQUAL => N.land mode o7777 =? target
  | BFS_MODE_ALL => N.land mode target =? target
  | BFS_MODE_ANY => Bool.eqb (N.land mode target =? 0) (target =? 0)
  end.
