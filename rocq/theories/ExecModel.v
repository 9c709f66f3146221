(** * Model of src/exec.c: building and running commands

    Sizes are natural numbers: size_t does not overflow, as sizes count bytes in memory.
    [None] is undefined behaviour, a failed assertion, or a size that would wrap around. *)
From Coq Require Import List Arith Bool.
From Coq Require Import Init.Byte.
From Coq Require Strings.Byte.
From Verif Require Import PathModel.
Import ListNotations.

(** NUL-terminated strings without the NUL *)
Definition arg := list byte.
Definition lbrace : byte := x7b.
Definition rbrace : byte := x7d.

(** ** Substitution *)

(** strstr(s, "{}"): the offset of the first occurrence *)
Fixpoint find_braces (s : list byte) : option nat :=
  match s with
  | [] => None
  | a :: s' =>
      match s' with
      | b :: _ => if Byte.eqb a lbrace && Byte.eqb b rbrace then Some 0 else option_map S (find_braces s')
      | [] => None
      end
  end.

(** exec.c 237-251, the loop of [bfs_exec_format_arg] and what follows.  [mem k] is whether
    the k-th operation on the dynamic string succeeds.  [Some None] is NULL. *)
Fixpoint format_loop (fuel : nat) (mem : nat -> bool) (k : nat) (path last ret : list byte) (at_ : nat) : option (option arg) :=
  match fuel with
  | 0 => None
  | S fuel =>
      if negb (mem k) then Some None
      else
        let ret := ret ++ firstn at_ last in
        if negb (mem (k + 1)) then Some None
        else
          let ret := ret ++ path in
          let last := skipn (at_ + 2) last in
          match find_braces last with
          | Some m => format_loop fuel mem (k + 2) path last ret m
          | None => if mem (k + 2) then Some (Some (ret ++ last)) else Some None
          end
  end.

(** 226-259, [bfs_exec_format_arg] *)
Definition format_arg (mem : nat -> bool) (tmpl path : list byte) : option (option arg) :=
  match find_braces tmpl with
  | None => Some (Some tmpl)
  | Some m => if mem 0 then format_loop (S (length tmpl)) mem 1 path tmpl [] m else Some None
  end.

(** ** Parsing the command *)

(** 139-164, the loop of [bfs_exec_parse]: the number of arguments in the template, and whether
    the action ends in {} + rather than in a semicolon; [None] if neither is found.  [prev] is the argument
    before [args]. *)
Fixpoint exec_scan (confirm : bool) (prev : option arg) (n : nat) (args : list arg) : option (nat * bool) :=
  match args with
  | [] => None
  | a :: rest =>
      if list_eq_dec Byte.byte_eq_dec a [x3b] then Some (n, false)
      else if (if list_eq_dec Byte.byte_eq_dec a [x2b] then true else false) &&
              negb confirm &&
              match prev with Some p => if list_eq_dec Byte.byte_eq_dec p [lbrace; rbrace] then true else false | None => false end
      then Some (n, true)
      else exec_scan confirm (Some a) (S n) rest
  end.

(** 129-198, [bfs_exec_parse]: the template and whether the action is a multi one.  [args] are the
    arguments after the action's name. *)
Definition exec_parse (confirm : bool) (args : list arg) : option (list arg * bool) :=
  match exec_scan confirm None 0 args with
  | None => None
  | Some (0, _) => None
  | Some (n, multi) =>
      if multi && existsb (fun a => match find_braces a with Some _ => true | None => false end) (firstn (n - 1) args)
      then None
      else Some (firstn n args, multi)
  end.

(** ** Running commands *)

(** 52-54, [bfs_exec_arg_size] *)
Definition arg_size (a : arg) : nat := 8 + length a + 1.

(** The result of [bfs_exec_spawn] (331-420): the command succeeded, it failed, it could not be
    run because of E2BIG, it could not be run for another reason *)
Inductive outcome := Done | Status | TooBig | Fault.

Section Exec.
(** Directories *)
Variable dir : Type.

(** bftw.h 45-87, the parts of [struct BFTW] used here: the path, the offset of the last name
    in it, and the descriptor of the directory, if that is not AT_FDCWD *)
Record file := mkFile { f_path : list byte; f_nameoff : nat; f_at : option dir }.

(** An attempt to run a command, with the arguments up to the NULL, and the working directory if it is changed *)
Record attempt := mkAttempt { t_argv : list arg; t_cwd : option dir; t_outcome : outcome }.

(** What argv[i] may hold; [Junk] is uninitialized or freed. *)
Inductive slot := Null | Arg (a : arg) | Junk.

(** exec.h 31-69, [struct bfs_exec], and the attempts made so far *)
Record exec := mkExec {
  argv : nat -> slot; argc : nat; argv_cap : nat;
  size : nat; arg_max : nat; arg_min : nat;
  wd_fd : option dir; wd_path : option (list byte); wd_len : nat;
  failed : bool; tries : list attempt }.

(** The answers of the system while a file is handled: whether the argument and a copy of the
    path can be allocated, whether the array can grow, duplicating a descriptor, and opening
    directories *)
Record world := mkWorld { w_arg : bool; w_dup : bool; w_grow : bool; w_open : list byte -> option dir }.

Variable chdir : bool.
(** The template, without the final {} of a multi action *)
Variable tmpl : list arg.
(** The answer of the system to the n-th command *)
Variable kernel : nat -> list arg -> outcome.

(** [execbuf->tmpl_argc] of a multi action *)
Definition tmpl_argc : nat := S (length tmpl).

(** Storing in argv *)
Definition put (e : exec) (i : nat) (s : slot) : option exec :=
  if i <? argv_cap e then
    Some (mkExec (fun j => if Nat.eqb j i then s else argv e j) (argc e) (argv_cap e) (size e) (arg_max e) (arg_min e)
                 (wd_fd e) (wd_path e) (wd_len e) (failed e) (tries e))
  else None.
Definition set_argc (e : exec) (n sz : nat) : exec :=
  mkExec (argv e) n (argv_cap e) sz (arg_max e) (arg_min e) (wd_fd e) (wd_path e) (wd_len e) (failed e) (tries e).
Definition set_bounds (e : exec) (mn mx : nat) : exec :=
  mkExec (argv e) (argc e) (argv_cap e) (size e) mx mn (wd_fd e) (wd_path e) (wd_len e) (failed e) (tries e).
Definition set_wd (e : exec) (fd : option dir) (p : option (list byte)) (n : nat) : exec :=
  mkExec (argv e) (argc e) (argv_cap e) (size e) (arg_max e) (arg_min e) fd p n (failed e) (tries e).
Definition set_failed (e : exec) : exec :=
  mkExec (argv e) (argc e) (argv_cap e) (size e) (arg_max e) (arg_min e) (wd_fd e) (wd_path e) (wd_len e) true (tries e).
Definition set_tries (e : exec) (l : list attempt) : exec :=
  mkExec (argv e) (argc e) (argv_cap e) (size e) (arg_max e) (arg_min e) (wd_fd e) (wd_path e) (wd_len e) (failed e) l.
Definition set_cap (e : exec) (n : nat) : exec :=
  mkExec (argv e) (argc e) n (size e) (arg_max e) (arg_min e) (wd_fd e) (wd_path e) (wd_len e) (failed e) (tries e).

(** 129-198, the state after [bfs_exec_parse] of a multi action.  [limit] is the result of [bfs_exec_arg_max]. *)
Definition exec_init (limit : nat) : exec :=
  mkExec (fun i => match nth_error tmpl i with Some a => Arg a | None => Junk end) (length tmpl) (tmpl_argc + 1)
         0 limit limit None None 0 false [].

(** 202-223, [bfs_exec_format_path], without failures of malloc() *)
Definition format_path (f : file) : arg :=
  if chdir then
    let name := skipn (f_nameoff f) (f_path f) in
    if is_slash (at_ name 0) then name else dot :: slash :: name
  else f_path f.

(** 269-312, [bfs_exec_openwd], and its success.  strndup() does not fail.  The assertion that
    at_fd is the immediate parent is a property of the walk. *)
Definition openwd (multi : bool) (w : world) (e : exec) (f : file) : option (exec * bool) :=
  match wd_fd e, wd_path e with
  | None, None =>
      match f_at f with
      | Some d =>
          if negb multi then Some (set_wd e (Some d) None (wd_len e), true)
          else if negb (w_dup w) then Some (set_wd e None None (wd_len e), false)
          else if Nat.eqb (f_nameoff f) 0 then
            if is_slash (at_ (f_path f) 0) then Some (set_wd e (Some d) (Some (firstn 1 (f_path f))) 1, true)
            else Some (set_wd e (Some d) None 0, true)
          else Some (set_wd e (Some d) (Some (firstn (f_nameoff f) (f_path f))) (f_nameoff f), true)
      | None =>
          if Nat.eqb (f_nameoff f) 0 && negb (is_slash (at_ (f_path f) 0)) then Some (set_wd e None None 0, true)
          else
            let n := if Nat.eqb (f_nameoff f) 0 then 1 else f_nameoff f in
            let p := firstn n (f_path f) in
            let fd := w_open w p in
            Some (set_wd e fd (Some p) n, match fd with Some _ => true | None => false end)
      end
  | _, _ => None
  end.

(** 315-328, [bfs_exec_closewd] *)
Definition closewd (e : exec) : exec :=
  match wd_path e with
  | Some _ => set_wd e None None 0
  | None => set_wd e None None (wd_len e)
  end.

(** The arguments that execve() sees: those before the NULL *)
Fixpoint read_argv (fuel : nat) (e : exec) (i : nat) : option (list arg) :=
  match fuel with
  | 0 => None
  | S fuel =>
      if i <? argv_cap e then
        match argv e i with
        | Null => Some []
        | Arg a => match read_argv fuel e (S i) with Some l => Some (a :: l) | None => None end
        | Junk => None
        end
      else None
  end.

(** 331-420, [bfs_exec_spawn] *)
Definition exec_spawn (e : exec) : option (exec * outcome) :=
  match read_argv (argv_cap e + 1) e 0 with
  | None => None
  | Some args =>
      let o := kernel (length (tries e)) args in
      Some (set_tries e (tries e ++ [mkAttempt args (wd_fd e) o]), o)
  end.

(** 467-469, [bfs_exec_args_remain] *)
Definition args_remain (e : exec) : bool := tmpl_argc <=? argc e.
(** 472-476, [bfs_exec_estimate_max] *)
Definition estimate_max (e : exec) : nat := arg_min e + (arg_max e - arg_min e) / 2.

(** 479-492, [bfs_exec_update_min] *)
Definition update_min (e : exec) : exec :=
  if arg_min e <? size e then set_bounds e (if arg_max e <? size e then arg_max e else size e) (arg_max e) else e.

(** 495-521, [bfs_exec_update_max]; its result is the new estimate *)
Definition update_max (e : exec) : exec :=
  let e := if size e <=? arg_min e then set_bounds e 0 (arg_max e) else e in
  let sz := size e - size e / 16 in
  if sz <? arg_max e then set_bounds e (if sz <? arg_min e then sz else arg_min e) sz else e.

(** 544-548, dropping arguments until they fit *)
Fixpoint shrink (fuel : nat) (e : exec) (new_max : nat) : option exec :=
  if new_max <? size e then
    match fuel, argc e with
    | S fuel, S n =>
        match argv e n with
        | Arg a =>
            match put e (argc e) (Arg a) with
            | None => None
            | Some e' => if size e <? arg_size a then None
                         else shrink fuel (set_argc e' n (size e - arg_size a)) new_max
            end
        | _ => None
        end
    | _, _ => None
    end
  else Some e.

(** 528-549, the first loop of [bfs_exec_flush], and the outcome of the last attempt ([Done] at first) *)
Fixpoint flush_loop (fuel : nat) (e : exec) (last : outcome) : option (exec * outcome) :=
  if args_remain e then
    match fuel with
    | 0 => None
    | S fuel =>
        match put e (argc e) Null with
        | None => None
        | Some e =>
            match exec_spawn e with
            | None => None
            | Some (e, Done) => Some (update_min e, Done)
            | Some (e, TooBig) =>
                let e := update_max e in
                match shrink (S (argc e)) e (estimate_max e) with
                | None => None
                | Some e => flush_loop fuel e TooBig
                end
            | Some (e, o) => Some (e, o)
            end
        end
    end
  else Some (e, last).

(** 552-554: freeing the [n] slots from [i] *)
Fixpoint free_slots (e : exec) (i n : nat) : option exec :=
  match n with
  | 0 => Some e
  | S n => match argv e i with
           | Arg _ => match put e i Junk with Some e => free_slots e (S i) n | None => None end
           | _ => None
           end
  end.

(** 561-569: moving or freeing the [n] unused arguments from [i] *)
Fixpoint move_slots (e : exec) (keep : bool) (i n : nat) : option exec :=
  match n with
  | 0 => Some e
  | S n =>
      match argv e i with
      | Arg a =>
          if keep then
            match put e (argc e) (Arg a) with
            | Some e => move_slots (set_argc e (argc e + 1) (size e + arg_size a)) keep (S i) n
            | None => None
            end
          else match put e i Junk with Some e => move_slots e keep (S i) n | None => None end
      | _ => None
      end
  end.

(** 524-572, [bfs_exec_flush], and the outcome of the last attempt *)
Definition flush (e : exec) : option (exec * outcome) :=
  let orig := argc e in
  match flush_loop (S (argc e)) e Done with
  | None => None
  | Some (e, o) =>
      let new_argc := argc e in
      match free_slots e (length tmpl) (new_argc - length tmpl) with
      | None => None
      | Some e =>
          let e := set_argc e (length tmpl) 0 in
          let keep := match o with Done | Status => true | _ => false end in
          match (if new_argc <? orig then move_slots e keep (new_argc + 1) (orig - new_argc) else Some e) with
          | None => None
          | Some e => Some (e, o)
          end
      end
  end.

Definition succeeded (o : outcome) : bool := match o with Done => true | _ => false end.

(** 634-636 and 675-677: flushing until no arguments remain, and whether all was well *)
Fixpoint flush_all (fuel : nat) (e : exec) (ok : bool) : option (exec * bool) :=
  if args_remain e then
    match fuel with
    | 0 => None
    | S fuel => match flush e with
                | None => None
                | Some (e, o) => flush_all fuel e (ok && succeeded o)
                end
    end
  else Some (e, ok).

(** 575-585, [bfs_exec_changed_dirs].  strncmp() compares up to the NUL: [firstn] of a path that
    is too short differs from [wd_path], whose length is [wd_len]. *)
Definition changed_dirs (e : exec) (f : file) : bool :=
  chdir &&
  ((wd_len e <? f_nameoff f) ||
   match wd_path e with
   | Some p => if list_eq_dec Byte.byte_eq_dec (firstn (wd_len e) (f_path f)) (firstn (wd_len e) p) then false else true
   | None => false
   end).

(** 588-598, [bfs_exec_would_overflow] *)
Definition would_overflow (e : exec) (a : arg) : bool := estimate_max e <? size e + arg_size a.

(** 601-617, [bfs_exec_push], and its success *)
Definition push (w : world) (e : exec) (a : arg) : option (exec * bool) :=
  match put e (argc e) (Arg a) with
  | None => None
  | Some e =>
      if argv_cap e <=? argc e + 1 then
        if w_grow w then
          let e := set_cap e (2 * argv_cap e) in Some (set_argc e (argc e + 1) (size e + arg_size a), true)
        else match put e (argc e) Junk with Some e => Some (e, false) | None => None end
      else Some (set_argc e (argc e + 1) (size e + arg_size a), true)
  end.

(** 620-657, [bfs_exec_multi], and its success *)
Definition exec_multi (w : world) (e : exec) (f : file) : option (exec * bool) :=
  if negb (w_arg w) then Some (e, false)
  else
    let a := format_path f in
    match (if changed_dirs e f then
             match flush_all (S (argc e)) e true with Some (e, ok) => Some (closewd e, ok) | None => None end
           else if would_overflow e a then
             match flush e with Some (e, o) => Some (e, succeeded o) | None => None end
           else Some (e, true)) with
    | None => None
    | Some (e, ok) =>
        match (if chdir && match wd_fd e with None => true | Some _ => false end then openwd true w e f else Some (e, true)) with
        | None => None
        | Some (e, false) => Some (e, false)
        | Some (e, true) => match push w e a with
                            | None => None
                            | Some (e, pushed) => Some (e, ok && pushed)
                            end
        end
    end.

(** 659-671, [bfs_exec] for a multi action *)
Definition exec_file (w : world) (e : exec) (f : file) : option exec :=
  match exec_multi w e f with
  | None => None
  | Some (e, ok) => Some (if ok then e else set_failed e)
  end.

(** 673-684, [bfs_exec_finish] *)
Definition exec_finish (e : exec) : option exec :=
  match flush_all (S (argc e)) e true with
  | None => None
  | Some (e, ok) => Some (if ok then e else set_failed e)
  end.

(** All files, then the end *)
Fixpoint exec_files (e : exec) (fs : list (file * world)) : option exec :=
  match fs with
  | [] => exec_finish e
  | (f, w) :: fs => match exec_file w e f with Some e => exec_files e fs | None => None end
  end.

(** 423-464, [bfs_exec_single].  [mem] as in [format_arg]; the result is the attempt, if one is made. *)
Definition exec_single (full : list arg) (w : world) (mem : nat -> bool) (e : exec) (f : file) : option (option attempt) :=
  if negb (w_arg w) then Some None
  else
    let fix go (l : list arg) : option (option (list arg)) :=
      match l with
      | [] => Some (Some [])
      | a :: l => match format_arg mem a (format_path f) with
                  | None => None
                  | Some None => Some None
                  | Some (Some a) => match go l with
                                     | Some (Some l) => Some (Some (a :: l))
                                     | r => r
                                     end
                  end
      end in
    match go full with
    | None => None
    | Some None => Some None
    | Some (Some args) =>
        match (if chdir then openwd false w e f else Some (e, true)) with
        | None => None
        | Some (e, false) => Some None
        | Some (e, true) => Some (Some (mkAttempt args (wd_fd e) (kernel 0 args)))
        end
    end.
End Exec.
