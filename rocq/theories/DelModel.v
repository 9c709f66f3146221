(** * Model of -delete *)
From Coq Require Import List Bool Arith Init.Byte Strings.Byte.
From Verif Require Import BftwModel.
Import ListNotations.

(** What the system and the expression know about files.  Files are told apart by where
    they are ([pos]): a file that is reached on two paths is two files here. *)
Record disk := mkDisk {
  (** lstat() says that it is a directory *)
  real_dir : pos -> bool;
  (** How many entries the directory has; the entries of [p] are [k :: p] for smaller [k]. *)
  entries : pos -> nat;
  (** unlinkat() has no other reason to fail, such as missing permissions. *)
  permitted : pos -> bool }.

(** The command line: -mindepth, -maxdepth, what -exclude says, and what the tests before -delete say,
    given the files that have been removed so far *)
Record command := mkCommand {
  mindepth : nat; maxdepth : nat;
  excluded : pos -> bool;
  wants : list pos -> pos -> bool }.

Definition gone (removed : list pos) (p : pos) : bool :=
  existsb (fun q => if list_eq_dec Nat.eq_dec q p then true else false) removed.

(** unlinkat(2): directories, which must be empty then, with AT_REMOVEDIR; other files without it *)
Definition unlinkat (d : disk) (removed : list pos) (p : pos) (removedir : bool) : option (list pos) :=
  if gone removed p || negb (permitted d p) then None
  else if removedir then
    if real_dir d p && forallb (fun k => gone removed (k :: p)) (seq 0 (entries d p)) then Some (p :: removed) else None
  else if real_dir d p then None else Some (p :: removed).

(** eval.c 377-402, [eval_delete].  lstat() does not fail; errors are reported elsewhere. *)
Definition eval_delete (d : disk) (removed : list pos) (e : event) : bool * list pos :=
  if list_eq_dec byte_eq_dec (e_path e) ["."%byte] then (true, removed)
  else
    let flag := if real_dir d (e_pos e) then true else false in
    match unlinkat d removed (e_pos e) flag with
    | None => (false, removed)
    | Some removed => (true, removed)
    end.

(** eval.c 1457-1551, [eval_callback], for an expression that ends in -delete,
    with the BFTW_POST_ORDER that parse_delete() sets (parse.c 1177-1189).
    Without -unique and -X, with -S bfs or -S dfs. *)
Definition del_callback (d : disk) (c : command) (removed : list pos) (e : event) : action * list pos :=
  match e_type e with
  | BFS_ERROR => (BFTW_PRUNE, removed)
  | _ =>
    if excluded c (e_pos e) then (BFTW_PRUNE, removed)
    else
      let act := if maxdepth c <=? e_depth e then BFTW_PRUNE else BFTW_CONTINUE in
      let expected := match e_type e with
                      | BFS_DIR => if e_depth e <? maxdepth c then BFTW_POST else BFTW_PRE
                      | _ => BFTW_PRE
                      end in
      let visited := match e_visit e, expected with
                     | BFTW_PRE, BFTW_PRE | BFTW_POST, BFTW_POST => true
                     | _, _ => false
                     end in
      if visited && (mindepth c <=? e_depth e) && (e_depth e <=? maxdepth c) && wants c removed (e_pos e)
      then (act, snd (eval_delete d removed e))
      else (act, removed)
  end.
