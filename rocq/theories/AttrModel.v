(** * ACLs, capabilities, extended attributes and security contexts

    src/fsade.c, and the tests in src/eval.c that use it, on Linux. *)
From Coq Require Import List ZArith Bool String Init.Byte.
Import ListNotations.
Local Open Scope Z_scope.

(** The values of [errno] that matter; ENOATTR is ENODATA. *)
Inductive errno := ENOTSUP | ENODATA | EINVAL | E2BIG | Other (n : nat).

(** [struct BFTW], as far as it matters here.  [at_fd] is [None] for AT_FDCWD; [is_link] and [is_dir] say whether the type is BFS_LNK or BFS_DIR. *)
Record ftwbuf := mkFtw { path : list byte; at_fd : option Z; at_path : list byte; is_link : bool; is_dir : bool }.

(** An entry of an ACL, or the error of acl_get_tag_type().  acl_get_entry() fails only for invalid arguments, so it does not here. *)
Inductive tag := USER_OBJ | GROUP_OBJ | OTHER | USER | GROUP | MASK.
Definition acl : Type := list (tag + errno).
Inductive acl_type := ACL_TYPE_ACCESS | ACL_TYPE_DEFAULT.

(** The system.  [printf_d] is %d of printf().  [access] is xfaccessat() with F_OK.  The other functions are called with a path and, as their names
    may begin with an l, with whether to follow it if it is a link; those without such a variant do follow it.  [cap_get_file] gives what cap_to_text() says, which may fail,
    too; the sizes of attributes are not negative. *)
Record system := mkSystem {
  printf_d : Z -> list byte;
  access : list byte -> bool;
  acl_get_file : list byte -> acl_type -> acl + errno;
  cap_get_file : list byte -> (list byte + errno) + errno;
  listxattr : bool -> list byte -> nat + errno;
  getxattr : bool -> list byte -> list byte -> nat + errno;
  getfilecon : bool -> list byte -> list byte + errno }.

(** What is shared: [proc_works] (52), and the number of strings that are allocated.  [mem1] and [mem2] say whether dstrprintf() and dstrcat() find memory. *)
Record shared := mkShared { proc_works : Z; live : nat }.

(** "/proc/self/fd/" *)
Definition proc_self_fd : list byte := list_byte_of_string "/proc/self/fd/".

(** 51-82: the path, whether it was allocated, and [proc_works] and the allocated strings *)
Definition fake_at (w : system) (mem1 mem2 : bool) (f : ftwbuf) (st : shared) : list byte * bool * shared :=
  match at_fd f with
  | None => (path f, false, st)
  | Some fd =>
      if proc_works st =? 0 then (path f, false, st)
      else if negb mem1 then (path f, false, st)
      else
        let p := proc_self_fd ++ printf_d w fd ++ ["/"%byte] in
        let '(ok, works) :=
          if proc_works st <? 0 then
            if negb (access w p) then (false, 0) else (true, 1)
          else (true, proc_works st) in
        if negb ok then (path f, false, mkShared works (live st))
        else if negb mem2 then (path f, false, mkShared works (live st))
        else (p ++ at_path f, true, mkShared works (S (live st)))
  end.

(** 85-89 *)
Definition free_fake_at (owned : bool) (st : shared) : shared :=
  if owned then mkShared (proc_works st) (live st - 1) else st.

(** 95-130 *)
Definition is_absence_error (e : errno) : bool :=
  match e with
  | ENOTSUP => true
  | ENODATA => true
  | EINVAL => true
  | _ => false
  end.

(** 188-214: [ret] and [errno] *)
Fixpoint bfs_check_posix1e_acl (a : acl) (ignore_required : bool) (ret : Z) (err : errno) : Z * errno :=
  match a with
  | [] => (ret, err)
  | e :: a =>
      if ignore_required then
        match e with
        | inr x => bfs_check_posix1e_acl a ignore_required (-1) x
        | inl (USER_OBJ | GROUP_OBJ | OTHER) => bfs_check_posix1e_acl a ignore_required ret err
        | inl _ => (1, err)
        end
      else (1, err)
  end.

(** 217-240, without acl_is_trivial_np() *)
Definition bfs_check_acl_type (a : acl) (type : acl_type) (err : errno) : Z * errno :=
  match type with
  | ACL_TYPE_DEFAULT => bfs_check_posix1e_acl a false 0 err
  | ACL_TYPE_ACCESS => bfs_check_posix1e_acl a true 0 err
  end.

(** 269-292: the loop over the types *)
Fixpoint acl_loop (w : system) (f : ftwbuf) (p : list byte) (types : list acl_type) (ret : Z) (err : errno) : Z * errno :=
  match types with
  | [] => (ret, err)
  | type :: types =>
      if ret <=? 0 then
        if match type with ACL_TYPE_DEFAULT => negb (is_dir f) | _ => false end then acl_loop w f p types ret err
        else
          match acl_get_file w p type with
          | inr e => acl_loop w f p types (if is_absence_error e then 0 else ret) e
          | inl a => let '(ret, err) := bfs_check_acl_type a type err in acl_loop w f p types ret err
          end
      else (ret, err)
  end.

(** What a test gives: whether it is true, the error that it reports, and the state *)
Definition result : Type := bool * option errno * shared.
(** src/eval.c 198-219, 993-1014: [ret >= 0] or an error *)
Definition report (r : Z * errno) (st : shared) : result :=
  if fst r >=? 0 then (negb (fst r =? 0), None, st) else (false, Some (snd r), st).

(** 244-299 and src/eval.c 198-206.  The errno that the first iteration begins with is of no importance. *)
Definition eval_acl (w : system) (mem1 mem2 : bool) (f : ftwbuf) (st : shared) : result :=
  if is_link f then report (0, ENOTSUP) st
  else
    let '(p, owned, st) := fake_at w mem1 mem2 f st in
    let r := acl_loop w f p [ACL_TYPE_ACCESS; ACL_TYPE_DEFAULT] (-1) ENOTSUP in
    report r (free_fake_at owned st).

(** 312-345 and src/eval.c 211-219 *)
Definition eval_capable (w : system) (mem1 mem2 : bool) (f : ftwbuf) (st : shared) : result :=
  if is_link f then report (0, ENOTSUP) st
  else
    let '(p, owned, st) := fake_at w mem1 mem2 f st in
    let r :=
      match cap_get_file w p with
      | inr e => (if is_absence_error e then 0 else -1, e)
      | inl (inr e) => (-1, e)
      | inl (inl text) => (match text with [] => 0 | _ => 1 end, ENOTSUP)
      end in
    report r (free_fake_at owned st).

(** 406-440 and src/eval.c 993-1001 *)
Definition eval_xattr (w : system) (mem1 mem2 : bool) (f : ftwbuf) (st : shared) : result :=
  let '(p, owned, st) := fake_at w mem1 mem2 f st in
  let len := if is_link f then listxattr w false p else listxattr w true p in
  let st := free_fake_at owned st in
  report
    match len with
    | inl (S _) => (1, ENOTSUP)
    | inl O => (0, ENOTSUP)
    | inr e => if is_absence_error e then (0, e) else match e with E2BIG => (1, e) | _ => (-1, e) end
    end st.

(** 442-476 and src/eval.c 1006-1014 *)
Definition eval_xattrname (w : system) (mem1 mem2 : bool) (name : list byte) (f : ftwbuf) (st : shared) : result :=
  let '(p, owned, st) := fake_at w mem1 mem2 f st in
  let len := if is_link f then getxattr w false p name else getxattr w true p name in
  let st := free_fake_at owned st in
  report
    match len with
    | inl _ => (1, ENOTSUP)
    | inr e => if is_absence_error e then (0, e) else match e with E2BIG => (1, e) | _ => (-1, e) end
    end st.

(** 492-513 and src/eval.c 224-234: [fnmatch] is eval_fnmatch() with the pattern.  The path is not freed. *)
Definition eval_context (w : system) (fnmatch : list byte -> bool) (mem1 mem2 : bool) (f : ftwbuf) (st : shared) : result :=
  let '(p, owned, st) := fake_at w mem1 mem2 f st in
  let con := if is_link f then getfilecon w false p else getfilecon w true p in
  match con with
  | inl con => (fnmatch con, None, st)
  | inr e => (false, Some e, st)
  end.
