(** * Output files and the exit status (src/ctx.c 94-290, src/parse.c 335-370, 3865-3880, src/eval.c 56-122, 440-447, 800-880, 1698-1796, src/main.c 144-151)

    A [CFILE] is a number: 0 is [ctx->cout], 1 is [ctx->cerr].  The trie of files is a list of
    pairs with distinct keys in the order of insertion, as C01 says; ids all have the same length.
    Allocations succeed.  What the system does is in the arguments of the operations. *)
From Coq Require Import List Arith ZArith Bool Init.Byte.
Import ListNotations.
Local Open Scope nat_scope.

(** [FILE], with the bytes that write(2) has [accepted] for it *)
Record stream := mkStream { accepted : list byte; pending : list byte; ferror : bool }.
(** A call of fwrite(), fprintf() or fflush() that succeeds after [n] bytes more were written, or
    fails after [n] bytes; the rest may or may not be kept for the next time. *)
Inductive outcome := Accept (n : nat) | Refuse (n : nat) (keep : bool).
Definition succeeds (o : outcome) : bool := match o with Accept _ => true | Refuse _ _ => false end.

Definition fwrite (s : stream) (data : list byte) (o : outcome) : stream :=
  let all := pending s ++ data in
  match o with
  | Accept n => mkStream (accepted s ++ firstn n all) (skipn n all) (ferror s)
  | Refuse n keep => mkStream (accepted s ++ firstn n all) (if keep then skipn n all else []) true
  end.
Definition fflush (s : stream) (o : outcome) : stream :=
  match o with
  | Accept _ => mkStream (accepted s ++ pending s) [] (ferror s)
  | Refuse n keep => mkStream (accepted s ++ firstn n (pending s)) (if keep then skipn n (pending s) else []) true
  end.
Definition clearerr (s : stream) : stream := mkStream (accepted s) (pending s) false.
Definition empty : stream := mkStream [] [] false.

(** src/ctx.c 94-105, [struct bfs_ctx_file]; [error] is error != 0.  The hook is left out. *)
Record ctx_file := mkFile { cfile : nat; path : option (list byte); error : bool }.
(** The part of [struct bfs_ctx] that is used here *)
Record ctx := mkCtx { streams : list stream; files : list (nat * ctx_file); nfiles : nat; ignore_errors : bool }.
Definition cout : nat := 0.
Definition cerr : nat := 1.

Definition stream_of (c : ctx) (k : nat) : stream := nth k (streams c) empty.
Definition set_stream (c : ctx) (k : nat) (s : stream) : ctx :=
  mkCtx (firstn k (streams c) ++ s :: skipn (S k) (streams c)) (files c) (nfiles c) (ignore_errors c).

(** src/ctx.c 113-160; [id] is what bfs_stat() says about cfile->fd. *)
Fixpoint set_path (l : list (nat * ctx_file)) (id : nat) (p : option (list byte)) : option (nat * list (nat * ctx_file)) :=
  match l with
  | [] => None
  | (i, f) :: l =>
      if i =? id then Some (cfile f, (i, mkFile (cfile f) p (error f)) :: l)
      else match set_path l id p with Some (k, l) => Some (k, (i, f) :: l) | None => None end
  end.
Definition dedup (c : ctx) (k id : nat) (p : option (list byte)) : ctx * nat :=
  match set_path (files c) id p with
  | Some (k', l) => (mkCtx (streams c) l (nfiles c) (ignore_errors c), k')
  | None =>
      (mkCtx (streams c) (files c ++ [(id, mkFile k p false)])
         (if negb (k =? cout) && negb (k =? cerr) then S (nfiles c) else nfiles c) (ignore_errors c), k)
  end.

(** src/parse.c 335-370.  A second stream for the same file is closed, with nothing in it. *)
Definition expr_open (c : ctx) (id : nat) (p : list byte) : ctx * nat :=
  let k := length (streams c) in
  dedup (mkCtx (streams c ++ [empty]) (files c) (nfiles c) (ignore_errors c)) k id (Some p).

(** src/parse.c 3865-3880 *)
Definition ctx_new (ign : bool) (out err : nat) : ctx :=
  let c := mkCtx [empty; empty] [] 0 ign in
  let (c, _) := dedup c cout out None in
  let (c, _) := dedup c cerr err None in
  c.
Fixpoint open_all (c : ctx) (l : list (list byte * nat)) : ctx * list nat :=
  match l with
  | [] => (c, [])
  | (p, id) :: l => let (c, k) := expr_open c id p in let (c, ks) := open_all c l in (c, k :: ks)
  end.

(** A message on [cerr]: its text and what comes of writing it *)
Definition msg : Type := list byte * outcome.
Definition say (c : ctx) (m : msg) : ctx := set_stream c cerr (fwrite (stream_of c cerr) (fst m) (snd m)).

Definition EXIT_SUCCESS : Z := 0.
Definition EXIT_FAILURE : Z := 1.
(** [struct bfs_eval]: the context and [ret] *)
Record state := mkState { context : ctx; ret : Z }.

(** src/eval.c 72-91 *)
Definition eval_error (s : state) (m : msg) : state :=
  if ignore_errors (context s) then s else mkState (say (context s) m) EXIT_FAILURE.
(** 113-122 *)
Definition eval_io_error (s : state) (k : nat) (m : msg) : state :=
  let s := eval_error s m in
  mkState (set_stream (context s) k (clearerr (stream_of (context s) k))) (ret s).

(** 736-880, the actions that print: pieces are written until one fails. *)
Fixpoint write_all (c : ctx) (k : nat) (l : list (list byte * outcome)) : ctx * bool :=
  match l with
  | [] => (c, true)
  | (d, o) :: l =>
      let c := set_stream c k (fwrite (stream_of c k) d o) in
      if succeeds o then write_all c k l else (c, false)
  end.
Definition eval_print (s : state) (k : nat) (l : list (list byte * outcome)) (m : msg) : state :=
  match write_all (context s) k l with
  | (c, true) => mkState c (ret s)
  | (c, false) => eval_io_error (mkState c (ret s)) k m
  end.

(** src/ctx.c 162-192; the pwcache is left out.  [o] and [m] give the outcome and the message for each stream. *)
Fixpoint set_error (l : list (nat * ctx_file)) (id : nat) : list (nat * ctx_file) :=
  match l with
  | [] => []
  | (i, f) :: l => if i =? id then (i, mkFile (cfile f) (path f) true) :: l else (i, f) :: set_error l id
  end.
Definition is_some {A} (x : option A) : bool := match x with Some _ => true | None => false end.
Fixpoint flush_files (c : ctx) (l : list (nat * ctx_file)) (o : nat -> outcome) (m : nat -> msg) : ctx :=
  match l with
  | [] => c
  | (id, f) :: l =>
      let k := cfile f in
      let c := set_stream c k (fflush (stream_of c k) (o k)) in
      let c :=
        if succeeds (o k) then c
        else
          let c := mkCtx (streams c) (set_error (files c) id) (nfiles c) (ignore_errors c) in
          let c := set_stream c k (clearerr (stream_of c k)) in
          if is_some (path f) || (k =? cout) then say c (m k) else c in
      flush_files c l o m
  end.
Definition ctx_flush (c : ctx) (o : nat -> outcome) (m : nat -> msg) : ctx := flush_files c (files c) o m.

(** What happens during a run: an action prints to its stream; an error of another kind; a warning; an error that
    bftw() or the commands of -exec report at the end (1770-1778); a command is executed; -exit *)
Inductive event :=
| Print (k : nat) (l : list (list byte * outcome)) (m : msg)
| Error (m : msg)
| Warning (m : msg)
| Failure (m : msg)
| Command (o : nat -> outcome) (m : nat -> msg)
| Exit (n : Z).
Definition step (s : state) (e : event) : state :=
  match e with
  | Print k l m => eval_print s k l m
  | Error m => eval_error s m
  | Warning m => mkState (say (context s) m) (ret s)
  | Failure m => mkState (say (context s) m) EXIT_FAILURE
  | Command o m => mkState (ctx_flush (context s) o m) (ret s)
  | Exit n => mkState (context s) n
  end.
(** 1698-1796 *)
Definition bfs_eval (c : ctx) (l : list event) : state := fold_left step l (mkState c EXIT_SUCCESS).

(** src/ctx.c 194-256.  [o] is the outcome of fflush(), [o'] that of fclose(); the result is ret == 0. *)
Definition ctx_fclose (c : ctx) (f : ctx_file) (o o' : outcome) (m : msg) : ctx * bool :=
  let k := cfile f in
  let silent := (k =? cerr) && negb (is_some (path f)) in
  let bad := error f in
  let bad := bad || ferror (stream_of c k) || negb (succeeds o) in
  let c := set_stream c k (fflush (stream_of c k) o) in
  let '(c, bad) :=
    if negb (k =? cout) && negb (k =? cerr)
    then (set_stream c k (fflush (stream_of c k) o'), bad || negb (succeeds o'))
    else (c, bad) in
  let bad := if silent then false else bad in
  let c := if bad && (is_some (path f) || (k =? cout)) then say c m else c in
  (c, negb bad).
(** 258-290 *)
Fixpoint close_files (c : ctx) (l : list (nat * ctx_file)) (o o' : nat -> outcome) (m : nat -> msg) : ctx * bool :=
  match l with
  | [] => (c, true)
  | (_, f) :: l =>
      let '(c, ok) := ctx_fclose c f (o (cfile f)) (o' (cfile f)) (m (cfile f)) in
      let '(c, ok') := close_files c l o o' m in
      (c, ok && ok')
  end.
Definition ctx_free (c : ctx) (o o' : nat -> outcome) (m : nat -> msg) : ctx * bool := close_files c (files c) o o' m.

(** src/main.c 144-151.  Only the low eight bits of the status can be seen. *)
Definition run (c : ctx) (l : list event) (o o' : nat -> outcome) (m : nat -> msg) : ctx * Z :=
  let s := bfs_eval c l in
  let '(c, ok) := ctx_free (context s) o o' m in
  let r := if negb ok && (ret s =? EXIT_SUCCESS)%Z then EXIT_FAILURE else ret s in
  (c, (r mod 256)%Z).
