(** * The file tree walk

    Models src/bftw.c: the queues (377-541), the creation and release of files (719-805, 1852-1911),
    the reported paths (700-706, 1541-1592), the callback (1679-1849), and the main loop with all
    the functions that it calls (986-1089, 1301-1540, 1613-1660, 1952-2146).

    A file is known by a number that stands for the address of its [struct bftw_file].  Numbers are
    never reused; using one after it has been freed is [None], like a failed assertion, reading
    before the beginning of a string, the corruption of a list whose links are shared with another
    list, and a loop that runs out of fuel.

    What the operating system does is given by an environment: the directory entries as they
    are returned by readdir(), whether reading a directory ends in an error, the type that is found
    for a file when it is visited.  The I/O queue is a set of requests, any of which may finish
    whenever a response is waited for.

    The cache of open directories (547-716) is not part of this model.  Where it decides something, an
    oracle does so here: whether a directory can be opened in the background, whether some responses of the
    I/O queue have to be awaited first, whether there is anything to close and whether that is done in
    the background.  So does the balance of QBALANCE queues.  Allocations succeed, other than those that have a
    fallback. *)
From Coq Require Import List Bool Arith Init.Byte.
From Verif Require Import PathModel SortModel WalkSpec.
Import ListNotations.

Notation "' p <- e ;; f" := (match e with Some p => f | None => None end)
  (at level 61, p pattern, e at next level, right associativity).

(** What a directory entry is: its name and, if it is a directory, whether opening or reading it
    ends with an error.  Its contents are the entries that are read before that. *)
Record info := { name : list byte; broken : bool }.
(** Where a file is: the number of the entry in its directory, then where that directory is.  The
    last number is that of the root path. *)
Definition pos := list nat.

(** src/bfs.h, [enum bfs_type], as far as it matters here *)
Inductive ftype := BFS_ERROR | BFS_DIR | BFS_OTHER (t : nat).
(** src/bftw.h 17-22, 122-132, 175-185.  [BFTW_DEEPEN] is both BFTW_IDS and BFTW_EDS; the file tree walk does not
    distinguish these. *)
Inductive visit := BFTW_PRE | BFTW_POST.
Inductive action := BFTW_CONTINUE | BFTW_PRUNE | BFTW_STOP.
Inductive strategy := BFTW_BFS | BFTW_DFS | BFTW_DEEPEN.

(** src/bftw.h 51-80, [struct BFTW].  [e_pos] takes the place of [at_fd] and the stat buffers. *)
Record event := { e_pos : pos; e_visit : visit; e_type : ftype; e_depth : nat; e_path : list byte; e_nameoff : nat }.

(** 226-236 *)
Record qflags := { qbalance : bool; qbuffer : bool; qlifo : bool; qorder : bool }.
(** 360-377.  [size] and [ioqueued] are not reduced below zero. *)
Record queue := { buffer : list nat; waiting : list nat; ready : list nat; size : nat; ioqueued : nat }.
(** 379-388 *)
Definition queue_init : queue := {| buffer := []; waiting := []; ready := []; size := 0; ioqueued := 0 |}.

(** 196-257.  The reference counts and the [ioqueued] flags are kept apart, see [refs] and [busy]. *)
Record file := { f_id : nat; f_parent : option nat; f_pos : pos; f_node : tree info; f_nameoff : nat }.
Definition f_info (f : file) : info := let 'Node i _ := f_node f in i.
Definition f_kids (f : file) : list (tree info) := let 'Node _ kids := f_node f in kids.
Definition f_name (f : file) : list byte := name (f_info f).
Definition f_depth (f : file) : nat := length (f_pos f) - 1.

(** Requests to the I/O queue that have not been answered *)
Inductive request := ROpen (x : nat) | RStat (x : nat) | RClose.

(** The arguments of bftw() (src/bftw.h 170-200), the files, and the oracles *)
Record env (U : Type) := {
  strat : strategy;
  fl_sort : bool; fl_buffer : bool; fl_stat : bool; fl_post_order : bool; fl_recover : bool;
  fl_skip_mounts : bool; fl_prune_mounts : bool;
  nthreads : nat;
  roots : list (tree info);
  callback : U -> event -> action * U;
  (** [strcoll(x, y) <= 0] *)
  collate : list byte -> list byte -> bool;
  (** 1426-1452, [bftw_must_stat] *)
  must_stat : pos -> bool;
  (** Files that look like whiteouts *)
  whiteout : pos -> bool;
  (** Whether a file is on another device than the directory that it is in *)
  mounted : pos -> bool;
  (** The type that [bftw_init_ftwbuf] finds, at some point in time *)
  look : nat -> pos -> ftype;
  (** Any other choice *)
  choose : nat -> nat;
  (** The contents of fresh memory *)
  junk : byte }.
Arguments strat {U}. Arguments fl_sort {U}. Arguments fl_buffer {U}. Arguments fl_stat {U}. Arguments fl_post_order {U}.
Arguments fl_recover {U}. Arguments fl_skip_mounts {U}. Arguments fl_prune_mounts {U}. Arguments nthreads {U}. Arguments roots {U}.
Arguments callback {U}. Arguments collate {U}. Arguments must_stat {U}. Arguments whiteout {U}. Arguments mounted {U}. Arguments look {U}. Arguments choose {U}.
Arguments junk {U}.

(** 810-863, [struct bftw_state] *)
Record state (U : Type) := {
  files : list file; next_id : nat;
  refs : nat -> nat;        (* file->refcount *)
  busy : list nat;          (* the files with file->ioqueued *)
  fileq : queue; dirq : queue;
  cur : option nat;         (* state->file *)
  direrror : bool;
  to_close : list nat;
  inflight : list request;
  previous : option nat;
  path : list byte;
  failed : bool;            (* state->error *)
  clock : nat;              (* how often the oracles were asked *)
  user : U;                 (* what state->ptr points to *)
  trace : list (event * action)   (* the calls of the callback, latest first *) }.
Arguments files {U}. Arguments next_id {U}. Arguments refs {U}. Arguments busy {U}. Arguments fileq {U}. Arguments dirq {U}. Arguments cur {U}. Arguments direrror {U}.
Arguments to_close {U}. Arguments inflight {U}. Arguments previous {U}. Arguments path {U}. Arguments failed {U}. Arguments clock {U}.
Arguments user {U}. Arguments trace {U}.

Section Walk.
  Context {U : Type}.
  Variable w : env U.
  Notation state := (state U).

  Definition set_files (v : list file) (s : state) : state :=
    {| files := v; next_id := next_id s; refs := refs s; busy := busy s; fileq := fileq s; dirq := dirq s; cur := cur s; direrror := direrror s; to_close := to_close s; inflight := inflight s; previous := previous s; path := path s; failed := failed s; clock := clock s; user := user s; trace := trace s |}.
  Definition set_next_id (v : nat) (s : state) : state :=
    {| files := files s; next_id := v; refs := refs s; busy := busy s; fileq := fileq s; dirq := dirq s; cur := cur s; direrror := direrror s; to_close := to_close s; inflight := inflight s; previous := previous s; path := path s; failed := failed s; clock := clock s; user := user s; trace := trace s |}.
  Definition set_refs (v : nat -> nat) (s : state) : state :=
    {| files := files s; next_id := next_id s; refs := v; busy := busy s; fileq := fileq s; dirq := dirq s; cur := cur s; direrror := direrror s; to_close := to_close s; inflight := inflight s; previous := previous s; path := path s; failed := failed s; clock := clock s; user := user s; trace := trace s |}.
  Definition set_busy (v : list nat) (s : state) : state :=
    {| files := files s; next_id := next_id s; refs := refs s; busy := v; fileq := fileq s; dirq := dirq s; cur := cur s; direrror := direrror s; to_close := to_close s; inflight := inflight s; previous := previous s; path := path s; failed := failed s; clock := clock s; user := user s; trace := trace s |}.
  Definition set_fileq (v : queue) (s : state) : state :=
    {| files := files s; next_id := next_id s; refs := refs s; busy := busy s; fileq := v; dirq := dirq s; cur := cur s; direrror := direrror s; to_close := to_close s; inflight := inflight s; previous := previous s; path := path s; failed := failed s; clock := clock s; user := user s; trace := trace s |}.
  Definition set_dirq (v : queue) (s : state) : state :=
    {| files := files s; next_id := next_id s; refs := refs s; busy := busy s; fileq := fileq s; dirq := v; cur := cur s; direrror := direrror s; to_close := to_close s; inflight := inflight s; previous := previous s; path := path s; failed := failed s; clock := clock s; user := user s; trace := trace s |}.
  Definition set_cur (v : option nat) (s : state) : state :=
    {| files := files s; next_id := next_id s; refs := refs s; busy := busy s; fileq := fileq s; dirq := dirq s; cur := v; direrror := direrror s; to_close := to_close s; inflight := inflight s; previous := previous s; path := path s; failed := failed s; clock := clock s; user := user s; trace := trace s |}.
  Definition set_direrror (v : bool) (s : state) : state :=
    {| files := files s; next_id := next_id s; refs := refs s; busy := busy s; fileq := fileq s; dirq := dirq s; cur := cur s; direrror := v; to_close := to_close s; inflight := inflight s; previous := previous s; path := path s; failed := failed s; clock := clock s; user := user s; trace := trace s |}.
  Definition set_to_close (v : list nat) (s : state) : state :=
    {| files := files s; next_id := next_id s; refs := refs s; busy := busy s; fileq := fileq s; dirq := dirq s; cur := cur s; direrror := direrror s; to_close := v; inflight := inflight s; previous := previous s; path := path s; failed := failed s; clock := clock s; user := user s; trace := trace s |}.
  Definition set_inflight (v : list request) (s : state) : state :=
    {| files := files s; next_id := next_id s; refs := refs s; busy := busy s; fileq := fileq s; dirq := dirq s; cur := cur s; direrror := direrror s; to_close := to_close s; inflight := v; previous := previous s; path := path s; failed := failed s; clock := clock s; user := user s; trace := trace s |}.
  Definition set_previous (v : option nat) (s : state) : state :=
    {| files := files s; next_id := next_id s; refs := refs s; busy := busy s; fileq := fileq s; dirq := dirq s; cur := cur s; direrror := direrror s; to_close := to_close s; inflight := inflight s; previous := v; path := path s; failed := failed s; clock := clock s; user := user s; trace := trace s |}.
  Definition set_path (v : list byte) (s : state) : state :=
    {| files := files s; next_id := next_id s; refs := refs s; busy := busy s; fileq := fileq s; dirq := dirq s; cur := cur s; direrror := direrror s; to_close := to_close s; inflight := inflight s; previous := previous s; path := v; failed := failed s; clock := clock s; user := user s; trace := trace s |}.
  Definition set_failed (v : bool) (s : state) : state :=
    {| files := files s; next_id := next_id s; refs := refs s; busy := busy s; fileq := fileq s; dirq := dirq s; cur := cur s; direrror := direrror s; to_close := to_close s; inflight := inflight s; previous := previous s; path := path s; failed := v; clock := clock s; user := user s; trace := trace s |}.
  Definition set_clock (v : nat) (s : state) : state :=
    {| files := files s; next_id := next_id s; refs := refs s; busy := busy s; fileq := fileq s; dirq := dirq s; cur := cur s; direrror := direrror s; to_close := to_close s; inflight := inflight s; previous := previous s; path := path s; failed := failed s; clock := v; user := user s; trace := trace s |}.
  Definition set_user (v : U) (s : state) : state :=
    {| files := files s; next_id := next_id s; refs := refs s; busy := busy s; fileq := fileq s; dirq := dirq s; cur := cur s; direrror := direrror s; to_close := to_close s; inflight := inflight s; previous := previous s; path := path s; failed := failed s; clock := clock s; user := v; trace := trace s |}.
  Definition set_trace (v : list (event * action)) (s : state) : state :=
    {| files := files s; next_id := next_id s; refs := refs s; busy := busy s; fileq := fileq s; dirq := dirq s; cur := cur s; direrror := direrror s; to_close := to_close s; inflight := inflight s; previous := previous s; path := path s; failed := failed s; clock := clock s; user := user s; trace := v |}.

  (** ** Queues *)

  (** 890-940, [bftw_must_buffer] and the flags in [bftw_state_init] *)
  Definition must_buffer : bool :=
    fl_sort w ||
    match strat w with BFTW_DFS => nthreads w =? 0 | _ => false end ||
    (fl_stat w && (1 <? nthreads w)).
  Definition buffering : bool := fl_buffer w || must_buffer.
  Definition not_bfs : bool := match strat w with BFTW_BFS => false | _ => true end.
  Definition fileq_flags : qflags :=
    {| qbuffer := not_bfs || buffering; qlifo := not_bfs; qorder := fl_sort w;
       qbalance := negb (fl_sort w) && (nthreads w =? 1) |}.
  Definition dirq_flags : qflags :=
    if negb not_bfs || buffering then
      {| qbuffer := false; qlifo := false; qorder := qorder fileq_flags; qbalance := qbalance fileq_flags |}
    else fileq_flags.

  Inductive qsel := FileQ | DirQ.
  Definition flags (q : qsel) : qflags := match q with FileQ => fileq_flags | DirQ => dirq_flags end.
  Definition queue_of (q : qsel) (s : state) : queue := match q with FileQ => fileq s | DirQ => dirq s end.
  Definition set_queue (q : qsel) (v : queue) (s : state) : state :=
    match q with FileQ => set_fileq v s | DirQ => set_dirq v s end.

  (** 391-407 *)
  Definition queue_push (fl : qflags) (x : nat) (q : queue) : queue :=
    let n := S (size q) in
    if qbuffer fl then
      {| buffer := buffer q ++ [x]; waiting := waiting q; ready := ready q; size := n; ioqueued := ioqueued q |}
    else if qlifo fl then
      {| buffer := buffer q; waiting := x :: waiting q; ready := if qorder fl then x :: ready q else ready q;
         size := n; ioqueued := ioqueued q |}
    else
      {| buffer := buffer q; waiting := waiting q ++ [x]; ready := if qorder fl then ready q ++ [x] else ready q;
         size := n; ioqueued := ioqueued q |}.
  (** 410-431 *)
  Definition queue_flush (fl : qflags) (q : queue) : queue :=
    if negb (qbuffer fl) then q
    else
      let r := if qorder fl then if qlifo fl then buffer q ++ ready q else ready q ++ buffer q else ready q in
      let b := if qlifo fl then buffer q ++ waiting q else buffer q in
      let wt := if qlifo fl then [] else waiting q in
      {| buffer := []; waiting := wt ++ b; ready := r; size := size q; ioqueued := ioqueued q |}.
  (** 495-517 *)
  Definition queue_waiting (fl : qflags) (q : queue) : option nat :=
    if negb (qbuffer fl) then hd_error (waiting q)
    else if qorder fl then hd_error (waiting q)
    else
      let (prefix, suffix) := if qlifo fl then (buffer q, waiting q) else (waiting q, buffer q) in
      match hd_error prefix with Some x => Some x | None => hd_error suffix end.
  (** 520-522 *)
  Definition queue_ready (q : queue) : option nat := hd_error (ready q).
  (** 525-542 *)
  Definition queue_pop (q : queue) : option (option nat * queue) :=
    match buffer q with
    | _ :: _ => None
    | [] =>
        let same x := match hd_error (waiting q) with Some y => x =? y | None => false end in
        let '(x, r, wt) :=
          match ready q with
          | x :: r => if same x then (Some x, r, tl (waiting q)) else (Some x, r, waiting q)
          | [] => (hd_error (waiting q), [], tl (waiting q))
          end in
        match x, size q with
        | Some _, 0 => None
        | Some _, S n => Some (x, {| buffer := []; waiting := wt; ready := r; size := n; ioqueued := ioqueued q |})
        | None, n => Some (None, {| buffer := []; waiting := wt; ready := r; size := n; ioqueued := ioqueued q |})
        end
    end.

  (** ** Files *)

  Definition find_file (x : nat) (s : state) : option file := find (fun f => f_id f =? x) (files s).
  Definition set_ref (x n : nat) (s : state) : state := set_refs (fun y => if y =? x then n else refs s y) s.
  Definition is_busy (x : nat) (s : state) : bool := existsb (Nat.eqb x) (busy s).

  (** 700-706.  [None] if the name is empty. *)
  Definition child_nameoff (parent : file) : option nat :=
    match rev (f_name parent) with
    | [] => None
    | c :: _ =>
        let ret := f_nameoff parent + length (f_name parent) in
        Some (if Byte.eqb c "/" then ret else S ret)
    end.

  (** 719-758.  The new file is entry number [k] of its parent, or root number [k]. *)
  Definition file_new (k : nat) (t : tree info) (s : state) : option (nat * state) :=
    let x := next_id s in
    let add p off s :=
      let f := {| f_id := x; f_parent := cur s; f_pos := p; f_node := t; f_nameoff := off |} in
      (x, set_ref x 1 (set_next_id (S x) (set_files (files s ++ [f]) s))) in
    match cur s with
    | None => Some (add [k] 0 s)
    | Some p =>
        ' parent <- find_file p s ;;
        ' off <- child_nameoff parent ;;
        Some (add (k :: f_pos parent) off (set_ref p (S (refs s p)) s))
    end.

  (** 452-471 *)
  Definition queue_detach (q : qsel) (x : nat) (async : bool) (s : state) : option state :=
    ' _ <- find_file x s ;;
    if is_busy x s then None
    else
      let v := queue_of q s in
      let is_head l := match hd_error l with Some y => x =? y | None => false end in
      ' v <- (if is_head (buffer v) then
                if qorder (flags q) then None
                else Some {| buffer := tl (buffer v); waiting := waiting v; ready := ready v; size := size v; ioqueued := ioqueued v |}
              else if is_head (waiting v) then
                Some {| buffer := buffer v; waiting := tl (waiting v); ready := ready v; size := size v; ioqueued := ioqueued v |}
              else None) ;;
      if async then
        Some (set_busy (x :: busy s)
          (set_queue q {| buffer := buffer v; waiting := waiting v; ready := ready v; size := size v; ioqueued := S (ioqueued v) |} s))
      else Some (set_queue q v s).
  (** 474-486.  A file is not on a ready list and [to_close] at the same time, as these share their links. *)
  Definition queue_attach (q : qsel) (x : nat) (async : bool) (s : state) : option state :=
    ' _ <- find_file x s ;;
    ' s <- (if async then
              match is_busy x s, ioqueued (queue_of q s) with
              | true, S n =>
                  let v := queue_of q s in
                  Some (set_busy (remove Nat.eq_dec x (busy s))
                    (set_queue q {| buffer := buffer v; waiting := waiting v; ready := ready v; size := size v; ioqueued := n |} s))
              | _, _ => None
              end
            else if is_busy x s then None else Some s) ;;
    if qorder (flags q) then Some s
    else if existsb (Nat.eqb x) (to_close s) then None
    else
      let v := queue_of q s in
      Some (set_queue q {| buffer := buffer v; waiting := waiting v; ready := ready v ++ [x]; size := size v; ioqueued := ioqueued v |} s).
  (** 489-492 *)
  Definition queue_skip (q : qsel) (x : nat) (s : state) : option state :=
    ' s <- queue_detach q x false s ;;
    queue_attach q x false s.

  (** ** The I/O queue *)

  Definition ask (s : state) : nat * state := (choose w (clock s), set_clock (S (clock s)) s).

  (** 981-987.  A file that is already attached is left alone. *)
  Definition delayed_unwrap (x : nat) (s : state) : option state :=
    ' _ <- find_file x s ;;
    if existsb (Nat.eqb x) (to_close s) then Some s
    else if existsb (Nat.eqb x) (ready (fileq s)) || existsb (Nat.eqb x) (ready (dirq s)) then None
    else Some (set_to_close (to_close s ++ [x]) s).
  (** 990-1001.  Whether the parent has an open directory and is not pinned by others is up to the oracle. *)
  Definition unpin_parent (x : nat) (unwrap : bool) (s : state) : option state :=
    ' f <- find_file x s ;;
    match f_parent f with
    | None => Some s
    | Some p =>
        ' _ <- find_file p s ;;
        let (c, s) := ask s in
        if unwrap && (0 <? c) then delayed_unwrap p s else Some s
    end.

  Fixpoint remove_nth {A} (n : nat) (l : list A) : list A :=
    match l, n with
    | [], _ => []
    | _ :: l, 0 => l
    | x :: l, S n => x :: remove_nth n l
    end.

  (** 1004-1063.  The result is [true] if there was a response. *)
  Definition ioq_pop (block : bool) (s : state) : option (bool * state) :=
    match inflight s with
    | [] => Some (false, s)
    | _ :: _ =>
        let (c, s) := ask s in
        if negb block && (c =? 0) then Some (false, s)
        else
          let (c, s) := ask s in
          let n := c mod length (inflight s) in
          ' r <- nth_error (inflight s) n ;;
          let s := set_inflight (remove_nth n (inflight s)) s in
          ' s <- match r with
                 | ROpen x => ' s <- unpin_parent x true s ;; queue_attach DirQ x true s
                 | RStat x => ' s <- unpin_parent x true s ;; queue_attach FileQ x true s
                 | RClose => Some s
                 end ;;
          Some (true, s)
    end.
  (** Some number of responses are waited for. *)
  Fixpoint pops (n : nat) (s : state) : option state :=
    match n with
    | 0 => Some s
    | S n =>
        ' (ok, s) <- ioq_pop true s ;;
        if ok then pops n s else Some s
    end.
  Definition pump (s : state) : option state := let (n, s) := ask s in pops n s.

  (** 1066-1084 *)
  Definition ioq_reserve (s : state) : option (bool * state) :=
    if nthreads w =? 0 then Some (false, s)
    else
      let (c, s) := ask s in
      if c =? 0 then Some (true, s) else ioq_pop (1 <? nthreads w) s.
  (** 1184-1231 and 1234-1279, [bftw_close] and [bftw_unwrapdir]: there may be something to close *)
  Definition maybe_close (s : state) : option state :=
    ' s <- pump s ;;
    ' (ok, s) <- ioq_reserve s ;;
    let (c, s) := ask s in
    if ok && (0 <? c) then Some (set_inflight (inflight s ++ [RClose]) s) else Some s.

  (** 1301-1335 and 1455-1487, [bftw_ioq_opendir] and [bftw_ioq_stat].  [bftw_cache_reserve] (1087-1106)
      is only called for the former. *)
  Definition ioq_request (q : qsel) (x : nat) (s : state) : option (bool * state) :=
    ' (ok, s) <- ioq_reserve s ;;
    if negb ok then Some (false, s)
    else
      ' f <- find_file x s ;;
      ' _ <- match f_parent f with None => Some tt | Some p => ' _ <- find_file p s ;; Some tt end ;;
      let (c, s) := ask s in
      if c =? 0 then Some (false, s)
      else
        ' s <- match q with DirQ => pump s | FileQ => Some s end ;;
        let (c, s) := ask s in
        if c =? 0 then
          ' s <- unpin_parent x false s ;; Some (false, s)
        else
          Some (true, set_inflight (inflight s ++ [match q with DirQ => ROpen x | FileQ => RStat x end]) s).

  (** 434-440, with the balance left open *)
  Definition balanced (q : qsel) (s : state) : bool * state :=
    if qbalance (flags q) then let (c, s) := ask s in (0 <? c, s) else (true, s).

  (** 1338-1351 *)
  Fixpoint opendirs_loop (fuel : nat) (s : state) : option state :=
    let (ok, s) := balanced DirQ s in
    if negb ok then Some s
    else
      match queue_waiting dirq_flags (dirq s) with
      | None => Some s
      | Some x =>
          match fuel with
          | 0 => None
          | S fuel =>
              ' (ok, s) <- ioq_request DirQ x s ;;
              if ok then
                ' s <- queue_detach DirQ x true s ;; opendirs_loop fuel s
              else Some s
          end
      end.
  Definition ioq_opendirs (s : state) : option state :=
    opendirs_loop (length (buffer (dirq s)) + length (waiting (dirq s))) s.

  (** 1354-1358 *)
  Definition push_dir (x : nat) (s : state) : option state :=
    ioq_opendirs (set_dirq (queue_push dirq_flags x (dirq s)) s).

  (** 1490-1501 *)
  Definition should_ioq_stat (f : file) : bool :=
    match f_parent f with None => false | Some _ => negb (whiteout w (f_pos f)) && must_stat w (f_pos f) end.
  (** 1504-1526 *)
  Fixpoint stat_loop (fuel : nat) (s : state) : option state :=
    match queue_waiting fileq_flags (fileq s) with
    | None => Some s
    | Some x =>
        match fuel with
        | 0 => None
        | S fuel =>
            ' f <- find_file x s ;;
            if negb (should_ioq_stat f) then
              ' s <- queue_skip FileQ x s ;; stat_loop fuel s
            else
              let (ok, s) := balanced FileQ s in
              if negb ok then Some s
              else
                ' (ok, s) <- ioq_request FileQ x s ;;
                if ok then
                  ' s <- queue_detach FileQ x true s ;; stat_loop fuel s
                else Some s
        end
    end.
  Definition stat_files (s : state) : option state :=
    stat_loop (length (buffer (fileq s)) + length (waiting (fileq s))) s.
  (** 1529-1532 *)
  Definition push_file (x : nat) (s : state) : option state :=
    stat_files (set_fileq (queue_push fileq_flags x (fileq s)) s).

  (** 1368-1380 *)
  Fixpoint wait_ready (fuel : nat) (q : qsel) (s : state) : option state :=
    match queue_ready (queue_of q s), ioqueued (queue_of q s) with
    | None, S _ =>
        match fuel with
        | 0 => None
        | S fuel =>
            let block := negb (match queue_waiting (flags q) (queue_of q s) with Some _ => nthreads w =? 1 | None => false end) in
            ' (ok, s) <- ioq_pop block s ;;
            if ok then wait_ready fuel q s else Some s
        end
    | _, _ => Some s
    end.
  (** 1387-1389 *)
  Fixpoint wait_file (fuel : nat) (x : nat) (s : state) : option state :=
    ' _ <- find_file x s ;;
    if is_busy x s then
      match fuel with
      | 0 => None
      | S fuel => ' (_, s) <- ioq_pop true s ;; wait_file fuel x s
      end
    else Some s.
  (** 1361-1394 *)
  Definition bftw_pop (q : qsel) (s : state) : option (bool * state) :=
    if size (queue_of q s) =? 0 then Some (false, s)
    else
      ' s <- wait_ready (length (inflight s)) q s ;;
      ' (x, v) <- queue_pop (queue_of q s) ;;
      let s := set_queue q v s in
      match x with
      | None => Some (false, s)
      | Some x =>
          ' s <- wait_file (length (inflight s)) x s ;;
          Some (true, set_cur (Some x) s)
      end.

  (** 1393-1412 *)
  Definition pop_dir (s : state) : option (bool * state) :=
    match cur s with
    | Some _ => None
    | None =>
        let files_ready := match queue_ready (fileq s) with Some _ => true | None => false end in
        let dirs_ready := match queue_ready (dirq s) with Some _ => true | None => false end in
        if fl_sort w then
          if negb not_bfs && files_ready then Some (false, s) else bftw_pop DirQ s
        else if negb dirs_ready && files_ready then Some (false, s)
        else bftw_pop DirQ s
    end.
  (** 1535-1538 *)
  Definition pop_file (s : state) : option (bool * state) :=
    match cur s with Some _ => None | None => bftw_pop FileQ s end.

  (** ** Paths *)

  (** Writing into the path; [None] outside of it *)
  Definition write (off : nat) (l : list byte) (p : list byte) : option (list byte) :=
    if off + length l <=? length p then Some (firstn off p ++ l ++ skipn (off + length l) p) else None.
  (** 1541-1546 *)
  Definition prepend_path (off : nat) (nm : list byte) (p : list byte) : option (list byte) :=
    ' p <- match off with 0 => Some p | S off => write off ["/"%byte] p end ;;
    write off nm p.
  (** dstresize() *)
  Definition resize (n : nat) (p : list byte) : list byte := firstn n p ++ repeat (junk w) (n - length p).

  Definition get (x : option nat) (s : state) : option (option file) :=
    match x with None => Some None | Some x => ' f <- find_file x s ;; Some (Some f) end.

  (** 1569-1571.  [fuel] is more than the depth of [a]. *)
  Fixpoint same_depth (fuel : nat) (a : option nat) (depth : nat) (s : state) : option (option file) :=
    match a with
    | None => Some None
    | Some x =>
        ' f <- find_file x s ;;
        if depth <? f_depth f then
          match fuel with 0 => None | S fuel => same_depth fuel (f_parent f) depth s end
        else Some (Some f)
    end.
  (** 1577-1584 *)
  Fixpoint build_loop (fuel : nat) (x : option file) (a : option file) (p : list byte) (s : state) : option (list byte) :=
    match x with
    | None => Some p
    | Some f =>
        if match a with Some g => f_id f =? f_id g | None => false end then Some p
        else
          match fuel with
          | 0 => None
          | S fuel =>
              ' p <- prepend_path (f_nameoff f) (f_name f) p ;;
              ' a <- match a with
                     | Some g => if f_depth g =? f_depth f then get (f_parent g) s else Some a
                     | None => Some None
                     end ;;
              ' x <- get (f_parent f) s ;;
              build_loop fuel x a p s
          end
    end.

  (** What is visited: the current file, or entry [k] of it *)
  Definition target := option (nat * tree info).
  Definition t_name (t : tree info) : list byte := let 'Node i _ := t in name i.

  (** 1549-1592 *)
  Definition build_path (t : target) (s : state) : option state :=
    ' file <- get (cur s) s ;;
    ' (off, len) <- match t, file with
                    | Some (_, t), None => Some (0, length (t_name t))
                    | Some (_, t), Some f => ' off <- child_nameoff f ;; Some (off, length (t_name t))
                    | None, Some f => Some (f_nameoff f, length (f_name f))
                    | None, None => None
                    end ;;
    let p := resize (off + len) (path s) in
    ' prev <- get (previous s) s ;;
    ' a <- match prev, file with
           | None, _ => Some None
           | Some _, None => None
           | Some g, Some f => same_depth (S (f_depth g)) (previous s) (f_depth f) s
           end ;;
    ' p <- match t with Some (_, t) => prepend_path off (t_name t) p | None => Some p end ;;
    ' p <- build_loop (match file with Some f => S (f_depth f) | None => 0 end) file a p s ;;
    Some (set_previous (cur s) (set_path p s)).

  (** 1149-1182, [bftw_file_open], as far as it concerns other files: the file and its ancestors up to
      an open one may be put on a list that shares its links with the buffers and the waiting lists. *)
  Definition queued (x : nat) (s : state) : bool :=
    existsb (Nat.eqb x) (buffer (fileq s) ++ waiting (fileq s) ++ buffer (dirq s) ++ waiting (dirq s)).
  Fixpoint open_chain (fuel : nat) (x : nat) (s : state) : option unit :=
    ' f <- find_file x s ;;
    if queued x s then None
    else
      match f_parent f with
      | None => Some tt
      | Some p => match fuel with 0 => None | S fuel => open_chain fuel p s end
      end.
  Definition file_open (x : nat) (s : state) : option state :=
    ' f <- find_file x s ;;
    ' _ <- open_chain (f_depth f) x s ;;
    pump s.

  (** ** Visiting files *)

  Definition is_dir (t : ftype) : bool := match t with BFS_DIR => true | _ => false end.

  (** 1679-1753.  The type is BFS_ERROR if there is a [direrror]; otherwise it is what the oracle says,
      after the parent has been opened. *)
  Definition init_ftwbuf (t : target) (v : visit) (s : state) : option (event * state) :=
    ' file <- get (cur s) s ;;
    ' (p, off, parent) <- match t, file with
      | Some (k, _), None => Some ([k], 0, None)
      | Some (k, _), Some f => ' off <- child_nameoff f ;; Some (k :: f_pos f, off, cur s)
      | None, Some f => Some (f_pos f, f_nameoff f, f_parent f)
      | None, None => None
      end ;;
    ' s <- match parent with Some p => file_open p s | None => Some s end ;;
    let depth := length p - 1 in
    let off := if depth =? 0 then xbaseoff (path s) else off in
    let t := if direrror s then BFS_ERROR else look w (clock s) p in
    Some ({| e_pos := p; e_visit := v; e_type := t; e_depth := depth; e_path := path s; e_nameoff := off |},
          set_clock (S (clock s)) s).

  (** 1756-1770 *)
  Definition is_mount (p : pos) : bool := match p with [] | [_] => false | _ => mounted w p end.

  (** 1778-1849 *)
  Definition call_back (t : target) (v : visit) (s : state) : option (action * state) :=
    if match v with BFTW_POST => negb (fl_post_order w) | BFTW_PRE => false end then Some (BFTW_PRUNE, s)
    else
      ' s <- build_path t s ;;
      ' (e, s) <- init_ftwbuf t v s ;;
      if match e_type e with BFS_ERROR => negb (fl_recover w) | _ => false end then Some (BFTW_STOP, set_failed true s)
      else if fl_skip_mounts w && is_mount (e_pos e) then Some (BFTW_PRUNE, s)
      else
        let (a, u) := callback w (user s) e in
        let s := set_trace ((e, a) :: trace s) (set_user u s) in
        let a' := match a, v with
                  | BFTW_CONTINUE, BFTW_PRE =>
                      if negb (is_dir (e_type e)) then BFTW_PRUNE
                      else if fl_prune_mounts w && is_mount (e_pos e) then BFTW_PRUNE
                      else BFTW_CONTINUE
                  | BFTW_CONTINUE, BFTW_POST => BFTW_PRUNE
                  | _, _ => a
                  end in
        Some (a', s).

  (** A file that is freed must not be on any list. *)
  Definition listed (x : nat) (s : state) : bool :=
    existsb (Nat.eqb x) (to_close s ++ ready (fileq s) ++ ready (dirq s)) || queued x s || is_busy x s.

  (** 1883-1908 *)
  Fixpoint gc_loop (fuel : nat) (visit_this visit_parents : bool) (ret : bool) (s : state) : option (bool * state) :=
    match cur s with
    | None => Some (ret, s)
    | Some x =>
        match fuel with
        | 0 => None
        | S fuel =>
            ' f <- find_file x s ;;
            match refs s x with
            | 0 => None
            | S (S n) => Some (ret, set_cur None (set_ref x (S n) s))
            | 1 =>
                let s := set_ref x 0 s in
                ' (ret, visit_parents, s) <-
                  (if visit_this then
                     ' (a, s) <- call_back None BFTW_POST s ;;
                     match a with BFTW_STOP => Some (false, false, s) | _ => Some (ret, visit_parents, s) end
                   else Some (ret, visit_parents, s)) ;;
                let s := match previous s with
                         | Some y => if x =? y then set_previous (f_parent f) s else s
                         | None => s
                         end in
                let s := set_cur (f_parent f) s in
                ' s <- maybe_close s ;;
                if listed x s then None
                else
                let s := set_files (filter (fun g => negb (f_id g =? x)) (files s)) s in
                gc_loop fuel visit_parents visit_parents ret s
            end
        end
    end.

  (** 1878-1880.  Directories that are added to the list meanwhile are unwrapped, too. *)
  Fixpoint drain_all (fuel : nat) (s : state) : option state :=
    match to_close s with
    | [] => Some s
    | x :: l =>
        match fuel with
        | 0 => None
        | S fuel =>
            ' _ <- find_file x s ;;
            ' s <- maybe_close (set_to_close l s) ;;
            drain_all fuel s
        end
    end.
  (** 1852-1911 *)
  Definition gc (visit_error visit_file visit_parents : bool) (s : state) : option (bool * state) :=
    ' s <- match cur s with
           | None => Some s
           | Some x => let (c, s) := ask s in if 0 <? c then delayed_unwrap x s else Some s
           end ;;
    ' (ret, vf, vp, s) <-
      (if direrror s then
         if visit_error then
           ' (a, s) <- call_back None BFTW_PRE s ;;
           match a with BFTW_STOP => Some (false, false, false, s) | _ => Some (true, visit_file, visit_parents, s) end
         else Some (true, visit_file, visit_parents, set_failed true s)
       else Some (true, visit_file, visit_parents, s)) ;;
    let s := set_direrror false s in
    ' s <- drain_all (length (to_close s) + length (inflight s)) s ;;
    ' f <- get (cur s) s ;;
    gc_loop (match f with Some f => S (f_depth f) | None => 0 end) vf vp ret s.

  (** 1914-1950, see SortModel.v *)
  Definition list_sort (l : list nat) (s : state) : option (list nat) :=
    let nm x := match find_file x s with Some f => f_name f | None => [] end in
    SortModel.list_sort (fun x y => collate w (nm x) (nm y)) (length l) l.
  (** 1953-1966 *)
  Definition flush (s : state) : option state :=
    ' s <- (if fl_sort w then
              let q := fileq s in
              ' l <- list_sort (buffer q) s ;;
              Some (set_fileq {| buffer := l; waiting := waiting q; ready := ready q; size := size q; ioqueued := ioqueued q |} s)
            else Some s) ;;
    ' s <- stat_files (set_fileq (queue_flush fileq_flags (fileq s)) s) ;;
    ioq_opendirs (set_dirq (queue_flush dirq_flags (dirq s)) s).

  (** 1969-1977 *)
  Definition closedir (s : state) : option (bool * state) :=
    ' (ok, s) <- gc true true true s ;;
    if ok then ' s <- flush s ;; Some (true, s) else Some (false, s).

  (** 1989-2012.  Roots are at depth 1 here. *)
  Definition buffer_file (t : target) (s : state) : option (bool * state) :=
    match t with
    | None => Some (false, s)
    | Some (k, _) =>
        if buffering then Some (true, s)
        else if nthreads w =? 0 then Some (false, s)
        else
          let (ok, s) := balanced FileQ s in
          if negb ok then Some (false, s)
          else
            ' file <- get (cur s) s ;;
            Some (must_stat w (k :: match file with Some f => f_pos f | None => [] end), s)
    end.

  (** 2015-2064 *)
  Definition bftw_visit (t : target) (s : state) : option (bool * state) :=
    ' (buffered, s) <- buffer_file t s ;;
    match t, buffered with
    | Some (k, tr), true =>
        ' (x, s) <- file_new k tr s ;;
        ' s <- push_file x s ;;
        Some (true, s)
    | _, _ =>
        ' (a, s) <- call_back t BFTW_PRE s ;;
        match a, t with
        | BFTW_CONTINUE, Some (k, tr) =>
            ' (x, s) <- file_new k tr s ;;
            ' s <- push_dir x s ;;
            Some (true, s)
        | BFTW_CONTINUE, None =>
            ' x <- cur s ;;
            ' s <- push_dir x (set_cur None s) ;;
            Some (true, s)
        | BFTW_PRUNE, Some _ => Some (true, s)
        | BFTW_PRUNE, None => gc false false true s
        | BFTW_STOP, Some _ => Some (false, s)
        | BFTW_STOP, None => ' (_, s) <- gc false false false s ;; Some (false, s)
        end
    end.

  (** 1613-1642.  The directory may be open already. *)
  Definition opendir (s : state) : option state :=
    ' x <- cur s ;;
    let (c, s) := ask (set_direrror false s) in
    if c =? 0 then ' _ <- find_file x s ;; Some s
    else ' s <- build_path None s ;; file_open x s.

  (** 2111-2116 and 2123-2127: all roots, or all entries of the current directory *)
  Fixpoint visit_all (k : nat) (l : list (tree info)) (s : state) : option (bool * state) :=
    match l with
    | [] => Some (true, s)
    | t :: l =>
        ' (ok, s) <- bftw_visit (Some (k, t)) s ;;
        if ok then visit_all (S k) l s else Some (false, s)
    end.
  (** 2120-2131 *)
  Definition read_dir (s : state) : option (bool * state) :=
    ' s <- opendir s ;;
    ' x <- cur s ;;
    ' f <- find_file x s ;;
    ' (ok, s) <- visit_all 0 (f_kids f) s ;;
    if ok then closedir (set_direrror (broken (f_info f)) s) else Some (false, s).

  (** 2118-2143; the two loops are one here. *)
  Fixpoint main_loop (fuel : nat) (s : state) : option (bool * state) :=
    match fuel with
    | 0 => None
    | S fuel =>
        ' (d, s) <- pop_dir s ;;
        if d then
          ' (ok, s) <- read_dir s ;;
          if ok then main_loop fuel s else Some (false, s)
        else
          ' (f, s) <- pop_file s ;;
          if f then
            ' (ok, s) <- bftw_visit None s ;;
            if ok then ' s <- flush s ;; main_loop fuel s else Some (false, s)
          else Some (true, s)
    end.

  Fixpoint tree_size (t : tree info) : nat := let 'Node _ kids := t in S (list_sum (map tree_size kids)).
  Definition forest_size (l : list (tree info)) : nat := list_sum (map tree_size l).

  (** 2109-2146 *)
  Definition impl (s : state) : option (bool * state) :=
    ' (ok, s) <- visit_all 0 (roots w) s ;;
    if ok then ' s <- flush s ;; main_loop (S (2 * forest_size (roots w))) s
    else Some (false, s).

  (** 955-978 *)
  Definition state_init (u : U) : state :=
    {| files := []; next_id := 0; refs := fun _ => 0; busy := []; fileq := queue_init; dirq := queue_init; cur := None; direrror := false; to_close := [];
       inflight := []; previous := None; path := []; failed := false; clock := 0; user := u; trace := [] |}.

  (** 2067-2073 *)
  Fixpoint drain_loop (fuel : nat) (q : qsel) (s : state) : option state :=
    ' (ok, s) <- bftw_pop q s ;;
    if ok then
      match fuel with
      | 0 => None
      | S fuel => ' (_, s) <- gc false false false s ;; drain_loop fuel q s
      end
    else Some s.
  Definition drain (q : qsel) (s : state) : option state :=
    let s := set_queue q (queue_flush (flags q) (queue_of q s)) s in
    drain_loop (size (queue_of q s)) q s.
  (** 2081-2103 *)
  Definition state_destroy (s : state) : option state :=
    ' s <- pops (length (inflight s)) s ;;
    ' (_, s) <- gc false false false s ;;
    ' s <- drain DirQ s ;;
    drain FileQ s.

  (** 2150-2159 *)
  Definition bftw_walk (u : U) : option (bool * state) :=
    ' (ok, s) <- impl (state_init u) ;;
    ' s <- state_destroy s ;;
    Some (ok, s).
End Walk.
