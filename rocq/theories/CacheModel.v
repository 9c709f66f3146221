(** * The cache of open directories of a file tree walk.

    This models the functions of src/bftw.c that open, keep, pin and close
    directories: the cache itself (lines 546-716), the I/O requests that hold
    directories (981-1107), opening and closing (1109-1280, 1284-1335,
    1455-1485, 1591-1640, 1662-1677), and the places of the main loop where
    directories are given back (1852-1911).

    What the walk does between two of those calls is left open: an
    [op] is one thing that it may do next, and a history is any list of
    them.  System calls and the I/O queue answer as they like: each answer is
    taken from a list of choices that the theorems quantify over.

    A failed assertion, a use of a freed file, an underflowing counter, or a
    list operation on a file that is not in the list, is [None]. *)

From Coq Require Import List Arith ZArith Bool Lia.
Import ListNotations.

(** The outcome of each call, or [None] if it goes wrong. *)
Notation "'let*' x ':=' e 'in' k" :=
  (match e with Some x => k | None => None end)
  (at level 200, x pattern, e at level 100, k at level 200).

(** What can be seen of the cache from the outside.  Descriptors are numbered
    in the order they are opened.  A descriptor that a background thread is
    asked for counts as open from the request to the response, and one that a
    background thread is asked to close counts as open until the response. *)
Inductive event : Type :=
| Created (f : nat) (root : bool)  (* a file is created *)
| Acquire (d : nat)          (* a descriptor is opened *)
| Release (d : nat)          (* a descriptor is closed *)
| Use (d : nat)              (* a system call relative to a descriptor *)
| Cached (f d : nat)         (* file [f] has the descriptor [d] from now on *)
| Swap (f d : nat)           (* the same, replacing its last one *)
| Uncached (f : nat)         (* file [f] has no descriptor from now on *)
| Pin (f : nat)              (* a user of [f]'s descriptor arrives *)
| Unpin (f : nat)            (* a user of [f]'s descriptor is done *)
| Evict (f : nat)            (* [f] is picked to make room *)
| Dir_alloc (force : bool)   (* a directory stream is allocated *)
| Dir_free.                  (* a directory stream is freed *)

(** struct bftw_file, bftw.c 152-206, as far as the cache goes: the ancestors
    (nearest first; the code has a pointer to the parent, and the depth is the
    length of this list), the descriptor, whether it has a directory stream,
    the pin count, the reference count, and whether it is still allocated. *)
Record file : Type := File {
  up : list nat;
  fd : option nat;
  dir : bool;
  pins : nat;
  refs : nat;
  alive : bool;
}.

(** The requests in the I/O queue: opening the directory of [f], relative to
    [a], which gives [d]; stat() on [f], relative to [a]; closing [d], with or
    without a directory stream. *)
Inductive req : Type :=
| Ropen (f d : nat) (a : option nat)
| Rstat (f : nat) (a : option nat)
| Rclose (d : nat)
| Rclosedir (d : nat).

(** What the walk is doing with its current file: it was just taken from a
    queue, its directory is being read, could not be opened, or is done with;
    its last child was freed, or it is about to be freed. *)
Inductive mode : Type := Taken | Reading | Failed | Done | Dropping | Dead.

(** struct bftw_cache, bftw.c 546-567, and the parts of struct bftw_state,
    bftw.c 804-861, that concern it.  Files are numbered in the order they are
    created.  The LRU list is the list of its members, head first; list.h is
    modelled in ListModel.v.  [queued] are the files in the two queues. *)
Record st : Type := St {
  count : nat;
  files : nat -> file;
  lru : list nat;
  target : option nat;
  cap : nat;
  lim : Z;
  flight : list req;
  queued : list nat;
  cur : option nat;
  now : mode;
  to_close : list nat;
  fresh : nat;
  log : list event;
  ch : list nat;
}.

Definition set_files g s := St (count s) g (lru s) (target s) (cap s) (lim s) (flight s) (queued s) (cur s) (now s) (to_close s) (fresh s) (log s) (ch s).
Definition set_lru l t s := St (count s) (files s) l t (cap s) (lim s) (flight s) (queued s) (cur s) (now s) (to_close s) (fresh s) (log s) (ch s).
Definition set_cap c s := St (count s) (files s) (lru s) (target s) c (lim s) (flight s) (queued s) (cur s) (now s) (to_close s) (fresh s) (log s) (ch s).
Definition set_lim z s := St (count s) (files s) (lru s) (target s) (cap s) z (flight s) (queued s) (cur s) (now s) (to_close s) (fresh s) (log s) (ch s).
Definition set_flight l s := St (count s) (files s) (lru s) (target s) (cap s) (lim s) l (queued s) (cur s) (now s) (to_close s) (fresh s) (log s) (ch s).
Definition set_walk q c m s := St (count s) (files s) (lru s) (target s) (cap s) (lim s) (flight s) q c m (to_close s) (fresh s) (log s) (ch s).
Definition set_to_close l s := St (count s) (files s) (lru s) (target s) (cap s) (lim s) (flight s) (queued s) (cur s) (now s) l (fresh s) (log s) (ch s).
Definition emit e s := St (count s) (files s) (lru s) (target s) (cap s) (lim s) (flight s) (queued s) (cur s) (now s) (to_close s) (fresh s) (e :: log s) (ch s).

(** The next answer of the outside world. *)
Definition pick s : nat * st :=
  match ch s with
  | [] => (0, s)
  | c :: r => (c, St (count s) (files s) (lru s) (target s) (cap s) (lim s) (flight s) (queued s) (cur s) (now s) (to_close s) (fresh s) (log s) r)
  end.

(** A new descriptor. *)
Definition acquire s : nat * st :=
  (fresh s,
   St (count s) (files s) (lru s) (target s) (cap s) (lim s) (flight s) (queued s) (cur s) (now s) (to_close s) (S (fresh s)) (Acquire (fresh s) :: log s) (ch s)).

(** Changing one file. *)
Definition put f x s := set_files (fun g => if g =? f then x else files s g) s.

Definition set_fd v x := File (up x) v (dir x) (pins x) (refs x) (alive x).
Definition set_dirp v x := File (up x) (fd x) v (pins x) (refs x) (alive x).
Definition set_pins v x := File (up x) (fd x) (dir x) v (refs x) (alive x).
Definition set_refs v x := File (up x) (fd x) (dir x) (pins x) v (alive x).

(** A file that is not freed. *)
Definition the f s : option file :=
  if alive (files s f) then Some (files s f) else None.

Definition parent f s : option nat := hd_error (up (files s f)).

Definition is_open f s : bool :=
  match fd (files s f) with Some _ => true | None => false end.

Definition none {A} (l : list A) : bool :=
  match l with [] => true | _ => false end.

(** ** The cache *)

(** The limit on directory streams in bftw_cache_init(), bftw.c 579-583. *)
Definition dir_limit (capacity : nat) : Z :=
  if 1024 <? capacity then 1024%Z else (Z.of_nat capacity - 1)%Z.

(** bftw_cache_init(), bftw.c 569-586, with no files yet. *)
Definition init (capacity : nat) (choices : list nat) : st :=
  St 0 (fun _ => File [] None false 0 0 false) [] None capacity (dir_limit capacity)
     [] [] None Taken [] 0 [] choices.

(** bftw_allocdir(), bftw.c 588-600.  [false] is a failure. *)
Definition allocdir (force : bool) s : bool * st :=
  if negb force && (lim s <=? 0)%Z then (false, s)
  else
    let (c, s1) := pick s in
    if c =? 0 then (true, emit (Dir_alloc force) (set_lim (lim s1 - 1) s1))
    else (false, s1).

(** bftw_freedir(), bftw.c 602-606. *)
Definition freedir s : st := emit Dir_free (set_lim (lim s + 1) s).

(** The element before [f] in a list, [lru.prev]. *)
Fixpoint prev (f : nat) (before : option nat) (l : list nat) : option nat :=
  match l with
  | [] => None
  | g :: r => if g =? f then before else prev f (Some g) r
  end.

(** LIST_REMOVE() for a member of the list. *)
Fixpoint unlink (f : nat) (l : list nat) : list nat :=
  match l with
  | [] => []
  | g :: r => if g =? f then r else g :: unlink f r
  end.

(** LIST_INSERT() after a member of the list. *)
Fixpoint insert_after (t f : nat) (l : list nat) : option (list nat) :=
  match l with
  | [] => None
  | g :: r =>
      if g =? t then Some (g :: f :: r)
      else let* r' := insert_after t f r in Some (g :: r')
  end.

(** bftw_lru_remove(), bftw.c 608-615.  Removing a file that is in no list
    from an empty list does nothing; from another list it would empty the
    list. *)
Definition lru_remove f s : option st :=
  let* _ := the f s in
  if existsb (Nat.eqb f) (lru s) then
    let t :=
      match target s with
      | Some t => if t =? f then prev f None (lru s) else Some t
      | None => None
      end in
    Some (set_lru (unlink f (lru s)) t s)
  else if none (lru s) then
    Some s
  else
    None.

(** bftw_cache_remove(), bftw.c 617-621. *)
Definition cache_remove f s : option st :=
  let* s1 := lru_remove f s in
  Some (set_cap (S (cap s1)) s1).

(** bftw_file_close(), bftw.c 623-638. *)
Definition file_close f s : option st :=
  let* x := the f s in
  match fd x with
  | Some d =>
      if pins x =? 0 then
        let s1 := emit (Uncached f) s in
        let s2 := emit (Release d) s1 in
        let s3 := if dir x then freedir s2 else s2 in
        let s4 := put f (set_fd None (set_dirp false x)) s3 in
        cache_remove f s4
      else None
  | None => None
  end.

(** The tail of the list. *)
Definition tail (l : list nat) : option nat := hd_error (rev l).

(** bftw_cache_pop(), bftw.c 640-649. *)
Definition cache_pop s : option (bool * st) :=
  match tail (lru s) with
  | None => Some (false, s)
  | Some f =>
      let* s1 := file_close f (emit (Evict f) s) in
      Some (true, s1)
  end.

(** bftw_lru_add(), bftw.c 651-661. *)
Definition lru_add f s : option st :=
  let* x := the f s in
  match fd x with
  | None => None
  | Some _ =>
      let* l :=
        match target s with
        | None => Some (f :: lru s)
        | Some t => insert_after t f (lru s)
        end in
      Some (set_lru l (match up x with [] => Some f | _ => target s end) s)
  end.

(** bftw_cache_add(), bftw.c 663-678. *)
Definition cache_add f s : option (bool * st) :=
  let* x := the f s in
  match fd x with
  | None => None
  | Some d =>
      let* (room, s1) :=
        (if cap s =? 0 then cache_pop s else Some (true, s)) in
      if room then
        match cap s1 with
        | O => None
        | S c =>
            let* s2 := lru_add f (set_cap c s1) in
            Some (true, emit (Cached f d) s2)
        end
      else
        let* s2 := file_close f s1 in
        Some (false, s2)
  end.

(** bftw_cache_pin(), bftw.c 680-687. *)
Definition cache_pin f s : option st :=
  let* x := the f s in
  match fd x with
  | None => None
  | Some _ =>
      let s1 := emit (Pin f) (put f (set_pins (S (pins x)) x) s) in
      if pins x =? 0 then lru_remove f s1 else Some s1
  end.

(** bftw_cache_unpin(), bftw.c 689-697. *)
Definition cache_unpin f s : option st :=
  let* x := the f s in
  match fd x, pins x with
  | Some _, S p =>
      let s1 := emit (Unpin f) (put f (set_pins p x) s) in
      if p =? 0 then lru_add f s1 else Some s1
  | _, _ => None
  end.

(** bftw_file_set_dir(), bftw.c 761-772. *)
Definition file_set_dir f d s : option st :=
  let* x := the f s in
  if dir x then None
  else
    match fd x with
    | Some d' => if d' =? d then Some (put f (set_dirp true x) s) else None
    | None =>
        let* (_, s1) := cache_add f (put f (set_fd (Some d) (set_dirp true x)) s) in
        Some s1
    end.

(** ** Requests *)

(** bftw_delayed_unwrap(), bftw.c 980-987. *)
Definition delayed_unwrap f s : option st :=
  let* x := the f s in
  if dir x then
    Some (if existsb (Nat.eqb f) (to_close s) then s
          else set_to_close (to_close s ++ [f]) s)
  else None.

(** bftw_unpin_parent(), bftw.c 989-1001. *)
Definition unpin_parent f (unwrap : bool) s : option st :=
  match parent f s with
  | None => Some s
  | Some p =>
      let* s1 := cache_unpin p s in
      if unwrap && dir (files s1 p) && (pins (files s1 p) =? 0) then
        delayed_unwrap p s1
      else Some s1
  end.

(** Taking the [k]th request out of the queue. *)
Fixpoint take (k : nat) (l : list req) : option (req * list req) :=
  match l, k with
  | [], _ => None
  | r :: l', O => Some (r, l')
  | r :: l', S k' => let* (x, l'') := take k' l' in Some (x, r :: l'')
  end.

(** The system call of a request, relative to a descriptor. *)
Definition use (a : option nat) s : st :=
  match a with Some d => emit (Use d) s | None => s end.

(** bftw_ioq_pop(), bftw.c 1003-1063.  Responses arrive in any order, and the
    queue may have none yet.  [false] is no response.  The stat() results and
    the queues are not part of this model. *)
Definition ioq_pop s : option (bool * st) :=
  let (k, s0) := pick s in
  match take k (flight s0) with
  | None => Some (false, s0)
  | Some (r, rest) =>
      let s1 := set_flight rest s0 in
      match r with
      | Rclose d =>
          Some (true, emit (Release d) (set_cap (S (cap s1)) s1))
      | Rclosedir d =>
          Some (true, freedir (emit (Release d) (set_cap (S (cap s1)) s1)))
      | Ropen f d a =>
          let* _ := the f s1 in
          let* s2 := unpin_parent f true (use a s1) in
          let s3 := set_cap (S (cap s2)) s2 in
          let (c, s4) := pick s3 in
          if c =? 0 then
            let* s5 := file_set_dir f d s4 in
            Some (true, s5)
          else
            Some (true, freedir (emit (Release d) s4))
      | Rstat f a =>
          let* _ := the f s1 in
          let* s2 := unpin_parent f true (use a s1) in
          Some (true, s2)
      end
  end.

(** bftw_ioq_reserve(), bftw.c 1065-1084.  Whether there is a queue, and
    whether it has room, is left open. *)
Definition ioq_reserve s : option (bool * st) :=
  let (c, s1) := pick s in
  match c with
  | O => Some (true, s1)
  | 1 => Some (false, s1)
  | _ => ioq_pop s1
  end.

(** The loop of bftw_cache_reserve(), bftw.c 1093-1097.  [fuel] bounds the
    number of responses. *)
Fixpoint reserve_loop (fuel : nat) s : option (bool * st) :=
  match fuel with
  | O => None
  | S fuel' =>
      let* (got, s1) := ioq_pop s in
      if got then
        if cap s1 =? 0 then reserve_loop fuel' s1 else Some (true, s1)
      else Some (false, s1)
  end.

(** bftw_cache_reserve(), bftw.c 1086-1106. *)
Definition cache_reserve s : option (bool * st) :=
  if cap s =? 0 then
    let* (ok, s1) := reserve_loop (S (length (flight s))) s in
    if ok then Some (true, s1)
    else
      let* (popped, s2) := cache_pop s1 in
      if popped then
        if cap s2 =? 0 then None else Some (true, s2)
      else Some (false, s2)
  else Some (true, s).

(** ** Opening *)

(** openat(): 0 is a success, 1 is EMFILE, the rest are other errors. *)
Definition openat (a : option nat) s : option nat * bool * st :=
  let (c, s1) := pick (use a s) in
  match c with
  | O => let (d, s2) := acquire s1 in (Some d, false, s2)
  | 1 => (None, true, s1)
  | _ => (None, false, s1)
  end.

Definition pin_base (base : option nat) s : option st :=
  match base with Some b => cache_pin b s | None => Some s end.

Definition unpin_base (base : option nat) s : option st :=
  match base with Some b => cache_unpin b s | None => Some s end.

Definition base_fd (base : option nat) s : option nat :=
  match base with Some b => fd (files s b) | None => None end.

(** bftw_file_openat(), bftw.c 1108-1146. *)
Definition file_openat f (base : option nat) s : option (bool * st) :=
  let* x := the f s in
  if is_open f s then None
  else
    let* s1 := pin_base base s in
    let a := base_fd base s1 in
    let* (ok, s2) := cache_reserve s1 in
    let* (r, s3) :=
      (if ok then
         let '(r, emfile, s3) := openat a s2 in
         if emfile then
           let* (popped, s4) := cache_pop s3 in
           let '(r', s5) :=
             (if popped then
                let '(r', _, s5) := openat a s4 in (r', s5)
              else (None, s4)) in
           Some (r', set_cap 1 s5)
         else Some (r, s3)
       else Some (None, s2)) in
    let* s4 := unpin_base base s3 in
    match r with
    | Some d =>
        let* (_, s5) := cache_add f (put f (set_fd (Some d) (files s4 f)) s4) in
        Some (true, s5)
    | None => Some (false, s4)
    end.

(** The nearest open ancestor, bftw.c 1151-1154, and the ancestors before
    it. *)
Fixpoint nearest (l : list nat) s : list nat * option nat :=
  match l with
  | [] => ([], None)
  | p :: r =>
      if is_open p s then ([], Some p)
      else let (mid, base) := nearest r s in (p :: mid, base)
  end.

(** Opening one component after the other, bftw.c 1175-1179. *)
Fixpoint components (l : list nat) s : option st :=
  match l with
  | [] => Some s
  | c :: r =>
      let* _ := the c s in
      if match parent c s with Some p => is_open p s | None => true end then
        let* (_, s1) := file_openat c (parent c s) s in
        components r s1
      else components r s
  end.

(** bftw_file_open(), bftw.c 1148-1182.  Whether the error is ENAMETOOLONG is
    left open. *)
Definition file_open f s : option (bool * st) :=
  let (mid, base) := nearest (up (files s f)) s in
  let* (ok, s1) := file_openat f base s in
  if ok then Some (true, s1)
  else
    let (c, s2) := pick s1 in
    if c =? 0 then Some (false, s2)
    else
      let* s3 := components (rev (f :: mid)) s2 in
      Some (is_open f s3, s3).

(** ** Closing *)

(** bftw_ioq_closedir() and bftw_ioq_close(), bftw.c 1184-1212.  Whether the
    request can be allocated is left open. *)
Definition ioq_close (stream : bool) (d : nat) s : option st :=
  let* (room, s1) := ioq_reserve s in
  let (c, s2) := pick s1 in
  if room && (c =? 0) then
    Some (set_flight (flight s2 ++ [if stream then Rclosedir d else Rclose d]) s2)
  else
    let s3 := emit (Release d) s2 in
    let s4 := if stream then freedir s3 else s3 in
    Some (set_cap (S (cap s4)) s4).

(** bftw_close(), bftw.c 1214-1231. *)
Definition close f s : option st :=
  let* x := the f s in
  match fd x with
  | Some d =>
      if pins x =? 0 then
        let* s1 := lru_remove f s in
        let s2 := emit (Uncached f) (put f (set_fd None (set_dirp false x)) s1) in
        ioq_close (dir x) d s2
      else None
  | None => None
  end.

(** bftw_unwrapdir(), bftw.c 1233-1281, in both variants; [unwrap] is
    BFS_USE_UNWRAPDIR.  Whether dup() works is left open. *)
Definition unwrapdir (unwrap : bool) f s : option st :=
  let* x := the f s in
  if dir x then
    let reffed := 1 <? refs x in
    let pinned := 0 <? pins x in
    if unwrap && (reffed || pinned) then
      Some (put f (set_dirp false x) (freedir s))
    else if negb unwrap && pinned then
      Some s
    else if negb reffed then
      close f s
    else
      let* s1 := cache_pin f s in
      let* (ok, s2) := cache_reserve s1 in
      let* s3 := cache_unpin f s2 in
      if ok then
        let (c, s4) := pick s3 in
        if c =? 0 then
          let (d, s5) := acquire s4 in
          match cap s5, fd x with
          | S k, Some old =>
              let s6 := set_cap k s5 in
              let s7 := put f (set_dirp false (files s6 f)) s6 in
              let s8 := emit (Swap f d) (put f (set_fd (Some d) (files s7 f)) s7) in
              ioq_close true old s8
          | _, _ => None
          end
        else Some s4
      else Some s3
  else Some s.

(** ** Submitting requests *)

(** bftw_pin_parent(), bftw.c 1283-1298.  The descriptor, if there is a
    parent, and whether it worked. *)
Definition pin_parent f s : option (bool * option nat * st) :=
  match parent f s with
  | None => Some (true, None, s)
  | Some p =>
      match fd (files s p) with
      | None => Some (false, None, s)
      | Some d => let* s1 := cache_pin p s in Some (true, Some d, s1)
      end
  end.

(** bftw_ioq_opendir(), bftw.c 1300-1335. *)
Definition ioq_opendir f s : option (bool * st) :=
  let* (room, s1) := ioq_reserve s in
  if room then
    let* (ok, a, s2) := pin_parent f s1 in
    if ok then
      let* (space, s3) := cache_reserve s2 in
      let '(got, s4) := (if space then allocdir false s3 else (false, s3)) in
      let (c, s5) := pick s4 in
      if got && (c =? 0) then
        let (d, s6) := acquire s5 in
        match cap s6 with
        | O => None
        | S k =>
            Some (true, set_flight (flight s6 ++ [Ropen f d a]) (set_cap k s6))
        end
      else
        let s6 := if got then freedir s5 else s5 in
        let* s7 := unpin_parent f false s6 in
        Some (false, s7)
    else Some (false, s2)
  else Some (false, s1).

(** bftw_ioq_stat(), bftw.c 1454-1484. *)
Definition ioq_stat f s : option (bool * st) :=
  let* (room, s1) := ioq_reserve s in
  if room then
    let* (ok, a, s2) := pin_parent f s1 in
    if ok then
      let (c, s3) := pick s2 in
      if c =? 0 then
        Some (true, set_flight (flight s3 ++ [Rstat f a]) s3)
      else
        let* s4 := unpin_parent f false s3 in
        Some (false, s4)
    else Some (false, s2)
  else Some (false, s1).

(** ** The walk *)

(** bftw_file_opendir(), bftw.c 1590-1610. *)
Definition file_opendir f s : option (bool * st) :=
  let* (ok, s1) := file_open f s in
  if ok then
    let (got, s2) := allocdir true s1 in
    if got then
      let (c, s3) := pick s2 in
      match fd (files s3 f) with
      | None => None
      | Some d =>
          if c =? 0 then
            let* s4 := file_set_dir f d s3 in
            Some (true, s4)
          else Some (false, freedir s3)
      end
    else Some (false, s2)
  else Some (false, s1).

(** bftw_opendir(), bftw.c 1612-1639. *)
Definition opendir f s : option st :=
  let* x := the f s in
  let* (ok, s1) := (if dir x then Some (true, s) else file_opendir f s) in
  if ok then
    let* s2 := cache_pin f s1 in
    Some (set_walk (queued s2) (cur s2) Reading s2)
  else
    Some (set_walk (queued s1) (cur s1) Failed s1).

(** bftw_ensure_open(), bftw.c 1661-1676. *)
Definition ensure_open f s : option st :=
  let* _ := the f s in
  if is_open f s then Some s
  else let* (_, s1) := file_open f s in Some s1.

(** bftw_file_new(), bftw.c 718-758, for a child of the current file, or for
    a root; the file then goes to a queue (bftw_visit(), bftw.c 2015-2064). *)
Definition new_file s : option st :=
  let f := count s in
  let* s1 :=
    match cur s with
    | None => Some s
    | Some p =>
        let* x := the p s in
        Some (put p (set_refs (S (refs x)) x) s)
    end in
  let u := match cur s with None => [] | Some p => p :: up (files s p) end in
  let s2 := put f (File u None false 0 1 true) s1 in
  Some (set_walk (queued s2 ++ [f]) (cur s2) (now s2)
          (emit (Created f (none u))
          (St (S f) (files s2) (lru s2) (target s2) (cap s2) (lim s2) (flight s2) (queued s2) (cur s2) (now s2) (to_close s2) (fresh s2) (log s2) (ch s2)))).

(** The start of bftw_gc(), bftw.c 1856-1865. *)
Definition finish f s : option st :=
  let* _ := the f s in
  let s0 := set_walk (queued s) (cur s) Done s in
  let* s1 :=
    match now s with Reading => cache_unpin f s0 | _ => Some s0 end in
  if dir (files s1 f) then delayed_unwrap f s1 else Some s1.

(** The start of an iteration of the loop of bftw_gc(), bftw.c 1885-1889. *)
Definition drop f s : option st :=
  let* x := the f s in
  match refs x with
  | O => None
  | S O => Some (set_walk (queued s) (Some f) Dead (put f (set_refs 0 x) s))
  | S r => Some (set_walk (queued s) None Taken (put f (set_refs r x) s))
  end.

(** The end of an iteration of the loop of bftw_gc(), bftw.c 1898-1908, with
    bftw_file_free(), bftw.c 789-799. *)
Definition free f s : option st :=
  let* x := the f s in
  let* s1 := (if is_open f s then close f s else Some s) in
  let y := files s1 f in
  match refs y with
  | O =>
      let* s2 := (if is_open f s1 then file_close f s1 else Some s1) in
      let s3 := put f (File (up y) None false 0 0 false) s2 in
      Some (set_walk (queued s3) (hd_error (up y))
              (match up y with [] => Taken | _ => Dropping end) s3)
  | S _ => None
  end.

Inductive op : Type :=
| New                (* bftw_file_new() and bftw_queue_push() *)
| Async_open (f : nat)  (* bftw_ioq_opendir() for a queued directory *)
| Async_stat (f : nat)  (* bftw_ioq_stat() for a queued file *)
| Respond            (* bftw_ioq_pop() *)
| Take (f : nat)     (* bftw_pop() *)
| Requeue            (* bftw_visit() of a file from the file queue *)
| Opendir            (* bftw_opendir() *)
| Ensure             (* bftw_ensure_open() for a callback *)
| Finish             (* bftw_gc(), before the loops *)
| Unwrap             (* bftw_gc(), one iteration of the first loop *)
| Drop               (* bftw_gc(), second loop, to the callback *)
| Free.              (* bftw_gc(), second loop, after the callback *)

Definition req_file (r : req) : option nat :=
  match r with
  | Ropen f _ _ | Rstat f _ => Some f
  | _ => None
  end.

Definition in_flight f s : bool :=
  existsb (fun r => match req_file r with Some g => g =? f | None => false end) (flight s).

Definition is_queued f s : bool := existsb (Nat.eqb f) (queued s).

Fixpoint remove1 (f : nat) (l : list nat) : list nat :=
  match l with
  | [] => []
  | g :: r => if g =? f then r else g :: remove1 f r
  end.

(** One step of the walk.  [Some s] without a change is an [op] that the walk
    does not do in that state:

    - files are created as roots, or while their directory is read
      (bftw.c 2015-2060, 2106-2140);
    - requests are made for queued files, when nothing or a directory being
      read is current (1354-1358, 1504-1532, 1952-1966); a directory is
      requested once, before it was opened (452-540);
    - a file is taken from a queue when there is no current file, and is not
      in flight then (1361-1391);
    - a current file that was never opened may go back to a queue
      (2042-2052);
    - callbacks get the directory being read, or else the parent of the
      current file (1696-1714);
    - the loops of bftw_gc() run one after the other, the first one to the
      end (1852-1911). *)
Definition step (unwrap : bool) (o : op) s : option st :=
  match o with
  | New =>
      match cur s, now s with
      | None, _ | Some _, Reading => new_file s
      | _, _ => Some s
      end
  | Async_open f =>
      match cur s, now s with
      | None, _ | Some _, Reading =>
          if is_queued f s && negb (in_flight f s) && negb (is_open f s) then
            let* (_, s1) := ioq_opendir f s in Some s1
          else Some s
      | _, _ => Some s
      end
  | Async_stat f =>
      match cur s, now s with
      | None, _ | Some _, Reading =>
          if is_queued f s && negb (in_flight f s) then
            let* (_, s1) := ioq_stat f s in Some s1
          else Some s
      | _, _ => Some s
      end
  | Respond => let* (_, s1) := ioq_pop s in Some s1
  | Take f =>
      match cur s with
      | None =>
          if is_queued f s && negb (in_flight f s) then
            Some (set_walk (remove1 f (queued s)) (Some f) Taken s)
          else Some s
      | Some _ => Some s
      end
  | Requeue =>
      match cur s, now s with
      | Some f, Taken =>
          if is_open f s then Some s
          else Some (set_walk (queued s ++ [f]) None Taken s)
      | _, _ => Some s
      end
  | Opendir =>
      match cur s, now s with
      | Some f, Taken => opendir f s
      | _, _ => Some s
      end
  | Ensure =>
      match cur s, now s with
      | Some f, Reading => ensure_open f s
      | Some f, Dropping => Some s
      | Some f, _ =>
          match parent f s with Some p => ensure_open p s | None => Some s end
      | None, _ => Some s
      end
  | Finish =>
      match cur s, now s with
      | Some f, (Taken | Reading | Failed) => finish f s
      | _, _ => Some s
      end
  | Unwrap =>
      match cur s, now s with
      | None, _ | Some _, Done =>
          match to_close s with
          | [] => Some s
          | f :: r => unwrapdir unwrap f (set_to_close r s)
          end
      | _, _ => Some s
      end
  | Drop =>
      match cur s, now s with
      | Some f, Done => if none (to_close s) then drop f s else Some s
      | Some f, Dropping => drop f s
      | _, _ => Some s
      end
  | Free =>
      match cur s, now s with
      | Some f, Dead => free f s
      | _, _ => Some s
      end
  end.

Fixpoint steps (unwrap : bool) (l : list op) s : option st :=
  match l with
  | [] => Some s
  | o :: r => let* s1 := step unwrap o s in steps unwrap r s1
  end.

(** The state after a history, or [None] if something went wrong. *)
Definition run (unwrap : bool) (capacity : nat) (choices : list nat) (l : list op) : option st :=
  steps unwrap l (init capacity choices).

(** bftw_cache_destroy(), bftw.c 708-716: the assertions. *)
Definition cache_destroy s : bool :=
  none (lru s) && match target s with None => true | Some _ => false end.
