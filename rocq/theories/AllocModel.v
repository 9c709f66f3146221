(** * Model of src/alloc.h and src/alloc.c

    [size_t] and addresses have 64 bits.  The sanitizer annotations are left out;
    they do nothing in ordinary builds. *)
From Coq Require Import List NArith Bool.
From Coq Require Import Init.Byte.
From Verif Require Import BitModel.
Import ListNotations.
Local Open Scope N_scope.

Definition W : N := 2 ^ 64.
Definition SIZE_MAX : N := 2 ^ 64 - 1.

(** src/alloc.c 16-21 *)
Definition ALLOC_MAX : N := SIZE_MAX / 2.

(** ** Sizes (src/alloc.h) *)

(** 17-23 *)
Definition is_aligned (align size : N) : bool := N.land size (align - 1) =? 0.
(** 25-31 *)
Definition align_floor (align size : N) : N := N.land size (not_ 64 (align - 1)).
(** 33-39 *)
Definition align_ceil (align size : N) : N := (N.lor ((size + W - 1) mod W) (align - 1) + 1) mod W.
(** 44-47 *)
Definition size_add (lhs rhs : N) : N :=
  let ret := (lhs + rhs) mod W in
  if lhs <=? ret then ret else SIZE_MAX.
(** 52-55; [size] is a sizeof and so positive *)
Definition size_mul (size count : N) : N :=
  let ret := (size * count) mod W in
  if ret / size =? count then ret else SIZE_MAX.
(** 101-106 *)
Definition flex_size (align offset size count : N) : N :=
  align_floor align (size_add (size_mul size count) (offset + align - 1)).

(** ** Arrays that grow one element at a time *)

(** The C library's answer to an allocation: [None] if it fails, otherwise the
    contents of the bytes that are not preserved. *)
Definition answer : Type := option (nat -> byte).

(** src/alloc.c 71-99, xrealloc for ordinary alignments, of the block [old].
    realloc() keeps the common prefix.  [new_size] is not zero. *)
Definition xrealloc (old : list byte) (new_size : N) (a : answer) : option (list byte) :=
  if ALLOC_MAX <? new_size then None
  else match a with
       | None => None
       | Some junk =>
           Some (firstn (N.to_nat new_size) old ++ map junk (seq 0 (N.to_nat new_size - length old)))
       end.

(** src/alloc.c 101-128, with the macro RESERVE (src/alloc.h 246-249).  The
    result is the block and the success flag. *)
Definition reserve (block : list byte) (size count : N) (a : answer) : list byte * bool :=
  let old_size := (size * count) mod W in
  if negb (N.land count (pred_ 64 count) =? 0) then (block, true)
  else
    let new_size := if count =? 0 then size else (2 * old_size) mod W in
    match xrealloc block new_size a with
    | None => (block, false)
    | Some block => (block, true)
    end.

(** A typical use: RESERVE a slot and store [elem] there.  [None] is a store
    outside of the block. *)
Definition push (size : N) (elem : list byte) (a : answer) (st : list byte * N)
  : option (list byte * N) :=
  let '(block, count) := st in
  let '(block, ok) := reserve block size count a in
  if ok then
    let off := N.to_nat (size * count) in
    if Nat.leb (off + length elem) (length block)
    then Some (firstn off block ++ elem ++ skipn (off + length elem) block, count + 1)
    else None
  else Some (block, count).

(** ** Arenas *)

(** The memory that arenas manage: a word for each address that is a multiple of 8.
    NULL is 0. *)
Definition memory : Type := N -> N.
Definition store (m : memory) (a v : N) : memory := fun x => if x =? a then v else m x.

(** src/alloc.h 256-267.  [slabs] also records the sizes; its length is
    [nslabs]. *)
Record arena := mkArena { chunks : N; slabs : list (N * N); align : N; size : N }.
Definition nslabs (a : arena) : N := N.of_nat (length (slabs a)).

(** src/alloc.c 145-154 *)
Definition chunk_next (a : arena) (m : memory) (chunk : N) : N := (chunk + size a + m chunk) mod W.
Definition chunk_set_next (a : arena) (m : memory) (chunk next : N) : memory :=
  store m chunk ((next + W - (chunk + size a) mod W) mod W).

(** src/alloc.c 156-173.  [None] is a failed assertion. *)
Definition arena_init (align size : N) : option arena :=
  if is_aligned align size then
    let align := if align <? 8 then 8 else align in
    let size := if size <? 8 then 8 else size in
    if is_aligned align size then Some (mkArena 0 [] align size) else None
  else None.

(** 178-187 *)
Definition slab_size (a : arena) : N :=
  let size0 := if 4096 <? size a then size a else 4096 in
  (N.shiftl (size0 - size0 mod size a) (nslabs a)) mod W.

(** zalloc() clears what it returns. *)
Definition clear (m : memory) (base len : N) : memory :=
  fun x => if (base <=? x) && (x <? base + len) then 0 else m x.

(** What the system says during one call: where memory of a given alignment and
    size is, whether the array of slabs can grow, and whether the array of arenas
    can grow beyond the given length. *)
Record oracle := mkOracle { o_slab : N -> N -> option N; o_grown : bool; o_arenas : N -> bool }.

(** 52-69, the address only *)
Definition zalloc (o : oracle) (align size : N) : option N :=
  if ALLOC_MAX <? size then None else o_slab o align size.

(** 176-210 *)
Definition slab_alloc (a : arena) (m : memory) (o : oracle) : option (arena * memory) :=
  let len := slab_size a in
  match zalloc o (align a) len with
  | None => None
  | Some base =>
      if o_grown o then
        let m := clear m base len in
        let m := chunk_set_next a m (base + len - size a) (chunks a) in
        Some (mkArena base (slabs a ++ [(base, len)]) (align a) (size a), m)
      else None
  end.

(** 212-225.  The result is NULL if the slab cannot be allocated. *)
Definition arena_alloc (a : arena) (m : memory) (o : oracle) : N * arena * memory :=
  match (if chunks a =? 0 then slab_alloc a m o else Some (a, m)) with
  | None => (0, a, m)
  | Some (a, m) => (chunks a, mkArena (chunk_next a m (chunks a)) (slabs a) (align a) (size a), m)
  end.

(** 227-233 *)
Definition arena_free (a : arena) (m : memory) (chunk : N) : arena * memory :=
  (mkArena chunk (slabs a) (align a) (size a), chunk_set_next a m chunk (chunks a)).

(** ** Arenas for several sizes *)

(** src/alloc.h 295-308 *)
Record varena := mkVarena { valign : N; voffset : N; vsize : N; vshift : N; arenas : list arena }.

(** src/alloc.c 251-262 *)
Definition varena_init (align offset size : N) : varena :=
  let min_count := (flex_size align offset size 1 - offset + size - 1) / size in
  mkVarena align offset size (bit_width 64 (min_count - 1)) [].

(** 265-269 *)
Definition size_class (v : varena) (count : N) : N :=
  bit_width 64 (N.shiftr (count - if count =? 0 then 0 else 1) (vshift v)).

(** 272-274 *)
Definition exact_size (v : varena) (count : N) : N := flex_size (valign v) (voffset v) (vsize v) count.

(** 277-293.  [grown j] tells whether the array of arenas can grow beyond [j].
    The result is the index of the arena, or [None] for NULL.  The outer [None]
    is a failed assertion. *)
Fixpoint get_loop (n : nat) (v : varena) (grown : N -> bool) : option (varena * bool) :=
  match n with
  | O => Some (v, true)
  | S n =>
      let j := N.of_nat (length (arenas v)) in
      if grown j then
        match arena_init (valign v) (exact_size v (N.shiftl 1 (j + vshift v) mod W)) with
        | None => None
        | Some a => get_loop n (mkVarena (valign v) (voffset v) (vsize v) (vshift v) (arenas v ++ [a])) grown
        end
      else Some (v, false)
  end.
Definition varena_get (v : varena) (count : N) (grown : N -> bool) : option (varena * option nat) :=
  let i := N.to_nat (size_class v count) in
  match get_loop (S i - length (arenas v)) v grown with
  | None => None
  | Some (v, true) => Some (v, Some i)
  | Some (v, false) => Some (v, None)
  end.

(** The arena at index [i] *)
Definition arena_at (v : varena) (i : nat) : option arena := nth_error (arenas v) i.
Fixpoint set_nth {A} (l : list A) (i : nat) (x : A) : list A :=
  match l, i with
  | [], _ => []
  | _ :: l, O => x :: l
  | y :: l, S i => y :: set_nth l i x
  end.
Definition set_arena (v : varena) (i : nat) (a : arena) : varena :=
  mkVarena (valign v) (voffset v) (vsize v) (vshift v) (set_nth (arenas v) i a).

(** 295-310.  [None] is a failed assertion or an access out of bounds. *)
Definition varena_alloc (v : varena) (m : memory) (count : N) (o : oracle) : option (N * varena * memory) :=
  match varena_get v count (o_arenas o) with
  | None => None
  | Some (v, None) => Some (0, v, m)
  | Some (v, Some i) =>
      match arena_at v i with
      | None => None
      | Some a =>
          let '(p, a, m) := arena_alloc a m o in
          Some (p, set_arena v i a, m)
      end
  end.

(** memcpy() between blocks of [len] bytes *)
Definition copy (m : memory) (to from len : N) : memory :=
  fun x => if (to <=? x) && (x <? to + len) then m (from + (x - to)) else m x.

(** 312-348 *)
Definition varena_realloc (v : varena) (m : memory) (ptr old_count new_count : N) (o : oracle)
  : option (N * varena * memory) :=
  match varena_get v new_count (o_arenas o) with
  | None => None
  | Some (v, new) =>
      match varena_get v old_count (o_arenas o) with
      | None => None
      | Some (v, old) =>
          match new, old with
          | None, _ => Some (0, v, m)
          | Some _, None => None
          | Some i, Some j =>
              match arena_at v i, arena_at v j with
              | Some new_arena, Some old_arena =>
                  if Nat.eqb i j then Some (ptr, v, m)
                  else
                    let '(ret, new_arena, m) := arena_alloc new_arena m o in
                    let v := set_arena v i new_arena in
                    if ret =? 0 then Some (0, v, m)
                    else
                      let m := copy m ret ptr (N.min (size new_arena) (size old_arena)) in
                      let '(old_arena, m) := arena_free old_arena m ptr in
                      Some (ret, set_arena v j old_arena, m)
              | _, _ => None
              end
          end
      end
  end.

(** 350-364; returns also the new [*count] *)
Definition varena_grow (v : varena) (m : memory) (ptr count : N) (o : oracle) : option (N * N * varena * memory) :=
  let new_shift := size_class v (count + 1) + vshift v in
  let new_count := (N.shiftl 1 new_shift) mod W in
  match varena_realloc v m ptr count new_count o with
  | None => None
  | Some (p, v, m) => Some (p, (if p =? 0 then count else new_count), v, m)
  end.

(** 366-369 *)
Definition varena_free (v : varena) (m : memory) (ptr count : N) (o : oracle) : option (varena * memory) :=
  match varena_get v count (o_arenas o) with
  | Some (v, Some i) =>
      match arena_at v i with
      | Some a => let '(a, m) := arena_free a m ptr in Some (set_arena v i a, m)
      | None => None
      end
  | _ => None
  end.
