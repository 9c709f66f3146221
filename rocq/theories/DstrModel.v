(** * Model of src/dstring.c

    A string is its header and the bytes of its [str] array, as many as fit the
    allocation.  Pointers to strings are modelled by the strings themselves, so
    that [None] is NULL, and callers do not pass a string as a source for itself.
    An outer [None] is a failed assertion, a NULL dereference or an access out of
    bounds. *)
From Coq Require Import List NArith Arith Bool.
From Coq Require Import Init.Byte.
From Verif Require Import BitModel AllocModel QuoteModel.
Import ListNotations.
Local Open Scope N_scope.

(** src/dstring.c 20-27 *)
Record dstring := mkDstring { cap : N; len : N; mem : list byte }.

(** 29; [size_t] has 8 bytes *)
Definition DSTR_OFFSET : N := 16.

Definition nlen (s : list byte) : N := N.of_nat (length s).

(** Storing bytes at an offset; [None] is out of bounds. *)
Definition poke (m : list byte) (off : N) (bytes : list byte) : option (list byte) :=
  if off + nlen bytes <=? nlen m
  then Some (firstn (N.to_nat off) m ++ bytes ++ skipn (N.to_nat off + length bytes) m)
  else None.

(** ALLOC_FLEX(struct dstring, str, cap) (src/alloc.h 150-153, src/alloc.c 33-50):
    the bytes after the header *)
Definition alloc_str (cap : N) (a : answer) : option (list byte) :=
  let size := flex_size 8 DSTR_OFFSET 1 cap in
  if ALLOC_MAX <? size then None
  else match a with
       | None => None
       | Some junk => Some (map junk (seq 0 (N.to_nat (size - DSTR_OFFSET))))
       end.

(** REALLOC_FLEX(struct dstring, str, header, old_cap, new_cap) (src/alloc.h
    186-191, src/alloc.c 71-99).  Old and new blocks share their common prefix. *)
Definition realloc_str (old : list byte) (new_cap : N) (a : answer) : option (list byte) :=
  let size := flex_size 8 DSTR_OFFSET 1 new_cap in
  if ALLOC_MAX <? size then None
  else match a with
       | None => None
       | Some junk =>
           let n := N.to_nat (size - DSTR_OFFSET) in
           Some (firstn n old ++ map junk (seq 0 (n - length old)))
       end.

(** 50-54 *)
Definition dstrsetlen (d : dstring) (l : N) : option dstring :=
  if l <? cap d then
    match poke (mem d) l [x00] with
    | None => None
    | Some m => Some (mkDstring (cap d) l m)
    end
  else None.

(** 57-74.  The inner [None] is NULL. *)
Definition dstralloc_impl (cap l : N) (s : list byte) (a : answer) : option (option dstring) :=
  let cap := if cap <? DSTR_OFFSET then DSTR_OFFSET else cap in
  match alloc_str cap a with
  | None => Some None
  | Some m =>
      match dstrsetlen (mkDstring cap 0 m) l with
      | None => None
      | Some d =>
          match poke (mem d) 0 (firstn (N.to_nat l) s) with
          | None => None
          | Some m => Some (Some (mkDstring cap l m))
          end
      end
  end.

(** 76-78 *)
Definition dstralloc (cap : N) (a : answer) : option (option dstring) :=
  dstralloc_impl ((cap + 1) mod W) 0 [] a.

(** 92-94 *)
Definition dstrxdup (s : list byte) (a : answer) : option (option dstring) :=
  dstralloc_impl ((nlen s + 1) mod W) (nlen s) s a.

(** The results of functions that update a pointer: the new value, and whether
    they returned 0 *)
Definition result : Type := option (option dstring * bool).

(** 100-123 *)
Definition dstreserve (p : option dstring) (c : N) (a : answer) : result :=
  match p with
  | None =>
      match dstralloc c a with
      | None => None
      | Some None => Some (None, false)
      | Some (Some d) => Some (Some d, true)
      end
  | Some d =>
      let old_cap := cap d in
      let new_cap := (c + 1) mod W in
      if new_cap <=? old_cap then Some (Some d, true)
      else
        let new_cap := bit_ceil 64 new_cap in
        match realloc_str (mem d) new_cap a with
        | None => Some (Some d, false)
        | Some m => Some (Some (mkDstring new_cap (len d) m), true)
        end
  end.

(** 125-133 *)
Definition dstresize (p : option dstring) (l : N) (a : answer) : result :=
  match dstreserve p l a with
  | Some (Some d, true) =>
      match dstrsetlen d l with
      | None => None
      | Some d => Some (Some d, true)
      end
  | Some (None, true) => None
  | r => r
  end.

(** 135-139 *)
Definition dstrshrink (p : option dstring) (l : N) : result :=
  match p with
  | None => None
  | Some d =>
      if l <=? len d then
        match dstrsetlen d l with
        | None => None
        | Some d => Some (Some d, true)
        end
      else None
  end.

(** memcpy() into a string *)
Definition dstrstore (d : dstring) (off : N) (s : list byte) : result :=
  match poke (mem d) off s with
  | None => None
  | Some m => Some (Some (mkDstring (cap d) (len d) m), true)
  end.

(** 153-163 *)
Definition dstrxcat (p : option dstring) (s : list byte) (a : answer) : result :=
  match p with
  | None => None
  | Some d =>
      let oldlen := len d in
      let newlen := (oldlen + nlen s) mod W in
      match dstresize p newlen a with
      | Some (Some d, true) => dstrstore d oldlen s
      | Some (None, true) => None
      | r => r
      end
  end.

(** 141-151 and 165-167; [s] is the source up to its terminator *)
Definition dstrncat (p : option dstring) (s : list byte) (n : N) (a : answer) : result :=
  dstrxcat p (firstn (N.to_nat n) s) a.
Definition dstrapp (p : option dstring) (c : byte) (a : answer) : result := dstrxcat p [c] a.

(** 181-188 *)
Definition dstrxcpy (p : option dstring) (s : list byte) (a : answer) : result :=
  match dstresize p (nlen s) a with
  | Some (Some d, true) => dstrstore d 0 s
  | Some (None, true) => None
  | r => r
  end.

(** vsnprintf(): either the text is complete, or the call fails after writing
    something.  At most [size] bytes are written. *)
Inductive printed := Text (s : list byte) | Failed (s : list byte).
Definition vsnprintf (d : dstring) (off size : N) (r : printed) : option dstring :=
  let bytes := match r with
               | Text s => firstn (N.to_nat (size - 1)) s ++ [x00]
               | Failed s => firstn (N.to_nat size) s
               end in
  match poke (mem d) off (if size =? 0 then [] else bytes) with
  | None => None
  | Some m => Some (mkDstring (cap d) (len d) m)
  end.

(** 265-268, the fail label *)
Definition catf_fail (d : dstring) (off : N) : result :=
  match poke (mem d) off [x00] with
  | None => None
  | Some m => Some (Some (mkDstring (cap d) (len d) m), false)
  end.

(** 224-269.  [fmt] is strlen(format), [r1] and [r2] the results of the two calls
    of vsnprintf(), and [a1] and [a2] the allocator's answers.  The return value
    of vsnprintf() is an [int], which is at least the length. *)
Definition dstrvcatf (p : option dstring) (fmt : N) (r1 r2 : printed) (a1 a2 : answer) : result :=
  match p with
  | None => None
  | Some d =>
      let l := len d in
      match dstreserve p ((l + 2 * fmt) mod W) a1 with
      | Some (Some d, _) =>
          let tail_cap := (cap d + W - l) mod W in
          match vsnprintf d l tail_cap r1 with
          | None => None
          | Some d =>
              match r1 with
              | Failed _ => catf_fail d l
              | Text s =>
                  let tail_len := nlen s in
                  if tail_cap <=? tail_len then
                    match dstreserve (Some d) ((l + tail_len) mod W) a2 with
                    | Some (Some d, true) =>
                        match vsnprintf d l (tail_len + 1) r2 with
                        | None => None
                        | Some d =>
                            match r2 with
                            | Failed _ => catf_fail d l
                            | Text s2 =>
                                if nlen s2 =? tail_len
                                then Some (Some (mkDstring (cap d) (len d + tail_len) (mem d)), true)
                                else catf_fail d l
                            end
                        end
                    | Some (Some d, false) => catf_fail d l
                    | _ => None
                    end
                  else Some (Some (mkDstring (cap d) (len d + tail_len) (mem d)), true)
              end
          end
      | _ => None
      end
  end.

(** 202-215, for a format of [fmt] bytes *)
Definition dstrvprintf (fmt : N) (r1 r2 : printed) (a0 a1 a2 : answer) : result :=
  match dstralloc ((2 * fmt) mod W) a0 with
  | None => None
  | Some None => Some (None, false)
  | Some (Some d) =>
      match dstrvcatf (Some d) fmt r1 r2 a1 a2 with
      | None => None
      | Some (_, false) => Some (None, false)
      | r => r
      end
  end.

(** 271-289.  [s] is the source, up to its terminator and at most [n] bytes. *)
Definition dstrnescat (l : locale) (shell : bool) (p : option dstring) (s : list byte) (a1 a2 : answer) : result :=
  let len0 := match p with Some d => len d | None => 0 end in
  let n := nlen s in
  let cap0 := (len0 + 4 * n + 3) mod W in
  match dstreserve p cap0 a1 with
  | Some (Some d, true) =>
      let '(q, sp) := wordnesc l shell ([], N.to_nat (cap0 + 1 - len0)) s in
      match poke (mem d) len0 (q ++ [x00]) with
      | None => None
      | Some m =>
          if Nat.eqb sp 0 then None
          else dstresize (Some (mkDstring (cap d) (len d) m)) (len0 + nlen q) a2
      end
  | Some (None, true) => None
  | r => r
  end.

(** 294-309; [a0] and then [a] answer the allocations. *)
Fixpoint repeat_loop (s : list byte) (n : nat) (a : nat -> answer) (p : option dstring) : result :=
  match n with
  | O => Some (p, true)
  | S n =>
      match dstrxcat p s (a n) with
      | Some (p, true) => repeat_loop s n a p
      | Some (_, false) => Some (None, false)
      | None => None
      end
  end.
Definition dstrepeat (s : list byte) (n : N) (a0 : answer) (a : nat -> answer) : result :=
  match dstralloc ((n * nlen s) mod W) a0 with
  | None => None
  | Some None => Some (None, false)
  | Some (Some d) => repeat_loop s (N.to_nat n) a (Some d)
  end.
