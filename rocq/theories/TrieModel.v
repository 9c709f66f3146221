(** Model of src/trie.c (the compressed radix trie) and of the parts of
    src/bit.h it uses.

    Simplifications, stated once for the whole file:
    - pointers to nodes and leaves are the trees themselves ([tree]); the tag
      bit of an encoded pointer is the constructor ([TNode] / [TLeaf]);
    - lengths and offsets are [nat] (no size_t wraparound: a key of 2^63 bytes
      cannot exist in memory);
    - OFFSET_MAX is the parameter [omax], so that both SIZE_WIDTH = 64 and
      SIZE_WIDTH = 32 builds are covered;
    - every allocation takes its outcome from an oracle ([allocs]);
    - a violated [bfs_assert] is the explicit outcome [Assert]. *)

From Coq Require Import List NArith Arith Bool.
From Coq Require Import Init.Byte.
From Coq Require Strings.Byte.
Import ListNotations.

Definition key := list byte.

(** trie.h struct trie_leaf: the identity stands for the leaf's address. *)
Record leaf := Leaf { lid : nat; lkey : key }.

(** trie.c 113-133 struct trie_node, 136-164 tagged pointers.  The children
    list is the used part of the flexible array. *)
Inductive tree :=
| TLeaf (l : leaf)
| TNode (bitmap : N) (offset : nat) (children : list tree).

(** trie.h struct trie: root pointer (None = 0), the list of leaves
    (head to tail), the [value] fields of the leaves (indexed by leaf
    identity; 0 is NULL), and a counter that supplies fresh identities. *)
Record trie := Trie {
  root : option tree;
  order : list leaf;
  values : nat -> N;
  next_id : nat
}.

(** trie.c 166-171 trie_init *)
Definition trie_init : trie := Trie None [] (fun _ => 0%N) 0.

(** bit.h 341-356 count_ones *)
Fixpoint pos_ones (p : positive) : nat :=
  match p with
  | xH => 1
  | xO p => pos_ones p
  | xI p => S (pos_ones p)
  end.

Definition count_ones (x : N) : nat :=
  match x with N0 => 0 | Npos p => pos_ones p end.

(** bit.h 407-411 has_single_bit: n - 1 < (n ^ (n - 1)), unsigned (with the
    wraparound of 0 - 1 at width [w]). *)
Definition has_single_bit (w : N) (n : N) : bool :=
  let m := ((n + (2 ^ w - 1)) mod 2 ^ w)%N in
  (m <? N.lxor n m)%N.

(** trie.c 174-187 trie_key_nibble.  [None] is the failed assertion
    byte < length. *)
Definition key_nibble (k : key) (offset : nat) : option N :=
  match nth_error k (offset / 2) with
  | None => None
  | Some b =>
      let shift := (4 * N.of_nat ((offset + 1) mod 2))%N in
      Some (N.land (N.shiftr (Byte.to_N b) shift) 15)
  end.

(** Looking up children[index] and recursing into it (children[index] past
    the end is an out-of-bounds read, [None]). *)
Section Pick.
  Context {A B : Type} (f : A -> option B).
  Fixpoint pick (cs : list A) (i : nat) : option B :=
    match cs, i with
    | [], _ => None
    | c :: _, 0 => f c
    | _ :: cs, S i => pick cs i
    end.
End Pick.

(** trie.c 208-230 trie_representative, below a given pointer.  [None]
    covers the assertion in trie_key_nibble and an index out of bounds. *)
Fixpoint representative (k : key) (t : tree) (offset : nat) : option leaf :=
  match t with
  | TLeaf l => Some l
  | TNode bitmap off children =>
      let offset := offset + off in
      if offset <? 2 * length k then
        match key_nibble k offset with
        | None => None
        | Some nibble =>
            let bit := N.shiftl 1 nibble in
            let index :=
              if (N.land bitmap bit =? 0)%N then 0
              else count_ones (N.land bitmap (bit - 1)) in
            pick (fun c => representative k c offset) children index
        end
      else pick (fun c => representative k c offset) children 0
  end.

Fixpoint key_eqb (a b : key) : bool :=
  match a, b with
  | [], [] => true
  | x :: a, y :: b => Byte.eqb x y && key_eqb a b
  | _, _ => false
  end.

(** What a call may return: a leaf, NULL, or a failed assertion. *)
Inductive outcome :=
| Found (l : leaf)
| Null
| Assert.

(** trie.c 237-248 trie_find_mem *)
Definition find_mem (tr : trie) (k : key) : outcome :=
  match root tr with
  | None => Null
  | Some t =>
      match representative k t 0 with
      | None => Assert
      | Some rep =>
          if (length (lkey rep) =? length k) && key_eqb (lkey rep) k then Found rep
          else Null
      end
  end.

(** trie.c 255-258 trie_get_mem (NULL is 0) *)
Definition get_mem (tr : trie) (k : key) : option N :=
  match find_mem tr k with
  | Found l => Some (values tr (lid l))
  | Null => Some 0%N
  | Assert => None
  end.

(** strlen(key) + 1 bytes of a C string *)
Definition cstr (s : list byte) : key := s ++ [x00].

(** trie.c 261-273 trie_find_postfix.  [s] is the C string, without its NUL. *)
Definition find_postfix (tr : trie) (s : list byte) : outcome :=
  match root tr with
  | None => Null
  | Some t =>
      match representative (cstr s) t 0 with
      | None => Assert
      | Some rep =>
          if (length s <=? length (lkey rep)) && key_eqb (firstn (length s) (lkey rep)) s
          then Found rep
          else Null
      end
  end.

(** trie.c 278-294 trie_terminal_leaf: at most two steps down children[0],
    while bit 0 of the bitmap is set. *)
Fixpoint terminal_leaf (steps : nat) (t : tree) : option leaf :=
  match t with
  | TLeaf l => Some l
  | TNode bitmap _ children =>
      match steps with
      | 0 => None
      | S steps =>
          if N.testbit bitmap 0 then
            match children with
            | [] => None
            | c :: _ => terminal_leaf steps c
            end
          else None
      end
  end.

(** trie.c 297-303 trie_check_prefix.  [k] includes the NUL.  [None] is an
    unsigned underflow of leaf->length - skip - 1 (an out-of-bounds read). *)
Definition check_prefix (l : option leaf) (skip : nat) (k : key) : option bool :=
  match l with
  | None => Some false
  | Some l =>
      if length (lkey l) <=? length k then
        if skip + 1 <=? length (lkey l) then
          let n := length (lkey l) - skip - 1 in
          Some (key_eqb (firstn n (skipn skip k)) (firstn n (skipn skip (lkey l))))
        else None
      else Some false
  end.

Definition to_outcome (o : option leaf) : outcome :=
  match o with Some l => Found l | None => Null end.

(** trie.c 306-350 trie_find_prefix, the loop *)
Fixpoint find_prefix_loop (k : key) (t : tree) (offset : nat)
    (best : option leaf) (skip : nat) : option outcome :=
  match t with
  | TLeaf l =>
      match check_prefix (Some l) skip k with
      | None => None
      | Some true => Some (Found l)
      | Some false => Some (to_outcome best)
      end
  | TNode bitmap off children =>
      let offset := offset + off in
      if 2 * length k <=? offset then Some (to_outcome best)
      else
        let leaf := terminal_leaf 2 t in
        match check_prefix leaf skip k with
        | None => None
        | Some ok =>
            let best := if ok then leaf else best in
            let skip := if ok then offset / 2 else skip in
            match key_nibble k offset with
            | None => None
            | Some nibble =>
                let bit := N.shiftl 1 nibble in
                if (N.land bitmap bit =? 0)%N then Some (to_outcome best)
                else
                  let index := count_ones (N.land bitmap (bit - 1)) in
                  pick (fun c => find_prefix_loop k c offset best skip) children index
            end
        end
  end.

Definition find_prefix (tr : trie) (s : list byte) : outcome :=
  match root tr with
  | None => Null
  | Some t =>
      match find_prefix_loop (cstr s) t 0 None 0 with
      | Some o => o
      | None => Assert
      end
  end.

(** bit.h 253-303 load8_beu8/16/32/64: big-endian load of a byte sequence *)
Definition load_be (bs : list byte) : N :=
  fold_left (fun acc b => (acc * 256 + Byte.to_N b)%N) bs 0%N.

(** bit.h 358-372 leading_zeros of a word of [w] bits *)
Definition leading_zeros (w : nat) (x : N) : nat := w - N.to_nat (N.size x).

(** trie.c 410-420, the CHUNK_ macro for a type of [n] bytes.  The remaining
    parts of the keys stand for rep_bytes + i and key_bytes + i.
    Returns (ret, Some rest) to go on, (ret, None) to return. *)
Definition chunk (n : nat) (rep k : list byte) (ret : nat)
  : nat * option (list byte * list byte) :=
  let diff := N.lxor (load_be (firstn n rep)) (load_be (firstn n k)) in
  let ret := ret + leading_zeros (8 * n) diff / 4 in
  if (diff =? 0)%N then (ret, Some (skipn n rep, skipn n k)) else (ret, None).

(** trie.c 423, while CHUNK(64).  [fuel] bounds the iterations; [length] is
    the remaining length - i. *)
Fixpoint chunks (fuel n : nat) (length : nat) (rep k : list byte) (ret : nat)
  : nat * option (list byte * list byte * nat) :=
  match fuel with
  | 0 => (ret, Some (rep, k, length))
  | S fuel =>
      if n <=? length then
        match chunk n rep k ret with
        | (ret, None) => (ret, None)
        | (ret, Some (rep, k)) => chunks fuel n (length - n) rep k ret
        end
      else (ret, Some (rep, k, length))
  end.

(** trie.c 395-435 trie_mismatch (rep not NULL, SIZE_WIDTH = 64) *)
Definition mismatch_of (rep k : key) : nat :=
  let len := Nat.min (length rep) (length k) in
  match chunks (S (len / 8)) 8 len rep k 0 with
  | (ret, None) => ret
  | (ret, Some (rep, k, len)) =>
  match chunks 1 4 len rep k ret with
  | (ret, None) => ret
  | (ret, Some (rep, k, len)) =>
  match chunks 1 2 len rep k ret with
  | (ret, None) => ret
  | (ret, Some (rep, k, len)) => fst (chunks 1 1 len rep k ret)
  end end end.

(** Which allocations succeed during one call: the leaf, the i-th jump node,
    and the final node (a reallocation in trie_node_insert, a fresh node in
    trie_split). *)
Record allocs := Allocs { a_leaf : bool; a_jump : nat -> bool; a_node : bool }.

(** The result of changing the subtree behind a pointer: the new subtree and
    whether the new leaf is in it ([true]) or memory ran out ([false]);
    [None] is a failed assertion. *)
Definition changed := option (tree * bool).

(** trie.c 460-486 trie_node_insert.  The array shift loop inserts the leaf
    at index [target].  The reallocation happens when the old size is a power
    of two. *)
Definition node_insert (a : allocs) (bitmap : N) (off : nat) (children : list tree)
    (l : leaf) (nibble : N) : changed :=
  let size := count_ones bitmap in
  if has_single_bit 32 (N.of_nat size) && negb (a_node a) then
    Some (TNode bitmap off children, false)
  else
    let bit := N.shiftl 1 nibble in
    if negb (N.land bitmap bit =? 0)%N then None
    else
      let bitmap := N.lor bitmap bit in
      let target := count_ones (N.land bitmap (bit - 1)) in
      Some (TNode bitmap off (firstn target children ++ TLeaf l :: skipn target children), true).

(** trie.c 551-576 trie_split *)
Definition split (a : allocs) (t : tree) (l rep : leaf) (offset mismatch : nat) : changed :=
  match key_nibble (lkey l) mismatch, key_nibble (lkey rep) mismatch with
  | Some key_nib, Some rep_nib =>
      if (key_nib =? rep_nib)%N then None
      else if negb (a_node a) then Some (t, false)
      else
        let bitmap := N.lor (N.shiftl 1 key_nib) (N.shiftl 1 rep_nib) in
        let delta := mismatch - offset in
        let t' := match t with
                  | TNode b o cs => TNode b (o - delta) cs
                  | TLeaf _ => t
                  end in
        let children := if (rep_nib <? key_nib)%N then [t'; TLeaf l] else [TLeaf l; t'] in
        Some (TNode bitmap delta children, true)
  | _, _ => None
  end.

Section Insert.
  Variable omax : nat.          (* trie.c 108 OFFSET_MAX *)
  Variable a : allocs.
  Variable l : leaf.            (* the new leaf *)
  Variable rep : leaf.
  Variable mismatch : nat.

  (** trie.c 627-635: the jump loop (513-532 trie_jump) and the split.
      [fuel] bounds the number of jumps, [n] counts them. *)
  Fixpoint jump_split (fuel n : nat) (t : tree) (offset : nat) : changed :=
    if omax <? mismatch - offset then
      match fuel with
      | 0 => None
      | S fuel =>
          match t with
          | TNode _ _ _ => None (* trie_decode_leaf asserts *)
          | TLeaf lf =>
              if negb (a_jump a n) then Some (t, false)
              else
                let offset := offset + omax in
                match key_nibble (lkey lf) offset with
                | None => None
                | Some nibble =>
                    match jump_split fuel (S n) t offset with
                    | None => None
                    | Some (c, ok) => Some (TNode (N.shiftl 1 nibble) omax [c], ok)
                    end
                end
          end
      end
    else split a t l rep offset mismatch.

  (** Recursing into children[i] and storing the result there *)
  Section Update.
    Variable f : tree -> changed.
    Fixpoint update (cs : list tree) (i : nat) : option (list tree * bool) :=
      match cs, i with
      | [], _ => None
      | c :: cs, 0 => match f c with Some (c, ok) => Some (c :: cs, ok) | None => None end
      | c :: cs, S i => match update cs i with Some (cs, ok) => Some (c :: cs, ok) | None => None end
      end.
  End Update.

  (** trie.c 606-635: the descent of trie_insert_mem.  The loop's [ptr] is
      the position of the recursive call. *)
  Fixpoint insert_at (t : tree) (offset : nat) : changed :=
    match t with
    | TLeaf _ => jump_split mismatch 0 t offset
    | TNode bitmap off children =>
        if mismatch <? offset + off then jump_split mismatch 0 t offset
        else
          let offset := offset + off in
          match key_nibble (lkey l) offset with
          | None => None
          | Some nibble =>
              let bit := N.shiftl 1 nibble in
              if (N.land bitmap bit =? 0)%N then
                if offset =? mismatch then node_insert a bitmap off children l nibble
                else None
              else
                if offset <? mismatch then
                  let index := count_ones (N.land bitmap (bit - 1)) in
                  match update (fun c => insert_at c offset) children index with
                  | None => None
                  | Some (cs, ok) => Some (TNode bitmap off cs, ok)
                  end
                else None
          end
    end.
End Insert.

(** trie.c 353-367 trie_leaf_alloc (the new leaf is appended to the list and
    its value is NULL) *)
Definition leaf_alloc (tr : trie) (k : key) : trie * leaf :=
  let l := Leaf (next_id tr) k in
  (Trie (root tr) (order tr ++ [l])
        (fun i => if i =? next_id tr then 0%N else values tr i) (S (next_id tr)), l).

Definition leaf_is (l l' : leaf) : bool := lid l =? lid l'.

(** LIST_REMOVE of a leaf *)
Definition list_remove (l : leaf) (ls : list leaf) : list leaf :=
  filter (fun l' => negb (leaf_is l l')) ls.

(** trie.c 370-373 trie_leaf_free *)
Definition leaf_free (tr : trie) (l : leaf) : trie :=
  Trie (root tr) (list_remove l (order tr)) (values tr) (next_id tr).

Definition set_root (tr : trie) (r : option tree) : trie :=
  Trie r (order tr) (values tr) (next_id tr).

(** trie.c 583-640 trie_insert_mem.  The EINVAL return (after bfs_bug, which
    only warns in release builds) and allocation failure are both [Null]. *)
Definition insert_mem (omax : nat) (a : allocs) (tr : trie) (k : key) : trie * outcome :=
  match root tr with
  | None =>
      (* rep = NULL, mismatch = 0 *)
      if length k <=? 0 then (tr, Null)
      else if negb (a_leaf a) then (tr, Null)
      else let (tr, l) := leaf_alloc tr k in (set_root tr (Some (TLeaf l)), Found l)
  | Some t =>
      match representative k t 0 with
      | None => (tr, Assert)
      | Some rep =>
          let mismatch := mismatch_of (lkey rep) k in
          let misbyte := mismatch / 2 in
          if length k <=? misbyte then
            if misbyte =? length k then (tr, Found rep) else (tr, Assert)
          else if length (lkey rep) <=? misbyte then (tr, Null)
          else if negb (a_leaf a) then (tr, Null)
          else
            let (tr, l) := leaf_alloc tr k in
            match insert_at omax a l rep mismatch t 0 with
            | None => (tr, Assert)
            | Some (t, true) => (set_root tr (Some t), Found l)
            | Some (t, false) => (leaf_free (set_root tr (Some t)) l, Null)
            end
      end
  end.

(** trie.c 652-660 trie_set_mem: true is success *)
Definition set_mem (omax : nat) (a : allocs) (tr : trie) (k : key) (v : N) : trie * option bool :=
  match insert_mem omax a tr k with
  | (tr, Found l) =>
      (Trie (root tr) (order tr)
            (fun i => if i =? lid l then v else values tr i) (next_id tr), Some true)
  | (tr, Null) => (tr, Some false)
  | (tr, Assert) => (tr, None)
  end.

(** The result of removing a leaf below a pointer: [Gone] means that the
    pointer leads through single-child nodes only to the leaf, so that the
    nearest node with more children (the C code's [parent]) drops it. *)
Inductive removed :=
| Gone
| Kept (t : tree)
| RAssert.

(** trie.c 753-755, the array shift loop *)
Fixpoint remove_nth {A} (i : nat) (cs : list A) : list A :=
  match cs, i with
  | [], _ => []
  | _ :: cs, 0 => cs
  | c :: cs, S i => c :: remove_nth i cs
  end.

(** trie.c 694-708 trie_collapse_node *)
Definition collapse_node (omax : nat) (off : nat) (children : list tree) (child_index : nat)
  : option tree :=
  match nth_error children (1 - child_index) with
  | Some (TNode b o cs) =>
      if o + off <=? omax then Some (TNode b (o + off) cs) else None
  | other => other
  end.

Section Remove.
  Variable omax : nat.
  Variable l : leaf.

  Section Walk.
    Variable f : tree -> removed.
    Fixpoint pick_removed (cs : list tree) (i : nat) : removed :=
      match cs, i with
      | [], _ => RAssert
      | c :: _, 0 => f c
      | _ :: cs, S i => pick_removed cs i
      end.
  End Walk.

  Fixpoint replace_nth (i : nat) (t : tree) (cs : list tree) : list tree :=
    match cs, i with
    | [], _ => []
    | _ :: cs, 0 => t :: cs
    | c :: cs, S i => c :: replace_nth i t cs
    end.

  (** trie.c 711-769 trie_remove.  The downward loop remembers the last node
      with more than one child; the recursion reaches the same node on the
      way back up.  trie_free_singletons (663-675) only frees memory.  The
      shrinking reallocation at 759-764 does not change the contents. *)
  Fixpoint remove_at (t : tree) (offset : nat) : removed :=
    match t with
    | TLeaf l' => if leaf_is l l' then Gone else RAssert
    | TNode bitmap off children =>
        let offset := offset + off in
        match key_nibble (lkey l) offset with
        | None => RAssert
        | Some nibble =>
            let bit := N.shiftl 1 nibble in
            if (N.land bitmap bit =? 0)%N then RAssert
            else
              let index := count_ones (N.land bitmap (bit - 1)) in
              match pick_removed (fun c => remove_at c offset) children index with
              | RAssert => RAssert
              | Kept c => Kept (TNode bitmap off (replace_nth index c children))
              | Gone =>
                  if has_single_bit 32 bitmap then Gone
                  else
                    let shrunk := TNode (N.land bitmap (N.lxor (N.ones 32) bit)) off
                                        (remove_nth index children) in
                    if count_ones bitmap =? 2 then
                      match collapse_node omax off children index with
                      | Some other => Kept other
                      | None => Kept shrunk
                      end
                    else Kept shrunk
              end
        end
    end.
End Remove.

(** trie.c 767-769 trie_remove; [None] is a failed assertion *)
Definition remove (omax : nat) (tr : trie) (l : leaf) : option trie :=
  match root tr with
  | None => None
  | Some t =>
      match remove_at omax l t 0 with
      | RAssert => None
      | Gone => Some (leaf_free (set_root tr None) l)
      | Kept t => Some (leaf_free (set_root tr (Some t)) l)
      end
  end.

(** trie.c 771-777 trie_clear *)
Definition clear (tr : trie) : trie := Trie None [] (values tr) (next_id tr).

(** The operations a client performs.  [ORemove k] finds the leaf stored
    under [k] and, if there is one, removes it (trie_remove may only be given
    a leaf of the trie). *)
Inductive op :=
| OInsert (a : allocs) (k : key)
| OSet (a : allocs) (k : key) (v : N)
| OFind (k : key)
| OGet (k : key)
| ORemove (k : key)
| OClear
| OIterate.

(** What the client sees. *)
Inductive out :=
| RLeaf (id : nat) (k : key)     (* a leaf was returned *)
| RNull                          (* NULL was returned *)
| RDone (ok : bool)              (* status *)
| RValue (v : N)
| RAll (ls : list (nat * key))   (* for_trie, trie.h *)
| RFail.                         (* failed assertion *)

Definition out_of (o : outcome) : out :=
  match o with
  | Found l => RLeaf (lid l) (lkey l)
  | Null => RNull
  | Assert => RFail
  end.

Definition do_op (omax : nat) (tr : trie) (o : op) : trie * out :=
  match o with
  | OInsert a k => let (tr, r) := insert_mem omax a tr k in (tr, out_of r)
  | OSet a k v =>
      match set_mem omax a tr k v with
      | (tr, Some ok) => (tr, RDone ok)
      | (tr, None) => (tr, RFail)
      end
  | OFind k => (tr, out_of (find_mem tr k))
  | OGet k => (tr, match get_mem tr k with Some v => RValue v | None => RFail end)
  | ORemove k =>
      match find_mem tr k with
      | Found l => match remove omax tr l with
                   | Some tr => (tr, RDone true)
                   | None => (tr, RFail)
                   end
      | Null => (tr, RDone false)
      | Assert => (tr, RFail)
      end
  | OClear => (clear tr, RDone true)
  | OIterate => (tr, RAll (map (fun l => (lid l, lkey l)) (order tr)))
  end.

Fixpoint run (omax : nat) (tr : trie) (ops : list op) : trie * list out :=
  match ops with
  | [] => (tr, [])
  | o :: ops =>
      let (tr, r) := do_op omax tr o in
      let (tr, rs) := run omax tr ops in
      (tr, r :: rs)
  end.
