(** * Colors for file extensions (src/color.c 38-52, 180-393)

    The tries are those of TrieModel.v; a pointer to an extension is one more than
    its number, in the order of allocation, which is also its priority.
    Allocations succeed. *)
From Coq Require Import List NArith Arith Bool Init.Byte.
From Verif Require Import TrieModel.
Import ListNotations.
Local Open Scope nat_scope.

(** 41-52, [struct ext_color] *)
Record ext_color := mkExt { esc : list byte; ext : list byte; case_sensitive : bool }.

(** The part of [struct colors] (54-117) that is used here: [ext_arena], in which
    nothing is freed, [ext_len] and the tries *)
Record colors := mkColors { exts : list ext_color; ext_len : nat; ext_trie : trie; iext_trie : trie }.
Definition colors_init : colors := mkColors [] 0 trie_init trie_init.

(** 187-193.  The loop that swaps bytes is simplified. *)
Definition ext_reverse (s : list byte) : list byte := rev s.

(** 196-210 *)
Definition tolower (c : byte) : byte :=
  let n := Byte.to_N c in
  if (65 <=? n)%N && (n <=? 90)%N then match Byte.of_N (n + 32) with Some d => d | None => c end else c.
Definition ext_tolower (s : list byte) : list byte := map tolower s.

Definition ok : allocs := Allocs true (fun _ => true) true.
Definition pointer (i : nat) : N := N.of_nat (S i).
(** What a pointer points to *)
Definition deref (c : list ext_color) (p : N) : option ext_color :=
  match p with N0 => None | _ => nth_error c (Nat.pred (N.to_nat p)) end.

Section Trie.
  (** OFFSET_MAX in src/trie.c *)
  Variable omax : nat.

  (** 213-218, the loop of insert_ext; [None] is a failed assertion or the end of the fuel. *)
  Fixpoint remove_all (fuel : nat) (tr : trie) (s : list byte) : option trie :=
    match find_postfix tr s with
    | Found l =>
        match fuel with
        | O => None
        | S fuel => match remove omax tr l with Some tr => remove_all fuel tr s | None => None end
        end
    | Null => Some tr
    | Assert => None
    end.

  (** 213-222 *)
  Definition insert_ext (tr : trie) (s : list byte) (p : N) : option trie :=
    match remove_all (length (order tr)) tr s with
    | None => None
    | Some tr => match set_mem omax ok tr (cstr s) p with (tr, Some true) => Some tr | _ => None end
    end.

  (** 225-272 *)
  Definition set_ext (c : colors) (key value : list byte) : option colors :=
    if existsb (Byte.eqb x00) key then Some c
    else
      let s := ext_reverse key in
      let p := pointer (length (exts c)) in
      match insert_ext (ext_trie c) s p with
      | None => None
      | Some tr =>
          Some (mkColors (exts c ++ [mkExt value s false])
                         (if ext_len c <? length key then length key else ext_len c) tr (iext_trie c))
      end.

  (** 284-311; [iext] may be NULL. *)
  Definition ext_case_sensitive (e : ext_color) (iext : option ext_color) : bool :=
    match iext with
    | None => false
    | Some i => if case_sensitive i then true else negb (key_eqb (esc i) (esc e))
    end.

  (** An assignment to what a pointer points to *)
  Definition update (p : N) (f : ext_color -> ext_color) (c : list ext_color) : list ext_color :=
    match p with
    | N0 => c
    | _ => let i := Nat.pred (N.to_nat p) in
           match nth_error c i with
           | Some e => firstn i c ++ f e :: skipn (S i) c
           | None => c
           end
    end.
  Definition set_lower (e : ext_color) : ext_color := mkExt (esc e) (ext_tolower (ext e)) (case_sensitive e).
  Definition set_sensitive (e : ext_color) : ext_color := mkExt (esc e) (ext e) true.

  (** 316-339, the first loop.  trie_insert_mem and the assignment to [ileaf->value] are written as
      [get_mem] and [set_mem]. *)
  Fixpoint smart_case (ls : list leaf) (vals : nat -> N) (c : list ext_color) (itr : trie) : option (list ext_color * trie) :=
    match ls with
    | [] => Some (c, itr)
    | l :: ls =>
        let p := vals (lid l) in
        let c := update p set_lower c in
        match deref c p with
        | None => None
        | Some e =>
            match get_mem itr (cstr (ext e)), set_mem omax ok itr (cstr (ext e)) p with
            | Some ip, (itr, Some true) =>
                let c := if ext_case_sensitive e (deref c ip) then update ip set_sensitive (update p set_sensitive c) else c in
                smart_case ls vals c itr
            | _, _ => None
            end
        end
    end.

  (** 344-354, the second loop *)
  Fixpoint rebuild (ls : list leaf) (vals : nat -> N) (c : list ext_color) (itr : trie) : option trie :=
    match ls with
    | [] => Some itr
    | l :: ls =>
        let p := vals (lid l) in
        match deref c p with
        | None => None
        | Some e =>
            if case_sensitive e then rebuild ls vals c itr
            else match insert_ext itr (ext e) p with Some itr => rebuild ls vals c itr | None => None end
        end
    end.

  (** 314-357 *)
  Definition build_iext_trie (c : colors) : option colors :=
    let tr := ext_trie c in
    match smart_case (order tr) (values tr) (exts c) (iext_trie c) with
    | None => None
    | Some (es, itr) =>
        match rebuild (order tr) (values tr) es (clear itr) with
        | None => None
        | Some itr => Some (mkColors es (ext_len c) tr itr)
        end
    end.

  (** 359-393.  The outer [None] is a failed assertion, the inner one NULL.  [priority] is the order of pointers. *)
  Definition get_ext (c : colors) (filename : list byte) : option (option (list byte)) :=
    let n := if length filename <? ext_len c then length filename else ext_len c in
    let suffix := skipn (length filename - n) filename in
    let copy := ext_reverse suffix in
    match find_prefix (ext_trie c) copy, find_prefix (iext_trie c) (ext_tolower copy) with
    | Assert, _ | _, Assert => None
    | leaf, ileaf =>
        let p := match leaf with Found l => values (ext_trie c) (lid l) | _ => 0%N end in
        let ip := match ileaf with Found l => values (iext_trie c) (lid l) | _ => 0%N end in
        let p := if negb (ip =? 0)%N && ((p =? 0)%N || (p <? ip)%N) then ip else p in
        Some (option_map esc (deref (exts c) p))
    end.

  (** The calls in parse_gnu_ls_colors (556-608) and parse_colors (679-687) *)
  Fixpoint set_exts (c : colors) (l : list (list byte * list byte)) : option colors :=
    match l with
    | [] => Some c
    | (k, v) :: l => match set_ext c k v with Some c => set_exts c l | None => None end
    end.
  Definition ext_colors (l : list (list byte * list byte)) : option colors :=
    match set_exts colors_init l with Some c => build_iext_trie c | None => None end.
End Trie.
