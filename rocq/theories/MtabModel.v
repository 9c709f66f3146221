(** * The mount table: src/mtab.c, as built with getmntent() *)
From Coq Require Import String.
From Coq Require Import List NArith Arith Bool Init.Byte.
From Coq Require Import Strings.Byte.
From Verif Require Import TrieModel PathModel PwModel.
Import ListNotations.
Local Open Scope nat_scope.

(** src/mtab.c 41-48, [struct bfs_mount] *)
Record mount := mkMount { path : list byte; type : list byte }.
(** 50-66, [struct bfs_mtab] *)
Record mtab := mkMtab { mounts : list mount; names : trie; types : trie; types_filled : bool }.
(** The part of [struct bfs_stat] that is used here *)
Record stat := mkStat { dev : N; ino : N; mnt_id : N }.

(** Allocations succeed. *)
Definition ok : allocs := Allocs true (fun _ => true) true.
(** The bytes of a number, little-endian *)
Fixpoint bytes_of (k : nat) (n : N) : list byte :=
  match k with O => [] | S k => byte_of n :: bytes_of k (n / 256) end.
Definition mnt_key (n : N) : key := bytes_of 8 n.
(** strcmp() == 0 *)
Definition str_eqb (a b : list byte) : bool := if list_eq_dec byte_eq_dec a b then true else false.

Section Mtab.
  Variable omax : nat.

  (** 72-105.  [None] is an error. *)
  Definition bfs_mtab_add (m : mtab) (p t : list byte) : option mtab :=
    let name := skipn (xbaseoff p) p in
    match insert_mem omax ok (names m) (cstr name) with
    | (tr, Found _) => Some (mkMtab (mounts m ++ [mkMount p t]) tr (types m) (types_filled m))
    | _ => None
    end.

  (** 107-193; the table is what getmntent() returns, one by one. *)
  Fixpoint add_all (m : mtab) (table : list (list byte * list byte)) : option mtab :=
    match table with
    | [] => Some m
    | (p, t) :: table => match bfs_mtab_add m p t with Some m => add_all m table | None => None end
    end.
  Definition bfs_mtab_parse (table : list (list byte * list byte)) : option mtab :=
    add_all (mkMtab [] trie_init trie_init false) table.

  (** 290-292 *)
  Definition bfs_might_be_mount (m : mtab) (name : list byte) : bool :=
    match find_mem (names m) (cstr name) with Found _ => true | _ => false end.

  Section Kernel.
    (** open(p, O_SEARCH | O_DIRECTORY), and bfs_stat() of the open directory and of a path relative to it or to the
        current directory, both without following the last component *)
    Variables (D : Type) (open_dir : list byte -> option D) (fstat : D -> option stat) (statat : option D -> list byte -> option stat).

    (** The variables [parent_dir], [parent_fd] and [parent_stat] (or a parent_ret of -1) *)
    Definition parent : Type := list byte * option D * option stat.
    (** 227-233 *)
    Definition open_parent (dir : list byte) : parent :=
      let fd := open_dir dir in
      (dir, fd, match fd with Some d => fstat d | None => None end).
    (** 219-234 *)
    Definition next_parent (cur : option parent) (dir : list byte) : parent :=
      match cur with
      | Some (parent_dir, fd, st) => if str_eqb parent_dir dir then (parent_dir, fd, st) else open_parent dir
      | None => open_parent dir
      end.
    (** 246 *)
    Definition not_a_mount (parent_stat : option stat) (sb : stat) : bool :=
      match parent_stat with
      | Some ps => N.eqb (dev ps) (dev sb) && negb (N.eqb (ino ps) (ino sb))
      | None => false
      end.
    (** 195-265.  The value of a leaf is a pointer to the type of the mount, here its index plus one. *)
    Fixpoint fill_types (i : nat) (l : list mount) (cur : option parent) (tr : trie) : option trie :=
      match l with
      | [] => Some tr
      | m :: l =>
          let cur := next_parent cur (xdirname (path m)) in
          let '(_, fd, st) := cur in
          let name := match fd with Some _ => skipn (xbaseoff (path m)) (path m) | None => path m end in
          match statat fd name with
          | None => fill_types (S i) l (Some cur) tr
          | Some sb =>
              if not_a_mount st sb then fill_types (S i) l (Some cur) tr
              else match set_mem omax ok tr (mnt_key (mnt_id sb)) (N.of_nat (S i)) with
                   | (tr, Some true) => fill_types (S i) l (Some cur) tr
                   | _ => None
                   end
          end
      end.
    Definition bfs_mtab_fill_types (m : mtab) : option mtab :=
      match fill_types 0 (mounts m) None (types m) with
      | Some tr => Some (mkMtab (mounts m) (names m) tr true)
      | None => None
      end.

    Definition unknown : list byte := list_byte_of_string "unknown".
    (** 275-288.  [None] is an error. *)
    Definition bfs_fstype (m : mtab) (sb : stat) : option (mtab * list byte) :=
      match (if types_filled m then Some m else bfs_mtab_fill_types m) with
      | None => None
      | Some m =>
          match get_mem (types m) (mnt_key (mnt_id sb)) with
          | Some 0%N => Some (m, unknown)
          | Some v => match nth_error (mounts m) (N.to_nat v - 1) with Some x => Some (m, type x) | None => None end
          | None => None
          end
      end.
    (** -fstype, or -printf %F, on one file after another *)
    Fixpoint fstypes (m : mtab) (l : list stat) : option (list (list byte)) :=
      match l with
      | [] => Some []
      | s :: l =>
          match bfs_fstype m s with
          | Some (m, t) => match fstypes m l with Some ts => Some (t :: ts) | None => None end
          | None => None
          end
      end.
  End Kernel.
End Mtab.
