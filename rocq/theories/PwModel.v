(** * Model of src/pwcache.c

    Users and groups are cached by the same code, so that one model serves for both.
    An entry's memory comes from a [varena] (AllocModel.v: the blocks do not
    overlap, so that an entry stays what it was until the cache is flushed); the
    entries are kept in a list and a pointer is an index into it. *)
From Coq Require Import List NArith Arith Bool.
From Coq Require Import Init.Byte.
From Coq Require Strings.Byte.
From Verif Require Import TrieModel.
Import ListNotations.

Section Pw.
Variable account : Type.

(** The result of one call of getpwnam_r() or its like: an entry, no such entry,
    ERANGE (and whether growing the buffer succeeds), or another error *)
Inductive answer := Entry (x : account) | NoEntry | Small (grown : bool) | Error.

(** What a lookup returns: an entry, NULL with errno 0, NULL with an error *)
Inductive result := Hit (x : account) | Miss | Failed.

(** Values of trie leaves: NULL, MISSING (pwcache.c 15) or a pointer to an entry *)
Definition MISSING : N := 1.
Definition pointer (i : nat) : N := N.of_nat i + 2.
Definition deref (store : list account) (v : N) : option account := nth_error store (N.to_nat (v - 2)).

(** Storing in [leaf->value] *)
Definition set_leaf (tr : trie) (l : leaf) (v : N) : trie :=
  Trie (root tr) (order tr) (fun i => if Nat.eqb i (lid l) then v else values tr i) (next_id tr).

(** pwcache.c 36-56, the loop of [bfs_getent].  [None] if the answers run out. *)
Fixpoint getent_loop (ask : list answer) (tr : trie) (store : list account) (l : leaf) :
    option (trie * list account * result) :=
  match ask with
  | [] => None
  | Entry x :: _ => Some (set_leaf tr l (pointer (length store)), store ++ [x], Hit x)
  | NoEntry :: _ => Some (set_leaf tr l MISSING, store, Miss)
  | Small grown :: ask => if grown then getent_loop ask tr store l else Some (tr, store, Failed)
  | Error :: _ => Some (tr, store, Failed)
  end.

(** 21-57, [bfs_getent].  [mem] is whether the first buffer could be allocated. *)
Definition bfs_getent (mem : bool) (ask : list answer) (tr : trie) (store : list account) (l : leaf) :
    option (trie * list account * result) :=
  let v := values tr (lid l) in
  if negb (N.eqb v 0) then
    if N.eqb v MISSING then Some (tr, store, Miss)
    else match deref store v with Some x => Some (tr, store, Hit x) | None => None end
  else if mem then getent_loop ask tr store l
  else Some (tr, store, Failed).

(** 67-74 and 148-155 *)
Record cache := mkCache { by_name : trie; by_id : trie; store : list account }.

(** 76-86 and 157-167, [bfs_users_new] and [bfs_groups_new] *)
Definition cache_new : cache := mkCache trie_init trie_init [].

(** The bytes of an id (little-endian) *)
Definition byte_of (n : N) : byte := match Byte.of_N (n mod 256) with Some b => b | None => x00 end.
Definition id_key (id : N) : key :=
  [byte_of id; byte_of (id / 256); byte_of (id / 256 / 256); byte_of (id / 256 / 256 / 256)].

Section Lookups.
Variable omax : nat.

(** 97-104 and 178-185, [bfs_getpwnam] and [bfs_getgrnam].  [a] are the outcomes of
    the trie's allocations. *)
Definition lookup_name (a : allocs) (mem : bool) (ask : list answer) (c : cache) (name : list byte) : option (cache * result) :=
  match insert_mem omax a (by_name c) (cstr name) with
  | (tr, Found l) => match bfs_getent mem ask tr (store c) l with
                     | Some (tr, st, r) => Some (mkCache tr (by_id c) st, r)
                     | None => None
                     end
  | (tr, Null) => Some (mkCache tr (by_id c) (store c), Failed)
  | (_, Assert) => None
  end.

(** 116-123 and 197-204, [bfs_getpwuid] and [bfs_getgrgid] *)
Definition lookup_id (a : allocs) (mem : bool) (ask : list answer) (c : cache) (id : N) : option (cache * result) :=
  match insert_mem omax a (by_id c) (id_key id) with
  | (tr, Found l) => match bfs_getent mem ask tr (store c) l with
                     | Some (tr, st, r) => Some (mkCache (by_name c) tr st, r)
                     | None => None
                     end
  | (tr, Null) => Some (mkCache (by_name c) tr (store c), Failed)
  | (_, Assert) => None
  end.

(** 125-129 and 206-210, [bfs_users_flush] and [bfs_groups_flush] *)
Definition flush (c : cache) : cache := mkCache (clear (by_name c)) (clear (by_id c)) [].
End Lookups.
End Pw.
Arguments Entry {account}. Arguments NoEntry {account}. Arguments Small {account}. Arguments Error {account}.
Arguments Hit {account}. Arguments Miss {account}. Arguments Failed {account}.
