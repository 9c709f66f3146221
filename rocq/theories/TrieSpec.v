(** Specification of the trie as an insertion-ordered list of entries.
    It mentions neither tree nodes nor nibbles. *)

From Coq Require Import List NArith Bool.
From Coq Require Import Init.Byte.
From Verif Require Import TrieModel.
Import ListNotations.

(** One stored entry: the identity of its leaf, its key, its value. *)
Record entry := Entry { e_id : nat; e_key : key; e_val : N }.

(** [a] is a prefix of [b]. *)
Definition prefix {A} (a b : list A) : Prop := exists c, b = a ++ c.

(** A new entry may not have a key that extends or is extended by a stored
    key: the trie's documented contract is that keys are prefix-free. *)
Definition compatible (es : list entry) (k : key) : Prop :=
  forall e, In e es -> ~ prefix (e_key e) k /\ ~ prefix k (e_key e).

Definition set_value (k : key) (v : N) (es : list entry) : list entry :=
  map (fun e => if key_eqb (e_key e) k then Entry (e_id e) (e_key e) v else e) es.

Definition delete (k : key) (es : list entry) : list entry :=
  filter (fun e => negb (key_eqb (e_key e) k)) es.

(** [step es o es' r]: operation [o] on the entries [es] may end in [es'] and
    return [r]. *)
Inductive step : list entry -> op -> list entry -> out -> Prop :=
(* inserting a key that is already there returns its leaf *)
| s_insert_old es a k e : In e es -> e_key e = k ->
    step es (OInsert a k) es (RLeaf (e_id e) k)
(* inserting a new key adds an entry with a fresh identity, at the end *)
| s_insert_new es a k id : k <> [] -> compatible es k -> ~ In id (map e_id es) ->
    step es (OInsert a k) (es ++ [Entry id k 0%N]) (RLeaf id k)
(* ... or fails, if an allocation failed, and then changes nothing *)
| s_insert_nomem es a k : compatible es k ->
    (a_leaf a = false \/ (exists n, a_jump a n = false) \/ a_node a = false) ->
    step es (OInsert a k) es RNull
(* keys that violate the contract are turned down: the empty key in an empty trie, *)
| s_insert_empty a : step [] (OInsert a []) [] RNull
(* an extension of a stored key, *)
| s_insert_longer es a k e : In e es -> prefix (e_key e) k -> e_key e <> k ->
    step es (OInsert a k) es RNull
(* a proper prefix of a stored key (which returns some such key's leaf) *)
| s_insert_shorter es a k e : In e es -> prefix k (e_key e) -> e_key e <> k ->
    step es (OInsert a k) es (RLeaf (e_id e) (e_key e))
(* setting a value is inserting and then storing the value in the returned leaf *)
| s_set_ok es a k v es' id k' : step es (OInsert a k) es' (RLeaf id k') ->
    step es (OSet a k v) (set_value k' v es') (RDone true)
| s_set_fail es a k v : step es (OInsert a k) es RNull ->
    step es (OSet a k v) es (RDone false)
| s_find es k e : In e es -> e_key e = k -> step es (OFind k) es (RLeaf (e_id e) k)
| s_find_none es k : (forall e, In e es -> e_key e <> k) -> step es (OFind k) es RNull
| s_get es k e : In e es -> e_key e = k -> step es (OGet k) es (RValue (e_val e))
| s_get_none es k : (forall e, In e es -> e_key e <> k) -> step es (OGet k) es (RValue 0)
| s_remove es k e : In e es -> e_key e = k -> step es (ORemove k) (delete k es) (RDone true)
| s_remove_none es k : (forall e, In e es -> e_key e <> k) -> step es (ORemove k) es (RDone false)
| s_clear es : step es OClear [] (RDone true)
| s_iterate es : step es OIterate es (RAll (map (fun e => (e_id e, e_key e)) es)).

Inductive steps : list entry -> list op -> list entry -> list out -> Prop :=
| steps_nil es : steps es [] es []
| steps_cons es o es1 r ops es2 rs :
    step es o es1 r -> steps es1 ops es2 rs -> steps es (o :: ops) es2 (r :: rs).

(** A NUL-terminated string: no NUL inside. *)
Definition nul_free (s : list byte) : Prop := ~ In x00 s.

(** The operations on NUL-terminated strings (trie_insert_str etc.). *)
Definition str_op (o : op) : Prop :=
  match o with
  | OInsert _ k | OSet _ k _ | OFind k | OGet k | ORemove k =>
      exists s, nul_free s /\ k = cstr s
  | OClear | OIterate => True
  end.

(** [s] is stored in [es]. *)
Definition stored (es : list entry) (s : list byte) (id : nat) : Prop :=
  exists e, In e es /\ e_key e = cstr s /\ e_id e = id.

(** The same in terms of values only, for histories in which no allocation
    fails and all keys come from a prefix-free set: the value of [k] is the
    one last set and not removed since; 0 (NULL) if there is none. *)
Fixpoint last_value (k : key) (ops : list op) (v : N) : N :=
  match ops with
  | [] => v
  | OSet _ k' v' :: ops => last_value k ops (if key_eqb k' k then v' else v)
  | ORemove k' :: ops => last_value k ops (if key_eqb k' k then 0%N else v)
  | OClear :: ops => last_value k ops 0%N
  | (OInsert _ _ | OFind _ | OGet _ | OIterate) :: ops => last_value k ops v
  end.

(** No key in [K] is a prefix of another one, and none is empty. *)
Definition prefix_free (K : key -> Prop) : Prop :=
  ~ K [] /\ forall k1 k2, K k1 -> K k2 -> prefix k1 k2 -> k1 = k2.

(** [o] only uses keys in [K], and its allocations succeed. *)
Definition plain_op (K : key -> Prop) (o : op) : Prop :=
  match o with
  | OInsert a k | OSet a k _ => K k /\ a_leaf a = true /\ (forall n, a_jump a n = true) /\ a_node a = true
  | OFind k | OGet k | ORemove k => K k
  | OClear | OIterate => True
  end.
