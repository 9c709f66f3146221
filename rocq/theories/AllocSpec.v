(** * What clients of the allocators rely on *)
From Coq Require Import List NArith Bool.
From Coq Require Import Init.Byte.
From Verif Require Import AllocModel.
Import ListNotations.
Local Open Scope N_scope.

(** ** Memory *)

(** Ranges of [snd r] bytes from [fst r] *)
Definition disjoint (r s : N * N) : Prop := fst r + snd r <= fst s \/ fst s + snd s <= fst r.
Definition inside (r s : N * N) : Prop := fst s <= fst r /\ fst r + snd r <= fst s + snd s.
Definition within (x : N) (r : N * N) : Prop := fst r <= x < fst r + snd r.

(** The memory obtained from the system so far *)
Definition obtained (v : varena) : list (N * N) := flat_map slabs (arenas v).

(** The system returns aligned memory that is not in use and does not wrap around
    the end of the address space. *)
Definition fair (used : list (N * N)) (o : oracle) : Prop :=
  forall align len base, o_slab o align len = Some base ->
    0 < base /\ base mod align = 0 /\ base + len <= W /\ forall r, In r used -> disjoint (base, len) r.

(** ** Objects with a flexible array *)

(** The layout of the type; pointers need at least 8 bytes of alignment. *)
Definition layout (align offset size : N) : Prop :=
  (exists k, 3 <= k <= 32 /\ align = 2 ^ k) /\ offset < 2 ^ 32 /\ 0 < size < 2 ^ 32.

(** The bytes of an object with [count] elements *)
Definition object (offset size : N) (b : N * N) : N * N := (fst b, offset + size * snd b).

Section History.
  Variables align offset size : N.

  (** Every state of a varena and its client.  [live] are the objects that have
      been allocated and not freed, with their counts.  Clients pass back the
      counts, free what they own, and write inside their objects. *)
  Inductive history : varena -> memory -> list (N * N) -> Prop :=
  | started m : history (varena_init align offset size) m []
  | allocated v m live count o p v' m' :
      history v m live -> fair (obtained v) o -> count <= 2 ^ 63 ->
      varena_alloc v m count o = Some (p, v', m') ->
      history v' m' (if p =? 0 then live else (p, count) :: live)
  | freed v m live1 p count live2 o v' m' :
      history v m (live1 ++ (p, count) :: live2) ->
      varena_free v m p count o = Some (v', m') ->
      history v' m' (live1 ++ live2)
  | reallocated v m live1 p count live2 count' o p' v' m' :
      history v m (live1 ++ (p, count) :: live2) -> fair (obtained v) o -> count' <= 2 ^ 63 ->
      varena_realloc v m p count count' o = Some (p', v', m') ->
      history v' m' (live1 ++ (if p' =? 0 then (p, count) else (p', count')) :: live2)
  | grown v m live1 p count live2 o p' count' v' m' :
      history v m (live1 ++ (p, count) :: live2) -> fair (obtained v) o -> count < 2 ^ 63 ->
      varena_grow v m p count o = Some (p', count', v', m') ->
      history v' m' (live1 ++ (if p' =? 0 then p else p', count') :: live2)
  | written v m live b x w :
      history v m live -> In b live -> within x (object offset size b) ->
      history v (store m x w) live.
End History.

(** The same for an arena of blocks of one size *)
Inductive arena_history (al sz : N) : arena -> memory -> list N -> Prop :=
| arena_started a m : arena_init al sz = Some a -> arena_history al sz a m []
| arena_allocated a m live o p a' m' :
    arena_history al sz a m live -> fair (slabs a) o -> arena_alloc a m o = (p, a', m') ->
    arena_history al sz a' m' (if p =? 0 then live else p :: live)
| arena_freed a m live1 p live2 a' m' :
    arena_history al sz a m (live1 ++ p :: live2) -> arena_free a m p = (a', m') ->
    arena_history al sz a' m' (live1 ++ live2)
| arena_written a m live p x w :
    arena_history al sz a m live -> In p live -> within x (p, sz) ->
    arena_history al sz a (store m x w) live.

(** Contents of an object are preserved *)
Definition same (m m' : memory) (r : N * N) : Prop := forall x, within x r -> m' x = m x.

(** ** Failures *)

(** An arena cannot grow: the block would be larger than the largest allocation,
    or the system has no memory for the block or for the list of blocks. *)
Definition refused (a : arena) (o : oracle) : Prop :=
  ALLOC_MAX < slab_size a \/ o_slab o (align a) (slab_size a) = None \/ o_grown o = false.

(** A request for [count] elements may fail. *)
Definition refusal (v : varena) (count : N) (o : oracle) : Prop :=
  (exists j, o_arenas o j = false) \/
  (exists a, arena_at v (N.to_nat (size_class v count)) = Some a /\ refused a o).

(** ** Growing arrays *)

(** Pushing a list of elements, each with the system's answer; the flags tell which
    were stored. *)
Fixpoint pushes (size : N) (l : list (list byte * answer)) (st : list byte * N) : option (list byte * N) :=
  match l with
  | [] => Some st
  | (e, a) :: l => match push size e a st with
                   | None => None
                   | Some st => pushes size l st
                   end
  end.

(** [a] is [b] with some elements left out. *)
Inductive sublist {A} : list A -> list A -> Prop :=
| sub_nil : sublist [] []
| sub_keep x a b : sublist a b -> sublist (x :: a) (x :: b)
| sub_skip x a b : sublist a b -> sublist a (x :: b).
