(** Property theorems for the allocators: C22. *)
From Coq Require Import List NArith Bool Lia.
From Coq Require Import Init.Byte.
From Verif Require Import AllocModel AllocSpec AllocSizes AllocProofs AllocVarena.
Import ListNotations.
Local Open Scope N_scope.

(** C22: whatever was allocated, freed, resized and written before, the live objects
    do not overlap, are aligned, and lie in memory obtained from the system. *)
Theorem C22_objects : forall align offset size v m live,
  layout align offset size -> history align offset size v m live ->
  (forall i j b c, nth_error live i = Some b -> nth_error live j = Some c -> i <> j ->
     disjoint (object offset size b) (object offset size c)) /\
  (forall b, In b live -> fst b <> 0 /\ fst b mod align = 0 /\
     exists r, In r (obtained v) /\ inside (object offset size b) r).
Proof.
  exact objects_ok.
Qed.
Print Assumptions C22_objects.

(** C22: allocation fails no assertion and disturbs no live object.  It returns NULL
    only if the system refuses. *)
Theorem C22_alloc : forall align offset size v m live count o,
  layout align offset size -> history align offset size v m live ->
  fair (obtained v) o -> count <= 2 ^ 63 ->
  exists p v' m', varena_alloc v m count o = Some (p, v', m') /\
    (forall b, In b live -> same m m' (object offset size b)) /\
    (p = 0 -> refusal v' count o).
Proof.
  exact alloc_property.
Qed.
Print Assumptions C22_alloc.

(** C22: so does freeing a live object. *)
Theorem C22_free : forall align offset size v m live1 p count live2 o,
  layout align offset size -> history align offset size v m (live1 ++ (p, count) :: live2) ->
  exists v' m', varena_free v m p count o = Some (v', m') /\
    (forall b, In b (live1 ++ live2) -> same m m' (object offset size b)).
Proof.
  exact free_property.
Qed.
Print Assumptions C22_free.

(** C22: resizing keeps the common part of the contents. *)
Theorem C22_realloc : forall align offset size v m live1 p count live2 count' o,
  layout align offset size -> history align offset size v m (live1 ++ (p, count) :: live2) ->
  fair (obtained v) o -> count' <= 2 ^ 63 ->
  exists p' v' m', varena_realloc v m p count count' o = Some (p', v', m') /\
    (forall b, In b (live1 ++ live2) -> same m m' (object offset size b)) /\
    (p' = 0 -> same m m' (object offset size (p, count)) /\ refusal v' count' o) /\
    (p' <> 0 -> forall x, x < offset + size * count -> x < offset + size * count' -> m' (p' + x) = m (p + x)).
Proof.
  exact realloc_property.
Qed.
Print Assumptions C22_realloc.

(** C22: growing makes room for at least one more element. *)
Theorem C22_grow : forall align offset size v m live1 p count live2 o,
  layout align offset size -> history align offset size v m (live1 ++ (p, count) :: live2) ->
  fair (obtained v) o -> count < 2 ^ 63 ->
  exists p' count' v' m', varena_grow v m p count o = Some (p', count', v', m') /\
    (forall b, In b (live1 ++ live2) -> same m m' (object offset size b)) /\
    (p' = 0 -> count' = count /\ same m m' (object offset size (p, count))) /\
    (p' <> 0 -> count < count' /\ forall x, x < offset + size * count -> m' (p' + x) = m (p + x)).
Proof.
  exact grow_property.
Qed.
Print Assumptions C22_grow.

(** C22: the same for an arena whose blocks have one size. *)
Theorem C22_arena : forall align size a m live,
  (exists k, 3 <= k <= 32 /\ align = 2 ^ k) -> size mod align = 0 -> 0 < size < W ->
  arena_history align size a m live ->
  (forall i j p q, nth_error live i = Some p -> nth_error live j = Some q -> i <> j -> disjoint (p, size) (q, size)) /\
  (forall p, In p live -> p <> 0 /\ p mod align = 0 /\ exists r, In r (slabs a) /\ inside (p, size) r).
Proof.
  exact arena_blocks_ok.
Qed.
Print Assumptions C22_arena.

Theorem C22_arena_contents : forall align size a m live,
  (exists k, 3 <= k <= 32 /\ align = 2 ^ k) -> size mod align = 0 -> 0 < size < W ->
  arena_history align size a m live ->
  (forall o p a' m', fair (slabs a) o -> arena_alloc a m o = (p, a', m') ->
     (forall q, In q live -> same m m' (q, size)) /\ (p = 0 -> refused a o)) /\
  (forall live1 p live2 a' m', live = live1 ++ p :: live2 -> arena_free a m p = (a', m') ->
     forall q, In q (live1 ++ live2) -> same m m' (q, size)).
Proof.
  exact arena_contents_ok.
Qed.
Print Assumptions C22_arena_contents.

(** C22: sizes that do not fit are rounded to the largest size, never wrapped around. *)
Theorem C22_size_add : forall a b, a < W -> b < W -> size_add a b = N.min (a + b) SIZE_MAX.
Proof.
  exact size_add_value.
Qed.
Print Assumptions C22_size_add.

Theorem C22_size_mul : forall a b, 0 < a -> b < W -> size_mul a b = N.min (a * b) SIZE_MAX.
Proof.
  exact size_mul_value.
Qed.
Print Assumptions C22_size_mul.

(** C22: the size of an object that can be allocated at all is large enough, and is
    the least multiple of the alignment that is. *)
Theorem C22_flex_size : forall k offset size count,
  k <= 32 -> offset < 2 ^ 32 -> 0 < size -> count < W ->
  flex_size (2 ^ k) offset size count mod 2 ^ k = 0 /\
  (flex_size (2 ^ k) offset size count <= ALLOC_MAX ->
     offset + size * count <= flex_size (2 ^ k) offset size count < offset + size * count + 2 ^ k).
Proof.
  exact flex_size_property.
Qed.
Print Assumptions C22_flex_size.

(** C22: elements pushed onto an array never fall outside of the block and are all
    kept in order.  Those for which no memory was available are left out. *)
Theorem C22_array : forall size l, 0 < size -> (forall e a, In (e, a) l -> N.of_nat (length e) = size) ->
  exists block stored, pushes size l ([], 0) = Some (block, N.of_nat (length stored)) /\
    sublist stored (map fst l) /\
    firstn (N.to_nat (size * N.of_nat (length stored))) block = concat stored /\
    ((forall e, ~ In (e, None) l) -> 2 * size * N.of_nat (length l) <= ALLOC_MAX -> stored = map fst l).
Proof.
  exact array_history.
Qed.
Print Assumptions C22_array.

(** C22: rounding a size up to an alignment gives the least multiple of it that is large enough. *)
Theorem C22_align_ceil : forall k n, k < 64 -> 0 < n -> n + 2 ^ k <= 2 ^ 64 ->
  align_ceil (2 ^ k) n = (n + 2 ^ k - 1) / 2 ^ k * 2 ^ k.
Proof.
  exact align_ceil_value.
Qed.
Print Assumptions C22_align_ceil.

Module Examples.
  (** Strings with a header of 16 bytes *)
  Definition lay : layout 8 16 1.
  Proof. repeat split; try reflexivity. exists 3. repeat split; discriminate || reflexivity. Qed.

  (** A system with slabs at multiples of 2^32, the number given by the caller *)
  Definition sys (i : N) : oracle := mkOracle (fun _ len => if len <=? 2 ^ 30 then Some (i * 2 ^ 32) else None) true (fun _ => true).
  Definition m0 : memory := fun _ => 7.

  Definition v0 := varena_init 8 16 1.

  (** Two objects of different sizes and a freed one in between *)
  Example three :
    match varena_alloc v0 m0 20 (sys 1) with
    | Some (p1, v, m) =>
        match varena_alloc v m 100 (sys 2) with
        | Some (p2, v, m) =>
            match varena_alloc v m 20 (sys 3) with
            | Some (p3, v, m) =>
                match varena_free v m p1 20 (sys 4) with
                | Some (v, m) =>
                    match varena_alloc v m 17 (sys 5), varena_realloc v m p3 20 300 (sys 6) with
                    | Some (p4, _, _), Some (p5, _, _) => (p1, p2, p3, p4, p5)
                    | _, _ => (0, 0, 0, 0, 0)
                    end
                | None => (0, 0, 0, 0, 0)
                end
            | None => (0, 0, 0, 0, 0)
            end
        | None => (0, 0, 0, 0, 0)
        end
    | None => (0, 0, 0, 0, 0)
    end = (4294967296, 2 * 4294967296, 4294967296 + 48, 4294967296, 6 * 4294967296).
  Proof. vm_compute. reflexivity. Qed.

  (** Histories with live objects exist. *)
  Definition sys8 : oracle := mkOracle (fun al len => if (al =? 8) && (len <=? 2 ^ 30) then Some (2 ^ 32) else None) true (fun _ => true).
  Example fair_sys8 : fair (obtained v0) sys8.
  Proof.
    intros al len base. unfold sys8. cbn [o_slab]. destruct (N.eqb_spec al 8) as [->|]; [|discriminate].
    destruct (N.leb_spec len (2 ^ 30)) as [L|L]; [|discriminate].
    intros [= <-]. split; [reflexivity|]. split; [reflexivity|]. split.
    - transitivity (2 ^ 32 + 2 ^ 30); [lia|]. discriminate.
    - intros r [].
  Qed.
  Example one_object : exists v m, history 8 16 1 v m [(4294967296, 20)].
  Proof.
    assert (P : match varena_alloc v0 m0 20 sys8 with Some (p, _, _) => p | None => 0 end = 4294967296) by (vm_compute; reflexivity).
    destruct (varena_alloc v0 m0 20 sys8) as [[[p v] m]|] eqn:E; [|discriminate]. subst p. exists v, m.
    exact (allocated 8 16 1 v0 m0 [] 20 sys8 4294967296 v m (started 8 16 1 m0) fair_sys8 ltac:(discriminate) E).
  Qed.

  (** An arena with two live blocks *)
  Definition a0 := mkArena 0 [] 8 24.
  Example two_blocks : exists a m, arena_history 8 24 a m [4294967320; 4294967296].
  Proof.
    assert (P : let '(p, a, m) := arena_alloc a0 m0 sys8 in let '(q, _, _) := arena_alloc a m sys8 in (p, q) = (4294967296, 4294967320))
      by (vm_compute; reflexivity).
    assert (F : fair (slabs a0) sys8) by (intros al len base E; destruct (fair_sys8 al len base E) as (A & B & C & _); repeat split; try assumption; intros r []).
    assert (NZ : chunks (snd (fst (arena_alloc a0 m0 sys8))) <> 0) by (vm_compute; discriminate).
    destruct (arena_alloc a0 m0 sys8) as [[p a] m] eqn:E1. destruct (arena_alloc a m sys8) as [[q a'] m'] eqn:E2. injection P as -> ->.
    cbn [fst snd] in NZ. exists a', m'.
    pose (none := mkOracle (fun _ _ => None) true (fun _ => true)).
    assert (E3 : arena_alloc a m none = (4294967320, a', m')).
    { rewrite <- E2. unfold arena_alloc. destruct (N.eqb_spec (chunks a) 0); [contradiction|reflexivity]. }
    apply (arena_allocated 8 24 a m [4294967296] none 4294967320 a' m'); [|intros al len base H; discriminate|exact E3].
    apply (arena_allocated 8 24 a0 m0 [] sys8 4294967296 a m); [constructor; reflexivity|exact F|exact E1].
  Qed.

  Example pushed :
    match pushes 2 [([x61; x62], Some (fun _ => x00)); ([x63; x64], None); ([x65; x66], Some (fun _ => x00)); ([x67; x68], Some (fun _ => xff))] ([], 0)
    with Some (b, n) => Some (firstn 6 b, length b, n) | None => None end
    = Some ([x61; x62; x65; x66; x67; x68], 8%nat, 3).
  Proof. vm_compute. reflexivity. Qed.
End Examples.
