(** * Model of the timestamp arithmetic in src/xtime.c

    [tv_sec] is a 64 bit signed integer and [tv_nsec] a 64 bit [long].  [None] is
    signed overflow, whose behaviour is undefined. *)
From Coq Require Import ZArith Bool.
Local Open Scope Z_scope.

Record timespec := mkTs { tv_sec : Z; tv_nsec : Z }.

Definition NS : Z := 1000000000.

Definition s64 (x : Z) : option Z :=
  if (- 2 ^ 63 <=? x) && (x <? 2 ^ 63) then Some x else None.
Definition bind {A B} (o : option A) (f : A -> option B) : option B :=
  match o with Some a => f a | None => None end.

(** src/xtime.c 360-367 *)
Definition timespec_add (lhs rhs : timespec) : option timespec :=
  bind (s64 (tv_sec lhs + tv_sec rhs)) (fun sec =>
  bind (s64 (tv_nsec lhs + tv_nsec rhs)) (fun nsec =>
  if NS <=? nsec then bind (s64 (sec + 1)) (fun sec' => Some (mkTs sec' (nsec - NS)))
  else Some (mkTs sec nsec))).

(** src/xtime.c 369-376 *)
Definition timespec_sub (lhs rhs : timespec) : option timespec :=
  bind (s64 (tv_sec lhs - tv_sec rhs)) (fun sec =>
  bind (s64 (tv_nsec lhs - tv_nsec rhs)) (fun nsec =>
  if nsec <? 0 then bind (s64 (sec - 1)) (fun sec' => Some (mkTs sec' (nsec + NS)))
  else Some (mkTs sec nsec))).

(** src/xtime.c 378-392 *)
Definition timespec_cmp (lhs rhs : timespec) : Z :=
  if tv_sec lhs <? tv_sec rhs then -1
  else if tv_sec rhs <? tv_sec lhs then 1
  else if tv_nsec lhs <? tv_nsec rhs then -1
  else if tv_nsec rhs <? tv_nsec lhs then 1
  else 0.

(** src/xtime.c 394-398; the new value of [*dest] *)
Definition timespec_min (dest src : timespec) : timespec :=
  if timespec_cmp src dest <? 0 then src else dest.

(** src/xtime.c 400-404 *)
Definition timespec_max (dest src : timespec) : timespec :=
  if timespec_cmp src dest >? 0 then src else dest.
