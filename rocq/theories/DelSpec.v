(** * What -delete should do *)
From Coq Require Import List Bool Arith Init.Byte.
From Verif Require Import BftwModel BftwSpec DelModel.
Import ListNotations.

Section Spec.
  Context {U : Type}.
  Variables (w : env U) (kind : pos -> ftype) (d : disk) (c : command).

  (** How deep a file is below the root that it was found from *)
  Definition depth (p : pos) : nat := length p - 1.

  (** A directory (or a symbolic link that is followed to one) in which files are looked for *)
  Definition searched (p : pos) : Prop := kind p = BFS_DIR /\ excluded c p = false /\ depth p < maxdepth c.

  (** A file that there is, with all the directories above it being searched *)
  Definition found (p : pos) : Prop := node_at w p <> None /\ forall r q, p = r ++ q -> r <> [] -> q <> [] -> searched q.

  (** [removed] is what -delete may and must leave removed at last: exactly those files are removed
      that are found, that the limits and tests select, that the system allows to remove, and that are
      not directories from which something was not removed.  The starting point . is never removed. *)
  Definition settled (removed : pos -> Prop) (want : pos -> Prop) : Prop := forall p,
    removed p <->
      found p /\ mindepth c <= depth p /\ excluded c p = false /\ want p /\
      path_at w p <> ["."%byte] /\ permitted d p = true /\
      (real_dir d p = true -> forall k, k < entries d p -> removed (k :: p)).

  (** The tests may only depend on what was removed below the file. *)
  Definition local : Prop := forall l l' p,
    (forall r, r <> [] -> (In (r ++ p) l <-> In (r ++ p) l')) -> wants c l p = wants c l' p.

  (** Everything at or below [p] *)
  Definition all_below (p : pos) (P : pos -> Prop) : Prop := forall r, node_at w (r ++ p) <> None -> P (r ++ p).
End Spec.

(** A plain search for -delete: no limits on the depth, nothing excluded, symbolic links not followed;
    nothing keeps the system from removing files. *)
Record plain {U} (w : env U) (kind : pos -> ftype) (d : disk) (c : command) : Prop := {
  pl_min : mindepth c = 0;
  pl_max : forall p, node_at w p <> None -> depth p < maxdepth c;
  pl_excluded : forall p, excluded c p = false;
  pl_kind : forall p, kind p = BFS_DIR <-> real_dir d p = true;
  pl_entries : forall p, entries d p = length (kids_at w p);
  pl_kids : forall p, p <> [] -> kids_at w p <> [] -> real_dir d p = true;
  pl_permitted : forall p, permitted d p = true;
  pl_dot : forall p, node_at w p <> None -> path_at w p <> ["."%byte] }.

(** -empty: a directory from which all entries are gone, or a regular file without any bytes *)
Definition empty (d : disk) (void : pos -> bool) (removed : list pos) (p : pos) : bool :=
  if real_dir d p then forallb (fun k => existsb (fun q => if list_eq_dec Nat.eq_dec q (k :: p) then true else false) removed) (seq 0 (entries d p))
  else void p.

(** How a search for -delete must be set up: by options, the tree and the file system.  [kind] are the types of the files. *)
Record set_up (w : env (list pos)) (kind : pos -> ftype) (d : disk) (c : command) : Prop := {
  su_callback : callback w = del_callback d c;
  su_named : named w;
  su_look : forall n p, look w n p = kind p;
  su_kind : forall p, kind p <> BFS_ERROR;
  su_post : fl_post_order w = true;
  su_recover : fl_recover w = true;
  su_mounts : fl_skip_mounts w = false /\ fl_prune_mounts w = false }.
