(** * Mounts *)
From Coq Require Import String.
From Coq Require Import List NArith Init.Byte.
From Verif Require Import PathModel PathSpec MtabModel.
Import ListNotations.
Local Open Scope N_scope.

(** The state of the system: what lstat() says of a path; whether a file system is mounted there, so that the path is
    the root of a mount; and the type of each mount. *)
Record world := mkWorld { at_path : list byte -> option stat; mounted : list byte -> bool; type_of : N -> list byte }.

(** An absolute path, from the names in it *)
Definition absolute (names : list (list byte)) : list byte :=
  match names with [] => [slash] | _ => concat (map (cons slash) names) end.
(** A path as it is in the mount table *)
Definition canonical (p : list byte) : Prop :=
  exists names, Forall (fun n => is_name n /\ ~ In x00 n) names /\ p = absolute names.

(** The directory of a path *)
Definition parent_of (p d : list byte) : Prop := exists n off, dir_base p d n off.

(** A path that leads from a directory to another one on the same device *)
Definition same_device (w : world) (p : list byte) : Prop :=
  exists d ps s, parent_of p d /\ at_path w d = Some ps /\ at_path w p = Some s /\ dev ps = dev s /\ ino ps <> ino s.

(** The table is right about the mounts there are.  There may be others, which were unmounted since or covered by later
    ones: on the same path, so that the last one counts, or on an earlier part of the path. *)
Record right (w : world) (table : list (list byte * list byte)) : Prop := {
  r_paths : forall p t, In (p, t) table -> canonical p;
  r_types : forall before p t after s, table = before ++ (p, t) :: after -> ~ In p (map fst after) ->
              at_path w p = Some s -> mounted w p = true -> t = type_of w (mnt_id s);
  r_others : forall p t s, In (p, t) table -> at_path w p = Some s -> mounted w p = false -> same_device w p;
  r_ids : forall p s, at_path w p = Some s -> mnt_id s < 2 ^ 64 }.

(** The system calls tell the truth.  Directories may be forbidden, unless they are those of mounts there were. *)
Record tells (w : world) (table : list (list byte * list byte)) {D} (open_dir : list byte -> option D) (fstat : D -> option stat) (statat : option D -> list byte -> option stat) : Prop := {
  t_open : forall p d s, open_dir p = Some d -> fstat d = Some s -> at_path w p = Some s;
  t_path : forall p, statat None p = at_path w p;
  t_name : forall p dir n off d, canonical p -> dir_base p dir n off -> open_dir dir = Some d -> statat (Some d) n = at_path w p;
  t_others : forall p t dir, In (p, t) table -> mounted w p = false -> parent_of p dir -> exists d, open_dir dir = Some d /\ fstat d = at_path w dir }.

Definition unknown_type : list byte := list_byte_of_string "unknown".
