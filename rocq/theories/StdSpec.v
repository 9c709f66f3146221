(** * Standard streams *)
From Coq Require Import List Bool.
From Verif Require Import StdModel.
Import ListNotations.

(** What read() and write() on a descriptor do: with O_PATH they fail *)
Definition readable (f : file) : bool := match f with DevNull O_PATH | DevNull O_WRONLY => false | _ => true end.
Definition writable (f : file) : bool := match f with DevNull O_PATH | DevNull O_RDONLY => false | _ => true end.

(** The descriptors from the start of the program are as they were, except that
    some standard streams may be open to /dev/null. *)
Record safe (t t' : table) : Prop := {
  safe_kept : forall fd f, get t fd = Some f -> get t' fd = Some f;
  safe_new : forall fd, get t fd = None -> 3 <= fd -> get t' fd = None;
  safe_std : forall fd, get t fd = None -> fd < 3 ->
    get t' fd = None \/ exists m, get t' fd = Some (DevNull m) /\
      (fd = 0 -> readable (DevNull m) = false) /\ (0 < fd -> writable (DevNull m) = false)
}.
