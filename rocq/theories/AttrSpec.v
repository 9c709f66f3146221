(** * What the tests for ACLs, capabilities, extended attributes and security contexts mean *)
From Coq Require Import List ZArith Bool String Init.Byte.
From Verif Require Import AttrModel.
Import ListNotations.

(** The system says that a file has none, or that its file system does not support them. *)
Definition absence (e : errno) : Prop := In e [ENOTSUP; ENODATA; EINVAL].

(** Two paths lead to the same file: the system gives the same answers. *)
Definition same (w : system) (p q : list byte) : Prop :=
  (forall t, acl_get_file w p t = acl_get_file w q t) /\ cap_get_file w p = cap_get_file w q /\
  (forall b, listxattr w b p = listxattr w b q) /\ (forall b n, getxattr w b p n = getxattr w b q n) /\
  (forall b, getfilecon w b p = getfilecon w b q).

(** The directory of an open file descriptor *)
Definition fd_dir (w : system) (fd : Z) : list byte := list_byte_of_string "/proc/self/fd/" ++ printf_d w fd ++ list_byte_of_string "/".
(** If there is such a directory for one descriptor, there is for this one, and the path of the file can be given relative to it. *)
Definition consistent (w : system) (f : ftwbuf) : Prop :=
  forall fd0 fd, access w (fd_dir w fd0) = true -> at_fd f = Some fd -> same w (fd_dir w fd ++ at_path f) (path f).
(** What earlier tests leave: they have looked for one. *)
Definition known (w : system) (st : shared) : Prop := (0 < proc_works st)%Z -> exists fd, access w (fd_dir w fd) = true.

(** The file has an ACL that says more than its permissions, or directories, one for new files.  Links have none. *)
Definition has_acl (w : system) (f : ftwbuf) : Prop :=
  is_link f = false /\
  ((exists a x, acl_get_file w (path f) ACL_TYPE_ACCESS = inl a /\ In (inl x) a /\ ~ In x [USER_OBJ; GROUP_OBJ; OTHER]) \/
   (is_dir f = true /\ exists a, acl_get_file w (path f) ACL_TYPE_DEFAULT = inl a /\ a <> [])).
(** Something goes wrong when looking for one of them. *)
Definition access_trouble (w : system) (f : ftwbuf) (e : errno) : Prop :=
  (acl_get_file w (path f) ACL_TYPE_ACCESS = inr e /\ ~ absence e) \/ (exists a, acl_get_file w (path f) ACL_TYPE_ACCESS = inl a /\ In (inr e) a).
Definition default_trouble (w : system) (f : ftwbuf) (e : errno) : Prop :=
  is_dir f = true /\ acl_get_file w (path f) ACL_TYPE_DEFAULT = inr e /\ ~ absence e.
Definition acl_trouble (w : system) (f : ftwbuf) (e : errno) : Prop := is_link f = false /\ (access_trouble w f e \/ default_trouble w f e).

(** The file has capabilities. *)
Definition has_capabilities (w : system) (f : ftwbuf) : Prop :=
  is_link f = false /\ exists text, cap_get_file w (path f) = inl (inl text) /\ text <> [].
Definition capable_trouble (w : system) (f : ftwbuf) (e : errno) : Prop :=
  is_link f = false /\ (cap_get_file w (path f) = inl (inr e) \/ (cap_get_file w (path f) = inr e /\ ~ absence e)).

(** It has extended attributes, or one with a given name; a link that is not followed has its own.  E2BIG says that there is more than can be told. *)
Definition present {A} (some : A -> Prop) (r : A + errno) : Prop := (exists a, r = inl a /\ some a) \/ r = inr E2BIG.
Definition trouble {A} (r : A + errno) (e : errno) : Prop := r = inr e /\ ~ absence e /\ e <> E2BIG.
Definition xattrs_of (w : system) (f : ftwbuf) : nat + errno := listxattr w (negb (is_link f)) (path f).
Definition xattr_of (w : system) (name : list byte) (f : ftwbuf) : nat + errno := getxattr w (negb (is_link f)) (path f) name.
Definition context_of (w : system) (f : ftwbuf) : list byte + errno := getfilecon w (negb (is_link f)) (path f).

(** A test, with its result and the error that it reports: it is true for the files with [yes], and reports errors for those with [bad] only.  What it
    leaves is as good for other tests as what it began with. *)
Definition sound (w : system) (yes : Prop) (bad : errno -> Prop) (r : result) : Prop :=
  let '(b, err, st') := r in
  (b = true <-> yes) /\ (forall e, err = Some e -> bad e) /\ known w st'.
(** All errors are reported, unless the test is true anyway. *)
Definition complete (bad : errno -> Prop) (r : result) : Prop :=
  let '(b, err, _) := r in b = false -> (exists e, bad e) -> err <> None.
(** The memory that it has used is free again. *)
Definition tidy (st : shared) (r : result) : Prop := let '(_, _, st') := r in live st' = live st.
