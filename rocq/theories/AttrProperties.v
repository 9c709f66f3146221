(** * C63: -acl, -capable, -xattr, -xattrname and -context *)
From Coq Require Import List ZArith Bool String Init.Byte.
From Verif Require Import AttrModel AttrSpec AttrProofs.
Import ListNotations.

(** -acl is true for the files with ACLs, and reports errors only if there are some.  For files other than directories it reports them all, and for
    directories it does if both ACLs are in trouble.  What is missing is that it reports the others: see below. *)
Theorem C63_acl_partial : forall w mem1 mem2 f st, consistent w f -> known w st ->
  sound w (has_acl w f) (acl_trouble w f) (eval_acl w mem1 mem2 f st) /\ tidy st (eval_acl w mem1 mem2 f st) /\
  (is_dir f = false -> complete (acl_trouble w f) (eval_acl w mem1 mem2 f st)) /\
  complete (fun e => acl_trouble w f e /\ (exists x, access_trouble w f x) /\ exists y, default_trouble w f y) (eval_acl w mem1 mem2 f st).
Proof. exact acl_sound. Qed.
Print Assumptions C63_acl_partial.

(** The error for one of the two ACLs of a directory is lost if there is none for the other. *)
Theorem C63_access_error_refuted : exists w f e, consistent w f /\ ~ has_acl w f /\ access_trouble w f e /\ acl_trouble w f e /\
  snd (fst (eval_acl w true true f start)) = None.
Proof. exact access_error_lost. Qed.
Print Assumptions C63_access_error_refuted.
Theorem C63_default_error_refuted : exists w f e, consistent w f /\ ~ has_acl w f /\ default_trouble w f e /\ acl_trouble w f e /\
  snd (fst (eval_acl w true true f start)) = None.
Proof. exact default_error_lost. Qed.
Print Assumptions C63_default_error_refuted.

(** -capable is true for the files with capabilities, and reports all errors. *)
Theorem C63_capable : forall w mem1 mem2 f st, consistent w f -> known w st ->
  sound w (has_capabilities w f) (capable_trouble w f) (eval_capable w mem1 mem2 f st) /\ tidy st (eval_capable w mem1 mem2 f st) /\
  complete (capable_trouble w f) (eval_capable w mem1 mem2 f st).
Proof. exact capable_sound. Qed.
Print Assumptions C63_capable.

(** -xattr and -xattrname are true for the files with extended attributes, or with that one, and report all errors. *)
Theorem C63_xattr : forall w mem1 mem2 f st, consistent w f -> known w st ->
  sound w (present (fun n => 0 < n) (xattrs_of w f)) (trouble (xattrs_of w f)) (eval_xattr w mem1 mem2 f st) /\ tidy st (eval_xattr w mem1 mem2 f st) /\
  complete (trouble (xattrs_of w f)) (eval_xattr w mem1 mem2 f st).
Proof. exact xattr_sound. Qed.
Print Assumptions C63_xattr.
Theorem C63_xattrname : forall w mem1 mem2 name f st, consistent w f -> known w st ->
  sound w (present (fun _ => True) (xattr_of w name f)) (trouble (xattr_of w name f)) (eval_xattrname w mem1 mem2 name f st) /\
  tidy st (eval_xattrname w mem1 mem2 name f st) /\ complete (trouble (xattr_of w name f)) (eval_xattrname w mem1 mem2 name f st).
Proof. exact xattrname_sound. Qed.
Print Assumptions C63_xattrname.

(** -context is true for the files whose context matches, and reports all errors.  What is missing is that its memory is free again: see below. *)
Theorem C63_context_partial : forall w fnmatch mem1 mem2 f st, consistent w f -> known w st ->
  sound w (exists con, context_of w f = inl con /\ fnmatch con = true) (fun e => context_of w f = inr e) (eval_context w fnmatch mem1 mem2 f st) /\
  complete (fun e => context_of w f = inr e) (eval_context w fnmatch mem1 mem2 f st).
Proof. exact context_sound. Qed.
Print Assumptions C63_context_partial.

(** -context keeps a string for every file, so it may use any amount of memory. *)
Theorem C63_context_leak_refuted : exists w f, consistent w f /\ (forall st, known w st -> forall b, fst (eval_context w (fun _ => b) true true f st) = (b, None)) /\
  forall n, live (repeated (eval_context w (fun _ => true) true true f) n start) = n.
Proof. exact context_leaks. Qed.
Print Assumptions C63_context_leak_refuted.

Module Examples.
  Definition s (x : string) : list byte := list_byte_of_string x.
  (** "top/sub" has an ACL with an entry for another user and two attributes; it is also "sub" below descriptor 7.  The link "top/link" has an
      attribute of its own. *)
  Definition eqs (p q : list byte) : bool := if list_eq_dec Byte.byte_eq_dec p q then true else false.
  Definition sub (p : list byte) : bool := eqs p (s "top/sub") || eqs p (s "/proc/self/fd/7/sub").
  Definition w : system :=
    mkSystem (fun _ => s "7") (fun p => eqs p (s "/proc/self/fd/7/"))
      (fun p t => match t with
                  | ACL_TYPE_ACCESS => inl (if sub p then [inl USER_OBJ; inl USER; inl GROUP_OBJ; inl MASK; inl OTHER] else [inl USER_OBJ; inl GROUP_OBJ; inl OTHER])
                  | ACL_TYPE_DEFAULT => if sub p then inl [] else inr (Other 13) end)
      (fun p => inr (if sub p then ENODATA else Other 13)) (fun follow p => inl (if sub p then 2 else if follow then 0 else 1))
      (fun _ p n => if sub p && eqs n (s "user.x") then inl 0 else inr ENODATA) (fun _ _ => inr ENOTSUP).
  Definition f : ftwbuf := mkFtw (s "top/sub") (Some 7%Z) (s "sub") false true.
  Example f_consistent : consistent w f.
  Proof. intros fd0 fd _ E. injection E as <-. unfold same. cbn. auto 10. Qed.
  Example first_known : known w start.
  Proof. exact (start_known w). Qed.
  (** It is found by way of the descriptor, and the string is freed; what is known about /proc stays. *)
  Example f_acl : eval_acl w true true f start = (true, None, mkShared 1 0).
  Proof. reflexivity. Qed.
  Example f_acl_no_memory : eval_acl w true false f start = (true, None, mkShared 1 0).
  Proof. reflexivity. Qed.
  Example f_has_acl : has_acl w f.
  Proof. split; [reflexivity|]. left. do 2 eexists. split; [reflexivity|]. split; [right; left; reflexivity|]. cbn. intuition discriminate. Qed.
  Example f_capable : eval_capable w true true f (mkShared 1 0) = (false, None, mkShared 1 0).
  Proof. reflexivity. Qed.
  Example f_xattr : eval_xattr w true true f start = (true, None, mkShared 1 0).
  Proof. reflexivity. Qed.
  Example f_xattrname : eval_xattrname w true true (s "user.x") f start = (true, None, mkShared 1 0) /\ eval_xattrname w true true (s "user.y") f start = (false, None, mkShared 1 0).
  Proof. split; reflexivity. Qed.
  Definition link : ftwbuf := mkFtw (s "top/link") None (s "top/link") true false.
  Example link_xattr : eval_xattr w true true link start = (true, None, start).
  Proof. reflexivity. Qed.
  Definition plain_file : ftwbuf := mkFtw (s "top/file") None (s "top/file") false false.
  Example file_capable : eval_capable w true true plain_file start = (false, Some (Other 13), start).
  Proof. reflexivity. Qed.
  (** A directory with an unreadable default ACL, which is not reported *)
  Example dir_acl : eval_acl w true true (mkFtw (s "top/dir") None (s "top/dir") false true) start = (false, None, start).
  Proof. reflexivity. Qed.
End Examples.
