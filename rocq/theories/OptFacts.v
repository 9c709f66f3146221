(** * What the data flow analysis knows about a file *)
From Coq Require Import List ZArith Bool.
From Verif Require Import ExprModel ExprSpec OptModel OptSpec.
Local Open Scope Z_scope.

(** A domain describes file [f] if each attribute of [f] is among the possible
    ones.  Sizes are counted in unit [u]. *)
Definition pred_of (f : file) (p : pred_type) : bool :=
  match p with
  | READABLE => f_access f AccR | WRITABLE => f_access f AccW | EXECUTABLE => f_access f AccX
  | ACL => f_acl f | CAPABLE => f_capable f | EMPTY => file_empty f | HIDDEN => f_hidden f
  | NOGROUP => f_nogroup f | NOUSER => f_nouser f | SPARSE => f_sparse f | XATTR => f_xattr f
  end.
Definition number_of (f : file) (u : size_unit) (r : range_type) : Z :=
  match r with
  | DEPTH => f_depth f | GID => f_gid f | INUM => f_ino f | LINKS => f_nlink f
  | SIZE => size_in u (f_size f) | UID => f_uid f
  end.
Definition describes (f : file) (u : size_unit) (D : df_domain) : Prop :=
  (forall p, if pred_of f p then may_true (preds D p) = true else may_false (preds D p) = true) /\
  (forall r, rmin (ranges D r) <= number_of f u r <= rmax (ranges D r)) /\
  N.testbit (types D) (f_type f) = true /\ N.testbit (xtypes D) (f_xtype f) = true.

(** The members of a domain are in range: numbers are not negative (the upper
    end may be, which leaves no possible number), and types are below 32. *)
Definition proper (D : df_domain) : Prop :=
  (forall r, 0 <= rmin (ranges D r) <= LLONG_MAX /\ LLONG_MIN <= rmax (ranges D r) <= LLONG_MAX) /\
  (forall i, N.testbit (types D) i = true -> (i < 32)%N) /\
  (forall i, N.testbit (xtypes D) i = true -> (i < 32)%N).
