(** Property theorems for numeric arguments and -size: C24, C26. *)
From Coq Require Import String List ZArith NArith Bool Lia.
From Coq Require Import Init.Byte Strings.Byte.
From Verif Require Import NumModel NumSpec NumProofs.
Import ListNotations.
Local Open Scope Z_scope.

(** C24: an integer argument is accepted exactly when it is a numeral in range
    (and nothing follows it, unless that is allowed), and denotes its value. *)
Theorem C24_parse_int : forall isspace, sane isspace ->
  forall base z unsigned partial s v rest, base <= 10 ->
  parse_int isspace base z unsigned partial s = inl (v, rest) <->
  numeral base s v rest /\ (partial = true \/ rest = []) /\ (unsigned = true -> 0 <= v) /\
  size_min z <= v <= size_max z.
Proof.
  exact parse_int_ok.
Qed.
Print Assumptions C24_parse_int.

(** A string has at most one reading as a numeral. *)
Theorem C24_numeral_unique : forall base s v rest v' rest', base <= 10 ->
  numeral base s v rest -> numeral base s v' rest' -> v = v' /\ rest = rest'.
Proof.
  exact numeral_unique.
Qed.
Print Assumptions C24_numeral_unique.

(** C24: N, +N and -N *)
Theorem C24_parse_icmp : forall isspace, sane isspace ->
  forall partial s cmp n rest,
  parse_icmp isspace partial s = inl (cmp, n, rest) <->
  exists t, prefixed s cmp t /\ numeral 10 t n rest /\ (partial = true \/ rest = []) /\ 0 <= n <= 2 ^ 63 - 1.
Proof.
  exact parse_icmp_ok.
Qed.
Print Assumptions C24_parse_icmp.

(** C24: they select equal, greater and less. *)
Theorem C24_comparison : forall cmp num n, bfs_expr_cmp cmp num n = true <-> comparison cmp n num.
Proof.
  exact bfs_expr_cmp_ok.
Qed.
Print Assumptions C24_comparison.

(** C24: the conversion functions themselves *)
Theorem C24_xstrtoll : forall isspace, sane isspace ->
  forall base partial s v rest, base <= 10 ->
  xstrtoll isspace partial base s = inl (v, rest) <->
  numeral base s v rest /\ (partial = true \/ rest = []) /\ - 2 ^ 63 <= v <= 2 ^ 63 - 1.
Proof.
  exact xstrtoll_ok.
Qed.
Print Assumptions C24_xstrtoll.

Theorem C24_xstrto_narrow : forall isspace, sane isspace ->
  forall lo hi base partial s v rest, base <= 10 -> - 2 ^ 63 <= lo -> hi <= 2 ^ 63 - 1 ->
  xstrto_narrow isspace lo hi partial base s = inl (v, rest) <->
  numeral base s v rest /\ (partial = true \/ rest = []) /\ lo <= v <= hi.
Proof.
  exact xstrto_narrow_ok.
Qed.
Print Assumptions C24_xstrto_narrow.

Theorem C24_xstrtoull : forall isspace, sane isspace ->
  forall base partial s v rest, 0 <= base <= 10 ->
  xstrtoull isspace partial base s = inl (v, rest) <->
  (numeral base s v rest /\ match s with "-"%byte :: _ => False | _ => True end) /\
  (partial = true \/ rest = []) /\ v <= 2 ^ 64 - 1.
Proof.
  exact xstrtoull_ok.
Qed.
Print Assumptions C24_xstrtoull.

Theorem C24_looks_like_icmp : forall s, looks_like_icmp s = true <->
  exists signs c rest, s = signs ++ c :: rest /\ (List.length signs <= 2)%nat /\
    Forall (fun x => x = "+"%byte \/ x = "-"%byte) signs /\ is_digit_of 10 c.
Proof.
  exact looks_like_icmp_ok.
Qed.
Print Assumptions C24_looks_like_icmp.

(** C26: which arguments -size accepts and what they mean *)
Theorem C26_parse_size : forall isspace, sane isspace ->
  forall s cmp n k,
  parse_size isspace s = Some (cmp, n, k) <->
  exists t unit, prefixed s cmp t /\ numeral 10 t n unit /\ 0 <= n <= 2 ^ 63 - 1 /\ unit_bytes unit k.
Proof.
  exact parse_size_ok.
Qed.
Print Assumptions C26_parse_size.

(** C26: sizes are rounded up to whole units and compared.  The sum of the size
    and the unit must not overflow. *)
Theorem C26_size : forall cmp num k size, 0 < k -> 0 <= size -> size + k <= 2 ^ 63 - 1 ->
  exists b, eval_size cmp num k size = Some b /\
    (b = true <-> exists u, rounded_up size k u /\ comparison cmp u num).
Proof.
  exact eval_size_ok.
Qed.
Print Assumptions C26_size.

(** Otherwise the behaviour is undefined. *)
Theorem C26_size_overflow : forall cmp num k size, 2 ^ 63 - 1 < size + k -> eval_size cmp num k size = None.
Proof.
  exact eval_size_overflow.
Qed.
Print Assumptions C26_size_overflow.

Module Examples.
  Definition b (s : string) : list byte := list_byte_of_string s.
  Definition isspace (c : byte) : bool := existsb (Byte.eqb c) [" "; x09; x0a; x0b; x0c; x0d]%byte.
  Example posix : sane isspace.
  Proof.
    intros c. destruct c; vm_compute; intros H; try discriminate; repeat split; try discriminate;
      intros [A B]; try (apply A; reflexivity); discriminate.
  Qed.
  Example accepted : parse_int isspace 10 IF_INT false false (b "-2147483648") = inl (-2147483648, []).
  Proof. reflexivity. Qed.
  Example out_of_range : parse_int isspace 10 IF_INT false false (b "2147483648") = inr range.
  Proof. reflexivity. Qed.
  Example spaces : parse_int isspace 10 IF_INT false false (b " 5") = inr bad.
  Proof. reflexivity. Qed.
  Example more : parse_icmp isspace true (b "+16k") = inl (BFS_INT_GREATER, 16, b "k").
  Proof. reflexivity. Qed.
  Example double_sign : parse_icmp isspace true (b "-+16k") = inl (BFS_INT_LESS, 16, b "k").
  Proof. reflexivity. Qed.
  Example size_arg : parse_size isspace (b "+16k") = Some (BFS_INT_GREATER, 16, 1024).
  Proof. reflexivity. Qed.
  Example size_yes : eval_size BFS_INT_GREATER 16 1024 16385 = Some true. Proof. reflexivity. Qed.
  Example size_no : eval_size BFS_INT_GREATER 16 1024 16384 = Some false. Proof. reflexivity. Qed.
  Example in_range : 16385 + 1024 <= 2 ^ 63 - 1. Proof. discriminate. Qed.
End Examples.
