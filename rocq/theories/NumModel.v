(** * Model of integer arguments: xstrto*() in src/bfstd.c, parse_int() and
    parse_icmp() in src/parse.c, and -size

    Strings have no NUL; the empty list is the terminator.  [long] and [long
    long] have 64 bits. *)
From Coq Require Import List ZArith NArith Bool.
From Coq Require Import Init.Byte Strings.Byte.
Import ListNotations.
Local Open Scope Z_scope.

Inductive error := EINVAL | ERANGE.

(** ** The C library *)

Definition LLONG_MIN : Z := - 2 ^ 63.
Definition LLONG_MAX : Z := 2 ^ 63 - 1.
Definition ULLONG_MAX : Z := 2 ^ 64 - 1.

Definition digit (base : Z) (c : byte) : option Z :=
  let d := Z.of_N (Byte.to_N c) - 48 in
  if (0 <=? d) && (d <? base) then Some d else None.

(** The longest run of digits: its value, continuing from [acc], and the rest *)
Fixpoint digits (base : Z) (acc : Z) (s : list byte) : Z * list byte :=
  match s with
  | c :: s' => match digit base c with
               | Some d => digits base (acc * base + d) s'
               | None => (acc, s)
               end
  | [] => (acc, [])
  end.

Definition sign (s : list byte) : bool * list byte :=
  match s with
  | "-"%byte :: s' => (true, s')
  | "+"%byte :: s' => (false, s')
  | _ => (false, s)
  end.

Section Locale.
  (** isspace() in the current locale *)
  Variable isspace : byte -> bool.

  Fixpoint skip_space (s : list byte) : list byte :=
    match s with
    | c :: s' => if isspace c then skip_space s' else s
    | [] => []
    end.

  (** strtoll() for bases up to 10: the value, the end, and whether errno was set
      to ERANGE.  Without digits the value is 0 and the end is the start. *)
  Definition strtoll (base : Z) (s : list byte) : Z * list byte * bool :=
    let '(neg, s1) := sign (skip_space s) in
    match s1 with
    | c :: _ =>
        match digit base c with
        | Some _ =>
            let '(n, rest) := digits base 0 s1 in
            let v := if neg then - n else n in
            if v <? LLONG_MIN then (LLONG_MIN, rest, true)
            else if LLONG_MAX <? v then (LLONG_MAX, rest, true)
            else (v, rest, false)
        | None => (0, s, false)
        end
    | [] => (0, s, false)
    end.

  (** strtoull(): a minus sign negates the value in the unsigned type *)
  Definition strtoull (base : Z) (s : list byte) : Z * list byte * bool :=
    let '(neg, s1) := sign (skip_space s) in
    match s1 with
    | c :: _ =>
        match digit base c with
        | Some _ =>
            let '(n, rest) := digits base 0 s1 in
            if ULLONG_MAX <? n then (ULLONG_MAX, rest, true)
            else ((if neg then - n else n) mod 2 ^ 64, rest, false)
        | None => (0, s, false)
        end
    | [] => (0, s, false)
    end.

  (** ** src/bfstd.c *)

  (** [endp == str] compares positions, which is comparing lengths *)
  Definition same_position (a b : list byte) : bool := Nat.eqb (length a) (length b).

  (** 219-235: [partial] is [end != NULL]; the result is the value and [*end] *)
  Definition xstrtox_epilogue (partial : bool) (s endp : list byte) (erange : bool) (v : Z)
    : Z * list byte + error :=
    if erange then inr ERANGE
    else if same_position endp s || (negb partial && negb (match endp with [] => true | _ => false end))
    then inr EINVAL
    else inl (v, endp).

  (** 208-217, the prologue *)
  Definition starts_with_space (s : list byte) : bool :=
    match s with c :: _ => isspace c | [] => false end.

  (** 269-278 and 280-289, xstrtol and xstrtoll *)
  Definition xstrtoll (partial : bool) (base : Z) (s : list byte) : Z * list byte + error :=
    if starts_with_space s then inr EINVAL
    else let '(v, endp, erange) := strtoll base s in xstrtox_epilogue partial s endp erange v.

  (** 237-267: xstrtos and xstrtoi convert and then check the range *)
  Definition xstrto_narrow (lo hi : Z) (partial : bool) (base : Z) (s : list byte) : Z * list byte + error :=
    match xstrtoll partial base s with
    | inr e => inr e
    | inl (n, endp) => if (n <? lo) || (hi <? n) then inr ERANGE else inl (n, endp)
    end.

  (** 343-370: xstrtoul and xstrtoull, with the epilogue of 343-354 *)
  Definition xstrtoull (partial : bool) (base : Z) (s : list byte) : Z * list byte + error :=
    if starts_with_space s then inr EINVAL
    else
      let '(v, endp, erange) := strtoull base s in
      match xstrtox_epilogue partial s endp erange v with
      | inr e => inr e
      | inl r => match s with "-"%byte :: _ => inr ERANGE | _ => inl r end
      end.

  (** 313-341: xstrtous and xstrtoui *)
  Definition xstrtou_narrow (hi : Z) (partial : bool) (base : Z) (s : list byte) : Z * list byte + error :=
    match xstrtoull partial base s with
    | inr e => inr e
    | inl (n, endp) => if hi <? n then inr ERANGE else inl (n, endp)
    end.

  (** ** src/parse.c *)

  (** 485-499: the IF_SIZE_MASK part of the flags *)
  Inductive int_size := IF_INT | IF_LONG | IF_LONG_LONG.
  Definition size_min (z : int_size) : Z := match z with IF_INT => - 2 ^ 31 | _ => LLONG_MIN end.
  Definition size_max (z : int_size) : Z := match z with IF_INT => 2 ^ 31 - 1 | _ => LLONG_MAX end.

  (** 504-571.  The three error exits print different messages. *)
  Inductive int_error := bad | negative | range.
  Definition parse_int (base : Z) (z : int_size) (unsigned partial : bool) (s : list byte)
    : Z * list byte + int_error :=
    match xstrtoll true base s with
    | inr ERANGE => inr range
    | inr EINVAL => inr bad
    | inl (value, endp) =>
        if negb partial && negb (match endp with [] => true | _ => false end) then inr bad
        else if unsigned && (value <? 0) then inr negative
        else if (value <? size_min z) || (size_max z <? value) then inr range
        else inl (value, endp)
    end.

  Inductive int_cmp := BFS_INT_EQUAL | BFS_INT_LESS | BFS_INT_GREATER.

  (** 576-594 *)
  Definition parse_icmp (partial : bool) (s : list byte) : int_cmp * Z * list byte + int_error :=
    let '(cmp, t) := match s with
                     | "-"%byte :: t => (BFS_INT_LESS, t)
                     | "+"%byte :: t => (BFS_INT_GREATER, t)
                     | _ => (BFS_INT_EQUAL, s)
                     end in
    match parse_int 10 IF_LONG_LONG true partial t with
    | inl (n, rest) => inl (cmp, n, rest)
    | inr e => inr e
    end.

  (** 599-610 *)
  Definition plus_minus (c : byte) : bool := Byte.eqb c "-" || Byte.eqb c "+".
  Definition is_digit (s : list byte) : bool :=
    match s with c :: _ => (48 <=? Z.of_N (Byte.to_N c)) && (Z.of_N (Byte.to_N c) <=? 57) | [] => false end.
  Definition looks_like_icmp (s : list byte) : bool :=
    match s with
    | a :: s1 =>
        if plus_minus a then
          match s1 with
          | b :: s2 => if plus_minus b then is_digit s2 else is_digit s1
          | [] => false
          end
        else is_digit s
    | [] => false
    end.

  (** 2414-2463, parse_size, with the scale that src/eval.c 954-963 uses *)
  Definition scale_of (unit : byte) : option Z :=
    match unit with
    | "b" => Some 512 | "c" => Some 1 | "w" => Some 2
    | "k" => Some (2 ^ 10) | "M" => Some (2 ^ 20) | "G" => Some (2 ^ 30)
    | "T" => Some (2 ^ 40) | "P" => Some (2 ^ 50)
    | _ => None
    end%byte.
  Definition parse_size (s : list byte) : option (int_cmp * Z * Z) :=
    match parse_icmp true s with
    | inr _ => None
    | inl (cmp, n, unit) =>
        match unit with
        | [] => Some (cmp, n, 512)
        | [u] => match scale_of u with Some k => Some (cmp, n, k) | None => None end
        | _ => None
        end
    end.
End Locale.

(** src/eval.c 145-157 *)
Definition bfs_expr_cmp (cmp : int_cmp) (num n : Z) : bool :=
  match cmp with
  | BFS_INT_EQUAL => n =? num
  | BFS_INT_LESS => n <? num
  | BFS_INT_GREATER => num <? n
  end.

(** src/eval.c 948-968.  [off_t] is signed with 64 bits: [None] is overflow.
    The result of the division fits. *)
Definition eval_size (cmp : int_cmp) (num scale size : Z) : option bool :=
  if LLONG_MAX <? size + scale then None
  else Some (bfs_expr_cmp cmp num (Z.quot (size + scale - 1) scale)).
