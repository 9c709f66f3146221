(** * What numeric arguments denote *)
From Coq Require Import List ZArith NArith Bool.
From Coq Require Import Init.Byte Strings.Byte.
From Verif Require Import NumModel.
Import ListNotations.
Local Open Scope Z_scope.

Definition is_digit_of (base : Z) (c : byte) : Prop := 48 <= Z.of_N (Byte.to_N c) < 48 + base.
Definition digit_value (c : byte) : Z := Z.of_N (Byte.to_N c) - 48.

(** Positional notation, most significant digit first *)
Fixpoint value (base : Z) (ds : list byte) : Z :=
  match ds with
  | [] => 0
  | d :: ds' => digit_value d * base ^ Z.of_nat (length ds') + value base ds'
  end.

(** [s] is a numeral with value [v] followed by [rest], which does not begin with
    a digit. *)
Definition numeral (base : Z) (s : list byte) (v : Z) (rest : list byte) : Prop :=
  exists sgn ds,
    s = sgn ++ ds ++ rest /\
    ds <> [] /\ Forall (is_digit_of base) ds /\
    match rest with [] => True | c :: _ => ~ is_digit_of base c end /\
    (sgn = [] /\ v = value base ds \/
     sgn = ["+"%byte] /\ v = value base ds \/
     sgn = ["-"%byte] /\ v = - value base ds).

(** The locale does not take digits or signs for spaces. *)
Definition sane (isspace : byte -> bool) : Prop :=
  forall c, isspace c = true -> c <> "-"%byte /\ c <> "+"%byte /\ ~ is_digit_of 10 c.

(** The comparison that the first character of a numeric argument asks for *)
Definition comparison (cmp : int_cmp) (n num : Z) : Prop :=
  match cmp with
  | BFS_INT_EQUAL => n = num
  | BFS_INT_LESS => n < num
  | BFS_INT_GREATER => n > num
  end.
Definition prefixed (s : list byte) (cmp : int_cmp) (t : list byte) : Prop :=
  match cmp with
  | BFS_INT_LESS => s = "-"%byte :: t
  | BFS_INT_GREATER => s = "+"%byte :: t
  | BFS_INT_EQUAL => s = t /\ match s with "-"%byte :: _ | "+"%byte :: _ => False | _ => True end
  end.

(** The units of -size *)
Definition unit_bytes (unit : list byte) (k : Z) : Prop :=
  In (unit, k) [([], 512); (["b"%byte], 512); (["c"%byte], 1); (["w"%byte], 2);
    (["k"%byte], 1024); (["M"%byte], 1024 * 1024); (["G"%byte], 1024 * 1024 * 1024);
    (["T"%byte], 1024 * 1024 * 1024 * 1024); (["P"%byte], 1024 * 1024 * 1024 * 1024 * 1024)].

(** [u] is the least number of units of [k] bytes that hold [size] bytes. *)
Definition rounded_up (size k u : Z) : Prop := (u - 1) * k < size <= u * k.
