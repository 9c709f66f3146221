(** * Model of the bit operations in src/bit.h

    A word of type [type] with [width] bits is a number below [2 ^ width].  The
    portable fallbacks are modelled; with GCC the builtins replace the loops of
    count_ones(), leading_zeros() and trailing_zeros(). *)
From Coq Require Import NArith Bool.
Local Open Scope N_scope.

Section Width.
  Variable width : N.

  (** Conversion to [type] *)
  Definition trunc (n : N) : N := n mod 2 ^ width.
  (** ~n, converted to [type] *)
  Definition not_ (n : N) : N := 2 ^ width - 1 - n.
  (** n - 1, converted to [type] *)
  Definition pred_ (n : N) : N := (n + 2 ^ width - 1) mod 2 ^ width.

  (** src/bit.h 370-377, COUNT_ONES.  A word has at most [width] ones. *)
  Fixpoint count_loop (fuel : nat) (n ret : N) : option N :=
    if n =? 0 then Some ret
    else match fuel with
         | O => None
         | S fuel => count_loop fuel (N.land n (pred_ n)) (ret + 1)
         end.
  Definition count_ones (n : N) : option N := count_loop (N.to_nat width) n 0.

  (** src/bit.h 379-385, LEADING_ZEROS *)
  Fixpoint leading_loop (fuel : nat) (n bit ret : N) : option N :=
    if (bit =? 0) || negb (N.land n bit =? 0) then Some ret
    else match fuel with
         | O => None
         | S fuel => leading_loop fuel n (N.shiftr bit 1) (ret + 1)
         end.
  Definition leading_zeros (n : N) : option N :=
    leading_loop (N.to_nat width) n (trunc (N.shiftl 1 (width - 1))) 0.

  (** src/bit.h 387-393, TRAILING_ZEROS *)
  Fixpoint trailing_loop (fuel : nat) (n bit ret : N) : option N :=
    if (bit =? 0) || negb (N.land n bit =? 0) then Some ret
    else match fuel with
         | O => None
         | S fuel => trailing_loop fuel n (trunc (N.shiftl bit 1)) (ret + 1)
         end.
  Definition trailing_zeros (n : N) : option N := trailing_loop (N.to_nat width) n 1 0.

  (** The results of these loops are always defined; the others use them as
      numbers. *)
  Definition get (o : option N) : N := match o with Some n => n | None => 0 end.

  (** src/bit.h 395-398, FIRST_TRAILING_ONE, and 407-410, FIRST_LEADING_ONE *)
  Definition first_trailing_one (n : N) : N := if n =? 0 then 0 else get (trailing_zeros n) + 1.
  Definition first_leading_one (n : N) : N := if n =? 0 then 0 else get (leading_zeros n) + 1.

  (** src/bit.h 412-416, HAS_SINGLE_BIT.  For types narrower than int the
      arithmetic is that of int, where -1 and all ones give the same result. *)
  Definition has_single_bit (n : N) : bool := pred_ n <? N.lxor n (pred_ n).

  (** src/bit.h 418-421, BIT_WIDTH *)
  Definition bit_width (n : N) : N := width - get (leading_zeros n).

  (** src/bit.h 423-426, BIT_FLOOR *)
  Definition bit_floor (n : N) : N := if n =? 0 then 0 else trunc (N.shiftl 1 (bit_width n - 1)).

  (** src/bit.h 428-431, BIT_CEIL *)
  Definition bit_ceil (n : N) : N :=
    trunc (N.shiftl 1 (bit_width (if n =? 0 then n else pred_ n))).

  (** src/bit.h 439-453, the macros that negate their argument *)
  Definition count_zeros (n : N) : option N := count_ones (not_ n).
  Definition leading_ones (n : N) : option N := leading_zeros (not_ n).
  Definition trailing_ones (n : N) : option N := trailing_zeros (not_ n).
  Definition first_leading_zero (n : N) : N := first_leading_one (not_ n).
  Definition first_trailing_zero (n : N) : N := first_trailing_one (not_ n).

  (** src/bit.h 461-469, ROTATE_LEFT and ROTATE_RIGHT, for [0 <= c < width] *)
  Definition rotate_left (n c : N) : N :=
    trunc (N.lor (N.shiftl n c) (N.shiftr n ((width - c) mod width))).
  Definition rotate_right (n c : N) : N :=
    trunc (N.lor (N.shiftr n c) (N.shiftl n ((width - c) mod width))).
End Width.
