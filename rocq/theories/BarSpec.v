(** * What a line of text looks like on a terminal *)
From Coq Require Import String List Arith NArith ZArith Bool.
From Coq Require Import Init.Byte Strings.Byte.
From Verif Require Import QuoteModel.
Import ListNotations.

Section Text.
  Variable l : locale.
  Variable wcwidth : wc l -> Z.

  (** The characters of a valid string *)
  Inductive shows : list byte -> list (wc l) -> Prop :=
  | sh_nil : shows [] []
  | sh_cons s n c mb cs : decode l (mb_init l) s = Some (n, c, mb) -> shows (skipn n s) cs -> shows s (c :: cs).

  (** A terminal moves by as many columns as a printable character is wide; other characters may do anything. *)
  Definition columns (cs : list (wc l)) : nat := fold_right (fun c n => Z.to_nat (wcwidth c) + n) 0 cs.
  Definition fills (text : list byte) (width : nat) : Prop :=
    exists cs, shows text cs /\ Forall (fun c => iswprint l c = true) cs /\ columns cs = width.

  (** A single printable character *)
  Definition one_char (s : list byte) (width : nat) : Prop := exists c, shows s [c] /\ iswprint l c = true /\ Z.to_nat (wcwidth c) = width.

  (** All white space in the string is printable: there are spaces, but no tabs or newlines.  The string may be invalid. *)
  Inductive tidy : list byte -> Prop :=
  | td_nil : tidy []
  | td_char s n c mb : s <> [] -> decode l (mb_init l) s = Some (n, c, mb) -> (iswspace l c = true -> iswprint l c = true) -> tidy (skipn n s) -> tidy s
  | td_bad b s : decode l (mb_init l) (b :: s) = None -> tidy s -> tidy (b :: s).

  (** What a locale must satisfy.  There are no shift states; a character takes some of the bytes, and does not depend on the others; ASCII
      characters are single bytes; the classes of bytes and characters agree; NUL is not printable; and ASCII characters have a width of one. *)
  Record sane : Prop := {
    sn_state : forall mb s, decode l mb s = decode l (mb_init l) s;
    sn_length : forall mb s n c mb', ~ In x00 s -> s <> [] -> decode l mb s = Some (n, c, mb') -> 1 <= n <= length s;
    sn_print : forall mb s n c mb', decode l mb s = Some (n, c, mb') -> iswprint l c = true -> 1 <= n <= length s;
    sn_prefix : forall mb s n c mb' t, decode l mb s = Some (n, c, mb') -> 1 <= n -> decode l mb (firstn n s ++ t) = Some (n, c, mb');
    sn_ascii : forall b mb s, b <> x00 -> (Byte.to_N b < 128)%N -> exists c mb', decode l mb (b :: s) = Some (1, c, mb') /\
      iswprint l c = isprint l b /\ iswspace l c = isspace l b /\ (isprint l b = true -> wcwidth c = 1%Z);
    sn_byte : forall b mb s, isprint l b = true -> exists c mb', decode l mb (b :: s) = Some (1, c, mb') /\ iswprint l c = true;
    sn_visible : forall b, (32 <= Byte.to_N b <= 126)%N -> isprint l b = true;
    sn_nul : forall mb s n c mb', decode l mb (x00 :: s) = Some (n, c, mb') -> iswprint l c = false;
    sn_width : forall c, iswprint l c = true -> (0 <= wcwidth c)%Z }.
End Text.

(** The number that a string of decimal digits stands for *)
Definition digit_value (c : byte) : option N := let n := Byte.to_N c in if ((48 <=? n) && (n <=? 57))%N then Some (n - 48)%N else None.
Fixpoint decimal (acc : N) (s : list byte) : option N :=
  match s with
  | [] => Some acc
  | c :: s => match digit_value c with Some d => decimal (10 * acc + d) s | None => None end
  end.

(** The escape sequences of a VT100: 7 and 8 save and restore the position of the cursor, and D moves it down a line, scrolling if need be;
    [1A moves it up a line, [;Nr makes lines 1 to N the scrolling region and [r all of them, and [J erases everything below the cursor. *)
Definition esc (s : string) : list byte := x1b :: str s.
Definition whole_screen : list byte := esc "7" ++ esc "[r" ++ esc "8" ++ esc "[J".
Definition lines_up_to (n : list byte) : list byte := esc "D" ++ esc "[1A" ++ esc "7" ++ esc "[;" ++ n ++ str "r" ++ esc "8" ++ esc "[J".
