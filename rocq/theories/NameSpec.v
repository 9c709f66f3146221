(** * What patterns mean: POSIX 2.14 (pattern matching notation) with the characters of a locale *)
From Coq Require Import List NArith Arith Bool Init.Byte.
From Coq Require Import Strings.Byte.
From Verif Require Import PathModel PathSpec.
Import ListNotations.
Local Open Scope N_scope.

(** The characters of a string and the lower case of a character.  [bracket] reads the rest of a bracket expression after
    the [[], if it is one, for matching with or without regard to case. *)
Record locale := mkLocale { decode : list byte -> list N; lower : N -> N; bracket : bool -> list N -> option ((N -> bool) * list N) }.

Inductive token := Lit (c : N) | One | Star | OneOf (f : N -> bool) | Unfinished.
Fixpoint tokens (br : list N -> option ((N -> bool) * list N)) (fuel : nat) (p : list N) : list token :=
  match fuel, p with
  | S fuel, c :: r =>
      if c =? 92 then match r with [] => [Unfinished] | c :: r => Lit c :: tokens br fuel r end
      else if c =? 63 then One :: tokens br fuel r
      else if c =? 42 then Star :: tokens br fuel r
      else if c =? 91 then
        match br r with
        | Some (f, r) => OneOf f :: tokens br fuel r
        | None => Lit c :: tokens br fuel r
        end
      else Lit c :: tokens br fuel r
  | _, _ => []
  end.
Inductive matches (same : N -> N -> bool) : list token -> list N -> Prop :=
| m_nil : matches same [] []
| m_lit c d t s : same c d = true -> matches same t s -> matches same (Lit c :: t) (d :: s)
| m_one d t s : matches same t s -> matches same (One :: t) (d :: s)
| m_none t s : matches same t s -> matches same (Star :: t) s
| m_more d t s : matches same (Star :: t) s -> matches same (Star :: t) (d :: s)
| m_one_of f d t s : f d = true -> matches same t s -> matches same (OneOf f :: t) (d :: s).

Section Locale.
  Variable l : locale.
  Definition same (fold : bool) (c d : N) : bool := if fold then lower l c =? lower l d else c =? d.
  Definition pattern_of (fold : bool) (p : list byte) : list token := tokens (bracket l fold) (length (decode l p)) (decode l p).
  (** The string [s] matches the pattern [p]. *)
  Definition language (fold : bool) (p s : list byte) : Prop := matches (same fold) (pattern_of fold p) (decode l s).
  (** fnmatch() is only trusted for patterns that do not end in the middle. *)
  Definition is_fnmatch (f : list byte -> list byte -> bool -> bool) : Prop :=
    forall p s fold, ~ In Unfinished (pattern_of fold p) -> (f p s fold = true <-> language fold p s).

  (** ASCII bytes are always characters, and other bytes never give ASCII characters: UTF-8 and
      single-byte encodings, but not Big5 or GBK. *)
  Definition ascii (c : byte) : Prop := Byte.to_N c < 128.
  Record transparent : Prop := {
    t_nil : decode l [] = [];
    t_ascii : forall a c b, ascii c -> decode l (a ++ c :: b) = decode l a ++ Byte.to_N c :: decode l b;
    t_other : forall a, Forall (fun c => ~ ascii c) a -> Forall (fun c => 128 <= c) (decode l a);
    t_inj : forall a b, decode l a = decode l b -> a = b;
    t_bracket : forall fold p f r, bracket l fold p = Some (f, r) -> exists q, p = q ++ 93 :: r;
    t_lower : forall c, c < 128 -> lower l c = if (65 <=? c) && (c <=? 90) then c + 32 else c
  }.
End Locale.

(** A pattern with a special character *)
Definition special (p : list byte) : Prop := exists c, In c [x3f; x2a; x5c; x5b] /\ In c p.

(** A hidden file *)
Definition hidden_name (b : list byte) : Prop := (exists r, b = dot :: r) /\ b <> [dot] /\ b <> [dot; dot].

(** ** Locales *)
(** [abc], without ranges and classes *)
Fixpoint up_to (c : N) (p : list N) : option (list N * list N) :=
  match p with
  | [] => None
  | d :: r => if d =? c then Some ([], r) else match up_to c r with Some (a, b) => Some (d :: a, b) | None => None end
  end.
Definition simple_bracket (p : list N) : option ((N -> bool) * list N) :=
  match p with
  | [] => None
  | c :: r => match up_to 93 r with Some (a, b) => Some ((fun d => existsb (N.eqb d) (c :: a)), b) | None => None end
  end.
(** The first 2048 characters of Unicode in UTF-8; bytes that are not part of one are themselves, above all characters. *)
Definition lead (a : byte) : bool := (194 <=? Byte.to_N a) && (Byte.to_N a <=? 223).
Definition cont (b : byte) : bool := (128 <=? Byte.to_N b) && (Byte.to_N b <=? 191).
Definition one (a : byte) : N := if Byte.to_N a <? 128 then Byte.to_N a else 65536 + Byte.to_N a.
Fixpoint decode_utf8 (s : list byte) : list N :=
  match s with
  | [] => []
  | a :: r =>
      match r with
      | b :: r' => if lead a && cont b then ((Byte.to_N a - 192) * 64 + (Byte.to_N b - 128)) :: decode_utf8 r' else one a :: decode_utf8 r
      | [] => [one a]
      end
  end.
Definition lower_latin (c : N) : N :=
  if (65 <=? c) && (c <=? 90) || (192 <=? c) && (c <=? 222) && negb (c =? 215) then c + 32 else c.
Definition utf8 : locale := mkLocale decode_utf8 lower_latin (fun _ => simple_bracket).
(** Big5: two bytes, of which the second can be a backslash *)
Fixpoint decode_big5 (s : list byte) : list N :=
  match s with
  | [] => []
  | a :: r =>
      match r with
      | b :: r' => if (161 <=? Byte.to_N a) && (Byte.to_N a <=? 249) && (64 <=? Byte.to_N b) then (256 * Byte.to_N a + Byte.to_N b) :: decode_big5 r' else Byte.to_N a :: decode_big5 r
      | [] => [Byte.to_N a]
      end
  end.
Definition big5 : locale := mkLocale decode_big5 lower_latin (fun _ => simple_bracket).
