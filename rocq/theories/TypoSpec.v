(** * Specification of the typo distance *)
From Coq Require Import List ZArith.
From Coq Require Import Init.Byte Strings.Byte.
From Verif Require Import TypoModel.
Import ListNotations.
Local Open Scope Z_scope.

(** One edit of a string and its cost: a character is inserted or deleted
    anywhere for 12, or replaced by another one for the distance between their
    keys ([char_distance] is read off the keyboard table, and the Manhattan
    distance of the keys' positions). *)
Inductive edit : list byte -> list byte -> Z -> Prop :=
| edit_insert s t c : edit (s ++ t) (s ++ c :: t) 12
| edit_delete s t c : edit (s ++ c :: t) (s ++ t) 12
| edit_replace s t c d : edit (s ++ c :: t) (s ++ d :: t) (char_distance c d).

(** Any number of edits, one after the other, and their total cost *)
Inductive edits : list byte -> list byte -> Z -> Prop :=
| edits_none s : edits s s 0
| edits_more s t u c d : edits s t c -> edit t u d -> edits s u (c + d).

(** [d] is the least total cost of turning [s] into [t]. *)
Definition edit_distance (s t : list byte) (d : Z) : Prop :=
  edits s t d /\ forall c, edits s t c -> d <= c.

(** The characters on the keyboard *)
Definition on_keyboard (c : byte) : Prop := In (Byte.to_N c) (map fst key_table).
