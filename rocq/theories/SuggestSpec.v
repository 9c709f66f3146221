(** * Which word is suggested *)
From Coq Require Import List ZArith.
From Verif Require Import TypoModel TypoSpec GramModel.
Import ListNotations.
Local Open Scope Z_scope.

(** A known word that takes the least edits *)
Definition closest (a s : arg) : Prop :=
  In s (map e_arg parse_table) /\
  exists d, edit_distance a s d /\ forall s' c, In s' (map e_arg parse_table) -> edits a s' c -> d <= c.
