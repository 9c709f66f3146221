(** * Vocabulary for full reads and writes *)
From Coq Require Import List Arith Bool.
From Verif Require Import IoModel.
Import ListNotations.

(** The number of answers other than interruptions *)
Definition effective (answers : list answer) : nat :=
  length (filter (fun a => match a with Interrupted => false | _ => true end) answers).
