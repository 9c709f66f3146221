(** * What a list of roots is *)
From Coq Require Import List Bool Init.Byte Strings.Byte.
From Verif Require Import FilesModel.
Import ListNotations.

(** [contents] are the [names], each followed by a NUL, except perhaps for the last one, unless that is empty. *)
Definition terminated (names : list (list byte)) : list byte := concat (map (fun n => n ++ [x00]) names).
Definition listed (contents : list byte) (names : list (list byte)) : Prop :=
  (forall n, In n names -> ~ In x00 n) /\
  (contents = terminated names \/ exists first last, names = first ++ [last] /\ last <> [] /\ contents = terminated first ++ last).

(** The file that -files0-from reads: standard input if it is called - *)
Definition source (w : system) (from : list byte) (s : stream) : Prop :=
  (from = ["-"%byte] /\ s = stdin w) \/ (from <> ["-"%byte] /\ open w from = Some s).
