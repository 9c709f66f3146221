(** Property theorems for the roots of a search: C61. *)
From Coq Require Import List Bool Init.Byte Strings.Byte.
From Verif Require Import FilesModel FilesSpec FilesProofs.
Import ListNotations.

(** C61: -files0-from searches the names in the file, in their order, whatever bytes they are made of. *)
Theorem C61_names : forall l oom full w c from s,
  files0 c = Some from -> explicit c = [] -> source w from s -> (from = ["-"%byte] -> stdin_used c = false) ->
  (forall p, oom p = false) -> (forall p, full p = false) -> fails s = false ->
  exists names, listed (bytes s) names /\ parse_roots l oom full w c = Roots names.
Proof.
  exact roots_read.
Qed.
Print Assumptions C61_names.

(** C61: every file is such a list, in one way. *)
Theorem C61_one_list : forall contents, exists names, listed contents names /\ forall names', listed contents names' -> names' = names.
Proof.
  exact listed_once.
Qed.
Print Assumptions C61_one_list.

(** C61: no search starts with a part of the list: if reading fails, or memory runs out, the command line is rejected.
    What is missing is the case of C libraries which do not tell the latter from the end of the file. *)
Theorem C61_all_or_none_partial : forall l oom full w c from s names,
  files0 c = Some from -> explicit c = [] -> source w from s -> (from = ["-"%byte] -> stdin_used c = false) ->
  indicator l = true \/ (forall p, oom p = false) ->
  parse_roots l oom full w c = Roots names -> listed (bytes s) names /\ fails s = false.
Proof.
  exact never_part.
Qed.
Print Assumptions C61_all_or_none_partial.

(** The full claim is false for such libraries. *)
Theorem C61_memory_refuted : exists l oom w c from s names, files0 c = Some from /\ source w from s /\
  parse_roots l oom (fun _ => false) w c = Roots names /\ ~ listed (bytes s) names.
Proof.
  exact no_memory.
Qed.
Print Assumptions C61_memory_refuted.

(** C61: the paths on the command line are searched, or else the current directory; -files0-from must not be combined with paths; standard input
    must not be used twice; and the file must exist.  In these cases there is a message. *)
Theorem C61_roots : forall l oom full w c,
  (files0 c = None -> explicit c <> [] -> parse_roots l oom full w c = Roots (explicit c)) /\
  (files0 c = None -> explicit c = [] -> full ["."%byte] = false -> parse_roots l oom full w c = Roots [["."%byte]]) /\
  (files0 c <> None -> explicit c <> [] -> parse_roots l oom full w c = Rejected true) /\
  (files0 c = Some ["-"%byte] -> stdin_used c = true -> parse_roots l oom full w c = Rejected true) /\
  (forall from, files0 c = Some from -> from <> ["-"%byte] -> open w from = None -> parse_roots l oom full w c = Rejected true).
Proof.
  exact choose.
Qed.
Print Assumptions C61_roots.

(** C61: reading comes to an end. *)
Theorem C61_terminates : forall l oom full w c, parse_roots l oom full w c <> Out_of_fuel.
Proof.
  exact always_answers.
Qed.
Print Assumptions C61_terminates.

(** C61: a command line is only rejected without a message if the list could not be read. *)
Theorem C61_message_partial : forall l oom full w c, parse_roots l oom full w c = Rejected false ->
  exists from s, files0 c = Some from /\ source w from s /\ (fails s = true \/ exists p, oom p = true).
Proof.
  exact silent.
Qed.
Print Assumptions C61_message_partial.

(** The full claim is that there is always a message.  It is false: there is none if reading fails. *)
Theorem C61_message_refuted : exists l w c from s, files0 c = Some from /\ source w from s /\ fails s = true /\
  parse_roots l (fun _ => false) (fun _ => false) w c = Rejected false.
Proof.
  exact no_message.
Qed.
Print Assumptions C61_message_refuted.

(** xgetdelim() is documented to give the text without the delimiter.  That is false for delimiters other than NUL: answers to -ok end in a newline. *)
Theorem C61_delimiter_refuted : exists l s delim line rest, bytes s = line ++ delim :: rest /\ ~ In delim line /\
  xgetdelim l (fun _ => false) s delim = Text (line ++ [delim]) (mkStream rest false).
Proof.
  exact delimiter_kept.
Qed.
Print Assumptions C61_delimiter_refuted.

Module Examples.
  Open Scope byte_scope.
  Definition no (_ : list byte) : bool := false.
  (** a NUL NUL b newline c: the names a, the empty one, and one with a newline *)
  Definition contents : list byte := ["a"; x00; x00; "b"; x0a; "c"].
  Definition w : system := mkSystem (mkStream [] true) (fun f => if list_eq_dec Byte.byte_eq_dec f ["l"] then Some (mkStream contents false) else None).
  Example list_read : parse_roots (mkLibc false false) no no w (mkCmd [] (Some ["l"]) true) = Roots [["a"]; []; ["b"; x0a; "c"]] /\ source w ["l"] (mkStream contents false).
  Proof. split; [reflexivity|]. right. split; [discriminate|reflexivity]. Qed.
  Example list_ok : listed contents [["a"]; []; ["b"; x0a; "c"]].
  Proof.
    split; [intros n I X; cbn in I; repeat destruct I as [<- | I]; try contradiction; cbn in X; repeat destruct X as [X | X]; discriminate || contradiction|].
    right. exists [["a"]; []], ["b"; x0a; "c"]. split; [reflexivity|]. split; [discriminate|reflexivity].
  Qed.
  Example stdin_fails : parse_roots (mkLibc true true) no no w (mkCmd [] (Some ["-"]) false) = Rejected false /\
    parse_roots (mkLibc true true) no no w (mkCmd [["x"]] (Some ["l"]) false) = Rejected true /\ parse_roots (mkLibc true true) no no w (mkCmd [] None false) = Roots [["."]].
  Proof. split; [|split]; reflexivity. Qed.
  (** The error comes after a name without a NUL: neither kind of library lets it pass. *)
  Example late_error : forall p, parse_roots (mkLibc p true) no no (mkSystem (mkStream ["a"; x00; "b"] true) (fun _ => None)) (mkCmd [] (Some ["-"]) false) = Rejected false.
  Proof. intros []; reflexivity. Qed.
End Examples.
