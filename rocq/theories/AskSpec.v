(** * A dialogue about commands *)
From Coq Require Import Strings.Byte List Bool Arith ZArith.
From Verif Require Import ExecModel ExecSpec RegexModel RegexSpec FilesModel AskModel.
Import ListNotations.

(** The command for a path, and the question about it: its words, with a space after each, and a question mark *)
Definition command_for (tmpl : list arg) (path : list byte) : list arg := map (substitute path) tmpl.
Definition question (argv : list arg) : list byte := concat (map (fun a => a ++ [x20]) argv) ++ [x3f; x20].

(** The lines of a text, each with its newline, which only the last one may lack *)
Fixpoint lines (s : list byte) : list (list byte) :=
  match s with
  | [] => []
  | c :: s =>
      if Byte.eqb c x0a then [c] :: lines s
      else match lines s with [] => [[c]] | l :: ls => (c :: l) :: ls end
  end.

Section Answers.
  Variable decode : list byte -> option (list char).
  Variable regexec : re -> list byte -> found.
  Variables (oniguruma : bool) (noexpr yesexpr : re).

  (** The answer means yes in the locale; the end of the input does not. *)
  Definition says_yes (line : option (list byte)) : Prop :=
    exists l s, line = Some l /\ decode (c_string l) = Some s /\ affirmative noexpr yesexpr (c_string l) s.

  (** Searching works for all answers. *)
  Definition dependable : Prop :=
    locale decode /\ posix_regexec decode regexec /\
    (forall str, decode str <> None) /\ (forall r str, xrpregex decode regexec oniguruma (Some r) str <> (-1)%Z).

  (** For each file: what was printed before, then the question, then one line of input is read; the command is run exactly if that
      line means yes.  The value is true if it was run and succeeded. *)
  Inductive dialogue (tmpl : list arg) : list job -> list (list byte) -> list event -> list (bool * bool) -> Prop :=
  | d_nil ls : dialogue tmpl [] ls [] []
  | d_yes j js ls es rs : says_yes (hd_error ls) -> dialogue tmpl js (tl ls) es rs ->
      dialogue tmpl (j :: js) ls
        (map Out (w_text j) ++ map Err (question (command_for tmpl (w_path j))) ++ Read (hd_error ls) :: Ran (command_for tmpl (w_path j)) :: es)
        ((w_success j, false) :: rs)
  | d_no j js ls es rs : ~ says_yes (hd_error ls) -> dialogue tmpl js (tl ls) es rs ->
      dialogue tmpl (j :: js) ls
        (map Out (w_text j) ++ map Err (question (command_for tmpl (w_path j))) ++ Read (hd_error ls) :: es)
        ((false, false) :: rs).

  (** Before every command that is run, there is the whole question about it, and an answer that means yes. *)
  Definition asked (es : list event) : Prop := forall pre argv post, es = pre ++ Ran argv :: post ->
    exists pre' line, pre = pre' ++ map Err (question argv) ++ [Read line] /\ says_yes line.
End Answers.

(** Nothing fails, and commands do not read from standard input. *)
Definition quiet (j : job) : Prop := (forall k, w_mem j k = true) /\ (forall k, w_err j k = true) /\ w_eats j = 0.
