(** * C73: -ok asks about each command, and runs it only if the answer is yes *)
From Coq Require Import Strings.Byte Strings.String List Bool Arith ZArith Lia.
From Verif Require Import ExecModel ExecSpec RegexModel RegexSpec RegexProofs FilesModel AskModel AskSpec AskProofs.
Import ListNotations.

(** Whatever the sizes of reads are: for each file, what was printed before is shown, the question is asked, one line is read, and the
    command is run exactly if that line means yes in the locale. *)
Theorem C73_dialogue : forall decode regexec oniguruma noexpr yesexpr tmpl, dependable decode regexec oniguruma -> forall js st, Forall quiet js -> pending st = [] ->
  exists st' es rs, ok_files decode regexec oniguruma (Some noexpr) (Some yesexpr) tmpl js st = Some (st', rs) /\ log st' = log st ++ es /\
    dialogue decode noexpr yesexpr tmpl js (lines (buffer st ++ kernel st)) es rs.
Proof. exact files_ok. Qed.
Print Assumptions C73_dialogue.

(** Whatever fails, and whatever commands read: no command is run without a complete question and an answer that means yes, other
    commands than those for the files are not run, and the action is true only of files whose command was run. *)
Theorem C73_asked : forall decode regexec oniguruma noexpr yesexpr tmpl, dependable decode regexec oniguruma -> forall js st,
  exists st' es rs, ok_files decode regexec oniguruma (Some noexpr) (Some yesexpr) tmpl js st = Some (st', rs) /\ log st' = log st ++ es /\
    asked decode noexpr yesexpr es /\
    (forall argv, In (Ran argv) es -> exists j, In j js /\ argv = command_for tmpl (w_path j)) /\
    Forall2 (fun j r => fst r = true -> In (Ran (command_for tmpl (w_path j))) es) js rs.
Proof. exact files_asked. Qed.
Print Assumptions C73_asked.

(** The questions of an action tell the files apart, if the path is part of the command. *)
Theorem C73_question : forall tmpl p q, Exists has_braces tmpl -> question (command_for tmpl p) = question (command_for tmpl q) -> p = q.
Proof. exact question_inj. Qed.
Print Assumptions C73_question.

Module Words.
  Definition w (s : string) : list byte := list_byte_of_string s.
  (** rm {} *)
  Definition rm : list arg := [w "rm"; w "{}"].
  (** Every byte is a character. *)
  Definition decode (str : list byte) : option (list char) := Some (map (fun c => [c]) str).
  Definition yesexpr : re := Cat Bol (Chr (fun c => match c with ["y"%byte] | ["Y"%byte] => true | _ => false end)).
  Definition noexpr : re := Cat Bol (Chr (fun c => match c with ["n"%byte] | ["N"%byte] => true | _ => false end)).
  Lemma works onig : dependable decode (model_regexec decode) onig.
  Proof.
    split; [|split; [apply model_posix|split; [discriminate|]]].
    - intros str s [= <-]. split; [induction str; cbn; congruence|]. apply Forall_forall. intros c I. apply in_map_iff in I. destruct I as (x & <- & _). discriminate.
    - intros r str. unfold xrpregex, bfs_regexec_onig, bfs_regexec_posix, model_regexec, onig_search, decode. destruct onig.
      + destruct (find _ _); [|discriminate]. match goal with |- match match ?x with _ => _ end with _ => _ end <> _ => destruct x end; discriminate.
      + destruct (find _ _); discriminate.
  Qed.
  Definition run (js : list job) (stdin : string) := ok_files decode (model_regexec decode) false (Some noexpr) (Some yesexpr) rm js (start (w stdin)).
  Definition job_ (path text : string) (eats : nat) : job := mkJob (w path) (w text) (fun _ => true) (fun _ => true) (fun _ => 1) eats true.
  Definition yes := says_yes decode noexpr yesexpr.
End Words.
Import Words.

(** The question is not on a line of its own: the question about one file can end with the one about another file, after a newline. *)
Theorem C73_newline_refuted : exists tmpl p q pre, Exists has_braces tmpl /\ p <> q /\
  question (command_for tmpl p) = pre ++ [x0a] ++ question (command_for tmpl q).
Proof.
  exists rm, (w "a ? " ++ [x0a] ++ w "rm b"), (w "b"), (w "rm a ? "). split; [right; left; exists [], []; reflexivity|]. split; [discriminate|]. reflexivity.
Qed.
Print Assumptions C73_newline_refuted.

(** Commands share standard input: one that reads a line of it takes the answer to the next question, which gets the one after it. *)
Theorem C73_stdin_refuted : exists decode regexec noexpr yesexpr tmpl j j' stdin st' rs,
  dependable decode regexec false /\ quiet j' /\ (forall k, w_mem j k = true) /\ (forall k, w_err j k = true) /\
  ok_files decode regexec false (Some noexpr) (Some yesexpr) tmpl [j; j'] (start stdin) = Some (st', rs) /\
  In (Ran (command_for tmpl (w_path j'))) (log st') /\
  exists line, nth_error (lines stdin) 1 = Some line /\ ~ says_yes decode noexpr yesexpr (Some line).
Proof.
  exists decode, (model_regexec decode), noexpr, yesexpr, rm, (job_ "a" "" 2), (job_ "b" "" 0), (w "y" ++ [x0a] ++ w "n" ++ [x0a] ++ w "y" ++ [x0a]).
  eexists _, _. split; [apply works|]. split; [repeat split|]. split; [reflexivity|]. split; [reflexivity|].
  split; [vm_compute; reflexivity|]. split; [vm_compute; auto 30|]. eexists. split; [vm_compute; reflexivity|].
  pose proof (answer_ok decode (model_regexec decode) false noexpr yesexpr (works false) (Some ["n"%byte; x0a])) as A. vm_compute in A. exact A.
Qed.
Print Assumptions C73_stdin_refuted.

Module Examples.
  (** Two files, with -print before -ok; the answers are y and nothing. *)
  Example talks : option_map (fun r => (log (fst r), snd r)) (run [job_ "a b" "x" 0; job_ "c" "" 0] "y") =
    Some (map Out (w "x") ++ map Err (w "rm a b ? ") ++ [Read (Some (w "y")); Ran [w "rm"; w "a b"]] ++ map Err (w "rm c ? ") ++ [Read None], [(true, false); (false, false)]).
  Proof. vm_compute. reflexivity. Qed.
  Example meets : Forall quiet [job_ "a b" "x" 0; job_ "c" "" 0] /\ pending (start (w "y")) = [] /\ dependable decode (model_regexec decode) false.
  Proof. split; [repeat constructor|]. split; [reflexivity|apply works]. Qed.
  Example answers : yes (Some (w "yes")) /\ ~ yes (Some (w "no")) /\ ~ yes (Some (w " y")) /\ ~ yes None.
  Proof.
    repeat split; match goal with |- ~ yes ?l => pose proof (answer_ok decode (model_regexec decode) false noexpr yesexpr (works false) l) as A; vm_compute in A; exact A
    | |- yes ?l => pose proof (answer_ok decode (model_regexec decode) false noexpr yesexpr (works false) l) as A; vm_compute in A; exact A | _ => idtac end.
  Qed.
  Example splits : lines (w "y" ++ [x0a; x0a] ++ w "no") = [w "y" ++ [x0a]; [x0a]; w "no"].
  Proof. vm_compute. reflexivity. Qed.
  (** A question that cannot be written *)
  Example fails : option_map (fun r => (log (fst r), snd r))
    (ok_files decode (model_regexec decode) false (Some noexpr) (Some yesexpr) rm [mkJob (w "a") [] (fun _ => true) (fun k => k <? 2) (fun _ => 0) 0 true] (start (w "y"))) =
    Some (map Err (w "rm a "), [(false, true)]).
  Proof. vm_compute. reflexivity. Qed.
End Examples.
