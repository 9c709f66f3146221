(** * Properties of regular expressions *)
From Coq Require Import List Bool Arith ZArith Init.Byte Strings.Byte.
From Verif Require Import RegexModel RegexSpec RegexProofs.
Import ListNotations.

(** With the C library's regexec(), -regex is true of exactly the paths that match as a whole; if the search fails, and only
    then, an error is reported. *)
Theorem C53_posix decode regexec r str s : locale decode -> posix_regexec decode regexec -> decode str = Some s ->
  let '(result, error) := eval_regex decode regexec false r str in
  (result = true -> whole r s) /\ (result = false -> error = false -> ~ whole r s) /\ (result = true -> error = false) /\
  (error = true <-> exists code, regexec r str = Error code).
Proof. exact (eval_posix decode regexec r str s). Qed.
Print Assumptions C53_posix.

(** With Oniguruma, it is true only of those; and of all of them if the expression ends with $. *)
Theorem C53_onig_partial decode regexec r str s : locale decode -> decode str = Some s ->
  let '(result, error) := eval_regex decode regexec true r str in
  error = false /\ (result = true -> whole r s) /\ (forall q, r = Cat q Eol -> whole r s -> result = true).
Proof. exact (eval_onig decode regexec r str s). Qed.
Print Assumptions C53_onig_partial.

(** Paths that are not made of characters of the locale are no match, and no error. *)
Theorem C53_onig_invalid decode regexec r str : decode str = None -> eval_regex decode regexec true r str = (false, false).
Proof. exact (eval_invalid decode regexec r str). Qed.
Print Assumptions C53_onig_invalid.

(** But the expression a|ab does not match ab. *)
Theorem C53_onig_refuted : exists decode r str s,
  locale decode /\ decode str = Some s /\ whole r s /\ fst (eval_regex decode (fun _ _ => Mismatch) true r str) = false.
Proof. exact onig_short. Qed.
Print Assumptions C53_onig_refuted.

(** -ok goes on only after an answer that means yes in the locale. *)
Theorem C53_prompt_yes decode regexec : locale decode -> posix_regexec decode regexec ->
  forall onig noexpr yesexpr line, ynprompt decode regexec onig noexpr yesexpr line = 1%Z ->
  exists str n y, line = Some str /\ noexpr = Some n /\ yesexpr = Some y /\ forall s, decode str = Some s -> affirmative n y str s.
Proof. exact (fun _ => prompt_yes decode regexec). Qed.
Print Assumptions C53_prompt_yes.

(** And after every such answer, if searching does not fail *)
Theorem C53_prompt_all decode regexec : locale decode -> posix_regexec decode regexec ->
  forall onig n y str s, decode str = Some s -> affirmative n y str s ->
  (forall r, xrpregex decode regexec onig (Some r) str <> (-1)%Z) -> ynprompt decode regexec onig (Some n) (Some y) (Some str) = 1%Z.
Proof. exact (fun _ => prompt_all decode regexec). Qed.
Print Assumptions C53_prompt_all.

Module Examples.
  (** UTF-8, as far as two bytes *)
  Fixpoint decode (str : list byte) : option (list char) :=
    match str with
    | [] => Some []
    | "195"%byte :: c :: l => match decode l with Some s => Some (["195"%byte; c] :: s) | None => None end
    | "195"%byte :: [] => None
    | c :: l => match decode l with Some s => Some ([c] :: s) | None => None end
    end.
  Example decodes : locale decode.
  Proof.
    assert (G : forall n str, length str <= n -> forall s, decode str = Some s -> concat s = str /\ Forall (fun c => c <> []) s).
    { induction n as [|n IH]; intros str L s D.
      - destruct str; [|cbn in L; inversion L]. injection D as <-. split; [reflexivity|constructor].
      - destruct str as [|c str]; [injection D as <-; split; [reflexivity|constructor]|]. cbn in L. apply le_S_n in L.
        destruct (byte_eq_dec c "195"%byte) as [->|N].
        + destruct str as [|d str]; [discriminate|]. cbn in D. destruct (decode str) as [s'|] eqn:E; [|discriminate]. injection D as <-.
          assert (L' : length str <= n) by (cbn in L; apply le_S_n; apply le_S; exact L).
          destruct (IH _ L' _ E) as (<- & F). split; [reflexivity|]. constructor; [discriminate|exact F].
        + assert (D' : match decode str with Some s => Some ([c] :: s) | None => None end = Some s) by (destruct c; try exact D; congruence).
          destruct (decode str) as [s'|] eqn:E; [|discriminate]. injection D' as <-. destruct (IH _ L _ E) as (<- & F). split; [reflexivity|]. constructor; [discriminate|exact F]. }
    intros str. exact (G _ str (le_n _)).
  Qed.
  Example regexec_exists : posix_regexec decode (model_regexec decode).
  Proof. apply model_posix. Qed.

  Definition is (x : byte) : re := Chr (fun c => match c with [y] => if byte_eq_dec x y then true else false | _ => false end).
  Definition dot : re := Chr (fun _ => true).
  (** .a(b|bc) *)
  Definition r : re := Cat dot (Cat (is "a"%byte) (Alt (is "b"%byte) (Cat (is "b"%byte) (is "c"%byte)))).
  Definition run (onig : bool) (r : re) (str : list byte) := fst (eval_regex decode (model_regexec decode) onig r str).
  (** éab, éabc, éabcd *)
  Example posix_runs : map (run false r) [["195"; "169"; "a"; "b"]; ["195"; "169"; "a"; "b"; "c"]; ["195"; "169"; "a"; "b"; "c"; "d"]; ["169"; "195"; "a"; "b"]]%byte = [true; true; false; false].
  Proof. vm_compute. reflexivity. Qed.
  Example onig_runs : map (run true r) [["195"; "169"; "a"; "b"]; ["195"; "169"; "a"; "b"; "c"]]%byte = [true; false]
    /\ map (run true (Cat r Eol)) [["195"; "169"; "a"; "b"]; ["195"; "169"; "a"; "b"; "c"]]%byte = [true; true].
  Proof. split; vm_compute; reflexivity. Qed.

  Example invalid : run true (Star dot) ["a"; "195"]%byte = false.
  Proof. vm_compute. reflexivity. Qed.

  Definition noexpr : re := Cat Bol (is "n"%byte).
  Definition yesexpr : re := Cat Bol (is "o"%byte).
  Example answers : map (fun l => (ynprompt decode (model_regexec decode) false (Some noexpr) (Some yesexpr) l, ynprompt decode (model_regexec decode) true (Some noexpr) (Some yesexpr) l))
    [Some ["o"; "u"; "i"]; Some ["n"; "o"]; Some ["y"]; Some ["x"]; Some []; None]%byte = [(1, 1); (0, 0); (1, 1); (-1, -1); (-1, -1); (-1, -1)]%Z.
  Proof. vm_compute. reflexivity. Qed.
End Examples.
