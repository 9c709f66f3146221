(** * Regular expressions: src/xregex.c and eval_regex() *)
From Coq Require Import List Bool Arith ZArith Init.Byte.
Import ListNotations.

(** A compiled regular expression.  Characters are what the locale decodes: sequences of bytes.  [Chr] is a character, a
    bracket expression or a dot, as the set of characters that it stands for; with -iregex it is closed under case.
    a+ is [Cat a (Star a)], a? is [Alt a Eps].  Back-references are left out. *)
Notation char := (list byte).
Inductive re := Eps | Chr (f : char -> bool) | Cat (a b : re) | Alt (a b : re) | Star (a : re) | Bol | Eol.

(** How regexec() and onig_match() end: a match from one byte offset to another, no match, or an error *)
Inductive found := Match (so eo : nat) | Mismatch | Error (code : nat).

(** The number of bytes before a character *)
Definition off (s : list char) (i : nat) : nat := length (concat (firstn i s)).

(** ** Oniguruma, which is a backtracking matcher.  This is what it tries, in order: the ends of the matches that start
    at a position.  The first alternative comes first, and repetition is greedy; an iteration that matches nothing ends it. *)
Fixpoint ends (r : re) (s : list char) (i : nat) : list nat :=
  match r with
  | Eps => [i]
  | Chr f => match nth_error s i with Some c => if f c then [S i] else [] | None => [] end
  | Cat a b => flat_map (ends b s) (ends a s i)
  | Alt a b => ends a s i ++ ends b s i
  | Star a =>
      (fix loop (fuel i : nat) : list nat :=
         match fuel with
         | O => []
         | S fuel => flat_map (loop fuel) (filter (fun j => i <? j) (ends a s i)) ++ [i]
         end) (S (length s - i)) i
  | Bol => if i =? 0 then [i] else []
  | Eol => if i =? length s then [i] else []
  end.
(** onig_match(), without ONIG_OPTION_FIND_LONGEST: the length of the first match at the start *)
Definition onig_match (r : re) (s : list char) : found :=
  match ends r s 0 with j :: _ => Match 0 (off s j) | [] => Mismatch end.
(** onig_search(): the first position where there is a match *)
Definition onig_search (r : re) (s : list char) : found :=
  match find (fun i => match ends r s i with [] => false | _ => true end) (seq 0 (S (length s))) with
  | Some i => match ends r s i with j :: _ => Match (off s i) (off s j) | [] => Mismatch end
  | None => Mismatch
  end.

Section Exec.
  (** The locale: the characters of a string, unless it is not valid *)
  Variable decode : list byte -> option (list char).
  (** regexec() with one regmatch_t *)
  Variable regexec : re -> list byte -> found.

  (** xregex.c 253-286, with Oniguruma *)
  Definition bfs_regexec_onig (r : re) (str : list byte) (anchor : bool) : Z :=
    let len := length str in
    match decode str with
    | None => 0
    | Some s =>
        match (if anchor then onig_match r s else onig_search r s) with
        | Match so eo =>
            (* onig_match() returns the length of the match, onig_search() its start *)
            let ret := if anchor then (eo - so)%nat else so in
            if anchor then (if (ret =? len)%nat then 1 else 0) else 1
        | Mismatch => 0
        | Error _ => -1
        end
    end%Z.

  (** xregex.c 253-254 and 287-314, with regexec() *)
  Definition bfs_regexec_posix (r : re) (str : list byte) (anchor : bool) : Z :=
    let len := length str in
    match regexec r str with
    | Match so eo => if anchor then (if (so =? 0)%nat && (eo =? len)%nat then 1 else 0) else 1
    | Mismatch => 0
    | Error _ => -1
    end%Z.

  (** eval.c 913-931: the result, and whether an error is reported *)
  Definition eval_regex (oniguruma : bool) (r : re) (path : list byte) : bool * bool :=
    let ret := if oniguruma then bfs_regexec_onig r path true else bfs_regexec_posix r path true in
    ((0 <? ret)%Z, (ret <? 0)%Z).

  (** bfstd.c 372-388, [xrpregex], for a pattern of the locale that was compiled, or not *)
  Definition xrpregex (oniguruma : bool) (pattern : option re) (response : list byte) : Z :=
    match pattern with
    | None => -1
    | Some r => if oniguruma then bfs_regexec_onig r response false else bfs_regexec_posix r response false
    end%Z.
  (** bfstd.c 390-414 *)
  Definition xrpmatch (oniguruma : bool) (noexpr yesexpr : option re) (response : list byte) : Z :=
    let ret := xrpregex oniguruma noexpr response in
    if (0 <? ret)%Z then 0
    else if (ret <? 0)%Z then -1
    else
      let ret := xrpregex oniguruma yesexpr response in
      if (0 <? ret)%Z then 1
      else if (ret <? 0)%Z then -1
      else
        match response with
        | ("n" | "N")%byte :: _ => 0
        | ("y" | "Y")%byte :: _ => 1
        | _ => -1
        end%Z.
  (** bfstd.c 417-424: [line] is what xgetdelim() gives (C61), with the newline, or [None] at the end of the file *)
  Definition ynprompt (oniguruma : bool) (noexpr yesexpr : option re) (line : option (list byte)) : Z :=
    match line with Some l => xrpmatch oniguruma noexpr yesexpr l | None => -1%Z end.
End Exec.
