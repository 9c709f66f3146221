(** * What regular expressions mean *)
From Coq Require Import List Bool Arith ZArith Init.Byte.
From Verif Require Import RegexModel.
Import ListNotations.

(** The part of [s] from [i] to [j] is in the language of [r]. *)
Inductive matches : re -> list char -> nat -> nat -> Prop :=
| m_eps s i : matches Eps s i i
| m_chr f s i c : nth_error s i = Some c -> f c = true -> matches (Chr f) s i (S i)
| m_cat a b s i j k : matches a s i j -> matches b s j k -> matches (Cat a b) s i k
| m_left a b s i j : matches a s i j -> matches (Alt a b) s i j
| m_right a b s i j : matches b s i j -> matches (Alt a b) s i j
| m_zero a s i : matches (Star a) s i i
| m_more a s i j k : matches a s i j -> matches (Star a) s j k -> matches (Star a) s i k
| m_bol s : matches Bol s 0 0
| m_eol s : matches Eol s (length s) (length s).

(** The whole string, or some part of it *)
Definition whole (r : re) (s : list char) : Prop := matches r s 0 (length s).
Definition somewhere (r : re) (s : list char) : Prop := exists i j, i <= length s /\ matches r s i j.

(** The locale splits strings into characters. *)
Definition locale (decode : list byte -> option (list char)) : Prop :=
  forall str s, decode str = Some s -> concat s = str /\ Forall (fun c => c <> []) s.

(** regexec() finds the leftmost match, and of these the longest, as POSIX says. *)
Definition posix_regexec (decode : list byte -> option (list char)) (regexec : re -> list byte -> found) : Prop :=
  forall r str s, decode str = Some s ->
    match regexec r str with
    | Match so eo =>
        exists i j, so = off s i /\ eo = off s j /\ i <= length s /\ matches r s i j /\
          forall i' j', i' <= length s -> matches r s i' j' -> i < i' \/ (i' = i /\ j' <= j)
    | Mismatch => ~ somewhere r s
    | Error _ => True
    end.

(** An answer that means yes: it does not match the locale's pattern for no, and matches the one for yes, or begins with y *)
Definition affirmative (noexpr yesexpr : re) (str : list byte) (s : list char) : Prop :=
  ~ somewhere noexpr s /\ (somewhere yesexpr s \/ exists l, str = "y"%byte :: l \/ str = "Y"%byte :: l).
