(** * How the output is read: the input of xargs(1), and NUL separated lists *)
From Coq Require Import List Bool.
From Coq Require Import Init.Byte Strings.Byte.
Import ListNotations.

(** POSIX xargs: arguments are separated by unquoted blanks and newlines; a
    backslash quotes the next character; single or double quotes quote all but
    themselves and newline. *)
Inductive state := Plain | Escaped | Quoted (q : byte).

Definition separator (c : byte) : bool := Byte.eqb c " " || Byte.eqb c x09 || Byte.eqb c x0a.

Definition add (cur : option (list byte)) (c : byte) : option (list byte) :=
  Some (match cur with Some w => w ++ [c] | None => [c] end).
Definition finish (cur : option (list byte)) : list (list byte) :=
  match cur with Some w => [w] | None => [] end.

(** [cur] is the argument being read; [None] is an unterminated quote. *)
Fixpoint xargs (st : state) (cur : option (list byte)) (s : list byte) : option (list (list byte)) :=
  match s with
  | [] => match st with Plain => Some (finish cur) | _ => None end
  | c :: s =>
      match st with
      | Plain =>
          if separator c then
            match xargs Plain None s with Some ws => Some (finish cur ++ ws) | None => None end
          else if Byte.eqb c "\" then xargs Escaped (Some (match cur with Some w => w | None => [] end)) s
          else if Byte.eqb c "'" || Byte.eqb c x22 then
            xargs (Quoted c) (Some (match cur with Some w => w | None => [] end)) s
          else xargs Plain (add cur c) s
      | Escaped => xargs Plain (add cur c) s
      | Quoted q =>
          if Byte.eqb c q then xargs Plain cur s
          else if Byte.eqb c x0a then None
          else xargs (Quoted q) (add cur c) s
      end
  end.
Definition xargs_split (s : list byte) : option (list (list byte)) := xargs Plain None s.

(** The strings terminated by NUL, and what follows the last one *)
Fixpoint split0 (cur s : list byte) : list (list byte) * list byte :=
  match s with
  | [] => ([], cur)
  | c :: s =>
      if Byte.eqb c x00 then let '(ws, r) := split0 [] s in (cur :: ws, r)
      else split0 (cur ++ [c]) s
  end.
Definition xargs0_split (s : list byte) : list (list byte) * list byte := split0 [] s.

(** Shell metacharacters that the encoding also protects: each is preceded by a
    backslash that is not itself escaped. *)
Fixpoint protected (special : byte -> bool) (s : list byte) : bool :=
  match s with
  | [] => true
  | c :: s =>
      if Byte.eqb c "\" then match s with _ :: s' => protected special s' | [] => false end
      else negb (special c) && protected special s
  end.
