(** * How a shell reads a word *)
From Coq Require Import String List NArith Bool.
From Coq Require Import Init.Byte Strings.Byte.
From Verif Require Import QuoteModel.
Import ListNotations.

(** Where the reader is: outside of quotes, after a backslash there, after a
    dollar sign there, in single quotes, in double quotes, in $'...', after a
    backslash in it, and in a hexadecimal escape in it (with the first digit). *)
Inductive mode :=
| Bare | Escaped | Dollar | Single | Double | Ansi | AnsiEsc | Hex0 | Hex1 (v : N).

(** Characters that end a word or mean something else than themselves outside
    of quotes (POSIX 2.2), and in double quotes *)
Definition special : list byte := str "|&;<>()$`\""' *?[#~=%!{}" ++ [x09; x0a].
Definition special_in_double : list byte := str "$`\""!".

Definition hex_digit (c : byte) : option N :=
  let n := Byte.to_N c in
  if (48 <=? n)%N && (n <=? 57)%N then Some (n - 48)%N
  else if (65 <=? n)%N && (n <=? 70)%N then Some (n - 55)%N
  else if (97 <=? n)%N && (n <=? 102)%N then Some (n - 87)%N
  else None.

(** The escapes of $'...' in Bash and POSIX.1-2024, except \x *)
Definition ansi_escape (c : byte) : option byte :=
  match c with
  | x61 => Some x07 | x62 => Some x08 | x65 | x45 => Some x1b | x66 => Some x0c
  | x6e => Some x0a | x72 => Some x0d | x74 => Some x09 | x76 => Some x0b
  | x5c => Some x5c | x27 => Some x27 | x22 => Some x22 | x3f => Some x3f
  | _ => None
  end.

Definition consbyte (n : N) (r : option (list byte)) : option (list byte) :=
  match Byte.of_N n with Some c => option_map (cons c) r | None => None end.

(** The bytes a word denotes; [None] if it is not a complete word, or contains
    expansions, patterns and so on.  The shell reads bytes. *)
Fixpoint read (m : mode) (s : list byte) : option (list byte) :=
  match s with
  | [] => match m with Bare => Some [] | _ => None end
  | c :: s' =>
      match m with
      | Bare =>
          match c with
          | x5c => read Escaped s'
          | x27 => read Single s'
          | x22 => read Double s'
          | x24 => read Dollar s'
          | _ => if mem c special then None else option_map (cons c) (read Bare s')
          end
      | Escaped => if Byte.eqb c x0a then None else option_map (cons c) (read Bare s')
      | Dollar => if Byte.eqb c x27 then read Ansi s' else None
      | Single => if Byte.eqb c x27 then read Bare s' else option_map (cons c) (read Single s')
      | Double =>
          if Byte.eqb c x22 then read Bare s'
          else if mem c special_in_double then None
          else option_map (cons c) (read Double s')
      | Ansi =>
          match c with
          | x27 => read Bare s'
          | x5c => read AnsiEsc s'
          | _ => option_map (cons c) (read Ansi s')
          end
      | AnsiEsc =>
          if Byte.eqb c x78 then read Hex0 s'
          else match ansi_escape c with
               | Some v => option_map (cons v) (read Ansi s')
               | None => None
               end
      | Hex0 =>
          match hex_digit c with
          | Some v => read (Hex1 v) s'
          | None => None
          end
      | Hex1 v =>
          match hex_digit c with
          | Some w => consbyte (16 * v + w) (read Ansi s')
          | None =>
              match c with
              | x27 => consbyte v (read Bare s')
              | x5c => consbyte v (read AnsiEsc s')
              | _ => consbyte v (option_map (cons c) (read Ansi s'))
              end
          end
      end
  end.

Definition shell_word (s : list byte) : option (list byte) :=
  match s with [] => None | _ => read Bare s end.

(** What a locale must satisfy: a decoded character takes at least one and at
    most all of the bytes, and characters that contain a tab or a newline byte
    are not printable. *)
Definition good_locale (l : locale) : Prop :=
  (forall mb s n c mb', ~ In x00 s -> decode l mb s = Some (n, c, mb') -> 1 <= n <= length s) /\
  (forall mb s n c mb', decode l mb s = Some (n, c, mb') -> iswprint l c = true ->
     ~ In x09 (firstn n s) /\ ~ In x0a (firstn n s)) /\
  isprint l x09 = false /\ isprint l x0a = false.

(** A string of printable characters: ASCII ones, those for which isprint() is
    true, and byte sequences that decode to one for which iswprint() is true *)
Inductive printable (l : locale) : list byte -> Prop :=
| pr_nil : printable l []
| pr_ascii c s : (32 <= Byte.to_N c <= 126)%N -> printable l s -> printable l (c :: s)
| pr_byte c s : isprint l c = true -> printable l s -> printable l (c :: s)
| pr_wide mb t n c mb' s : decode l mb t = Some (n, c, mb') -> iswprint l c = true ->
    printable l s -> printable l (firstn n t ++ s).

(** Also, no character that takes several bytes contains an apostrophe. *)
Definition quote_alone (l : locale) : Prop :=
  forall mb s n c mb', decode l mb s = Some (n, c, mb') -> In x27 (firstn n s) -> n = 1.
