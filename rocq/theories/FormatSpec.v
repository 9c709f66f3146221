(** * What -printf formats mean *)
From Coq Require Import List ZArith NArith Arith Bool.
From Coq Require Import Init.Byte Strings.Byte.
From Verif Require Import NumSpec.
From Verif Require Import FormatModel.
Import ListNotations.

(** ** Syntax *)

(** A directive: flags, a width, a precision, a letter, and for times another letter *)
Record directive := mkDirective {
  d_flags : list byte; d_width : list byte; d_precision : option (list byte); d_letter : byte; d_time : option byte }.

(** Formats are made of characters, escape sequences, octal ones, %% and directives. *)
Inductive item := Char (c : byte) | Escape (c : byte) | Octal (ds : list byte) | Percent | Directive (d : directive).
(** A format may end with \c, and what follows is ignored. *)
Inductive ending := End | Stop (ignored : list byte).

Definition precision_text (p : option (list byte)) : list byte := match p with Some ds => "."%byte :: ds | None => [] end.
Definition time_text (t : option byte) : list byte := match t with Some c => [c] | None => [] end.
Definition directive_text (d : directive) : list byte :=
  d_flags d ++ d_width d ++ precision_text (d_precision d) ++ d_letter d :: time_text (d_time d).
Definition item_text (i : item) : list byte :=
  match i with
  | Char c => [c]
  | Escape c => ["\"; c]
  | Octal ds => "\" :: ds
  | Percent => ["%"; "%"]
  | Directive d => "%" :: directive_text d
  end%byte.
Definition ending_text (e : ending) : list byte := match e with End => [] | Stop s => "\" :: "c" :: s end%byte.
Definition format_text (items : list item) (e : ending) : list byte := flat_map item_text items ++ ending_text e.

(** The escape sequences of C *)
Definition escapes : list (byte * byte) :=
  [("a", x07); ("b", x08); ("t", x09); ("n", x0a); ("v", x0b); ("f", x0c); ("r", x0d); ("\", "\")]%byte.

(** Numbers, for which all flags make sense *)
Definition numeric (letter : byte) : Prop := In letter ["d"; "m"; "S"]%byte.
Definition plain_letter (letter : byte) : Prop :=
  In letter ["a"; "b"; "c"; "d"; "D"; "f"; "F"; "g"; "G"; "h"; "H"; "i"; "k"; "l"; "m"; "M"; "n"; "p"; "P"; "s"; "S"; "t"; "u"; "U"; "w"; "y"; "Y"; "Z"]%byte.
Definition time_letter (letter : byte) : Prop := In letter ["A"; "B"; "C"; "T"; "W"]%byte.
(** Those of strftime(), and @ and + *)
Definition strftime_letter (c : byte) : Prop :=
  In c ["a"; "A"; "b"; "B"; "c"; "C"; "d"; "D"; "e"; "F"; "g"; "G"; "h"; "H"; "I"; "j"; "k"; "l"; "m"; "M"; "n"; "p";
        "r"; "R"; "s"; "S"; "t"; "T"; "u"; "U"; "V"; "w"; "W"; "x"; "X"; "y"; "Y"; "z"; "Z"; "%"; "+"; "@"]%byte.

Definition directive_ok (d : directive) : Prop :=
  NoDup (d_flags d) /\ (forall c, In c (d_flags d) -> In c ["-"; "#"; "0"; "+"; " "]%byte) /\
  Forall (is_digit_of 10) (d_width d) /\ hd "1"%byte (d_width d) <> "0"%byte /\
  match d_precision d with Some ds => Forall (is_digit_of 10) ds | None => True end /\
  match d_time d with
  | None => plain_letter (d_letter d)
  | Some c => time_letter (d_letter d) /\ strftime_letter c
  end /\
  ((exists c, In c (d_flags d) /\ c <> "-"%byte) -> numeric (d_letter d)).

(** [s] is the text that follows. *)
Definition item_ok (i : item) (s : list byte) : Prop :=
  match i with
  | Char c => c <> "\"%byte /\ c <> "%"%byte
  | Escape c => exists b, In (c, b) escapes
  | Octal ds => 1 <= length ds <= 3 /\ Forall (is_digit_of 8) ds /\
                (length ds < 3 -> match s with c :: _ => ~ is_digit_of 8 c | [] => True end)
  | Percent => True
  | Directive d => directive_ok d
  end.
Fixpoint format_ok (items : list item) (e : ending) : Prop :=
  match items with
  | [] => True
  | i :: items => item_ok i (format_text items e) /\ format_ok items e
  end.

(** ** Meaning *)

Definition time_field (letter : byte) : option field :=
  match letter with
  | "a" | "A" => Some ATIME
  | "c" | "C" => Some CTIME
  | "t" | "T" => Some MTIME
  | "w" | "W" | "B" => Some BTIME
  | _ => None
  end%byte.

(** The conversion for the values that a directive prints *)
Definition conversion (letter : byte) : list byte :=
  match letter with "d" => ["j"; "d"] | "m" => ["o"] | "S" => ["g"] | _ => ["s"] end%byte.

(** The leading directories of a path: all before the name, without the last slash unless there is only that *)
Definition leading (b : bftw) : list byte :=
  match firstn (b_nameoff b) (b_path b) with
  | [] => match b_path b with "/"%byte :: _ => ["/"%byte] | _ => ["."%byte] end
  | [c] => [c]
  | l => removelast l
  end.
(** The path without its root, and without the slash after it *)
Fixpoint after_root (root path : list byte) : list byte :=
  match root, path with
  | _ :: root, _ :: path => after_root root path
  | _ :: _, [] => []
  | [], "/"%byte :: path => path
  | [], path => path
  end.
Definition type_letter (t : ftype) : byte :=
  match t with
  | BFS_REG => "f" | BFS_DIR => "d" | BFS_LNK => "l" | BFS_BLK => "b" | BFS_CHR => "c" | BFS_FIFO => "p" | BFS_SOCK => "s"
  | BFS_DOOR => "D" | BFS_PORT => "P" | BFS_WHT => "w" | BFS_UNKNOWN => "U"
  end.
Definition from_stat (b : bftw) (f : statbuf -> value) : option value := option_map f (b_stat b).

(** The value that a directive prints, if there is one *)
Definition denotes (letter : byte) (time : option byte) (b : bftw) : option value :=
  match time_field letter with
  | Some fld => match b_stat b with
                | Some st => option_map (fun ts => Time ts time) (st_time st fld)
                | None => None
                end
  | None =>
      match letter with
      | "p" => Some (Str (b_path b))
      | "f" => Some (Str (skipn (b_nameoff b) (b_path b)))
      | "h" => Some (Str (leading b))
      | "H" => Some (Str (b_root b))
      | "P" => Some (Str (after_root (b_root b) (b_path b)))
      | "d" => Some (Int (b_depth b))
      | "y" => Some (Str [type_letter (b_type b)])
      | "Y" => Some (Str [match b_follow b with Type_of t => type_letter t | Loop => "L" | Missing => "N" | Failure => "?" end])
      | "l" => match b_type b with BFS_LNK => option_map Str (b_link b) | _ => Some (Str []) end
      | "Z" => option_map Str (b_context b)
      | "F" => match b_stat b with Some _ => option_map Str (b_fstype b) | None => None end
      | "b" => from_stat b (fun st => Decimal (Z.to_N (st_blocks st)))
      | "k" => from_stat b (fun st => Decimal (Z.to_N ((st_blocks st + 1) / 2)))
      | "s" => from_stat b (fun st => Decimal (Z.to_N (st_size st)))
      | "S" => from_stat b (fun st => if (st_size st =? 0)%Z && (st_blocks st =? 0)%Z then Ratio 1 0
                                      else Ratio (512 * st_blocks st) (st_size st))
      | "D" => from_stat b (fun st => Decimal (st_dev st))
      | "i" => from_stat b (fun st => Decimal (st_ino st))
      | "n" => from_stat b (fun st => Decimal (st_nlink st))
      | "m" => from_stat b (fun st => Mode (st_mode st mod 4096))
      | "M" => from_stat b (fun st => Symbolic (st_mode st))
      | "U" => from_stat b (fun st => Decimal (st_uid st))
      | "G" => from_stat b (fun st => Decimal (st_gid st))
      | "u" => from_stat b (fun st => match b_user b (st_uid st) with Some n => Str n | None => Decimal (st_uid st) end)
      | "g" => from_stat b (fun st => match b_group b (st_gid st) with Some n => Str n | None => Decimal (st_gid st) end)
      | _ => None
      end
  end%byte.

(** %Y prints a question mark for a target that it cannot look at, and fails. *)
Definition fails (letter : byte) (b : bftw) : bool :=
  match letter, b_follow b with "Y"%byte, Failure => true | _, _ => false end.

Definition escaped (c : byte) : list event := map (fun x => Put (snd x)) (filter (fun x => Byte.eqb (fst x) c) escapes).
Definition octal_byte (ds : list byte) : byte := match Byte.of_N (Z.to_N (NumSpec.value 8 ds mod 256)) with Some c => c | None => x00 end.

Section Output.
Variable vfprintf : list byte -> value -> option (list byte).
Variable b : bftw.
(** The conversion has the flags, width and precision of the directive. *)
Definition directive_output (d : directive) : list event * bool :=
  match denotes (d_letter d) (d_time d) b with
  | None => ([], false)
  | Some v => match vfprintf ("%"%byte :: d_flags d ++ d_width d ++ precision_text (d_precision d) ++ conversion (d_letter d)) v with
              | Some t => (map Put t, negb (fails (d_letter d) b))
              | None => ([], false)
              end
  end.
Definition item_output (i : item) : list event * bool :=
  match i with
  | Char c => ([Put c], true)
  | Escape c => (escaped c, true)
  | Octal ds => ([Put (octal_byte ds)], true)
  | Percent => ([Put "%"%byte], true)
  | Directive d => directive_output d
  end.
(** Everything is printed, even if something fails. *)
Definition output (items : list item) (e : ending) : list event * bool :=
  (flat_map (fun i => fst (item_output i)) items ++ match e with End => [] | Stop _ => [Flush] end,
   forallb (fun i => snd (item_output i)) items).
End Output.

(** The sizes are not absurd. *)
Definition modest (b : bftw) : Prop :=
  b_nameoff b <= length (b_path b) /\
  match b_stat b with Some st => (0 <= st_blocks st < 2 ^ 54 /\ 0 <= st_size st < 2 ^ 63)%Z | None => True end.
