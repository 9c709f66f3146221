(** * Model of shell quoting in src/bfstd.c *)
From Coq Require Import String List Arith NArith Bool.
From Coq Require Import Init.Byte Strings.Byte.
Import ListNotations.

Definition str (s : string) : list byte := list_byte_of_string s.
Definition mem (c : byte) (s : list byte) : bool := existsb (Byte.eqb c) s.

(** The destination: what has been written, and the space left until [end] *)
Definition buf : Type := list byte * nat.

(** src/bfstd.c 437-449, xstpencpy (for sources without NUL).  On truncation
    the last byte becomes the terminator and no space is left. *)
Definition put (b : buf) (src : list byte) : buf :=
  let '(out, space) := b in
  if length src <? space then (out ++ src, space - length src)
  else (out ++ firstn (space - 1) src, 0).

(** Character classes and decoding of the current locale: isprint() and
    isspace(), iswprint() and iswspace(), and mbrtowc().  [decode] returns the
    number of bytes, the character, and the new conversion state, or [None] for
    an invalid or incomplete sequence. *)
Record locale := mkLocale {
  wc : Type;
  mbstate : Type;
  mb_init : mbstate;
  decode : mbstate -> list byte -> option (nat * wc * mbstate);
  isprint : byte -> bool;
  isspace : byte -> bool;
  iswprint : wc -> bool;
  iswspace : wc -> bool
}.

Section Quote.
  Variable l : locale.
  (** flags & WESC_SHELL; the other flag, WESC_TTY, is not consulted. *)
  Variable shell : bool.

  (** src/bfstd.c 991-1004, xmbrtowc: decodes at the front of [s]; returns the
      character if any, the number of bytes consumed, and the state. *)
  Definition xmbrtowc (s : list byte) (mb : mbstate l) : option (wc l) * nat * mbstate l :=
    match decode l mb s with
    | None => (None, 1, mb_init l)
    | Some (n, c, mb') => (Some c, n, mb')
    end.

  (** src/bfstd.c 959-989, asciinlen; the word-at-a-time loads are left out. *)
  Fixpoint asciinlen (s : list byte) : nat :=
    match s with
    | [] => 0
    | c :: s' => if (Byte.to_N c <? 128)%N then S (asciinlen s') else 0
    end.

  (** src/bfstd.c 1060-1074 (via the cache of 1037-1057) *)
  Definition wesc_isprint (c : byte) : bool := isprint l c || (negb shell && isspace l c).

  (** src/bfstd.c 1077-1087 *)
  Definition wesc_iswprint (c : wc l) : bool := iswprint l c || (negb shell && iswspace l c).

  (** src/bfstd.c 1095-1101: whether all [n] leading bytes are printable *)
  Fixpoint print_ascii (n : nat) (s : list byte) : nat :=
    match n, s with
    | S n', c :: s' => if wesc_isprint c then S (print_ascii n' s') else 0
    | _, _ => 0
    end.

  (** src/bfstd.c 1103-1113.  [fuel] is the length of the string, which the loop
      consumes because a character takes at least one byte. *)
  Fixpoint print_wide (fuel : nat) (s : list byte) (mb : mbstate l) : nat :=
    match fuel, s with
    | S fuel', _ :: _ =>
        let '(c, n, mb') := xmbrtowc s mb in
        match c with
        | Some c => if wesc_iswprint c then n + print_wide fuel' (skipn n s) mb' else 0
        | None => 0
        end
    | _, _ => 0
    end.

  (** src/bfstd.c 1090-1115, printable_len *)
  Definition printable_len (s : list byte) : nat :=
    let asclen := asciinlen s in
    let i := print_ascii asclen s in
    if i <? asclen then i
    else i + print_wide (length s) (skipn i s) (mb_init l).

  (** src/bfstd.c 1118-1144, dollar_esc *)
  Definition dollar_esc (c : byte) : option (list byte) :=
    match c with
    | x07 => Some (str "\a")
    | x08 => Some (str "\b")
    | x1b => Some (str "\e")
    | x0c => Some (str "\f")
    | x0a => Some (str "\n")
    | x0d => Some (str "\r")
    | x09 => Some (str "\t")
    | x0b => Some (str "\v")
    | x27 => Some (str "\'")
    | x5c => Some (str "\\")
    | _ => None
    end.

  (** src/bfstd.c 1178, hex *)
  Definition hex (n : N) : list byte :=
    match nth_error (str "0123456789ABCDEF") (N.to_nat n) with Some c => [c] | None => [] end.

  (** src/bfstd.c 1172-1184: the bytes of an unsafe character *)
  Fixpoint put_escaped (b : buf) (s : list byte) : buf :=
    match s with
    | [] => b
    | c :: s' =>
        let b :=
          match dollar_esc c with
          | Some e => put b e
          | None =>
              let b := put b (str "\x") in
              let b := put b (hex (Byte.to_N c / 16)) in
              put b (hex (Byte.to_N c mod 16))
          end in
        put_escaped b s'
    end.

  (** src/bfstd.c 1152-1186, the loop of dollar_quote *)
  Fixpoint dollar_loop (fuel : nat) (b : buf) (s : list byte) (mb : mbstate l) : buf :=
    match fuel, s with
    | S fuel', _ :: _ =>
        let '(c, n, mb') := xmbrtowc s mb in
        let safe := match c with Some c => wesc_iswprint c | None => false end in
        let chunk := firstn n s in
        let safe := safe && negb (existsb (fun c => Byte.eqb c x27 || Byte.eqb c x5c) chunk) in
        let b := if safe then put b chunk else put_escaped b chunk in
        dollar_loop fuel' b (skipn n s) mb'
    | _, _ => b
    end.

  (** src/bfstd.c 1147-1190, dollar_quote *)
  Definition dollar_quote (b : buf) (s : list byte) : buf :=
    let b := put b (str "$'") in
    let b := dollar_loop (length s) b s (mb_init l) in
    put b (str "'").

  (** strcspn() *)
  Fixpoint cspn (reject s : list byte) : nat :=
    match s with
    | [] => 0
    | c :: s' => if mem c reject then 0 else S (cspn reject s')
    end.

  (** src/bfstd.c 1193-1197, bare_len *)
  Definition bare_len (s : list byte) : nat := cspn (str "|&;<>()$`\""' *?[#~=%!{}") s.
  (** src/bfstd.c 1200-1204, quotable_len *)
  Definition quotable_len (s : list byte) : nat := cspn (str "`$\""!") s.

  (** src/bfstd.c 1207-1211, double_quote *)
  Definition double_quote (b : buf) (s : list byte) : buf :=
    let b := put b (str """") in
    let b := put b s in
    put b (str """").

  (** src/bfstd.c 1230-1238: the run of quotes *)
  Fixpoint quote_run (b : buf) (open : bool) (s : list byte) : buf * bool * list byte :=
    match s with
    | x27 :: s' =>
        let b := if open then put b (str "'") else b in
        quote_run (put b (str "\'")) false s'
    | _ => (b, open, s)
    end.

  (** src/bfstd.c 1217-1239, the loop of single_quote; [fuel] is the length. *)
  Fixpoint single_loop (fuel : nat) (b : buf) (open : bool) (s : list byte) : buf * bool :=
    match fuel, s with
    | S fuel', _ :: _ =>
        let chunk := cspn (str "'") s in
        let '(b, open, s) :=
          if 0 <? chunk then
            let b := if open then b else put b (str "'") in
            (put b (firstn chunk s), true, skipn chunk s)
          else (b, open, s) in
        let '(b, open, s) := quote_run b open s in
        single_loop fuel' b open s
    | _, _ => (b, open)
    end.

  (** src/bfstd.c 1214-1246, single_quote *)
  Definition single_quote (b : buf) (s : list byte) : buf :=
    let '(b, open) := single_loop (length s) b false s in
    if open then put b (str "'") else b.

  (** src/bfstd.c 1252-1278, wordnesc, for the [strnlen(str, n)] bytes in [s] *)
  Definition wordnesc (b : buf) (s : list byte) : buf :=
    let start := snd b in
    let b :=
      if printable_len s <? length s then dollar_quote b s
      else if negb shell || (bare_len s =? length s) then put b s
      else if quotable_len s =? length s then double_quote b s
      else single_quote b s in
    if snd b =? start then put b (str """""") else b.
End Quote.
