(** * Model of reading $LS_COLORS and $BFS_COLORS: unescape(),
    parse_gnu_ls_colors() and parse_colors() in src/color.c

    Strings have no NUL; the empty list is the terminator.  [Undefined] is a
    pointer past the terminator, or a null pointer that is used.  The trie of the
    names is a list of pairs (for tries see TrieModel), memory does not run out,
    and what is done with extensions is in ExtModel. *)
From Coq Require Import String List NArith Bool.
From Coq Require Import Init.Byte Strings.Byte.
Import ListNotations.

Definition bytes (s : string) : list byte := list_byte_of_string s.
Definition NUL : byte := x00.

Inductive outcome (A : Type) := Done (a : A) | Invalid | Undefined | Fuel.
Arguments Done {A}.
Arguments Invalid {A}.
Arguments Undefined {A}.
Arguments Fuel {A}.
Definition bind {A B} (r : outcome A) (f : A -> outcome B) : outcome B :=
  match r with Done a => f a | Invalid => Invalid | Undefined => Undefined | Fuel => Fuel end.
Notation "'let*' x := r 'in' k" := (bind r (fun x => k)) (at level 200, x pattern, r at level 100, k at level 200).

(** A pointer into a string is the rest of the string from there.  [*i], [i[1]]
    and [++i] *)
Definition at0 (i : list byte) : byte := match i with [] => NUL | c :: _ => c end.
Definition at1 (i : list byte) : outcome byte := match i with [] => Undefined | _ :: i => Done (at0 i) end.
Definition next (i : list byte) : outcome (list byte) := match i with [] => Undefined | _ :: i => Done i end.

Definition num (c : byte) : N := Byte.to_N c.
(** Conversion to unsigned char *)
Definition uchar (n : N) : byte := match Byte.of_N (n mod 256) with Some c => c | None => NUL end.
Definition between (a b : byte) (c : byte) : bool := (num a <=? num c)%N && (num c <=? num b)%N.

(** 487-490, the loop for octal digits; [i] points to a digit *)
Fixpoint octal (fuel : nat) (c : N) (i : list byte) : outcome (N * list byte) :=
  match fuel with
  | O => Fuel
  | S fuel =>
      let* d := at1 i in
      if between "0" "7" d then
        let c := (c * 8) mod 256 in
        let c := N.lor c (num (at0 i) - num "0") in
        let* i := next i in octal fuel c i
      else Done (c, i)
  end%N.
(** 497-511 *)
Fixpoint hex (fuel : nat) (c : N) (i : list byte) : outcome (N * list byte) :=
  match fuel with
  | O => Fuel
  | S fuel =>
      let* d := at1 i in
      let digit :=
        if between "0" "9" d then Some (num d - num "0")
        else if between "A" "F" d then Some (num d - num "A" + 10)
        else if between "a" "f" d then Some (num d - num "a" + 10)
        else None in
      match digit with
      | Some v => let c := N.lor ((c * 16) mod 256) v in let* i := next i in hex fuel c i
      | None => Done (c, i)
      end
  end%N.

(** 443-542, the body of the loop up to dstrapp(): the character, and the pointer *)
Definition chunk_char (fuel : nat) (i : list byte) : outcome (byte * list byte) :=
  match at0 i with
  | "\" =>
      let* i := next i in
      match at0 i with
      | "a" => Done (x07, i)
      | "b" => Done (x08, i)
      | "e" => Done (x1b, i)
      | "f" => Done (x0c, i)
      | "n" => Done (x0a, i)
      | "r" => Done (x0d, i)
      | "t" => Done (x09, i)
      | "v" => Done (x0b, i)
      | "?" => Done (x7f, i)
      | "_" => Done (" ", i)
      | "0" | "1" | "2" | "3" | "4" | "5" | "6" | "7" =>
          let* (c, i) := octal fuel 0 i in
          let c := ((c * 8) mod 256)%N in
          Done (uchar (N.lor c (num (at0 i) - num "0")), i)
      | "X" | "x" =>
          let* (c, i) := hex fuel 0 i in Done (uchar c, i)
      | x00 => Invalid
      | c => Done (c, i)
      end
  | "^" =>
      let* i := next i in
      match at0 i with
      | "?" => Done (x7f, i)
      | x00 => Invalid
      | c => Done (uchar (N.land (num c) 31), i)
      end
  | c => Done (c, i)
  end%byte.

(** 441-551 *)
Fixpoint unescape_loop (fuel : nat) (str : list byte) (i : list byte) (fin : byte)
  : outcome (list byte * option (list byte)) :=
  match fuel with
  | O => Fuel
  | S fuel' =>
      if Byte.eqb (at0 i) NUL then Done (str, None)
      else if Byte.eqb (at0 i) fin then let* n := next i in Done (str, Some n)
      else
        let* (c, i) := chunk_char fuel i in
        let* i := next i in
        unescape_loop fuel' (str ++ [c]) i fin
  end.

(** 429-554; [None] is a null pointer *)
Definition unescape (value : option (list byte)) (fin : byte) : outcome (list byte * option (list byte)) :=
  match value with
  | None => Invalid
  | Some value => unescape_loop (S (length value)) [] value fin
  end.

(** The part of struct colors that is read: the named colors, and the extensions
    with their colors in the order of set_ext() *)
Record colors := mkColors {
  names : list (list byte * option (list byte));
  exts : list (list byte * list byte);
  link_as_target : bool
}.

Fixpoint equal (s t : list byte) : bool :=
  match s, t with
  | [], [] => true
  | a :: s, b :: t => Byte.eqb a b && equal s t
  | _, _ => false
  end.
Fixpoint update (tab : list (list byte * option (list byte))) (name : list byte) (v : option (list byte))
  : list (list byte * option (list byte)) :=
  match tab with
  | [] => []
  | (n, old) :: tab => if equal n name then (n, v) :: tab else (n, old) :: update tab name v
  end.
Fixpoint get_esc (tab : list (list byte * option (list byte))) (name : list byte) : option (option (list byte)) :=
  match tab with
  | [] => None
  | (n, v) :: tab => if equal n name then Some v else get_esc tab name
  end.

(** 165-184: unknown names are ignored *)
Definition set_esc (c : colors) (name : list byte) (value : option (list byte)) : colors :=
  mkColors (update (names c) name value) (exts c) (link_as_target c).
Definition set_ext (c : colors) (key value : list byte) : colors :=
  mkColors (names c) (exts c ++ [(key, value)]) (link_as_target c).

(** strchr(s, '='): what is before and after it *)
Fixpoint cut (s : list byte) : option (list byte * list byte) :=
  match s with
  | [] => None
  | c :: s =>
      if Byte.eqb c "=" then Some ([], s)
      else match cut s with Some (k, v) => Some (c :: k, v) | None => None end
  end.

(** 586-595: [strspn(value, "0") == dstrlen(value)], except for the four names *)
Definition all_zero (value : list byte) : bool := forallb (Byte.eqb "0") value.
Definition esc_of (key value : list byte) : option (list byte) :=
  if all_zero value && negb (equal key (bytes "rs")) && negb (equal key (bytes "lc"))
     && negb (equal key (bytes "rc")) && negb (equal key (bytes "ec"))
  then None else Some value.

(** 562-601 *)
Fixpoint parse_loop (fuel : nat) (c : colors) (chunk : option (list byte)) : outcome colors :=
  match fuel with
  | O => Fuel
  | S fuel =>
      match chunk with
      | None => Done c
      | Some chunk =>
          if Byte.eqb (at0 chunk) "*" then
            let* i := next chunk in
            let* (key, n) := unescape (Some i) "=" in
            let* (value, n) := unescape n ":" in
            parse_loop fuel (set_ext c key value) n
          else
            match cut chunk with
            | None => Done c
            | Some (key, rest) =>
                let* (value, n) := unescape (Some rest) ":" in
                parse_loop fuel (set_esc c key (esc_of key value)) n
            end
      end
  end.
Definition parse_gnu_ls_colors (c : colors) (ls_colors : option (list byte)) : outcome colors :=
  parse_loop (match ls_colors with Some s => S (S (length s)) | None => 1 end) c ls_colors.

(** 628-673.  An escape character is byte 27. *)
Definition ESC : list byte := [x1b].
Definition initial : list (list byte * option (list byte)) :=
  map (fun nv => (bytes (fst nv), snd nv))
  [("rs", Some (bytes "0")); ("lc", Some (ESC ++ bytes "[")%list); ("rc", Some (bytes "m")); ("ec", None);
   ("cl", Some (ESC ++ bytes "[K")%list);
   ("bld", Some (bytes "01;39")); ("gry", Some (bytes "01;30")); ("red", Some (bytes "01;31"));
   ("grn", Some (bytes "01;32")); ("ylw", Some (bytes "01;33")); ("blu", Some (bytes "01;34"));
   ("mag", Some (bytes "01;35")); ("cyn", Some (bytes "01;36")); ("wht", Some (bytes "01;37"));
   ("wrn", Some (bytes "01;33")); ("err", Some (bytes "01;31"));
   ("no", None);
   ("fi", Some []); ("mh", None); ("ex", Some (bytes "01;32")); ("ca", None); ("sg", Some (bytes "30;43"));
   ("su", Some (bytes "37;41"));
   ("di", Some (bytes "01;34")); ("st", Some (bytes "37;44")); ("ow", Some (bytes "34;42")); ("tw", Some (bytes "30;42"));
   ("ln", Some (bytes "01;36")); ("or", None); ("mi", None);
   ("bd", Some (bytes "01;33")); ("cd", Some (bytes "01;33")); ("do", Some (bytes "01;35")); ("pi", Some (bytes "33"));
   ("so", Some (bytes "01;35"))]%string.

(** A field of struct colors *)
Definition field (c : colors) (name : string) : option (list byte) :=
  match get_esc (names c) (bytes name) with Some v => v | None => None end.
(** cat_esc() uses what it is given *)
Definition used (v : option (list byte)) : outcome (list byte) := match v with Some v => Done v | None => Undefined end.

(** 689-706 *)
Definition finish (c : colors) : outcome colors :=
  let c := match field c "ln" with
           | Some v => if equal v (bytes "target")
                       then mkColors (update (names c) (bytes "ln") (Some [])) (exts c) true
                       else c
           | None => c
           end in
  match field c "ec" with
  | Some _ => Done c
  | None =>
      let* lc := used (field c "lc") in
      let* rs := used (field c "rs") in
      let* rc := used (field c "rc") in
      Done (set_esc c (bytes "ec") (Some (lc ++ rs ++ rc)))
  end.

(** 610-713; build_iext_trie() is in ExtModel *)
Definition parse_colors (ls_colors bfs_colors : option (list byte)) : outcome colors :=
  let* c := parse_gnu_ls_colors (mkColors initial [] false) ls_colors in
  let* c := parse_gnu_ls_colors c bfs_colors in
  finish c.
