(** * Reading roots from a file

    src/bfstd.c 174-189 ([xgetdelim]) and src/parse.c 3523-3622 (-files0-from). *)
From Coq Require Import List Arith Bool Init.Byte Strings.Byte.
Import ListNotations.

(** A stream: the bytes that are still to be read, and whether reading fails after them, rather than reaching the end of the file.
    A failing read fails again if it is repeated. *)
Record stream := mkStream { bytes : list byte; fails : bool }.

(** What differs between C libraries.  [partial]: if reading fails, getdelim() gives what it has read so far, and fails only when called again.
    [indicator]: if memory runs out, it sets the error indicator of the stream, as POSIX requires; the GNU C library does so since version 2.40. *)
Record libc := mkLibc { partial : bool; indicator : bool }.

(** The first bytes, up to and including the delimiter; the others; and whether there is a delimiter *)
Fixpoint cut (delim : byte) (s : list byte) : list byte * list byte * bool :=
  match s with
  | [] => ([], [], false)
  | c :: s =>
      if Byte.eqb c delim then ([c], s, true)
      else let '(a, b, found) := cut delim s in (c :: a, b, found)
  end.

(** getdelim().  [oom] is whether there is too little memory for these bytes.  The indicator of the stream is given with an error. *)
Inductive got := Chunk (chunk : list byte) (rest : stream) | Eof | Error (ferror : bool).
Definition getdelim (l : libc) (oom : list byte -> bool) (delim : byte) (s : stream) : got :=
  match bytes s with
  | [] => if fails s then Error true else Eof
  | _ =>
      let '(piece, rest, found) := cut delim (bytes s) in
      if oom piece then Error (indicator l)
      else if found then Chunk piece (mkStream rest (fails s))
      else if fails s && negb (partial l) then Error true
      else Chunk piece (mkStream [] (fails s))
  end.

(** A string in memory, up to the first NUL *)
Fixpoint c_string (buf : list byte) : list byte :=
  match buf with
  | [] => []
  | c :: buf => if Byte.eqb c x00 then [] else c :: c_string buf
  end.

Fixpoint set_nth (n : nat) (x : byte) (l : list byte) : list byte :=
  match l, n with
  | [], _ => []
  | _ :: l, O => x :: l
  | y :: l, S n => y :: set_nth n x l
  end.

(** bfstd.c 174-189: [End] is NULL with an [errno] of 0, and [Fail] with another one.  getdelim() puts a NUL after the chunk. *)
Inductive xgot := Text (s : list byte) (rest : stream) | End | Fail.
Definition xgetdelim (l : libc) (oom : list byte -> bool) (s : stream) (delim : byte) : xgot :=
  match getdelim l oom delim s with
  | Chunk chunk rest =>
      let len := length chunk in
      let buf := chunk ++ [x00] in
      let buf := if Byte.eqb (nth len buf x00) delim then set_nth len x00 buf else buf in
      Text (c_string buf) rest
  | Eof => End
  | Error ferror => if ferror then Fail else End
  end.

(** The roots, or whether there is a message *)
Inductive result := Roots (paths : list (list byte)) | Rejected (message : bool) | Out_of_fuel.

(** parse.c 3559-3574, and 420-437 for parse_root(), which fails with a message if there is no memory for the path ([full]). *)
Fixpoint read_roots (l : libc) (oom full : list byte -> bool) (fuel : nat) (s : stream) (paths : list (list byte)) : result :=
  match fuel with
  | O => Out_of_fuel
  | S fuel =>
      match xgetdelim l oom s x00 with
      | End => Roots paths
      | Fail => Rejected false
      | Text path rest =>
          if full path then Rejected true
          else read_roots l oom full fuel rest (paths ++ [path])
      end
  end.

(** What a command line says about roots: the paths in it, the argument of the last -files0-from, and whether an action has taken standard input;
    and what it finds: standard input, and the files which can be opened. *)
Record cmdline := mkCmd { explicit : list (list byte); files0 : option (list byte); stdin_used : bool }.
Record system := mkSystem { stdin : stream; open : list byte -> option stream }.

(** parse.c 3523-3587, with consume_stdin() (272-282) *)
Definition parse_files0_roots (l : libc) (oom full : list byte -> bool) (w : system) (c : cmdline) (from : list byte) : result :=
  match explicit c with
  | _ :: _ => Rejected true
  | [] =>
      let read s := read_roots l oom full (2 + length (bytes s)) s [] in
      if list_eq_dec Byte.byte_eq_dec from ["-"%byte] then
        if stdin_used c then Rejected true else read (stdin w)
      else
        match open w from with
        | None => Rejected true
        | Some s => read s
        end
  end.

(** parse.c 3614-3622; adding "." takes memory, too. *)
Definition parse_roots (l : libc) (oom full : list byte -> bool) (w : system) (c : cmdline) : result :=
  match files0 c with
  | Some from => parse_files0_roots l oom full w c from
  | None =>
      match explicit c with
      | [] => if full ["."%byte] then Rejected true else Roots [["."%byte]]
      | paths => Roots paths
      end
  end.
