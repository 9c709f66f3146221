(** * Asking before commands are run: -ok and -okdir, src/exec.c 331-420 (with BFS_EXEC_CONFIRM) and 423-464, src/bfstd.c 416-424 *)
From Coq Require Import Strings.Byte List Bool Arith ZArith.
From Verif Require Import ExecModel RegexModel FilesModel.
Import ListNotations.

(** What happens, in order: a byte reaches standard output or standard error, a line is read from standard input ([None] at its end),
    a command is run *)
Inductive event := Out (c : byte) | Err (c : byte) | Read (line : option (list byte)) | Ran (argv : list arg).

(** [kernel] is what is still to be read from standard input, [buffer] what has been read into the buffer of [stdin], and [pending] is in
    the buffer of [stdout] or another stream. *)
Record state := mkState { kernel : list byte; buffer : list byte; pending : list byte; log : list event }.

(** One file: the path as bfs_exec_format_path() gives it (C15), what earlier actions print for it, whether there is memory, whether the calls of fprintf() work, how
    much read() gives each time (one more than [w_read]), how much of standard input the command reads, and whether it succeeds *)
Record job := mkJob {
  w_path : list byte; w_text : list byte; w_mem : nat -> bool; w_err : nat -> bool; w_read : nat -> nat; w_eats : nat; w_success : bool }.

(** getdelim() on a buffered stream *)
Fixpoint getline (fuel : nat) (reads : nat -> nat) (k : nat) (acc buffer kernel : list byte) : option (option (list byte) * list byte * list byte) :=
  match fuel with
  | O => None
  | S fuel =>
      let '(piece, rest, found) := cut x0a buffer in
      if found then Some (Some (acc ++ piece), rest, kernel)
      else
        match kernel with
        | [] => Some (match acc ++ piece with [] => None | line => Some line end, [], [])
        | _ => getline fuel reads (S k) (acc ++ piece) (firstn (S (reads k)) kernel) (skipn (S (reads k)) kernel)
        end
  end.

(** bfs_ctx_flush(): what is in buffers is written.  Failures are a matter of C47. *)
Definition ctx_flush (st : state) : state := mkState (kernel st) (buffer st) [] (log st ++ map Out (pending st)).

(** fprintf(stderr, "%s ", ...) *)
Definition say (st : state) (s : list byte) : state := mkState (kernel st) (buffer st) (pending st) (log st ++ map Err s).

(** exec.c 338-345, from the [k]th call on *)
Fixpoint ask (w_err : nat -> bool) (k : nat) (argv : list arg) (st : state) : state * bool :=
  match argv with
  | [] => if w_err k then (say st [x3f; x20], true) else (st, false)
  | a :: argv => if w_err k then ask w_err (S k) argv (say st (a ++ [x20])) else (st, false)
  end.

(** exec.c 431-436: the arguments, or [None] without memory *)
Fixpoint format_args (mem : nat -> bool) (tmpl : list arg) (path : list byte) : option (option (list arg)) :=
  match tmpl with
  | [] => Some (Some [])
  | a :: tmpl =>
      match format_arg mem a path with
      | None => None
      | Some None => Some None
      | Some (Some a) => match format_args mem tmpl path with
                         | Some (Some l) => Some (Some (a :: l))
                         | r => r
                         end
      end
  end.

Section Ask.
  Variable decode : list byte -> option (list char).
  Variable regexec : re -> list byte -> found.
  Variables (oniguruma : bool) (noexpr yesexpr : option re).

  (** bfstd.c 416-424, with xgetdelim() (174-189): the chunk ends with a NUL, which is never the delimiter, so the newline is kept. *)
  Definition prompt (reads : nat -> nat) (st : state) : option (state * Z) :=
    match getline (2 + length (kernel st)) reads 0 [] (buffer st) (kernel st) with
    | None => None
    | Some (line, buffer, kernel) =>
        Some (mkState kernel buffer (pending st) (log st ++ [Read line]), ynprompt decode regexec oniguruma noexpr yesexpr (option_map c_string line))
    end.

  (** exec.c 331-351 and 371-420: the value, and whether there is an error.  The command shares standard input. *)
  Definition exec_spawn (j : job) (argv : list arg) (st : state) : option (state * (bool * bool)) :=
    let st := ctx_flush st in
    let '(st, ok) := ask (w_err j) 0 argv st in
    if negb ok then Some (st, (false, true))
    else
      match prompt (w_read j) st with
      | None => None
      | Some (st, answer) =>
          if (answer <=? 0)%Z then Some (st, (false, false))
          else Some (mkState (skipn (w_eats j) (kernel st)) (buffer st) (pending st) (log st ++ [Ran argv]), (w_success j, false))
      end.

  (** exec.c 423-464 and src/eval.c 429-435, after earlier actions *)
  Definition ok_file (tmpl : list arg) (j : job) (st : state) : option (state * (bool * bool)) :=
    let st := mkState (kernel st) (buffer st) (pending st ++ w_text j) (log st) in
    match format_args (w_mem j) tmpl (w_path j) with
    | None => None
    | Some None => Some (st, (false, true))
    | Some (Some argv) => exec_spawn j argv st
    end.

  Fixpoint ok_files (tmpl : list arg) (l : list job) (st : state) : option (state * list (bool * bool)) :=
    match l with
    | [] => Some (st, [])
    | j :: l =>
        match ok_file tmpl j st with
        | None => None
        | Some (st, r) => match ok_files tmpl l st with None => None | Some (st, rs) => Some (st, r :: rs) end
        end
    end.
End Ask.

Definition start (stdin : list byte) : state := mkState stdin [] [] [].
