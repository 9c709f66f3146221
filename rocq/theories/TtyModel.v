(** * What the status bar writes to the terminal: src/bar.c, as used by src/eval.c *)
From Coq Require Import String List Arith NArith ZArith Bool.
From Coq Require Import Init.Byte Strings.Byte.
From Verif Require Import QuoteModel BarModel.
From Verif Require FlsModel.
Import ListNotations.

(** src/bar.c 24-31: the size is read by signal handlers too; the hooks and the descriptor are left out. *)
Record bar := mkBar { bar_width : N; bar_height : N }.

(** src/bar.c 34-43, bfs_bar_getsize: [size] is what xtcgetwinsize() gives, columns first; it is kept if that fails. *)
Definition bfs_bar_getsize (size : option (N * N)) (b : bar) : bar * bool :=
  match size with
  | None => (b, false)
  | Some (col, row) => (mkBar col row, true)
  end.
(** src/bar.c 75-82, bfs_bar_reset *)
Definition bfs_bar_reset (b : bar) : list byte := reset_seq.
(** src/bar.c 116-120, bfs_bar_sigwinch; what is written is [None] if the array overflows. *)
Definition bfs_bar_sigwinch (size : option (N * N)) (b : bar) : bar * option (list byte) :=
  let '(b, _) := bfs_bar_getsize size b in
  (b, bfs_bar_resize (bar_height b)).
(** src/bar.c 124-127, bfs_bar_sigexit *)
Definition bfs_bar_sigexit (b : bar) : list byte := bfs_bar_reset b.
(** src/bar.c 131-144 and 146-183, bfs_bar_show: [tty] if the controlling terminal can be opened, and [hooks] if both signal hooks can be
    installed.  There is enough memory. *)
Definition bfs_bar_show (tty hooks : bool) (size : option (N * N)) : option bar * option (list byte) :=
  if negb tty then (None, Some [])
  else
    let '(b, ok) := bfs_bar_getsize size (mkBar 0 0) in
    if negb ok then (None, Some [])
    else if negb hooks then (None, Some [])
    else (Some b, bfs_bar_resize (bar_height b)).
(** src/bar.c 189-206, bfs_bar_update, with bfs_bar_printf (130-144): [mem] if the string can be allocated.  [FlsModel.ju] is what printf() makes
    of an unsigned number. *)
Definition bfs_bar_update (mem : bool) (b : bar) (s : list byte) : list byte :=
  let height := bar_height b in
  if (height <? BFS_BAR_MIN_HEIGHT)%N then []
  else if negb mem then []
  else
    [x1b; "7"]%byte ++
    [x1b; "["]%byte ++ FlsModel.ju height ++ [";"; "0"; "f"]%byte ++
    [x1b; "["; "K"]%byte ++
    [x1b; "["; "7"; "m"]%byte ++
    s ++
    [x1b; "["; "2"; "7"; "m"]%byte ++
    [x1b; "8"]%byte.
(** src/bar.c 208-220, bfs_bar_hide *)
Definition bfs_bar_hide (b : option bar) : list byte :=
  match b with
  | None => []
  | Some b => bfs_bar_reset b
  end.

Section Session.
  (** What else is written to the terminal: a character, say *)
  Variable T : Type.
  (** src/eval.c 1457-1551: while files are evaluated, text is written, the bar is updated when the timer has expired, and the size may change. *)
  Inductive event :=
  | Text (a : T)
  | Update (mem : bool) (s : list byte)
  | Winch (size : option (N * N)).
  (** What arrives at the terminal, in order.  Each sequence of the bar is a single write(), and arrives as a whole. *)
  Inductive piece :=
  | Printed (a : T)
  | Wrote (s : list byte).

  (** src/eval.c 1457-1470 (a bar that could not be shown is NULL); [None] if an array overflows *)
  Fixpoint during (b : option bar) (evs : list event) : option (list piece * option bar) :=
    match evs with
    | [] => Some ([], b)
    | Text a :: evs =>
        match during b evs with
        | Some (ps, b) => Some (Printed a :: ps, b)
        | None => None
        end
    | Update mem s :: evs =>
        match during b evs with
        | Some (ps, b') => Some (match b with Some b => Wrote (bfs_bar_update mem b s) :: ps | None => ps end, b')
        | None => None
        end
    | Winch size :: evs =>
        match b with
        | None => during b evs
        | Some b =>
            let '(b, seq) := bfs_bar_sigwinch size b in
            match seq, during (Some b) evs with
            | Some seq, Some (ps, b) => Some (Wrote seq :: ps, b)
            | _, _ => None
            end
        end
    end.

  (** src/eval.c 1409-1455: eval_show_bar(), the evaluation, and eval_hide_bar(), or the exit hook if a signal terminates bfs ([killed]) *)
  Definition session (tty hooks : bool) (size : option (N * N)) (evs : list event) (killed : bool) : option (list piece) :=
    let '(b, first) := bfs_bar_show tty hooks size in
    match first, during b evs with
    | Some first, Some (ps, b) =>
        let last :=
          if killed then match b with Some b => bfs_bar_sigexit b | None => [] end
          else bfs_bar_hide b in
        Some (Wrote first :: ps ++ [Wrote last])
    | _, _ => None
    end.
End Session.
Arguments Text {T}. Arguments Update {T}. Arguments Winch {T}. Arguments Printed {T}. Arguments Wrote {T}.
