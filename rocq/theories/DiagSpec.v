(** * What a message about the command line should look like *)
From Coq Require Import String List Arith NArith ZArith Bool.
From Coq Require Import Init.Byte Strings.Byte.
From Verif Require Import QuoteModel DiagModel.
Import ListNotations.

(** ** Which arguments are highlighted *)
(** The expressions that an expression consists of *)
Inductive part_of (e : expr) : expr -> Prop :=
| po_self : part_of e e
| po_child argv argc children child : In child children -> part_of e child -> part_of e (Expr argv argc children).
(** One of them was written with this argument, on a command line of [argc] arguments. *)
Definition mentions (argc : nat) (e : expr) (k : nat) : Prop := exists i n cs, part_of (Expr (Some i) n cs) e /\ i < argc /\ i <= k < i + n.
(** All arguments of expressions are on the command line. *)
Definition in_range (argc : nat) (e : expr) : Prop := forall i n cs, part_of (Expr (Some i) n cs) e -> i < argc -> i + n <= argc.

(** ** The text *)
(** The characters with their colors, from a given color, and the color at the end *)
Fixpoint render (st : option style) (out : list piece) : list (byte * option style) :=
  match out with
  | [] => []
  | Lit s :: out => map (fun b => (b, st)) s ++ render st out
  | On c :: out => render (Some c) out
  | Rs :: out => render None out
  end.
Fixpoint final (st : option style) (out : list piece) : option style :=
  match out with
  | [] => st
  | Lit _ :: out => final st out
  | On c :: out => final (Some c) out
  | Rs :: out => final None out
  end.

(** Both lines start with the name of bfs, and with whether this is an error or a warning. *)
Definition heading (cmd : list byte) (warning : bool) : list (byte * option style) :=
  let text (c : option style) (s : list byte) := map (fun b => (b, c)) s in
  text (Some Bld) (cmd ++ str ":") ++ text None (str " ") ++
  (if warning then text (Some Wrn) (str "warning:") else text (Some Err) (str "error:")) ++ text None (str " ").

(** The first line: the words with spaces between them; the highlighted ones are bold. *)
Fixpoint command_line (words : list (list byte)) (args : list bool) : list (byte * option style) :=
  match words, args with
  | w :: words, hl :: args =>
      map (fun b => (b, if hl then Some Bld else None)) w ++ match words with [] => [] | _ => (x20, None) :: command_line words args end
  | _, _ => []
  end.

(** The column where a word starts *)
Fixpoint start (widths : list nat) (i : nat) : nat :=
  match i, widths with
  | S i, w :: widths => w + 1 + start widths i
  | _, _ => 0
  end.
(** A column belongs to a highlighted word, or is between two of them. *)
Definition marked (widths : list nat) (args : list bool) (col : nat) : Prop :=
  exists i w, nth_error widths i = Some w /\ nth_error args i = Some true /\
    (start widths i <= col < start widths i + w \/ col = start widths i + w /\ nth_error args (S i) = Some true).
