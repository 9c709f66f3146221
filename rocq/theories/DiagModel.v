(** * Diagnostics about the command line: src/diag.c *)
From Coq Require Import String List Arith NArith ZArith Bool.
From Coq Require Import Init.Byte Strings.Byte.
From Verif Require Import QuoteModel BarModel.
Import ListNotations.

(** ** Highlighting *)
(** An expression, with the index in ctx->argv of its first argument, if its argv points there (that of expressions that bfs adds does not), and the
    number of its arguments *)
Inductive expr : Type := Expr (argv : option nat) (argc : nat) (children : list expr).

(** args[i] = true; nothing may be written past the end. *)
Fixpoint set (args : list bool) (i : nat) : option (list bool) :=
  match args, i with
  | [], _ => None
  | _ :: args, O => Some (true :: args)
  | b :: args, S i => option_map (cons b) (set args i)
  end.

(** src/diag.c 158-162: the assertion failure is [None]; [j] counts down, and the order does not matter. *)
Fixpoint set_range (args : list bool) (i j : nat) : option (list bool) :=
  match j with
  | O => Some args
  | S j =>
      match set args i with
      | Some args => set_range args (S i) j
      | None => None
      end
  end.

(** src/diag.c 149-172, highlight_expr_recursive *)
Fixpoint highlight_rec (argc : nat) (e : expr) (args : list bool) : option (bool * list bool) :=
  let '(Expr argv n children) := e in
  let start :=
    match argv with
    | Some i =>
        (* the search of 156-165 *)
        if i <? argc then
          match set_range args i n with
          | Some args => Some (0 <? n, args)
          | None => None
          end
        else Some (false, args)
    | None => Some (false, args)
    end in
  match start with
  | None => None
  | Some (ret, args) =>
      (fix each (ret : bool) (children : list expr) (args : list bool) : option (bool * list bool) :=
         match children with
         | [] => Some (ret, args)
         | child :: rest =>
             match highlight_rec argc child args with
             | Some (r, args) => each (ret || r) rest args
             | None => None
             end
         end) ret children args
  end.
(** src/diag.c 175-181, highlight_expr *)
Definition highlight_expr (argc : nat) (e : expr) : option (bool * list bool) := highlight_rec argc e (repeat false argc).

(** ** Printing *)
(** What is written to ctx->cerr: text, and changes of the color *)
Inductive style := Bld | Err | Wrn.
Inductive piece := Lit (s : list byte) | On (c : style) | Rs.

Section Diag.
  Variable l : locale.
  Variable wcwidth : wc l -> Z.

  (** src/diag.c 126-137, bfs_error_prefix and bfs_warning_prefix (when warnings are enabled, which the callers check) *)
  Definition prefix (cmd : list byte) (warning : bool) : list piece :=
    [On Bld; Lit (cmd ++ str ":"); Rs; Lit (str " ")] ++
    (if warning then [On Wrn; Lit (str "warning:")] else [On Err; Lit (str "error:")]) ++ [Rs; Lit (str " ")].

  (** src/diag.c 197: dstrescat() with WESC_SHELL (src/dstring.c 265-285) *)
  Definition escape (arg : list byte) : list byte := fst (wordnesc l true ([], 4 * length arg + 4) arg).

  (** src/diag.c 202-214: the pieces and max_argc *)
  Fixpoint print_args (i max_argc : nat) (argv : list (list byte)) (args : list bool) : list piece * nat :=
    match argv, args with
    | arg :: argv, hl :: args =>
        let sep := if 0 <? i then [Lit (str " ")] else [] in
        let max_argc := if hl then i + 1 else max_argc in
        let out := if hl then [On Bld; Lit arg; Rs] else [Lit arg] in
        let '(rest, max_argc) := print_args (S i) max_argc argv args in
        (sep ++ out ++ rest, max_argc)
    | _, _ => ([], max_argc)
    end.

  (** args[i] and argv[i] *)
  Definition arg_at (args : list bool) (i : nat) : bool := nth i args false.
  (** src/diag.c 224-253: [n] iterations from [i] *)
  Fixpoint underline (n i max_argc : nat) (warning : bool) (argv : list (list byte)) (args : list bool) : list piece :=
    match n with
    | O => []
    | S n =>
        let sep := if 0 <? i then [Lit (if arg_at args (i - 1) && arg_at args i then str "~" else str " ")] else [] in
        let on := if arg_at args i && ((i =? 0) || negb (arg_at args (i - 1))) then [On (if warning then Wrn else Err)] else [] in
        let len := xstrwidth l wcwidth (nth i argv []) in
        let marks := repeat (Lit (if arg_at args i then str "~" else str " ")) len in
        let off := if arg_at args i && ((max_argc <=? i + 1) || negb (arg_at args (i + 1))) then [Rs] else [] in
        sep ++ on ++ marks ++ off ++ underline n (S i) max_argc warning argv args
    end.

  (** src/diag.c 184-262, bfs_argv_diag, when memory can be allocated *)
  Definition bfs_argv_diag (cmd : list byte) (argv : list (list byte)) (args : list bool) (warning : bool) : list piece :=
    let argv := map escape argv in
    let '(line, max_argc) := print_args 0 0 argv args in
    prefix cmd warning ++ line ++ [Lit [x0a]] ++ prefix cmd warning ++ underline max_argc 0 max_argc warning argv args ++ [Lit [x0a]].
End Diag.
