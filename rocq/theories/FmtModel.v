(** * Formatted messages (src/color.c 1240-1540)

    Allocations and writes succeed.  Quoting is that of QuoteModel.v, and printing files that of ColModel.v. *)
From Coq Require Import String List Arith NArith ZArith Bool.
From Coq Require Import Init.Byte Strings.Byte.
From Verif Require FlsModel.
From Verif Require Import QuoteModel ColModel.
Import ListNotations.

(** src/expr.h, [struct bfs_expr], as far as it is printed.  Rates are given by the text that printf() makes of them. *)
Inductive kind := BFS_FLAG | BFS_OPERATOR | BFS_OTHER.
Inductive expr := Expr (k : kind) (argv : list (list byte)) (successes evaluations : N) (rate time : list byte) (children : list expr).

(** The arguments of a variadic function; doubles are given by the text that printf() makes of them with [%g]. *)
Inductive value :=
| VChar (c : byte) | VInt (n : Z) | VDouble (text : list byte) | VStr (s : list byte) | VSize (n : N)
| VFile (f : ftwbuf) | VExpr (e : option expr).

(** [struct colors], with the table of names that get_esc() (155-157) looks up, in which a null pointer is [Some None] *)
Record theme := mkTheme { base : colors; names : list byte -> option (option esc_seq) }.

(** What the functions return: [Invalid] is the bug of 1502-1506, and [Undefined] is undefined behaviour, such as
    reading an argument that is missing or has another type. *)
Inductive outcome := Printed (o : cfile) | Invalid | Undefined.
Definition bind (r : outcome) (f : cfile -> outcome) : outcome := match r with Printed o => f o | Invalid => Invalid | Undefined => Undefined end.

Definition text (s : list byte) (o : cfile) : cfile := mkCfile (buffer o ++ s) (need_reset o).

(** printf() with [%zu] and [%d] *)
Definition zu (n : N) : list byte := FlsModel.ju n.
Definition d (n : Z) : list byte := FlsModel.jd n.

(** strchr(s, '}'), as what comes before and after it *)
Fixpoint braces (s : list byte) : option (list byte * list byte) :=
  match s with
  | [] => None
  | c :: s' => if Byte.eqb c "}"%byte then Some ([], s') else option_map (fun p => (c :: fst p, snd p)) (braces s')
  end.
Definition equal (x y : list byte) : bool := if list_eq_dec Byte.byte_eq_dec x y then true else false.

Section Format.
  Variable l : locale.
  Variable cs : option theme.

  Definition palette : option colors := option_map base cs.
  Definition of_option (r : option cfile) : outcome := match r with Some o => Printed o | None => Undefined end.

  Section Loop.
    (** print_expr(), print_expr_args() and print_expr_name(), by the letter after [%p] *)
    Variable on_expr : byte -> option expr -> cfile -> outcome.

    (** 1383-1440 *)
    Definition print_pointer (c : byte) (v : value) (o : cfile) : outcome :=
      match c, v with
      | "q"%byte, VStr s => Printed (print_wordesc l o s true)
      | "Q"%byte, VStr s => Printed (print_wordesc l o s false)
      | "F"%byte, VFile f => of_option (print_name l palette o f)
      | "P"%byte, VFile f => of_option (print_path l palette o f)
      | "L"%byte, VFile f => of_option (print_link_target l palette o f)
      | "e"%byte, VExpr e | "E"%byte, VExpr e | "x"%byte, VExpr e | "X"%byte, VExpr e => on_expr c e o
      | _, _ => Undefined
      end.

    (** 1451-1488, after the brace *)
    Definition print_color (name : list byte) (o : cfile) : outcome :=
      match cs with
      | None => Printed o
      | Some t =>
          if 4 <=? length name then Invalid
          else if equal name (str "rs") then Printed (print_reset (base t) o)
          else match names t name with
               | None => Invalid
               | Some e => Printed (print_esc (base t) o e)
               end
      end.

    (** 1334-1500.  [fuel] is the length of the format, of which every round takes a part. *)
    Fixpoint loop (fuel : nat) (i : list byte) (args : list value) (o : cfile) : outcome :=
      match fuel, i with
      | _, [] => Printed o
      | O, _ => Undefined
      | S fuel, _ =>
          let verbatim := cspn (str "%$") i in
          let o := text (firstn verbatim i) o in
          match skipn verbatim i with
          | [] => Printed o
          | c :: i =>
              if Byte.eqb c "%"%byte then
              match i with
              | "%"%byte :: i => loop fuel i args (text (str "%") o)
              | "c"%byte :: i =>
                  match args with VChar c :: args => loop fuel i args (text [c] o) | _ => Undefined end
              | "d"%byte :: i =>
                  match args with VInt n :: args => loop fuel i args (text (d n) o) | _ => Undefined end
              | "g"%byte :: i =>
                  match args with VDouble s :: args => loop fuel i args (text s o) | _ => Undefined end
              | "s"%byte :: i =>
                  match args with VStr s :: args => loop fuel i args (text s o) | _ => Undefined end
              | "z"%byte :: "u"%byte :: i =>
                  match args with VSize n :: args => loop fuel i args (text (zu n) o) | _ => Undefined end
              | "p"%byte :: c :: i =>
                  if mem c (str "qQFPLeExX") then
                    match args with v :: args => bind (print_pointer c v o) (loop fuel i args) | _ => Undefined end
                  else Invalid
              | _ => Invalid
              end
              else
              match i with
              | "$"%byte :: i => loop fuel i args (text (str "$") o)
              | "{"%byte :: i =>
                  match braces i with
                  | None => Invalid
                  | Some (name, i) => bind (print_color name o) (loop fuel i args)
                  end
              | _ => Invalid
              end
          end
      end.
  End Loop.

  (** 1509-1515, for the formats in 1243-1321, which have no expressions in them *)
  Definition cbuff (format : list byte) (args : list value) (o : cfile) : outcome :=
    loop (fun _ _ _ => Undefined) (length format) format args o.

  (** 1244-1253 *)
  Definition print_expr_name (e : expr) (o : cfile) : outcome :=
    let '(Expr k argv _ _ _ _ _) := e in
    match argv with
    | [] => Undefined
    | arg :: _ =>
        match k with
        | BFS_FLAG => cbuff (str "${cyn}%pq${rs}") [VStr arg] o
        | BFS_OPERATOR => cbuff (str "${red}%pq${rs}") [VStr arg] o
        | BFS_OTHER => cbuff (str "${blu}%pq${rs}") [VStr arg] o
        end
    end.
  (** 1256-1268 *)
  Fixpoint print_more_args (args : list (list byte)) (o : cfile) : outcome :=
    match args with
    | [] => Printed o
    | arg :: args => bind (cbuff (str " ${bld}%pq${rs}") [VStr arg] o) (print_more_args args)
    end.
  Definition print_expr_args (e : expr) (o : cfile) : outcome :=
    let '(Expr _ argv _ _ _ _ _) := e in
    bind (print_expr_name e o) (print_more_args (tl argv)).

  (** 1271-1321.  [levels] is 2 - depth. *)
  Fixpoint print_expr (levels : nat) (verbose : bool) (e : option expr) (o : cfile) : outcome :=
    match levels, e with
    | O, _ => Printed (text (str "(...)") o)
    | _, None => Printed (text (str "(null)") o)
    | S levels, Some (Expr k argv successes evaluations rate time children) =>
        let each :=
          fix each (count : nat) (children : list expr) (o : cfile) : outcome :=
            match children with
            | [] => Printed o
            | child :: children =>
                let o := text (str " ") o in
                if 3 <=? S count then Printed (text (str "...") o)
                else bind (print_expr levels verbose (Some child) o) (each (S count) children)
            end in
        bind (print_expr_args (Expr k argv successes evaluations rate time children) (text (str "(") o)) (fun o =>
        bind (if verbose then
                cbuff (str " [${ylw}%zu${rs}/${ylw}%zu${rs}=${ylw}%g%%${rs}; ${ylw}%gns${rs}]")
                  [VSize successes; VSize evaluations; VDouble rate; VDouble time] o
              else Printed o) (fun o =>
        bind (each 0 children o) (fun o => Printed (text (str ")") o))))
    end.

  (** 1412-1435 *)
  Definition on_expr (c : byte) (e : option expr) (o : cfile) : outcome :=
    match c, e with
    | "e"%byte, _ => print_expr 2 false e o
    | "E"%byte, _ => print_expr 2 true e o
    | "x"%byte, Some e => print_expr_args e o
    | "X"%byte, Some e => print_expr_name e o
    | _, _ => Undefined
    end.

  (** 1324-1507 *)
  Definition cvbuff (format : list byte) (args : list value) (o : cfile) : outcome := loop on_expr (length format) format args o.

  (** 1517-1530: what is written, and whether the colors have to be reset *)
  Definition cvfprintf (format : list byte) (args : list value) (on : bool) : outcome := cvbuff format args (mkCfile [] on).
End Format.
