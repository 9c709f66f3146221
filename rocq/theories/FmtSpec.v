(** * What formatted messages look like

    Of the model, the types of values and colors are used.  What is printed for files is the subject of C46. *)
From Coq Require Import String List Arith NArith ZArith Bool.
From Coq Require Import Init.Byte Strings.Byte.
From Verif Require FlsSpec.
From Verif Require Import QuoteModel QuoteSpec ColModel ColSpec FmtModel.
Import ListNotations.

(** ** Formats *)

Inductive conversion :=
| Char | Int | Double | Str | Size
| Quoted (** for a shell *) | Visible (** for a terminal *)
| Name | Path | Target
| Tree | Rates | Args | Arg0.
(** A format is a sequence of these. *)
Inductive piece := Text (s : list byte) | Percent | Dollar | Color (name : list byte) | Reset | Conv (c : conversion).

Definition letters (c : conversion) : string :=
  match c with
  | Char => "c" | Int => "d" | Double => "g" | Str => "s" | Size => "zu"
  | Quoted => "pq" | Visible => "pQ" | Name => "pF" | Path => "pP" | Target => "pL"
  | Tree => "pe" | Rates => "pE" | Args => "px" | Arg0 => "pX"
  end.
Definition written (p : piece) : list byte :=
  match p with
  | Text s => s
  | Percent => str "%%"
  | Dollar => str "$$"
  | Color name => str "${" ++ name ++ str "}"
  | Reset => str "${rs}"
  | Conv c => str "%" ++ str (letters c)
  end.
Definition proper_piece (p : piece) : Prop :=
  match p with
  | Text s => ~ In "%"%byte s /\ ~ In "$"%byte s
  | Color name => ~ In "}"%byte name /\ name <> str "rs"
  | _ => True
  end.

(** ** Messages *)

(** A message, before it is decided whether there are colors *)
Inductive mark :=
| Lit (s : list byte)       (** of the format, or as given *)
| Word (shell : bool) (s : list byte)
| Hue (name : list byte) | End
| Shown (c : conversion) (f : ftwbuf).

(** The arguments of an expression, quoted: the first with a color for its kind *)
Definition kind_hue (k : kind) : list byte :=
  match k with BFS_FLAG => str "cyn" | BFS_OPERATOR => str "red" | BFS_OTHER => str "blu" end.
Definition first_arg (k : kind) (a : list byte) : list mark := [Hue (kind_hue k); Word true a; End].
Definition other_arg (a : list byte) : list mark := [Lit (str " "); Hue (str "bld"); Word true a; End].
Definition arguments (k : kind) (argv : list (list byte)) : list mark :=
  match argv with [] => [] | a :: more => first_arg k a ++ flat_map other_arg more end.
Definition yellow (ms : list mark) : list mark := [Hue (str "ylw")] ++ ms ++ [End].
Definition rates_of (s e : N) (rate time : list byte) : list mark :=
  [Lit (str " [")] ++ yellow [Lit (zu s)] ++ [Lit (str "/")] ++ yellow [Lit (zu e)] ++
  [Lit (str "=")] ++ yellow [Lit rate; Lit (str "%")] ++ [Lit (str "; ")] ++ yellow [Lit time; Lit (str "ns")] ++ [Lit (str "]")].
Definition parens (verbose : bool) (k : kind) (argv : list (list byte)) (s e : N) (rate time : list byte) (inside : list mark) : list mark :=
  [Lit (str "(")] ++ arguments k argv ++ (if verbose then rates_of s e rate time else []) ++ inside ++ [Lit (str ")")].
(** At most two of the children, and of each of their own only that there are any *)
Definition inside (print : expr -> list mark) (children : list expr) : list mark :=
  match children with
  | [] => []
  | [a] => Lit (str " ") :: print a
  | [a; b] => Lit (str " ") :: print a ++ Lit (str " ") :: print b
  | a :: b :: _ => Lit (str " ") :: print a ++ Lit (str " ") :: print b ++ [Lit (str " ..." )]
  end.
Definition child (verbose : bool) (x : expr) : list mark :=
  let '(Expr k argv s e rate time cs) := x in
  parens verbose k argv s e rate time (inside (fun _ => [Lit (str "(...)")]) cs).
Definition tree (verbose : bool) (x : expr) : list mark :=
  let '(Expr k argv s e rate time cs) := x in
  parens verbose k argv s e rate time (inside (child verbose) cs).
Definition argv_of (x : expr) : list (list byte) := let '(Expr _ argv _ _ _ _ _) := x in argv.
Definition kind_of (x : expr) : kind := let '(Expr k _ _ _ _ _ _) := x in k.
(** All expressions have names. *)
Inductive sound : expr -> Prop :=
| so k argv s e rate time cs : argv <> [] -> Forall sound cs -> sound (Expr k argv s e rate time cs).
Definition fine (v : value) : Prop := match v with VExpr (Some e) => sound e | _ => True end.

(** What a conversion makes of a value *)
Inductive converts : conversion -> value -> list mark -> Prop :=
| c_char c : converts Char (VChar c) [Lit [c]]
| c_int n : converts Int (VInt n) [Lit (d n)]
| c_double s : converts Double (VDouble s) [Lit s]
| c_str s : converts Str (VStr s) [Lit s]
| c_size n : converts Size (VSize n) [Lit (zu n)]
| c_quoted s : converts Quoted (VStr s) [Word true s]
| c_visible s : converts Visible (VStr s) [Word false s]
| c_name f : converts Name (VFile f) [Shown Name f]
| c_path f : converts Path (VFile f) [Shown Path f]
| c_target f : converts Target (VFile f) [Shown Target f]
| c_null (verbose : bool) : converts (if verbose then Rates else Tree) (VExpr None) [Lit (str "(null)")]
| c_tree (verbose : bool) e : sound e -> converts (if verbose then Rates else Tree) (VExpr (Some e)) (tree verbose e)
| c_args e : sound e -> converts Args (VExpr (Some e)) (arguments (kind_of e) (argv_of e))
| c_arg0 e : sound e -> converts Arg0 (VExpr (Some e)) (first_arg (kind_of e) (hd [] (argv_of e))).

(** [says ps vs ms]: the format made of [ps] makes the message [ms] of the values [vs]. *)
Inductive says : list piece -> list value -> list mark -> Prop :=
| s_nil vs : says [] vs []
| s_text s ps vs ms : says ps vs ms -> says (Text s :: ps) vs (Lit s :: ms)
| s_percent ps vs ms : says ps vs ms -> says (Percent :: ps) vs (Lit (str "%") :: ms)
| s_dollar ps vs ms : says ps vs ms -> says (Dollar :: ps) vs (Lit (str "$") :: ms)
| s_color n ps vs ms : says ps vs ms -> says (Color n :: ps) vs (Hue n :: ms)
| s_reset ps vs ms : says ps vs ms -> says (Reset :: ps) vs (End :: ms)
| s_conv c v ps vs ms ms' : converts c v ms -> says ps vs ms' -> says (Conv c :: ps) (v :: vs) (ms ++ ms').

(** Numbers in decimal, without superfluous zeros *)
Definition decimal (n : N) (s : list byte) : Prop := FlsSpec.number s n /\ (hd_error s = Some "0"%byte -> n = 0%N /\ s = str "0").
Definition signed_decimal (n : Z) (s : list byte) : Prop :=
  if (n <? 0)%Z then exists t, s = str "-" ++ t /\ decimal (Z.to_N (- n)) t else decimal (Z.to_N n) s.

(** ** On the terminal *)

Definition quoted_as (l : locale) (shell : bool) (s : list byte) : list byte := fst (wordnesc l shell ([], 4 * length s + 4) s).
Definition show (l : locale) (cs : option colors) (c : conversion) : cfile -> ftwbuf -> option cfile :=
  match c with Name => print_name l cs | Path => print_path l cs | _ => print_link_target l cs end.

(** Without colors *)
Definition plain1 (l : locale) (m : mark) : list byte :=
  match m with
  | Lit s => s
  | Word shell s => quoted_as l shell s
  | Hue _ | End => []
  | Shown Name f => skipn (nameoff f) (path f)
  | Shown Path f => path f
  | Shown _ f => match target f with Some t => t | None => [] end
  end.
Definition plain (l : locale) (ms : list mark) : list byte := concat (map (plain1 l) ms).

(** With colors: what is printed, and whether a color is on before and after.  A color for which
    there is no escape sequence changes nothing, and that of ${rs} by another name does not turn
    anything on.  The end of a color is only printed if one is on. *)
Definition sequence (cs : colors) (e : esc_seq) : list byte := seq (leftcode cs) ++ seq e ++ seq (rightcode cs).
Inductive drawn (l : locale) (t : theme) : bool -> list mark -> list byte -> bool -> Prop :=
| d_nil on : drawn l t on [] [] on
| d_lit on s ms out on' : drawn l t on ms out on' -> drawn l t on (Lit s :: ms) (s ++ out) on'
| d_word on sh s ms out on' : drawn l t on ms out on' -> drawn l t on (Word sh s :: ms) (quoted_as l sh s ++ out) on'
| d_none on n ms out on' : length n < 4 -> names t n = Some None -> drawn l t on ms out on' -> drawn l t on (Hue n :: ms) out on'
| d_hue on n e ms out on' :
    length n < 4 -> names t n = Some (Some e) -> drawn l t (on || negb (same (Some e) (reset (base t)))) ms out on' ->
    drawn l t on (Hue n :: ms) (sequence (base t) e ++ out) on'
| d_end ms out on' : drawn l t false ms out on' -> drawn l t true (End :: ms) (seq (endcode (base t)) ++ out) on'
| d_off ms out on' : drawn l t false ms out on' -> drawn l t false (End :: ms) out on'
| d_shown on c f new on1 ms out on' :
    show l (Some (base t)) c (mkCfile [] on) f = Some (mkCfile new on1) -> drawn l t on1 ms out on' ->
    drawn l t on (Shown c f :: ms) (new ++ out) on'.

(** [looks l cs on ms out on']: the message [ms] is printed as [out]. *)
Definition looks (l : locale) (cs : option theme) (on : bool) (ms : list mark) (out : list byte) (on' : bool) : Prop :=
  match cs with
  | None => out = plain l ms /\ on' = on
  | Some t => drawn l t on ms out on'
  end.

(** After the last color, there is a reset. *)
Fixpoint closed (ms : list mark) : Prop :=
  match ms with
  | [] => True
  | Hue _ :: ms' => In End ms' /\ closed ms'
  | _ :: ms' => closed ms'
  end.
(** No files are shown. *)
Definition no_shown (ms : list mark) : Prop := forall c f, ~ In (Shown c f) ms.
(** [b] is in the escape sequences of the colors. *)
Definition in_theme (t : theme) (b : byte) : Prop :=
  in_colors (base t) b \/ exists n e, names t n = Some (Some e) /\ In b (seq e).

(** A shell reads [line] as these words. *)
Fixpoint spaced (qs : list (list byte)) : list byte :=
  match qs with [] => [] | [q] => q | q :: qs => q ++ str " " ++ spaced qs end.
Definition shell_line (line : list byte) (ws : list (list byte)) : Prop :=
  exists qs, line = spaced qs /\ Forall2 (fun q w => shell_word q = Some w) qs ws.
