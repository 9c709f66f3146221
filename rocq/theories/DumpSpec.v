(** * What the dump of a command line says

    Of the model, only the types are used.  How a shell reads a line is the subject of C69, what the arguments of bfs mean that
    of C23, and what they ask for that of C68. *)
From Coq Require Import String List Arith NArith ZArith Bool.
From Coq Require Import Init.Byte Strings.Byte.
From Verif Require Import QuoteModel QuoteSpec PathModel ColModel FmtModel FmtSpec DumpModel.
From Verif Require NumSpec GramModel GramSpec SetupModel SetupSpec.
Import ListNotations.
Local Open Scope list_scope.

(** ** The settings *)

(** The primaries of an expression, in order *)
Fixpoint calls_in (e : GramModel.expr) : list SetupModel.call :=
  match e with
  | GramModel.Prim n args => [(n, args)]
  | GramModel.Not e => calls_in e
  | GramModel.And x y | GramModel.Or x y | GramModel.Comma x y => calls_in x ++ calls_in y
  | _ => []
  end.

(** The flags and options that are about settings *)
Definition about_settings (n : list byte) : Prop :=
  GramSpec.one_of ["-L"; "-H"; "-P"; "-X"; "-s"; "-j"; "-O"; "-S"; "-D"; "-f"; "-color"; "-nocolor"; "-depth";
                   "-ignore_readdir_race"; "-mindepth"; "-maxdepth"; "-mount"; "-status"; "-unique"; "-xdev"]%string n.
(** The parser takes these if it takes their values. *)
Definition takes_settings (w : SetupModel.env) (wg : GramModel.env) : Prop :=
  forall before n args, about_settings n -> SetupSpec.acceptable w (n, args) -> GramModel.valid wg before n args = true.

(** What settings can be: the flags do not say to follow both all links and only the roots, numbers fit in an int and
    are not negative, and colors are known if they are used. *)
Record possible (w : SetupModel.env) (s : SetupModel.ctx) : Prop := {
  p_links : N.testbit (SetupModel.flags s) 3 && N.testbit (SetupModel.flags s) 4 = false;
  p_mindepth : (0 <= SetupModel.mindepth s <= 2 ^ 31 - 1)%Z;
  p_maxdepth : (0 <= SetupModel.maxdepth s <= 2 ^ 31 - 1)%Z;
  p_optlevel : (0 <= SetupModel.optlevel s <= 2 ^ 31 - 1)%Z;
  p_threads : (0 < SetupModel.threads s <= 2 ^ 31 - 1)%Z;
  p_debug : (SetupModel.debug s < 128)%N;
  p_cout : SetupModel.cout_colors s = true -> SetupModel.colors w = true;
  p_posix : SetupModel.posixly_correct s = SetupModel.posix_env w;
  p_interactive : SetupModel.interactive s = (SetupModel.stdin_tty w && SetupModel.stderr_tty w)%bool }.

(** [agree p q]: the settings [q] are like [p], other than those about errors, warnings and colored messages, and whether there
    is something dangerous in the expression.  Of the flags, these are the ones for post-order, links, mounts and sorting.
    -xdev does not matter if there is a -mount. *)
Record agree (p q : SetupModel.ctx) : Prop := {
  g_flags : forall i, In i [2; 3; 4; 6; 8]%N -> N.testbit (SetupModel.flags q) i = N.testbit (SetupModel.flags p) i;
  g_xdev : N.testbit (SetupModel.flags p) 6 = false -> N.testbit (SetupModel.flags q) 7 = N.testbit (SetupModel.flags p) 7;
  g_search : SetupModel.search q = SetupModel.search p;
  g_mindepth : SetupModel.mindepth q = SetupModel.mindepth p;
  g_maxdepth : SetupModel.maxdepth q = SetupModel.maxdepth p;
  g_optlevel : SetupModel.optlevel q = SetupModel.optlevel p;
  g_threads : SetupModel.threads q = SetupModel.threads p;
  g_debug : SetupModel.debug q = SetupModel.debug p;
  g_xargs : SetupModel.xargs_safe q = SetupModel.xargs_safe p;
  g_races : SetupModel.ignore_races q = SetupModel.ignore_races p;
  g_unique : SetupModel.unique q = SetupModel.unique p;
  g_status : SetupModel.status q = SetupModel.status p;
  g_posix : SetupModel.posixly_correct q = SetupModel.posixly_correct p;
  g_interactive : SetupModel.interactive q = SetupModel.interactive p;
  g_cout : SetupModel.cout_colors q = SetupModel.cout_colors p }.

(** [forgotten w p q]: in [q], errors are not ignored, there are warnings if there are by default, and messages are colored if
    the output is. *)
Record forgotten (w : SetupModel.env) (p q : SetupModel.ctx) : Prop := {
  t_errors : SetupModel.ignore_errors q = false;
  t_warn : SetupModel.warn q = (SetupModel.stdin_tty w && negb (SetupModel.posix_env w))%bool;
  t_cerr : SetupModel.cerr_colors q = SetupModel.cout_colors p;
  t_dangerous : SetupModel.dangerous q = false }.

(** [rereads w wg c line q]: to a shell, [line] is a command of [c], and its arguments stand for the paths of [c] and the
    settings [q]. *)
Definition rereads (w : SetupModel.env) (wg : GramModel.env) (c : ctx) (line : list byte) (q : SetupModel.ctx) : Prop :=
  exists words cmd p,
    shell_line line (argv0 c :: words) /\ GramSpec.means wg words cmd /\
    GramModel.c_roots cmd = paths c /\ GramModel.c_exclude cmd = [] /\
    SetupModel.setup w (calls_in (GramModel.c_expr cmd)) = SetupModel.Ok p /\ q = SetupModel.context p.

(** ** The expression *)

Section Outline.
  Variable l : locale.
  Variable rates : bool.
  Definition shown (e : expr) : list byte := plain l (tree rates e).
  (** The expression with all parentheses *)
  Fixpoint whole (n : node) : list byte :=
    match n with
    | Parent name children => str "(" ++ name ++ concat (map whole children) ++ str ")"
    | Leaf e => shown e
    end.
  (** A line for every operator and for every other expression, with its depth *)
  Fixpoint outline (depth : nat) (n : node) : list (nat * list byte) :=
    match n with
    | Parent name children => (depth, str "(" ++ name) :: concat (map (outline (S depth)) children)
    | Leaf e => [(depth, shown e)]
    end.
  (** [listing prefix ns out]: the lines of [out] are those of the outline of [ns], one after the other, with closing
      parentheses behind them such that together they are what they are without lines. *)
  Definition listing (prefix : list byte) (ns : list node) (out : list byte) : Prop :=
    exists lines : list (nat * list byte),
      out = concat (map (fun e => prefix ++ concat (repeat (str "  ") (fst e)) ++ snd e ++ [x0a]) lines) /\
      Forall2 (fun e h => fst e = fst h /\ exists n, snd e = snd h ++ repeat ")"%byte n) lines (concat (map (outline 0) ns)) /\
      concat (map snd lines) = concat (map whole ns).
End Outline.

Inductive sound_node : node -> Prop :=
| n_parent name ns : Forall sound_node ns -> sound_node (Parent name ns)
| n_leaf e : sound e -> sound_node (Leaf e).

(** The names of the debugging flags *)
Definition debug_table : list (string * N) :=
  [("cost", 1); ("exec", 2); ("opt", 4); ("rates", 8); ("search", 16); ("stat", 32); ("tree", 64)]%N%string.
(** The last component of the name of the command *)
Definition command_name (c : ctx) : list byte := skipn (xbaseoff (argv0 c)) (argv0 c).
Definition prefix (c : ctx) (flag : string) : list byte := command_name c ++ str ": -D " ++ str flag ++ str ": ".

(** [dumped l c n line out]: [out] is the messages for the flag [n]: a command line, and the expressions. *)
Definition dumped (l : locale) (c : ctx) (n : string) (line out : list byte) : Prop :=
  exists rest, out = prefix c n ++ line ++ [x0a] ++ rest /\
    listing l (String.eqb n "rates") (prefix c n) [Parent (str "-exclude") [exclude c]; expression c] rest.
