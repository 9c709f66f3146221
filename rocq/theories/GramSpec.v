(** * The grammar of the command line

    From the manual, not from the parser.  Only the types of expressions, the environment and
    [b], which turns a literal into bytes, come from the model; the meaning of numbers and of the
    commands of -exec are those of their own specifications. *)
From Coq Require Import String List Bool ZArith.
From Coq Require Import Init.Byte Strings.Byte.
From Verif Require Import NumModel NumSpec ExecSpec GramModel.
Import ListNotations.
Open Scope string_scope.

(** ** Words *)

(** The primaries by kind and by how many arguments they take *)
Definition flags0 := ["-E"; "-H"; "-L"; "-P"; "-X"; "-d"; "-s"].
Definition options0 :=
  ["-color"; "-daystart"; "-follow"; "-ignore_readdir_race"; "-mount"; "-nocolor"; "-noerror";
   "-nohidden"; "-noignore_readdir_race"; "-noleaf"; "-nowarn"; "-status"; "-unique"; "-warn";
   "-x"; "-xdev"].
Definition options1 := ["-files0-from"; "-maxdepth"; "-mindepth"; "-regextype"].
Definition tests0 :=
  ["-acl"; "-capable"; "-empty"; "-executable"; "-false"; "-hidden"; "-nogroup"; "-nouser";
   "-readable"; "-sparse"; "-true"; "-writable"; "-xattr"].
Definition tests1 :=
  ["-amin"; "-cmin"; "-mmin"; "-Bmin"; "-atime"; "-ctime"; "-mtime"; "-Btime";
   "-anewer"; "-cnewer"; "-mnewer"; "-Bnewer"; "-newer";
   "-asince"; "-csince"; "-msince"; "-Bsince"; "-since";
   "-context"; "-flags"; "-fstype"; "-gid"; "-group"; "-uid"; "-user"; "-inum"; "-links";
   "-name"; "-iname"; "-path"; "-ipath"; "-wholename"; "-iwholename"; "-lname"; "-ilname";
   "-regex"; "-iregex"; "-perm"; "-samefile"; "-size"; "-type"; "-xtype"; "-used"; "-xattrname"].
Definition actions0 := ["-delete"; "-ls"; "-print"; "-print0"; "-printx"; "-prune"; "-quit"; "-rm"].
Definition actions1 := ["-fls"; "-fprint"; "-fprint0"; "-limit"; "-printf"].

(** These exist too, but say nothing about the expression. *)
Definition informational := ["-help"; "--help"; "-version"; "--version"].

Definition one_of (l : list string) (a : arg) : Prop := In a (map b l).

(** All the words that the above and the following rules give a meaning to; also those that
    begin with [-D], [-O], [-S], [-j] or [-newer]. *)
Definition begins (q : string) (a : arg) : Prop := exists t, a = (b q ++ t)%list.
Definition operators := ["--"; "-a"; "-and"; "-o"; "-or"; "-not"; "-exclude"].
Definition taken (a : arg) : Prop :=
  one_of (flags0 ++ options0 ++ options1 ++ tests0 ++ tests1 ++ actions0 ++ actions1 ++ informational ++ operators ++
          ["-depth"; "-exec"; "-execdir"; "-exit"; "-f"; "-fprintf"; "-ok"; "-okdir"])%list a \/
  begins "-D" a \/ begins "-O" a \/ begins "-S" a \/ begins "-j" a \/ begins "-newer" a.

(** A number, possibly with a sign and a comparison in front *)
Definition number_like (a : arg) : Prop :=
  exists pre d t, a = (pre ++ d :: t)%list /\ length pre <= 2 /\ Forall (fun c => c = x2b \/ c = x2d) pre /\ is_digit_of 10 d.
(** An exit status: a number that is not negative and fits in an int *)
Definition status_number (a : arg) : Prop := exists v, numeral 10 a v [] /\ (0 <= v <= 2 ^ 31 - 1)%Z.

(** [joined flags word more]: [word] is a single argument that is made of several flags, at least
    one of which is a capital letter, and [more] are further arguments that the last of them takes. *)
Definition letter (c : byte) : arg := [x2d; c].
Definition simple_flag (c : byte) : Prop := one_of ("-x" :: flags0) (letter c).
Definition capital (c : byte) : Prop := (65 <= Byte.to_nat c <= 90)%nat.
Inductive last_flag : byte -> list byte -> list arg -> Prop :=
| last_simple c : simple_flag c -> last_flag c [] []
| last_path v : last_flag "f"%byte [] [v]
| last_value c t : one_of ["-D"; "-O"; "-S"; "-j"] (letter c) -> t <> [] -> last_flag c t []
| last_separate c v : one_of ["-D"; "-S"] (letter c) -> last_flag c [] [v].
Definition joined (flags : list arg) (word : arg) (more : list arg) : Prop :=
  exists cs c t,
    flags = map letter (cs ++ [c])%list /\ word = (x2d :: cs ++ c :: t)%list /\
    Forall simple_flag cs /\ last_flag c t more /\ Exists capital (cs ++ [c])%list.

(** [primary before after names args]: the arguments [args] are a primary, when they come between
    the arguments [before] and [after].  [names] is its name, or the names of the several flags
    that it is made of. *)
Inductive primary (w : env) (after : list arg) : list arg -> list arg -> Prop :=
| p_nullary n :
    one_of (flags0 ++ options0 ++ tests0 ++ actions0)%list n -> primary w after [n] [n]
| p_unary n v :
    one_of (options1 ++ tests1 ++ actions1 ++ ["-f"])%list n -> primary w after [n] [n; v]
| p_fprintf file fmt : primary w after [b "-fprintf"] [b "-fprintf"; file; fmt]
| p_value n t : one_of ["-D"; "-O"; "-S"; "-j"] n -> t <> [] -> primary w after [n] [n ++ t]%list
| p_separate n v : one_of ["-D"; "-S"] n -> primary w after [n] [n; v]
| p_depth : (forall n : arg, hd_error after = Some n -> ~ number_like n) -> primary w after [b "-depth"] [b "-depth"]
| p_depth_n n : number_like n -> primary w after [b "-depth"] [b "-depth"; n]
| p_exit : (forall n : arg, hd_error after = Some n -> ~ status_number n) -> primary w after [b "-exit"] [b "-exit"]
| p_exit_n n : status_number n -> primary w after [b "-exit"] [b "-exit"; n]
| p_exec n (tmpl : list arg) (multi : bool) (ending : arg) :
    one_of ["-exec"; "-execdir"] n -> ending = b (if multi then "+" else ";") ->
    command false (tmpl ++ ending :: after)%list tmpl multi -> primary w after [n] (n :: tmpl ++ [ending])%list
| p_ok n (tmpl : list arg) :
    one_of ["-ok"; "-okdir"] n ->
    command true (tmpl ++ b ";" :: after)%list tmpl false -> primary w after [n] (n :: tmpl ++ [b ";"])%list
| p_newerxy x y v : primary w after [b "-newer"] [(b "-newer" ++ [x; y])%list; v]
| p_joined flags word more :
    joined flags word more -> ~ taken word -> primary w after flags (word :: more).

(** Every flag but the last of several stands for itself. *)
Fixpoint accepted (w : env) (before : list arg) (names args : list arg) : Prop :=
  match names with
  | [] => True
  | [n] => valid w before n args = true
  | n :: names' => valid w before n (firstn 1 args) = true /\ accepted w before names' args
  end.

(** ** Tokens *)

Inductive token :=
| TPath (a : arg) | TDashes
| TOpen | TClose | TNot | TAnd | TOr | TComma | TExclude
| TPrim (names args : list arg).

(** A path is anything that does not begin with a dash, other than a parenthesis, an exclamation
    mark or a comma, except that a closing parenthesis or a comma that comes before the
    expression is a path, and so is a single dash. *)
Definition path_like (started : bool) (a : arg) : Prop :=
  (a = b "-" \/ hd_error a <> Some x2d) /\ ~ one_of ["("; "!"] a /\
  (started = true -> ~ one_of [")"; ","] a).

Inductive operator (started : bool) : arg -> token -> Prop :=
| o_open : operator started (b "(") TOpen
| o_close : started = true -> operator started (b ")") TClose
| o_not a : one_of ["!"; "-not"] a -> operator started a TNot
| o_and a : one_of ["-a"; "-and"] a -> operator started a TAnd
| o_or a : one_of ["-o"; "-or"] a -> operator started a TOr
| o_comma : started = true -> operator started (b ",") TComma
| o_exclude : operator started (b "-exclude") TExclude.

(** Flags do not start the expression; -x is no real flag. *)
Definition pure_flag (n : arg) : Prop := one_of (flags0 ++ ["-D"; "-O"; "-S"; "-j"; "-f"])%list n.

(** [reads before started argv tokens]: the arguments [argv], which come after [before], are the
    given tokens. *)
Inductive reads (w : env) : list arg -> bool -> list arg -> list token -> Prop :=
| r_nil before started : reads w before started [] []
| r_path before started a argv ts :
    path_like started a -> reads w (before ++ [a]) started argv ts ->
    reads w before started (a :: argv) (TPath a :: ts)
| r_dashes before started argv ts :
    reads w (before ++ [b "--"]) started argv ts ->
    reads w before started (b "--" :: argv) (TDashes :: ts)
| r_operator before started a t argv ts :
    operator started a t -> reads w (before ++ [a]) true argv ts ->
    reads w before started (a :: argv) (t :: ts)
| r_flags before started names args argv ts :
    primary w argv names args -> accepted w before names args -> Forall pure_flag names ->
    reads w (before ++ args)%list started argv ts ->
    reads w before started (args ++ argv)%list (TPrim names args :: ts)
| r_primary before started names args argv ts :
    primary w argv names args -> accepted w before names args -> ~ Forall pure_flag names ->
    reads w (before ++ args)%list true argv ts ->
    reads w before started (args ++ argv)%list (TPrim names args :: ts).

(** ** Expressions *)

Definition is_action (n : arg) : Prop :=
  one_of (actions0 ++ actions1 ++ ["-fprintf"; "-exit"; "-exec"; "-execdir"; "-ok"; "-okdir"])%list n.
(** Actions which leave it to -print to show the files *)
Definition shows_nothing (n : arg) : Prop := one_of ["-limit"; "-prune"; "-quit"] n.

(** What a primary excludes by itself *)
Definition excludes (names : list arg) : list expr :=
  flat_map (fun n => if list_eq_dec Byte.byte_eq_dec n (b "-nohidden") then [Hidden] else []) names.

(** [factor x ts e ex]: the tokens [ts] are the expression [e], and ask for the exclusion of [ex].
    [x] is whether they are themselves under an -exclude, where there can be no actions and no
    further -exclude.  The operators associate to the left. *)
Inductive factor : bool -> list token -> expr -> list expr -> Prop :=
| f_primary x names args :
    (x = true -> ~ Exists is_action names) ->
    factor x [TPrim names args] (Prim (last names []) args) (excludes names)
| f_parens x ts e ex : expression x ts e ex -> factor x (TOpen :: ts ++ [TClose]) e ex
| f_not x ts e ex : factor x ts e ex -> factor x (TNot :: ts) (Not e) ex
| f_exclude ts e ex : factor true ts e ex -> factor false (TExclude :: ts) Excluded (ex ++ [e])
with term : bool -> list token -> expr -> list expr -> Prop :=
| t_factor x ts e ex : factor x ts e ex -> term x ts e ex
| t_implicit x ts1 l ex1 ts2 r ex2 :
    term x ts1 l ex1 -> factor x ts2 r ex2 -> term x (ts1 ++ ts2) (And l r) (ex1 ++ ex2)
| t_and x ts1 l ex1 ts2 r ex2 :
    term x ts1 l ex1 -> factor x ts2 r ex2 -> term x (ts1 ++ TAnd :: ts2) (And l r) (ex1 ++ ex2)
with clause : bool -> list token -> expr -> list expr -> Prop :=
| c_term x ts e ex : term x ts e ex -> clause x ts e ex
| c_or x ts1 l ex1 ts2 r ex2 :
    clause x ts1 l ex1 -> term x ts2 r ex2 -> clause x (ts1 ++ TOr :: ts2) (Or l r) (ex1 ++ ex2)
with expression : bool -> list token -> expr -> list expr -> Prop :=
| e_clause x ts e ex : clause x ts e ex -> expression x ts e ex
| e_comma x ts1 l ex1 ts2 r ex2 :
    expression x ts1 l ex1 -> clause x ts2 r ex2 -> expression x (ts1 ++ TComma :: ts2) (Comma l r) (ex1 ++ ex2).

(** ** Command lines *)

Definition syntax (t : token) : bool := match t with TPath _ | TDashes => false | _ => true end.

(** The root paths that are given as arguments *)
Definition paths_of (t : token) : list arg :=
  match t with
  | TPath a => [a]
  | TPrim names args => if list_eq_dec Byte.byte_eq_dec (last names []) (b "-f") then skipn 1 args else []
  | _ => []
  end.
(** The arguments of -files0-from *)
Definition lists_of (t : token) : list arg :=
  match t with
  | TPrim [n] args => if list_eq_dec Byte.byte_eq_dec n (b "-files0-from") then skipn 1 args else []
  | _ => []
  end.

Definition has (P : arg -> Prop) (ts : list token) : Prop :=
  exists names args n, In (TPrim names args) ts /\ In n names /\ P n.

(** [means argv c]: the command line [argv] stands for [c]. *)
Definition means (w : env) (argv : list arg) (c : cmdline) : Prop :=
  exists ts e,
    reads w [] false argv ts /\
    (filter syntax ts = [] /\ e = True_ /\ c_exclude c = [] \/
     expression false (filter syntax ts) e (c_exclude c)) /\
    match rev (flat_map lists_of ts) with
    | [] => c_roots c = match flat_map paths_of ts with [] => [b "."] | ps => ps end
    | f :: _ => flat_map paths_of ts = [] /\ files0_list w f = Some (c_roots c)
    end /\
    (has (fun n => is_action n /\ ~ shows_nothing n) ts /\ c_expr c = e \/
     ~ has (fun n => is_action n /\ ~ shows_nothing n) ts /\ ~ has (fun n => n = b "-limit") ts /\
     c_expr c = And e Print).
