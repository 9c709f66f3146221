(** * Settings: what the flags and options of a command line ask for

    Models src/ctx.c 28-48 ([bfs_ctx_new]), the functions of src/parse.c that parse flags and
    options and those that use what has been set so far, the end of [parse_whole_expr]
    (3630-3666) and [bfs_parse_cmdline] (3827-3945) without the optimizer.

    The input is the list of the primaries in the order in which they are parsed, each with its
    name in the parse table and with the arguments it is made of; which ones these are for a
    command line is the subject of GramModel.  Allocations succeed, files can be opened and
    examined, and patterns compiled: otherwise the command line is rejected.  -help and -version
    are left out.  Of the warnings, those of the functions modelled here are. *)
From Coq Require Import String List Bool Arith ZArith NArith.
From Coq Require Import Init.Byte Strings.Byte.
From Verif Require Import NumModel GramModel.
Import ListNotations.
Local Open Scope list_scope.

(** A primary: its name in the parse table and its arguments, the first of which is the word that
    it was found in *)
Definition call := (arg * list arg)%type.

(** src/bftw.h 141-164, [enum bftw_flags] *)
Definition BFTW_RECOVER : N := 2.
Definition BFTW_POST_ORDER : N := 4.
Definition BFTW_FOLLOW_ROOTS : N := 8.
Definition BFTW_FOLLOW_ALL : N := 16.
Definition BFTW_DETECT_CYCLES : N := 32.
Definition BFTW_SKIP_MOUNTS : N := 64.
Definition BFTW_PRUNE_MOUNTS : N := 128.
Definition BFTW_SORT : N := 256.
(** src/bftw.h 169-178 *)
Inductive strategy := BFTW_BFS | BFTW_DFS | BFTW_IDS | BFTW_EDS.
(** src/xregex.h 15-24, [enum bfs_regex_type] *)
Inductive regex_type :=
| BFS_REGEX_POSIX_BASIC | BFS_REGEX_POSIX_EXTENDED | BFS_REGEX_AWK | BFS_REGEX_GNU_AWK
| BFS_REGEX_EMACS | BFS_REGEX_GREP | BFS_REGEX_EGREP | BFS_REGEX_GNU_FIND.
(** src/parse.c 61-65 *)
Inductive use_color := COLOR_NEVER | COLOR_AUTO | COLOR_ALWAYS.

(** src/ctx.h 44-84, the settings of [struct bfs_ctx]; [cout_colors] and [cerr_colors] are whether
    [cout->colors] and [cerr->colors] are set. *)
Record ctx := { flags : N; search : strategy; mindepth : Z; maxdepth : Z; optlevel : Z; threads : Z; debug : N; xargs_safe : bool; ignore_races : bool; ignore_errors : bool; unique : bool; status : bool; warn : bool; posixly_correct : bool; interactive : bool; dangerous : bool; cout_colors : bool; cerr_colors : bool }.
Definition set_flags (x : N) (c : ctx) : ctx :=
  {| flags := x; search := search c; mindepth := mindepth c; maxdepth := maxdepth c; optlevel := optlevel c; threads := threads c; debug := debug c; xargs_safe := xargs_safe c; ignore_races := ignore_races c; ignore_errors := ignore_errors c; unique := unique c; status := status c; warn := warn c; posixly_correct := posixly_correct c; interactive := interactive c; dangerous := dangerous c; cout_colors := cout_colors c; cerr_colors := cerr_colors c |}.
Definition set_search (x : strategy) (c : ctx) : ctx :=
  {| flags := flags c; search := x; mindepth := mindepth c; maxdepth := maxdepth c; optlevel := optlevel c; threads := threads c; debug := debug c; xargs_safe := xargs_safe c; ignore_races := ignore_races c; ignore_errors := ignore_errors c; unique := unique c; status := status c; warn := warn c; posixly_correct := posixly_correct c; interactive := interactive c; dangerous := dangerous c; cout_colors := cout_colors c; cerr_colors := cerr_colors c |}.
Definition set_mindepth (x : Z) (c : ctx) : ctx :=
  {| flags := flags c; search := search c; mindepth := x; maxdepth := maxdepth c; optlevel := optlevel c; threads := threads c; debug := debug c; xargs_safe := xargs_safe c; ignore_races := ignore_races c; ignore_errors := ignore_errors c; unique := unique c; status := status c; warn := warn c; posixly_correct := posixly_correct c; interactive := interactive c; dangerous := dangerous c; cout_colors := cout_colors c; cerr_colors := cerr_colors c |}.
Definition set_maxdepth (x : Z) (c : ctx) : ctx :=
  {| flags := flags c; search := search c; mindepth := mindepth c; maxdepth := x; optlevel := optlevel c; threads := threads c; debug := debug c; xargs_safe := xargs_safe c; ignore_races := ignore_races c; ignore_errors := ignore_errors c; unique := unique c; status := status c; warn := warn c; posixly_correct := posixly_correct c; interactive := interactive c; dangerous := dangerous c; cout_colors := cout_colors c; cerr_colors := cerr_colors c |}.
Definition set_optlevel (x : Z) (c : ctx) : ctx :=
  {| flags := flags c; search := search c; mindepth := mindepth c; maxdepth := maxdepth c; optlevel := x; threads := threads c; debug := debug c; xargs_safe := xargs_safe c; ignore_races := ignore_races c; ignore_errors := ignore_errors c; unique := unique c; status := status c; warn := warn c; posixly_correct := posixly_correct c; interactive := interactive c; dangerous := dangerous c; cout_colors := cout_colors c; cerr_colors := cerr_colors c |}.
Definition set_threads (x : Z) (c : ctx) : ctx :=
  {| flags := flags c; search := search c; mindepth := mindepth c; maxdepth := maxdepth c; optlevel := optlevel c; threads := x; debug := debug c; xargs_safe := xargs_safe c; ignore_races := ignore_races c; ignore_errors := ignore_errors c; unique := unique c; status := status c; warn := warn c; posixly_correct := posixly_correct c; interactive := interactive c; dangerous := dangerous c; cout_colors := cout_colors c; cerr_colors := cerr_colors c |}.
Definition set_debug (x : N) (c : ctx) : ctx :=
  {| flags := flags c; search := search c; mindepth := mindepth c; maxdepth := maxdepth c; optlevel := optlevel c; threads := threads c; debug := x; xargs_safe := xargs_safe c; ignore_races := ignore_races c; ignore_errors := ignore_errors c; unique := unique c; status := status c; warn := warn c; posixly_correct := posixly_correct c; interactive := interactive c; dangerous := dangerous c; cout_colors := cout_colors c; cerr_colors := cerr_colors c |}.
Definition set_xargs_safe (x : bool) (c : ctx) : ctx :=
  {| flags := flags c; search := search c; mindepth := mindepth c; maxdepth := maxdepth c; optlevel := optlevel c; threads := threads c; debug := debug c; xargs_safe := x; ignore_races := ignore_races c; ignore_errors := ignore_errors c; unique := unique c; status := status c; warn := warn c; posixly_correct := posixly_correct c; interactive := interactive c; dangerous := dangerous c; cout_colors := cout_colors c; cerr_colors := cerr_colors c |}.
Definition set_ignore_races (x : bool) (c : ctx) : ctx :=
  {| flags := flags c; search := search c; mindepth := mindepth c; maxdepth := maxdepth c; optlevel := optlevel c; threads := threads c; debug := debug c; xargs_safe := xargs_safe c; ignore_races := x; ignore_errors := ignore_errors c; unique := unique c; status := status c; warn := warn c; posixly_correct := posixly_correct c; interactive := interactive c; dangerous := dangerous c; cout_colors := cout_colors c; cerr_colors := cerr_colors c |}.
Definition set_ignore_errors (x : bool) (c : ctx) : ctx :=
  {| flags := flags c; search := search c; mindepth := mindepth c; maxdepth := maxdepth c; optlevel := optlevel c; threads := threads c; debug := debug c; xargs_safe := xargs_safe c; ignore_races := ignore_races c; ignore_errors := x; unique := unique c; status := status c; warn := warn c; posixly_correct := posixly_correct c; interactive := interactive c; dangerous := dangerous c; cout_colors := cout_colors c; cerr_colors := cerr_colors c |}.
Definition set_unique (x : bool) (c : ctx) : ctx :=
  {| flags := flags c; search := search c; mindepth := mindepth c; maxdepth := maxdepth c; optlevel := optlevel c; threads := threads c; debug := debug c; xargs_safe := xargs_safe c; ignore_races := ignore_races c; ignore_errors := ignore_errors c; unique := x; status := status c; warn := warn c; posixly_correct := posixly_correct c; interactive := interactive c; dangerous := dangerous c; cout_colors := cout_colors c; cerr_colors := cerr_colors c |}.
Definition set_status (x : bool) (c : ctx) : ctx :=
  {| flags := flags c; search := search c; mindepth := mindepth c; maxdepth := maxdepth c; optlevel := optlevel c; threads := threads c; debug := debug c; xargs_safe := xargs_safe c; ignore_races := ignore_races c; ignore_errors := ignore_errors c; unique := unique c; status := x; warn := warn c; posixly_correct := posixly_correct c; interactive := interactive c; dangerous := dangerous c; cout_colors := cout_colors c; cerr_colors := cerr_colors c |}.
Definition set_warn (x : bool) (c : ctx) : ctx :=
  {| flags := flags c; search := search c; mindepth := mindepth c; maxdepth := maxdepth c; optlevel := optlevel c; threads := threads c; debug := debug c; xargs_safe := xargs_safe c; ignore_races := ignore_races c; ignore_errors := ignore_errors c; unique := unique c; status := status c; warn := x; posixly_correct := posixly_correct c; interactive := interactive c; dangerous := dangerous c; cout_colors := cout_colors c; cerr_colors := cerr_colors c |}.
Definition set_posixly_correct (x : bool) (c : ctx) : ctx :=
  {| flags := flags c; search := search c; mindepth := mindepth c; maxdepth := maxdepth c; optlevel := optlevel c; threads := threads c; debug := debug c; xargs_safe := xargs_safe c; ignore_races := ignore_races c; ignore_errors := ignore_errors c; unique := unique c; status := status c; warn := warn c; posixly_correct := x; interactive := interactive c; dangerous := dangerous c; cout_colors := cout_colors c; cerr_colors := cerr_colors c |}.
Definition set_interactive (x : bool) (c : ctx) : ctx :=
  {| flags := flags c; search := search c; mindepth := mindepth c; maxdepth := maxdepth c; optlevel := optlevel c; threads := threads c; debug := debug c; xargs_safe := xargs_safe c; ignore_races := ignore_races c; ignore_errors := ignore_errors c; unique := unique c; status := status c; warn := warn c; posixly_correct := posixly_correct c; interactive := x; dangerous := dangerous c; cout_colors := cout_colors c; cerr_colors := cerr_colors c |}.
Definition set_dangerous (x : bool) (c : ctx) : ctx :=
  {| flags := flags c; search := search c; mindepth := mindepth c; maxdepth := maxdepth c; optlevel := optlevel c; threads := threads c; debug := debug c; xargs_safe := xargs_safe c; ignore_races := ignore_races c; ignore_errors := ignore_errors c; unique := unique c; status := status c; warn := warn c; posixly_correct := posixly_correct c; interactive := interactive c; dangerous := x; cout_colors := cout_colors c; cerr_colors := cerr_colors c |}.
Definition set_cout_colors (x : bool) (c : ctx) : ctx :=
  {| flags := flags c; search := search c; mindepth := mindepth c; maxdepth := maxdepth c; optlevel := optlevel c; threads := threads c; debug := debug c; xargs_safe := xargs_safe c; ignore_races := ignore_races c; ignore_errors := ignore_errors c; unique := unique c; status := status c; warn := warn c; posixly_correct := posixly_correct c; interactive := interactive c; dangerous := dangerous c; cout_colors := x; cerr_colors := cerr_colors c |}.
Definition set_cerr_colors (x : bool) (c : ctx) : ctx :=
  {| flags := flags c; search := search c; mindepth := mindepth c; maxdepth := maxdepth c; optlevel := optlevel c; threads := threads c; debug := debug c; xargs_safe := xargs_safe c; ignore_races := ignore_races c; ignore_errors := ignore_errors c; unique := unique c; status := status c; warn := warn c; posixly_correct := posixly_correct c; interactive := interactive c; dangerous := dangerous c; cout_colors := cout_colors c; cerr_colors := x |}.

(** What a primary does while it is parsed:
    - [Opened f c]: opens the file [f] for writing, which will be colored if [c] (if it is already
      open, the two are merged afterwards, see OutModel)
    - [Compiled p t]: compiles the pattern [p] as a regular expression of type [t]
    - [Examined f l]: calls stat() for [f], following links if [l]
    - [Warned w]: prints a warning about [w] *)
Inductive event :=
| Opened (file : arg) (colored : bool)
| Compiled (pattern : arg) (type : regex_type)
| Examined (file : arg) (links : bool)
| Warned (about : arg).

(** 73-118, [struct bfs_parser]; of the expressions that are remembered for warnings, whether there
    are any.  [log] is what has been done, the latest first. *)
Record parser := { context : ctx; regex : regex_type; use : use_color; depth_expr : bool; prune_expr : bool; mount_expr : bool; xdev_expr : bool; log : list event }.
Definition set_context (x : ctx) (c : parser) : parser :=
  {| context := x; regex := regex c; use := use c; depth_expr := depth_expr c; prune_expr := prune_expr c; mount_expr := mount_expr c; xdev_expr := xdev_expr c; log := log c |}.
Definition set_regex (x : regex_type) (c : parser) : parser :=
  {| context := context c; regex := x; use := use c; depth_expr := depth_expr c; prune_expr := prune_expr c; mount_expr := mount_expr c; xdev_expr := xdev_expr c; log := log c |}.
Definition set_use (x : use_color) (c : parser) : parser :=
  {| context := context c; regex := regex c; use := x; depth_expr := depth_expr c; prune_expr := prune_expr c; mount_expr := mount_expr c; xdev_expr := xdev_expr c; log := log c |}.
Definition set_depth_expr (x : bool) (c : parser) : parser :=
  {| context := context c; regex := regex c; use := use c; depth_expr := x; prune_expr := prune_expr c; mount_expr := mount_expr c; xdev_expr := xdev_expr c; log := log c |}.
Definition set_prune_expr (x : bool) (c : parser) : parser :=
  {| context := context c; regex := regex c; use := use c; depth_expr := depth_expr c; prune_expr := x; mount_expr := mount_expr c; xdev_expr := xdev_expr c; log := log c |}.
Definition set_mount_expr (x : bool) (c : parser) : parser :=
  {| context := context c; regex := regex c; use := use c; depth_expr := depth_expr c; prune_expr := prune_expr c; mount_expr := x; xdev_expr := xdev_expr c; log := log c |}.
Definition set_xdev_expr (x : bool) (c : parser) : parser :=
  {| context := context c; regex := regex c; use := use c; depth_expr := depth_expr c; prune_expr := prune_expr c; mount_expr := mount_expr c; xdev_expr := x; log := log c |}.
Definition set_log (x : list event) (c : parser) : parser :=
  {| context := context c; regex := regex c; use := use c; depth_expr := depth_expr c; prune_expr := prune_expr c; mount_expr := mount_expr c; xdev_expr := xdev_expr c; log := x |}.
Definition change (f : ctx -> ctx) (p : parser) : parser := set_context (f (context p)) p.
Definition done_ (e : event) (p : parser) : parser := set_log (e :: log p) p.
(** 255-267 *)
Definition warning (about : arg) (p : parser) : parser :=
  if warn (context p) then done_ (Warned about) p else p.

(** The surroundings: the environment variables NO_COLOR and POSIXLY_CORRECT, whether
    [parse_colors()] succeeds, which streams and files are terminals, the number of processors,
    whether Oniguruma is used, the answer to questions and the locale. *)
Record env := {
  no_color : option arg; posix_env : bool; colors : bool;
  stdin_tty : bool; stdout_tty : bool; stderr_tty : bool; isatty : arg -> bool;
  nproc : Z; oniguruma : bool; answer : bool; isspace : byte -> bool }.

(** [Info] is a command line that asks for help about a value. *)
Inductive result A := Ok (a : A) | Rejected | Info.
Arguments Ok {A}. Arguments Rejected {A}. Arguments Info {A}.

Definition INT_MAX : Z := 2147483647.

Section Setup.
  Variable w : env.

  (** src/color.c 740-747, [cfwrap] *)
  Definition cfwrap_colors (use : use_color) (tty : bool) : bool :=
    match use with COLOR_NEVER => false | _ => colors w && tty end.

  (** src/ctx.c 28-48 and src/parse.c 3852-3905 *)
  Definition initial_color : use_color :=
    match no_color w with Some (_ :: _) => COLOR_NEVER | _ => COLOR_AUTO end.
  Definition init_ctx : ctx :=
    {| flags := BFTW_RECOVER; search := BFTW_BFS; mindepth := 0; maxdepth := INT_MAX; optlevel := 3;
       threads := if (8 <? nproc w)%Z then 8%Z else nproc w;
       debug := 0; xargs_safe := false; ignore_races := false; ignore_errors := false;
       unique := false; status := false;
       warn := if posix_env w then false else stdin_tty w;
       posixly_correct := posix_env w;
       interactive := stdin_tty w && stderr_tty w; dangerous := false;
       cout_colors := cfwrap_colors initial_color (stdout_tty w);
       cerr_colors := cfwrap_colors initial_color (stderr_tty w) |}.
  Definition init : parser :=
    {| context := init_ctx; regex := BFS_REGEX_POSIX_BASIC; use := initial_color;
       depth_expr := false; prune_expr := false; mount_expr := false; xdev_expr := false; log := [] |}.

  (** [strchr(a, c) + 1] *)
  Fixpoint after_flag (c : byte) (a : arg) : arg :=
    match a with
    | [] => []
    | d :: a' => if Byte.eqb d c then a' else after_flag c a'
    end.
  (** 646-663: the value of a prefix flag, attached or not *)
  Definition prefix_value (flag : byte) (args : list arg) : arg :=
    match after_flag flag (hd [] args) with
    | [] => nth 1 args []
    | suffix => suffix
    end.
  (** The only argument of an option *)
  Definition value (args : list arg) : arg := nth 1 args [].

  (** src/diag.c 46-69 *)
  Definition debug_names : list (arg * N) :=
    [(b "cost", 1%N); (b "exec", 2%N); (b "opt", 4%N); (b "rates", 8%N); (b "search", 16%N); (b "stat", 32%N); (b "tree", 64%N)].
  Definition DEBUG_ALL : N := 127.

  (** [strcspn(s, ",")] *)
  Fixpoint cspn (s : arg) : nat :=
    match s with
    | [] => 0
    | c :: s' => if Byte.eqb c ","%byte then 0 else S (cspn s')
    end.
  (** 820-861.  [fuel] bounds the number of flags. *)
  Fixpoint debug_loop (fuel : nat) (flag : arg) (p : parser) : result parser :=
    match fuel with
    | 0 => Rejected
    | S fuel =>
        let len := cspn flag in
        let word := firstn len flag in
        let continue p :=
          match skipn len flag with
          | [] => Ok p
          | _ :: next => debug_loop fuel next p
          end in
        if aeq word (b "help") then Info
        else if aeq word (b "all") then continue (change (set_debug DEBUG_ALL) p)
        else match find (fun e => aeq word (fst e)) debug_names with
             | Some (_, i) => continue (change (fun c => set_debug (N.lor (debug c) i) c) p)
             | None => continue (warning (b "-D") p)
             end
    end.
  Definition parse_debug (args : list arg) (p : parser) : result parser :=
    let flags := prefix_value "D"%byte args in
    debug_loop (S (length flags)) flags p.

  (** 866-886 *)
  Definition parse_optlevel (args : list arg) (p : parser) : result parser :=
    let a := prefix_value "O"%byte args in
    if aeq a (b "fast") then Ok (change (set_optlevel 4) p)
    else match parse_int (isspace w) 10 IF_INT true false a with
         | inl (n, _) =>
             let p := change (set_optlevel n) p in
             Ok (if (4 <? n)%Z then warning (b "-O") p else p)
         | inr _ => Rejected
         end.

  (** 891-900 *)
  Definition parse_follow (f : N) (p : parser) : parser :=
    change (fun c => set_flags (N.lor (N.ldiff (flags c) (N.lor BFTW_FOLLOW_ROOTS BFTW_FOLLOW_ALL)) f) c) p.

  (** 1050-1075 *)
  Definition parse_color (color : bool) (p : parser) : result parser :=
    if color then
      if negb (colors w) then Rejected
      else Ok (change (fun c => set_cerr_colors true (set_cout_colors true c)) (set_use COLOR_ALWAYS p))
    else Ok (change (fun c => set_cerr_colors false (set_cout_colors false c)) (set_use COLOR_NEVER p)).

  Definition add_flag (f : N) (p : parser) : parser :=
    change (fun c => set_flags (N.lor (flags c) f) c) p.
  (** 1192-1205 *)
  Definition parse_depth (p : parser) : parser := set_depth_expr true (add_flag BFTW_POST_ORDER p).
  (** 1176-1189 *)
  Definition parse_delete (p : parser) : parser :=
    set_depth_expr true (change (set_dangerous true) (add_flag BFTW_POST_ORDER p)).
  (** 1210-1217: with an argument that is a number, -depth is a test. *)
  Definition parse_depth_n (args : list arg) (p : parser) : parser :=
    match args with
    | [_] => parse_depth p
    | _ => p
    end.
  (** 1222-1236 *)
  Definition parse_depth_limit (is_min : bool) (args : list arg) (p : parser) : result parser :=
    match parse_int (isspace w) 10 IF_INT true false (value args) with
    | inl (n, _) => Ok (change (if is_min then set_mindepth n else set_maxdepth n) p)
    | inr _ => Rejected
    end.
  (** 1606-1625 *)
  Definition parse_jobs (args : list arg) (p : parser) : result parser :=
    match parse_int (isspace w) 10 IF_INT true false (prefix_value "j"%byte args) with
    | inl (n, _) => if (n =? 0)%Z then Rejected else Ok (change (set_threads n) p)
    | inr _ => Rejected
    end.
  (** 1672-1681, 2585-2594 *)
  Definition parse_mount (p : parser) : parser := set_mount_expr true (add_flag BFTW_SKIP_MOUNTS p).
  Definition parse_xdev (p : parser) : parser := set_xdev_expr true (add_flag BFTW_PRUNE_MOUNTS p).
  (** 2257-2300 *)
  Definition parse_regextype (args : list arg) (p : parser) : result parser :=
    let type := value args in
    let is (s : string) := aeq type (b s) in
    if is "posix-basic"%string || is "posix-minimal-basic"%string || is "ed"%string || is "sed"%string then Ok (set_regex BFS_REGEX_POSIX_BASIC p)
    else if is "posix-extended"%string then Ok (set_regex BFS_REGEX_POSIX_EXTENDED p)
    else if oniguruma w && (is "awk"%string || is "posix-awk"%string) then Ok (set_regex BFS_REGEX_AWK p)
    else if oniguruma w && is "gnu-awk"%string then Ok (set_regex BFS_REGEX_GNU_AWK p)
    else if oniguruma w && is "emacs"%string then Ok (set_regex BFS_REGEX_EMACS p)
    else if oniguruma w && is "grep"%string then Ok (set_regex BFS_REGEX_GREP p)
    else if oniguruma w && (is "egrep"%string || is "posix-egrep"%string) then Ok (set_regex BFS_REGEX_EGREP p)
    else if oniguruma w && is "findutils-default"%string then Ok (set_regex BFS_REGEX_GNU_FIND p)
    else if is "help"%string then Info
    else Rejected.
  (** 2356-2385 *)
  Definition parse_search_strategy (args : list arg) (p : parser) : result parser :=
    let a := prefix_value "S"%byte args in
    if aeq a (b "bfs") then Ok (change (set_search BFTW_BFS) p)
    else if aeq a (b "dfs") then Ok (change (set_search BFTW_DFS) p)
    else if aeq a (b "ids") then Ok (change (set_search BFTW_IDS) p)
    else if aeq a (b "eds") then Ok (change (set_search BFTW_EDS) p)
    else if aeq a (b "help") then Info
    else Rejected.

  (** 335-372, [expr_open] *)
  Definition expr_open (args : list arg) (p : parser) : parser :=
    done_ (Opened (value args) (cfwrap_colors (use p) (isatty w (value args)))) p.
  (** 2220-2226 *)
  Definition parse_regex (args : list arg) (p : parser) : parser := done_ (Compiled (value args) (regex p)) p.
  (** 377-389, [stat_arg], for 938-955 and 2331-2345 *)
  Definition stat_arg (args : list arg) (p : parser) : parser :=
    let follow := negb (N.land (flags (context p)) (N.lor BFTW_FOLLOW_ROOTS BFTW_FOLLOW_ALL) =? 0)%N in
    done_ (Examined (value args) follow) p.
  (** 3114-3115: -newer is looked up before -newerXY; 1793-1815: -newerXt takes a date. *)
  Definition parse_newerxy (args : list arg) (p : parser) : parser :=
    if aeq (hd [] args) (b "-newer") then stat_arg args p
    else if Byte.eqb (nth 7 (hd [] args) x00) "t"%byte then p
    else stat_arg args p.

  (** The entries of 3036-3159 that have to do with settings; the functions that consist of an
      assignment and [parse_nullary_flag()] or [parse_nullary_option()] (905-908, 1540-1543,
      1590-1593, 1829-1832, 1857-1866, 2249-2252, 2319-2322, 2476-2479, 2553-2556) are given in
      full. *)
  Definition table : list (string * (list arg -> parser -> result parser)) := [
    ("-Bnewer", fun a p => Ok (stat_arg a p));
    ("-D", parse_debug);
    ("-E", fun _ p => Ok (set_regex BFS_REGEX_POSIX_EXTENDED p));
    ("-H", fun _ p => Ok (parse_follow BFTW_FOLLOW_ROOTS p));
    ("-L", fun _ p => Ok (parse_follow BFTW_FOLLOW_ALL p));
    ("-O", parse_optlevel);
    ("-P", fun _ p => Ok (parse_follow 0 p));
    ("-S", parse_search_strategy);
    ("-X", fun _ p => Ok (change (set_xargs_safe true) p));
    ("-anewer", fun a p => Ok (stat_arg a p));
    ("-cnewer", fun a p => Ok (stat_arg a p));
    ("-color", fun _ p => parse_color true p);
    ("-d", fun _ p => Ok (parse_depth p));
    ("-delete", fun _ p => Ok (parse_delete p));
    ("-depth", fun a p => Ok (parse_depth_n a p));
    ("-fls", fun a p => Ok (expr_open a p));
    ("-follow", fun _ p => Ok (parse_follow BFTW_FOLLOW_ALL p));
    ("-fprint", fun a p => Ok (expr_open a p));
    ("-fprint0", fun a p => Ok (expr_open a p));
    ("-fprintf", fun a p => Ok (expr_open a p));
    ("-ignore_readdir_race", fun _ p => Ok (change (set_ignore_races true) p));
    ("-iregex", fun a p => Ok (parse_regex a p));
    ("-j", parse_jobs);
    ("-maxdepth", parse_depth_limit false);
    ("-mindepth", parse_depth_limit true);
    ("-mnewer", fun a p => Ok (stat_arg a p));
    ("-mount", fun _ p => Ok (parse_mount p));
    ("-newer", fun a p => Ok (parse_newerxy a p));
    ("-nocolor", fun _ p => parse_color false p);
    ("-noerror", fun _ p => Ok (change (set_ignore_errors true) p));
    ("-noignore_readdir_race", fun _ p => Ok (change (set_ignore_races false) p));
    ("-noleaf", fun _ p => Ok (warning (b "-noleaf") p));
    ("-nowarn", fun _ p => Ok (change (set_warn false) p));
    ("-prune", fun _ p => Ok (set_prune_expr true p));
    ("-regex", fun a p => Ok (parse_regex a p));
    ("-regextype", parse_regextype);
    ("-rm", fun _ p => Ok (parse_delete p));
    ("-s", fun _ p => Ok (add_flag BFTW_SORT p));
    ("-samefile", fun a p => Ok (stat_arg a p));
    ("-status", fun _ p => Ok (change (set_status true) p));
    ("-unique", fun _ p => Ok (change (set_unique true) p));
    ("-warn", fun _ p => Ok (change (set_warn true) p));
    ("-x", fun _ p => Ok (parse_xdev p));
    ("-xdev", fun _ p => Ok (parse_xdev p))]%string.

  Definition parse (c : call) (p : parser) : result parser :=
    match find (fun e => aeq (fst c) (b (fst e))) table with
    | Some (_, f) => f (snd c) p
    | None => Ok p
    end.

  Fixpoint parse_all (cs : list call) (p : parser) : result parser :=
    match cs with
    | [] => Ok p
    | c :: cs' => match parse c p with Ok p' => parse_all cs' p' | Rejected => Rejected | Info => Info end
    end.

  (** 3645-3666 *)
  Definition conflicts (p : parser) : result parser :=
    let p := if mount_expr p && xdev_expr p then warning (b "-xdev") p else p in
    if warn (context p) && depth_expr p && prune_expr p then
      let p := warning (b "-prune") p in
      if interactive (context p) && negb (answer w) then Rejected else Ok p
    else Ok p.

  (** 3907-3934 *)
  Definition finish (p : parser) : parser :=
    let p := match use p with COLOR_AUTO => if colors w then p else warning (b "LS_COLORS") p | _ => p end in
    if negb (N.land (flags (context p)) BFTW_FOLLOW_ALL =? 0)%N && negb (unique (context p))
    then add_flag BFTW_DETECT_CYCLES p
    else p.

  Definition setup (cs : list call) : result parser :=
    match parse_all cs init with
    | Ok p => match conflicts p with Ok p => Ok (finish p) | Rejected => Rejected | Info => Info end
    | Rejected => Rejected
    | Info => Info
    end.
End Setup.
