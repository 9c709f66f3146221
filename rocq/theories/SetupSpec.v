(** * What the flags and options of a command line mean

    From the manual.  Of the model, only the types of calls, settings, events and surroundings are
    used, and the names of the flags that are passed to the walk. *)
From Coq Require Import String List Bool Arith ZArith NArith Permutation.
From Coq Require Import Init.Byte Strings.Byte.
From Verif Require Import NumModel NumSpec GramModel SetupModel.
Import ListNotations.
Local Open Scope string_scope.
Local Open Scope list_scope.

Definition same (x y : arg) : bool := if list_eq_dec Byte.byte_eq_dec x y then true else false.
Definition named (n : string) (c : call) : bool := same (fst c) (b n).
(** What the name of a call chooses *)
Fixpoint choice {A} (table : list (string * A)) (c : call) : option A :=
  match table with
  | [] => None
  | (n, x) :: table' => if named n c then Some x else choice table' c
  end.

(** The last one that says something prevails. *)
Fixpoint said {A} (f : call -> option A) (cs : list call) : option A :=
  match cs with
  | [] => None
  | c :: cs' => match said f cs' with Some x => Some x | None => f c end
  end.
Definition default {A} (d : A) (o : option A) : A := match o with Some x => x | None => d end.
(** Whether there is one of these *)
Definition given (names : list string) (cs : list call) : bool :=
  existsb (fun c => existsb (fun n => named n c) names) cs.

(** ** Values *)

(** The value of an option is the next argument.  That of a flag is the rest of the word, or the
    next argument if there is no rest. *)
Definition next (c : call) : arg := nth 1 (snd c) [].
Fixpoint rest_after (l : byte) (word : arg) : arg :=
  match word with
  | [] => []
  | d :: t => if Byte.eqb d l then t else rest_after l t
  end.
Definition flag_value (l : byte) (c : call) : arg :=
  match rest_after l (hd [] (snd c)) with [] => next c | v => v end.
Definition option_value (n : string) (c : call) : option arg := if named n c then Some (next c) else None.
Definition value_of_flag (n : string) (l : byte) (c : call) : option arg :=
  if named n c then Some (flag_value l c) else None.

(** A number that fits in an int and is not negative *)
Definition number (v : arg) (n : Z) : Prop := numeral 10 v n [] /\ (0 <= n <= 2 ^ 31 - 1)%Z.
(** The words between commas *)
Fixpoint words (v : arg) : list arg :=
  match v with
  | [] => [[]]
  | c :: v' =>
      if Byte.eqb c ","%byte then [] :: words v'
      else match words v' with x :: xs => (c :: x) :: xs | [] => [[c]] end
  end.

(** ** Settings *)

Inductive links := Never | Roots | Always.
Definition links_of : call -> option links :=
  choice [("-P", Never); ("-H", Roots); ("-L", Always); ("-follow", Always)].
Definition asked_links (cs : list call) : links := default Never (said links_of cs).

Definition colors_of : call -> option bool := choice [("-color", true); ("-nocolor", false)].
(** Colors are for terminals unless $NO_COLOR is set, or one of -color and -nocolor is given. *)
Definition no_color_set (w : env) : bool := match no_color w with Some (_ :: _) => true | _ => false end.
Definition asked_colors (w : env) (tty : bool) (cs : list call) : bool :=
  default (tty && colors w && negb (no_color_set w)) (said colors_of cs).

Definition warn_of : call -> option bool := choice [("-warn", true); ("-nowarn", false)].
Definition asked_warn (w : env) (cs : list call) : bool :=
  default (stdin_tty w && negb (posix_env w)) (said warn_of cs).

Definition races_of : call -> option bool :=
  choice [("-ignore_readdir_race", true); ("-noignore_readdir_race", false)].

Definition lookup {A} (table : list (string * A)) (v : arg) : option A :=
  match find (fun e => same v (b (fst e))) table with Some (_, x) => Some x | None => None end.
Definition strategies : list (string * strategy) :=
  [("bfs", BFTW_BFS); ("dfs", BFTW_DFS); ("ids", BFTW_IDS); ("eds", BFTW_EDS)].
Definition strategy_of (c : call) : option strategy :=
  if named "-S" c then lookup strategies (flag_value "S" c) else None.

Definition posix_regexes : list (string * regex_type) :=
  [("posix-basic", BFS_REGEX_POSIX_BASIC); ("posix-minimal-basic", BFS_REGEX_POSIX_BASIC);
   ("ed", BFS_REGEX_POSIX_BASIC); ("sed", BFS_REGEX_POSIX_BASIC); ("posix-extended", BFS_REGEX_POSIX_EXTENDED)].
Definition more_regexes : list (string * regex_type) :=
  [("awk", BFS_REGEX_AWK); ("posix-awk", BFS_REGEX_AWK); ("gnu-awk", BFS_REGEX_GNU_AWK); ("emacs", BFS_REGEX_EMACS);
   ("grep", BFS_REGEX_GREP); ("egrep", BFS_REGEX_EGREP); ("posix-egrep", BFS_REGEX_EGREP);
   ("findutils-default", BFS_REGEX_GNU_FIND)].
Definition regexes (w : env) := if oniguruma w then posix_regexes ++ more_regexes else posix_regexes.
Definition regex_of (w : env) (c : call) : option regex_type :=
  if named "-E" c then Some BFS_REGEX_POSIX_EXTENDED
  else if named "-regextype" c then lookup (regexes w) (next c)
  else None.
Definition asked_regex (w : env) (cs : list call) : regex_type := default BFS_REGEX_POSIX_BASIC (said (regex_of w) cs).

(** Post-order; -depth with a number is a test. *)
Definition post_order (cs : list call) : bool :=
  given ["-d"; "-delete"; "-rm"] cs || existsb (fun c => named "-depth" c && (length (snd c) =? 1)%nat) cs.

(** Whether -D mentions the flag [n] *)
Definition debugs (n : string) (cs : list call) : bool :=
  existsb (fun c => named "-D" c && existsb (fun v => same v (b n) || same v (b "all")) (words (flag_value "D" c))) cs.

Definition bit (x : bool) (f : N) : N := if x then f else 0%N.

(** [as_asked w cs c]: the settings [c] are the ones that the command line [cs] asks for. *)
Record as_asked (w : env) (cs : list call) (c : ctx) : Prop := {
  (** How to search.  Loops are looked for if links are followed, unless -unique does that. *)
  a_flags : flags c =
    (BFTW_RECOVER + bit (post_order cs) BFTW_POST_ORDER
     + match asked_links cs with Never => 0 | Roots => BFTW_FOLLOW_ROOTS | Always => BFTW_FOLLOW_ALL end
     + bit (match asked_links cs with Always => negb (given ["-unique"] cs) | _ => false end) BFTW_DETECT_CYCLES
     + bit (given ["-mount"] cs) BFTW_SKIP_MOUNTS + bit (given ["-x"; "-xdev"] cs) BFTW_PRUNE_MOUNTS
     + bit (given ["-s"] cs) BFTW_SORT)%N;
  a_search : search c = default BFTW_BFS (said strategy_of cs);
  a_mindepth : match said (option_value "-mindepth") cs with None => mindepth c = 0%Z | Some v => number v (mindepth c) end;
  a_maxdepth : match said (option_value "-maxdepth") cs with None => maxdepth c = (2 ^ 31 - 1)%Z | Some v => number v (maxdepth c) end;
  a_optlevel : match said (value_of_flag "-O" "O") cs with
               | None => optlevel c = 3%Z
               | Some v => v = b "fast" /\ optlevel c = 4%Z \/ v <> b "fast" /\ number v (optlevel c)
               end;
  a_threads : match said (value_of_flag "-j" "j") cs with None => threads c = Z.min 8 (nproc w) | Some v => number v (threads c) end;
  a_debug : debug c = (bit (debugs "cost" cs) 1 + bit (debugs "exec" cs) 2 + bit (debugs "opt" cs) 4 + bit (debugs "rates" cs) 8
                       + bit (debugs "search" cs) 16 + bit (debugs "stat" cs) 32 + bit (debugs "tree" cs) 64)%N;
  a_xargs : xargs_safe c = given ["-X"] cs;
  a_races : ignore_races c = default false (said races_of cs);
  a_errors : ignore_errors c = given ["-noerror"] cs;
  a_unique : unique c = given ["-unique"] cs;
  a_status : status c = given ["-status"] cs;
  a_warn : warn c = asked_warn w cs;
  a_posix : posixly_correct c = posix_env w;
  a_interactive : interactive c = (stdin_tty w && stderr_tty w)%bool;
  a_dangerous : dangerous c = given ["-delete"; "-rm"] cs;
  a_cout : cout_colors c = asked_colors w (stdout_tty w) cs;
  a_cerr : cerr_colors c = asked_colors w (stderr_tty w) cs }.

(** ** What is accepted *)

Definition acceptable (w : env) (c : call) : Prop :=
  (named "-D" c = true -> ~ In (b "help") (words (flag_value "D" c))) /\
  (named "-O" c = true -> flag_value "O" c = b "fast" \/ exists n, number (flag_value "O" c) n) /\
  (named "-S" c = true -> lookup strategies (flag_value "S" c) <> None) /\
  (named "-j" c = true -> exists n, number (flag_value "j" c) n /\ (0 < n)%Z) /\
  (named "-mindepth" c || named "-maxdepth" c = true -> exists n, number (next c) n)%bool /\
  (named "-regextype" c = true -> lookup (regexes w) (next c) <> None) /\
  (named "-color" c = true -> colors w = true).

(** -prune has no effect with -depth: this is asked about if there is someone to ask. *)
Definition doubtful (w : env) (cs : list call) : bool :=
  asked_warn w cs && post_order cs && given ["-prune"] cs.
Definition asks (w : env) (cs : list call) : bool := doubtful w cs && stdin_tty w && stderr_tty w.

(** ** What depends on the position *)

(** What is done for the call [c] that comes after the calls [before] *)
Definition warns (w : env) (before : list call) (n : string) : list event :=
  if asked_warn w before then [Warned (b n)] else [].
Definition unknown_debug (v : arg) : bool :=
  negb (existsb (fun n => same v (b n)) ["all"; "cost"; "exec"; "opt"; "rates"; "search"; "stat"; "tree"]).
Definition large (v : arg) : Prop := exists n, number v n /\ (4 < n)%Z.
Inductive seen (w : env) (before : list call) (c : call) : list event -> Prop :=
| s_open : given ["-fls"; "-fprint"; "-fprint0"; "-fprintf"] [c] = true ->
    seen w before c
      [Opened (next c) (colors w && isatty w (next c) && default (negb (no_color_set w)) (said colors_of before))]
| s_regex : given ["-regex"; "-iregex"] [c] = true ->
    seen w before c [Compiled (next c) (asked_regex w before)]
| s_file :
    given ["-samefile"; "-anewer"; "-Bnewer"; "-cnewer"; "-mnewer"] [c] = true \/
    named "-newer" c = true /\ (hd [] (snd c) = b "-newer" \/ nth 7 (hd [] (snd c)) x00 <> "t"%byte) ->
    seen w before c [Examined (next c) (match asked_links before with Never => false | _ => true end)]
| s_noleaf : named "-noleaf" c = true -> seen w before c (warns w before "-noleaf")
| s_debug : named "-D" c = true ->
    seen w before c (flat_map (fun v => if unknown_debug v then warns w before "-D" else []) (words (flag_value "D" c)))
| s_level : named "-O" c = true -> large (flag_value "O" c) -> seen w before c (warns w before "-O")
| s_nothing :
    given ["-fls"; "-fprint"; "-fprint0"; "-fprintf"; "-regex"; "-iregex"; "-samefile"; "-anewer"; "-Bnewer"; "-cnewer";
           "-mnewer"; "-noleaf"; "-D"] [c] = false ->
    (named "-newer" c = true -> hd [] (snd c) <> b "-newer" /\ nth 7 (hd [] (snd c)) x00 = "t"%byte) ->
    (named "-O" c = true -> ~ large (flag_value "O" c)) ->
    seen w before c [].

(** For all of them, in order *)
Inductive all_seen (w : env) : list call -> list call -> list event -> Prop :=
| n_nil before : all_seen w before [] []
| n_cons before c cs es es' :
    seen w before c es -> all_seen w (before ++ [c]) cs es' -> all_seen w before (c :: cs) (es ++ es').

(** The warnings about the command line as a whole *)
Definition concluding (w : env) (cs : list call) : list event :=
  (if given ["-mount"] cs && given ["-x"; "-xdev"] cs then warns w cs "-xdev" else []) ++
  (if doubtful w cs then [Warned (b "-prune")] else []) ++
  (if negb (colors w) && negb (no_color_set w) && match said colors_of cs with None => true | _ => false end
   then warns w cs "LS_COLORS" else []).

(** ** What does not *)

(** The flags and options that concern the same thing *)
Definition topic : call -> option string :=
  choice [("-P", "links"); ("-H", "links"); ("-L", "links"); ("-follow", "links");
          ("-color", "colors"); ("-nocolor", "colors"); ("-warn", "warnings"); ("-nowarn", "warnings");
          ("-ignore_readdir_race", "races"); ("-noignore_readdir_race", "races");
          ("-S", "strategy"); ("-O", "level"); ("-j", "threads"); ("-mindepth", "mindepth"); ("-maxdepth", "maxdepth")].
Definition about_topic (t : string) (c : call) : bool := match topic c with Some u => String.eqb t u | None => false end.

(** [ds] are the calls [cs] in another order, in which those that concern the same thing are
    still in the same order. *)
Definition rearranged (cs ds : list call) : Prop :=
  Permutation cs ds /\ forall t, filter (about_topic t) cs = filter (about_topic t) ds.
