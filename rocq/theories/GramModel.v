(** * Parsing the command line: the expression, the excluded files and the root paths

    Models src/parse.c 397-482 and 615-760, the parse table and its lookups (3023-3254), the
    recursive descent parser (3277-3520) and [parse_whole_expr] (3592-3640).

    Allocations succeed, and [bfs] is not interactive, so an unknown argument is an error instead
    of a question (3303-3330).  What the individual primaries make of their arguments, beyond how
    many there are, is the oracle [valid]; so are the contents of the file of -files0-from.
    Warnings and messages are not modelled, and -help, -version and the like, which print and
    exit, count as rejected. *)
From Coq Require Import String List Bool Arith ZArith.
From Coq Require Import Init.Byte Strings.Byte.
From Verif Require Import NumModel ExecModel.
Import ListNotations.

Definition arg := list byte.
Definition b (s : string) : arg := list_byte_of_string s.
Definition byte_of (s : string) : byte := hd x00 (b s).
(** [strcmp(x, y) == 0] *)
Definition aeq (x y : arg) : bool := if list_eq_dec Byte.byte_eq_dec x y then true else false.

(** src/expr.h 20-40, [enum bfs_kind] *)
Inductive kind := BFS_FLAG | BFS_OPTION | BFS_TEST | BFS_ACTION | BFS_OPERATOR | BFS_PATH.

(** The expressions that the parser builds.  [Prim name args] is a primary: [name] is its name
    in the parse table, which says what it does, and [args] are the command line arguments it is
    made of.  [True], [Print] and [Hidden] have no arguments of their own (the fake ones of
    104-112).  [Excluded] is the constant that takes the place of an -exclude. *)
Inductive expr :=
| Prim (name : arg) (args : list arg)
| True_ | Print | Hidden | Excluded
| Not (e : expr)
| And (l r : expr) | Or (l r : expr) | Comma (l r : expr).

(** 73-118, [struct bfs_parser]: [done] are the arguments before [argv], and [rest] those from
    [argv] on; [roots] are [ctx->paths] and [exclude] the operands of [ctx->exclude]; [limit] is
    whether there is a [limit_expr]; [files0] is the argument of the [files0_expr]. *)
Record parser := {
  done : list arg; rest : list arg;
  roots : list arg; exclude : list expr;
  implicit_print : bool; expr_started : bool; excluding : bool;
  limit : bool; files0 : option arg }.

(** [Rejected] is an error that is reported; [Stuck] a failed assertion, a read past the end of
    the command line, or a parser that has not finished within its fuel. *)
Inductive result A := Ok (a : A) | Rejected | Stuck.
Arguments Ok {A}. Arguments Rejected {A}. Arguments Stuck {A}.

(** What the parser asks of its surroundings: [valid before name args] is whether the primary
    [name], which is made of [args] and follows the arguments [before], is accepted;
    [files0_list f] is the list in the file [f], if it can be read; [isspace] is the locale's. *)
Record env := {
  valid : list arg -> arg -> list arg -> bool;
  files0_list : arg -> option (list arg);
  isspace : byte -> bool }.

Definition set_print (x : bool) (p : parser) : parser :=
  {| done := done p; rest := rest p; roots := roots p; exclude := exclude p; implicit_print := x;
     expr_started := expr_started p; excluding := excluding p; limit := limit p; files0 := files0 p |}.
Definition set_excluding (x : bool) (p : parser) : parser :=
  {| done := done p; rest := rest p; roots := roots p; exclude := exclude p; implicit_print := implicit_print p;
     expr_started := expr_started p; excluding := x; limit := limit p; files0 := files0 p |}.
Definition set_limit (p : parser) : parser :=
  {| done := done p; rest := rest p; roots := roots p; exclude := exclude p; implicit_print := implicit_print p;
     expr_started := expr_started p; excluding := excluding p; limit := true; files0 := files0 p |}.
Definition set_files0 (f : arg) (p : parser) : parser :=
  {| done := done p; rest := rest p; roots := roots p; exclude := exclude p; implicit_print := implicit_print p;
     expr_started := expr_started p; excluding := excluding p; limit := limit p; files0 := Some f |}.
(** src/expr.c, [bfs_expr_append] on [ctx->exclude] *)
Definition add_exclude (e : expr) (p : parser) : parser :=
  {| done := done p; rest := rest p; roots := roots p; exclude := exclude p ++ [e]; implicit_print := implicit_print p;
     expr_started := expr_started p; excluding := excluding p; limit := limit p; files0 := files0 p |}.
(** 421-437 *)
Definition parse_root (a : arg) (p : parser) : parser :=
  {| done := done p; rest := rest p; roots := roots p ++ [a]; exclude := exclude p; implicit_print := implicit_print p;
     expr_started := expr_started p; excluding := excluding p; limit := limit p; files0 := files0 p |}.
(** [parser->argv = start] *)
Definition rewind (start p : parser) : parser :=
  {| done := done start; rest := rest start; roots := roots p; exclude := exclude p; implicit_print := implicit_print p;
     expr_started := expr_started p; excluding := excluding p; limit := limit p; files0 := files0 p |}.

(** 398-417.  [ctx->kinds] and [last_arg] are for messages only. *)
Definition advance (k : kind) (n : nat) (p : parser) : option parser :=
  if n <=? length (rest p) then
    Some {| done := done p ++ firstn n (rest p); rest := skipn n (rest p);
            roots := roots p; exclude := exclude p; implicit_print := implicit_print p;
            expr_started := match k with BFS_FLAG | BFS_PATH => expr_started p | _ => true end;
            excluding := excluding p; limit := limit p; files0 := files0 p |}
  else None.

(** 440-482.  [r] is [rest p]. *)
Fixpoint skip_loop (r : list arg) (p : parser) : result parser :=
  match r with
  | [] => Ok p
  | a :: r' =>
      let path :=
        if aeq a (b "(") || aeq a (b "!") then Ok p
        else if expr_started p && (aeq a (b ")") || aeq a (b ",")) then Ok p
        else match advance BFS_PATH 1 (parse_root a p) with
             | Some p' => skip_loop r' p'
             | None => Stuck
             end in
      match a with
      | "-"%byte :: _ =>
          if aeq a (b "--") then
            match advance BFS_FLAG 1 p with
            | Some p' => skip_loop r' p'
            | None => Stuck
            end
          else if negb (aeq a (b "-")) then Ok p
          else path
      | _ => path
      end
  end.
Definition skip_paths (p : parser) : result parser := skip_loop (rest p) p.

(** ** Primaries *)

(** The functions in the parse table, by how they use the command line:
    - [nullary] and [unary]: 615-641 and 668-750, [parse_nullary_flag] to [parse_unary_action]
    - [prefix_flag]: 646-663
    - [depth_n]: 1210-1217; [exec]: 1253-1263; [exit_status]: 1304-1318; [fprintf_]: 1442-1469;
      [newerxy]: 1771-1781
    - [info]: 2690-2968 and 3003-3018, [parse_help] and [parse_version] *)
Inductive parse_fn :=
| nullary (k : kind) | unary (k : kind)
| prefix_flag (flag : byte) (separate : bool)
| depth_n | exec (confirm : bool) | exit_status | fprintf_ | newerxy | info.

(** 3023-3031 *)
Record entry := { e_arg : arg; e_kind : kind; e_parse : option parse_fn; e_prefix : bool; e_needs_arg : bool }.
Definition E (s : string) (k : kind) (f : option parse_fn) (prefix needs : bool) : entry :=
  {| e_arg := b s; e_kind := k; e_parse := f; e_prefix := prefix; e_needs_arg := needs |}.

(** 3036-3159 *)
Definition parse_table : list entry := [
    E "--" BFS_FLAG None false false;
    E "--help" BFS_ACTION (Some info) false false;
    E "--version" BFS_ACTION (Some info) false false;
    E "-Bmin" BFS_TEST (Some (unary BFS_TEST)) false false;
    E "-Bnewer" BFS_TEST (Some (unary BFS_TEST)) false false;
    E "-Bsince" BFS_TEST (Some (unary BFS_TEST)) false false;
    E "-Btime" BFS_TEST (Some (unary BFS_TEST)) false false;
    E "-D" BFS_FLAG (Some (prefix_flag "D" true)) true false;
    E "-E" BFS_FLAG (Some (nullary BFS_FLAG)) false false;
    E "-H" BFS_FLAG (Some (nullary BFS_FLAG)) false false;
    E "-L" BFS_FLAG (Some (nullary BFS_FLAG)) false false;
    E "-O" BFS_FLAG (Some (prefix_flag "O" false)) true false;
    E "-P" BFS_FLAG (Some (nullary BFS_FLAG)) false false;
    E "-S" BFS_FLAG (Some (prefix_flag "S" true)) true false;
    E "-X" BFS_FLAG (Some (nullary BFS_FLAG)) false false;
    E "-a" BFS_OPERATOR None false false;
    E "-acl" BFS_TEST (Some (nullary BFS_TEST)) false false;
    E "-amin" BFS_TEST (Some (unary BFS_TEST)) false false;
    E "-and" BFS_OPERATOR None false false;
    E "-anewer" BFS_TEST (Some (unary BFS_TEST)) false false;
    E "-asince" BFS_TEST (Some (unary BFS_TEST)) false false;
    E "-atime" BFS_TEST (Some (unary BFS_TEST)) false false;
    E "-capable" BFS_TEST (Some (nullary BFS_TEST)) false false;
    E "-cmin" BFS_TEST (Some (unary BFS_TEST)) false false;
    E "-cnewer" BFS_TEST (Some (unary BFS_TEST)) false false;
    E "-color" BFS_OPTION (Some (nullary BFS_OPTION)) false false;
    E "-context" BFS_TEST (Some (unary BFS_TEST)) false false;
    E "-csince" BFS_TEST (Some (unary BFS_TEST)) false false;
    E "-ctime" BFS_TEST (Some (unary BFS_TEST)) false false;
    E "-d" BFS_FLAG (Some (nullary BFS_FLAG)) false false;
    E "-daystart" BFS_OPTION (Some (nullary BFS_OPTION)) false false;
    E "-delete" BFS_ACTION (Some (nullary BFS_ACTION)) false false;
    E "-depth" BFS_OPTION (Some depth_n) false false;
    E "-empty" BFS_TEST (Some (nullary BFS_TEST)) false false;
    E "-exclude" BFS_OPERATOR None false false;
    E "-exec" BFS_ACTION (Some (exec false)) false false;
    E "-execdir" BFS_ACTION (Some (exec false)) false false;
    E "-executable" BFS_TEST (Some (nullary BFS_TEST)) false false;
    E "-exit" BFS_ACTION (Some exit_status) false false;
    E "-f" BFS_FLAG (Some (unary BFS_FLAG)) false true;
    E "-false" BFS_TEST (Some (nullary BFS_TEST)) false false;
    E "-files0-from" BFS_OPTION (Some (unary BFS_OPTION)) false false;
    E "-flags" BFS_TEST (Some (unary BFS_TEST)) false false;
    E "-fls" BFS_ACTION (Some (unary BFS_ACTION)) false false;
    E "-follow" BFS_OPTION (Some (nullary BFS_OPTION)) false false;
    E "-fprint" BFS_ACTION (Some (unary BFS_ACTION)) false false;
    E "-fprint0" BFS_ACTION (Some (unary BFS_ACTION)) false false;
    E "-fprintf" BFS_ACTION (Some fprintf_) false false;
    E "-fstype" BFS_TEST (Some (unary BFS_TEST)) false false;
    E "-gid" BFS_TEST (Some (unary BFS_TEST)) false false;
    E "-group" BFS_TEST (Some (unary BFS_TEST)) false false;
    E "-help" BFS_ACTION (Some info) false false;
    E "-hidden" BFS_TEST (Some (nullary BFS_TEST)) false false;
    E "-ignore_readdir_race" BFS_OPTION (Some (nullary BFS_OPTION)) false false;
    E "-ilname" BFS_TEST (Some (unary BFS_TEST)) false false;
    E "-iname" BFS_TEST (Some (unary BFS_TEST)) false false;
    E "-inum" BFS_TEST (Some (unary BFS_TEST)) false false;
    E "-ipath" BFS_TEST (Some (unary BFS_TEST)) false false;
    E "-iregex" BFS_TEST (Some (unary BFS_TEST)) false false;
    E "-iwholename" BFS_TEST (Some (unary BFS_TEST)) false false;
    E "-j" BFS_FLAG (Some (prefix_flag "j" false)) true false;
    E "-limit" BFS_ACTION (Some (unary BFS_ACTION)) false false;
    E "-links" BFS_TEST (Some (unary BFS_TEST)) false false;
    E "-lname" BFS_TEST (Some (unary BFS_TEST)) false false;
    E "-ls" BFS_ACTION (Some (nullary BFS_ACTION)) false false;
    E "-maxdepth" BFS_OPTION (Some (unary BFS_OPTION)) false false;
    E "-mindepth" BFS_OPTION (Some (unary BFS_OPTION)) false false;
    E "-mmin" BFS_TEST (Some (unary BFS_TEST)) false false;
    E "-mnewer" BFS_TEST (Some (unary BFS_TEST)) false false;
    E "-mount" BFS_OPTION (Some (nullary BFS_OPTION)) false false;
    E "-msince" BFS_TEST (Some (unary BFS_TEST)) false false;
    E "-mtime" BFS_TEST (Some (unary BFS_TEST)) false false;
    E "-name" BFS_TEST (Some (unary BFS_TEST)) false false;
    E "-newer" BFS_TEST (Some (unary BFS_TEST)) false false;
    E "-newer" BFS_TEST (Some newerxy) true false;
    E "-nocolor" BFS_OPTION (Some (nullary BFS_OPTION)) false false;
    E "-noerror" BFS_OPTION (Some (nullary BFS_OPTION)) false false;
    E "-nogroup" BFS_TEST (Some (nullary BFS_TEST)) false false;
    E "-nohidden" BFS_TEST (Some (nullary BFS_OPTION)) false false;
    E "-noignore_readdir_race" BFS_OPTION (Some (nullary BFS_OPTION)) false false;
    E "-noleaf" BFS_OPTION (Some (nullary BFS_OPTION)) false false;
    E "-not" BFS_OPERATOR None false false;
    E "-nouser" BFS_TEST (Some (nullary BFS_TEST)) false false;
    E "-nowarn" BFS_OPTION (Some (nullary BFS_OPTION)) false false;
    E "-o" BFS_OPERATOR None false false;
    E "-ok" BFS_ACTION (Some (exec true)) false false;
    E "-okdir" BFS_ACTION (Some (exec true)) false false;
    E "-or" BFS_OPERATOR None false false;
    E "-path" BFS_TEST (Some (unary BFS_TEST)) false false;
    E "-perm" BFS_TEST (Some (unary BFS_TEST)) false false;
    E "-print" BFS_ACTION (Some (nullary BFS_ACTION)) false false;
    E "-print0" BFS_ACTION (Some (nullary BFS_ACTION)) false false;
    E "-printf" BFS_ACTION (Some (unary BFS_ACTION)) false false;
    E "-printx" BFS_ACTION (Some (nullary BFS_ACTION)) false false;
    E "-prune" BFS_ACTION (Some (nullary BFS_ACTION)) false false;
    E "-quit" BFS_ACTION (Some (nullary BFS_ACTION)) false false;
    E "-readable" BFS_TEST (Some (nullary BFS_TEST)) false false;
    E "-regex" BFS_TEST (Some (unary BFS_TEST)) false false;
    E "-regextype" BFS_OPTION (Some (unary BFS_OPTION)) false false;
    E "-rm" BFS_ACTION (Some (nullary BFS_ACTION)) false false;
    E "-s" BFS_FLAG (Some (nullary BFS_FLAG)) false false;
    E "-samefile" BFS_TEST (Some (unary BFS_TEST)) false false;
    E "-since" BFS_TEST (Some (unary BFS_TEST)) false false;
    E "-size" BFS_TEST (Some (unary BFS_TEST)) false false;
    E "-sparse" BFS_TEST (Some (nullary BFS_TEST)) false false;
    E "-status" BFS_OPTION (Some (nullary BFS_OPTION)) false false;
    E "-true" BFS_TEST (Some (nullary BFS_TEST)) false false;
    E "-type" BFS_TEST (Some (unary BFS_TEST)) false false;
    E "-uid" BFS_TEST (Some (unary BFS_TEST)) false false;
    E "-unique" BFS_OPTION (Some (nullary BFS_OPTION)) false false;
    E "-used" BFS_TEST (Some (unary BFS_TEST)) false false;
    E "-user" BFS_TEST (Some (unary BFS_TEST)) false false;
    E "-version" BFS_ACTION (Some info) false false;
    E "-warn" BFS_OPTION (Some (nullary BFS_OPTION)) false false;
    E "-wholename" BFS_TEST (Some (unary BFS_TEST)) false false;
    E "-writable" BFS_TEST (Some (nullary BFS_TEST)) false false;
    E "-x" BFS_FLAG (Some (nullary BFS_OPTION)) false false;
    E "-xattr" BFS_TEST (Some (nullary BFS_TEST)) false false;
    E "-xattrname" BFS_TEST (Some (unary BFS_TEST)) false false;
    E "-xdev" BFS_OPTION (Some (nullary BFS_OPTION)) false false;
    E "-xtype" BFS_TEST (Some (unary BFS_TEST)) false false
  ].

(** [strncmp(a, q, strlen(q)) == 0] *)
Definition starts_with (q a : arg) : bool := aeq (firstn (length q) a) q.

(** 3163-3176 *)
Definition matches (a : arg) (e : entry) : bool :=
  if e_prefix e then starts_with (e_arg e) a else aeq a (e_arg e).
Definition table_lookup (a : arg) : option entry := find (matches a) parse_table.

(** 3179-3188 *)
Definition is_flag (flag : byte) (e : entry) : bool :=
  match e_kind e with BFS_FLAG => true | _ => false end &&
  match e_arg e with _ :: c :: [] => Byte.eqb c flag | _ => false end.
Definition flag_lookup (flag : byte) : option entry := find (is_flag flag) parse_table.

Definition upper (c : byte) : bool :=
  (65 <=? Byte.to_nat c) && (Byte.to_nat c <=? 90).

(** 3191-3223.  [cs] are the characters from [arg[i]] on. *)
Fixpoint group_scan (has_upper needs_arg : bool) (cs : list byte) : bool :=
  match cs with
  | [] => has_upper
  | c :: cs' =>
      let has_upper := has_upper || upper c in
      if needs_arg then false
      else match flag_lookup c with
           | None => false
           | Some e =>
               match e_parse e with
               | None => false
               | Some _ =>
                   if e_prefix e then has_upper
                   else group_scan has_upper (needs_arg || e_needs_arg e) cs'
               end
           end
  end.
Definition is_flag_group (a : arg) : bool := group_scan false false (tl a).

Section Parser.
  Variable w : env.

  (** 727-736: the actions that leave the implicit -print in place *)
  Definition silent (name : arg) : bool :=
    aeq name (b "-limit") || aeq name (b "-prune") || aeq name (b "-quit").

  (** 615-618, 668-671, 696-699 and 727-740, [parse_flag], [parse_option], [parse_test] and
      [parse_action], together with what the functions in the table do after they have called
      these: 1329-1345 ([parse_f]), 1350-1364 ([parse_files0_from]), 1633-1647 ([parse_limit]) and
      1842-1850 ([parse_nohidden]). *)
  Definition effects (name : arg) (args : list arg) (p : parser) : parser :=
    if aeq name (b "-f") then parse_root (nth 1 args []) p
    else if aeq name (b "-files0-from") then set_files0 (nth 1 args []) p
    else if aeq name (b "-limit") then set_limit p
    else if aeq name (b "-nohidden") then add_exclude Hidden p
    else p.
  Definition finish (name : arg) (k : kind) (n : nat) (p : parser) : result (expr * parser) :=
    let args := firstn n (rest p) in
    match advance k n p with
    | None => Stuck
    | Some p' =>
        let action := match k with BFS_ACTION => true | _ => false end in
        if action && excluding p' then Rejected
        else
          let p' := if action && negb (silent name) then set_print false p' else p' in
          if valid w (done p) name args then Ok (Prim name args, effects name args p')
          else Rejected
    end.

  (** 624-626, 631-641, 676-691, 703-718, 745-760 *)
  Definition parse_nullary (name : arg) (k : kind) (p : parser) : result (expr * parser) := finish name k 1 p.
  Definition parse_unary (name : arg) (k : kind) (p : parser) : result (expr * parser) :=
    match rest p with
    | _ :: _ :: _ => finish name k 2 p
    | _ => Rejected
    end.

  (** [strchr(a, c) + 1]; there is a [c] in every argument this is used on. *)
  Fixpoint after_flag (c : byte) (a : arg) : option arg :=
    match a with
    | [] => None
    | d :: a' => if Byte.eqb d c then Some a' else after_flag c a'
    end.

  (** 646-663 *)
  Definition parse_prefix_flag (name : arg) (flag : byte) (separate : bool) (p : parser) : result (expr * parser) :=
    match after_flag flag (hd [] (rest p)) with
    | None => Stuck
    | Some (_ :: _) => parse_nullary name BFS_FLAG p
    | Some [] => if separate then parse_unary name BFS_FLAG p else Rejected
    end.

  Definition second (p : parser) : option arg := nth_error (rest p) 1.

  (** 1210-1217 *)
  Definition parse_depth_n (name : arg) (p : parser) : result (expr * parser) :=
    match second p with
    | Some a => if looks_like_icmp a then parse_unary name BFS_TEST p else parse_nullary name BFS_OPTION p
    | None => parse_nullary name BFS_OPTION p
    end.

  (** 1304-1318 *)
  Definition parse_exit (name : arg) (p : parser) : result (expr * parser) :=
    match second p with
    | Some a =>
        match parse_int (isspace w) 10 IF_INT true false a with
        | inl _ => finish name BFS_ACTION 2 p
        | inr _ => finish name BFS_ACTION 1 p
        end
    | None => finish name BFS_ACTION 1 p
    end.

  (** 1442-1469 *)
  Definition parse_fprintf (name : arg) (p : parser) : result (expr * parser) :=
    match rest p with
    | _ :: _ :: _ :: _ => finish name BFS_ACTION 3 p
    | _ => Rejected
    end.

  (** 1253-1263 *)
  Definition parse_exec (name : arg) (confirm : bool) (p : parser) : result (expr * parser) :=
    match exec_parse confirm (tl (rest p)) with
    | None => Rejected
    | Some (tmpl, _) => finish name BFS_ACTION (length tmpl + 2) p
    end.

  (** 1771-1781 *)
  Definition parse_newerxy (name : arg) (p : parser) : result (expr * parser) :=
    if length (hd [] (rest p)) =? 8 then parse_unary name BFS_TEST p else Rejected.

  Definition run (f : parse_fn) (name : arg) (p : parser) : result (expr * parser) :=
    match f with
    | nullary k => parse_nullary name k p
    | unary k => parse_unary name k p
    | prefix_flag c separate => parse_prefix_flag name c separate p
    | depth_n => parse_depth_n name p
    | exec confirm => parse_exec name confirm p
    | exit_status => parse_exit name p
    | fprintf_ => parse_fprintf name p
    | newerxy => parse_newerxy name p
    | info => Rejected
    end.

  (** 3226-3254.  [cs] are the characters from [arg[i]] on, [end_] is [end] as an index and [last]
      the expression of the flag before. *)
  Fixpoint group_loop (start p : parser) (end_ : nat) (cs : list byte) (last : option expr) : result (expr * parser) :=
    match cs with
    | [] =>
        match last with
        | Some e => if length (done p) =? end_ then Ok (e, p) else Stuck
        | None => Rejected
        end
    | c :: cs' =>
        match flag_lookup c with
        | None => Stuck
        | Some e =>
            match e_parse e with
            | None => Stuck
            | Some f =>
                match run f (e_arg e) (rewind start p) with
                | Ok (x, p') =>
                    let end_ := max end_ (length (done p')) in
                    if e_prefix e
                    then if length (done p') =? end_ then Ok (x, p') else Stuck
                    else group_loop start p' end_ cs' (Some x)
                | Rejected => Rejected
                | Stuck => Stuck
                end
            end
        end
    end.
  Definition parse_flag_group (p : parser) : result (expr * parser) :=
    group_loop p p (length (done p)) (tl (hd [] (rest p))) None.

  (** 3277-3338 *)
  Definition parse_primary (p : parser) : result (expr * parser) :=
    match rest p with
    | [] => Stuck
    | a :: _ =>
        match a with
        | "-"%byte :: _ =>
            match table_lookup a with
            | Some e =>
                match e_parse e with
                | Some f => run f (e_arg e) p
                | None => Rejected
                end
            | None => if is_flag_group a then parse_flag_group p else Rejected
            end
        | _ => Rejected
        end
    end.

  (** ** Operators *)

  Definition bind {A B} (r : result A) (f : A -> result B) : result B :=
    match r with Ok a => f a | Rejected => Rejected | Stuck => Stuck end.
  Definition adv (k : kind) (n : nat) (p : parser) : result parser :=
    match advance k n p with Some p' => Ok p' | None => Stuck end.

  Definition is_and (a : arg) : bool := aeq a (b "-a") || aeq a (b "-and").
  Definition is_or (a : arg) : bool := aeq a (b "-o") || aeq a (b "-or").
  Definition is_not (a : arg) : bool := aeq a (b "!") || aeq a (b "-not").

  (** 3346-3407, 3415-3449, 3456-3484 and 3490-3517 *)
  Fixpoint parse_factor (fuel : nat) (p : parser) : result (expr * parser) :=
    match fuel with
    | 0 => Stuck
    | S fuel =>
        bind (skip_paths p) (fun p =>
        match rest p with
        | [] => Rejected
        | a :: _ =>
            if aeq a (b "(") then
              bind (adv BFS_OPERATOR 1 p) (fun p =>
              bind (parse_expr fuel p) (fun '(e, p) =>
              bind (skip_paths p) (fun p =>
              match rest p with
              | [] => Rejected
              | a :: _ => if aeq a (b ")") then bind (adv BFS_OPERATOR 1 p) (fun p => Ok (e, p)) else Rejected
              end)))
            else if aeq a (b "-exclude") then
              if excluding p then Rejected
              else
                bind (adv BFS_OPERATOR 1 p) (fun p =>
                bind (parse_factor fuel (set_excluding true p)) (fun '(e, p) =>
                Ok (Excluded, add_exclude e (set_excluding false p))))
            else if is_not a then
              bind (adv BFS_OPERATOR 1 p) (fun p =>
              bind (parse_factor fuel p) (fun '(e, p) => Ok (Not e, p)))
            else parse_primary p
        end)
    end
  with parse_term (fuel : nat) (p : parser) : result (expr * parser) :=
    match fuel with
    | 0 => Stuck
    | S fuel => bind (parse_factor fuel p) (fun '(e, p) => term_loop fuel e p)
    end
  with term_loop (fuel : nat) (e : expr) (p : parser) : result (expr * parser) :=
    match fuel with
    | 0 => Stuck
    | S fuel =>
        bind (skip_paths p) (fun p =>
        match rest p with
        | [] => Ok (e, p)
        | a :: _ =>
            if is_or a || aeq a (b ",") || aeq a (b ")") then Ok (e, p)
            else
              bind (if is_and a then adv BFS_OPERATOR 1 p else Ok p) (fun p =>
              bind (parse_factor fuel p) (fun '(r, p) => term_loop fuel (And e r) p))
        end)
    end
  with parse_clause (fuel : nat) (p : parser) : result (expr * parser) :=
    match fuel with
    | 0 => Stuck
    | S fuel => bind (parse_term fuel p) (fun '(e, p) => clause_loop fuel e p)
    end
  with clause_loop (fuel : nat) (e : expr) (p : parser) : result (expr * parser) :=
    match fuel with
    | 0 => Stuck
    | S fuel =>
        bind (skip_paths p) (fun p =>
        match rest p with
        | [] => Ok (e, p)
        | a :: _ =>
            if is_or a then
              bind (adv BFS_OPERATOR 1 p) (fun p =>
              bind (parse_term fuel p) (fun '(r, p) => clause_loop fuel (Or e r) p))
            else Ok (e, p)
        end)
    end
  with parse_expr (fuel : nat) (p : parser) : result (expr * parser) :=
    match fuel with
    | 0 => Stuck
    | S fuel => bind (parse_clause fuel p) (fun '(e, p) => expr_loop fuel e p)
    end
  with expr_loop (fuel : nat) (e : expr) (p : parser) : result (expr * parser) :=
    match fuel with
    | 0 => Stuck
    | S fuel =>
        bind (skip_paths p) (fun p =>
        match rest p with
        | [] => Ok (e, p)
        | a :: _ =>
            if aeq a (b ",") then
              bind (adv BFS_OPERATOR 1 p) (fun p =>
              bind (parse_clause fuel p) (fun '(r, p) => expr_loop fuel (Comma e r) p))
            else Ok (e, p)
        end)
    end.

  (** What is left in the [struct bfs_ctx] *)
  Record cmdline := { c_expr : expr; c_exclude : list expr; c_roots : list arg }.

  (** 3898-3910, the parser before the first argument; the program's own name is not among
      [argv]. *)
  Definition init (argv : list arg) : parser :=
    {| done := []; rest := argv; roots := []; exclude := []; implicit_print := true;
       expr_started := false; excluding := false; limit := false; files0 := None |}.

  (** 3592-3640 *)
  Definition parse_cmdline (argv : list arg) : result cmdline :=
    bind (skip_paths (init argv)) (fun p =>
    bind (match rest p with
          | [] => Ok (True_, p)
          | _ :: _ => parse_expr (8 * S (length argv)) p
          end) (fun '(e, p) =>
    match rest p with
    | _ :: _ => Rejected
    | [] =>
        bind (match files0 p with
              | Some f =>
                  match roots p with
                  | _ :: _ => Rejected
                  | [] => match files0_list w f with
                          | Some l => Ok l
                          | None => Rejected
                          end
                  end
              | None => Ok (match roots p with [] => [b "."] | _ => roots p end)
              end) (fun roots =>
        if implicit_print p then
          if limit p then Rejected
          else Ok {| c_expr := And e Print; c_exclude := exclude p; c_roots := roots |}
        else Ok {| c_expr := e; c_exclude := exclude p; c_roots := roots |})
    end)).
End Parser.
