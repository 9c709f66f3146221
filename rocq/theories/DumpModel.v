(** * Dumping the command line: src/parse.c 3668-3816, src/diag.c 46-69 and 121-146

    The settings are those of SetupModel.v, and messages are printed by FmtModel.v. *)
From Coq Require Import String List Arith NArith ZArith Bool.
From Coq Require Import Init.Byte Strings.Byte.
From Verif Require Import QuoteModel PathModel ColModel FmtModel.
From Verif Require SetupModel.
Import ListNotations.

(** An expression, as far as it is dumped: the operators (src/expr.c 40-45) with argv[0] and their children, and others,
    as in FmtModel.v *)
Inductive node := Parent (name : list byte) (children : list node) | Leaf (e : expr).

(** src/ctx.h, [struct bfs_ctx], with what SetupModel.v leaves out *)
Record ctx := { settings : SetupModel.ctx; argv0 : list byte; paths : list (list byte); exclude : node; expression : node }.

Section Dump.
  Variable l : locale.
  Variable cs : option theme.

  (** cfprintf() on [ctx->cerr] (src/color.c 1532-1539), which adds to what has been written; fputs() and stderr are the
      same stream *)
  Definition print (format : string) (args : list value) (o : cfile) : outcome :=
    bind (cvfprintf l cs (str format) args (need_reset o)) (fun r => Printed (mkCfile (buffer o ++ buffer r) (need_reset r))).
  Definition puts (s : string) (o : cfile) : outcome := Printed (text (str s) o).
  Definition seq (f g : cfile -> outcome) (o : cfile) : outcome := bind (f o) g.
  Definition when (b : bool) (f : cfile -> outcome) : cfile -> outcome := if b then f else Printed.
  Notation "f ;; g" := (seq f g) (at level 60, right associativity).
  Definition has (x f : N) : bool := negb (N.land x f =? 0)%N.

  (** src/diag.c 46-69 *)
  Definition debug_flag_name (flag : N) : list byte :=
    match find (fun e => (snd e =? flag)%N) SetupModel.debug_names with Some (n, _) => n | None => str "???" end.

  (** src/parse.c 3668-3682 *)
  Definition bftw_strategy_name (s : SetupModel.strategy) : string :=
    match s with
    | SetupModel.BFTW_BFS => "bfs"
    | SetupModel.BFTW_DFS => "dfs"
    | SetupModel.BFTW_IDS => "ids"
    | SetupModel.BFTW_EDS => "eds"
    end.

  Section Context.
    Variable c : ctx.
    Variable flag : N.
    Let s := settings c.

    (** src/diag.c 121-124 *)
    Definition bfs_cmd : list byte := skipn (xbaseoff (argv0 c)) (argv0 c).
    (** src/diag.c 139-146 *)
    Definition bfs_debug_prefix : cfile -> outcome :=
      when (has (SetupModel.debug s) flag) (print "${bld}%s:${rs} ${cyn}-D %s${rs}: " [VStr bfs_cmd; VStr (debug_flag_name flag)]).

    (** [for (i = 0; i < n; ++i) cfprintf(ctx->cerr, s)] *)
    Fixpoint times (n : nat) (s : string) : cfile -> outcome :=
      match n with
      | 0 => Printed
      | S n => print s [] ;; times n s
      end.

    (** 3684-3719 *)
    Fixpoint dump_expr_multiline (e : node) (indent rparens : nat) : cfile -> outcome :=
      bfs_debug_prefix ;;
      times indent "  " ;;
      let close rparens := times rparens ")" ;; print "
" [] in
      match e with
      | Parent name [] => print "(${red}%s${rs}" [VStr name] ;; close (S rparens)
      | Parent name children =>
          print "(${red}%s${rs}
" [VStr name] ;;
          (fix each (children : list node) : cfile -> outcome :=
             match children with
             | [] => Printed
             | child :: next =>
                 dump_expr_multiline child (S indent) (match next with [] => S rparens | _ => 0 end) ;; each next
             end) children
      | Leaf e =>
          print (if (flag =? 8)%N then "%pE" else "%pe") [VExpr (Some e)] ;; close rparens
      end.

    (** 3759-3767.  [i] are the bits. *)
    Fixpoint dump_debug (i : list N) (debug : N) : cfile -> outcome :=
      match i with
      | [] => Printed
      | i :: more =>
          if has debug i then
            let debug' := N.lxor debug i in
            print "${bld}%s${rs}" [VStr (debug_flag_name i)] ;;
            when (negb (debug' =? 0)%N) (print "," []) ;;
            dump_debug more debug'
          else dump_debug more debug
      end.
    Definition bits : list N := [1; 2; 4; 8; 16; 32; 64]%N.

    (** 3770-3777.  The first byte is the terminator if the path is empty. *)
    Definition dump_path (path : list byte) : cfile -> outcome :=
      when (mem (hd x00 path) (str "-()!,")) (print " ${cyn}-f${rs}" []) ;;
      print " ${mag}%pq${rs}" [VStr path].
    Fixpoint dump_paths (ps : list (list byte)) : cfile -> outcome :=
      match ps with
      | [] => Printed
      | p :: ps => dump_path p ;; dump_paths ps
      end.

    (** 3728-3808 *)
    Definition dump_line : cfile -> outcome :=
      print "${ex}%s${rs}" [VStr (argv0 c)] ;;
      (if has (SetupModel.flags s) SetupModel.BFTW_FOLLOW_ALL then print " ${cyn}-L${rs}" []
       else if has (SetupModel.flags s) SetupModel.BFTW_FOLLOW_ROOTS then print " ${cyn}-H${rs}" []
       else print " ${cyn}-P${rs}" []) ;;
      when (SetupModel.xargs_safe s) (print " ${cyn}-X${rs}" []) ;;
      when (has (SetupModel.flags s) SetupModel.BFTW_SORT) (print " ${cyn}-s${rs}" []) ;;
      print " ${cyn}-j${bld}%d${rs}" [VInt (SetupModel.threads s)] ;;
      when (negb (SetupModel.optlevel s =? 3)%Z) (print " ${cyn}-O${bld}%d${rs}" [VInt (SetupModel.optlevel s)]) ;;
      print " ${cyn}-S${rs} ${bld}%s${rs}" [VStr (str (bftw_strategy_name (SetupModel.search s)))] ;;
      (if (SetupModel.debug s =? SetupModel.DEBUG_ALL)%N then print " ${cyn}-D${rs} ${bld}all${rs}" []
       else when (negb (SetupModel.debug s =? 0)%N)
              (print " ${cyn}-D${rs} " [] ;; dump_debug bits (SetupModel.debug s))) ;;
      dump_paths (paths c) ;;
      (if SetupModel.cout_colors s then print " ${blu}-color${rs}" [] else print " ${blu}-nocolor${rs}" []) ;;
      when (has (SetupModel.flags s) SetupModel.BFTW_POST_ORDER) (print " ${blu}-depth${rs}" []) ;;
      when (SetupModel.ignore_races s) (print " ${blu}-ignore_readdir_race${rs}" []) ;;
      when (negb (SetupModel.mindepth s =? 0)%Z) (print " ${blu}-mindepth${rs} ${bld}%d${rs}" [VInt (SetupModel.mindepth s)]) ;;
      when (negb (SetupModel.maxdepth s =? SetupModel.INT_MAX)%Z) (print " ${blu}-maxdepth${rs} ${bld}%d${rs}" [VInt (SetupModel.maxdepth s)]) ;;
      when (has (SetupModel.flags s) SetupModel.BFTW_SKIP_MOUNTS) (print " ${blu}-mount${rs}" []) ;;
      when (SetupModel.status s) (print " ${blu}-status${rs}" []) ;;
      when (SetupModel.unique s) (print " ${blu}-unique${rs}" []) ;;
      when (N.land (SetupModel.flags s) (N.lor SetupModel.BFTW_SKIP_MOUNTS SetupModel.BFTW_PRUNE_MOUNTS) =? SetupModel.BFTW_PRUNE_MOUNTS)%N
        (print " ${blu}-xdev${rs}" []).

    (** 3722-3816 *)
    Definition bfs_ctx_dump : cfile -> outcome :=
      if has (SetupModel.debug s) flag then
        bfs_debug_prefix ;; dump_line ;; puts "
" ;;
        bfs_debug_prefix ;; print "(${red}-exclude${rs}
" [] ;;
        dump_expr_multiline (exclude c) 1 1 ;;
        dump_expr_multiline (expression c) 0 0
      else Printed.
  End Context.
End Dump.
