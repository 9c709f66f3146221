(** * The warnings of the optimizer (src/opt.c)

    Modelled: the warnings of the data flow pass in every round, and the one about the whole command
    line.  Left out: simplify warns that results are ignored, too (1807-1839 called from 2019, 2066 and
    2106), and the question whether to go on that follows such a warning on a terminal if the command
    line has -delete or -exec (1822-1829).  All of this happens only if ctx->warn is set. *)
From Coq Require Import List ZArith QArith Bool.
From Verif Require Import ExprModel OptModel WarnSpec.
Import ListNotations.
Local Open Scope nat_scope.

(** expr->kind == BFS_TEST, from the table of src/parse.c 3038-3160 *)
Definition is_test (l : leaf) : bool :=
  match l with
  | LDelete | LExec _ | LExecMulti _ | LPrint _ _ | LLimit _ _ | LPrune | LExit _ | LQuit => false
  | _ => true
  end.

Section Warn.
  Context {F : Type}.
  Variable fo : float_ops F.
  Variable level : nat.
  Variable udb gdb : Z -> option bool.
  Notation expr := (expr F).

  (** 616-618, is_const *)
  Definition is_const (e : expr) : bool := is_true e || is_false e.

  (** opt_warning (622-641), about a primary *)
  Definition warn (e : expr) (w : warning) : list warning := if is_const e then [] else [w].

  (** One primary: opt_ignore(opt, expr, false) and data_flow_visit (1807-1857), the transfer
      function, data_flow_leave (1761-1804).  Compare [df_finish]. *)
  Definition leaf_warnings (ign : bool) (before : df_domain) (a : annot F) (l : leaf) : list warning :=
    let e := Leaf a l in
    let w1 := if ign && is_test l then warn e Ignored else [] in
    let e := if ign && pure e then opt_const fo level false else e in
    let w2 := if df_is_bottom before then warn e Unreachable else [] in
    match df_replace fo level ign before (Leaf a l) with
    | Leaf a l =>
        let '(t, f) := transfer udb gdb before l (before, before) in
        let e := Leaf (transfer_annot fo l (t, f) a) l in
        let f := if always_true e then df_bottom else f in
        let t := if always_false e then df_bottom else t in
        let w3 := if df_is_bottom f && pure e && negb (is_true e) then warn e AlwaysTrue else [] in
        let e := if df_is_bottom f && pure e then opt_const fo level true else e in
        let w4 := if df_is_bottom t && pure e && negb (is_false e) then warn e AlwaysFalse else [] in
        w1 ++ w2 ++ w3 ++ w4
    | Node _ _ _ => w1 ++ w2
    end.

  Section Lists.
    Variable go : bool -> df_domain -> nat -> expr -> list (nat * warning).
    Variable o : op.
    Variable ign : bool.

    (** [nested.before] for the next operand: 753, 785, 814-815 *)
    Definition next (s : after) : df_domain :=
      match o with OAnd => fst s | OOr => snd s | _ => df_join (fst s) (snd s) end.

    (** The loops of visit_and, visit_or and visit_comma (732-824).  What the data flow pass finds out
        does not depend on [impure]. *)
    Fixpoint list_warnings (before : df_domain) (n : nat) (cs : list expr) : list (nat * warning) :=
      match cs with
      | [] => []
      | c :: cs' =>
          let i := child_ign o ign (is_nil cs') in
          let '(_, s, _) := data_flow fo level udb gdb i before df_bottom c in
          go i before n c ++ list_warnings (next s) (n + primaries c) cs'
      end.
  End Lists.

  (** visit_deep (840-908) with the visitor [data_flow].  Only primaries are warned about (628). *)
  Fixpoint flow_warnings (ign : bool) (before : df_domain) (n : nat) (e : expr) {struct e} : list (nat * warning) :=
    match e with
    | Leaf a l => map (pair n) (leaf_warnings ign before a l)
    | Node _ ONot cs => match cs with [] => [] | c :: _ => flow_warnings ign before n c end
    | Node _ o cs => list_warnings flow_warnings o ign before n cs
    end.

  (** 2140-2206: one round of the passes, as in [round].  nested.warn is cleared where reorder would
      run (2178-2184). *)
  Definition round_warnings (i : nat) (ign : bool) (before : df_domain) (e : expr) : list (nat * warning) :=
    let later := Nat.leb 3 level && negb (Nat.eqb i 0) in
    let e := if Nat.leb 1 level then canonicalize fo level ign e else e in
    let e := if later then reorder fo level ign e else e in
    if Nat.leb 2 level && negb later then flow_warnings ign before 0 e else [].

  Fixpoint rounds_warnings (n i : nat) (ign : bool) (before : df_domain) (e : expr) : list (nat * warning) :=
    match n with
    | O => []
    | S n' =>
        let '(e', _, _) := round fo level udb gdb i ign before df_bottom e in
        round_warnings i ign before e ++
        if is_parent e' then rounds_warnings n' (S i) ign before e' else []
    end.

  Definition optimize_warnings (ign : bool) (before : df_domain) (e : expr) : list (nat * warning) :=
    rounds_warnings 3 0 ign before (annotate fo level ign e).

  (** 2274: what is said about -exclude *)
  Definition exclude_warnings (c : ctx F) : list (nat * warning) :=
    optimize_warnings false df_top (c_exclude c).

  (** 2279-2289, [opt.before] for the expression *)
  Definition not_excluded (c : ctx F) : df_domain * df_domain :=
    let '(_, (_, xf), impure) := optimize fo level udb gdb false df_top df_bottom (c_exclude c) in
    let d := ranges xf DEPTH in
    let d := if (0 <? c_mindepth c)%Z then constrain_min d (c_mindepth c) else d in
    let d := if (c_maxdepth c <? INT_MAX)%Z then constrain_max d (c_maxdepth c) else d in
    (set_range xf DEPTH d, impure).

  (** 2291: what is said about the expression *)
  Definition expr_warnings (c : ctx F) : list (nat * warning) :=
    optimize_warnings true (fst (not_excluded c)) (c_expr c).

  (** 2296-2298: "This command won't do anything." *)
  Definition wont_do_anything (c : ctx F) : bool :=
    let '(before, impure) := not_excluded c in
    let '(_, _, impure) := optimize fo level udb gdb true before impure (c_expr c) in
    Nat.leb 2 level && df_is_bottom impure.
End Warn.
