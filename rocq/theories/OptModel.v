(** * The expression optimizer (src/opt.c)

    Every pass is modelled.  Left out: debug output and warnings, allocation
    failure, and the interactive prompt of opt_ignore (1822-1829), all of which
    either do nothing to the tree or abort the program before the search. *)
From Coq Require Import List ZArith QArith Bool.
From Verif Require Import ExprModel.
Import ListNotations.
Local Open Scope Z_scope.

(** Floating point numbers: an arbitrary type with arbitrary operations. *)
Record float_ops (F : Type) := mkFloat {
  f_lit : Q -> F;
  f_add : F -> F -> F;
  f_sub : F -> F -> F;
  f_mul : F -> F -> F;
  f_le : F -> F -> bool
}.
Arguments f_lit {F}.
Arguments f_add {F}.
Arguments f_sub {F}.
Arguments f_mul {F}.
Arguments f_le {F}.

(** ** The data flow domain *)

(** src/opt.c 58-67.  Bit 0 says that the predicate may be false, bit 1 that it
    may be true. *)
Record df_pred := mkPred { may_false : bool; may_true : bool }.

(** 70-77 *)
Definition constrain_pred (p : df_pred) (value : bool) : df_pred :=
  if value then mkPred false (may_true p) else mkPred (may_false p) false.
Definition pred_join (p q : df_pred) : df_pred :=
  mkPred (may_false p || may_false q) (may_true p || may_true q).
Definition pred_is_bottom (p : df_pred) : bool := negb (may_false p) && negb (may_true p).

(** 82-107 *)
Inductive pred_type :=
  READABLE | WRITABLE | EXECUTABLE | ACL | CAPABLE | EMPTY | HIDDEN | NOGROUP
| NOUSER | SPARSE | XATTR.
Definition all_preds :=
  [READABLE; WRITABLE; EXECUTABLE; ACL; CAPABLE; EMPTY; HIDDEN; NOGROUP; NOUSER; SPARSE; XATTR].
Scheme Equality for pred_type.

Definition LLONG_MAX : Z := 2 ^ 63 - 1.
Definition LLONG_MIN : Z := - 2 ^ 63.
Definition INT_MAX : Z := 2 ^ 31 - 1.
Definition INT_MIN : Z := - 2 ^ 31.

(** 127-132 *)
Record df_range := mkRange { rmin : Z; rmax : Z }.

(** 135-214 *)
Definition range_bottom := mkRange LLONG_MAX LLONG_MIN.
Definition range_is_bottom (r : df_range) : bool := rmax r <? rmin r.
Definition range_top := mkRange 0 LLONG_MAX.
Definition constrain_min (r : df_range) (v : Z) := mkRange (Z.max (rmin r) v) (rmax r).
Definition constrain_max (r : df_range) (v : Z) := mkRange (rmin r) (Z.min (rmax r) v).
Definition constrain_range (r : df_range) (v : Z) := constrain_max (constrain_min r v) v.
Definition range_remove (r : df_range) (v : Z) : df_range :=
  let r1 := if rmin r =? v
            then if rmin r =? LLONG_MAX then mkRange (rmin r) LLONG_MIN
                 else mkRange (rmin r + 1) (rmax r)
            else r in
  if rmax r1 =? v
  then if rmax r1 =? LLONG_MIN then mkRange LLONG_MAX (rmax r1)
       else mkRange (rmin r1) (rmax r1 - 1)
  else r1.
Definition range_join (r s : df_range) := mkRange (Z.min (rmin r) (rmin s)) (Z.max (rmax r) (rmax s)).

(** 219-234 *)
Inductive range_type := DEPTH | GID | INUM | LINKS | SIZE | UID.
Definition all_ranges := [DEPTH; GID; INUM; LINKS; SIZE; UID].
Scheme Equality for range_type.

(** 249-260; the arrays are functions of their index. *)
Record df_domain := mkDom {
  preds : pred_type -> df_pred;
  ranges : range_type -> df_range;
  types : N;
  xtypes : N
}.

Definition set_pred (d : df_domain) (t : pred_type) (p : df_pred) :=
  mkDom (fun t' => if pred_type_beq t t' then p else preds d t') (ranges d) (types d) (xtypes d).
Definition set_range (d : df_domain) (t : range_type) (r : df_range) :=
  mkDom (preds d) (fun t' => if range_type_beq t t' then r else ranges d t') (types d) (xtypes d).
Definition set_types (d : df_domain) (m : N) := mkDom (preds d) (ranges d) m (xtypes d).
Definition set_xtypes (d : df_domain) (m : N) := mkDom (preds d) (ranges d) (types d) m.

(** 263-348 *)
Definition df_bottom := mkDom (fun _ => mkPred false false) (fun _ => range_bottom) 0 0.
Definition df_is_bottom (d : df_domain) : bool :=
  existsb (fun t => range_is_bottom (ranges d t)) all_ranges
  || existsb (fun t => pred_is_bottom (preds d t)) all_preds
  || (types d =? 0)%N || (xtypes d =? 0)%N.
Definition df_top :=
  mkDom (fun _ => mkPred true true) (fun _ => range_top) (N.ones 32) (N.ones 32).
Definition df_join (d s : df_domain) :=
  mkDom (fun t => pred_join (preds d t) (preds s t))
        (fun t => range_join (ranges d t) (ranges s t))
        (N.lor (types d) (types s)) (N.lor (xtypes d) (xtypes s)).

(** src/dir.h 37-63, enum bfs_type *)
Definition BFS_BLK : N := 1.
Definition BFS_CHR : N := 2.
Definition BFS_DIR : N := 3.
Definition BFS_DOOR : N := 4.
Definition BFS_FIFO : N := 5.
Definition BFS_LNK : N := 6.
Definition BFS_REG : N := 8.
Definition BFS_SOCK : N := 9.
Definition BFS_WHT : N := 10.

Section Opt.
  Context {F : Type}.
  Variable fo : float_ops F.
  (** [opt->level] *)
  Variable level : nat.
  (** bfs_getpwuid/bfs_getgrgid for the user and group databases: whether
      there is no such entry, [None] on error. *)
  Variable nouser_db nogroup_db : Z -> option bool.

  Notation expr := (expr F).
  Notation annot := (annot F).

  Definition set_pure (p : bool) (a : annot) := mkAnnot p (a_true a) (a_false a) (a_cost a) (a_prob a).
  Definition set_true (a : annot) := mkAnnot (a_pure a) true (a_false a) (a_cost a) (f_lit fo 1).
  Definition set_false (a : annot) := mkAnnot (a_pure a) (a_true a) true (a_cost a) (f_lit fo 0).
  Definition set_prob (p : F) (a : annot) := mkAnnot (a_pure a) (a_true a) (a_false a) (a_cost a) p.

  Definition pure (e : expr) := a_pure (ann e).
  Definition always_true (e : expr) := a_true (ann e).
  Definition always_false (e : expr) := a_false (ann e).
  Definition cost (e : expr) := a_cost (ann e).
  Definition prob (e : expr) := a_prob (ann e).

  (** 644-653 (foster_children) followed by bfs_expr_append (src/expr.c 55-68) for
      each child: the node becomes impure iff some child is. *)
  Definition rebuild (a : annot) (o : op) (cs : list expr) : expr :=
    Node (set_pure (forallb pure cs) a) o cs.

  (** *** Annotation, 937-1331 *)

  (** 1157-1169, and 966-968 for -exec ... + *)
  Definition leaf_true (l : leaf) : bool :=
    match l with
    | LPrint _ _ | LLimit _ _ | LPrune | LTrue | LExit _ | LQuit | LExecMulti _ => true
    | _ => false
    end.

  (** 1180-1185 *)
  Definition leaf_false (l : leaf) : bool :=
    match l with LFalse | LExit _ | LQuit => true | _ => false end.

  Definition FAST_COST := f_lit fo 40.
  Definition FNMATCH_COST := f_lit fo 400.
  Definition STAT_COST := f_lit fo 1000.
  Definition PRINT_COST := f_lit fo 20000.

  (** 1233-1274, and 969-971 *)
  Definition leaf_cost (l : leaf) : F :=
    match l with
    | LAccess _ | LAcl | LCapable | LGid _ _ | LInum _ _ | LLinks _ _ | LNogroup | LNouser
    | LSamefile _ _ | LSize _ _ _ | LSparse | LUid _ _ | LXattr => STAT_COST
    | LTest TFlags _ _ | LTest TFstype _ _ | LTest TNewer _ _ | LTest TPerm _ _
    | LTest TTime _ _ | LTest TUsed _ _ | LTest TXattrname _ _ => STAT_COST
    | LEmpty => f_mul fo (f_lit fo 2) STAT_COST
    | LPrint _ _ => PRINT_COST
    | LLname _ _ | LTest TName _ _ | LTest TPath _ _ => FNMATCH_COST
    | LExec _ => f_lit fo 1000000
    | _ => FAST_COST
    end.

  (** 995-1026 *)
  Definition type_prob (m : N) : F :=
    fold_left (fun p (bq : N * Q) => if N.testbit m (fst bq) then f_add fo p (f_lit fo (snd bq)) else p)
      [(BFS_BLK, 721183 # 100000000000); (BFS_CHR, 499855 # 10000000000);
       (BFS_DIR, 114475 # 1000000); (BFS_DOOR, 1 # 1000000);
       (BFS_FIFO, 248684 # 100000000000); (BFS_REG, 859772 # 1000000);
       (BFS_LNK, 256816 # 10000000); (BFS_SOCK, 116881 # 10000000000);
       (BFS_WHT, 1 # 1000000)]
      (f_lit fo 0).

  (** 1277-1302, 938-951, 977-985 *)
  Definition leaf_prob (l : leaf) : F :=
    match l with
    | LAccess AccR => f_mul fo (f_lit fo 1) (f_lit fo (99 # 100))
    | LAccess AccW => f_mul fo (f_lit fo 1) (f_lit fo (8 # 10))
    | LAccess AccX => f_mul fo (f_lit fo 1) (f_lit fo (2 # 10))
    | LAcl => f_lit fo (2 # 100000)
    | LCapable => f_lit fo (2 # 1000000)
    | LEmpty | LHidden | LNogroup | LNouser | LSamefile _ _ | LXattr => f_lit fo (1 # 100)
    | LTest TXattrname _ _ => f_lit fo (1 # 100)
    | LFalse => f_lit fo 0
    | LTrue => f_lit fo 1
    | LLname lit _ | LTest TName lit _ | LTest TPath lit _ =>
        if lit then f_lit fo (1 # 10) else f_lit fo (5 # 10)
    | LType m | LXtype m => type_prob m
    | _ => f_lit fo (5 # 10)
    end.

  Definition annotate_leaf (l : leaf) : annot :=
    mkAnnot (leaf_pure level l) (leaf_true l) (leaf_false l) (leaf_cost l) (leaf_prob l).

  (** 1048-1111; a parent is in none of the tables of annotate_visit (1114-1305), which
      therefore resets the annotations before annotate_{not,and,or,comma} run.
      A negation has one child (only_child, 656-661). *)
  Definition annotate_node (o : op) (cs : list expr) : annot :=
    match o with
    | ONot =>
        match cs with
        | [] => mkAnnot false false false FAST_COST (f_lit fo (5 # 10))
        | rhs :: _ =>
            mkAnnot (pure rhs) (always_false rhs) (always_true rhs) (cost rhs)
                    (f_sub fo (f_lit fo 1) (prob rhs))
        end
    | OAnd =>
        fold_left (fun a c =>
            mkAnnot (a_pure a && pure c) (a_true a && always_true c) (a_false a || always_false c)
                    (f_add fo (a_cost a) (f_mul fo (a_prob a) (cost c)))
                    (f_mul fo (a_prob a) (prob c)))
          cs (mkAnnot true true false (f_lit fo 0) (f_lit fo 1))
    | OOr =>
        (* a_prob holds false_prob during the loop *)
        let a := fold_left (fun a c =>
            mkAnnot (a_pure a && pure c) (a_true a || always_true c) (a_false a && always_false c)
                    (f_add fo (a_cost a) (f_mul fo (a_prob a) (cost c)))
                    (f_mul fo (a_prob a) (f_sub fo (f_lit fo 1) (prob c))))
          cs (mkAnnot true false true (f_lit fo 0) (f_lit fo 1)) in
        set_prob (f_sub fo (f_lit fo 1) (a_prob a)) a
    | OComma =>
        fold_left (fun a c =>
            mkAnnot (a_pure a && pure c) (always_true c) (always_false c)
                    (f_add fo (a_cost a) (cost c)) (prob c))
          cs (mkAnnot true false false (f_lit fo 0) (f_lit fo (5 # 10)))
    end.

  (** visit_shallow(opt, expr, &annotate), 919-935 *)
  Definition annotate1 (e : expr) : expr :=
    match e with
    | Leaf _ l => Leaf (annotate_leaf l) l
    | Node _ o cs => Node (annotate_node o cs) o cs
    end.

  (** *** Visitors *)

  (** The value of [nested.ignore_result] for a child, 715-824. *)
  Definition child_ign (o : op) (ign last : bool) : bool :=
    match o with
    | ONot => ign
    | OAnd | OOr => if last then ign else false
    | OComma => if last then ign else true
    end.

  Definition is_nil {A} (l : list A) : bool := match l with [] => true | _ => false end.

  Section WalkChildren.
    Variable visit : bool -> expr -> expr.
    Variable o : op.
    Variable ign : bool.

    (** The drain_slist loops of 715-824 *)
    Fixpoint walk_children (cs : list expr) : list expr :=
      match cs with
      | [] => []
      | c :: cs' => visit (child_ign o ign (is_nil cs')) c :: walk_children cs'
      end.
  End WalkChildren.

  (** visit_deep, 840-908, for the visitors that do not look at the data flow
      state (annotate, canonicalize, reorder, simplify): children first, then
      [f], which combines the visitor's general and specific functions. *)
  Fixpoint walk (f : bool -> expr -> expr) (ign : bool) (e : expr) {struct e} : expr :=
    match e with
    | Leaf a l => f ign (Leaf a l)
    | Node a o cs => f ign (rebuild a o (walk_children (walk f) o ign cs))
    end.

  Definition annotate (ign : bool) (e : expr) : expr := walk (fun _ => annotate1) ign e.

  (** 1334-1340 *)
  Definition opt_const (value : bool) : expr :=
    let l := if value then LTrue else LFalse in Leaf (annotate_leaf l) l.

  (** 1343-1359 *)
  Definition negate_expr (e : expr) : expr :=
    match e with
    | Node _ ONot [c] => c
    | Leaf _ LTrue => opt_const false
    | Leaf _ LFalse => opt_const true
    | _ => annotate1 (Node (mkAnnot false false false (f_lit fo 0) (f_lit fo (5 # 10))) ONot [e])
    end.

  (** *** Canonicalization, 1362-1500 *)

  Definition dual (o : op) : op := match o with OAnd => OOr | OOr => OAnd | o => o end.

  (** 1362-1395 *)
  Definition sink_not_andor (a : annot) (o : op) (cs : list expr) : expr :=
    annotate1 (Node a (dual o) (map negate_expr cs)).

  Fixpoint negate_last (cs : list expr) : list expr :=
    match cs with
    | [] => []
    | [c] => [negate_expr c]
    | c :: cs' => c :: negate_last cs'
    end.

  (** 1398-1428 *)
  Definition sink_not_comma (a : annot) (cs : list expr) : expr :=
    annotate1 (Node a OComma (negate_last cs)).

  (** 1431-1447 *)
  Definition canonicalize_not (e rhs : expr) : expr :=
    match rhs with
    | Node _ ONot [c] => c
    | Node a OAnd cs => sink_not_andor a OAnd cs
    | Node a OOr cs => sink_not_andor a OOr cs
    | Node a OComma cs => sink_not_comma a cs
    | Leaf _ LTrue => opt_const false
    | Leaf _ LFalse => opt_const true
    | _ => e
    end.

  Definition op_eqb (o p : op) : bool :=
    match o, p with
    | ONot, ONot | OAnd, OAnd | OOr, OOr | OComma, OComma => true
    | _, _ => false
    end.

  (** 1450-1486 *)
  Definition flatten (o : op) (cs : list expr) : list expr :=
    flat_map (fun c => match c with
                       | Node _ o' ds => if op_eqb o' o then ds else [c]
                       | _ => [c]
                       end) cs.

  Definition canonicalize1 (ign : bool) (e : expr) : expr :=
    match e with
    | Leaf _ _ => e
    | Node a ONot cs => match cs with [rhs] => canonicalize_not e rhs | _ => e end
    | Node a o cs => annotate1 (Node a o (flatten o cs))
    end.

  Definition canonicalize (ign : bool) (e : expr) : expr := walk canonicalize1 ign e.

  (** *** Reordering, 1503-1590 *)

  (** 1503-1510 *)
  Definition expr_cost (parent : op) (lhs rhs : expr) : F :=
    let p := match parent with OOr => f_sub fo (f_lit fo 1) (prob lhs) | _ => prob lhs end in
    f_add fo (cost lhs) (f_mul fo p (cost rhs)).

  (** 1533-1552 *)
  Fixpoint merge_exprs (parent : op) (left : list expr) : list expr -> list expr :=
    match left with
    | [] => fun right => right
    | l :: left' =>
        fix inner right :=
          match right with
          | [] => left
          | r :: right' =>
              if f_le fo (expr_cost parent l r) (expr_cost parent r l)
              then l :: merge_exprs parent left' right
              else r :: inner right'
          end
    end.

  (** 1513-1553: the hare advances two steps for each element moved to the
      left half.  [fuel] bounds the recursion depth; [None] when it runs out. *)
  Fixpoint sort_exprs (fuel : nat) (parent : op) (cs : list expr) : option (list expr) :=
    match cs with
    | [] | [_] => Some cs
    | _ =>
        match fuel with
        | O => None
        | S n =>
            let k := Nat.div2 (length cs) in
            match sort_exprs n parent (firstn k cs), sort_exprs n parent (skipn k cs) with
            | Some l, Some r => Some (merge_exprs parent l r)
            | _, _ => None
            end
        end
    end.

  (** A list is sorted with a recursion depth below its length. *)
  Definition sort_block (parent : op) (cs : list expr) : list expr :=
    match sort_exprs (length cs) parent cs with Some s => s | None => [] end.

  (** 1556-1575; [block] is the current block of pure children, in order. *)
  Fixpoint reorder_blocks (parent : op) (block cs : list expr) : list expr :=
    match cs with
    | [] => sort_block parent block
    | c :: cs' =>
        if pure c then reorder_blocks parent (block ++ [c]) cs'
        else sort_block parent block ++ c :: reorder_blocks parent [] cs'
    end.

  Definition reorder1 (ign : bool) (e : expr) : expr :=
    match e with
    | Node a OAnd cs => annotate1 (Node a OAnd (reorder_blocks OAnd [] cs))
    | Node a OOr cs => annotate1 (Node a OOr (reorder_blocks OOr [] cs))
    | _ => e
    end.

  Definition reorder (ign : bool) (e : expr) : expr := walk reorder1 ign e.

  (** *** Simplification, 1929-2137 *)

  Definition is_not (e : expr) : bool := match e with Node _ ONot _ => true | _ => false end.

  (** 1939-1985 *)
  Definition lift_andor_not (a : annot) (o : op) (cs : list expr) : expr :=
    let removed := length (filter is_not cs) in
    let added := length (filter (fun c => negb (is_not c)) cs) in
    if Nat.leb removed added then annotate1 (Node a o cs)
    else negate_expr (annotate1 (Node a (dual o) (map negate_expr cs))).

  (** 1988-2003: the children before the first ignorable one.  A child is
      ignorable if it and everything after it is pure. *)
  Fixpoint before_ignorable (cs : list expr) : list expr :=
    match cs with
    | [] => []
    | c :: cs' => if forallb pure cs then [] else c :: before_ignorable cs'
    end.

  Definition strip_ignorable (ign : bool) (cs : list expr) : list expr :=
    if Nat.ltb level 2 || negb ign then cs else before_ignorable cs.

  Definition is_true (e : expr) : bool := match e with Leaf _ LTrue => true | _ => false end.
  Definition is_false (e : expr) : bool := match e with Leaf _ LFalse => true | _ => false end.

  (** The loop of simplify_and, 2013-2038 *)
  Fixpoint simplify_and_loop (cs : list expr) : list expr :=
    match cs with
    | [] => []
    | c :: cs' =>
        if is_true c then simplify_and_loop cs'
        else c :: (if always_false c then [] else simplify_and_loop cs')
    end.

  (** The loop of simplify_or, 2060-2085 *)
  Fixpoint simplify_or_loop (cs : list expr) : list expr :=
    match cs with
    | [] => []
    | c :: cs' =>
        if is_false c then simplify_or_loop cs'
        else c :: (if always_true c then [] else simplify_or_loop cs')
    end.

  (** The loop of simplify_comma, 2104-2114 *)
  Fixpoint simplify_comma_loop (cs : list expr) : list expr :=
    match cs with
    | [] => []
    | c :: cs' =>
        if Nat.leb 2 level && pure c && negb (is_nil cs') then simplify_comma_loop cs'
        else c :: simplify_comma_loop cs'
    end.

  (** 1929-1936, 2006-2123 *)
  Definition simplify1 (ign : bool) (e : expr) : expr :=
    match e with
    | Leaf _ _ => e
    | Node a ONot cs => if ign then match cs with [c] => c | _ => e end else e
    | Node a OAnd cs =>
        match simplify_and_loop (strip_ignorable ign cs) with
        | [] => opt_const true
        | [c] => c
        | cs' => lift_andor_not a OAnd cs'
        end
    | Node a OOr cs =>
        match simplify_or_loop (strip_ignorable ign cs) with
        | [] => opt_const false
        | [c] => c
        | cs' => lift_andor_not a OOr cs'
        end
    | Node a OComma cs =>
        match simplify_comma_loop cs with
        | [c] => c
        | cs' => rebuild a OComma cs'
        end
    end.

  Definition simplify (ign : bool) (e : expr) : expr := walk simplify1 ign e.

  (** *** Data flow analysis, 1593-1926 *)

  (** The pair of [opt->after_true] and [opt->after_false]. *)
  Definition after := (df_domain * df_domain)%type.

  (** 1593-1596 *)
  Definition data_flow_pred (p : pred_type) (value : bool) (s : after) : after :=
    let '(t, f) := s in
    (set_pred t p (constrain_pred (preds t p) value),
     set_pred f p (constrain_pred (preds f p) (negb value))).

  (** 1599-1622 *)
  Definition data_flow_icmp (c : int_cmp) (n : Z) (r : range_type) (s : after) : after :=
    let '(t, f) := s in
    match c with
    | CmpEqual =>
        (set_range t r (constrain_range (ranges t r) n), set_range f r (range_remove (ranges f r) n))
    | CmpLess =>
        (set_range t r (range_remove (constrain_max (ranges t r) n) n),
         set_range f r (constrain_min (ranges f r) n))
    | CmpGreater =>
        (set_range t r (range_remove (constrain_min (ranges t r) n) n),
         set_range f r (constrain_max (ranges f r) n))
    end.

  (** 1652-1663 and 1726-1737.  gid_t and uid_t are 32-bit unsigned. *)
  Definition data_flow_id (r : range_type) (p : pred_type) (db : Z -> option bool) (s : after) : after :=
    let rg := ranges (fst s) r in
    if rmin rg =? rmax rg
    then match db (rmin rg mod 2 ^ 32) with
         | Some missing => data_flow_pred p missing s
         | None => s
         end
    else s.

  Definition pow2 (n : N) : N := N.shiftl 1 n.

  (** 1639-1649; the EMPTY predicate itself is in the table at 1866 *)
  Definition data_flow_empty (before : df_domain) (s : after) : after :=
    let '(t, f) := s in
    let t := set_types t (N.land (types t) (N.lor (pow2 BFS_REG) (pow2 BFS_DIR))) in
    if (types before =? pow2 BFS_REG)%N
    then (set_range t SIZE (constrain_range (ranges t SIZE) 0),
          set_range f SIZE (range_remove (ranges f SIZE) 0))
    else (t, f).

  (** 1860-1899 and the table at 1912-1925.  -inum, -links and -size only adjust
      the probability besides the table (1666-1687, 1707-1716); that is done in
      [transfer_annot]. *)
  Definition transfer (before : df_domain) (l : leaf) (s : after) : after :=
    match l with
    | LAccess AccR => data_flow_pred READABLE true s
    | LAccess AccW => data_flow_pred WRITABLE true s
    | LAccess AccX => data_flow_pred EXECUTABLE true s
    | LAcl => data_flow_pred ACL true s
    | LCapable => data_flow_pred CAPABLE true s
    | LEmpty => data_flow_empty before (data_flow_pred EMPTY true s)
    | LHidden => data_flow_pred HIDDEN true s
    | LNogroup => data_flow_pred NOGROUP true s
    | LNouser => data_flow_pred NOUSER true s
    | LSparse => data_flow_pred SPARSE true s
    | LXattr => data_flow_pred XATTR true s
    | LDepth c n => data_flow_icmp c n DEPTH s
    | LGid c n => data_flow_id GID NOGROUP nogroup_db (data_flow_icmp c n GID s)
    | LInum c n => data_flow_icmp c n INUM s
    | LLinks c n => data_flow_icmp c n LINKS s
    | LSize _ c n => data_flow_icmp c n SIZE s
    | LUid c n => data_flow_id UID NOUSER nouser_db (data_flow_icmp c n UID s)
    | LLname _ _ =>
        let '(t, f) := s in (set_types t (N.land (types t) (pow2 BFS_LNK)), f)
    | LSamefile _ ino =>
        let '(t, f) := s in
        (set_range t INUM (constrain_range (ranges t INUM) ino),
         set_range f INUM (range_remove (ranges f INUM) ino))
    | LType m =>
        let '(t, f) := s in (set_types t (N.land (types t) m), set_types f (N.ldiff (types f) m))
    | LXtype m =>
        let '(t, f) := s in (set_xtypes t (N.land (xtypes t) m), set_xtypes f (N.ldiff (xtypes f) m))
    | _ => s
    end.

  (** 1666-1687, 1707-1716 *)
  Definition transfer_annot (l : leaf) (s : after) (a : annot) : annot :=
    let single r := rmin (ranges (fst s) r) =? rmax (ranges (fst s) r) in
    match l with
    | LInum _ _ => set_prob (f_lit fo (if single INUM then 1 # 100 else 5 # 10)) a
    | LLinks _ _ =>
        let rg := ranges (fst s) LINKS in
        set_prob (f_lit fo (if (rmin rg <=? 1) && (1 <=? rmax rg) then 99 # 100 else 5 # 10)) a
    | LSize _ _ _ => set_prob (f_lit fo (if single SIZE then 1 # 100 else 5 # 10)) a
    | _ => a
    end.

  Definition set_ann (e : expr) (a : annot) : expr :=
    match e with Leaf _ l => Leaf a l | Node _ o cs => Node a o cs end.

  (** data_flow_leave, 1761-1804 *)
  Definition df_leave (e : expr) (s : after) : expr * after :=
    let '(t, f) := s in
    let '(e, f) := if always_true e then (set_ann e (set_prob (f_lit fo 1) (ann e)), df_bottom) else (e, f) in
    let '(e, t) := if always_false e then (set_ann e (set_prob (f_lit fo 0) (ann e)), df_bottom) else (e, t) in
    let e := if df_is_bottom f
             then if negb (pure e) then set_ann e (set_true (ann e))
                  else if is_true e then e else opt_const true
             else e in
    let e := if df_is_bottom t
             then if negb (pure e) then set_ann e (set_false (ann e))
                  else if is_false e then e else opt_const false
             else e in
    (e, (t, f)).

  (** opt_ignore(opt, expr, false), 1807-1839, and the unreachability check, 1843-1857 *)
  Definition df_replace (ign : bool) (before : df_domain) (e : expr) : expr :=
    let e := if ign && pure e then opt_const false else e in
    if df_is_bottom before then opt_const false else e.

  (** data_flow_visit (1842-1902), the specific transfer function, and data_flow_leave. *)
  Definition df_finish (ign : bool) (before : df_domain) (e : expr) (s : after) : expr * after :=
    let e := df_replace ign before e in
    match e with
    | Leaf a l =>
        let s := transfer before l s in
        df_leave (Leaf (transfer_annot l s a) l) s
    | Node _ _ _ => df_leave e s
    end.

  Section FlowLoops.
    (** [visit ign before impure expr] *)
    Variable visit : bool -> df_domain -> df_domain -> expr -> expr * after * df_domain.
    Variable ign : bool.

    (** The loops of visit_and, visit_or and visit_comma (732-824).  [bef] is
        [nested.before]; [t] and [f] are the eventual after states. *)
    Fixpoint df_and (cs : list expr) (bef t f impure : df_domain)
      : list expr * after * df_domain :=
      match cs with
      | [] => ([], (t, f), impure)
      | c :: cs' =>
          let '(c, (ct, cf), impure) := visit (child_ign OAnd ign (is_nil cs')) bef impure c in
          let '(cs', s, impure) := df_and cs' ct ct (df_join f cf) impure in
          (c :: cs', s, impure)
      end.

    Fixpoint df_or (cs : list expr) (bef t f impure : df_domain)
      : list expr * after * df_domain :=
      match cs with
      | [] => ([], (t, f), impure)
      | c :: cs' =>
          let '(c, (ct, cf), impure) := visit (child_ign OOr ign (is_nil cs')) bef impure c in
          let '(cs', s, impure) := df_or cs' cf (df_join t ct) cf impure in
          (c :: cs', s, impure)
      end.

    Fixpoint df_comma (cs : list expr) (bef t f impure : df_domain)
      : list expr * after * df_domain :=
      match cs with
      | [] => ([], (t, f), impure)
      | c :: cs' =>
          let '(c, (ct, cf), impure) := visit (child_ign OComma ign (is_nil cs')) bef impure c in
          let '(cs', s, impure) := df_comma cs' (df_join ct cf) ct cf impure in
          (c :: cs', s, impure)
      end.
  End FlowLoops.

  (** visit_deep (840-908) with the visitor [data_flow] (1907-1926), visit_not
      (715-729), visit_enter (827-832) and data_flow_enter (1747-1758).  Returns the
      expression, the pair of after states, and [*opt->impure]. *)
  Fixpoint data_flow (ign : bool) (before impure : df_domain) (e : expr) {struct e}
    : expr * after * df_domain :=
    match e with
    | Leaf a l =>
        let impure := if a_pure a then impure else df_join impure before in
        let '(e, s) := df_finish ign before e (before, before) in
        (e, s, impure)
    | Node a ONot cs =>
        match cs with
        | [] => (e, (before, before), impure)
        | rhs :: _ =>
            let '(rhs, (t, f), impure) := data_flow ign before impure rhs in
            let '(e, s) := df_finish ign before (rebuild a ONot [rhs]) (f, t) in
            (e, s, impure)
        end
    | Node a OAnd cs =>
        let '(cs, s, impure) := df_and data_flow ign cs before before df_bottom impure in
        let '(e, s) := df_finish ign before (rebuild a OAnd cs) s in
        (e, s, impure)
    | Node a OOr cs =>
        let '(cs, s, impure) := df_or data_flow ign cs before df_bottom before impure in
        let '(e, s) := df_finish ign before (rebuild a OOr cs) s in
        (e, s, impure)
    | Node a OComma cs =>
        let '(cs, s, impure) := df_comma data_flow ign cs before before before impure in
        let '(e, s) := df_finish ign before (rebuild a OComma cs) s in
        (e, s, impure)
    end.

  (** *** The driver, 2140-2206 *)

  (** One round of the passes; [i] is the round's number.  The last component
      is [Some] if data_flow ran: its after states and [impure]. *)
  Definition round (i : nat) (ign : bool) (before impure : df_domain) (e : expr)
    : expr * option after * df_domain :=
    let e := if Nat.leb 1 level then canonicalize ign e else e in
    let e := if Nat.leb 3 level && negb (Nat.eqb i 0) then reorder ign e else e in
    let '(e, s, impure) :=
      if Nat.leb 2 level
      then let '(e, s, impure) := data_flow ign before impure e in (e, Some s, impure)
      else (e, None, impure) in
    let e := if Nat.leb 1 level then simplify ign e else e in
    (e, s, impure).

  (** Rounds [i], [i+1], ..., at most [n] of them. *)
  Fixpoint rounds (n i : nat) (ign : bool) (before impure0 : df_domain)
      (e : expr) (s : after) (impure : df_domain) : expr * after * df_domain :=
    match n with
    | O => (e, s, impure)
    | S n' =>
        let '(e, s', impure) := round i ign before impure0 e in
        let s := match s' with Some s' => s' | None => s end in
        if is_parent e then rounds n' (S i) ign before impure0 e s impure
        else (e, s, impure)
    end.

  Definition optimize (ign : bool) (before impure : df_domain) (e : expr)
    : expr * after * df_domain :=
    rounds 3 0 ign before impure (annotate ign e) (df_top, df_top) impure.
End Opt.

(** ** The whole optimizer *)

(** The parts of struct bfs_ctx that matter here. *)
Record ctx (F : Type) := mkCtx {
  c_exclude : expr F;
  c_expr : expr F;
  c_mindepth : Z;
  c_maxdepth : Z
}.
Arguments mkCtx {F}.
Arguments c_exclude {F}.
Arguments c_expr {F}.
Arguments c_mindepth {F}.
Arguments c_maxdepth {F}.

(** src/opt.c 2258-2322, bfs_optimize.  The choice of eager stat() calls and of the
    file descriptor limit (2324-2347) is left out. *)
Definition bfs_optimize {F} (fo : float_ops F) (level : nat)
    (nouser_db nogroup_db : Z -> option bool) (c : ctx F) : ctx F :=
  let '(exclude, (_, xf), impure) :=
    optimize fo level nouser_db nogroup_db false df_top df_bottom (c_exclude c) in
  let d := ranges xf DEPTH in
  let d := if 0 <? c_mindepth c then constrain_min d (c_mindepth c) else d in
  let d := if c_maxdepth c <? INT_MAX then constrain_max d (c_maxdepth c) else d in
  let before := set_range xf DEPTH d in
  let '(e, _, impure) :=
    optimize fo level nouser_db nogroup_db true before impure (c_expr c) in
  let mind := rmin (ranges impure DEPTH) in
  let maxd := rmax (ranges impure DEPTH) in
  let mindepth :=
    if Nat.leb 2 level && (c_mindepth c <? mind) then Z.min mind INT_MAX else c_mindepth c in
  let maxdepth :=
    if Nat.leb 4 level && (maxd <? c_maxdepth c) then Z.max maxd INT_MIN else c_maxdepth c in
  mkCtx exclude e mindepth maxdepth.

(** ** Visiting one file *)

(** src/eval.c 1508-1535, the part of eval_callback that consults the optimized
    context, for the visit in which the file is evaluated.  Returns whether
    the file is excluded (and hence pruned), the history and [state->quit].
    size_t is 64 bits. *)
Definition visit_file {F} (level : nat) (b : behaviour) (c : ctx F) (depth : Z) (h : hist)
  : bool * hist * bool :=
  let '(r, h, q) := eval level b (c_exclude c) h in
  if r then (true, h, q)
  else if ((c_mindepth c) mod 2 ^ 64 <=? depth) && (depth <=? (c_maxdepth c) mod 2 ^ 64)
       then let '(_, h, q) := eval level b (c_expr c) h in (false, h, q)
       else (false, h, q).
