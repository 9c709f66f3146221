(** * What a search should do

    The files, which do not change, are those of [BftwSpec]: [node_at w p] is the file at [p] and
    [path_at w p] its path.  The command line is that given by the user. *)
From Coq Require Import List ZArith Bool Sorted.
From Coq Require Import Init.Byte.
From Verif Require Import ExprModel ExprSpec OptModel OptSpec SortSpec BftwModel BftwSpec DeepenSpec SearchModel.
From Verif Require CbSpec.
Import ListNotations.

(** The primaries of an expression *)
Fixpoint leaves {F} (e : expr F) : list leaf :=
  match e with Leaf _ l => [l] | Node _ _ cs => flat_map leaves cs end.

(** An action that may end the search *)
Definition may_quit (l : leaf) : bool := match l with LLimit _ _ | LExit _ | LQuit => true | _ => false end.

(** What a primary may do: delete the file, run a command for it, print something about it, skip what is below it, or end the search *)
Definition acts (l : leaf) : bool :=
  match l with
  | LDelete | LExec _ | LExecMulti _ | LPrint _ _ => true
  | LPrune => true
  | LLimit _ _ | LExit _ | LQuit => true
  | _ => false
  end.

Definition is_limit (l : leaf) : bool := match l with LLimit _ _ => true | _ => false end.

(** -limit counts over all files: how often the -limit that [id] identifies has been reached *)
Definition times (id : nat) (ls : list leaf) : nat :=
  length (filter (fun l => match l with LLimit i _ => Nat.eqb i id | _ => false end) ls).
(** The primaries for the file at [p], after [v] has been done: -limit n is reached for the nth time. *)
Definition after (beh : pos -> behaviour) (v : list effect) (p : pos) : behaviour :=
  mkBehaviour (val (beh p)) (fun l h => match l with LLimit id n => (n <=? Z.of_nat (times id (map snd v) + times id h + 1))%Z | _ => false end).
(** No -limit is reached. *)
Definition unlimited (beh : pos -> behaviour) (p : pos) : behaviour := mkBehaviour (val (beh p)) (fun _ _ => false).

Section Spec.
  Context {F U : Type}.
  Variable w : env U.
  Variable type_at : pos -> ftype.
  Variable level : nat.
  Variable c : OptModel.ctx F.
  Variable xargs : bool.
  Variable beh : pos -> behaviour.

  Definition depth (p : pos) : Z := Z.of_nat (length p) - 1.
  Definition within (p : pos) : Prop := (c_mindepth c <= depth p <= c_maxdepth c)%Z.

  (** -exclude is true for a file. *)
  Definition excluded (p : pos) : Prop := exists h q, eval level (beh p) (c_exclude c) [] = (true, h, q).
  (** -X, and the path has a character that is special to xargs. *)
  Definition unsafe (p : pos) : Prop := xargs = true /\ exists b, In b (path_at w p) /\ CbSpec.xargs_special b = true.
  (** Nothing is done with such a file, nor with what is below it. *)
  Definition dropped (p : pos) : Prop := type_at p = BFS_ERROR \/ excluded p \/ unsafe p.

  (** The actions of the expression, evaluated for the file at [p] alone, in their order *)
  Definition does (p : pos) : list leaf :=
    let '(_, h0, _) := eval level (beh p) (c_exclude c) [] in
    let '(_, h, _) := eval level (beh p) (c_expr c) h0 in
    filter acts (rev h).

  (** Its evaluation ends the search. *)
  Definition quits (p : pos) : Prop :=
    let '(_, h0, _) := eval level (beh p) (c_exclude c) [] in
    let '(_, _, q) := eval level (beh p) (c_expr c) h0 in
    q = true.

  (** With -mount (fl_skip_mounts), nothing is done with the directories that other file systems are mounted on; with
      -xdev (fl_prune_mounts), nothing with what is below them.  This is not about the paths given by the user. *)
  Definition skip (p : pos) : Prop := fl_skip_mounts w = true /\ (1 < length p)%nat /\ mounted w p = true.
  Definition other_fs (p : pos) : Prop := fl_prune_mounts w = true /\ (1 < length p)%nat /\ mounted w p = true.

  (** The search goes on below the directory at [p]: -prune has an effect without -depth only. *)
  Definition opened (p : pos) : Prop :=
    ~ dropped p /\ ~ skip p /\ ~ other_fs p /\ type_at p = BFS_DIR /\ (depth p < c_maxdepth c)%Z /\
    (fl_post_order w = false -> within p -> ~ In LPrune (does p)).

  (** The files for which the expression should be evaluated *)
  Definition selected (p : pos) : Prop :=
    node_at w p <> None /\ ~ dropped p /\ ~ skip p /\ within p /\
    (forall r q, p = r ++ q -> r <> [] -> q <> [] -> opened q).

  Definition effects_of (p : pos) : list effect := map (fun l => (p, path_at w p, l)) (does p).

  (** The order of -s, breadth- or depth-first *)
  Definition in_place (x y : pos) : Prop := if not_bfs w then dfs_before w x y else bfs_before w x y.

  (** The order of the files that something is done with *)
  Record sequence (st : strategy) (l : list pos) : Prop := {
    (** A directory comes before everything in it, or after it with -depth. *)
    q_parents : if fl_post_order w then StronglySorted (fun x y => forall r, y <> r ++ x) l else StronglySorted (fun x y => forall r, x <> r ++ y) l;
    (** -S ids: in order of depth, deeper files first with -depth *)
    q_ids : st = SIds -> StronglySorted (fun x y => if fl_post_order w then depth y <= depth x else depth x <= depth y)%Z l;
    (** -S eds: depth 0, depth 1, depths 2 and 3, depths 4 to 7, and so on *)
    q_eds : st = SEds -> fl_post_order w = false -> StronglySorted (fun x y => doublings (Z.to_nat (depth x)) <= doublings (Z.to_nat (depth y)))%nat l;
    (** -s *)
    q_sort : st = SBfs \/ st = SDfs -> fl_sort w = true -> total_preorder (collate w) -> fl_post_order w = false -> StronglySorted in_place l }.
End Spec.

(** What is done with the files at [l], in this order, after [v] has been done *)
Fixpoint doing {F U} (w : env U) (level : nat) (c : OptModel.ctx F) (beh : pos -> behaviour) (v : list effect) (l : list pos) : list effect :=
  match l with
  | [] => v
  | p :: l' => doing w level c beh (v ++ effects_of w level c (after beh v) p) l'
  end.

(** The optimizer is known to be right about an expression for a file: always at -O0 and -O1, without commas
    and for [tame] primaries at all levels (see C05 and C07). *)
Definition optimizable {F} (level : nat) (udb gdb : Z -> option bool) (f : OptSpec.file) (u : size_unit) (c : OptModel.ctx F) : Prop :=
  (level <= 1)%nat \/ (made_of (tame level udb gdb f u) (c_exclude c) /\ made_of (tame level udb gdb f u) (c_expr c)).

(** [w] is the search for the command line [c] with optimization level [level], as run by bfs. *)
Record searches {F} (fo : float_ops F) (level : nat) (udb gdb : Z -> option bool) (u : size_unit)
    (st : strategy) (w : env (list effect)) (c : OptModel.ctx F) (xargs : bool) (beh : pos -> behaviour) (type_at : pos -> ftype)
    (info_at : pos -> OptSpec.file) : Prop := {
  (** What is done with the files is what the optimized command line says. *)
  s_callback : callback w = search_callback level (bfs_optimize fo level udb gdb c) xargs (fl_post_order w) st beh;
  (** Errors do not end the search (src/ctx.c 37 sets BFTW_RECOVER).  For -S ids and -S eds, all files can be examined and
      have different paths (see C12).  Otherwise -S says what a walk is like. *)
  s_recover : fl_recover w = true;
  s_strategy : match st with
               | SBfs => strat w = BFTW_BFS
               | SDfs => strat w = BFTW_DFS
               | _ => (forall p, node_at w p <> None -> type_at p <> BFS_ERROR) /\ distinct w
               end;
  (** -xdev is not used with -depth (see C09), but for -S ids. *)
  s_mounts : fl_prune_mounts w = true -> fl_post_order w = true -> st = SIds;
  (** Directories with entries have names, and types do not change. *)
  s_named : named w;
  s_still : forall n p, look w n p = type_at p;
  (** The command line is well-formed, and -exclude has no actions. *)
  s_exclude : wf (c_exclude c);
  s_expr : wf (c_expr c);
  s_tests : Forall (fun l => acts l = false) (leaves (c_exclude c));
  s_mindepth : (0 <= c_mindepth c <= INT_MAX)%Z;
  s_maxdepth : (0 <= c_maxdepth c <= INT_MAX)%Z;
  (** The tests say what the files are like, and the optimizer is right about them. *)
  s_files : forall p, node_at w p <> None ->
    wf_file (info_at p) /\ OptSpec.f_depth (info_at p) = depth p /\ about (info_at p) (beh p) /\ optimizable level udb gdb (info_at p) u c }.

(** Two levels with the same treatment of all primaries: -O4 takes -empty and -xtype to be free of side effects. *)
Definition same_tests {F} (level1 level2 : nat) (c : OptModel.ctx F) : Prop :=
  (level1 <= 3 /\ level2 <= 3)%nat \/
  Forall (fun l => match l with LEmpty | LXtype _ => False | _ => True end) (leaves (c_exclude c) ++ leaves (c_expr c)).

(** Two searches of the same files, which may differ in the order, the threads and the schedule only *)
Definition same_files {U} (w1 w2 : env U) : Prop :=
  roots w1 = roots w2 /\ (forall p, mounted w1 p = mounted w2 p) /\ fl_post_order w1 = fl_post_order w2 /\
  fl_skip_mounts w1 = fl_skip_mounts w2 /\ fl_prune_mounts w1 = fl_prune_mounts w2.
