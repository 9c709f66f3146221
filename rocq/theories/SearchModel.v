(** * A whole search: the file tree walk (src/bftw.c) calls eval_callback() (src/eval.c) for each
    file with the command line that bfs_optimize() (src/opt.c) has left

    This puts three models together: [BftwModel] is the walk, [CbModel.eval_file] what is done with a
    file, and [ExprModel.eval] the evaluation of an expression.  How the tests and actions behave for
    the file at [p] is given by [beh p].  -unique is not modelled here. *)
From Coq Require Import List ZArith NArith Arith Bool.
From Coq Require Import Init.Byte.
From Verif Require Import ExprModel OptModel BftwModel DeepenModel.
From Verif Require TrieModel PwModel CbModel.
Import ListNotations.

(** Something that bfs does: where the file is, its path, and the action *)
Definition effect := (pos * list byte * leaf)%type.

(** src/bftw.h 169-178, [enum bftw_strategy]: -S *)
Inductive strategy := SBfs | SDfs | SIds | SEds.
Definition is_ids (st : strategy) : bool := match st with SIds => true | _ => false end.

(** src/bftw.c 2330-2343, [bftw], with what its callback leaves.  In [w], [strat] says if a walk is breadth- or depth-first. *)
Definition bftw {U} (st : strategy) (w : env U) (u : U) : option (bool * U) :=
  match st with
  | SBfs | SDfs => match bftw_walk w u with Some (ok, s) => Some (ok, user s) | None => None end
  | SIds => match bftw_ids w u with Some (ok, s) => Some (ok, d_user (user s)) | None => None end
  | SEds => match bftw_eds w u with Some (ok, s) => Some (ok, d_user (user s)) | None => None end
  end.

(** src/eval.c 377-402, 430-445, 736-911, the primaries that are actions *)
Definition is_action (l : leaf) : bool :=
  match l with
  | LDelete | LExec _ | LExecMulti _ | LPrint _ _ | LLimit _ _ | LPrune | LExit _ | LQuit => true
  | _ => false
  end.

(** What the actions in the history leave in [state->action]: src/eval.c 441 (-exit), 889 (-limit), 900 (-prune),
    908 (-quit) *)
Fixpoint action_after (b : behaviour) (h : hist) (act : CbModel.action) : CbModel.action :=
  match h with
  | [] => act
  | l :: h' =>
      match l with
      | LPrune => CbModel.Prune
      | LExit _ | LQuit => CbModel.Stop
      | LLimit _ _ => if lim b l h' then CbModel.Stop else action_after b h' act
      | _ => action_after b h' act
      end
  end.

Definition of_visit (v : visit) : CbModel.visit := match v with BFTW_PRE => CbModel.Pre | BFTW_POST => CbModel.Post end.
Definition to_action (a : CbModel.action) : action :=
  match a with CbModel.Continue => BFTW_CONTINUE | CbModel.Prune => BFTW_PRUNE | CbModel.Stop => BFTW_STOP end.

(** src/eval.c 1085, [++expr->evaluations]: how often the -limit that [id] identifies has been evaluated *)
Definition is_evaluation (id : nat) (l : leaf) : bool := match l with LLimit i _ => Nat.eqb i id | _ => false end.
Definition evaluations (id : nat) (done : list effect) (h : hist) : Z :=
  Z.of_nat (length (filter (fun x => is_evaluation id (snd x)) done)) + Z.of_nat (length (filter (is_evaluation id) h)).

(** src/eval.c 886-894, [eval_limit]: [done] is what has been done with other files, [h] with this one. *)
Definition eval_limit (done : list effect) (l : leaf) (h : hist) : bool :=
  match l with
  | LLimit id n => let evals := (evaluations id done h + 1)%Z in (n <=? evals)%Z
  | _ => false
  end.
Definition counting (beh : pos -> behaviour) (done : list effect) (p : pos) : behaviour :=
  mkBehaviour (val (beh p)) (eval_limit done).

Section Search.
  Context {F : Type}.
  Variable level : nat.
  (** The command line: -exclude, the expression, -mindepth and -maxdepth; -X; -depth; -S *)
  Variable c : OptModel.ctx F.
  Variables xargs post : bool.
  Variable st : strategy.
  Variable beh : pos -> behaviour.

  (** The parts of [struct bfs_ctx] that eval_callback() looks at *)
  Definition cb_ctx : CbModel.ctx := CbModel.mkCtx false xargs (c_mindepth c) (c_maxdepth c) post (is_ids st).
  (** The parts of [struct BFTW] *)
  Definition cb_file (e : event) : CbModel.file :=
    CbModel.mkFile (match e_type e with BFS_ERROR => true | _ => false end)
      (match e_type e with BFS_DIR => true | _ => false end) (N.of_nat (e_depth e)) (of_visit (e_visit e)) (e_path e).

  (** src/eval.c 1508-1511: -exclude.  It has no actions (src/parse.c 730-733), so it leaves [state->action] alone. *)
  Definition run_exclude (p : pos) : bool * hist := let '(r, h, _) := eval level (beh p) (c_exclude c) [] in (r, h).
  (** 1531-1535: the expression *)
  Definition run_expr (p : pos) : hist := let '(_, h, _) := eval level (beh p) (c_expr c) (snd (run_exclude p)) in h.

  Definition cb_world (p : pos) : CbModel.world :=
    CbModel.mkWorld None (TrieModel.Allocs true (fun _ => true) true)
      (fun act => (fst (run_exclude p), act))
      (fun act => action_after (beh p) (run_expr p) act).

  (** src/eval.c 1457-1551, [eval_callback] without -unique, with what it does *)
  Definition file_callback (e : event) : action * list effect :=
    let f := cb_file e in
    if CbModel.is_error f then (BFTW_PRUNE, [])
    else
      let p := e_pos e in
      let '(o, act) := CbModel.eval_file cb_ctx f (cb_world p) in
      (to_action act,
       match o with
       | CbModel.Evaluated => map (fun l => (p, e_path e, l)) (filter is_action (rev (run_expr p)))
       | _ => []
       end).
End Search.

(** What has been done matters for -limit. *)
Definition search_callback {F} (level : nat) (c : OptModel.ctx F) (xargs post : bool) (st : strategy) (beh : pos -> behaviour)
    (done : list effect) (e : event) : action * list effect :=
  let '(act, new) := file_callback level c xargs post st (counting beh done) e in (act, done ++ new).
