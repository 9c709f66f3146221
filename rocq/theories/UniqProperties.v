(** Property theorems for -unique in whole searches (src/eval.c 1230-1252 and 1457-1551, src/bftw.c): C77, and what is wrong with it. *)
From Coq Require Import String List Arith NArith ZArith Bool Lia.
From Coq Require Import Init.Byte.
From Verif Require Import WalkSpec BftwModel BftwSpec DeepenModel DeepenSpec DeepenFacts SearchModel CbSpec UniqModel UniqSpec UniqProofs.
From Verif Require TrieModel CbModel.
Import ListNotations.

(** C77: a search with -unique evaluates the expression at most once for each file, however many names it has, with every
    strategy, with and without -depth, whatever the expression does, and also if the search ends early.
    Missing for the full property: -S ids with -depth, of which it is false (below). *)
Theorem C77_once_partial :
  forall st w omax c answers ident type_at, unique_search st w omax c answers ident type_at ->
    (st = SIds -> fl_post_order w = false) ->
    exists ok v, bftw st w start = Some (ok, v) /\ NoDup (map ident (evaluated v)).
Proof. exact unique_once. Qed.
Print Assumptions C77_once_partial.

(** C77: for directories, this holds with -S ids and -depth, too. *)
Theorem C77_directories :
  forall st w omax c answers ident type_at, unique_search st w omax c answers ident type_at ->
    exists ok v, bftw st w start = Some (ok, v) /\ NoDup (map ident (filter (fun p => is_dir (type_at p)) (evaluated v))).
Proof. exact unique_dirs. Qed.
Print Assumptions C77_directories.

(** C77: without limits, the expression is evaluated for every file that the search meets, under one of its names; with
    -depth, if the search does not end early.  (With -xdev and -depth, mount points are not evaluated: see C11.) *)
Theorem C77_some :
  forall st w omax c answers ident type_at, unique_search st w omax c answers ident type_at ->
    unlimited c answers w -> (fl_post_order w = true -> fl_prune_mounts w = false) ->
    exists ok v calls, bftw st w start = Some (ok, v) /\ plays w start calls v /\
      (fl_post_order w = false \/ ok = true ->
       forall e a, In (e, a) calls -> e_visit e = BFTW_PRE -> e_type e <> BFS_ERROR ->
       exists q, In q (evaluated v) /\ ident q = ident (e_pos e)).
Proof. exact unique_some. Qed.
Print Assumptions C77_some.

(** With -S ids -depth, both names of a file with two hard links are evaluated, although nothing went wrong. *)
Theorem C77_ids_depth_refuted : exists w omax c answers ident type_at v,
  unique_search SIds w omax c answers ident type_at /\ fl_post_order w = true /\ unlimited c answers w /\
  bftw SIds w start = Some (true, v) /\ ~ NoDup (map ident (evaluated v)).
Proof. exact twice. Qed.
Print Assumptions C77_ids_depth_refuted.

Module Examples.
  Example meets : forall st post, unique_search st (tree_for st post) 8 (search st post) answered identity typed /\
    unlimited (search st post) answered (tree_for st post).
  Proof. exact tree_meets. Qed.

  (** d holds two hard links a and b, and two directories s and t that are the same one (mounted twice), with a file x in it. *)
  Definition done (st : strategy) (post : bool) : option (bool * list string) :=
    match bftw st (tree_for st post) start with
    | Some (ok, v) => Some (ok, rev (map (fun p => string_of_list_byte (path_at (tree_for st post) p)) (evaluated v)))
    | None => None
    end.
  Local Open Scope string_scope.
  Example breadth : done SBfs false = Some (true, ["d"; "d/a"; "d/s"; "d/s/x"]).
  Proof. vm_compute. reflexivity. Qed.
  Example breadth_depth : done SBfs true = Some (true, ["d/a"; "d/s/x"; "d/s"; "d"]).
  Proof. vm_compute. reflexivity. Qed.
  Example iterative : done SIds false = Some (true, ["d"; "d/a"; "d/s"; "d/s/x"]).
  Proof. vm_compute. reflexivity. Qed.
  Example exponential_depth : done SEds true = Some (true, ["d/a"; "d/s/x"; "d/s"; "d"]).
  Proof. vm_compute. reflexivity. Qed.
  (** With -S ids -depth *)
  Example iterative_depth : done SIds true = Some (true, ["d/s/x"; "d/a"; "d/b"; "d/s"; "d"]).
  Proof. vm_compute. reflexivity. Qed.
End Examples.
