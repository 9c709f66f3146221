(** Property theorems for whole searches: C58. *)
From Coq Require Import String List ZArith NArith QArith Bool Sorted Permutation Lia.
From Coq Require Import Init.Byte.
From Coq Require Strings.Byte.
From Verif Require Import ExprModel ExprSpec OptModel OptSpec OptRefute WalkSpec SortSpec BftwModel BftwSpec BftwFacts DeepenSpec DeepenFacts SearchModel SearchSpec SearchProofs.
Import ListNotations.
Local Open Scope nat_scope.

(** C58: a search for an expression that does not quit is complete.  What bfs does is, for each file that is
    selected according to the command line as it was given, what the expression as it was given does with that file;
    for each such file once, in the order of the expression, and with its path.  The command line that is run is
    the optimized one.  The files come in the order that -S, -s and -depth ask for.  For all trees, expressions, numbers of threads,
    schedules of the background threads, and all search strategies.
    What the optimizer is trusted with is said by [optimizable]: C06 and C07 show where it is wrong. *)
Theorem C58_search :
  forall (F : Type) (fo : float_ops F) level udb gdb u st w c xargs beh type_at info_at,
    searches fo level udb gdb u st w c xargs beh type_at info_at ->
    Forall (fun l => may_quit l = false) (leaves (c_expr c)) ->
    exists v l, bftw st w [] = Some (true, v) /\ v = flat_map (effects_of w level c beh) l /\ NoDup l /\
      (forall p, In p l <-> selected w type_at level c xargs beh p /\ does level c beh p <> []) /\
      sequence w st l.
Proof.
  exact @search_all.
Qed.
Print Assumptions C58_search.

(** C58 with -quit and -exit: the search ends with the first file that quits, and everything before that is as it
    should be; a search that is not ended is complete. *)
Theorem C58_quit :
  forall (F : Type) (fo : float_ops F) level udb gdb u st w c xargs beh type_at info_at,
    searches fo level udb gdb u st w c xargs beh type_at info_at ->
    Forall (fun l => is_limit l = false) (leaves (c_expr c)) ->
    exists ok v l, bftw st w [] = Some (ok, v) /\ v = flat_map (effects_of w level c beh) l /\ NoDup l /\
      (forall p, In p l -> selected w type_at level c xargs beh p /\ does level c beh p <> []) /\
      (if ok then forall p, (selected w type_at level c xargs beh p -> does level c beh p <> [] -> In p l) /\ (In p l -> ~ quits level c beh p)
       else exists l' p, l = l' ++ [p] /\ quits level c beh p /\ forall q, In q l' -> ~ quits level c beh q) /\
      sequence w st l.
Proof.
  exact @search_any.
Qed.
Print Assumptions C58_quit.

(** C58 with -limit: what is done with a file depends on how often the limits have been reached for the files before
    it.  The search ends with the first file for which a limit is reached, or that quits; a search that is not ended
    is complete.  Limits do not change which files are selected. *)
Theorem C58_limit :
  forall (F : Type) (fo : float_ops F) level udb gdb u st w c xargs beh type_at info_at,
    searches fo level udb gdb u st w c xargs beh type_at info_at ->
    exists ok v l, bftw st w [] = Some (ok, v) /\ v = doing w level c beh [] l /\ NoDup l /\
      (forall p, In p l -> selected w type_at level c xargs (unlimited beh) p /\ does level c (unlimited beh) p <> []) /\
      (if ok then (forall p, selected w type_at level c xargs (unlimited beh) p -> does level c (unlimited beh) p <> [] -> In p l) /\
                  (forall l1 p l2, l = l1 ++ p :: l2 -> ~ quits level c (after beh (doing w level c beh [] l1)) p)
       else exists l' p, l = l' ++ [p] /\ quits level c (after beh (doing w level c beh [] l')) p /\
                         forall l1 q l2, l' = l1 ++ q :: l2 -> ~ quits level c (after beh (doing w level c beh [] l1)) q) /\
      sequence w st l.
Proof.
  exact @search_limit.
Qed.
Print Assumptions C58_limit.

(** C58: if nothing but one -limit n can end the search, it is reached n times exactly if the search is ended, and less
    often if it is not. *)
Theorem C58_count :
  forall (F : Type) (fo : float_ops F) level udb gdb u st w c xargs beh type_at info_at id n,
    searches fo level udb gdb u st w c xargs beh type_at info_at -> (0 < n)%Z ->
    Forall (fun l => may_quit l = true -> l = LLimit id n) (leaves (c_expr c)) ->
    exists ok v, bftw st w [] = Some (ok, v) /\ if ok then (Z.of_nat (times id (map snd v)) < n)%Z else Z.of_nat (times id (map snd v)) = n.
Proof.
  exact @search_count.
Qed.
Print Assumptions C58_count.

(** C58: neither the optimization level, nor the search strategy, nor the number of threads, nor what they do first, nor
    sorting changes anything but the order. *)
Theorem C58_same :
  forall (F : Type) (fo1 fo2 : float_ops F) level1 level2 udb1 gdb1 udb2 gdb2 u1 u2 st1 st2 w1 w2 c xargs beh type_at info1 info2,
    searches fo1 level1 udb1 gdb1 u1 st1 w1 c xargs beh type_at info1 ->
    searches fo2 level2 udb2 gdb2 u2 st2 w2 c xargs beh type_at info2 ->
    same_tests level1 level2 c -> same_files w1 w2 ->
    Forall (fun l => may_quit l = false) (leaves (c_expr c)) ->
    exists v1 v2, bftw st1 w1 [] = Some (true, v1) /\ bftw st2 w2 [] = Some (true, v2) /\ Permutation v1 v2.
Proof.
  exact @search_same.
Qed.
Print Assumptions C58_same.

Module Examples.
  Definition bytes (s : string) : list byte := list_byte_of_string s.
  Definition dir s kids := WalkSpec.Node {| name := bytes s; broken := false |} kids.
  Definition plain s := dir s [].
  (** r has the file a, the directory x with the file b, the directory d, which can not be read completely, with
      the file c and the directory e, with the file f, and the directory y with the file g *)
  Definition forest :=
    [dir "r" [plain "a"; dir "x" [plain "b"]; WalkSpec.Node {| name := bytes "d"; broken := true |} [plain "c"; dir "e" [plain "f"]]; dir "y" [plain "g"]]].
  Definition type_at (p : pos) : ftype :=
    if existsb (same_pos p) [[0]; [1; 0]; [2; 0]; [1; 2; 0]; [3; 0]] then BFS_DIR else BFS_OTHER 8.
  Definition info_at (p : pos) : OptSpec.file :=
    OptSpec.mkFile (fun _ => true) false false false false false false false false
      (depth p) 0 7 1 1 0 0 (match type_at p with BFS_DIR => 3 | _ => 8 end)%N 8 (fun _ _ => false).
  (** -name x is the test 0 and -name y the test 1. *)
  Definition beh (p : pos) : behaviour :=
    mkBehaviour (fun l _ => match file_val (info_at p) l with
                            | Some v => v
                            | None => match l with
                                      | LTest TName _ 0 => same_pos p [1; 0]
                                      | LTest TName _ 1 => same_pos p [3; 0]
                                      | _ => true
                                      end
                            end) (fun _ _ => false).
  (** -exclude -name y -name x -prune -o -type f -depth -3 -print *)
  Definition files_only : expr Q := and2 (and2 (lf (LType 256)) (lf (LDepth CmpLess 3))) (pr 0).
  Definition command : ctx Q :=
    OptModel.mkCtx (lf (LTest TName true 1)) (or2 (and2 (lf (LTest TName true 0)) (lf LPrune)) files_only) 0 INT_MAX.
  Definition command2 : ctx Q := OptModel.mkCtx (lf LFalse) (and2 files_only (lf LQuit)) 0 INT_MAX.
  (** -exclude -name y -type f -print -limit n -o -name x -prune *)
  Definition command3 (n : Z) : ctx Q := OptModel.mkCtx (lf (LTest TName true 1)) (or2 (and2 (and2 (lf (LType 256)) (pr 0)) (lf (LLimit 3 n))) (and2 (lf (LTest TName true 0)) (lf LPrune))) 0 INT_MAX.
  (** d is on another file system. *)
  Definition kind (st : strategy) := match st with SBfs => BFTW_BFS | _ => BFTW_DFS end.
  Definition search_on level (st : strategy) sort post threads (mount xdev : bool) c : env (list effect) :=
    {| strat := kind st; fl_sort := sort; fl_buffer := false; fl_stat := true; fl_post_order := post; fl_recover := true; fl_skip_mounts := mount; fl_prune_mounts := xdev;
       nthreads := threads; roots := forest; callback := search_callback level (bfs_optimize qops level no_db no_db c) false post st beh;
       collate := fun _ _ => true; must_stat := fun _ => true; whiteout := fun _ => false;
       mounted := same_pos [2; 0]; look := fun _ => type_at; choose := fun n => n * 7 mod 5; junk := "?"%byte |}.

  Definition search level st sort post threads := search_on level st sort post threads false false.

  (** No file is deeper than the tree. *)
  Fixpoint height (t : tree info) : nat := let '(WalkSpec.Node _ kids) := t in S (list_max (map height kids)).
  Lemma short (w : env (list effect)) p : node_at w p <> None -> length p <= list_max (map height (roots w)).
  Proof.
    assert (G : forall p, kids_at w p = [] \/ length p + list_max (map height (kids_at w p)) <= list_max (map height (roots w))).
    { induction p0 as [|k q IH]; [right; reflexivity|]. cbn [kids_at length]. destruct (nth_error (kids_at w q) k) as [[i kids]|] eqn:E; [|left; reflexivity].
      right. destruct IH as [IH | IH]; [rewrite IH in E; destruct k; discriminate|]. apply nth_error_In in E.
      assert (H : height (WalkSpec.Node i kids) <= list_max (map height (kids_at w q))).
      { assert (X := proj1 (list_max_le (map height (kids_at w q)) _) (le_n _)). rewrite Forall_forall in X. apply X, in_map, E. }
      cbn [height] in H. lia. }
    destruct p as [|k q]; [intros Z; destruct (Z eq_refl)|]. cbn [node_at length]. intros N. destruct (G q) as [Z | Z]; [rewrite Z in N; destruct k; destruct (N eq_refl)|].
    destruct (nth_error (kids_at w q) k) as [[i kids]|] eqn:E; [|destruct (N eq_refl)]. apply nth_error_In in E.
    assert (H : height (WalkSpec.Node i kids) <= list_max (map height (kids_at w q))).
    { assert (X := proj1 (list_max_le (map height (kids_at w q)) _) (le_n _)). rewrite Forall_forall in X. apply X, in_map, E. }
    cbn [height] in H. lia.
  Qed.

  Lemma infos w p : roots w = forest -> @node_at (list effect) w p <> None ->
    wf_file (info_at p) /\ OptSpec.f_depth (info_at p) = depth p /\ about (info_at p) (beh p).
  Proof.
    intros R N. pose proof (short w p N) as L. rewrite R in L. change (list_max (map height forest)) with 4 in L.
    split; [|split; [reflexivity|intros l v h E; cbn [beh val]; rewrite E; reflexivity]].
    unfold wf_file, info_at. cbn. destruct p; [destruct (N eq_refl)|]. cbn [length depth] in *. unfold depth. cbn [length].
    repeat split; try lia. destruct (type_at _); reflexivity.
  Qed.

  Example strategies level st sort post threads mount xdev c : let w := search_on level st sort post threads mount xdev c in
    match st with SBfs => strat w = BFTW_BFS | SDfs => strat w = BFTW_DFS | _ => (forall p, node_at w p <> None -> type_at p <> BFS_ERROR) /\ distinct w end.
  Proof.
    assert (G : forall st, let w := search_on level st sort post threads mount xdev c in (forall p, node_at w p <> None -> type_at p <> BFS_ERROR) /\ distinct w).
    { intros st0 w. split; [intros p _; unfold type_at; destruct (existsb _ _); discriminate|]. apply distinct_all. vm_compute. repeat constructor; cbn; intuition discriminate. }
    destruct st; [reflexivity|reflexivity|apply G|apply G].
  Qed.
  Lemma meets_on level st sort post threads mount xdev : (xdev = true -> post = true -> st = SIds) ->
    searches qops level no_db no_db UBlocks st (search_on level st sort post threads mount xdev command) command false beh type_at info_at.
  Proof.
    intros MO. constructor; try reflexivity; try exact MO; try apply strategies; cbn; try (repeat constructor; discriminate); try (unfold INT_MAX; lia); try (repeat constructor; fail).
    - apply named_all. vm_compute. reflexivity.
    - intros p N. destruct (infos (search_on level st sort post threads mount xdev _) p eq_refl N) as (A & B & C). split; [exact A|]. split; [exact B|]. split; [exact C|]. right. cbn. repeat split; try discriminate; try (unfold int64; lia).
  Qed.
  Lemma meets level st sort post threads :
    searches qops level no_db no_db UBlocks st (search level st sort post threads command) command false beh type_at info_at.
  Proof. apply meets_on. discriminate. Qed.
  Lemma meets2 level st sort post threads :
    searches qops level no_db no_db UBlocks st (search level st sort post threads command2) command2 false beh type_at info_at.
  Proof.
    constructor; try reflexivity; try apply strategies; cbn; try (repeat constructor; discriminate); try (unfold INT_MAX; lia); try (repeat constructor; fail); try discriminate.
    - apply named_all. vm_compute. reflexivity.
    - intros p N. destruct (infos (search level st sort post threads _) p eq_refl N) as (A & B & C). split; [exact A|]. split; [exact B|]. split; [exact C|]. right. cbn. repeat split; try discriminate; try (unfold int64; lia).
  Qed.

  Lemma meets3 level st sort post threads n :
    searches qops level no_db no_db UBlocks st (search level st sort post threads (command3 n)) (command3 n) false beh type_at info_at.
  Proof.
    constructor; try reflexivity; try apply strategies; cbn; try (repeat constructor; discriminate); try (unfold INT_MAX; lia); try (repeat constructor; fail); try discriminate.
    - apply named_all. vm_compute. reflexivity.
    - intros p N. destruct (infos (search level st sort post threads _) p eq_refl N) as (A & B & C). split; [exact A|]. split; [exact B|]. split; [exact C|]. right. cbn. repeat split; try discriminate; try (unfold int64; lia).
  Qed.
  Example one_limit n : Forall (fun l => may_quit l = true -> l = LLimit 3 n) (leaves (c_expr (command3 n))).
  Proof. repeat constructor; cbn; intros Z; try discriminate; reflexivity. Qed.
  Example no_limits : Forall (fun l => is_limit l = false) (leaves (c_expr command2)).
  Proof. repeat constructor. Qed.

  Example no_quits : Forall (fun l => may_quit l = false) (leaves (c_expr command)).
  Proof. repeat constructor. Qed.
  Example levels : same_tests 0 4 command.
  Proof. right. cbn. repeat constructor. Qed.

  Definition outputs (r : option (bool * list effect)) : option (bool * list (string * leaf)) :=
    match r with Some (ok, s) => Some (ok, map (fun x => (string_of_list_byte (snd (fst x)), snd x)) s) | None => None end.

  (** The depth test becomes -maxdepth 2 at -O4. *)
  Example optimized_depths : map (fun level => c_maxdepth (bfs_optimize qops level no_db no_db command2)) [3; 4] = [2147483647; 2]%Z.
  Proof. vm_compute. reflexivity. Qed.
  (** x is pruned, y excluded, r/d/e/f too deep. *)
  Example breadth_first : outputs (bftw SBfs (search 4 SBfs true false 2 command) []) =
    Some (true, [("r/a", LPrint PFprint 0); ("r/x", LPrune); ("r/d/c", LPrint PFprint 0)])%string.
  Proof. vm_compute. reflexivity. Qed.
  Example depth_first : outputs (bftw SDfs (search 0 SDfs false true 0 command) []) =
    Some (true, [("r/a", LPrint PFprint 0); ("r/x/b", LPrint PFprint 0); ("r/x", LPrune); ("r/d/c", LPrint PFprint 0)])%string.
  Proof. vm_compute. reflexivity. Qed.
  Example iterative : outputs (bftw SIds (search 4 SIds true false 2 command) []) =
    Some (true, [("r/a", LPrint PFprint 0); ("r/x", LPrune); ("r/d/c", LPrint PFprint 0)])%string.
  Proof. vm_compute. reflexivity. Qed.
  (** Files of depth 2 first *)
  Example iterative_depth : outputs (bftw SIds (search_on 3 SIds true true 2 false true command) []) =
    Some (true, [("r/x/b", LPrint PFprint 0); ("r/a", LPrint PFprint 0); ("r/x", LPrune)])%string.
  Proof. vm_compute. reflexivity. Qed.
  Example exponential_depth : outputs (bftw SEds (search 3 SEds true true 2 command) []) =
    Some (true, [("r/a", LPrint PFprint 0); ("r/x/b", LPrint PFprint 0); ("r/d/c", LPrint PFprint 0); ("r/x", LPrune)])%string.
  Proof. vm_compute. reflexivity. Qed.
  Example mounts : outputs (bftw SBfs (search_on 4 SBfs true false 2 true false command) []) =
    Some (true, [("r/a", LPrint PFprint 0); ("r/x", LPrune)])%string.
  Proof. vm_compute. reflexivity. Qed.
  Example same_mounts level level' st st' sort sort' post threads threads' mount xdev : same_files
    (search_on level st sort post threads mount xdev command) (search_on level' st' sort' post threads' mount xdev command).
  Proof. repeat split. Qed.
  (** x is pruned, y excluded: there are three files. *)
  Example limited : outputs (bftw SBfs (search 3 SBfs true false 2 (command3 2)) []) =
    Some (false, [("r/a", LPrint PFprint 0); ("r/a", LLimit 3 2); ("r/x", LPrune); ("r/d/c", LPrint PFprint 0); ("r/d/c", LLimit 3 2)])%string.
  Proof. vm_compute. reflexivity. Qed.
  Example not_limited : outputs (bftw SIds (search 3 SIds true true 2 (command3 5)) []) =
    Some (true, [("r/d/e/f", LPrint PFprint 0); ("r/d/e/f", LLimit 3 5); ("r/x/b", LPrint PFprint 0); ("r/x/b", LLimit 3 5); ("r/d/c", LPrint PFprint 0); ("r/d/c", LLimit 3 5); ("r/a", LPrint PFprint 0); ("r/a", LLimit 3 5); ("r/x", LPrune)])%string.
  Proof. vm_compute. reflexivity. Qed.
  Example quitting : outputs (bftw SDfs (search 3 SDfs false false 1 command2) []) =
    Some (false, [("r/a", LPrint PFprint 0); ("r/a", LQuit)])%string.
  Proof. vm_compute. reflexivity. Qed.
End Examples.
