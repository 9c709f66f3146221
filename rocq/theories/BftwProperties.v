(** * The properties of file tree walks *)
From Coq Require Import List Bool Arith Lia Sorted Init.Byte NArith String.
From Verif Require Import WalkSpec PathModel PathSpec SortModel SortSpec BftwModel BftwSpec BftwProofs BftwFacts.
Import ListNotations.
Local Open Scope nat_scope.
Local Open Scope list_scope.

(** C08.  Every walk comes to an end, with nothing left allocated and whatever the oracles of the
    environment decide: which requests are answered first, which directories can be opened early.
    It fails only if the callback asks to stop or, without BFTW_RECOVER, if a directory can not be read. *)
Theorem C08_walk_ends {U} (w : env U) u : named w ->
  exists ok s, bftw_walk w u = Some (ok, s) /\ files s = [] /\ plays w u (trace s) (user s) /\
    (ok = true <-> failed s = false /\ forall x, In x (trace s) -> snd x <> BFTW_STOP) /\
    (fl_recover w = true -> ok = false -> exists x, In x (trace s) /\ snd x = BFTW_STOP).
Proof. exact (walk_runs w u). Qed.
Print Assumptions C08_walk_ends.

(** After a complete walk, every file that was reached was visited once, and no others were. *)
Theorem C08_every_file_once {U} (w : env U) u s : named w -> bftw_walk w u = Some (true, s) ->
  forall p, visited_right w p (rev (trace s)).
Proof. exact (walk_right w u s). Qed.
Print Assumptions C08_every_file_once.

(** In particular, all files are visited if directories are seen to be directories and the callback never prunes anything. *)
Theorem C08_everything {U} (w : env U) u s : named w -> bftw_walk w u = Some (true, s) -> fl_skip_mounts w = false -> fl_prune_mounts w = false ->
  (forall n p, node_at w p <> None -> kids_at w p <> [] -> look w n p = BFS_DIR) -> (forall v e, fst (callback w v e) = BFTW_CONTINUE) ->
  forall p, node_at w p <> None -> exists e rest, visits_of p (rev (trace s)) = (e, BFTW_CONTINUE) :: rest /\ e_visit e = BFTW_PRE.
Proof. exact (walk_all w u s). Qed.
Print Assumptions C08_everything.

(** C09.  All directories above a file were visited, and entered, before it, *)
Theorem C09_parents_first {U} (w : env U) u ok s : named w -> bftw_walk w u = Some (ok, s) ->
  forall later e a earlier r q, trace s = later ++ (e, a) :: earlier -> e_pos e = r ++ q -> r <> [] -> q <> [] -> entered w q earlier.
Proof. exact (walk_parents w u ok s). Qed.
Print Assumptions C09_parents_first.

(** nothing in a directory is visited after that directory's last visit, *)
Theorem C09_post_last {U} (w : env U) u ok s : named w -> bftw_walk w u = Some (ok, s) ->
  forall later e a earlier, trace s = later ++ (e, a) :: earlier -> e_visit e = BFTW_POST ->
  forall x r, In x later -> e_pos (fst x) <> r ++ e_pos e.
Proof. exact (walk_post_last w u ok s). Qed.
Print Assumptions C09_post_last.

(** and in a complete walk there is exactly one of those, with -depth, for each directory that was entered. *)
Theorem C09_post_once {U} (w : env U) u s : named w -> bftw_walk w u = Some (true, s) -> forall p,
  (entered w p (trace s) -> List.length (filter is_post (visits_of p (trace s))) = if fl_post_order w then 1 else 0) /\
  (~ entered w p (trace s) -> filter is_post (visits_of p (trace s)) = []).
Proof. exact (walk_post w u s). Qed.
Print Assumptions C09_post_once.

(** A directory on another file system is not entered with -xdev, so there is no last visit of it: bfs, which evaluates directories
    on that visit, does not evaluate it at all. *)
Theorem C09_mount_points_refuted : exists (w : env (list (list byte))) s p,
  callback w = (fun u e => (BFTW_CONTINUE, if is_dir (e_type e) && negb (is_post (e, BFTW_CONTINUE)) then u else e_path e :: u)) /\
  fl_post_order w = true /\ fl_skip_mounts w = false /\ named w /\
  bftw_walk w [] = Some (true, s) /\ visits_of p (trace s) <> [] /\ ~ In (path_at w p) (user s).
Proof. exact mount_points. Qed.
Print Assumptions C09_mount_points_refuted.

(** C10.  When sorting, the first visits of all files come in the order that defines the strategy. *)
Theorem C10_sorted {U} (w : env U) u ok s : named w -> bftw_walk w u = Some (ok, s) ->
  fl_sort w = true -> total_preorder (collate w) ->
  StronglySorted (if not_bfs w then dfs_before w else bfs_before w) (first_visits (trace s)).
Proof. exact (walk_sorted w u ok s). Qed.
Print Assumptions C10_sorted.

(** Without sorting, and with no background threads, a depth-first search is not one. *)
Theorem C10_unsorted_depth_first_refuted : exists (w : env unit) s,
  strat w = BFTW_DFS /\ nthreads w = 0 /\ fl_sort w = false /\ named w /\
  bftw_walk w tt = Some (true, s) /\ ~ depth_first (first_visits (trace s)).
Proof. exact unsorted_depth_first. Qed.
Print Assumptions C10_unsorted_depth_first_refuted.

(** C11.  Nothing below a directory is visited if the callback did not ask for it.  Everything else is, by
    [C08_every_file_once]. *)
Theorem C11_prune {U} (w : env U) u ok s : named w -> bftw_walk w u = Some (ok, s) ->
  forall e a, In (e, a) (trace s) -> e_visit e = BFTW_PRE -> e_type e <> BFS_ERROR -> ~ enters w (e, a) ->
  forall x r, In x (trace s) -> r <> [] -> e_pos (fst x) <> r ++ e_pos e.
Proof. exact (walk_prune w u ok s). Qed.
Print Assumptions C11_prune.

(** Last visits are made with -depth only, and only of directories that the callback asked to go into and that were
    entered before, however the walk ends. *)
Theorem C11_last {U} (w : env U) u ok s : named w -> bftw_walk w u = Some (ok, s) ->
  forall later e a earlier, trace s = later ++ (e, a) :: earlier -> e_visit e = BFTW_POST ->
  fl_post_order w = true /\ entered w (e_pos e) earlier.
Proof. exact (walk_last w u ok s). Qed.
Print Assumptions C11_last.

(** When the callback asks to stop, it is not called again. *)
Theorem C11_stop {U} (w : env U) u ok s : named w -> bftw_walk w u = Some (ok, s) ->
  forall later e earlier, trace s = later ++ (e, BFTW_STOP) :: earlier -> later = [].
Proof. exact (walk_stop w u ok s). Qed.
Print Assumptions C11_stop.

(** C33.  What the callback is told of paths and names is right. *)
Theorem C33_paths {U} (w : env U) u ok s : named w -> bftw_walk w u = Some (ok, s) ->
  forall e a, In (e, a) (trace s) -> event_ok w e.
Proof. exact (walk_paths w u ok s). Qed.
Print Assumptions C33_paths.

Module Examples.
  Definition bytes (s : string) : list byte := list_byte_of_string s.
  Definition dir s kids := Node {| name := bytes s; broken := false |} kids.
  Definition file s := dir s [].
  Fixpoint lex (x y : list byte) : bool :=
    match x, y with
    | [], _ => true
    | _, [] => false
    | a :: x, c :: y => if Byte.eqb a c then lex x y else N.leb (Byte.to_N a) (Byte.to_N c)
    end.
  (** The roots are z and /, and /f has a name that ends in a slash.  The callback counts its calls, and does not enter z/b. *)
  Definition forest := [dir "z" [file "y"; dir "b" [file "q"; dir "c" []]; dir "a" [file "x"; file "w"]]; dir "/" [file "e"; Node {| name := bytes "f/"; broken := true |} [file "g"]]].
  Definition walk st sort threads answer : env nat :=
    {| strat := st; fl_sort := sort; fl_buffer := false; fl_stat := true; fl_post_order := true; fl_recover := true; fl_skip_mounts := false; fl_prune_mounts := false;
       nthreads := threads; roots := forest; callback := fun u e => (answer u e, S u); collate := lex; must_stat := fun _ => true; whiteout := fun _ => false;
       mounted := fun _ => false; look := fun _ _ => BFS_DIR; choose := fun n => n * 7 mod 5; junk := "?"%byte |}.
  Definition goes (u : nat) (e : event) : action := if same_pos (e_pos e) [1; 0] then BFTW_PRUNE else BFTW_CONTINUE.
  Definition stops (u : nat) (e : event) : action := if u =? 4 then BFTW_STOP else BFTW_CONTINUE.
  Definition paths (r : option (bool * state nat)) : option (bool * list (string * visit)) :=
    match r with Some (ok, s) => Some (ok, rev (map (fun ea => (string_of_list_byte (e_path (fst ea)), e_visit (fst ea))) (trace s))) | None => None end.

  Example meets : forall st sort threads answer, named (walk st sort threads answer).
  Proof. intros. apply named_all. vm_compute. reflexivity. Qed.

  Example lex_total : total_preorder lex.
  Proof.
    assert (T : forall a b, Byte.to_N a = Byte.to_N b -> a = b). { intros a b H. apply (f_equal Byte.of_N) in H. rewrite !Byte.of_to_N in H. congruence. }
    assert (R : forall a, Byte.eqb a a = true) by (intros a; apply Byte.byte_dec_lb; reflexivity).
    assert (Y : forall a b, Byte.eqb a b = Byte.eqb b a).
    { intros a b. destruct (Byte.eqb a b) eqn:E, (Byte.eqb b a) eqn:E'; auto; [apply Byte.byte_dec_bl in E|apply Byte.byte_dec_bl in E']; subst; congruence. }
    split.
    - intros x. induction x as [|a x IH]; intros [|b y]; cbn [lex]; auto. rewrite (Y b a). destruct (Byte.eqb a b); [apply IH|]. rewrite !N.leb_le. lia.
    - intros x. induction x as [|a x IH]; intros [|b y] [|c z]; cbn [lex]; auto; try discriminate.
      destruct (Byte.eqb a b) eqn:E1; [apply Byte.byte_dec_bl in E1 as ->|].
      { destruct (Byte.eqb b c); [apply IH|auto]. }
      destruct (Byte.eqb b c) eqn:E2; [apply Byte.byte_dec_bl in E2 as ->; rewrite E1; auto|].
      intros H1 H2. apply N.leb_le in H1, H2. destruct (Byte.eqb a c) eqn:E3.
      + apply Byte.byte_dec_bl in E3 as ->. assert (Z : Byte.to_N b = Byte.to_N c) by lia. apply T in Z as ->. rewrite R in E1. discriminate.
      + apply N.leb_le. lia.
  Qed.

  Example breadth_first : paths (bftw_walk (walk BFTW_BFS true 2 goes) 0) = Some (true,
    [("/"%string, BFTW_PRE); ("z"%string, BFTW_PRE); ("/e"%string, BFTW_PRE); ("/f/"%string, BFTW_PRE); ("z/a"%string, BFTW_PRE); ("z/b"%string, BFTW_PRE); ("z/y"%string, BFTW_PRE); ("/e"%string, BFTW_POST); ("/f/"%string, BFTW_PRE); ("/f/g"%string, BFTW_PRE); ("z/a/w"%string, BFTW_PRE); ("z/a/x"%string, BFTW_PRE); ("z/y"%string, BFTW_POST); ("/f/g"%string, BFTW_POST); ("/f/"%string, BFTW_POST); ("/"%string, BFTW_POST); ("z/a/w"%string, BFTW_POST); ("z/a/x"%string, BFTW_POST); ("z/a"%string, BFTW_POST); ("z"%string, BFTW_POST)]).
  Proof. vm_compute. reflexivity. Qed.

  Example depth_first_sorted : paths (bftw_walk (walk BFTW_DFS true 2 goes) 0) = Some (true,
    [("/"%string, BFTW_PRE); ("/e"%string, BFTW_PRE); ("/e"%string, BFTW_POST); ("/f/"%string, BFTW_PRE); ("/f/"%string, BFTW_PRE); ("/f/g"%string, BFTW_PRE); ("/f/g"%string, BFTW_POST); ("/f/"%string, BFTW_POST); ("/"%string, BFTW_POST); ("z"%string, BFTW_PRE); ("z/a"%string, BFTW_PRE); ("z/a/w"%string, BFTW_PRE); ("z/a/w"%string, BFTW_POST); ("z/a/x"%string, BFTW_PRE); ("z/a/x"%string, BFTW_POST); ("z/a"%string, BFTW_POST); ("z/b"%string, BFTW_PRE); ("z/y"%string, BFTW_PRE); ("z/y"%string, BFTW_POST); ("z"%string, BFTW_POST)]).
  Proof. vm_compute. reflexivity. Qed.

  Example unsorted : paths (bftw_walk (walk BFTW_DFS false 3 goes) 0) = Some (true,
    [("z"%string, BFTW_PRE); ("/"%string, BFTW_PRE); ("/e"%string, BFTW_PRE); ("/e"%string, BFTW_POST); ("/f/"%string, BFTW_PRE); ("z/y"%string, BFTW_PRE); ("/f/"%string, BFTW_PRE); ("z/b"%string, BFTW_PRE); ("z/a"%string, BFTW_PRE); ("z/y"%string, BFTW_POST); ("/f/g"%string, BFTW_PRE); ("/f/g"%string, BFTW_POST); ("/f/"%string, BFTW_POST); ("/"%string, BFTW_POST); ("z/a/x"%string, BFTW_PRE); ("z/a/w"%string, BFTW_PRE); ("z/a/x"%string, BFTW_POST); ("z/a/w"%string, BFTW_POST); ("z/a"%string, BFTW_POST); ("z"%string, BFTW_POST)]).
  Proof. vm_compute. reflexivity. Qed.

  Example stopped : paths (bftw_walk (walk BFTW_BFS true 0 stops) 0) = Some (false,
    [("/"%string, BFTW_PRE); ("z"%string, BFTW_PRE); ("/e"%string, BFTW_PRE); ("/f/"%string, BFTW_PRE); ("z/a"%string, BFTW_PRE)]).
  Proof. vm_compute. reflexivity. Qed.

End Examples.
