(** * The properties of links, types and cycles *)
From Coq Require Import List ZArith NArith Bool Lia Init.Byte String.
From Verif Require Import ModeModel StatModel StatSpec StatProofs StatLoops WalkSpec.
From Verif Require PathModel BftwModel BftwSpec.
Import ListNotations.
Local Open Scope Z_scope.
Local Open Scope list_scope.

(** C43.  Links are followed with -L, and those on the command line with -H. *)
Theorem C43_options follow_roots follow_all depth :
  (bftw_stat_flags follow_roots follow_all depth = BFS_STAT_TRYFOLLOW <-> follow_all = true \/ follow_roots = true /\ depth = O) /\
  (bftw_stat_flags follow_roots follow_all depth = BFS_STAT_NOFOLLOW <-> follow_all = false /\ (follow_roots = false \/ depth <> O)).
Proof. exact (flags_ok follow_roots follow_all depth). Qed.
Print Assumptions C43_options.

(** What is asked of the system is answered truthfully, even if statx() is missing or forbidden. *)
Theorem C43_stat fs sx w : tells fs sx w -> forall has_statx fl, exists r has_statx', bfs_stat fs sx has_statx fl = (r, has_statx') /\ meant w fl r.
Proof. exact (stat_ok fs sx w). Qed.
Print Assumptions C43_stat.

(** So it is with the cache, whatever is asked in which order, and whether or not the file was looked at in the
    background before.  No null pointer is used, and what earlier answers point to does not change. *)
Theorem C43_cached fs sx w : consistent w -> tells fs sx w -> forall l f, fresh w f ->
  exists rs f', calls fs sx f l = Some (rs, f') /\
    Forall2 (fun fl r => meant_like w fl (shows f' r) /\ (fl <> BFS_STAT_FOLLOW -> meant w fl (shows f' r))) l rs.
Proof. exact (calls_ok fs sx w). Qed.
Print Assumptions C43_cached.

(** The type that a visit begins with, and later those that -type, -xtype and others find, are the types of what is
    meant, although bfs avoids to look at files. *)
Theorem C43_types fs sx w : consistent w -> tells fs sx w -> forall always dirs mount sf type f l,
  fresh w f -> hint w mount type -> sf <> BFS_STAT_FOLLOW -> type <> BFS_ERROR ->
  exists t e f1 rs f2 r, init_type fs sx (bftw_must_stat always dirs mount sf type) sf type f = Some (t, e, f1) /\
    meant w sf r /\ t = kind r /\ (t = BFS_ERROR -> r = Bad e) /\
    calls fs sx f1 l = Some (rs, f2) /\
    Forall2 (fun fl r => meant_like w fl (shows f2 r) /\ (fl <> BFS_STAT_FOLLOW -> meant w fl (shows f2 r))) l rs /\
    (forall fl p, bftw_cached_stat f2 fl = Some p -> meant w fl (Good (b_mem f2 p))) /\
    (forall fl r', meant w fl r' -> exists e' f3, bftw_type fs sx sf t f2 fl = Some (kind r', e', f3)) /\
    (forall types errno r', t <> BFS_ERROR -> meant w (other sf) r' ->
       exists f3, eval_xtype fs sx types sf t f2 errno = Some (xtype_answer types sf r', f3)).
Proof. exact (visit_ok fs sx w). Qed.
Print Assumptions C43_types.

(** C44.  When all links are followed, there may be infinitely many paths.  A walk that would see them down to some
    depth [n] visits only those without a directory above that is the same as one above that one: so its depth does not matter,
    if it is at least the number of directories. *)
Theorem C44_loops_not_followed contents rts trouble {U} (w : BftwModel.env U) n : follows contents rts trouble n w -> forall dirs,
  finite contents rts dirs -> proper contents rts -> (List.length dirs <= n)%nat ->
  forall u ok s, BftwModel.bftw_walk w u = Some (ok, s) ->
  forall e a, In (e, a) (BftwModel.trace s) -> resolve contents rts (BftwModel.e_pos e) <> None.
Proof. exact (visited_resolves contents rts trouble w n). Qed.
Print Assumptions C44_loops_not_followed.

(** All those are visited, *)
Theorem C44_everything_else contents rts trouble {U} (w : BftwModel.env U) n : follows contents rts trouble n w -> forall dirs,
  finite contents rts dirs -> proper contents rts -> (List.length dirs <= n)%nat ->
  forall u s, BftwModel.bftw_walk w u = Some (true, s) -> BftwModel.fl_skip_mounts w = false -> BftwModel.fl_prune_mounts w = false ->
  (forall v e, fst (BftwModel.callback w v e) = BftwModel.BFTW_CONTINUE) ->
  forall p, resolve contents rts p <> None ->
  exists e rest, BftwSpec.visits_of p (rev (BftwModel.trace s)) = (e, BftwModel.BFTW_CONTINUE) :: rest /\ BftwModel.e_visit e = BftwModel.BFTW_PRE.
Proof. exact (resolves_visited contents rts trouble w n). Qed.
Print Assumptions C44_everything_else.

(** errors being reported exactly for loops and for directories that can not be read, *)
Theorem C44_loops_reported contents rts trouble {U} (w : BftwModel.env U) n : follows contents rts trouble n w -> forall dirs,
  finite contents rts dirs -> proper contents rts -> (List.length dirs <= n)%nat ->
  forall u ok s, BftwModel.bftw_walk w u = Some (ok, s) -> forall e a nm i above, In (e, a) (BftwModel.trace s) ->
  resolve contents rts (BftwModel.e_pos e) = Some (nm, Dir i, above) ->
  (In i above -> BftwModel.e_type e = BftwModel.BFS_ERROR) /\
  (BftwModel.e_type e = BftwModel.BFS_ERROR -> In i above \/ trouble i = true).
Proof. exact (told contents rts trouble w n). Qed.
Print Assumptions C44_loops_reported.

(** and the path that a loop is said to lead back to is that of the same directory. *)
Theorem C44_loop_path contents rts trouble {U} (w : BftwModel.env U) n : follows contents rts trouble n w -> forall dirs,
  finite contents rts dirs -> proper contents rts -> (List.length dirs <= n)%nat ->
  forall p nm i above, resolve contents rts p = Some (nm, Dir i, above) -> In i above ->
  exists off r q nm', loopoff contents rts p = Some off /\ p = r ++ q /\ r <> [] /\ q <> [] /\ entry contents rts q = Some (nm', Dir i) /\
    firstn off (BftwSpec.path_at w p) = BftwSpec.path_at w q.
Proof. exact (loop_path contents rts trouble w n). Qed.
Print Assumptions C44_loop_path.

(** There are only finitely many of those paths. *)
Theorem C44_bounded contents rts dirs : finite contents rts dirs ->
  forall p, resolve contents rts p <> None -> (List.length p <= S (List.length dirs))%nat.
Proof. exact (resolve_short contents rts (fun _ => false) dirs). Qed.
Print Assumptions C44_bounded.

Module Examples.
  (** A link to a missing file in something that is no directory, and what may be asked about it *)
  Definition link := mkStat (N.lor S_IFLNK 511) 1 7.
  Definition broken := mkFacts (Good link) (Bad ENOTDIR).
  Definition good := mkFacts (Good link) (Good (mkStat (N.lor S_IFDIR 493) 1 8)).
  Definition looped := mkFacts (Good link) (Bad ELOOP).
  Definition fstatat w (nofollow : bool) := if nofollow then at_link w else at_target w.
  Definition blank : memory := fun _ => mkStat 0 0 0.

  Lemma consistent_link t : (forall s, t = Good s -> kind (Good s) <> BFS_LNK) -> (forall e, t = Bad e -> e > 0) -> consistent (mkFacts (Good link) t).
  Proof.
    intros A B. split; [|split; [|split]]; cbn.
    - intros s X Y. injection X as <-. exfalso. apply Y. vm_compute. reflexivity.
    - discriminate.
    - exact A.
    - intros e [X|X]; [discriminate|auto].
  Qed.
  Example meets_broken : consistent broken.
  Proof. apply consistent_link; [discriminate|]. intros e X. injection X as <-. reflexivity. Qed.
  Example meets_good : consistent good.
  Proof. apply consistent_link; [|discriminate]. intros s X. injection X as <-. vm_compute. discriminate. Qed.
  Example meets_looped : consistent looped.
  Proof. apply consistent_link; [discriminate|]. intros e X. injection X as <-. reflexivity. Qed.
  Example meets_tells w : tells (fstatat w) (fun _ => Bad ENOSYS) w.
  Proof. split; [reflexivity|]. split; [reflexivity|]. auto. Qed.

  (** The I/O queue has looked at the link with -L. *)
  Definition b0 := mkBufs None ENOENT (Some AsyncBuf) 0.
  Definition f0 := mkBFTW (bftw_stat_fill (bftw_stat_init (Some StatBuf) (Some LstatBuf)) b0) (fun p => if buffer_eqb p AsyncBuf then link else mkStat 0 0 0) true.
  Example meets_seen : fresh broken f0.
  Proof.
    apply (Seen broken _ true BFS_STAT_TRYFOLLOW link b0); try reflexivity; try discriminate.
    left. right. left. exists ENOTDIR. split; [reflexivity|]. split; [right; reflexivity|reflexivity].
  Qed.
  Example asked : option_map (fun '(rs, f) => map (shows f) rs) (calls (fstatat broken) (fun _ => Bad ENOSYS) f0 [BFS_STAT_FOLLOW; BFS_STAT_TRYFOLLOW; BFS_STAT_NOFOLLOW])
    = Some [Bad ENOENT; Good link; Good link].
  Proof. vm_compute. reflexivity. Qed.
  Example meets_unseen w : fresh w (mkBFTW (bftw_stat_fill (bftw_stat_init (Some StatBuf) (Some LstatBuf)) (bftw_stat_init None None)) blank true).
  Proof. apply Unseen. Qed.
  Definition f1 := mkBFTW (bftw_stat_fill (bftw_stat_init (Some StatBuf) (Some LstatBuf)) (bftw_stat_init None None)) blank true.
  Example xtype_dir : option_map fst (eval_xtype (fstatat good) (fstatat good) (ftype_eqb BFS_DIR) BFS_STAT_NOFOLLOW BFS_LNK f1 0) = Some (Answer true).
  Proof. vm_compute. reflexivity. Qed.
  Example xtype_loop : option_map fst (eval_xtype (fstatat looped) (fstatat looped) (ftype_eqb BFS_LNK) BFS_STAT_NOFOLLOW BFS_LNK f1 0) = Some (Answer true).
  Proof. vm_compute. reflexivity. Qed.
  Example hints : hint good false BFS_LNK.
  Proof. right. left. vm_compute. reflexivity. Qed.

  (** a contains a file and the directory b, in which there is a link up to a, and one to c; in c there is a link to b. *)
  Definition bytes (s : string) : list byte := list_byte_of_string s.
  Definition a : id := (1, 10).
  Definition b : id := (1, 11).
  Definition c : id := (2, 10).
  Definition contents (i : id) : list (list byte * what) :=
    if id_eqb i a then [(bytes "file", Other); (bytes "b", Dir b)]
    else if id_eqb i b then [(bytes "up", Dir a); (bytes "c", Dir c)]
    else if id_eqb i c then [(bytes "b", Dir b)] else [].
  Definition rts := [(bytes "x/", Dir a)].
  Definition env n : BftwModel.env nat :=
    {| BftwModel.strat := BftwModel.BFTW_BFS; BftwModel.fl_sort := false; BftwModel.fl_buffer := false; BftwModel.fl_stat := true; BftwModel.fl_post_order := false;
       BftwModel.fl_recover := true; BftwModel.fl_skip_mounts := false; BftwModel.fl_prune_mounts := false; BftwModel.nthreads := 2%nat;
       BftwModel.roots := map (grow contents (fun _ => false) n) rts; BftwModel.callback := fun u e => (BftwModel.BFTW_CONTINUE, S u);
       BftwModel.collate := fun _ _ => true; BftwModel.must_stat := fun _ => true; BftwModel.whiteout := fun _ => false;
       BftwModel.mounted := fun _ => false;
       BftwModel.look := fun _ p => match entry contents rts p with
                                    | Some (_, Dir _) => match loopoff contents rts p with Some _ => BftwModel.BFS_ERROR | None => BftwModel.BFS_DIR end
                                    | _ => BftwModel.BFS_OTHER 1 end;
       BftwModel.choose := fun n => (n * 7 mod 5)%nat; BftwModel.junk := "?"%byte |}.
  Example meets_follows n : follows contents rts (fun _ => false) n (env n).
  Proof. split; [reflexivity|]. intros t p. cbn [BftwModel.look env]. destruct (entry contents rts p) as [[nm [i|]]|]; try reflexivity; discriminate. Qed.
  Example meets_finite : finite contents rts [a; b; c].
  Proof.
    split.
    - intros nm i [X|[]]. injection X as _ <-. cbn. auto.
    - intros j nm i [<-|[<-|[<-|[]]]]; cbn; intuition (try discriminate); match goal with H : (_, Dir _) = (_, Dir _) |- _ => injection H as _ <-; auto end.
  Qed.
  Example meets_proper : proper contents rts.
  Proof.
    split.
    - intros nm i [X|[]]. injection X as <- _. discriminate.
    - intros j nm i. unfold contents. destruct (id_eqb j a); [|destruct (id_eqb j b); [|destruct (id_eqb j c); [|intros []]]]; cbn; intuition (try discriminate);
        match goal with H : (_, Dir _) = (_, Dir _) |- _ => injection H as <- _; discriminate end.
  Qed.
  (** All paths, and whether they are loops: however deep the tree would be *)
  Definition paths (r : option (bool * BftwModel.state nat)) :=
    match r with Some (ok, s) => Some (ok, rev (map (fun ea => (string_of_list_byte (BftwModel.e_path (fst ea)), BftwModel.e_type (fst ea))) (BftwModel.trace s))) | None => None end.
  Example walked : forall n, In n [3; 4; 6]%nat -> paths (BftwModel.bftw_walk (env n) 0%nat) = Some (true,
    [("x/"%string, BftwModel.BFS_DIR); ("x/file"%string, BftwModel.BFS_OTHER 1); ("x/b"%string, BftwModel.BFS_DIR);
     ("x/b/up"%string, BftwModel.BFS_ERROR); ("x/b/c"%string, BftwModel.BFS_DIR); ("x/b/c/b"%string, BftwModel.BFS_ERROR)]).
  Proof. intros n H. cbn in H. destruct H as [<-|[<-|[<-|[]]]]; vm_compute; reflexivity. Qed.
  Example back_to : loopoff contents rts [0; 1; 1; 0]%nat = Some 3%nat /\ loopoff contents rts [0; 1; 0]%nat = Some 2%nat.
  Proof. vm_compute. auto. Qed.
End Examples.
