(** * The properties of iterative and exponential deepening *)
From Coq Require Import List Bool Arith Init.Byte String.
From Verif Require Import WalkSpec PathModel SortModel BftwModel BftwSpec BftwFacts DeepenModel DeepenSpec BftwWalk DeepenFacts.
Import ListNotations.
Local Open Scope nat_scope.
Local Open Scope list_scope.

(** C12.  Iterative deepening comes to an end.  Of the calls of the user's callback, [pre] are those that visit files for the first
    time: they are in order and less deep files come first.  Unless the callback stops the search, or a directory can not be read and errors are fatal, each file
    that is reached is visited once (and once more if it is a directory that can not be read).  Later calls, [post], are made with -depth only, and are for last visits:
    of all files but the directories that are not searched, once for each of them, and deeper files come first. *)
Theorem C12_ids {U} (w : env U) T u : named w -> steady w T -> distinct w ->
  exists ok s pre post, bftw_ids w u = Some (ok, s) /\ files s = [] /\ d_log (user s) = post ++ pre /\ plays w u (post ++ pre) (d_user (user s)) /\
    in_order (preorder w) pre /\ Forall (fun x => event_ok w (fst x)) pre /\ by_depth pre /\
    (ok = true \/ post <> [] -> (forall p, visited_right (preorder w) p (rev pre)) /\ forall x, In x pre -> snd x <> BFTW_STOP) /\
    (if fl_post_order w then Forall (fun x => e_visit (fst x) = BFTW_POST) post else post = []) /\
    (ok = false -> failed s = true /\ fl_recover w = false \/ exists x, In x (post ++ pre) /\ snd x = BFTW_STOP) /\
    lasts w T pre post /\ deepest_first (places post) /\ (fl_post_order w = true -> ok = true -> forall p, In p (places post) <-> kept p pre) /\
    (ok = true -> forall x, In x (post ++ pre) -> snd x <> BFTW_STOP).
Proof. exact (ids_searched w T u). Qed.
Print Assumptions C12_ids.

(** The same for exponential deepening, but for the order of files, which are found in levels of twice as many depths as before each, and with errors that may be reported again with -depth.
    The last visits are those of the directories that were searched, after everything in them. *)
Theorem C12_eds {U} (w : env U) T u : named w -> steady w T -> distinct w ->
  exists ok s pre post, bftw_eds w u = Some (ok, s) /\ files s = [] /\ d_log (user s) = post ++ pre /\ plays w u (post ++ pre) (d_user (user s)) /\
    in_order (preorder w) pre /\ Forall (fun x => event_ok w (fst x)) pre /\ by_doublings pre /\
    (ok = true \/ post <> [] -> (forall p, visited_right (preorder w) p (rev pre)) /\ forall x, In x pre -> snd x <> BFTW_STOP) /\
    (if fl_post_order w then Forall (fun x => e_visit (fst x) = BFTW_POST \/ e_type (fst x) = BFS_ERROR) post else post = []) /\
    (ok = false -> failed s = true /\ fl_recover w = false \/ exists x, In x (post ++ pre) /\ snd x = BFTW_STOP) /\
    lasts w T pre post /\ contents_first (places post) /\ (fl_post_order w = true -> ok = true -> forall p, In p (places post) <-> entered w p pre) /\
    (ok = true -> forall x, In x (post ++ pre) -> snd x <> BFTW_STOP).
Proof. exact (eds_searched w T u). Qed.
Print Assumptions C12_eds.

(** It makes no more than k + 2 walks to find all files, if none is at depth 2^k or more: [rounds] is [None] if it runs out of walks. *)
Theorem C12_eds_rounds {U} (w : env U) T u k : named w -> steady w T -> distinct w -> (forall p, node_at w p <> None -> List.length p - 1 < 2 ^ k) -> rounds w eds_next (k + 2) (ids_init u) <> None.
Proof. exact (eds_few w T u k). Qed.
Print Assumptions C12_eds_rounds.

(** Both visit the same files as a walk of any kind, such as a breadth-first one, if the callback decides by the path and the type of a file. *)
Theorem C12_same_files {U} (w : env U) T act u s : named w -> steady w T -> distinct w -> decides w act -> fl_post_order w = false -> bftw_walk w u = Some (true, s) ->
  (forall s', bftw_ids w u = Some (true, s') -> forall p, visits_of p (trace s) = [] <-> visits_of p (d_log (user s')) = []) /\
  (forall s', bftw_eds w u = Some (true, s') -> forall p, visits_of p (trace s) = [] <-> visits_of p (d_log (user s')) = []).
Proof. exact (same_files w T act u s). Qed.
Print Assumptions C12_same_files.

(** Pruned directories are known by their paths only: what is below another root with the same path may be lost. *)
Theorem C12_overlapping_roots_refuted : exists (w : env unit) T act s s' p,
  named w /\ steady w T /\ bftw_walk w tt = Some (true, s) /\ bftw_ids w tt = Some (true, s') /\
  (forall u e, fst (callback w u e) = act (e_depth e) (e_path e)) /\
  visits_of p (trace s) <> [] /\ visits_of p (d_log (user s')) = [].
Proof. exact overlapping_roots. Qed.
Print Assumptions C12_overlapping_roots_refuted.

(** Files that can not be examined may be reported twice, *)
Theorem C12_errors_once_refuted : exists (w : env unit) T s p e a e' a',
  named w /\ distinct w /\ (forall n q, look w n q = T q) /\ bftw_ids w tt = Some (true, s) /\
  T p = BFS_ERROR /\ kids_at w p = [] /\ visits_of p (d_log (user s)) = [(e, a); (e', a')].
Proof. exact errors_twice. Qed.
Print Assumptions C12_errors_once_refuted.

(** and so may directories that can not be read, with -depth. *)
Theorem C12_errors_post_refuted : exists (w : env unit) T s p,
  named w /\ steady w T /\ distinct w /\ fl_post_order w = true /\ bftw_eds w tt = Some (true, s) /\
  List.length (filter (fun x => match e_type (fst x) with BFS_ERROR => true | _ => false end) (visits_of p (d_log (user s)))) = 2.
Proof. exact errors_again. Qed.
Print Assumptions C12_errors_post_refuted.

Module Examples.
  Definition bytes (s : string) : list byte := list_byte_of_string s.
  Definition dir s kids := Node {| name := bytes s; broken := false |} kids.
  (** The callback counts its calls and does not enter z/b; z/a can not be read completely. *)
  Definition forest := [dir "z" [dir "y" []; dir "b" [dir "q" []]; Node {| name := bytes "a"; broken := true |} [dir "x" [dir "v" []]; dir "w" []]]; dir "/" [dir "e" []]].
  Definition types (p : pos) : ftype := if same_pos p [0; 0] || same_pos p [0; 1] then BFS_OTHER 8 else BFS_DIR.
  Definition search (post : bool) : env nat :=
    {| strat := BFTW_BFS; fl_sort := false; fl_buffer := false; fl_stat := false; fl_post_order := post; fl_recover := true; fl_skip_mounts := false; fl_prune_mounts := false;
       nthreads := 1; roots := forest; callback := fun u e => (if same_path (e_path e) (bytes "z/b") then BFTW_PRUNE else BFTW_CONTINUE, S u); collate := fun _ _ => true; must_stat := fun _ => true;
       whiteout := fun _ => false; mounted := fun _ => false; look := fun _ p => types p; choose := fun n => n * 7 mod 5; junk := "?"%byte |}.
  Definition calls (r : option (bool * state (ids nat))) : option (bool * list (string * visit)) :=
    match r with Some (ok, s) => Some (ok, rev (map (fun ea => (string_of_list_byte (e_path (fst ea)), e_visit (fst ea))) (d_log (user s)))) | None => None end.

  Example meets : forall post, named (search post) /\ steady (search post) types /\ distinct (search post).
  Proof.
    intros post. split; [apply named_all; vm_compute; reflexivity|]. split.
    - intros n p _. split; [reflexivity|]. unfold types. destruct (same_pos p [0; 0] || same_pos p [0; 1]); discriminate.
    - apply distinct_all. vm_compute. repeat constructor; cbn; intuition discriminate.
  Qed.
  (** No file is at depth 4 or more. *)
  Example shallow : forall post p, node_at (search post) p <> None -> List.length p - 1 < 2 ^ 2.
  Proof.
    intros post p N. apply all_pos_in in N. assert (F : forallb (fun p => List.length p - 1 <? 2 ^ 2) (all_pos (search post)) = true) by (vm_compute; reflexivity).
    rewrite forallb_forall in F. apply Nat.ltb_lt, F, N.
  Qed.
  Example decided : decides (search false) (fun p _ => if same_path p (bytes "z/b") then BFTW_PRUNE else BFTW_CONTINUE).
  Proof. intros u e. reflexivity. Qed.

  Example iterative : calls (bftw_ids (search false) 0) = Some (true,
    [("z"%string, BFTW_PRE); ("/"%string, BFTW_PRE); ("/e"%string, BFTW_PRE); ("z/y"%string, BFTW_PRE); ("z/b"%string, BFTW_PRE); ("z/a"%string, BFTW_PRE); ("z/a"%string, BFTW_PRE); ("z/a/x"%string, BFTW_PRE); ("z/a/w"%string, BFTW_PRE); ("z/a/x/v"%string, BFTW_PRE)]).
  Proof. vm_compute. reflexivity. Qed.
  Example exponential : calls (bftw_eds (search false) 0) = Some (true,
    [("z"%string, BFTW_PRE); ("/"%string, BFTW_PRE); ("/e"%string, BFTW_PRE); ("z/y"%string, BFTW_PRE); ("z/b"%string, BFTW_PRE); ("z/a"%string, BFTW_PRE); ("z/a"%string, BFTW_PRE); ("z/a/x"%string, BFTW_PRE); ("z/a/w"%string, BFTW_PRE); ("z/a/x/v"%string, BFTW_PRE)]).
  Proof. vm_compute. reflexivity. Qed.
  Example iterative_post : calls (bftw_ids (search true) 0) = Some (true,
    [("z"%string, BFTW_PRE); ("/"%string, BFTW_PRE); ("/e"%string, BFTW_PRE); ("z/y"%string, BFTW_PRE); ("z/b"%string, BFTW_PRE); ("z/a"%string, BFTW_PRE); ("z/a"%string, BFTW_PRE); ("z/a/x"%string, BFTW_PRE); ("z/a/w"%string, BFTW_PRE); ("z/a/x/v"%string, BFTW_PRE); ("z/a/x/v"%string, BFTW_POST); ("z/a"%string, BFTW_POST); ("z/a/x"%string, BFTW_POST); ("z/a/w"%string, BFTW_POST); ("z/y"%string, BFTW_POST); ("z/a"%string, BFTW_POST); ("/e"%string, BFTW_POST); ("z"%string, BFTW_POST); ("/"%string, BFTW_POST)]).
  Proof. vm_compute. reflexivity. Qed.
  Example exponential_post : calls (bftw_eds (search true) 0) = Some (true,
    [("z"%string, BFTW_PRE); ("/"%string, BFTW_PRE); ("/e"%string, BFTW_PRE); ("z/y"%string, BFTW_PRE); ("z/b"%string, BFTW_PRE); ("z/a"%string, BFTW_PRE); ("z/a"%string, BFTW_PRE); ("z/a/x"%string, BFTW_PRE); ("z/a/w"%string, BFTW_PRE); ("z/a/x/v"%string, BFTW_PRE); ("z/a"%string, BFTW_PRE); ("/"%string, BFTW_POST); ("z/a/w"%string, BFTW_POST); ("z/a/x/v"%string, BFTW_POST); ("z/a/x"%string, BFTW_POST); ("z/a"%string, BFTW_POST); ("z"%string, BFTW_POST)]).
  Proof. vm_compute. reflexivity. Qed.
End Examples.
