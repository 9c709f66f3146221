(** * What a file tree walk is *)
From Coq Require Import List Bool Arith Init.Byte.
From Verif Require Import WalkSpec PathModel PathSpec BftwModel.
Import ListNotations.

Section Spec.
  Context {U : Type}.
  Variable w : env U.

  (** ** The files *)

  (** What is in the directory at [p]; the roots are in the directory at []. *)
  Fixpoint kids_at (p : pos) : list (tree info) :=
    match p with
    | [] => roots w
    | k :: p => match nth_error (kids_at p) k with Some (Node _ kids) => kids | None => [] end
    end.
  (** The file at [p] *)
  Definition node_at (p : pos) : option (tree info) :=
    match p with [] => None | k :: p => nth_error (kids_at p) k end.
  Definition name_at (p : pos) : list byte := match node_at p with Some (Node i _) => name i | None => [] end.
  Definition broken_at (p : pos) : bool := match node_at p with Some (Node i _) => broken i | None => false end.

  (** Directories that have entries have names. *)
  Definition named : Prop := forall p, node_at p <> None -> kids_at p <> [] -> name_at p <> [].

  (** A name below a path: a slash is added between them unless there is one. *)
  Definition join (dir nm : list byte) : list byte :=
    match rev dir with
    | c :: _ => if Byte.eqb c "/" then dir ++ nm else dir ++ "/"%byte :: nm
    | [] => nm
    end.
  (** The path of a file *)
  Fixpoint path_at (p : pos) : list byte :=
    match p with
    | [] => []
    | [k] => name_at [k]
    | k :: q => join (path_at q) (name_at (k :: q))
    end.

  (** ** Visits *)

  (** A file on another file system *)
  Definition mount_point (p : pos) : bool := match p with [] | [_] => false | _ => mounted w p end.
  (** -xdev and the like: files that are not visited at all *)
  Definition skipped (p : pos) : bool := fl_skip_mounts w && mount_point p.

  (** The callback is told of a directory and wants its contents to be visited, too. *)
  Definition enters (ea : event * action) : Prop :=
    let '(e, a) := ea in
    e_visit e = BFTW_PRE /\ e_type e = BFS_DIR /\ a = BFTW_CONTINUE /\ fl_prune_mounts w && mount_point (e_pos e) = false.

  (** The visits of one file, the first one first *)
  Definition same_pos (p q : pos) : bool := if list_eq_dec Nat.eq_dec p q then true else false.
  Definition visits_of (p : pos) (l : list (event * action)) : list (event * action) :=
    filter (fun ea => same_pos (e_pos (fst ea)) p) l.

  (** The directory that [p] is in was entered in a walk. *)
  Definition entered (p : pos) (l : list (event * action)) : Prop := exists ea, In ea l /\ e_pos (fst ea) = p /\ enters ea.
  (** [p] is a root, or in a directory that was entered. *)
  Definition reached (p : pos) (l : list (event * action)) : Prop :=
    match p with
    | [] => False
    | k :: q => node_at p <> None /\ (q = [] \/ entered q l)
    end.

  (** All visits of a directory that was entered, after the first one: if it can not be read
      completely, this is reported; with -depth, it is visited again at last. *)
  Definition later_visits (p : pos) (l : list (event * action)) : Prop :=
    exists errors posts, l = errors ++ posts /\
      (if broken_at p then exists e a, errors = [(e, a)] /\ e_visit e = BFTW_PRE /\ e_type e = BFS_ERROR else errors = []) /\
      (if fl_post_order w then exists e a, posts = [(e, a)] /\ e_visit e = BFTW_POST else posts = []).

  (** Whether all visits of the file at [p] are as they should be in a complete walk *)
  Definition visited_right (p : pos) (l : list (event * action)) : Prop :=
    (reached p l /\ skipped p = false -> exists e a rest, visits_of p l = (e, a) :: rest /\ e_visit e = BFTW_PRE /\
       (enters (e, a) -> later_visits p rest) /\ (~ enters (e, a) -> rest = [])) /\
    (~ (reached p l /\ skipped p = false) -> visits_of p l = []).

  (** What the callback is told about a file is right. *)
  Definition event_ok (e : event) : Prop :=
    node_at (e_pos e) <> None /\
    e_depth e = length (e_pos e) - 1 /\ e_path e = path_at (e_pos e) /\
    match e_pos e with
    | [_] => exists dir base, dir_base (e_path e) dir base (e_nameoff e)
    | _ => e_nameoff e + length (name_at (e_pos e)) = length (e_path e) /\ skipn (e_nameoff e) (e_path e) = name_at (e_pos e)
    end.

  (** Visits for the last time *)
  Definition is_post (x : event * action) : bool := match e_visit (fst x) with BFTW_POST => true | BFTW_PRE => false end.

  (** In time, [l] with the latest visit first: *)
  Inductive in_order : list (event * action) -> Prop :=
  | o_nil : in_order []
  | o_visit e a l :
      in_order l ->
      (** the directory that a file is in has been entered before, *)
      (forall k q, e_pos e = k :: q -> q <> [] -> entered q l) ->
      (** neither it nor any directory above it has been visited for the last time, *)
      (forall x r q, In x l -> e_visit (fst x) = BFTW_POST -> e_pos e = r ++ q -> e_pos (fst x) <> q) ->
      (** the callback has not asked to stop, *)
      (forall x, In x l -> snd x <> BFTW_STOP) ->
      (** the file has not been visited, unless this reports that a directory can not be read, *)
      (e_visit e = BFTW_PRE -> visits_of (e_pos e) l = [] \/
         e_type e = BFS_ERROR /\ exists x, visits_of (e_pos e) l = [x] /\ enters x) ->
      (** its type is what the system says, with the same exception, *)
      ((exists n, e_type e = look w n (e_pos e)) \/
         e_type e = BFS_ERROR /\ broken_at (e_pos e) = true /\ e_visit e = BFTW_PRE /\ visits_of (e_pos e) l <> []) ->
      (** last visits are made with -depth only, of directories that have been entered, *)
      (e_visit e = BFTW_POST -> fl_post_order w = true /\ entered (e_pos e) l) ->
      (** and files on other file systems are not visited with -xdev. *)
      skipped (e_pos e) = false ->
      in_order ((e, a) :: l).

  (** ** Sorted walks *)

  (** Two entries of the directory [q]: by name, and then in the order of readdir() *)
  Definition sorted_before (q : pos) (j k : nat) : Prop :=
    collate w (name_at (j :: q)) (name_at (k :: q)) = true /\
    (collate w (name_at (k :: q)) (name_at (j :: q)) = true -> j < k).
  (** [x] and [y] are, or are below, two entries of the same directory, of which that of [x] comes first. *)
  Definition aside (x y : pos) : Prop := exists q j k r r', x = r ++ j :: q /\ y = r' ++ k :: q /\ sorted_before q j k.
  (** Depth-first: a directory comes before what is below it, and all of that before its next sibling. *)
  Definition dfs_before (x y : pos) : Prop := (exists r, r <> [] /\ y = r ++ x) \/ aside x y.
  (** Breadth-first: what is less deep comes first. *)
  Definition bfs_before (x y : pos) : Prop := length x < length y \/ length x = length y /\ aside x y.

  (** The files in the order of their first visits, [l] with the latest visit first *)
  Fixpoint first_visits (l : list (event * action)) : list pos :=
    match l with
    | [] => []
    | (e, _) :: l => if existsb (fun x => same_pos (e_pos (fst x)) (e_pos e)) l then first_visits l else first_visits l ++ [e_pos e]
    end.

  (** Files below [q], and [q], are visited without any others in between. *)
  Definition below (q x : pos) : Prop := exists r, x = r ++ q.
  Definition depth_first (l : list pos) : Prop := forall q l1 x l2 y l3, l = l1 ++ x :: l2 ++ y :: l3 -> below q x -> below q y -> Forall (below q) l2.

  (** The callback did return what it is said to have returned. *)
  Inductive plays (u : U) : list (event * action) -> U -> Prop :=
  | p_nil : plays u [] u
  | p_call e l v : plays u l v -> plays u ((e, fst (callback w v e)) :: l) (snd (callback w v e)).
End Spec.
