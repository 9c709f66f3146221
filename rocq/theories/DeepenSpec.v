(** * What is expected of a search by deepening *)
From Coq Require Import List Bool Arith Sorted Init.Byte.
From Verif Require Import WalkSpec PathModel BftwModel BftwSpec.
Import ListNotations.

Section Spec.
  Context {U : Type}.
  Variable w : env U.

  (** The same search without -depth *)
  Definition preorder : env U :=
    {| strat := strat w; fl_sort := fl_sort w; fl_buffer := fl_buffer w; fl_stat := fl_stat w; fl_post_order := false; fl_recover := fl_recover w;
       fl_skip_mounts := fl_skip_mounts w; fl_prune_mounts := fl_prune_mounts w; nthreads := nthreads w; roots := roots w; callback := callback w;
       collate := collate w; must_stat := must_stat w; whiteout := whiteout w; mounted := mounted w; look := look w; choose := choose w; junk := junk w |}.

  (** The files do not change their types, and all of them can be examined. *)
  Definition steady (T : pos -> ftype) : Prop := forall n p, node_at w p <> None -> look w n p = T p /\ T p <> BFS_ERROR.
  (** Different files have different paths: no root is below another one. *)
  Definition distinct : Prop := forall p q, node_at w p <> None -> node_at w q <> None -> path_at w p = path_at w q -> p = q.

  (** The files in the order of their first visits, less deep ones first; roots have depth 0. *)
  Definition by_depth (l : list (event * action)) : Prop := StronglySorted (fun p q => length p - 1 <= length q - 1) (first_visits l).
  (** The same for files in levels: depth 0, depth 1, depths 2 and 3, depths 4 to 7, and so on *)
  Definition doublings (d : nat) : nat := match d with 0 => 0 | S _ => S (Nat.log2 d) end.
  Definition by_doublings (l : list (event * action)) : Prop := StronglySorted (fun p q => doublings (length p - 1) <= doublings (length q - 1)) (first_visits l).

  (** The file at [p] was visited, and if it is a directory then the callback wanted to go on below it. *)
  Definition kept (p : pos) (l : list (event * action)) : Prop :=
    exists e a, In (e, a) l /\ e_pos e = p /\ e_type e <> BFS_ERROR /\ (e_type e = BFS_DIR -> a = BFTW_CONTINUE).

  (** The files in the order of calls, [l] with the latest one first, without reports of errors *)
  Definition places (l : list (event * action)) : list pos :=
    rev (map (fun x => e_pos (fst x)) (filter (fun x => match e_type (fst x) with BFS_ERROR => false | _ => true end) l)).

  (** [post] are last visits, after the visits [pre], with the latest one first in both. *)
  Record lasts (T : pos -> ftype) (pre post : list (event * action)) : Prop := {
    (** The callback is told the truth: these are last visits of files, or reports of errors. *)
    ls_ok : Forall (fun x => event_ok w (fst x)) post;
    ls_types : Forall (fun x => e_type (fst x) = BFS_ERROR \/ e_visit (fst x) = BFTW_POST /\ e_type (fst x) = T (e_pos (fst x))) post;
    (** The files have been visited before, and each is visited for the last time once. *)
    ls_kept : forall p, In p (places post) -> kept p pre;
    ls_once : NoDup (places post);
    (** Nothing is visited after the callback has asked to stop. *)
    ls_stop : forall x, In x (tl (post ++ pre)) -> snd x <> BFTW_STOP }.

  (** Deeper files first, and directories after everything in them *)
  Definition deepest_first (l : list pos) : Prop := StronglySorted (fun p q => length q - 1 <= length p - 1) l.
  Definition contents_first (l : list pos) : Prop := StronglySorted (fun p q => forall r, q <> r ++ p) l.

  (** The callback decides by the path of a file and its type. *)
  Definition decides (act : list byte -> ftype -> action) : Prop := forall u e, fst (callback w u e) = act (e_path e) (e_type e).
End Spec.
