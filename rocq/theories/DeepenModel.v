(** * Iterative and exponential deepening

    Models src/bftw.c 2154-2328: the callback around that of the user, bftw_ids() and bftw_eds().  The walks
    themselves are in BftwModel.v.

    The set of pruned paths is a list here; it is a trie in the code, see TrieModel.v.  Depths do not
    overflow, and allocations succeed. *)
From Coq Require Import List Bool Arith Init.Byte.
From Verif Require Import PathModel SortModel WalkSpec BftwModel.
Import ListNotations.

(** 2157-2176, [struct bftw_ids_state].  [d_user] is what [ptr] points to, and [d_log] are the calls of the user's
    callback, latest first. *)
Record ids (U : Type) := {
  d_user : U; d_log : list (event * action);
  d_visit : visit; d_force : bool; d_min : nat; d_max : nat; d_pruned : list (list byte); d_bottom : bool }.
Arguments d_user {U}. Arguments d_log {U}. Arguments d_visit {U}. Arguments d_force {U}. Arguments d_min {U}. Arguments d_max {U}.
Arguments d_pruned {U}. Arguments d_bottom {U}.

Section Deepen.
  Context {U : Type}.
  Variable w : env U.
  Notation ids := (ids U).

  Definition set_depths (a b : nat) (d : ids) : ids :=
    {| d_user := d_user d; d_log := d_log d; d_visit := d_visit d; d_force := d_force d; d_min := a; d_max := b; d_pruned := d_pruned d; d_bottom := d_bottom d |}.
  Definition set_bottom (b : bool) (d : ids) : ids :=
    {| d_user := d_user d; d_log := d_log d; d_visit := d_visit d; d_force := d_force d; d_min := d_min d; d_max := d_max d; d_pruned := d_pruned d; d_bottom := b |}.
  Definition set_pruned (l : list (list byte)) (d : ids) : ids :=
    {| d_user := d_user d; d_log := d_log d; d_visit := d_visit d; d_force := d_force d; d_min := d_min d; d_max := d_max d; d_pruned := l; d_bottom := d_bottom d |}.
  Definition set_post (force : bool) (d : ids) : ids :=
    {| d_user := d_user d; d_log := d_log d; d_visit := BFTW_POST; d_force := force; d_min := d_min d; d_max := d_max d; d_pruned := d_pruned d; d_bottom := d_bottom d |}.

  (** A call of the user's callback *)
  Definition delegate (d : ids) (e : event) : action * ids :=
    let (a, u) := callback w (d_user d) e in
    (a, {| d_user := u; d_log := (e, a) :: d_log d; d_visit := d_visit d; d_force := d_force d; d_min := d_min d; d_max := d_max d; d_pruned := d_pruned d; d_bottom := d_bottom d |}).

  Definition same_path (x y : list byte) : bool := if list_eq_dec Byte.byte_eq_dec x y then true else false.
  Definition is_pruned (d : ids) (e : event) : bool := existsb (same_path (e_path e)) (d_pruned d).
  Definition same_visit (x y : visit) : bool := match x, y with BFTW_PRE, BFTW_PRE | BFTW_POST, BFTW_POST => true | _, _ => false end.

  (** 2179-2234, [bftw_ids_callback] *)
  Definition ids_callback (d : ids) (e : event) : action * ids :=
    let e := if d_force d then
               {| e_pos := e_pos e; e_visit := d_visit d; e_type := e_type e; e_depth := e_depth e; e_path := e_path e; e_nameoff := e_nameoff e |}
             else e in
    match e_type e with
    | BFS_ERROR => if d_min d <=? e_depth e + 1 then delegate d e else (BFTW_PRUNE, d)
    | _ =>
        if e_depth e <? d_min d then (if is_pruned d e then BFTW_PRUNE else BFTW_CONTINUE, d)
        else if same_visit (d_visit d) BFTW_POST && is_pruned d e then (BFTW_PRUNE, d)
        else
          let (a, d) := if same_visit (e_visit e) (d_visit d) then delegate d e else (BFTW_CONTINUE, d) in
          match a with
          | BFTW_CONTINUE => if is_dir (e_type e) && (d_max d <=? e_depth e + 1) then (BFTW_PRUNE, set_bottom false d) else (BFTW_CONTINUE, d)
          | BFTW_PRUNE => (BFTW_PRUNE, if is_dir (e_type e) then set_pruned (e_path e :: d_pruned d) d else d)
          | BFTW_STOP => (BFTW_STOP, d)
          end
    end.

  (** 2237-2252, [bftw_ids_init]: the arguments of the walks, with BFTW_POST_ORDER or not *)
  Definition deepen (post : bool) : env ids :=
    {| strat := BFTW_DEEPEN; fl_sort := fl_sort w; fl_buffer := fl_buffer w; fl_stat := fl_stat w; fl_post_order := post; fl_recover := fl_recover w;
       fl_skip_mounts := fl_skip_mounts w; fl_prune_mounts := fl_prune_mounts w; nthreads := nthreads w; roots := roots w; callback := ids_callback;
       collate := collate w; must_stat := must_stat w; whiteout := whiteout w; mounted := mounted w; look := look w; choose := choose w; junk := junk w |}.
  Definition ids_init (u : U) : state ids :=
    state_init {| d_user := u; d_log := []; d_visit := BFTW_PRE; d_force := false; d_min := 0; d_max := 1; d_pruned := []; d_bottom := false |}.

  (** 2269-2278 and 2307-2316.  [next] are the depths of the next round. *)
  Fixpoint rounds (next : nat -> nat -> nat * nat) (fuel : nat) (s : state ids) : option (bool * state ids) :=
    if d_bottom (user s) then Some (true, s)
    else
      match fuel with
      | 0 => None
      | S fuel =>
          ' (ok, s) <- impl (deepen false) (set_user (set_bottom true (user s)) s) ;;
          if ok then
            let (a, b) := next (d_min (user s)) (d_max (user s)) in
            rounds next fuel (set_user (set_depths a b (user s)) s)
          else Some (false, s)
      end.
  Definition ids_next (a b : nat) : nat * nat := (S a, S b).
  Definition eds_next (a b : nat) : nat * nat := (b, b * 2).

  (** 2284-2291 *)
  Fixpoint ids_posts (n : nat) (s : state ids) : option (bool * state ids) :=
    match n with
    | 0 => Some (true, s)
    | S n =>
        ' (ok, s) <- impl (deepen false) (set_user (set_depths n (d_max (user s) - 1) (user s)) s) ;;
        if ok then ids_posts n s else Some (false, s)
    end.

  (** 2263-2296, [bftw_ids] *)
  Definition bftw_ids (u : U) : option (bool * state ids) :=
    ' (ok, s) <- rounds ids_next (S (forest_size (roots w))) (ids_init u) ;;
    ' (ok, s) <- (if ok && fl_post_order w then ids_posts (d_min (user s)) (set_user (set_post true (user s)) s) else Some (ok, s)) ;;
    ' s <- state_destroy (deepen false) s ;;
    Some (ok, s).

  (** 2301-2328, [bftw_eds] *)
  Definition bftw_eds (u : U) : option (bool * state ids) :=
    ' (ok, s) <- rounds eds_next (S (forest_size (roots w))) (ids_init u) ;;
    if ok && fl_post_order w then
      ' (ok, s) <- impl (deepen true) (set_user (set_depths 0 (d_max (user s)) (set_post false (user s))) s) ;;
      ' s <- state_destroy (deepen true) s ;;
      Some (ok, s)
    else
      ' s <- state_destroy (deepen false) s ;;
      Some (ok, s).
End Deepen.
