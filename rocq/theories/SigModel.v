(** * Model of src/sighook.c: registering, removing and running signal hooks

    Nodes and hooks are numbered, as are the 64 lists.  The operations are modelled
    one at a time: a writer holds [sigmutex], and no dispatch is interrupted by
    another.
    [None] is a failed assertion, a wait that never ends or a NULL dereference. *)
From Coq Require Import List Arith Bool.
From Verif Require Import ListModel.
Import ListNotations.

(** ** Reference-counted pointers *)

(** sighook.c 53-65, [struct arc].  The pointer [Some None] is RCU_NULL, [None] is NULL. *)
Record arc := mkArc { refs : nat; ptr : option (option nat) }.

(** 68-81, [arc_init] *)
Definition arc_init : arc := mkArc 0 None.

(** 89-95, [arc_set] *)
Definition arc_set (a : arc) (p : option nat) : option arc :=
  if Nat.eqb (refs a) 0 then Some (mkArc 1 (Some p)) else None.

(** 98-107, [arc_get]; the result is NULL if the arc is empty. *)
Definition arc_get (a : arc) : arc * option (option nat) :=
  if refs a <? 1 then (a, None) else (mkArc (S (refs a)) (ptr a), ptr a).

(** 110-120, [arc_put] *)
Definition arc_put (a : arc) : arc := mkArc (refs a - 1) (ptr a).

(** 137-161, [arc_wait].  If other references remain, the wait does not end, since
    nobody else runs. *)
Definition arc_wait (a : arc) : option (arc * option (option nat)) :=
  match refs a with
  | 1 => Some (mkArc 0 None, ptr a)
  | _ => None
  end.

(** ** Read-copy-update *)

(** 177-182, [struct rcu]; [false] is slot 0. *)
Record rcu := mkRcu { active : bool; slot : bool -> arc }.
Definition set_slot (r : rcu) (i : bool) (a : arc) : rcu :=
  mkRcu (active r) (fun j => if Bool.eqb j i then a else slot r j).

(** 199-206, [rcu_init] *)
Definition rcu_init (p : option nat) : rcu :=
  mkRcu false (fun i => if i then arc_init else mkArc 1 (Some p)).

(** 215-219, [rcu_destroy]; the other slot must be empty. *)
Definition rcu_destroy (r : rcu) : option unit :=
  match arc_wait (slot r (active r)) with
  | None => None
  | Some _ => if Nat.eqb (refs (slot r (negb (active r)))) 0 then Some tt else None
  end.

(** 222-231, [rcu_read]: the slot and the pointer read.  An empty active slot would
    be retried for ever. *)
Definition rcu_read (r : rcu) : option (rcu * bool * option nat) :=
  let i := active r in
  match arc_get (slot r i) with
  | (a, Some p) => Some (set_slot r i a, i, p)
  | (_, None) => None
  end.

(** 234-237, [rcu_peek] *)
Definition rcu_peek (r : rcu) : option (option nat) := ptr (slot r (active r)).

(** 240-250, [rcu_update] *)
Definition rcu_update (r : rcu) (p : option nat) : option rcu :=
  let i := active r in
  let j := negb i in
  match arc_set (slot r j) p with
  | None => None
  | Some a =>
      let r := mkRcu j (slot (set_slot r j a)) in
      match arc_wait (slot r i) with
      | None | Some (_, None) => None
      | Some (a, Some _) => Some (set_slot r i a)
      end
  end.

(** ** Lists of hooks *)

(** 315-329, [struct sighook], without the function and its argument *)
Record hook := mkHook { sig : nat; oneshot : bool; continue : bool }.

(** 255-270 and 332.  A [cursor] is the address of the head of a list or of the
    [next] of a node. *)
Record state := mkState {
  rcus : cursor -> rcu;
  tail : nat -> cursor;
  self : nat -> cursor;
  hooks : nat -> hook;
  armed : nat -> bool }.

Definition set_rcu (s : state) (c : cursor) (r : rcu) : state :=
  mkState (fun x => if cursor_eqb x c then r else rcus s x) (tail s) (self s) (hooks s) (armed s).
Definition set_tail (s : state) (l : nat) (c : cursor) : state :=
  mkState (rcus s) (fun x => if Nat.eqb x l then c else tail s x) (self s) (hooks s) (armed s).
Definition set_self (s : state) (n : nat) (c : cursor) : state :=
  mkState (rcus s) (tail s) (fun x => if Nat.eqb x n then c else self s x) (hooks s) (armed s).
Definition set_hook (s : state) (n : nat) (h : hook) : state :=
  mkState (rcus s) (tail s) (self s) (fun x => if Nat.eqb x n then h else hooks s x) (armed s).
Definition set_armed (s : state) (n : nat) (b : bool) : state :=
  mkState (rcus s) (tail s) (self s) (hooks s) (fun x => if Nat.eqb x n then b else armed s x).

(** 273-276, [rcu_list_init] for every list *)
Definition init : state :=
  mkState (fun _ => rcu_init None) Head (fun _ => Head 0) (fun _ => mkHook 0 false false) (fun _ => false).

(** 279-284, [rcu_list_append] *)
Definition rcu_list_append (s : state) (l n : nat) : option state :=
  let s := set_self s n (tail s l) in
  let s := set_tail s l (Next n) in
  let s := set_rcu s (Next n) (rcu_init None) in
  match rcu_update (rcus s (self s n)) (Some n) with
  | None => None
  | Some r => Some (set_rcu s (self s n) r)
  end.

(** 287-296, [rcu_list_remove] *)
Definition rcu_list_remove (s : state) (l n : nat) : option state :=
  match rcu_peek (rcus s (Next n)) with
  | None => None
  | Some nx =>
      match rcu_update (rcus s (self s n)) nx with
      | None => None
      | Some r =>
          let s := set_rcu s (self s n) r in
          let s := match nx with
                   | Some m => set_self s m (self s n)
                   | None => set_tail s l (Head l)
                   end in
          match rcu_destroy (rcus s (Next n)) with
          | None => None
          | Some _ => Some s
          end
      end
  end.

(** 304-313, for_rcu: [rcu_read] of a cell and [arc_put] of a slot of a cell *)
Definition read_cell (s : state) (c : cursor) : option (state * (cursor * bool) * option nat) :=
  match rcu_read (rcus s c) with
  | None => None
  | Some (r, i, p) => Some (set_rcu s c r, (c, i), p)
  end.
Definition put_slot (s : state) (x : cursor * bool) : state :=
  set_rcu s (fst x) (set_slot (rcus s (fst x)) (snd x) (arc_put (slot (rcus s (fst x)) (snd x)))).

(** 335-337, [siglist] *)
Definition siglist (sg : nat) : nat := sg mod 64.

(** 456-468, [should_run] *)
Definition should_run (s : state) (sg n : nat) : state * bool :=
  let h := hooks s n in
  if negb (Nat.eqb (sig h) sg) && negb (Nat.eqb (sig h) 0) then (s, false)
  else if oneshot h then (set_armed s n false, armed s n)
  else (s, true).

(** 471-482, [run_hooks]: the hooks run and whether one of them had SH_CONTINUE.
    [fuel] bounds the number of nodes. *)
Fixpoint run_nodes (fuel : nat) (s : state) (sg : nat) (x : cursor * bool) (node : option nat) :
    option (state * list nat * bool) :=
  match node with
  | None => Some (put_slot s x, [], false)
  | Some n =>
      match fuel with
      | O => None
      | S fuel =>
          let (s, b) := should_run s sg n in
          let cn := b && continue (hooks s n) in
          match read_cell s (Next n) with
          | None => None
          | Some (s, y, node) =>
              match run_nodes fuel (put_slot s x) sg y node with
              | None => None
              | Some (s, ran, c) =>
                  Some (s, (if b then [n] else []) ++ ran, cn || c)
              end
          end
      end
  end.
Definition run_hooks (fuel : nat) (s : state) (l sg : nat) : option (state * list nat * bool) :=
  match read_cell s (Head l) with
  | None => None
  | Some (s, x, node) => run_nodes fuel s sg x node
  end.

(** 485-530, [sigdispatch].  [fatal] is whether the default action terminates the
    process, and [fault] whether the signal is a fault, in which case no hook is run.
    [Died] is the end of [reraise]. *)
Inductive event := Fault | Ran (l : list nat) | Died (l e : list nat).
Definition sigdispatch (fuel : nat) (s : state) (sg : nat) (fatal fault : bool) : option (state * event) :=
  if fault then Some (s, Fault)
  else match run_hooks fuel s (siglist sg) sg with
       | None => None
       | Some (s, ran, c) =>
           if negb c && fatal then
             match run_hooks fuel s (siglist 0) sg with
             | None => None
             | Some (s, ran', _) => Some (s, Died ran ran')
             end
           else Some (s, Ran ran)
       end.

(** 610-625, [sighook_impl], when the allocation succeeds *)
Definition sighook_impl (s : state) (n sg : nat) (os ct : bool) : option state :=
  let s := set_hook s n (mkHook sg os ct) in
  let s := set_armed s n true in
  rcu_list_append s (siglist sg) n.

(** 627-639, [sighook].  [ok] is whether [siginit] and the allocation succeeded.
    641-660, [atsigexit], hooks signal 0 without flags. *)
Definition sighook (s : state) (n sg : nat) (os ct ok : bool) : option state :=
  if ok then sighook_impl s n sg os ct else Some s.

(** 662-675, [sigunhook] *)
Definition sigunhook (s : state) (n : nat) : option state := rcu_list_remove s (siglist (sig (hooks s n))) n.
