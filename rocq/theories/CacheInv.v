(** * What holds of the cache all the time *)

From Coq Require Import List Arith ZArith Bool Lia.
Import ListNotations.
From Verif Require Import CacheModel CacheSpec CacheLists.

(** What a function in progress has in its hands: pins, descriptors that are
    neither a file's nor a request's, descriptors that are not yet taken from
    the capacity, and directory streams. *)
Record extra : Type := Extra {
  xp : nat -> nat;
  xd : list nat;
  xk : nat;
  xs : nat;
}.

Definition parent_is (p f : nat) (s : st) : bool :=
  match parent f s with Some q => q =? p | None => false end.

Definition own (s : st) (f : nat) : nat :=
  (if is_queued f s then 1 else 0) +
  match cur s with
  | Some g => if g =? f then match now s with Dead => 0 | _ => 1 end else 0
  | None => 0
  end.

Definition kids (s : st) (f : nat) : nat :=
  counted (fun c => alive (files s c) && parent_is f c s) (count s).

Definition inpins (s : st) (p : nat) : nat :=
  length (filter (fun r => match req_file r with Some f => parent_is p f s | None => false end) (flight s)).

Definition reading (s : st) (f : nat) : nat :=
  match cur s, now s with
  | Some g, Reading => if g =? f then 1 else 0
  | _, _ => 0
  end.

Definition req_fds (r : req) : list nat :=
  match r with Ropen _ d _ | Rclose d | Rclosedir d => [d] | Rstat _ _ => [] end.

Definition fds (l : list req) : list nat := flat_map req_fds l.

Definition req_files (r : req) : list nat :=
  match req_file r with Some f => [f] | None => [] end.

Definition ffiles (l : list req) : list nat := flat_map req_files l.

Definition req_streams (r : req) : nat :=
  match r with Ropen _ _ _ | Rclosedir _ => 1 | _ => 0 end.

Definition fstreams (l : list req) : nat := list_sum (map req_streams l).

Definition dirs (s : st) : nat := counted (fun f => dir (files s f)) (count s).

Definition req_at (r : req) : option nat :=
  match r with Ropen _ _ a | Rstat _ a => a | _ => None end.

(** A file that nobody has opened yet. *)
Definition early (s : st) (f : nat) : Prop :=
  In f (queued s) \/ (cur s = Some f /\ now s = Taken).

Definition climbing (s : st) : Prop := now s = Dropping \/ now s = Dead.

(** The files, and who refers to them. *)
Record tree (s : st) : Prop := Tree {
  t_up : forall f, f < count s ->
    match up (files s f) with
    | [] => True
    | p :: r => p < f /\ up (files s p) = r /\ (alive (files s f) = true -> alive (files s p) = true)
    end;
  t_lt : forall f, alive (files s f) = true -> f < count s;
  t_refs : forall f, alive (files s f) = true -> refs (files s f) = own s f + kids s f;
  t_pos : forall f, alive (files s f) = true -> 0 < refs (files s f) \/ (cur s = Some f /\ now s = Dead);
  t_nodup : NoDup (queued s);
  t_queued : forall f, In f (queued s) -> alive (files s f) = true;
  t_cur : forall f, cur s = Some f -> alive (files s f) = true /\ ~ In f (queued s);
  t_leaf : forall f, early s f -> forall c, alive (files s c) = true -> parent c s <> Some f;
}.

Section Inv.

Variable B : nat.

(** The cache. *)
Record cache (x : extra) (s : st) : Prop := Cache {
  c_dead : forall f, alive (files s f) = false -> fd (files s f) = None;
  c_dir : forall f, dir (files s f) = true -> fd (files s f) <> None;
  c_pin : forall f, 0 < pins (files s f) -> fd (files s f) <> None;
  c_holds : forall f, holds (log s) f = fd (files s f);
  c_pinned : forall f, pinned (log s) f = pins (files s f);
  c_root : forall f, alive (files s f) = true -> root (log s) f = none (up (files s f));
  c_idle_nd : NoDup (idle (log s));
  c_idle : forall f, In f (idle (log s)) <-> fd (files s f) <> None /\ pins (files s f) = 0;
  c_lru : lru s = order (root (log s)) (idle (log s));
  c_target : target s = top (root (log s)) (idle (log s));
  c_live_nd : NoDup (live (log s));
  c_live : forall d, In d (live (log s)) <-> (exists f, fd (files s f) = Some d) \/ In d (fds (flight s)) \/ In d (xd x);
  c_inj : forall f g d, fd (files s f) = Some d -> fd (files s g) = Some d -> f = g;
  c_flight_nd : NoDup (fds (flight s) ++ xd x);
  c_apart : forall f d, fd (files s f) = Some d -> ~ In d (fds (flight s) ++ xd x);
  c_fresh : forall d, In d (live (log s)) -> d < fresh s;
  c_cap : cap s + length (live (log s)) <= B + xk x;
  c_lim : lim s = (dir_limit B - Z.of_nat (streams (log s)))%Z;
  c_streams : streams (log s) = dirs s + fstreams (flight s) + xs x;
  c_proper : proper B (log s);
  c_pins : forall f, pins (files s f) = inpins s f + reading s f + xp x f;
  c_queued : forall f, In f (ffiles (flight s)) -> In f (queued s);
  c_files_nd : NoDup (ffiles (flight s));
  c_open : forall f d a, In (Ropen f d a) (flight s) -> fd (files s f) = None;
  c_at : forall r f, In r (flight s) -> req_file r = Some f ->
    match parent f s with
    | Some p => req_at r = fd (files s p)
    | None => req_at r = None
    end;
  c_early : forall f, In f (queued s) -> fd (files s f) <> None -> dir (files s f) = true;
  c_to_close : forall f, In f (to_close s) -> alive (files s f) = true;
  c_late : forall f, In f (to_close s) -> ~ early s f;
  c_climb : climbing s -> forall p, In p (to_close s) -> exists f, In f (queued s) /\ parent f s = Some p;
}.

Definition inv (x : extra) (s : st) : Prop := tree s /\ cache x s.

Definition same_tree (s s' : st) : Prop :=
  count s' = count s /\ queued s' = queued s /\ cur s' = cur s /\ now s' = now s /\
  forall f, up (files s' f) = up (files s f) /\ alive (files s' f) = alive (files s f) /\
            refs (files s' f) = refs (files s f).

Lemma same_refl s : same_tree s s.
Proof. repeat split. Qed.

Lemma same_trans s1 s2 s3 : same_tree s1 s2 -> same_tree s2 s3 -> same_tree s1 s3.
Proof.
  intros (A1 & A2 & A3 & A4 & A) (B1 & B2 & B3 & B4 & B').
  unfold same_tree. rewrite B1, B2, B3, B4. repeat split; auto;
    destruct (A f) as (U & V & W); destruct (B' f) as (U' & V' & W'); congruence.
Qed.

Lemma same_parent s s' f : same_tree s s' -> parent f s' = parent f s.
Proof. intros (_ & _ & _ & _ & E). unfold parent. destruct (E f) as [-> _]. reflexivity. Qed.

Lemma same_parent_is s s' p f : same_tree s s' -> parent_is p f s' = parent_is p f s.
Proof. intros E. unfold parent_is. rewrite (same_parent _ _ _ E). reflexivity. Qed.

Lemma same_alive s s' f : same_tree s s' -> alive (files s' f) = alive (files s f).
Proof. intros (_ & _ & _ & _ & E). apply E. Qed.

Lemma same_up s s' f : same_tree s s' -> up (files s' f) = up (files s f).
Proof. intros (_ & _ & _ & _ & E). apply E. Qed.

Lemma same_refs s s' f : same_tree s s' -> refs (files s' f) = refs (files s f).
Proof. intros (_ & _ & _ & _ & E). apply E. Qed.

Lemma same_own s s' f : same_tree s s' -> own s' f = own s f.
Proof.
  intros (_ & Q & C & N & _). unfold own, is_queued. rewrite Q, C, N. reflexivity.
Qed.

Lemma same_kids s s' f : same_tree s s' -> kids s' f = kids s f.
Proof.
  intros E. pose proof E as (C & _). unfold kids. rewrite C. apply counted_ext.
  intros g _. rewrite (same_alive _ _ _ E), (same_parent_is _ _ _ _ E). reflexivity.
Qed.

Lemma same_reading s s' f : same_tree s s' -> reading s' f = reading s f.
Proof. intros (_ & _ & C & N & _). unfold reading. rewrite C, N. reflexivity. Qed.

Lemma same_early s s' f : same_tree s s' -> early s' f <-> early s f.
Proof. intros (_ & Q & C & N & _). unfold early. rewrite C, N, Q. tauto. Qed.

Lemma same_climbing s s' : same_tree s s' -> climbing s' <-> climbing s.
Proof. intros (_ & _ & _ & N & _). unfold climbing. rewrite N. tauto. Qed.

Lemma same_inpins s s' p : same_tree s s' -> flight s' = flight s -> inpins s' p = inpins s p.
Proof.
  intros E F. unfold inpins. rewrite F. f_equal. apply filter_ext_in. intros r _.
  destruct (req_file r); [|reflexivity]. apply same_parent_is, E.
Qed.

Lemma tree_same s s' : same_tree s s' -> tree s -> tree s'.
Proof.
  intros E [T1 T2 T3 T4 T5 T6 T7 T8]. pose proof E as (C & Q & U & N & _).
  constructor; intros; rewrite ?C, ?Q, ?U, ?N, ?(same_up _ _ _ E), ?(same_alive _ _ _ E), ?(same_refs _ _ _ E),
    ?(same_own _ _ _ E), ?(same_kids _ _ _ E), ?(same_parent _ _ _ E) in *; auto.
  - specialize (T1 f H). destruct (up (files s f)); [exact I|].
    rewrite (same_up _ _ _ E), (same_alive _ _ _ E). exact T1.
  - apply T8; [|exact H0]. apply (same_early _ _ _ E). exact H.
Qed.

(** ** Changing one file *)

Lemma files_put f y s g : files (put f y s) g = if g =? f then y else files s g.
Proof. reflexivity. Qed.

Lemma same_put f y s :
  up y = up (files s f) -> alive y = alive (files s f) -> refs y = refs (files s f) ->
  same_tree s (put f y s).
Proof.
  intros U A R. unfold same_tree, put, set_files. cbn [count queued cur now files]. repeat split;
    destruct (Nat.eqb_spec f0 f) as [->|]; auto.
Qed.

End Inv.
