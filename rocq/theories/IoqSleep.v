(** * Waiting and waking in the I/O queue *)

From Coq Require Import List Arith NArith ZArith Bool Lia ZifyBool ZifyNat ZifyN.
Import ListNotations.
From Verif Require Import IoqModel IoqWords IoqSpec IoqCount IoqNorm IoqInv.

(** Program counters between locking and unlocking a mutex *)
Definition holding (p : pc) : bool :=
  match p with Check _ | Mark _ | Wait _ | Recheck _ | Unlock _ | Wake2 _ => true | _ => false end.

(** What is known about the word a thread has seen *)
Definition fits (nx : N -> option N) (p : pc) : Prop :=
  match p with
  | Spin v | Lock v | Check v => nx v = None
  | Mark v => nx v = None /\ blocked v = false
  | Wait v | Sleep v | Woken v | Recheck v => nx v = None /\ blocked v = true
  | _ => True
  end.

Definition harmless (p : pc) : bool :=
  match p with Tickets | Load | Try _ => true | _ => false end.

Definition place := (which * nat * pc)%type.
Definition calm (o : option place) : Prop := match o with None => True | Some (_, _, p) => harmless p = true end.

Section Conc.
Variable monitor : nat -> nat.

(** Slots, mutexes, where each thread is, and what it wants to do *)
Record Conc (sl : which -> nat -> N) (ow : which -> nat -> option nat) (sp : nat -> option place) (nx : nat -> N -> option N) : Prop := {
  x_own : forall t q j p, sp t = Some (q, j, p) -> holding p = true -> ow q (monitor j) = Some t;
  x_hold : forall q m t, ow q m = Some t -> exists j p, sp t = Some (q, j, p) /\ holding p = true /\ monitor j = m;
  x_fit : forall t q j p, sp t = Some (q, j, p) -> fits (nx t) p;
  x_wait : forall t q j v, sp t = Some (q, j, Wait v) -> sl q j = v \/ exists u v', sp u = Some (q, j, Wake1 v');
  x_sleep : forall t q j v, sp t = Some (q, j, Sleep v) -> sl q j = v \/ exists u p, sp u = Some (q, j, p) /\ waking p = true;
}.

Lemma conc_ext sl ow sp nx sl' ow' sp' nx' :
  Conc sl ow sp nx -> (forall q j, sl' q j = sl q j) -> (forall q m, ow' q m = ow q m) -> (forall t, sp' t = sp t) -> (forall t v, nx' t v = nx t v) -> Conc sl' ow' sp' nx'.
Proof.
  intros [A B C D E] ES EO EP EN. constructor.
  - intros t q j p. rewrite EP, EO. apply A.
  - intros q m t. rewrite EO. intros X. destruct (B q m t X) as (j & p & Y). exists j, p. rewrite EP. exact Y.
  - intros t q j p. rewrite EP. intros X. specialize (C t q j p X). destruct p; cbn [fits] in *; rewrite ?EN; exact C.
  - intros t q j v. rewrite EP, ES. intros X. destruct (D t q j v X) as [Y|(u & v' & Y)]; [left; exact Y|right; exists u, v'; rewrite EP; exact Y].
  - intros t q j v. rewrite EP, ES. intros X. destruct (E t q j v X) as [Y|(u & p & Y)]; [left; exact Y|right; exists u, p; rewrite EP; exact Y].
Qed.

Ltac sp_cases u t := unfold upd in *; destruct (Nat.eqb_spec u t) as [?EQ|?NE]; [subst u|].

(** A thread moves outside of slots, or starts with a slot. *)
Lemma conc_calm sl ow sp nx t o f :
  Conc sl ow sp nx -> calm (sp t) -> calm o -> Conc sl ow (upd sp t o) (upd nx t f).
Proof.
  intros [A B C D E] H H'. constructor.
  - intros u q j p X Y. sp_cases u t; [subst o; destruct p; discriminate|]. apply (A u q j p X Y).
  - intros q m u X. destruct (B q m u X) as (j & p & Y & Z & Q). exists j, p. unfold upd. destruct (Nat.eqb_spec u t) as [EQ|NE]; [|auto]. subst u. rewrite Y in H. cbn [calm] in H. destruct p; discriminate.
  - intros u q j p X. sp_cases u t; [subst o; cbn [calm] in H'; destruct p; try discriminate H'; exact I|]. apply (C u q j p X).
  - intros u q j v X. sp_cases u t; [subst o; discriminate H'|]. destruct (D u q j v X) as [Y|(w & v' & Y)]; [left; exact Y|right; exists w, v'].
    destruct (Nat.eqb_spec w t) as [EQ|NW]; [|exact Y]. subst w. rewrite Y in H. discriminate H.
  - intros u q j v X. sp_cases u t; [subst o; discriminate H'|]. destruct (E u q j v X) as [Y|(w & p & Y & Z)]; [left; exact Y|right; exists w, p].
    destruct (Nat.eqb_spec w t) as [EQ|NW]; [|auto]. subst w. rewrite Y in H. cbn [calm] in H. destruct p; discriminate.
Qed.

(** A thread goes on without writing. *)
Lemma conc_move sl ow sp nx t q j p p' :
  Conc sl ow sp nx -> sp t = Some (q, j, p) -> waking p = false -> holding p' = holding p -> fits (nx t) p' ->
  (forall v, p' = Wait v -> sl q j = v) -> (forall v, p' <> Sleep v) ->
  Conc sl ow (upd sp t (Some (q, j, p'))) nx.
Proof.
  intros [A B C D E] SP WP HP FP WA NS. constructor.
  - intros u q0 j0 p0 X Y. sp_cases u t; [|apply (A u q0 j0 p0 X Y)]. injection X as <- <- <-. apply (A t q j p SP). congruence.
  - intros q0 m u X. destruct (B q0 m u X) as (j0 & p0 & Y & Z & Q). unfold upd. destruct (Nat.eqb_spec u t) as [EQ|NE]; [|eauto]. subst u. rewrite SP in Y. injection Y as <- <- <-. exists j, p'. split; [reflexivity|]. split; congruence.
  - intros u q0 j0 p0 X. sp_cases u t; [injection X as <- <- <-; exact FP|]. apply (C u q0 j0 p0 X).
  - intros u q0 j0 v X. assert (G : sl q0 j0 = v \/ exists u v', sp u = Some (q0, j0, Wake1 v')).
    { sp_cases u t; [injection X as <- <- ->; left; apply WA; reflexivity|apply (D u q0 j0 v X)]. }
    destruct G as [Y|(w & v' & Y)]; [left; exact Y|right; exists w, v']. unfold upd. destruct (Nat.eqb_spec w t) as [EQ|NW]; [|exact Y]. subst w. rewrite SP in Y. injection Y as <- <- ->. discriminate WP.
  - intros u q0 j0 v X. sp_cases u t; [injection X as <- <- ->; exfalso; apply (NS v); reflexivity|].
    destruct (E u q0 j0 v X) as [Y|(w & p0 & Y & Z)]; [left; exact Y|right; exists w, p0]. destruct (Nat.eqb_spec w t) as [EQ|NW]; [|auto]. subst w. rewrite SP in Y. injection Y as <- <- ->. congruence.
Qed.

Lemma upd2_same {A} (f : which -> nat -> A) q k v : upd2 f q k v q k = v.
Proof. unfold upd2, upd. destruct (which_eqb_spec q q); [|contradiction]. rewrite Nat.eqb_refl. reflexivity. Qed.
Lemma upd2_other {A} (f : which -> nat -> A) q k v q' k' : (q', k') <> (q, k) -> upd2 f q k v q' k' = f q' k'.
Proof. intros NE. unfold upd2, upd. destruct (which_eqb_spec q' q); [|reflexivity]. subst. destruct (Nat.eqb_spec k' k); [|reflexivity]. subst. contradiction. Qed.
Lemma pair_dec (a b : which * nat) : {a = b} + {a <> b}.
Proof. decide equality; [apply Nat.eq_dec|decide equality]. Qed.

(** A thread locks a mutex. *)
Lemma conc_lock sl ow sp nx t q j p p' :
  Conc sl ow sp nx -> sp t = Some (q, j, p) -> ow q (monitor j) = None -> holding p = false -> holding p' = true -> waking p' = waking p -> fits (nx t) p' ->
  (forall v, p' <> Wait v) -> (forall v, p' <> Sleep v) ->
  Conc sl (upd2 ow q (monitor j) (Some t)) (upd sp t (Some (q, j, p'))) nx.
Proof.
  intros [A B C D E] SP FREE HP HP' WP FP NW NS. constructor.
  - intros u q0 j0 p0 X Y. sp_cases u t; [injection X as <- <- <-; apply upd2_same|]. pose proof (A u q0 j0 p0 X Y) as Z. rewrite upd2_other; [exact Z|]. intros Q. injection Q as -> Q. rewrite Q in Z. congruence.
  - intros q0 m u X. destruct (pair_dec (q0, m) (q, monitor j)) as [Q|Q].
    + injection Q as -> ->. rewrite upd2_same in X. injection X as <-. exists j, p'. unfold upd. rewrite Nat.eqb_refl. auto.
    + rewrite upd2_other in X by exact Q. destruct (B q0 m u X) as (j0 & p0 & Y & Z & V). exists j0, p0. unfold upd. destruct (Nat.eqb_spec u t) as [EQ|NE]; [|auto]. subst u. rewrite SP in Y. injection Y as <- <- <-. congruence.
  - intros u q0 j0 p0 X. sp_cases u t; [injection X as <- <- <-; exact FP|]. apply (C u q0 j0 p0 X).
  - intros u q0 j0 v X. sp_cases u t; [injection X as <- <- ->; exfalso; apply (NW v); reflexivity|].
    destruct (D u q0 j0 v X) as [Y|(w & v' & Y)]; [left; exact Y|right; exists w, v']. destruct (Nat.eqb_spec w t) as [EQ|NT]; [|exact Y]. subst w. rewrite SP in Y. injection Y as <- <- ->.
    pose proof (A u q j _ X eq_refl). congruence.
  - intros u q0 j0 v X. sp_cases u t; [injection X as <- <- ->; exfalso; apply (NS v); reflexivity|].
    destruct (E u q0 j0 v X) as [Y|(w & p0 & Y & Z)]; [left; exact Y|right]. destruct (Nat.eq_dec w t) as [EQ|NT].
    + subst w. rewrite SP in Y. injection Y as <- <- <-. exists t, p'. rewrite Nat.eqb_refl. split; [reflexivity|congruence].
    + exists w, p0. destruct (Nat.eqb_spec w t); [contradiction|]. auto.
Qed.

(** A thread unlocks a mutex. *)
Lemma conc_unlock sl ow sp nx t q j p p' :
  Conc sl ow sp nx -> sp t = Some (q, j, p) -> holding p = true -> holding p' = false -> waking p' = waking p -> fits (nx t) p' ->
  (forall v, p' = Sleep v -> p = Wait v) ->
  Conc sl (upd2 ow q (monitor j) None) (upd sp t (Some (q, j, p'))) nx.
Proof.
  intros [A B C D E] SP HP HP' WP FP SW. pose proof (A t q j p SP HP) as MINE. constructor.
  - intros u q0 j0 p0 X Y. sp_cases u t; [injection X as <- <- <-; congruence|]. pose proof (A u q0 j0 p0 X Y) as Z. rewrite upd2_other; [exact Z|]. intros Q. injection Q as -> Q. rewrite Q in Z. congruence.
  - intros q0 m u X. destruct (pair_dec (q0, m) (q, monitor j)) as [Q|Q].
    + injection Q as -> ->. rewrite upd2_same in X. discriminate X.
    + rewrite upd2_other in X by exact Q. destruct (B q0 m u X) as (j0 & p0 & Y & Z & V). exists j0, p0. unfold upd. destruct (Nat.eqb_spec u t) as [EQ|NE]; [|auto]. subst u. rewrite SP in Y. injection Y as <- <- <-. congruence.
  - intros u q0 j0 p0 X. sp_cases u t; [injection X as <- <- <-; exact FP|]. apply (C u q0 j0 p0 X).
  - intros u q0 j0 v X. sp_cases u t; [injection X as <- <- ->; discriminate HP'|].
    destruct (D u q0 j0 v X) as [Y|(w & v' & Y)]; [left; exact Y|right; exists w, v']. destruct (Nat.eqb_spec w t) as [EQ|NT]; [|exact Y]. subst w. rewrite SP in Y. injection Y as <- <- ->. discriminate HP.
  - intros u q0 j0 v X. assert (G : sl q0 j0 = v \/ exists u p, sp u = Some (q0, j0, p) /\ waking p = true).
    { sp_cases u t; [|apply (E u q0 j0 v X)]. injection X as <- <- ->. rewrite (SW v eq_refl) in SP. destruct (D t q j v SP) as [Y|(w & v' & Y)]; [left; exact Y|right; exists w, (Wake1 v'); auto]. }
    destruct G as [Y|(w & p0 & Y & Z)]; [left; exact Y|right]. unfold upd. destruct (Nat.eq_dec w t) as [EQ|NT].
    + subst w. rewrite SP in Y. injection Y as <- <- <-. exists t, p'. rewrite Nat.eqb_refl. split; [reflexivity|congruence].
    + exists w, p0. destruct (Nat.eqb_spec w t); [contradiction|]. auto.
Qed.

(** A thread changes a slot. *)
Lemma conc_cas sl ow sp nx t q j prev n o f :
  Conc sl ow sp nx -> sp t = Some (q, j, Try prev) -> sl q j = prev ->
  (if blocked prev then o = Some (q, j, Wake1 prev) else calm o) ->
  Conc (upd2 sl q j n) ow (upd sp t o) (upd nx t f).
Proof.
  intros [A B C D E] SP SL O.
  assert (OH : forall q0 j0 p0, o = Some (q0, j0, p0) -> holding p0 = false /\ (forall g, fits g p0) /\ (forall v, p0 <> Wait v) /\ (forall v, p0 <> Sleep v)).
  { intros q0 j0 p0 ->. destruct (blocked prev).
    - injection O as -> -> ->. repeat split; discriminate.
    - cbn [calm] in O. destruct p0; try discriminate O; repeat split; discriminate. }
  assert (FIT : forall u q0 j0 v, sp u = Some (q0, j0, Wait v) \/ sp u = Some (q0, j0, Sleep v) -> blocked v = true) by (intros u q0 j0 v [X|X]; apply C in X; apply X).
  constructor.
  - intros u q0 j0 p0 X Y. sp_cases u t; [destruct (OH _ _ _ X); congruence|]. apply (A u q0 j0 p0 X Y).
  - intros q0 m u X. destruct (B q0 m u X) as (j0 & p0 & Y & Z & Q). exists j0, p0. unfold upd. destruct (Nat.eqb_spec u t) as [EQ|NE]; [|auto]. subst u. rewrite SP in Y. injection Y as <- <- <-. discriminate Z.
  - intros u q0 j0 p0 X. sp_cases u t; [destruct (OH _ _ _ X) as (_ & Y & _); apply Y|]. apply (C u q0 j0 p0 X).
  - intros u q0 j0 v X. sp_cases u t; [destruct (OH _ _ _ X) as (_ & _ & Y & _); exfalso; exact (Y v eq_refl)|].
    destruct (D u q0 j0 v X) as [Y|(w & v' & Y)].
    + destruct (pair_dec (q0, j0) (q, j)) as [Q|Q]; [|left; rewrite upd2_other by exact Q; exact Y]. injection Q as -> ->. right. exists t, prev. rewrite Nat.eqb_refl. assert (PV : prev = v) by congruence. rewrite PV, (FIT u q j v (or_introl X)) in O. rewrite PV. exact O.
    + right. exists w, v'. destruct (Nat.eqb_spec w t) as [EQ|NT]; [|exact Y]. subst w. congruence.
  - intros u q0 j0 v X. sp_cases u t; [destruct (OH _ _ _ X) as (_ & _ & _ & Y); exfalso; exact (Y v eq_refl)|].
    destruct (E u q0 j0 v X) as [Y|(w & p0 & Y & Z)].
    + destruct (pair_dec (q0, j0) (q, j)) as [Q|Q]; [|left; rewrite upd2_other by exact Q; exact Y]. injection Q as -> ->. right. exists t, (Wake1 prev). rewrite Nat.eqb_refl. assert (PV : prev = v) by congruence. rewrite PV, (FIT u q j v (or_intror X)) in O. rewrite PV. split; [exact O|reflexivity].
    + right. exists w, p0. destruct (Nat.eqb_spec w t) as [EQ|NT]; [|auto]. subst w. rewrite SP in Y. injection Y as <- <- <-. discriminate Z.
Qed.

(** A thread marks a slot as blocked. *)
Lemma conc_mark sl ow sp nx t q j v n :
  Conc sl ow sp nx -> sp t = Some (q, j, Mark v) -> sl q j = v -> nx t n = None -> blocked n = true ->
  Conc (upd2 sl q j n) ow (upd sp t (Some (q, j, Wait n))) nx.
Proof.
  intros [A B C D E] SP SL NX BL. destruct (C t q j _ SP) as [_ NB].
  assert (FIT : forall u q0 j0 v, sp u = Some (q0, j0, Wait v) \/ sp u = Some (q0, j0, Sleep v) -> blocked v = true) by (intros u q0 j0 w [X|X]; apply C in X; apply X).
  constructor.
  - intros u q0 j0 p0 X Y. sp_cases u t; [injection X as <- <- <-; apply (A t q j _ SP eq_refl)|]. apply (A u q0 j0 p0 X Y).
  - intros q0 m u X. destruct (B q0 m u X) as (j0 & p0 & Y & Z & Q). unfold upd. destruct (Nat.eqb_spec u t) as [EQ|NE]; [|eauto]. subst u. rewrite SP in Y. injection Y as <- <- <-. exists j, (Wait n). auto.
  - intros u q0 j0 p0 X. sp_cases u t; [injection X as <- <- <-; split; assumption|]. apply (C u q0 j0 p0 X).
  - intros u q0 j0 w X. sp_cases u t; [injection X as <- <- <-; left; apply upd2_same|].
    destruct (D u q0 j0 w X) as [Y|(z & v' & Y)].
    + left. rewrite upd2_other; [exact Y|]. intros Q. injection Q as -> ->. pose proof (FIT u q j w (or_introl X)). congruence.
    + right. exists z, v'. destruct (Nat.eqb_spec z t) as [EQ|NT]; [|exact Y]. subst z. congruence.
  - intros u q0 j0 w X. sp_cases u t; [discriminate X|].
    destruct (E u q0 j0 w X) as [Y|(z & p0 & Y & Z)].
    + left. rewrite upd2_other; [exact Y|]. intros Q. injection Q as -> ->. pose proof (FIT u q j w (or_intror X)). congruence.
    + right. exists z, p0. destruct (Nat.eqb_spec z t) as [EQ|NT]; [|auto]. subst z. rewrite SP in Y. injection Y as <- <- <-. discriminate Z.
Qed.

Definition wake_spot (q : which) (m : nat) (o : option place) : option place :=
  match o with
  | Some (q', j, Sleep v) => Some (q', j, if which_eqb q' q && (monitor j =? m) then Woken v else Sleep v)
  | _ => o
  end.

(** A thread wakes up those that sleep. *)
Lemma conc_wake sl ow sp nx t q j prev o f :
  Conc sl ow sp nx -> sp t = Some (q, j, Wake3 prev) -> calm o ->
  Conc sl ow (upd (fun u => wake_spot q (monitor j) (sp u)) t o) (upd nx t f).
Proof.
  intros [A B C D E] SP O.
  assert (INV : forall u q0 j0 p0, wake_spot q (monitor j) (sp u) = Some (q0, j0, p0) ->
     sp u = Some (q0, j0, p0) \/ exists v, sp u = Some (q0, j0, Sleep v) /\ p0 = Woken v).
  { intros u q0 j0 p0. destruct (sp u) as [[[q1 j1] p1]|]; cbn [wake_spot]; [|discriminate]. destruct p1; try (left; assumption). destruct (_ && _)%bool; intros X; injection X as <- <- <-; [right; eauto|left; reflexivity]. }
  assert (KEEP : forall u q0 j0 p0, sp u = Some (q0, j0, p0) -> (forall v, p0 <> Sleep v) -> wake_spot q (monitor j) (sp u) = Some (q0, j0, p0)).
  { intros u q0 j0 p0 -> NS. destruct p0; try reflexivity. exfalso. apply (NS value). reflexivity. }
  constructor.
  - intros u q0 j0 p0 X Y. sp_cases u t; [subst o; destruct p0; discriminate|]. destruct (INV _ _ _ _ X) as [Z|(v & Z & ->)]; [apply (A u q0 j0 p0 Z Y)|discriminate Y].
  - intros q0 m u X. destruct (B q0 m u X) as (j0 & p0 & Y & Z & Q). exists j0, p0. unfold upd. destruct (Nat.eqb_spec u t) as [EQ|NE]; [subst u; rewrite SP in Y; injection Y as <- <- <-; discriminate Z|].
    split; [|auto]. apply KEEP; [exact Y|]. intros v ->. discriminate Z.
  - intros u q0 j0 p0 X. sp_cases u t; [subst o; cbn [calm] in O; destruct p0; try discriminate O; exact I|]. destruct (INV _ _ _ _ X) as [Z|(v & Z & ->)]; [apply (C u q0 j0 p0 Z)|apply (C u q0 j0 (Sleep v) Z)].
  - intros u q0 j0 v X. sp_cases u t; [subst o; discriminate O|]. destruct (INV _ _ _ _ X) as [Y|(v0 & _ & Y)]; [|discriminate Y].
    destruct (D u q0 j0 v Y) as [Z|(w & v' & Z)]; [left; exact Z|right; exists w, v']. destruct (Nat.eqb_spec w t) as [EQ|NT]; [subst w; congruence|]. apply KEEP; [exact Z|discriminate].
  - intros u q0 j0 v X. sp_cases u t; [subst o; discriminate O|]. pose proof X as X0. destruct (INV _ _ _ _ X) as [Y|(v0 & _ & Y)]; [|discriminate Y].
    destruct (E u q0 j0 v Y) as [Z|(w & p0 & Z & Q)]; [left; exact Z|right; exists w, p0]. destruct (Nat.eqb_spec w t) as [EQ|NT].
    + subst w. exfalso. rewrite SP in Z. injection Z as <- <- <-. rewrite Y in X0. cbn [wake_spot] in X0. rewrite Nat.eqb_refl in X0. destruct (which_eqb_spec q q); [|contradiction]. discriminate X0.
    + split; [|exact Q]. apply KEEP; [exact Z|]. intros v0 ->. discriminate Q.
Qed.
End Conc.

Section Lift.
Variable depth workers bexp : nat.
Variable monitor : nat -> nat.
Variable stop : N.
Variable asserts : bool.

Local Notation size := (size depth).
Local Notation step := (step depth bexp monitor stop asserts).

Definition spot (j : task) : option place :=
  match j with
  | Rest => None
  | Push q _ i _ p | Pop q _ i _ _ p => Some (q, i mod size, p)
  end.
Definition nxt (j : task) : N -> option N :=
  match j with
  | Rest => fun _ => None
  | Push _ todo _ _ _ => push_next (hd 0%N todo)
  | Pop _ _ _ _ block _ => pop_next block
  end.
Definition conc (s : st) : Prop := Conc monitor (slots s) (owner s) (fun t => spot (job (th s t))) (fun t => nxt (job (th s t))).

Lemma conc_init : conc (init workers).
Proof. constructor; cbn; discriminate. Qed.

Lemma spot_flush q l : calm (spot (flush q l)).
Proof. destruct l; reflexivity || exact I. Qed.

(** Steps outside of the queues *)
Lemma conc_quiet t s s' x :
  conc s -> slots s' = slots s -> owner s' = owner s -> (forall u, th s' u = upd (th s) t x u) -> calm (spot (job (th s t))) -> calm (spot (job x)) -> conc s'.
Proof.
  intros C ES EO TH O O'. eapply conc_ext; [apply (conc_calm _ _ _ _ _ t (spot (job x)) (nxt (job x)) C); assumption|..].
  - rewrite ES. reflexivity.
  - rewrite EO. reflexivity.
  - intros u. rewrite TH. unfold upd. destruct (u =? t); reflexivity.
  - intros u v. rewrite TH. unfold upd. destruct (u =? t); reflexivity.
Qed.

Definition aside (t : nat) (s s' : st) : Prop :=
  slots s' = slots s /\ owner s' = owner s /\ exists x, (forall u, th s' u = upd (th s) t x u) /\ calm (spot (job x)).

Lemma aside_conc t s s' : conc s -> job (th s t) = Rest -> aside t s s' -> conc s'.
Proof. intros C J (ES & EO & x & TH & ST). apply (conc_quiet t s s' x C ES EO TH); [rewrite J; exact I|exact ST]. Qed.

Lemma aside_refl t s : job (th s t) = Rest -> aside t s s.
Proof.
  intros J. split; [reflexivity|split; [reflexivity|]]. exists (th s t). split; [|rewrite J; exact I].
  intros u. unfold upd. destruct (Nat.eqb_spec u t); subst; reflexivity.
Qed.

Ltac aside := split; [reflexivity|split; [reflexivity|]]; eexists; split; [intros u; reflexivity|cbn [job]; try apply spot_flush; try exact I; reflexivity].

Lemma aside_worker t s s' : job (th s t) = Rest -> worker_step bexp stop asserts t s = Some s' -> aside t s s'.
Proof.
  intros J H. unfold worker_step in H.
  repeat (match type of H with context [match ?x with _ => _ end] => destruct x; try discriminate H end); injection H as <-; try (apply aside_refl, J); aside.
Qed.
Lemma aside_take x s : aside 0 s (take x s).
Proof. unfold take. destruct (done x); aside. Qed.
Lemma aside_owner o s : job (th s 0) = Rest -> aside 0 s (owner_step depth bexp stop o s).
Proof.
  intros J. unfold owner_step. destruct o as [p close| |block|p|].
  - destruct (cancel s); [apply aside_refl, J|]. destruct (depth <=? count s); [apply aside_refl, J|]. destruct (usable _ _ _); [|apply aside_refl, J]. destruct (_ <=? _); aside.
  - aside.
  - destruct (pend (th s 0)); [|apply aside_refl, J]. destruct (count s =? 0); [apply aside_refl, J|]. destruct (done (th s 0)); [|apply aside_take]. destruct (_ && _)%bool; aside.
  - destruct (existsb _ _); [|apply aside_refl, J]. destruct (aside_refl 0 s J) as (_ & _ & X). split; [reflexivity|split; [reflexivity|exact X]].
  - destruct (cancel s); [apply aside_refl, J|]. aside.
Qed.

(** Steps at a slot *)
Lemma conc_slot t q j b s p sl :
  conc s -> spot (job (th s t)) = Some (q, j, p) -> p <> Tickets ->
  sl = slot_step depth monitor t q j (nxt (job (th s t))) p b s ->
  (forall v, p = Mark v -> slots s q j = v -> nxt (job (th s t)) v = None -> nxt (job (th s t)) (N.lor v BLOCKED) = None) ->
  match sl with
  | Stay => True
  | Next p' s1 => forall x s', spot (job x) = Some (q, j, p') -> (forall v, nxt (job x) v = nxt (job (th s t)) v) -> slots s' = slots s1 -> owner s' = owner s1 -> (forall u, th s' u = upd (th s) t x u) -> conc s'
  | Fin prev s1 => forall x s', calm (spot (job x)) -> slots s' = slots s1 -> owner s' = owner s1 -> (forall u, th s' u = upd (th s1) t x u) -> conc s'
  end.
Proof.
  intros C SP NT -> MK. pose proof (x_fit _ _ _ _ _ C t q j p SP) as FT. cbv beta in FT.
  assert (FITX : forall x p', (forall v, nxt (job x) v = nxt (job (th s t)) v) -> fits (nxt (job (th s t))) p' -> fits (nxt (job x)) p').
  { intros x p' E F. destruct p'; cbn [fits] in *; rewrite ?E; exact F. }
  assert (SAME : forall (sl : which -> nat -> N) ow p' x s', Conc monitor sl ow (upd (fun t => spot (job (th s t))) t (Some (q, j, p'))) (fun t => nxt (job (th s t))) ->
     spot (job x) = Some (q, j, p') -> (forall v, nxt (job x) v = nxt (job (th s t)) v) -> slots s' = sl -> owner s' = ow -> (forall u, th s' u = upd (th s) t x u) -> conc s').
  { intros sl ow p' x s' H SX NX E1 E2 TH. eapply conc_ext; [exact H|..].
    - rewrite E1. reflexivity.
    - rewrite E2. reflexivity.
    - intros u. rewrite TH. unfold upd. destruct (u =? t); [exact SX|reflexivity].
    - intros u v. rewrite TH. unfold upd. destruct (Nat.eqb_spec u t); [subst; apply NX|reflexivity]. }
  assert (MOVE : forall p', waking p = false -> holding p' = holding p -> fits (nxt (job (th s t))) p' -> (forall v, p' = Wait v -> slots s q j = v) -> (forall v, p' <> Sleep v) ->
     forall x s', spot (job x) = Some (q, j, p') -> (forall v, nxt (job x) v = nxt (job (th s t)) v) -> slots s' = slots s -> owner s' = owner s -> (forall u, th s' u = upd (th s) t x u) -> conc s').
  { intros p' W H F WA NS x s' SX NX E1 E2 TH. apply (SAME (slots s) (owner s) p' x s'); try assumption. apply (conc_move monitor _ _ _ _ t q j p p' C SP W H F WA NS). }
  unfold slot_step. destruct p; try contradiction.
  - (* Load *) apply MOVE; try reflexivity; discriminate.
  - (* Try *) destruct (nxt (job (th s t)) prev) as [n|] eqn:NX.
    2:{ apply MOVE; try reflexivity; try discriminate. exact NX. }
    destruct (N.eqb_spec (slots s q j) prev) as [E|NE]; cbn [andb]; [|apply MOVE; try reflexivity; discriminate].
    destruct (negb b); [|apply MOVE; try reflexivity; discriminate].
    pose proof (fun o f H => conc_cas monitor _ _ _ _ t q j prev n o f C SP E H) as CAS. destruct (blocked prev) eqn:BP.
    + intros x s' SX NX' E1 E2 TH. eapply conc_ext; [apply (CAS (Some (q, j, Wake1 prev)) (nxt (job x)) eq_refl)|..].
      * rewrite E1. reflexivity.
      * rewrite E2. reflexivity.
      * intros u. rewrite TH. unfold upd. destruct (u =? t); [exact SX|reflexivity].
      * intros u v. rewrite TH. unfold upd. destruct (u =? t); reflexivity.
    + intros x s' O E1 E2 TH. eapply conc_ext; [apply (CAS (spot (job x)) (nxt (job x)) O)|..].
      * rewrite E1. reflexivity.
      * rewrite E2. reflexivity.
      * intros u. rewrite TH. unfold upd. destruct (u =? t); reflexivity.
      * intros u v. rewrite TH. unfold upd. destruct (u =? t); reflexivity.
  - (* Spin *) destruct (slots s q j =? value)%N; [destruct b; [exact I|]|]; apply MOVE; try reflexivity; try discriminate; exact FT.
  - (* Lock *) destruct (owner s q (monitor j)) eqn:OW; [exact I|]. intros x s' SX NX E1 E2 TH. eapply SAME; try eassumption.
    apply (conc_lock monitor _ _ _ _ t q j (Lock value) (Check value) C SP OW); try reflexivity; try discriminate. exact FT.
  - (* Check *) destruct (N.eqb_spec (slots s q j) value) as [E|NE]; [|apply MOVE; try reflexivity; discriminate]. destruct (blocked value) eqn:BV; apply MOVE; try reflexivity; try discriminate.
    + split; assumption.
    + intros v X. injection X as <-. exact E.
    + split; assumption.
  - (* Mark *) destruct FT as [FT BV]. destruct (N.eqb_spec (slots s q j) value) as [E|NE]; [|apply MOVE; try reflexivity; discriminate].
    intros x s' SX NX E1 E2 TH. eapply SAME; try eassumption. apply (conc_mark monitor _ _ _ _ t q j value _ C SP E); [apply MK; auto|]. rewrite blocked_odd. unfold BLOCKED. destruct value as [|[v|v|]]; reflexivity.
  - (* Wait *) intros x s' SX NX E1 E2 TH. eapply SAME; try eassumption. apply (conc_unlock monitor _ _ _ _ t q j (Wait value) (Sleep value) C SP); try reflexivity; try discriminate; [exact FT|]. intros v X. injection X as <-. reflexivity.
  - (* Sleep *) destruct b; [|exact I]. apply MOVE; try reflexivity; try discriminate. exact FT.
  - (* Woken *) destruct (owner s q (monitor j)) eqn:OW; [exact I|]. intros x s' SX NX E1 E2 TH. eapply SAME; try eassumption.
    apply (conc_lock monitor _ _ _ _ t q j (Woken value) (Recheck value) C SP OW); try reflexivity; try discriminate. exact FT.
  - (* Recheck *) destruct (N.eqb_spec (slots s q j) value) as [E|NE]; apply MOVE; try reflexivity; try discriminate; [exact FT|]. intros v X. injection X as <-. exact E.
  - (* Unlock *) intros x s' SX NX E1 E2 TH. eapply SAME; try eassumption. apply (conc_unlock monitor _ _ _ _ t q j (Unlock ret) (Try ret) C SP); try reflexivity; discriminate.
  - (* Wake1 *) destruct (owner s q (monitor j)) eqn:OW; [exact I|]. intros x s' SX NX E1 E2 TH. eapply SAME; try eassumption.
    apply (conc_lock monitor _ _ _ _ t q j (Wake1 prev) (Wake2 prev) C SP OW); try reflexivity; discriminate.
  - (* Wake2 *) intros x s' SX NX E1 E2 TH. eapply SAME; try eassumption. apply (conc_unlock monitor _ _ _ _ t q j (Wake2 prev) (Wake3 prev) C SP); try reflexivity; discriminate.
  - (* Wake3 *) intros x s' O E1 E2 TH. eapply conc_ext; [apply (conc_wake monitor _ _ _ _ t q j prev (spot (job x)) (nxt (job x)) C SP O)|..].
    + rewrite E1. reflexivity.
    + rewrite E2. reflexivity.
    + intros u. rewrite TH. unfold upd. destruct (u =? t); [reflexivity|]. cbn [broadcast set_th th set_job job]. destruct (job (th s u)) as [|q0 todo i more p0|q0 got i more block p0]; [reflexivity|..]; cbn [wake_task spot wake_spot]; destruct p0; try reflexivity; cbn [wake_pc]; destruct (_ && _)%bool; reflexivity.
    + intros u v. rewrite TH. unfold upd. destruct (u =? t); [reflexivity|]. cbn [broadcast set_th th set_job job]. destruct (job (th s u)); reflexivity.
Qed.

Lemma mark_next k s a t q i p :
  (N.of_nat k < 2 ^ 61)%N -> sim k s a -> solid a -> busy s -> spot (job (th s t)) = Some (q, i, p) -> p <> Tickets -> waking p = false ->
  forall v, slots s q i = v -> nxt (job (th s t)) v = None -> nxt (job (th s t)) (N.lor v BLOCKED) = None.
Proof.
  intros KB M SO B SP NT NW w <- NX. destruct (m_slot _ _ _ M q i) as (v & b & V & A & CW & BD). rewrite CW in *.
  assert (L : N.lor (word v b) BLOCKED = word v true).
  { destruct b; [|apply word_mark, V]. rewrite <- (word_mark v V), <- N.lor_assoc. f_equal. }
  rewrite L. specialize (B t). specialize (SO t). rewrite (m_th _ _ _ M t) in SO. unfold normal in SO. cbn [set_job job] in SO.
  destruct (job (th s t)) as [|q0 todo i0 more p0|q0 got i0 more block p0]; [discriminate SP|..]; cbn [spot nxt] in *; injection SP as -> _ ->.
  - assert (VE : valid (Full (hd 0%N todo))).
    { destruct p; try contradiction; try discriminate NW; cbn [norm] in SO; apply SO; destruct B as [E|G]; try discriminate E; exact G. }
    rewrite word_push in NX |- * by assumption. destruct (after_push (hd 0%N todo) v); [discriminate NX|reflexivity].
  - assert (ns : forall n, v = Skips n -> (n < 2 ^ 61)%N) by (intros n E; specialize (BD n E); lia).
    rewrite word_pop in NX |- * by assumption. destruct (after_pop block v); [discriminate NX|reflexivity].
Qed.

Lemma conc_step k s a t b o s' :
  (N.of_nat k < 2 ^ 61)%N -> sim k s a -> solid a -> busy s ->
  (at_ (th s t) = M_idle \/ at_ (th s t) = M_filled -> t = 0) ->
  conc s -> step t b o s = Some s' -> conc s'.
Proof.
  intros KB M SO B Z C H. unfold IoqModel.step in H.
  destruct (job (th s t)) as [|q todo i more p|q got i more block p] eqn:J.
  - assert (WK : worker_step bexp stop asserts t s = Some s' -> conc s').
    { intros W. apply (aside_conc t s s' C J). apply (aside_worker t s s' J W). }
    destruct (at_ (th s t)) eqn:AT; try exact (WK H).
    + assert (t = 0) by auto. subst t. injection H as <-. apply (aside_conc 0 s _ C J). apply aside_owner, J.
    + assert (t = 0) by auto. subst t. injection H as <-. apply (aside_conc 0 s _ C J). apply aside_take.
  - injection H as <-. unfold queue_step. rewrite J.
    assert (NT : p = Tickets \/ p <> Tickets) by (destruct p; auto; right; discriminate). destruct NT as [-> | NT].
    { apply (conc_quiet t s _ (set_job (Push q todo (head s q) (length todo) Load) (th s t)) C); try reflexivity. rewrite J. reflexivity. }
    assert (SP : spot (job (th s t)) = Some (q, i mod size, p)) by (rewrite J; reflexivity).
    assert (G : conc (match slot_step depth monitor t q (i mod size) (push_next (hd 0%N todo)) p b s with
       | Stay => s
       | Next p' s' => put_th t (set_job (Push q todo i more p') (th s t)) s'
       | Fin prev s' => put_th t (set_job (push_on q (if pushed prev then tl todo else todo) (S i) (pred more)) (th s t)) s' end)); [|destruct p; try contradiction; exact G].
    pose proof (conc_slot t q (i mod size) b s p _ C SP NT eq_refl ltac:(intros v -> E N; apply (mark_next k s a t q (i mod size) (Mark v) KB M SO B SP NT eq_refl v E N))) as CS.
    rewrite J in CS. cbn [nxt] in CS. destruct (slot_step depth monitor t q (i mod size) (push_next (hd 0%N todo)) p b s) as [|p' s1|prev s1] eqn:SS; [exact C|..].
    + apply (CS (set_job (Push q todo i more p') (th s t))); try reflexivity. intros u. cbn [put_th set_th th]. unfold upd. destruct (u =? t); [reflexivity|]. apply (slot_step_busy depth monitor _ _ _ _ _ _ _ _ _ SS).
    + apply (CS (set_job (push_on q (if pushed prev then tl todo else todo) (S i) (pred more)) (th s t))); try reflexivity. cbn [set_job job]. destruct (pred more); cbn [push_on]; [destruct (if pushed prev then tl todo else todo); reflexivity || exact I|reflexivity].
  - injection H as <-. unfold queue_step. rewrite J.
    assert (NT : p = Tickets \/ p <> Tickets) by (destruct p; auto; right; discriminate). destruct NT as [-> | NT].
    { apply (conc_quiet t s _ (set_job (Pop q [] (tail s q) (batch bexp) block Load) (th s t)) C); try reflexivity. rewrite J. reflexivity. }
    assert (SP : spot (job (th s t)) = Some (q, i mod size, p)) by (rewrite J; reflexivity).
    assert (G : conc (match slot_step depth monitor t q (i mod size) (pop_next block) p b s with
       | Stay => s
       | Next p' s' => put_th t (set_job (Pop q got i more block p') (th s t)) s'
       | Fin prev s' => put_th t (pop_on t q (got ++ [popped prev]) (S i) (pred more) (th s t)) s' end)); [|destruct p; try contradiction; exact G].
    pose proof (conc_slot t q (i mod size) b s p _ C SP NT eq_refl ltac:(intros v -> E N; apply (mark_next k s a t q (i mod size) (Mark v) KB M SO B SP NT eq_refl v E N))) as CS.
    rewrite J in CS. cbn [nxt] in CS. destruct (slot_step depth monitor t q (i mod size) (pop_next block) p b s) as [|p' s1|prev s1] eqn:SS; [exact C|..].
    + apply (CS (set_job (Pop q got i more block p') (th s t))); try reflexivity. intros u. cbn [put_th set_th th]. unfold upd. destruct (u =? t); [reflexivity|]. apply (slot_step_busy depth monitor _ _ _ _ _ _ _ _ _ SS).
    + apply (CS (pop_on t q (got ++ [popped prev]) (S i) (pred more) (th s t))); try reflexivity. destruct (pred more); cbn [pop_on]; [destruct (t =? 0); exact I|reflexivity].
Qed.
End Lift.
