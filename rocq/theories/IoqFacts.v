(** * Facts about the I/O queue *)

From Coq Require Import List Arith NArith ZArith Bool Lia ZifyBool ZifyNat ZifyN.
Import ListNotations.
From Verif Require Import IoqModel IoqWords IoqSpec IoqCount IoqNorm IoqInv IoqAcct IoqTick IoqStop IoqSleep IoqRun IoqQuiet.

Section Facts.
Variable depth workers bexp : nat.
Variable monitor : nat -> nat.
Variable stop : N.
Variable asserts : bool.
Hypothesis stop_ok : valid (Full stop).
Hypothesis workers_pos : 1 <= workers.

Local Notation size := (size depth).
Local Notation batch := (batch bexp).
Local Notation Inv := (Inv depth workers bexp stop asserts).
Local Notation step := (step depth bexp monitor stop asserts).
Local Notation run := (run depth workers bexp monitor stop asserts).
Local Notation well := (well depth workers bexp monitor stop asserts).
Local Notation spot := (spot depth).
Local Notation queue_step := (queue_step depth bexp monitor).
Local Notation halted := (halted depth workers bexp monitor stop asserts).
Local Notation waits := (waits depth workers bexp monitor stop asserts).
Local Notation stuck := (stuck depth).
Local Notation nB := (nB depth workers).
Local Notation nA := (nA depth workers).

(** ** What a word says *)
Lemma entry_word v b : valid v -> has_entry (word v b) <-> exists e, v = Full e.
Proof.
  intros V. unfold has_entry. change (2 ^ 63)%N with 9223372036854775808%N. destruct v as [|e|n]; cbn [valid word] in *.
  - split; [destruct b; lia|intros (e & E); discriminate E].
  - split; [eauto|]. intros _. change (2 ^ 64)%N with 18446744073709551616%N in V. destruct b; lia.
  - split; [|intros (e & E); discriminate E]. change (2 ^ 61)%N with 2305843009213693952%N in V. change (2 ^ 64)%N with 18446744073709551616%N. destruct b; lia.
Qed.

(** A thread that waits has a reason to. *)
Lemma why k s a t q j v : (N.of_nat k < 2 ^ 61)%N -> well k s a -> spot (job (th s t)) = Some (q, j, Sleep v) -> slots s q j = v ->
  exists vv b, valid vv /\ slots s q j = word vv b /\ slots a q j = word vv false /\
    match job (th s t) with
    | Push _ _ _ _ _ => exists e, vv = Full e
    | Pop _ _ _ _ block _ => block = true /\ forall e, vv <> Full e
    | Rest => True
    end.
Proof.
  intros KB (M & IA & B & C & GN) SP SL. pose proof (x_fit _ _ _ _ _ C t q j (Sleep v) SP) as [NX _]. cbv beta in NX. destruct (m_slot _ _ _ M q j) as (vv & b & V & A & CW & BD).
  exists vv, b. split; [exact V|split; [exact CW|split; [exact A|]]]. rewrite <- SL, CW in NX. specialize (B t). pose proof (inv_solid depth workers bexp monitor stop asserts stop_ok workers_pos a IA t) as SO. rewrite (m_th _ _ _ M t) in SO. unfold normal in SO. cbn [set_job job] in SO.
  destruct (job (th s t)) as [|q0 todo i0 more p0|q0 got i0 more block p0]; [discriminate SP|..]; cbn [IoqSleep.spot nxt] in *; injection SP as -> _ ->; destruct B as [E|G]; try discriminate E.
  - cbn [norm] in SO. rewrite word_push in NX by auto. destruct vv; cbn [after_push option_map] in NX; try discriminate NX. eauto.
  - assert (ns : forall n, vv = Skips n -> (n < 2 ^ 61)%N) by (intros n E; specialize (BD n E); lia).
    rewrite word_pop in NX by assumption. destruct vv; cbn [after_pop option_map] in NX; try discriminate NX; destruct block; try discriminate NX; split; try reflexivity; discriminate.
Qed.

Lemma sleeper k s a t q j v : well k s a -> spot (job (th s t)) = Some (q, j, Sleep v) -> slots s q j = v \/ exists u, wakes size s u q j.
Proof.
  intros (M & IA & B & C & GN) SP. destruct (x_sleep _ _ _ _ _ C t q j v SP) as [E|(u & p & SU & W)]; [left; exact E|right]. exists u. unfold wakes. cbv beta in SU.
  destruct (job (th s u)) as [|q0 todo i0 more p0|q0 got i0 more block p0]; [discriminate SU|..]; cbn [IoqSleep.spot] in SU; injection SU as -> <- ->; auto.
Qed.

Lemma no_lost_wakeup l s : (N.of_nat (length l) < 2 ^ 61)%N -> run l = Some s ->
  (forall t q i, sleeps_to_push size s t q i -> has_entry (slots s q i) \/ exists u, wakes size s u q i) /\
  (forall t q i, sleeps_to_pop size s t q i -> ~ has_entry (slots s q i) \/ exists u, wakes size s u q i).
Proof.
  intros KB H. destruct (well_run depth workers bexp monitor stop asserts stop_ok workers_pos l s ltac:(lia) H) as (a & WL). split.
  - intros t q i (todo & n & more & v & J & ->). assert (SP : spot (job (th s t)) = Some (q, n mod size, Sleep v)) by (rewrite J; reflexivity).
    destruct (sleeper _ s a t q _ v WL SP) as [E|E]; [left|right; exact E]. destruct (why _ s a t q _ v KB WL SP E) as (vv & b & V & W & _ & Y). rewrite J in Y. rewrite W. apply entry_word; [exact V|exact Y].
  - intros t q i (got & n & more & block & v & J & ->). assert (SP : spot (job (th s t)) = Some (q, n mod size, Sleep v)) by (rewrite J; reflexivity).
    destruct (sleeper _ s a t q _ v WL SP) as [E|E]; [left|right; exact E]. destruct (why _ s a t q _ v KB WL SP E) as (vv & b & V & W & _ & Y). rewrite J in Y. rewrite W, entry_word by exact V. intros (e & X). destruct Y as [_ Y]. exact (Y e X).
Qed.

(** ** Threads that cannot go on *)
Lemma slot_goes t q j next p s :
  match slot_step depth monitor t q j next p false s with
  | Stay => match p with Tickets | Sleep _ => True | Lock _ | Woken _ | Wake1 _ => owner s q (monitor j) <> None | _ => False end
  | Next p' _ => p' <> p
  | Fin _ _ => p <> Load /\ p <> Tickets
  end.
Proof.
  unfold slot_step. destruct p; try exact I; try discriminate.
  - destruct (next prev); [|discriminate]. destruct (N.eqb_spec (slots s q j) prev) as [E|NE]; cbn [andb negb]; [destruct (blocked prev); [discriminate|split; discriminate]|]. intros X. injection X as X. contradiction.
  - destruct (slots s q j =? value)%N; discriminate.
  - destruct (owner s q (monitor j)); discriminate.
  - destruct (slots s q j =? value)%N; [destruct (blocked value)|]; discriminate.
  - destruct (slots s q j =? value)%N; discriminate.
  - destruct (owner s q (monitor j)); discriminate.
  - destruct (slots s q j =? value)%N; discriminate.
  - destruct (owner s q (monitor j)); discriminate.
  - split; discriminate.
Qed.

Lemma halted_pc t s q j p : queue_step t false s = s -> spot (job (th s t)) = Some (q, j, p) ->
  match p with
  | Sleep _ => True
  | Lock _ | Woken _ | Wake1 _ => owner s q (monitor j) <> None
  | _ => False
  end.
Proof.
  intros E SP. assert (T : job (th (queue_step t false s) t) = job (th s t)) by (rewrite E; reflexivity). clear E.
  assert (P : forall x s', job (th (put_th t x s') t) = job x) by (intros x s'; cbn [put_th set_th th]; rewrite upd_same; reflexivity).
  unfold IoqModel.queue_step in T. destruct (job (th s t)) as [|q0 todo i more p0|q0 got i more block p0] eqn:J; [discriminate SP|..]; cbn [IoqSleep.spot] in SP; injection SP as -> <- ->.
  - pose proof (slot_goes t q (i mod size) (push_next (hd 0%N todo)) p s) as G.
    assert (D : p = Tickets \/ job (th match slot_step depth monitor t q (i mod size) (push_next (hd 0%N todo)) p false s with
      | Stay => s
      | Next p' s' => put_th t (set_job (Push q todo i more p') (th s t)) s'
      | Fin prev s' => put_th t (set_job (push_on q (if pushed prev then tl todo else todo) (S i) (pred more)) (th s t)) s' end t) = Push q todo i more p).
    { destruct p; [left; reflexivity|..]; right; exact T. }
    destruct D as [-> | D]; [rewrite P in T; discriminate T|]. destruct (slot_step depth monitor t q (i mod size) (push_next (hd 0%N todo)) p false s) as [|p' s'|prev s'].
    + destruct p; try exact G. rewrite P in T. discriminate T.
    + rewrite P in D. cbn [set_job job] in D. injection D as D. contradiction.
    + rewrite P in D. cbn [set_job job] in D. destruct G as [G1 G2]. exfalso. destruct (pred more); cbn [push_on] in D; [destruct (if pushed prev then tl todo else todo); [discriminate D|]|]; injection D; intros; congruence.
  - pose proof (slot_goes t q (i mod size) (pop_next block) p s) as G.
    assert (D : p = Tickets \/ job (th match slot_step depth monitor t q (i mod size) (pop_next block) p false s with
      | Stay => s
      | Next p' s' => put_th t (set_job (Pop q got i more block p') (th s t)) s'
      | Fin prev s' => put_th t (pop_on t q (got ++ [popped prev]) (S i) (pred more) (th s t)) s' end t) = Pop q got i more block p).
    { destruct p; [left; reflexivity|..]; right; exact T. }
    destruct D as [-> | D]; [rewrite P in T; discriminate T|]. destruct (slot_step depth monitor t q (i mod size) (pop_next block) p false s) as [|p' s'|prev s'].
    + destruct p; try exact G. rewrite P in T. discriminate T.
    + rewrite P in D. cbn [set_job job] in D. injection D as D. contradiction.
    + rewrite P in D. destruct G as [G1 G2]. exfalso. destruct (pred more); cbn [pop_on] in D; [destruct (t =? 0); discriminate D|]. cbn [set_job job] in D. injection D; intros; congruence.
Qed.

Lemma halted_queue s t : halted s t -> job (th s t) <> Rest -> queue_step t false s = s.
Proof. intros H J. specialize (H Submit). unfold IoqModel.step in H. destruct (job (th s t)); [contradiction|..]; injection H as H; exact H. Qed.

Lemma outside_rest k s a t : well k s a -> workers < t -> job (th s t) = Rest.
Proof.
  intros (M & IA & _) L. pose proof (shape_w workers bexp stop asserts t (th a t) (v_shape _ _ _ _ _ _ IA t) L) as (J & _). rewrite (m_th _ _ _ M t) in J. unfold normal in J. cbn [set_job job] in J.
  destruct (job (th s t)) as [|q todo i more p|q got i more block p]; [reflexivity|..]; destruct p; discriminate J.
Qed.

(** Each thread is outside of the queues, or sleeps at a slot that has not changed. *)
Lemma all_asleep k s a t q j p : well k s a -> waits s -> spot (job (th s t)) = Some (q, j, p) -> exists v, p = Sleep v.
Proof.
  intros WL [WW WO] SP.
  assert (Q : forall t q j p, spot (job (th s t)) = Some (q, j, p) -> queue_step t false s = s).
  { clear t q j p SP. intros t q j p SP. assert (NR : job (th s t) <> Rest) by (intros E; rewrite E in SP; discriminate SP).
    destruct (le_lt_dec t workers) as [L|L]; [|exfalso; exact (NR (outside_rest k s a t WL L))]. destruct (Nat.eq_dec t 0) as [-> | N0].
    - destruct WO as [WO|(R & _)]; [apply halted_queue; assumption|contradiction].
    - apply halted_queue; [apply WW; lia|exact NR]. }
  assert (NF : forall q m, owner s q m = None).
  { intros q0 m. destruct (owner s q0 m) as [u|] eqn:O; [|reflexivity]. exfalso. destruct WL as (_ & _ & _ & C & _). destruct (x_hold _ _ _ _ _ C q0 m u O) as (j0 & p0 & SU & HO & _). cbv beta in SU.
    pose proof (halted_pc u s q0 j0 p0 (Q u q0 j0 p0 SU) SU) as X. destruct p0; discriminate || contradiction. }
  pose proof (halted_pc t s q j p (Q t q j p SP) SP) as X. destruct p; try contradiction; try (rewrite NF in X; contradiction). eauto.
Qed.

Lemma asleep_slot k s a t q j v : well k s a -> waits s -> spot (job (th s t)) = Some (q, j, Sleep v) -> slots s q j = v.
Proof.
  intros WL W SP. pose proof WL as (_ & _ & _ & C & _). destruct (x_sleep _ _ _ _ _ C t q j v SP) as [E|(u & p & SU & WK)]; [exact E|]. cbv beta in SU. exfalso.
  destruct (all_asleep k s a u q j p WL W SU) as (v' & ->). discriminate WK.
Qed.

Lemma waits_stuck k s a : (N.of_nat k < 2 ^ 61)%N -> well k s a -> waits s -> stuck a.
Proof.
  intros KB WL W t. pose proof WL as (M & IA & B & C & GN). rewrite (m_th _ _ _ M t). unfold normal. cbn [set_job job]. specialize (B t).
  destruct (job (th s t)) as [|q todo i more p|q got i more block p] eqn:J; [exact I|..].
  - assert (SP : spot (job (th s t)) = Some (q, i mod size, p)) by (rewrite J; reflexivity). destruct (all_asleep k s a t _ _ _ WL W SP) as (v & ->). cbn [norm].
    destruct (why k s a t q _ v KB WL SP (asleep_slot k s a t q _ v WL W SP)) as (vv & b & V & _ & A & X). rewrite J in X. rewrite A, see_word by exact V. destruct B as [E|G]; [discriminate E|]. auto.
  - assert (SP : spot (job (th s t)) = Some (q, i mod size, p)) by (rewrite J; reflexivity). destruct (all_asleep k s a t _ _ _ WL W SP) as (v & ->). cbn [norm].
    destruct (why k s a t q _ v KB WL SP (asleep_slot k s a t q _ v WL W SP)) as (vv & b & V & _ & A & X). rewrite J in X. rewrite A, see_word by exact V. destruct B as [E|G]; [discriminate E|]. destruct X as [-> X]. auto.
Qed.

Lemma rest_same k s a t : well k s a -> job (th s t) = Rest -> th a t = th s t.
Proof. intros (M & _) J. rewrite (m_th _ _ _ M t). apply normal_rest, J. Qed.

Lemma norm_rest j : norm j = Rest -> j = Rest.
Proof. destruct j as [|q todo i more p|q got i more block p]; [reflexivity|..]; destruct p; discriminate. Qed.

(** A worker outside of the queues that cannot go on has returned. *)
Lemma halted_exit k s a t : well k s a -> 1 <= t <= workers -> halted s t -> job (th s t) = Rest -> at_ (th s t) = W_exit.
Proof.
  intros WL LT H J. pose proof WL as (M & IA & _). pose proof (v_shape _ _ _ _ _ _ IA t) as (_ & _ & SH). rewrite (rest_same k s a t WL J), J in SH.
  specialize (H Submit). unfold IoqModel.step in H. rewrite J in H.
  assert (P : forall x s', Some (put_th t x s') = Some s -> x = th s t) by (intros x s' E; injection E as E; rewrite <- E; cbn [put_th set_th th]; rewrite upd_same; reflexivity).
  destruct (at_ (th s t)) eqn:AT; try reflexivity; exfalso; try lia; unfold worker_step in H; rewrite AT in H.
  - destruct (pend (th s t)); apply P in H; rewrite <- H in AT; discriminate AT.
  - destruct (pend (th s t)); [apply P in H; rewrite <- H in J; discriminate J|]. destruct (_ =? _)%N; [apply P in H; rewrite <- H in AT; discriminate AT|]. destruct (_ <=? _); apply P in H; rewrite <- H in AT; discriminate AT.
  - destruct (pend (th s t)); [discriminate H|]. destruct (_ =? _)%N; [apply P in H; rewrite <- H in AT; discriminate AT|]. destruct (_ <=? _); apply P in H; rewrite <- H in AT; discriminate AT.
  - destruct (_ && _)%bool; [discriminate H|]. apply P in H. rewrite <- H in AT. discriminate AT.
Qed.

(** The owner outside of the queues that cannot go on has nothing to wait for. *)
Lemma halted_owner k s a : well k s a -> halted s 0 -> job (th s 0) = Rest -> pend (th s 0) = [] /\ at_ (th s 0) = M_idle /\ count s = 0.
Proof.
  intros WL H J. pose proof WL as (M & IA & _). pose proof (v_shape _ _ _ _ _ _ IA 0) as (_ & _ & SH). rewrite (rest_same k s a 0 WL J), J in SH.
  assert (P : forall x s', Some (put_th 0 x s') = Some s -> x = th s 0) by (intros x s' E; injection E as E; rewrite <- E; cbn [put_th set_th th]; rewrite upd_same; reflexivity).
  assert (TK : at_ (th s 0) = M_filled \/ done (th s 0) <> [] -> Some (take (th s 0) s) = Some s -> False).
  { intros X E. unfold take in E. destruct (done (th s 0)) as [|e r] eqn:D; apply P in E.
    - destruct X as [X|X]; [rewrite <- E in X; discriminate X|contradiction].
    - rewrite <- E in D. cbn [done] in D. apply (f_equal (@length N)) in D. cbn in D. lia. }
  destruct (at_ (th s 0)) eqn:AT; try lia.
  - pose proof (H Submit) as HS. unfold IoqModel.step, owner_step in HS. rewrite J, AT in HS. apply P in HS.
    assert (PE : pend (th s 0) = []) by (rewrite <- HS; reflexivity). split; [exact PE|]. split; [reflexivity|].
    specialize (H (Get true)). unfold IoqModel.step, owner_step in H. rewrite J, AT, PE in H. destruct (Nat.eqb_spec (count s) 0) as [E|NE]; [exact E|]. exfalso. destruct (done (th s 0)) eqn:D.
    + cbn [negb andb] in H. apply P in H. rewrite <- H in J. discriminate J.
    + apply (TK ltac:(right; discriminate) H).
  - exfalso. specialize (H Submit). unfold IoqModel.step in H. rewrite J, AT in H. apply (TK ltac:(auto) H).
Qed.

Lemma stuck_settled k s a : (N.of_nat k < 2 ^ 61)%N -> well k s a -> waits s -> asserts = true \/ ~ cancelled (log s) ->
  (forall p, p <> 0%N -> p <> stop -> nB a p = 0) /\
  (forall got i more block p, job (th a 0) = Pop Ready got i more block p -> forall p, p <> 0%N -> p <> stop -> nA a p = 0) /\
  (forall todo i more p, job (th a 0) <> Push Pending todo i more p) /\
  (cancel a = true -> forall t, 1 <= t <= workers -> job (th s t) = Rest /\ at_ (th s t) = W_exit).
Proof.
  intros KB WL W AS. pose proof (waits_stuck k s a KB WL W) as ST. pose proof WL as (M & IA & B & C & GN). pose proof (v_acct _ _ _ _ _ _ IA) as AC. pose proof (v_stp _ _ _ _ _ _ IA) as SP.
  assert (NRP : forall t todo i more p, job (th a t) <> Push Ready todo i more p) by (apply (no_ready_pusher depth workers bexp stop asserts workers_pos a IA ST)).
  assert (EX : forall t, 1 <= t <= workers -> job (th a t) = Rest -> job (th s t) = Rest /\ at_ (th s t) = W_exit /\ th a t = th s t /\ pend (th a t) = [] /\ done (th a t) = [] /\ cancel a = true).
  { intros t LT R. pose proof (m_th _ _ _ M t) as TH. assert (J : job (th s t) = Rest) by (apply norm_rest; rewrite <- R, TH; reflexivity).
    pose proof (halted_exit k s a t WL LT (proj1 W t LT) J) as AT. pose proof (rest_same k s a t WL J) as E. pose proof (v_shape _ _ _ _ _ _ IA t) as (_ & _ & SH). rewrite R, E, AT in SH. destruct SH as (_ & D & _ & PA).
    destruct (s_can _ _ _ _ SP t LT ltac:(right; rewrite E; exact AT)) as [CA _].
    assert (asserts = true) as AT1. { destruct AS as [X|X]; [exact X|]. exfalso. apply X. rewrite <- (m_log _ _ _ M). apply (c_can _ _ _ _ AC). exact CA. }
    rewrite E. auto 8. }
  (* what each thread has *)
  assert (BW : forall t, 1 <= t <= workers -> (forall todo i more p, job (th a t) <> Push Pending todo i more p) -> bef (th a t) = [] /\ aft (th a t) = []).
  { intros t LT NP. pose proof (v_shape _ _ _ _ _ _ IA t) as (_ & _ & SH). destruct (job (th a t)) as [|q todo i more p|q got i more block p] eqn:J.
    - destruct (EX t LT J) as (_ & _ & _ & P & D & _). unfold bef, aft. rewrite J, P, D. auto.
    - exfalso. destruct q; [exact (NP _ _ _ _ eq_refl)|exact (NRP _ _ _ _ _ J)].
    - destruct q; [|destruct SH as (_ & _ & _ & E & _); lia]. destruct (stuck_pop depth workers bexp stop asserts a t Pending got i more block p IA ST J) as (_ & _ & _ & -> & _).
      destruct SH as (P & D & _). unfold bef, aft. rewrite J, P, D. auto. }
  assert (OW : (forall todo i more p, job (th a 0) <> Push Pending todo i more p) -> bef (th a 0) = []).
  { intros NP. pose proof (v_shape _ _ _ _ _ _ IA 0) as (_ & _ & SH). destruct (job (th a 0)) as [|q todo i more p|q got i more block p] eqn:J.
    - pose proof (m_th _ _ _ M 0) as TH. assert (JS : job (th s 0) = Rest) by (apply norm_rest; rewrite <- J, TH; reflexivity). pose proof (rest_same k s a 0 WL JS) as E.
      assert (P : pend (th s 0) = []) by (destruct (proj2 W) as [HO|(_ & _ & P)]; [apply (halted_owner k s a WL HO JS)|exact P]). unfold bef. rewrite J, E, P. reflexivity.
    - exfalso. destruct q; [exact (NP _ _ _ _ eq_refl)|exact (NRP _ _ _ _ _ J)].
    - destruct SH as (P & _ & _ & SH). destruct q; [lia|]. unfold bef. rewrite J, P. reflexivity. }
  assert (TOT : (forall t, t <= workers -> forall todo i more p, job (th a t) <> Push Pending todo i more p) -> forall p, nB a p = slN depth a Pending p).
  { intros NP p. unfold IoqInv.nB. assert (Z : thB workers a p = 0); [|lia]. apply sum_0. intros t L. destruct (Nat.eq_dec t 0) as [-> | N0]; [rewrite (OW (NP 0 ltac:(lia))); reflexivity|]. destruct (BW t ltac:(lia) (NP t ltac:(lia))) as [-> _]. reflexivity. }
  assert (RDY : forall got i more block p, job (th a 0) = Pop Ready got i more block p -> (forall t, t <= workers -> forall todo i more p, job (th a t) <> Push Pending todo i more p) -> forall p, nA a p = 0).
  { intros got i more block p J NP p0. unfold IoqInv.nA, thA, slN. rewrite !sum_0; [reflexivity|..].
    - intros f FL. unfold full. destruct (see (slots a Ready f)) as [|e|n] eqn:E; try reflexivity. exfalso. exact (ready_empty depth workers bexp stop asserts workers_pos a got i more block p IA ST J f e FL E).
    - intros t L. destruct (Nat.eq_dec t 0) as [-> | N0]; [|destruct (BW t ltac:(lia) (NP t ltac:(lia))) as [_ ->]; reflexivity].
      destruct (stuck_pop depth workers bexp stop asserts a 0 Ready got i more block p IA ST J) as (_ & _ & _ & -> & _). pose proof (v_shape _ _ _ _ _ _ IA 0) as (_ & _ & SH). rewrite J in SH. destruct SH as (_ & D & _). unfold aft. rewrite J, D. reflexivity. }
  assert (DEC : forall t, (exists got i more block p, job (th a t) = Pop Pending got i more block p) \/ ~ (exists got i more block p, job (th a t) = Pop Pending got i more block p)).
  { intros t. destruct (job (th a t)) as [| |q got i more block p]; [right; intros (? & ? & ? & ? & ? & E); discriminate E..|]. destruct q; [left; eauto 6|right; intros (? & ? & ? & ? & ? & E); discriminate E]. }
  destruct (find (fun t => exists got i more block p, job (th a t) = Pop Pending got i more block p) (S workers) DEC) as [(t & L & got & i & more & block & p & J)|NONE].
  - (* someone waits for requests *)
    pose proof (pending_empty depth workers bexp stop asserts stop_ok workers_pos a t got i more block p IA ST J) as PE.
    assert (NP : forall t todo i more p, job (th a t) <> Push Pending todo i more p).
    { intros u todo i' more' p' JU. pose proof (ST u) as SU. rewrite JU in SU. destruct SU as (_ & _ & e & E). exact (PE _ e (mod_lt depth workers workers_pos i') E). }
    assert (Z : forall p, nB a p = 0).
    { intros p0. rewrite (TOT (fun t _ => NP t)). apply sum_0. intros f FL. unfold full. destruct (see (slots a Pending f)) as [|e|n] eqn:E; try reflexivity. exfalso. exact (PE f e FL E). }
    split; [intros; apply Z|]. split; [intros ? ? ? ? ? J0 p0 _ _; exact (RDY _ _ _ _ _ J0 (fun t _ => NP t) p0)|]. split; [apply NP|].
    intros CA. exfalso. pose proof (c_stop _ _ _ _ AC) as X. rewrite CA, Z in X. lia.
  - (* all workers have returned *)
    assert (PP : forall t todo i more p, 1 <= t <= workers -> job (th a t) = Push Pending todo i more p -> todo = [stop]).
    { intros t todo i more p LT J. pose proof (v_shape _ _ _ _ _ _ IA t) as (_ & _ & SH). rewrite J in SH. destruct SH as (_ & LE & _ & [(E & _)|(_ & _ & [E|E])]); [lia|exact E|]. subst todo. pose proof (ST t) as SU. rewrite J in SU. cbn in LE. lia. }
    assert (STO : forall t, 1 <= t <= workers -> stopped (th a t)).
    { intros t LT. pose proof (v_shape _ _ _ _ _ _ IA t) as (_ & _ & SH). destruct (job (th a t)) as [|q todo i more p|q got i more block p] eqn:J.
      - destruct (EX t LT J) as (_ & AT & E & _). right. rewrite E. exact AT.
      - destruct q; [|exfalso; exact (NRP _ _ _ _ _ J)]. destruct SH as (_ & _ & _ & [(E & _)|(_ & AT & _)]); [lia|left; exact AT].
      - exfalso. destruct q; [apply (NONE t ltac:(lia)); eauto 6|]. destruct SH as (_ & _ & _ & E & _). lia. }
    pose proof (s_all _ _ _ _ SP STO) as ALL. destruct (s_can _ _ _ _ SP 1 ltac:(lia) (STO 1 ltac:(lia))) as [CA N0].
    assert (NP : forall t, t <= workers -> forall todo i more p, job (th a t) <> Push Pending todo i more p).
    { intros t L todo i more p J. pose proof (ST t) as SU. rewrite J in SU. destruct SU as (_ & G & e & E). pose proof (ALL _ e (mod_lt depth workers workers_pos i) E) as X. subst e.
      assert (IS : In stop (bef (th a t))).
      { pose proof (v_shape _ _ _ _ _ _ IA t) as (_ & _ & SH). rewrite J in SH. destruct SH as (_ & LE & _). apply (pusher_stop depth workers bexp stop asserts a t todo i more p (v_shape _ _ _ _ _ _ IA) SP CA J). intros ->. cbn in LE. lia. }
      exact (stop_slot depth workers stop a t _ AC L (mod_lt depth workers workers_pos i) IS E). }
    split; [|split; [intros ? ? ? ? ? J0 p0 _ _; exact (RDY _ _ _ _ _ J0 NP p0)|split; [apply NP; lia|]]].
    + intros p N NS. rewrite (TOT NP). apply sum_0. intros f FL. unfold full. destruct (see (slots a Pending f)) as [|e|n] eqn:E; try reflexivity. rewrite (ALL f e FL E). destruct (N.eqb_spec stop p); [congruence|reflexivity].
    + intros _ t LT. pose proof (v_shape _ _ _ _ _ _ IA t) as (_ & _ & SH). destruct (job (th a t)) as [|q todo i more p|q got i more block p] eqn:J.
      * destruct (EX t LT J) as (JS & AT & _). auto.
      * exfalso. destruct q; [exact (NP t ltac:(lia) _ _ _ _ J)|exact (NRP _ _ _ _ _ J)].
      * exfalso. destruct q; [apply (NONE t ltac:(lia)); eauto 6|]. destruct SH as (_ & _ & _ & E & _). lia.
Qed.

Lemma no_deadlock l s : (N.of_nat (length l) < 2 ^ 61)%N -> run l = Some s -> waits s -> asserts = true \/ ~ cancelled (log s) ->
  (forall r, accepted r (log s) -> completed r (log s)) /\
  (halted s 0 -> forall r, accepted r (log s) -> returned r (log s)) /\
  (cancelled (log s) -> forall t, 1 <= t <= workers -> exited s t).
Proof.
  intros KB H W AS. destruct (well_run depth workers bexp monitor stop asserts stop_ok workers_pos l s ltac:(lia) H) as (a & WL).
  destruct (stuck_settled _ s a KB WL W AS) as (ZB & ZA & NPO & EXI). pose proof WL as (M & IA & B & C & GN). pose proof (v_acct _ _ _ _ _ _ IA) as AC.
  assert (CP : forall r, accepted r (log a) -> completed r (log a)).
  { intros r R. apply (c_acc _ _ _ _ AC) in R. destruct (c_old _ _ _ _ AC r R) as [(p & U & <-)|[X _]]; [|exact X]. destruct (c_ok _ _ _ _ AC p U) as [V NS]. apply (c_comp _ _ _ _ AC p U). apply ZB; [|exact NS]. intros ->. cbn [valid] in V. lia. }
  rewrite <- (m_log _ _ _ M). split; [exact CP|]. split.
  - intros HO r R. apply (c_acc _ _ _ _ AC) in R. destruct (c_old _ _ _ _ AC r R) as [(p & U & <-)|[_ X]]; [|exact X].
    destruct (job (th a 0)) as [|q todo i more p0|q got i more block p0] eqn:J.
    + exfalso. assert (JS : job (th s 0) = Rest) by (apply norm_rest; rewrite <- J, (m_th _ _ _ M 0); reflexivity). destruct (halted_owner _ s a WL HO JS) as (_ & _ & C0). rewrite <- (m_count _ _ _ M), (c_count _ _ _ _ AC) in C0. destruct (used a); [destruct U|discriminate C0].
    + exfalso. destruct q; [exact (NPO _ _ _ _ eq_refl)|]. exact (no_ready_pusher depth workers bexp stop asserts workers_pos a IA (waits_stuck _ s a KB WL W) 0 _ _ _ _ J).
    + destruct q; [pose proof (v_shape _ _ _ _ _ _ IA 0) as (_ & _ & SH); rewrite J in SH; exfalso; lia|].
      destruct (c_ok _ _ _ _ AC p U) as [V NS]. assert (N0 : p <> 0%N) by (intros ->; cbn [valid] in V; lia).
      apply (c_ret _ _ _ _ AC p U). apply occ_in. pose proof (c_occ _ _ _ _ AC p N0 NS) as O. rewrite (ZB p N0 NS), (ZA _ _ _ _ _ eq_refl p N0 NS) in O. apply occ_in in U. lia.
  - intros CA t LT. apply EXI; [|exact LT]. apply (c_can _ _ _ _ AC). exact CA.
Qed.

Lemma exactly_once l s : (N.of_nat (length l) < 2 ^ 61)%N -> run l = Some s -> proper workers (log s).
Proof.
  intros KB H. destruct (well_run depth workers bexp monitor stop asserts stop_ok workers_pos l s ltac:(lia) H) as (a & M & IA & _).
  rewrite <- (m_log _ _ _ M). apply (c_prop _ _ _ _ (v_acct _ _ _ _ _ _ IA)).
Qed.

Lemma safe l s t b o : (N.of_nat (length l) < 2 ^ 61)%N -> run l = Some s -> step t b o s = None -> asserts = true /\ 2 <= workers /\ interrupted (log s).
Proof.
  intros KB H N. destruct (well_run depth workers bexp monitor stop asserts stop_ok workers_pos l s ltac:(lia) H) as (a & WL). pose proof (well_owner depth workers bexp monitor stop asserts _ s a t WL) as Z. destruct WL as (M & IA & B & C & GN).
  pose proof (step_sim depth bexp monitor stop asserts _ s a t b o KB M (inv_solid depth workers bexp monitor stop asserts stop_ok workers_pos a IA) B Z) as SS. rewrite N in SS. destruct SS as (J & WS). rewrite <- (m_log _ _ _ M).
  pose proof (v_acct _ _ _ _ _ _ IA) as AC. pose proof (v_shape _ _ _ _ _ _ IA t) as (P0 & _ & SH). rewrite J in SH. unfold worker_step in WS.
  destruct (at_ (th a t)) eqn:AT; try discriminate WS.
  - destruct (pend (th a t)); discriminate WS.
  - destruct (pend (th a t)) as [|e r]; [discriminate WS|]. destruct (e =? stop)%N; [discriminate WS|]. destruct (_ <=? _); discriminate WS.
  - destruct (pend (th a t)) as [|e r]; [destruct SH as [_ X]; contradiction|]. destruct (e =? stop)%N; [discriminate WS|]. destruct (_ <=? _); discriminate WS.
  - destruct asserts; [|discriminate WS]. cbn [andb] in WS. destruct (pend (th a t)) as [|e r] eqn:PE; [discriminate WS|]. split; [reflexivity|].
    assert (BE : In e (bef (th a t))) by (unfold bef; rewrite PE; left; reflexivity). assert (E0 : e <> 0%N) by (intros ->; apply P0; left; reflexivity).
    destruct (s_can _ _ _ _ (v_stp _ _ _ _ _ _ IA) t SH ltac:(left; exact AT)) as [CA _].
    split.
    + destruct (le_lt_dec 2 workers) as [L|L]; [exact L|exfalso]. assert (t = 1) by lia. subst t. pose proof (s_end _ _ _ _ (v_stp _ _ _ _ _ _ IA) ltac:(lia) AT). congruence.
    + destruct (c_calm _ _ _ _ AC CA) as [X|X]; [exact X|exfalso].
      pose proof (in_bef_used depth workers stop a t e AC ltac:(lia) E0 BE) as U. destruct (N.eq_dec e stop) as [-> | NS]; [|rewrite (X e E0 NS) in U; lia].
      apply (GN t AT). rewrite PE. left. reflexivity.
Qed.
End Facts.

(** ** A cancelled queue *)

Section Lost.
Definition again (t n : nat) : list (nat * bool * op) := repeat (t, false, Submit) n.
Definition call (o : op) : list (nat * bool * op) := [(0, false, o)].

(** The second worker reserves the first eight slots, and the first worker the
    next eight, which are the same ones.  The owner submits eight requests,
    the second worker takes three of them and is interrupted, and the owner
    cancels the queue.  The slots now have the stop request before the rest. *)
Definition half_taken : list (nat * bool * op) :=
  again 2 30 ++ again 1 30 ++ flat_map (fun k => call (Request (N.of_nat (8 + 4 * k)) false)) (seq 0 8) ++ again 0 60 ++ again 2 9.
Definition then_cancelled := half_taken ++ call Cancel ++ again 0 20.
Definition then_drained := then_cancelled ++ again 1 200 ++ again 2 200 ++ again 1 100 ++ flat_map (fun _ => call (Get true) ++ again 0 100) (seq 0 6).

Definition final (l : list (nat * bool * op)) : st :=
  match run 8 2 3 (fun i => i) 4 false l with Some s => s | None => init 2 end.

Lemma sleep_halted depth workers bexp monitor stop asserts s t q got i more block v :
  job (th s t) = Pop q got i more block (Sleep v) -> halted depth workers bexp monitor stop asserts s t.
Proof. intros J o. unfold step. rewrite J. unfold queue_step. rewrite J. reflexivity. Qed.

Lemma exit_halted depth workers bexp monitor stop asserts s t :
  job (th s t) = Rest -> at_ (th s t) = W_exit -> halted depth workers bexp monitor stop asserts s t.
Proof. intros J A o. unfold step. rewrite J, A. unfold worker_step. rewrite A. reflexivity. Qed.

Lemma some_final l : match run 8 2 3 (fun i => i) 4 false l with Some _ => true | None => false end = true -> run 8 2 3 (fun i => i) 4 false l = Some (final l).
Proof. unfold final. destruct (run 8 2 3 (fun i => i) 4 false l); [reflexivity|discriminate]. Qed.

Lemma not_completed r l : forallb (fun e => match e with Complete r' _ _ => negb (r' =? r) | _ => true end) l = true -> ~ completed r l.
Proof.
  intros H (t & ran & I). rewrite forallb_forall in H. specialize (H _ I). cbv beta iota in H. rewrite Nat.eqb_refl in H. discriminate H.
Qed.

Lemma cancel_loses :
  (exists l, run 8 2 3 (fun i => i) 4 true l = None) /\
  exists l s r, run 8 2 3 (fun i => i) 4 false l = Some s /\ accepted r (log s) /\ ~ completed r (log s) /\
    forall t, t <= 2 -> halted 8 2 3 (fun i => i) 4 false s t.
Proof.
  split; [exists (then_cancelled ++ again 1 80); vm_compute; reflexivity|].
  exists then_drained, (final then_drained), 7. split; [apply some_final; vm_compute; reflexivity|].
  split; [exists false; vm_compute; tauto|]. split; [apply not_completed; vm_compute; reflexivity|].
  intros t T. destruct t as [|[|[|t]]]; [|..|lia].
  - eapply sleep_halted. vm_compute. reflexivity.
  - apply exit_halted; vm_compute; reflexivity.
  - apply exit_halted; vm_compute; reflexivity.
Qed.
End Lost.
