(** * The queue, one slot at a time

    The states of the model are mapped to states in which waiting and waking
    have no place: a thread is before its next slot, and the bit of waiting
    threads is gone.  In these the only steps are those that change a slot,
    besides the steps outside of slots, which are the same. *)

From Coq Require Import List Arith NArith Bool Lia ZifyBool ZifyNat ZifyN.
Import ListNotations.
From Verif Require Import IoqModel IoqWords IoqSpec IoqCount.

Definition norm (j : task) : task :=
  match j with
  | Rest => Rest
  | Push q todo i more p =>
      match p with
      | Tickets => Push q todo i more Tickets
      | Wake1 v | Wake2 v | Wake3 v => Push q (if pushed v then tl todo else todo) (S i) (pred more) Load
      | _ => Push q todo i more Load
      end
  | Pop q got i more block p =>
      match p with
      | Tickets => Pop q got i more block Tickets
      | Wake1 v | Wake2 v | Wake3 v => Pop q (got ++ [popped v]) (S i) (pred more) false Load
      | _ => Pop q got i more block Load
      end
  end.

Definition normal (x : thread) : thread := set_job (norm (job x)) x.

Section Norm.
Variable depth workers bexp : nat.
Variable monitor : nat -> nat.
Variable stop : N.
Variable asserts : bool.

Local Notation size := (size depth).
Local Notation batch := (batch bexp).
Local Notation queue_step := (queue_step depth bexp monitor).
Local Notation worker_step := (worker_step bexp stop asserts).
Local Notation owner_step := (owner_step depth bexp stop).
Local Notation step := (step depth bexp monitor stop asserts).

(** ** Steps *)
Inductive astep (t : nat) (a : st) : st -> Prop :=
| as_push_tickets q todo i more :
    job (th a t) = Push q todo i more Tickets ->
    astep t a (put_th t (set_job (Push q todo (head a q) (length todo) Load) (th a t))
                 (set_head (updq (head a) q (head a q + length todo)) a))
| as_pop_tickets q got i more block :
    job (th a t) = Pop q got i more block Tickets ->
    astep t a (put_th t (set_job (Pop q [] (tail a q) batch block Load) (th a t))
                 (set_tail (updq (tail a) q (tail a q + batch)) a))
| as_push q todo i more v v' :
    job (th a t) = Push q todo i more Load ->
    slots a q (i mod size) = word v false -> valid v -> valid v' ->
    after_push (hd 0%N todo) v = Some v' ->
    0 < more ->
    astep t a (put_th t (set_job (Push q (if is_skip v then todo else tl todo) (S i) (pred more) Load) (th a t))
                 (put q (i mod size) (word v' false) a))
| as_pop q got i more block v v' :
    job (th a t) = Pop q got i more block Load ->
    slots a q (i mod size) = word v false -> valid v -> valid v' ->
    after_pop block v = Some v' ->
    0 < more ->
    astep t a (put_th t (set_job (Pop q (got ++ [entry_of v]) (S i) (pred more) false Load) (th a t))
                 (put q (i mod size) (word v' false) a))
| as_push_on q todo i :
    job (th a t) = Push q todo i 0 Load ->
    astep t a (put_th t (set_job (push_on q todo i 0) (th a t)) a)
| as_pop_on q got i block :
    job (th a t) = Pop q got i 0 block Load ->
    astep t a (put_th t (pop_on t q got i 0 (th a t)) a)
| as_worker a' :
    job (th a t) = Rest -> at_ (th a t) <> M_idle -> at_ (th a t) <> M_filled ->
    worker_step t a = Some a' ->
    astep t a a'
| as_owner o :
    job (th a t) = Rest -> at_ (th a t) = M_idle ->
    astep t a (owner_step o a)
| as_take :
    job (th a t) = Rest -> at_ (th a t) = M_filled ->
    astep t a (take (th a t) a).

Inductive asteps (t : nat) (a : st) : st -> Prop :=
| as_0 : asteps t a a
| as_S a' a'' : astep t a a' -> asteps t a' a'' -> asteps t a a''.

Lemma asteps_1 t a a' : astep t a a' -> asteps t a a'.
Proof. intros H. eapply as_S; [exact H|constructor]. Qed.

(** ** The map *)
Record sim (k : nat) (s a : st) : Prop := {
  m_th : forall t, th a t = normal (th s t);
  m_slot : forall q j, exists v b, valid v /\ slots a q j = word v false /\ slots s q j = word v b /\ forall n, v = Skips n -> (n <= N.of_nat k)%N;
  m_head : head a = head s;
  m_tail : tail a = tail s;
  m_cancel : cancel a = cancel s;
  m_count : count a = count s;
  m_used : used a = used s;
  m_held : held a = held s;
  m_req : req a = req s;
  m_closes : closes a = closes s;
  m_fresh : fresh a = fresh s;
  m_log : log a = log s;
}.

Lemma sim_init k : sim k (init workers) (init workers).
Proof.
  split; try reflexivity.
  intros q j. exists Empty, false. repeat split. intros n E. discriminate E.
Qed.

Lemma sim_later k k' s a : k <= k' -> sim k s a -> sim k' s a.
Proof.
  intros L [T SL ? ? ? ? ? ? ? ? ? ?]. constructor; try assumption.
  intros q j. destruct (SL q j) as (v & b & V & A & C & B). exists v, b. split; [exact V|split; [exact A|split; [exact C|]]].
  intros n E. specialize (B n E). lia.
Qed.

Lemma norm_wake q m j : norm (wake_task depth monitor q m j) = norm j.
Proof.
  destruct j as [|q' todo i more p|q' got i more b p]; [reflexivity| |];
    destruct p; try reflexivity; cbn [wake_task wake_pc]; destruct (which_eqb q' q && _)%bool; reflexivity.
Qed.

(** What a step inside of a slot does to the map *)
Lemma sim_thread k s a t x :
  sim k s a -> normal x = normal (th s t) -> sim k (put_th t x s) a.
Proof.
  intros [T SL ? ? ? ? ? ? ? ? ? ?] E. constructor; try assumption.
  intros u. cbn [put_th set_th th]. unfold upd. destruct (Nat.eqb_spec u t) as [-> | NE]; [rewrite E|]; apply T.
Qed.

Lemma sim_own k s a q m o : sim k s a -> sim k (own q m o s) a.
Proof. intros [T SL ? ? ? ? ? ? ? ? ? ?]. constructor; assumption. Qed.

Lemma sim_broadcast k s a q m : sim k s a -> sim k (broadcast depth monitor q m s) a.
Proof.
  intros [T SL ? ? ? ? ? ? ? ? ? ?]. constructor; try assumption.
  intros u. cbn [broadcast set_th th]. rewrite (T u). unfold normal. unfold set_job. cbn [job at_ pend done spent]. rewrite norm_wake. reflexivity.
Qed.

Lemma sim_put_th k s a t x y : sim k s a -> y = normal x -> sim k (put_th t x s) (put_th t y a).
Proof.
  intros [T SL ? ? ? ? ? ? ? ? ? ?] ->. constructor; try assumption.
  intros u. cbn [put_th set_th th]. unfold upd. destruct (Nat.eqb_spec u t); [reflexivity|apply T].
Qed.

Lemma sim_put k s a q j v b :
  sim k s a -> valid v -> (forall n, v = Skips n -> (n <= N.of_nat k)%N) ->
  sim k (put q j (word v b) s) (put q j (word v false) a).
Proof.
  intros [T SL ? ? ? ? ? ? ? ? ? ?] V B. constructor; try assumption.
  intros q' j'. cbn [put set_slots slots]. unfold upd2, upd. destruct (which_eqb q' q) eqn:Q; [destruct (Nat.eqb_spec j' j)|]; try apply SL.
  exists v, b. auto.
Qed.

Lemma upd2_same {A} (f : which -> nat -> A) q j : forall q' j', upd2 f q j (f q j) q' j' = f q' j'.
Proof. intros q' j'. unfold upd2, upd. destruct q, q'; cbn [which_eqb]; try reflexivity; destruct (Nat.eqb_spec j' j); subst; reflexivity. Qed.

Lemma sim_mark k s a q j v b b' :
  sim k s a -> slots s q j = word v b -> valid v -> sim k (put q j (word v b') s) a.
Proof.
  intros [T SL ? ? ? ? ? ? ? ? ? ?] E V. constructor; try assumption.
  intros q' j'. cbn [put set_slots slots]. unfold upd2, upd. destruct (SL q' j') as (v0 & b0 & V0 & A0 & C0 & B0).
  destruct (which_eqb q' q) eqn:Q; [destruct (Nat.eqb_spec j' j) as [-> | ]|]; try (exists v0, b0; solve [auto]).
  assert (q' = q) by (destruct q, q'; try reflexivity; discriminate Q). subst q'. rewrite E in C0. destruct (word_inj _ _ _ _ V V0 C0) as [-> ->].
  exists v0, b'. auto.
Qed.

Lemma normal_idem_push x q todo i more p :
  job x = Push q todo i more p -> p <> Tickets -> waking p = false -> normal x = set_job (Push q todo i more Load) x.
Proof. intros E NT W. unfold normal. rewrite E. destruct p; cbn [norm waking] in *; congruence. Qed.

(** The bounds that the map needs *)
Definition solid (a : st) : Prop :=
  forall t, match job (th a t) with
            | Push q todo i more Load => 0 < more -> valid (Full (hd 0%N todo))
            | _ => True
            end.

(** The steps of a slot, with the map *)
Lemma slot_sim k s a t q i next p b :
  sim k s a ->
  match slot_step depth monitor t q i next p b s with
  | Stay => True
  | Next p' s' =>
      p' <> Tickets /\
      (waking p' = waking p /\ sim k s' a /\ (forall u, th s' u = th s u) /\
       (waking p = true -> exists v, (p = Wake1 v /\ p' = Wake2 v) \/ (p = Wake2 v /\ p' = Wake3 v))
       \/ exists prev n, p = Try prev /\ p' = Wake1 prev /\ slots s q i = prev /\ next prev = Some n /\ s' = put q i n s)
  | Fin prev s' =>
      (exists n, p = Try prev /\ slots s q i = prev /\ next prev = Some n /\ s' = put q i n s)
      \/ p = Wake3 prev /\ sim k s' a /\ s' = broadcast depth monitor q (monitor i) s
  end.
Proof.
  intros M. unfold slot_step. destruct p; try exact I.
  - split; [discriminate|]. left. split; [reflexivity|split; [exact M|split; [reflexivity|discriminate]]].
  - destruct (next prev) as [n|] eqn:NX.
    + destruct (N.eqb_spec (slots s q i) prev) as [E|NE]; cbn [andb].
      * destruct (negb b).
        -- destruct (blocked prev).
           ++ split; [discriminate|]. right. exists prev, n. auto.
           ++ left. exists n. auto.
        -- split; [discriminate|]. left. split; [reflexivity|split; [exact M|split; [reflexivity|discriminate]]].
      * split; [discriminate|]. left. split; [reflexivity|split; [exact M|split; [reflexivity|discriminate]]].
    + split; [discriminate|]. left. split; [reflexivity|split; [exact M|split; [reflexivity|discriminate]]].
  - destruct (slots s q i =? value)%N; [destruct b; [exact I|]|]; (split; [discriminate|]; left; split; [reflexivity|split; [exact M|split; [reflexivity|discriminate]]]).
  - destruct (owner s q (monitor i)); [exact I|]. split; [discriminate|]. left. split; [reflexivity|split; [apply sim_own, M|split; [reflexivity|discriminate]]].
  - destruct (slots s q i =? value)%N; [destruct (blocked value)|]; (split; [discriminate|]; left; split; [reflexivity|split; [exact M|split; [reflexivity|discriminate]]]).
  - destruct (N.eqb_spec (slots s q i) value) as [E|NE].
    + split; [discriminate|]. left. split; [reflexivity|split; [|split; [reflexivity|discriminate]]].
      destruct (m_slot _ _ _ M q i) as (v & b0 & V & A & C & B). rewrite <- E, C.
      assert (L : N.lor (word v b0) BLOCKED = word v true).
      { destruct b0; [|apply word_mark, V]. rewrite <- (word_mark v V). rewrite <- N.lor_assoc. reflexivity. }
      rewrite L. apply (sim_mark k s a q i v b0 true M C V).
    + split; [discriminate|]. left. split; [reflexivity|split; [exact M|split; [reflexivity|discriminate]]].
  - split; [discriminate|]. left. split; [reflexivity|split; [apply sim_own, M|split; [reflexivity|discriminate]]].
  - destruct b; [|exact I]. split; [discriminate|]. left. split; [reflexivity|split; [exact M|split; [reflexivity|discriminate]]].
  - destruct (owner s q (monitor i)); [exact I|]. split; [discriminate|]. left. split; [reflexivity|split; [apply sim_own, M|split; [reflexivity|discriminate]]].
  - destruct (slots s q i =? value)%N; (split; [discriminate|]; left; split; [reflexivity|split; [exact M|split; [reflexivity|discriminate]]]).
  - split; [discriminate|]. left. split; [reflexivity|split; [apply sim_own, M|split; [reflexivity|discriminate]]].
  - destruct (owner s q (monitor i)); [exact I|]. split; [discriminate|]. left. split; [reflexivity|split; [apply sim_own, M|split; [reflexivity|eauto]]].
  - split; [discriminate|]. left. split; [reflexivity|split; [apply sim_own, M|split; [reflexivity|eauto]]].
  - right. split; [reflexivity|split; [apply sim_broadcast, M|reflexivity]].
Qed.

Lemma set_job_same x j j' : set_job j (set_job j' x) = set_job j x.
Proof. reflexivity. Qed.

Lemma normal_job x j : normal (set_job j x) = set_job (norm j) x.
Proof. reflexivity. Qed.

Lemma put_th_twice t x y s : forall u, th (put_th t x (put_th t y s)) u = th (put_th t x s) u.
Proof. intros u. cbn [put_th set_th th]. unfold upd. destruct (u =? t); reflexivity. Qed.

Lemma sim_ext k s a a' : sim k s a -> (forall t, th a' t = th a t) -> (forall q j, slots a' q j = slots a q j) ->
  head a' = head a -> tail a' = tail a -> cancel a' = cancel a -> count a' = count a -> used a' = used a -> held a' = held a ->
  req a' = req a -> closes a' = closes a -> fresh a' = fresh a -> log a' = log a -> sim k s a'.
Proof.
  intros [T SL ? ? ? ? ? ? ? ? ? ?] ET ES; intros. constructor; [intros t; rewrite ET; apply T|intros q j; rewrite ES; apply SL|congruence..].
Qed.

Lemma th_put t x s : th (put_th t x s) t = x.
Proof. cbn [put_th set_th th]. unfold upd. rewrite Nat.eqb_refl. reflexivity. Qed.

Lemma push_next_see k s a q j e prev n :
  sim k s a -> slots s q j = prev -> valid (Full e) -> push_next e prev = Some n ->
  exists v v' b, valid v /\ valid v' /\ slots a q j = word v false /\ prev = word v b /\ n = word v' false /\ after_push e v = Some v' /\
    (forall m, v' = Skips m -> (m <= N.of_nat k)%N).
Proof.
  intros M E VE NX. destruct (m_slot _ _ _ M q j) as (v & b & V & A & C & B). rewrite C in E. subst prev.
  rewrite (word_push e v b V VE) in NX. destruct (after_push e v) as [v'|] eqn:AP; [|discriminate NX]. cbn [option_map] in NX. injection NX as <-.
  exists v, v', b. split; [exact V|]. split; [exact (after_push_valid e v v' V VE AP)|]. repeat (split; [assumption || reflexivity|]).
  intros m ->. destruct v as [|x|n]; cbn [after_push] in AP; try discriminate AP. destruct (N.eqb_spec n 1); [discriminate AP|]. injection AP as <-. specialize (B n eq_refl). lia.
Qed.

Lemma pop_next_see k s a q j block prev n :
  (N.of_nat k < 2 ^ 61)%N ->
  sim k s a -> slots s q j = prev -> pop_next block prev = Some n ->
  exists v v' b, valid v /\ valid v' /\ slots a q j = word v false /\ prev = word v b /\ n = word v' false /\ after_pop block v = Some v' /\
    (forall m, v' = Skips m -> (m <= N.of_nat (S k))%N).
Proof.
  intros KB M E NX. destruct (m_slot _ _ _ M q j) as (v & b & V & A & C & B). rewrite C in E. subst prev.
  assert (BB : forall n, v = Skips n -> (n < 2 ^ 61)%N) by (intros m EM; specialize (B m EM); lia).
  rewrite (word_pop block v b V BB) in NX. destruct (after_pop block v) as [v'|] eqn:AP; [|discriminate NX]. cbn [option_map] in NX. injection NX as <-.
  exists v, v', b. split; [exact V|]. split; [exact (after_pop_valid block v v' V BB AP)|]. repeat (split; [assumption || reflexivity|]).
  intros m ->. destruct v as [|x|n]; cbn [after_pop] in AP; try discriminate AP; destruct block; try discriminate AP; injection AP as <-; [lia|]. specialize (B n eq_refl). lia.
Qed.

Lemma queue_sim k s a t b :
  (N.of_nat k < 2 ^ 61)%N -> sim k s a -> solid a -> (forall q todo i more p, job (th s t) = Push q todo i more p -> p = Tickets \/ 0 < more) ->
  (forall q got i more block p, job (th s t) = Pop q got i more block p -> p = Tickets \/ 0 < more) ->
  exists a', asteps t a a' /\ sim (S k) (queue_step t b s) a'.
Proof.
  intros KB M SO MP MQ. pose proof (m_th _ _ _ M t) as TH. unfold IoqModel.queue_step.
  destruct (job (th s t)) as [|q todo i more p|q got i more block p] eqn:J.
  { exists a. split; [constructor|]. exact (sim_later _ _ _ _ (Nat.le_succ_diag_r k) M). }
  - destruct (MP _ _ _ _ _ eq_refl) as [-> | MP0].
    { eexists. split; [apply asteps_1, as_push_tickets with (q := q) (todo := todo) (i := i) (more := more)|].
      - rewrite TH. unfold normal. rewrite J. reflexivity.
      - apply (sim_later k); [lia|]. apply sim_put_th; [|rewrite TH, (m_head _ _ _ M); reflexivity].
        destruct M as [T SL MH MT MC MN MU ME MR MO MF ML]. constructor; cbn [set_head head slots tail th cancel count used held req closes fresh log]; try assumption. rewrite MH. reflexivity. }
    assert (PT : p <> Tickets -> exists a', asteps t a a' /\
        sim (S k) (match slot_step depth monitor t q (i mod size) (push_next (hd 0%N todo)) p b s with
                   | Stay => s
                   | Next p' s' => put_th t (set_job (Push q todo i more p') (th s t)) s'
                   | Fin prev s' => put_th t (set_job (push_on q (if pushed prev then tl todo else todo) (S i) (pred more)) (th s t)) s'
                   end) a').
    2:{ destruct p; try (apply PT; discriminate).
      eexists. split; [apply asteps_1, as_push_tickets with (q := q) (todo := todo) (i := i) (more := more)|].
      - rewrite TH. unfold normal. rewrite J. reflexivity.
      - apply (sim_later k); [lia|]. apply sim_put_th; [|rewrite TH, (m_head _ _ _ M); reflexivity].
        destruct M as [T SL MH MT MC MN MU ME MR MO MF ML]. constructor; cbn [set_head head slots tail th cancel count used held req closes fresh log]; try assumption. rewrite MH. reflexivity. }
    intros PT. pose proof (slot_sim k s a t q (i mod size) (push_next (hd 0%N todo)) p b M) as H.
    assert (COMMIT : forall prev n, p = Try prev -> slots s q (i mod size) = prev -> push_next (hd 0%N todo) prev = Some n ->
      exists v v', valid v /\ valid v' /\ pushed prev = negb (is_skip v) /\ n = word v' false /\
        astep t a (put_th t (set_job (Push q (if is_skip v then todo else tl todo) (S i) (pred more) Load) (th a t)) (put q (i mod size) (word v' false) a)) /\
        sim k (put q (i mod size) n s) (put q (i mod size) (word v' false) a)).
    { intros prev n -> E NX. assert (VE : valid (Full (hd 0%N todo))).
      { specialize (SO t). rewrite TH in SO. unfold normal in SO. rewrite J in SO. exact (SO MP0). }
      destruct (push_next_see k s a q _ _ prev n M E VE NX) as (v & v' & b0 & V & V' & A & EP & EN & AP & B).
      exists v, v'. split; [exact V|split; [exact V'|]]. split; [rewrite EP; apply word_pushed, V|]. split; [exact EN|]. split.
      - apply (as_push t a q todo i more v v'); try assumption. rewrite TH. unfold normal. rewrite J. reflexivity.
      - rewrite EN. apply sim_put; assumption. }
    destruct (slot_step depth monitor t q (i mod size) (push_next (hd 0%N todo)) p b s) as [|p' s'|prev s'].
    + exists a. split; [constructor|]. apply (sim_later k); [lia|exact M].
    + destruct H as [PT' [(WK & M' & TS & WW)|(prev & n & -> & -> & E & NX & ->)]].
      * exists a. split; [constructor|]. apply (sim_later k); [lia|]. apply sim_thread; [exact M'|]. rewrite TS. rewrite normal_job. unfold normal. rewrite J. f_equal.
        destruct (waking p) eqn:WP.
        -- destruct (WW eq_refl) as (v & [[-> ->] | [-> ->]]); reflexivity.
        -- destruct p, p'; try discriminate WP; try discriminate WK; try contradiction; reflexivity.
      * destruct (COMMIT prev n eq_refl E NX) as (v & v' & V & V' & PU & EN & AS & SM). eexists. split; [apply asteps_1; exact AS|].
        apply (sim_later k); [lia|]. apply sim_put_th; [exact SM|]. rewrite normal_job. cbn [norm]. rewrite PU, TH. destruct (is_skip v); reflexivity.
    + destruct H as [(n & -> & E & NX & ->)|(-> & M' & ->)].
      * destruct (COMMIT prev n eq_refl E NX) as (v & v' & V & V' & PU & EN & AS & SM). rewrite PU. destruct (pred more) as [|m] eqn:PM.
        -- eexists. split.
           ++ eapply as_S; [exact AS|]. apply asteps_1. apply (as_push_on t _ q (if is_skip v then todo else tl todo) (S i)). rewrite th_put. reflexivity.
           ++ apply (sim_later k); [lia|]. rewrite th_put, set_job_same.
              eapply sim_ext; [apply (sim_put_th k _ _ t (set_job (push_on q (if negb (is_skip v) then tl todo else todo) (S i) 0) (th s t)) (set_job (push_on q (if is_skip v then todo else tl todo) (S i) 0) (th a t)) SM)|..]; try reflexivity.
              ** rewrite normal_job, TH. destruct (is_skip v); cbn [negb push_on]; [destruct todo|destruct (tl todo)]; reflexivity.
              ** apply put_th_twice.
        -- eexists. split; [apply asteps_1; exact AS|]. apply (sim_later k); [lia|]. apply sim_put_th; [exact SM|]. rewrite normal_job, TH. destruct (is_skip v); reflexivity.
      * destruct (pred more) as [|m] eqn:PM.
        -- eexists. split.
           ++ apply asteps_1. apply (as_push_on t a q (if pushed prev then tl todo else todo) (S i)). rewrite TH. unfold normal. rewrite J. cbn [norm set_job job]. rewrite PM. reflexivity.
           ++ apply (sim_later k); [lia|]. apply sim_put_th; [exact M'|]. rewrite normal_job, TH. cbn [push_on]. destruct (if pushed prev then tl todo else todo); reflexivity.
        -- exists a. split; [constructor|]. apply (sim_later k); [lia|]. apply sim_thread; [exact M'|]. rewrite normal_job. cbn [broadcast set_th th push_on norm]. unfold normal. rewrite J. unfold set_job. cbn [job at_ pend done spent wake_task wake_pc norm]. rewrite PM. reflexivity.
  - destruct (MQ _ _ _ _ _ _ eq_refl) as [-> | MP0].
    { eexists. split; [apply asteps_1, as_pop_tickets with (q := q) (got := got) (i := i) (more := more) (block := block)|].
      - rewrite TH. unfold normal. rewrite J. reflexivity.
      - apply (sim_later k); [lia|]. apply sim_put_th; [|rewrite TH, (m_tail _ _ _ M); reflexivity].
        destruct M as [T SL MH MT MC MN MU ME MR MO MF ML]. constructor; cbn [set_tail head slots tail th cancel count used held req closes fresh log]; try assumption. rewrite MT. reflexivity. }
    assert (PT : p <> Tickets -> exists a', asteps t a a' /\
        sim (S k) (match slot_step depth monitor t q (i mod size) (pop_next block) p b s with
                   | Stay => s
                   | Next p' s' => put_th t (set_job (Pop q got i more block p') (th s t)) s'
                   | Fin prev s' => put_th t (pop_on t q (got ++ [popped prev]) (S i) (pred more) (th s t)) s'
                   end) a').
    2:{ destruct p; try (apply PT; discriminate).
      eexists. split; [apply asteps_1, as_pop_tickets with (q := q) (got := got) (i := i) (more := more) (block := block)|].
      - rewrite TH. unfold normal. rewrite J. reflexivity.
      - apply (sim_later k); [lia|]. apply sim_put_th; [|rewrite TH, (m_tail _ _ _ M); reflexivity].
        destruct M as [T SL MH MT MC MN MU ME MR MO MF ML]. constructor; cbn [set_tail head slots tail th cancel count used held req closes fresh log]; try assumption. rewrite MT. reflexivity. }
    intros PT. pose proof (slot_sim k s a t q (i mod size) (pop_next block) p b M) as H.
    assert (COMMIT : forall prev n, p = Try prev -> slots s q (i mod size) = prev -> pop_next block prev = Some n ->
      exists v v', valid v /\ valid v' /\ popped prev = entry_of v /\ n = word v' false /\
        astep t a (put_th t (set_job (Pop q (got ++ [entry_of v]) (S i) (pred more) false Load) (th a t)) (put q (i mod size) (word v' false) a)) /\
        sim (S k) (put q (i mod size) n s) (put q (i mod size) (word v' false) a)).
    { intros prev n -> E NX.
      destruct (pop_next_see k s a q _ block prev n KB M E NX) as (v & v' & b0 & V & V' & A & EP & EN & AP & B).
      exists v, v'. split; [exact V|split; [exact V'|]]. split; [rewrite EP; apply word_popped, V|]. split; [exact EN|]. split.
      - apply (as_pop t a q got i more block v v'); try assumption. rewrite TH. unfold normal. rewrite J. reflexivity.
      - rewrite EN. apply sim_put; try assumption. apply (sim_later k); [lia|exact M]. }
    assert (SET : forall x j, pop_on t q j (S i) 0 (set_job x (th a t)) = pop_on t q j (S i) 0 (th a t)) by (intros; cbn [pop_on set_job pend done]; reflexivity).
    assert (NP : forall j m, normal (pop_on t q j (S i) m (th s t)) = pop_on t q j (S i) m (th a t)).
    { intros j m. rewrite TH. destruct m; cbn [pop_on]; [destruct (t =? 0)|]; reflexivity. }
    destruct (slot_step depth monitor t q (i mod size) (pop_next block) p b s) as [|p' s'|prev s'].
    + exists a. split; [constructor|]. apply (sim_later k); [lia|exact M].
    + destruct H as [PT' [(WK & M' & TS & WW)|(prev & n & -> & -> & E & NX & ->)]].
      * exists a. split; [constructor|]. apply (sim_later k); [lia|]. apply sim_thread; [exact M'|]. rewrite TS. rewrite normal_job. unfold normal. rewrite J. f_equal.
        destruct (waking p) eqn:WP.
        -- destruct (WW eq_refl) as (v & [[-> ->] | [-> ->]]); reflexivity.
        -- destruct p, p'; try discriminate WP; try discriminate WK; try contradiction; reflexivity.
      * destruct (COMMIT prev n eq_refl E NX) as (v & v' & V & V' & PU & EN & AS & SM). eexists. split; [apply asteps_1; exact AS|].
        apply sim_put_th; [exact SM|]. rewrite normal_job. cbn [norm]. rewrite PU, TH. reflexivity.
    + destruct H as [(n & -> & E & NX & ->)|(-> & M' & ->)].
      * destruct (COMMIT prev n eq_refl E NX) as (v & v' & V & V' & PU & EN & AS & SM). rewrite PU. destruct (pred more) as [|m] eqn:PM.
        -- eexists. split.
           ++ eapply as_S; [exact AS|]. apply asteps_1. apply (as_pop_on t _ q (got ++ [entry_of v]) (S i) false). rewrite th_put. reflexivity.
           ++ rewrite th_put, SET.
              eapply sim_ext; [apply (sim_put_th (S k) _ _ t (pop_on t q (got ++ [entry_of v]) (S i) 0 (th s t)) (pop_on t q (got ++ [entry_of v]) (S i) 0 (th a t)) SM)|..]; try reflexivity.
              ** symmetry. apply NP.
              ** apply put_th_twice.
        -- eexists. split; [apply asteps_1; exact AS|]. apply sim_put_th; [exact SM|]. rewrite NP. reflexivity.
      * destruct (pred more) as [|m] eqn:PM.
        -- eexists. split.
           ++ apply asteps_1. apply (as_pop_on t a q (got ++ [popped prev]) (S i) false). rewrite TH. unfold normal. rewrite J. cbn [norm set_job job]. rewrite PM. reflexivity.
           ++ apply (sim_later k); [lia|]. apply sim_put_th; [exact M'|]. symmetry. apply NP.
        -- exists a. split; [constructor|]. apply (sim_later k); [lia|]. apply sim_thread; [exact M'|]. cbn [broadcast set_th th pop_on]. rewrite normal_job. unfold normal. rewrite J. unfold set_job. cbn [job at_ pend done spent wake_task wake_pc norm]. rewrite PM. reflexivity.
Qed.

(** Outside of the queues both take the same steps. *)
Lemma normal_rest x : job x = Rest -> normal x = x.
Proof. destruct x as [j at0 pe dn sp]. cbn [job]. intros ->. reflexivity. Qed.

Lemma flush_norm q l : norm (flush q l) = flush q l.
Proof. destruct l; reflexivity. Qed.

Lemma sim_rest k s a f g :
  sim k s a ->
  (forall t, th g t = normal (th f t)) -> slots f = slots s -> slots g = slots a -> head g = head f -> tail g = tail f -> cancel g = cancel f ->
  count g = count f -> used g = used f -> held g = held f -> req g = req f -> closes g = closes f -> fresh g = fresh f -> log g = log f ->
  sim k f g.
Proof.
  intros M T SF SG. intros. constructor; try assumption. intros q j. rewrite SF, SG. apply (m_slot _ _ _ M).
Qed.

Lemma put_normal t x f g : (forall u, th g u = normal (th f u)) -> normal x = x -> forall u, th (put_th t x g) u = normal (th (put_th t x f) u).
Proof. intros H E u. cbn [put_th set_th th]. unfold upd. destruct (u =? t); [rewrite E; reflexivity|apply H]. Qed.

Lemma normal_flush q l at0 pe dn sp : normal (Th (flush q l) at0 pe dn sp) = Th (flush q l) at0 pe dn sp.
Proof. unfold normal, set_job. cbn [job at_ pend done spent]. rewrite flush_norm. reflexivity. Qed.

Lemma worker_sim k s a t :
  sim k s a -> job (th s t) = Rest ->
  match worker_step t s with
  | Some s' => exists a', worker_step t a = Some a' /\ sim k s' a'
  | None => worker_step t a = None
  end.
Proof.
  intros M J. pose proof (m_th _ _ _ M t) as TH. rewrite (normal_rest _ J) in TH. pose proof (m_th _ _ _ M) as T.
  pose proof M as M0. destruct M as [_ SL MH MT MC MN MU ME MR MO MF ML].
  unfold IoqModel.worker_step. rewrite TH, MC, MO, MR.
  assert (P : forall x, normal x = x -> sim k (put_th t x s) (put_th t x a)).
  { intros x E. apply (sim_put_th k s a t x x M0). symmetry. exact E. }
  assert (Q : forall x e, normal x = x -> sim k (put_th t x (emit e s)) (put_th t x (emit e a))).
  { intros x e E. apply sim_put_th; [|symmetry; exact E]. apply (sim_rest k s a); try assumption; try reflexivity. cbn [emit log]. f_equal. exact ML. }
  destruct (at_ (th s t)); try (exists a; split; [reflexivity|exact M0]).
  - destruct (pend (th s t)); (eexists; split; [reflexivity|apply P; first [apply normal_flush | reflexivity]]).
  - destruct (pend (th s t)) as [|e r]; [eexists; split; [reflexivity|apply P; reflexivity]|].
    destruct (e =? stop)%N; [eexists; split; [reflexivity|apply P; reflexivity]|].
    destruct (_ <=? _); (eexists; split; [reflexivity|apply Q; first [apply normal_flush | reflexivity]]).
  - destruct (pend (th s t)) as [|e r]; [reflexivity|].
    destruct (e =? stop)%N; [eexists; split; [reflexivity|apply P; reflexivity]|].
    destruct (_ <=? _); (eexists; split; [reflexivity|apply Q; first [apply normal_flush | reflexivity]]).
  - destruct (asserts && _)%bool; [reflexivity|]. eexists; split; [reflexivity|apply P; apply normal_flush].
Qed.

Lemma take_sim k s a :
  sim k s a -> forall x, job x = Rest -> sim k (take x s) (take x a).
Proof.
  intros M x J. pose proof (m_th _ _ _ M) as T. pose proof M as M0. destruct M as [_ SL MH MT MC MN MU ME MR MO MF ML].
  unfold take. destruct (done x) as [|e r].
  - apply (sim_put_th k s a 0 _ _ M0). reflexivity.
  - rewrite MR, ME. apply sim_put_th; [|reflexivity]. apply (sim_rest k s a); try assumption; try reflexivity.
    cbn [emit set_held log]. f_equal. exact ML.
Qed.

Lemma owner_sim k s a o :
  sim k s a -> job (th s 0) = Rest -> sim k (owner_step o s) (owner_step o a).
Proof.
  intros M J. pose proof (m_th _ _ _ M 0) as TH. rewrite (normal_rest _ J) in TH. pose proof (m_th _ _ _ M) as T. pose proof M as M0.
  destruct M as [_ SL MH MT MC MN MU ME MR MO MF ML].
  assert (P : forall x, normal x = x -> sim k (put_th 0 x s) (put_th 0 x a)).
  { intros x E. apply (sim_put_th k s a 0 x x M0). symmetry. exact E. }
  unfold IoqModel.owner_step, usable. rewrite TH, MC, MN, MU, ME, MR, MO, MF. destruct o as [p close| |block|p|].
  - destruct (cancel s); [exact M0|]. destruct (depth <=? count s); [exact M0|]. destruct (_ && _)%bool; [|exact M0].
    destruct (_ <=? _); (apply sim_put_th; [|symmetry; first [apply normal_flush | reflexivity]]); apply (sim_rest k s a); try assumption; try reflexivity; cbn [log]; f_equal; exact ML.
  - apply P, normal_flush.
  - destruct (pend (th s 0)); [|exact M0]. destruct (count s =? 0); [exact M0|]. destruct (done (th s 0)) eqn:D; [|apply take_sim; assumption].
    destruct (_ && _)%bool; apply P; reflexivity.
  - destruct (existsb _ _); [|exact M0]. apply (sim_rest k s a); try assumption; try reflexivity.
  - destruct (cancel s); [exact M0|]. apply sim_put_th; [|symmetry; apply normal_flush]. apply (sim_rest k s a); try assumption; try reflexivity; cbn [emit set_cancel log]; f_equal; exact ML.
Qed.

(** A thread inside of a queue has a slot to go to. *)
Definition busy (s : st) : Prop :=
  forall t, match job (th s t) with
            | Rest => True
            | Push _ _ _ more p | Pop _ _ _ more _ p => p = Tickets \/ 0 < more
            end.

Definition todo_left (a : st) : Prop :=
  forall t q todo i more, job (th a t) = Push q todo i more Tickets -> todo <> [].

Lemma batch_pos : 0 < batch.
Proof. unfold batch. pose proof (Nat.pow_nonzero 2 bexp). lia. Qed.

Lemma slot_step_busy t q i next p b s p' s' :
  slot_step depth monitor t q i next p b s = Next p' s' -> (forall u, th s' u = th s u).
Proof.
  unfold slot_step. intros H u.
  repeat (match type of H with context [match ?x with _ => _ end] => destruct x; try discriminate H end); inversion H; reflexivity.
Qed.
Lemma slot_step_fin t q i next p b s prev s' :
  slot_step depth monitor t q i next p b s = Fin prev s' -> (forall u, th s' u = th s u \/ th s' u = set_job (wake_task depth monitor q (monitor i) (job (th s u))) (th s u)).
Proof.
  unfold slot_step. intros H u.
  repeat (match type of H with context [match ?x with _ => _ end] => destruct x; try discriminate H end); inversion H; auto.
Qed.

Lemma busy_step t b o s s' k a :
  sim k s a -> todo_left a -> busy s -> step t b o s = Some s' -> busy s'.
Proof.
  intros M TL B H u. pose proof (B t) as Bt. unfold IoqModel.step in H.
  assert (FL : forall q l, match flush q l with Rest => True | Push _ _ _ more p | Pop _ _ _ more _ p => p = Tickets \/ 0 < more end) by (intros q l; destruct l; cbn; auto).
  assert (PO : forall x s, (forall u, match job (th s u) with Rest => True | Push _ _ _ more p | Pop _ _ _ more _ p => p = Tickets \/ 0 < more end) ->
     match job x with Rest => True | Push _ _ _ more p | Pop _ _ _ more _ p => p = Tickets \/ 0 < more end ->
     forall t u, match job (th (put_th t x s) u) with Rest => True | Push _ _ _ more p | Pop _ _ _ more _ p => p = Tickets \/ 0 < more end).
  { intros x s0 H0 H1 t0 u0. cbn [put_th set_th th]. unfold upd. destruct (u0 =? t0); [exact H1|apply H0]. }
  assert (TK : forall x, job x = Rest -> forall u, match job (th (take x s) u) with Rest => True | Push _ _ _ more p | Pop _ _ _ more _ p => p = Tickets \/ 0 < more end).
  { intros x _ u0. unfold take. destruct (done x); apply PO; try exact B; exact I. }
  destruct (job (th s t)) as [|q todo i more p|q got i more block p] eqn:J.
  - assert (WK : forall s', worker_step t s = Some s' -> forall u, match job (th s' u) with Rest => True | Push _ _ _ more p | Pop _ _ _ more _ p => p = Tickets \/ 0 < more end).
    { clear s' H. intros s' H u0. unfold IoqModel.worker_step in H.
      repeat (match type of H with context [match ?x with _ => _ end] => destruct x; try discriminate H end); injection H as <-; try apply B; apply PO; try exact B; try exact I; try apply FL; cbn [job]; auto. }
    destruct (at_ (th s t)); try (apply (WK s' H)).
    + injection H as <-. unfold IoqModel.owner_step. destruct o as [p close| |block|p|].
      * destruct (cancel s); [apply B|]. destruct (_ <=? count s); [apply B|]. destruct (usable _ _ _); [|apply B]. destruct (_ <=? _); apply PO; try exact B; try exact I; apply FL.
      * apply PO; [exact B|apply FL].
      * destruct (pend (th s 0)); [|apply B]. destruct (count s =? 0); [apply B|]. destruct (done (th s 0)) eqn:D; [|unfold take; rewrite D; apply PO; [exact B|exact I]].
        destruct (_ && _)%bool; apply PO; try exact B; cbn [job]; auto.
      * destruct (existsb _ _); apply B.
      * destruct (cancel s); [apply B|]. apply PO; [exact B|apply FL].
    + injection H as <-. apply TK, J.
  - injection H as <-. unfold IoqModel.queue_step. rewrite J.
    assert (PT : match job (th (match slot_step depth monitor t q (i mod size) (push_next (hd 0%N todo)) p b s with
                   | Stay => s
                   | Next p' s' => put_th t (set_job (Push q todo i more p') (th s t)) s'
                   | Fin prev s' => put_th t (set_job (push_on q (if pushed prev then tl todo else todo) (S i) (pred more)) (th s t)) s'
                   end) u) with Rest => True | Push _ _ _ more p | Pop _ _ _ more _ p => p = Tickets \/ 0 < more end \/ p = Tickets).
    2:{ destruct p; try (destruct PT as [PT|E]; [exact PT|discriminate E]).
        apply PO; [exact B|]. cbn [set_job job]. right. pose proof (m_th _ _ _ M t) as TH. assert (todo <> []).
        { apply (TL t q todo i more). rewrite TH. unfold normal. rewrite J. reflexivity. }
        destruct todo; [contradiction|cbn; lia]. }
    destruct p; [right; reflexivity|..]; left;
    (destruct (slot_step depth monitor t q (i mod size) (push_next (hd 0%N todo)) _ b s) as [|pz sz|pv sz] eqn:SS;
     [apply B
     |apply PO; [intros u0; rewrite (slot_step_busy _ _ _ _ _ _ _ _ _ SS); apply B|cbn [set_job job]; destruct Bt as [E|L]; [discriminate E|right; exact L]]
     |apply PO; [intros u0; destruct (slot_step_fin _ _ _ _ _ _ _ _ _ SS u0) as [E|E]; rewrite E; [apply B|specialize (B u0); cbn [set_job job]; destruct (job (th s u0)); [exact I| |]; cbn [wake_task]; (destruct B as [-> | L]; [left; reflexivity|right; exact L])]
                |cbn [set_job job]; destruct (pred more); cbn [push_on]; [destruct (if pushed pv then tl todo else todo); [exact I|left; reflexivity]|right; lia]]]).
  - injection H as <-. unfold IoqModel.queue_step. rewrite J.
    assert (PT : match job (th (match slot_step depth monitor t q (i mod size) (pop_next block) p b s with
                   | Stay => s
                   | Next p' s' => put_th t (set_job (Pop q got i more block p') (th s t)) s'
                   | Fin prev s' => put_th t (pop_on t q (got ++ [popped prev]) (S i) (pred more) (th s t)) s'
                   end) u) with Rest => True | Push _ _ _ more p | Pop _ _ _ more _ p => p = Tickets \/ 0 < more end \/ p = Tickets).
    2:{ destruct p; try (destruct PT as [PT|E]; [exact PT|discriminate E]).
        apply PO; [exact B|]. cbn [set_job job]. right. apply batch_pos. }
    destruct p; [right; reflexivity|..]; left;
    (destruct (slot_step depth monitor t q (i mod size) (pop_next block) _ b s) as [|pz sz|pv sz] eqn:SS;
     [apply B
     |apply PO; [intros u0; rewrite (slot_step_busy _ _ _ _ _ _ _ _ _ SS); apply B|cbn [set_job job]; destruct Bt as [E|L]; [discriminate E|right; exact L]]
     |apply PO; [intros u0; destruct (slot_step_fin _ _ _ _ _ _ _ _ _ SS u0) as [E|E]; rewrite E; [apply B|specialize (B u0); cbn [set_job job]; destruct (job (th s u0)); [exact I| |]; cbn [wake_task]; (destruct B as [-> | L]; [left; reflexivity|right; exact L])]
                |destruct (pred more); cbn [pop_on]; [destruct (t =? 0); exact I|cbn [set_job job]; right; lia]]]).
Qed.

Lemma step_sim k s a t b o :
  (N.of_nat k < 2 ^ 61)%N -> sim k s a -> solid a -> busy s ->
  (at_ (th s t) = M_idle \/ at_ (th s t) = M_filled -> t = 0) ->
  match step t b o s with
  | Some s' => exists a', asteps t a a' /\ sim (S k) s' a'
  | None => job (th a t) = Rest /\ worker_step t a = None
  end.
Proof.
  intros KB M SO B Z. pose proof (m_th _ _ _ M t) as TH. unfold IoqModel.step.
  assert (QS : exists a', asteps t a a' /\ sim (S k) (queue_step t b s) a').
  { apply queue_sim; try assumption; intros; specialize (B t); rewrite H in B; exact B. }
  destruct (job (th s t)) eqn:J; try exact QS. clear QS. rewrite (normal_rest _ J) in TH.
  pose proof (worker_sim k s a t M J) as WS.
  assert (W : at_ (th a t) <> M_idle -> at_ (th a t) <> M_filled -> match worker_step t s with
    | Some s' => exists a', asteps t a a' /\ sim (S k) s' a'
    | None => job (th a t) = Rest /\ worker_step t a = None end).
  { intros N1 N2. destruct (worker_step t s) as [s'|].
    - destruct WS as (a' & WA & M'). exists a'. split; [apply asteps_1, as_worker; try assumption; rewrite TH; exact J|apply (sim_later k); [lia|exact M']].
    - split; [rewrite TH; exact J|exact WS]. }
  destruct (at_ (th s t)) eqn:P; try (apply W; rewrite TH, P; discriminate).
  - assert (t = 0) by (apply Z; auto). subst t. exists (owner_step o a). split; [apply asteps_1, as_owner; rewrite TH; assumption|]. apply (sim_later k); [lia|]. apply owner_sim; assumption.
  - assert (t = 0) by (apply Z; auto). subst t. exists (take (th a 0) a). split; [apply asteps_1, as_take; rewrite TH; assumption|]. apply (sim_later k); [lia|]. rewrite TH. apply take_sim; assumption.
Qed.
End Norm.
