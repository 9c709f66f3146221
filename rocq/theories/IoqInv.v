(** * Invariants of the I/O queue: definitions, and the shape of threads *)

From Coq Require Import List Arith NArith ZArith Bool Lia ZifyBool ZifyNat ZifyN.
Import ListNotations.
From Verif Require Import IoqModel IoqWords IoqSpec IoqCount IoqNorm.

(** What a thread has of requests that are not completed, and of those that are *)
Definition bef (x : thread) : list N :=
  pend x ++ match job x with
            | Push Pending todo _ _ _ => todo
            | Pop Pending got _ _ _ _ => got
            | _ => []
            end.
Definition aft (x : thread) : list N :=
  done x ++ match job x with
            | Push Ready todo _ _ _ => todo
            | Pop Ready got _ _ _ _ => got
            | _ => []
            end.

Definition full (w p : N) : nat :=
  match see w with Full e => if N.eqb e p then 1 else 0 | _ => 0 end.

Definition worth (v : view) : Z :=
  match v with Empty => 0 | Full _ => 1 | Skips n => - Z.of_N n end.

Definition stopped (x : thread) : Prop := at_ x = W_stopped \/ at_ x = W_exit.

Section Inv.
Variable depth workers bexp : nat.
Variable stop : N.
Variable asserts : bool.

Local Notation size := (size depth).
Local Notation batch := (batch bexp).

(** Tickets that a thread still has to use *)
Definition up (q : which) (x : thread) (j : nat) : nat :=
  match job x with
  | Push q' _ i more _ => if which_eqb q' q then cnt size (i + more) j - cnt size i j else 0
  | _ => 0
  end.
Definition dn (q : which) (x : thread) (j : nat) : nat :=
  match job x with
  | Pop q' _ i more _ _ => if which_eqb q' q then cnt size (i + more) j - cnt size i j else 0
  | _ => 0
  end.

Definition thB a p := sum (fun t => occ p (bef (th a t))) (S workers).
Definition thA a p := sum (fun t => occ p (aft (th a t))) (S workers).
Definition slN a q p := sum (fun j => full (slots a q j) p) size.
Definition nB a p := thB a p + slN a Pending p.
Definition nA a p := thA a p + slN a Ready p.
Definition upS a q j := sum (fun t => up q (th a t) j) (S workers).
Definition dnS a q j := sum (fun t => dn q (th a t) j) (S workers).

(** ** Shapes *)
Definition shape (t : nat) (x : thread) : Prop :=
  ~ In 0%N (pend x) /\ ~ In 0%N (done x) /\
  match job x with
  | Rest =>
      match at_ x with
      | M_idle | M_filled => t = 0
      | W_top | W_stopped => 1 <= t <= workers
      | W_take => 1 <= t <= workers /\ (pend x = [] -> done x = [])
      | W_filled => 1 <= t <= workers /\ pend x <> []
      | W_exit => 1 <= t /\ done x = [] /\ (workers < t -> pend x = []) /\ (asserts = true -> pend x = [])
      end
  | Push q todo i more p =>
      ~ In 0%N todo /\ more <= length todo /\ (p = Tickets /\ more = 0 /\ todo <> [] \/ p = Load) /\
      match q with
      | Pending => t = 0 /\ at_ x = M_idle /\ pend x = [] \/ 1 <= t <= workers /\ at_ x = W_stopped /\ (todo = [stop] \/ todo = [])
      | Ready => 1 <= t <= workers /\ done x = [] /\
                 (at_ x = W_top \/ at_ x = W_take /\ pend x = [] \/ at_ x = W_exit /\ (asserts = true -> pend x = []))
      end
  | Pop q got i more block p =>
      pend x = [] /\ done x = [] /\
      (p = Tickets /\ more = 0 /\ got = [] \/ p = Load /\ more <= batch /\ (block = true -> more = batch /\ got = [] /\ i mod batch = 0)) /\
      match q with
      | Ready => t = 0 /\ at_ x = M_filled
      | Pending => 1 <= t <= workers /\ at_ x = W_take /\ (block = true \/ exists e, In e got /\ e <> 0%N)
      end
  end.

Definition shapes (a : st) : Prop := forall t, shape t (th a t).

Record Acct (a : st) : Prop := {
  c_nd : NoDup (used a);
  c_ok : forall p, In p (used a) -> valid (Full p) /\ p <> stop;
  c_count : count a = length (used a);
  c_depth : length (used a) <= depth;
  c_occ : forall p, p <> 0%N -> p <> stop -> nB a p + nA a p + occ p (held a) = occ p (used a);
  c_stop : nB a stop = if cancel a then 1 else 0;
  c_nostop : nA a stop + occ stop (held a) = 0;
  c_held : ~ In 0%N (held a);
  c_req : forall p, In p (used a) -> req a p < fresh a;
  c_inj : forall p p', In p (used a) -> In p' (used a) -> req a p = req a p' -> p = p';
  c_comp : forall p, In p (used a) -> (completed (req a p) (log a) <-> nB a p = 0);
  c_ret : forall p, In p (used a) -> (returned (req a p) (log a) <-> In p (held a));
  c_acc : forall r, accepted r (log a) <-> r < fresh a;
  c_old : forall r, r < fresh a -> (exists p, In p (used a) /\ req a p = r) \/ (completed r (log a) /\ returned r (log a));
  c_clo : forall p c, In p (used a) -> (In (Accept (req a p) c) (log a) <-> c = closes a p);
  c_can : cancel a = true <-> cancelled (log a);
  c_prop : proper workers (log a);
  c_calm : cancel a = true -> interrupted (log a) \/ forall p, p <> 0%N -> p <> stop -> nB a p = 0;
}.

Record Tick (a : st) : Prop := {
  k_eq : forall q j, j < size ->
    (worth (see (slots a q j)) + Z.of_nat (upS a q j) - Z.of_nat (dnS a q j) = Z.of_nat (cnt size (head a q) j) - Z.of_nat (cnt size (tail a q) j))%Z;
  k_mod : forall q, tail a q mod batch = 0;
  k_head : forall t todo i more p, job (th a t) = Push Pending todo i more p -> 0 < more -> i + more = head a Pending;
  k_tail : forall got i more block, job (th a 0) = Pop Ready got i more block Load -> i + more = tail a Ready;
  k_one : workers = 1 -> forall got i more block, job (th a 1) = Pop Pending got i more block Load -> i + more = tail a Pending;
}.

Record Stp (a : st) : Prop := {
  s_last : forall todo i more p, job (th a 0) = Push Pending todo i more p -> cancel a = true -> todo = [] \/ exists l, todo = l ++ [stop];
  s_slot : forall j, j < size -> see (slots a Pending j) = Full stop -> exists h, head a Pending = S h /\ h mod size = j;
  s_can : forall t, 1 <= t <= workers -> stopped (th a t) -> cancel a = true /\ ~ In stop (bef (th a 0));
  s_hold : forall t, 1 <= t <= workers -> ~ stopped (th a t) -> In stop (bef (th a t)) ->
    (forall u, 1 <= u <= workers -> u <> t -> stopped (th a u)) ->
    forall f, f < size -> (worth (see (slots a Pending f)) <= Z.of_nat (dn Pending (th a t) f))%Z;
  s_all : (forall u, 1 <= u <= workers -> stopped (th a u)) ->
    forall f e, f < size -> see (slots a Pending f) = Full e -> e = stop;
  s_pop : workers = 1 -> forall got i more block p, job (th a 1) = Pop Pending got i more block p -> In stop got ->
    (exists l, entries got = l ++ [stop]) /\ head a Pending <= i;
  s_pend : workers = 1 -> In stop (pend (th a 1)) -> exists l, pend (th a 1) = l ++ [stop];
  s_end : workers = 1 -> at_ (th a 1) = W_stopped -> pend (th a 1) = [];
  s_none : cancel a = true -> pend (th a 0) = [];
  s_good : forall q j, exists v, valid v /\ slots a q j = word v false;
}.

Record Inv (a : st) : Prop := {
  v_shape : shapes a;
  v_acct : Acct a;
  v_tick : Tick a;
  v_stp : Stp a;
}.

Hypothesis stop_ok : valid (Full stop).

Lemma size_pos : 0 < size.
Proof. unfold size. pose proof (Nat.pow_nonzero 2 (Nat.log2_up depth)). lia. Qed.
Lemma depth_size : depth <= size.
Proof. unfold size. destruct (le_lt_dec depth 1); [pose proof (Nat.pow_nonzero 2 (Nat.log2_up depth)); lia|]. apply Nat.log2_up_spec. lia. Qed.
Lemma batch_gt0 : 0 < batch.
Proof. unfold IoqModel.batch. pose proof (Nat.pow_nonzero 2 bexp). lia. Qed.
Lemma stop_nz : stop <> 0%N.
Proof. cbn [valid] in stop_ok. lia. Qed.

(** ** How sums change *)
Lemma upd_same {A} (f : nat -> A) k v : upd f k v k = v.
Proof. unfold upd. rewrite Nat.eqb_refl. reflexivity. Qed.
Lemma upd_other {A} (f : nat -> A) k v j : j <> k -> upd f k v j = f j.
Proof. intros H. unfold upd. destruct (Nat.eqb_spec j k); [contradiction|reflexivity]. Qed.

Lemma sum_put (F : thread -> nat) a t x : t <= workers ->
  sum (fun u => F (th (put_th t x a) u)) (S workers) + F (th a t) = sum (fun u => F (th a u)) (S workers) + F x.
Proof.
  intros L. pose proof (sum_change (fun u => F (th (put_th t x a) u)) (fun u => F (th a u)) (S workers) t ltac:(lia)) as C.
  cbv beta in C. rewrite C; [|intros i _ NE; cbn [put_th set_th th]; rewrite upd_other by exact NE; reflexivity].
  cbn [put_th set_th th]. rewrite upd_same. reflexivity.
Qed.

Lemma thB_put a t x p : t <= workers -> thB (put_th t x a) p + occ p (bef (th a t)) = thB a p + occ p (bef x).
Proof. apply (sum_put (fun x => occ p (bef x))). Qed.
Lemma thA_put a t x p : t <= workers -> thA (put_th t x a) p + occ p (aft (th a t)) = thA a p + occ p (aft x).
Proof. apply (sum_put (fun x => occ p (aft x))). Qed.
Lemma upS_put a t x q j : t <= workers -> upS (put_th t x a) q j + up q (th a t) j = upS a q j + up q x j.
Proof. apply (sum_put (fun x => up q x j)). Qed.
Lemma dnS_put a t x q j : t <= workers -> dnS (put_th t x a) q j + dn q (th a t) j = dnS a q j + dn q x j.
Proof. apply (sum_put (fun x => dn q x j)). Qed.

Lemma which_eqb_spec q q' : reflect (q = q') (which_eqb q q').
Proof. destruct q, q'; constructor; congruence. Qed.

Lemma slots_put q j w a q' j' : slots (put q j w a) q' j' = if which_eqb q' q && (j' =? j) then w else slots a q' j'.
Proof. cbn [put set_slots slots]. unfold upd2, upd. destruct (which_eqb_spec q' q); [destruct (j' =? j)|]; reflexivity. Qed.

Lemma slN_put a q j w q' p : j < size ->
  slN (put q j w a) q' p + (if which_eqb q' q then full (slots a q j) p else 0) = slN a q' p + (if which_eqb q' q then full w p else 0).
Proof.
  intros L. destruct (which_eqb_spec q' q) as [-> | NE].
  - pose proof (sum_change (fun i => full (slots (put q j w a) q i) p) (fun i => full (slots a q i) p) size j L) as C. cbv beta in C.
    unfold slN. rewrite C.
    + rewrite slots_put. destruct (which_eqb_spec q q); [|contradiction]. rewrite Nat.eqb_refl. reflexivity.
    + intros i _ N. rewrite slots_put. destruct (Nat.eqb_spec i j); [contradiction|]. rewrite andb_false_r. reflexivity.
  - unfold slN. f_equal. apply sum_ext. intros i _. rewrite slots_put. destruct (which_eqb_spec q' q); [contradiction|reflexivity].
Qed.

(** ** Shapes are kept *)
Lemma shape_w t x : shape t x -> workers < t -> job x = Rest /\ at_ x = W_exit /\ pend x = [] /\ done x = [].
Proof.
  intros (P0 & D0 & S) L. destruct (job x) as [|q todo i more p|q got i more block p].
  - destruct (at_ x); try lia. destruct S as (_ & D & P & _). repeat split; auto.
  - destruct S as (_ & _ & _ & S). destruct q; [destruct S as [S|S]|]; destruct S as [S _]; lia.
  - destruct S as (_ & _ & _ & S). destruct q; destruct S as [S _]; lia.
Qed.

Lemma entries_0 l : ~ In 0%N (entries l).
Proof. unfold entries. rewrite filter_In. intros [_ H]. discriminate H. Qed.
Lemma occ_entries p l : p <> 0%N -> occ p (entries l) = occ p l.
Proof. intros H. unfold entries. rewrite occ_filter. destruct (N.eqb_spec p 0); [contradiction|reflexivity]. Qed.

Lemma shapes_put a t x : shapes a -> shape t x -> shapes (put_th t x a).
Proof. intros H S u. cbn [put_th set_th th]. unfold upd. destruct (Nat.eqb_spec u t) as [-> | ]; [exact S|apply H]. Qed.

Lemma in_tl (e : N) l : In e (tl l) -> In e l.
Proof. destruct l; cbn; auto. Qed.

Lemma shape_flush_ready t at0 pe dn0 sp :
  ~ In 0%N pe -> ~ In 0%N dn0 -> 1 <= t <= workers ->
  at0 = W_top \/ at0 = W_take /\ pe = [] \/ at0 = W_exit /\ (asserts = true -> pe = []) ->
  shape t (Th (flush Ready dn0) at0 pe [] sp).
Proof.
  intros P D L W. split; [exact P|split; [exact (fun x => x)|]]. destruct dn0 as [|e r]; cbn [flush job at_ done pend].
  - destruct W as [-> | [[-> PE] | [-> PE]]]; auto. split; [lia|]. split; [reflexivity|]. split; [lia|exact PE].
  - split; [exact D|]. split; [cbn; lia|]. split; [left; split; [reflexivity|split; [reflexivity|discriminate]]|].
    split; [exact L|]. split; [reflexivity|exact W].
Qed.

Lemma shape_flush_pending l dn0 sp :
  ~ In 0%N l -> ~ In 0%N dn0 -> shape 0 (Th (flush Pending l) M_idle [] dn0 sp).
Proof.
  intros P D. split; [exact (fun x => x)|split; [exact D|]]. destruct l as [|e r]; cbn [flush job at_ done pend]; [reflexivity|].
  split; [exact P|]. split; [cbn; lia|]. split; [left; split; [reflexivity|split; [reflexivity|discriminate]]|]. left. auto.
Qed.

Local Notation worker_step := (worker_step bexp stop asserts).
Local Notation owner_step := (owner_step depth bexp stop).
Local Notation astep := (astep depth bexp stop asserts).

Lemma shapes_worker a t a' : shapes a -> job (th a t) = Rest -> worker_step t a = Some a' -> shapes a'.
Proof.
  intros H J W. pose proof (H t) as (P0 & D0 & S). rewrite J in S. unfold IoqModel.worker_step in W.
  assert (E : forall ev x, shape t x -> shapes (put_th t x (emit ev a))) by (intros ev x SX; apply (shapes_put (emit ev a) t x); assumption).
  destruct (at_ (th a t)) eqn:AT; try (injection W as <-; exact H).
  - destruct (pend (th a t)) as [|e r] eqn:P; injection W as <-; apply shapes_put; try exact H.
    + apply shape_flush_ready; auto.
    + split; [exact P0|split; [exact D0|]]. cbn [job at_ pend done]. split; [exact S|discriminate].
  - destruct S as [L D]. destruct (pend (th a t)) as [|e r] eqn:P.
    + injection W as <-. apply shapes_put; [exact H|]. specialize (D eq_refl). rewrite D. split; [exact (fun x => x)|split; [exact (fun x => x)|]].
      cbn [job at_ pend done]. split; [reflexivity|split; [reflexivity|]]. split; [left; auto|]. auto.
    + assert (R0 : ~ In 0%N r /\ e <> 0%N) by (split; [intros X; apply P0; right; exact X|intros ->; apply P0; left; reflexivity]). destruct R0 as [R0 E0].
      destruct (N.eqb_spec e stop) as [-> | NE].
      * injection W as <-. apply shapes_put; [exact H|]. split; [exact R0|split; [exact D0|]]. cbn [job at_ pend done].
        split; [intros [X|[]]; contradiction|]. split; [cbn; lia|]. split; [left; split; [reflexivity|split; [reflexivity|discriminate]]|]. right. auto.
      * assert (D1 : ~ In 0%N (done (th a t) ++ [e])) by (rewrite in_app_iff; intros [X|[X|[]]]; [contradiction|congruence]).
        destruct (_ <=? _); injection W as <-; apply E; [apply shape_flush_ready; auto|]. split; [exact R0|split; [exact D1|exact L]].
  - destruct S as [L D]. destruct (pend (th a t)) as [|e r] eqn:P; [congruence|].
    assert (R0 : ~ In 0%N r /\ e <> 0%N) by (split; [intros X; apply P0; right; exact X|intros ->; apply P0; left; reflexivity]). destruct R0 as [R0 E0].
      destruct (N.eqb_spec e stop) as [-> | NE].
      * injection W as <-. apply shapes_put; [exact H|]. split; [exact R0|split; [exact D0|]]. cbn [job at_ pend done].
        split; [intros [X|[]]; contradiction|]. split; [cbn; lia|]. split; [left; split; [reflexivity|split; [reflexivity|discriminate]]|]. right. auto.
      * assert (D1 : ~ In 0%N (done (th a t) ++ [e])) by (rewrite in_app_iff; intros [X|[X|[]]]; [contradiction|congruence]).
        destruct (_ <=? _); injection W as <-; apply E; [apply shape_flush_ready; auto|]. split; [exact R0|split; [exact D1|exact L]].
  - destruct (asserts && _)%bool eqn:AS; [discriminate W|]. injection W as <-. apply shapes_put; [exact H|]. apply shape_flush_ready; auto.
    right. right. split; [reflexivity|]. intros EA. rewrite EA in AS. destruct (pend (th a t)); [reflexivity|discriminate AS].
Qed.

Lemma shapes_take a x : shapes a -> ~ In 0%N (pend x) -> ~ In 0%N (done x) -> shapes (take x a).
Proof.
  intros H P0 D0. unfold take. destruct (done x) as [|e r] eqn:D; apply (shapes_put _ 0); try exact H; (split; [exact P0|split; [|reflexivity]]); cbn [done]; intros X; [exact X|apply D0; right; exact X].
Qed.

Lemma shapes_owner a o : shapes a -> shapes (owner_step o a).
Proof.
  intros H. pose proof (H 0) as (P0 & D0 & _). unfold IoqModel.owner_step. destruct o as [p close| |block|p|].
  - destruct (cancel a); [exact H|]. destruct (depth <=? count a); [exact H|]. destruct (usable stop p a) eqn:US; [|exact H].
    assert (Z : ~ In 0%N (pend (th a 0) ++ [p])).
    { unfold usable in US. rewrite in_app_iff. intros [X|[X|[]]]; [contradiction|]. subst p. cbn in US. discriminate US. }
    destruct (_ <=? _); apply (shapes_put _ 0); try exact H; [apply shape_flush_pending; auto|split; [exact Z|split; [exact D0|reflexivity]]].
  - apply (shapes_put _ 0); [exact H|]. apply shape_flush_pending; auto.
  - destruct (pend (th a 0)) eqn:P; [|exact H]. destruct (count a =? 0); [exact H|]. destruct (done (th a 0)) eqn:D.
    + destruct (_ && _)%bool; apply (shapes_put _ 0); try exact H; (split; [exact (fun x => x)|split; [exact (fun x => x)|]]); cbn [job at_ pend done]; [reflexivity|].
      split; [reflexivity|split; [reflexivity|]]. split; [left; auto|auto].
    + apply shapes_take; [exact H|rewrite P; exact P0|rewrite D; exact D0].
  - destruct (existsb _ _); exact H.
  - destruct (cancel a); [exact H|]. apply (shapes_put _ 0); [exact H|]. apply shape_flush_pending; [|exact D0]. rewrite in_app_iff. intros [X|[X|[]]]; [contradiction|]. pose proof stop_nz. congruence.
Qed.

Lemma shapes_step t a a' : Tick a -> shapes a -> astep t a a' -> shapes a'.
Proof.
  intros TK H A. pose proof (H t) as (P0 & D0 & S). destruct A.
  - rewrite H0 in S. apply (shapes_put _ t); [exact H|]. split; [exact P0|split; [exact D0|]]. cbn [set_job job at_ pend done].
    destruct S as (S1 & S2 & S3 & S4). split; [exact S1|]. split; [lia|]. split; [right; reflexivity|exact S4].
  - rewrite H0 in S. apply (shapes_put _ t); [exact H|]. split; [exact P0|split; [exact D0|]]. cbn [set_job job at_ pend done].
    destruct S as (S1 & S2 & S3 & S4). split; [exact S1|split; [exact S2|]]. split; [right; split; [reflexivity|split; [lia|intros _; split; [reflexivity|split; [reflexivity|apply (k_mod a TK)]]]]|].
    destruct q; [|exact S4]. destruct S4 as (L & AT & B). split; [exact L|split; [exact AT|]]. destruct B as [-> | (e & IE & NE)]; [left; reflexivity|]. destruct S3 as [(_ & _ & ->)|(C & _)]; [destruct IE|discriminate C].
  - rewrite H0 in S. apply (shapes_put _ t); [exact H|]. split; [exact P0|split; [exact D0|]]. cbn [set_job job at_ pend done].
    destruct S as (S1 & S2 & S3 & S4). split; [destruct (is_skip v); [exact S1|intros X; apply S1, in_tl, X]|]. split; [destruct (is_skip v); [lia|destruct todo; cbn [tl length] in *; lia]|]. split; [right; reflexivity|].
    destruct q; [|exact S4]. destruct S4 as [S4|(L & AT & TD)]; [left; exact S4|right]. split; [exact L|split; [exact AT|]]. destruct (is_skip v); [exact TD|]. right. destruct TD as [-> | ->]; reflexivity.
  - rewrite H0 in S. apply (shapes_put _ t); [exact H|]. split; [exact P0|split; [exact D0|]]. cbn [set_job job at_ pend done].
    destruct S as (S1 & S2 & S3 & S4). split; [exact S1|split; [exact S2|]]. split.
    + right. split; [reflexivity|]. split; [|discriminate]. destruct S3 as [(E & _)|(_ & L & _)]; [discriminate E|lia].
    + destruct q; [|exact S4]. destruct S4 as (L & AT & B). split; [exact L|split; [exact AT|]]. right. destruct B as [-> | (e & IE & NE)].
      * destruct v as [|e|n]; cbn [after_pop] in H4; try discriminate H4. exists e. split; [apply in_or_app; right; left; reflexivity|]. cbn [valid] in H2. lia.
      * exists e. split; [apply in_or_app; left; exact IE|exact NE].
  - rewrite H0 in S. apply (shapes_put _ t); [exact H|]. split; [exact P0|split; [exact D0|]]. destruct S as (S1 & S2 & S3 & S4). cbn [push_on]. destruct todo as [|e r]; cbn [set_job job at_ pend done].
    + destruct q; [destruct S4 as [(-> & -> & _)|(L & -> & _)]; [reflexivity|exact L]|]. destruct S4 as (L & D & [-> | [[-> P] | [-> P]]]); [exact L|split; auto|]. split; [lia|split; [exact D|split; [lia|exact P]]].
    + split; [exact S1|]. split; [lia|]. split; [left; split; [reflexivity|split; [reflexivity|discriminate]]|exact S4].
  - rewrite H0 in S. apply (shapes_put _ t); [exact H|]. destruct S as (S1 & S2 & S3 & S4). cbn [pop_on].
    destruct S3 as [(C & _)|(_ & _ & B)]; [discriminate C|]. assert (NB : block = false) by (destruct block; [destruct (B eq_refl) as (C & _); pose proof batch_gt0; lia|reflexivity]). subst block.
    destruct q.
    + destruct S4 as (L & AT & [C|(e & IE & NE)]); [discriminate C|]. destruct (Nat.eqb_spec t 0); [lia|]. split; [apply entries_0|split; [exact D0|]]. cbn [job at_ pend done]. split; [exact L|].
      intros X. assert (In e (entries got)) by (unfold entries; apply filter_In; split; [exact IE|destruct (N.eqb_spec e 0); [contradiction|reflexivity]]). rewrite X in H1. exact H1.
    + destruct S4 as (-> & AT). cbn [Nat.eqb]. split; [exact P0|split; [apply entries_0|reflexivity]].
  - apply (shapes_worker a t); assumption.
  - apply shapes_owner, H.
  - apply shapes_take; assumption.
Qed.
End Inv.
