(** * The I/O queue when no thread can go on *)

From Coq Require Import List Arith NArith ZArith Bool Lia ZifyBool ZifyNat ZifyN.
Import ListNotations.
From Verif Require Import IoqModel IoqWords IoqSpec IoqCount IoqNorm IoqInv IoqAcct IoqTick IoqStop.

Lemma find (P : nat -> Prop) n : (forall t, P t \/ ~ P t) -> (exists t, t < n /\ P t) \/ forall t, t < n -> ~ P t.
Proof.
  intros D. induction n as [|n IH]; [right; lia|]. destruct IH as [(t & L & X)|IH]; [left; exists t; split; [lia|exact X]|].
  destruct (D n) as [X|X]; [left; exists n; auto|right]. intros t L. destruct (Nat.eq_dec t n) as [-> | NE]; [exact X|apply IH; lia].
Qed.

Lemma sum_only f n k : k < n -> (forall i, i < n -> i <> k -> f i = 0) -> sum f n = f k.
Proof.
  intros L H. pose proof (sum_change f (fun i => if i =? k then f k else 0) n k L) as C. cbv beta in C. rewrite Nat.eqb_refl in C.
  specialize (C ltac:(intros i I NE; destruct (Nat.eqb_spec i k); [contradiction|apply H; assumption])).
  pose proof (sum_change (fun i => if i =? k then f k else 0) (fun _ => 0) n k L) as C2. cbv beta in C2. rewrite Nat.eqb_refl, (sum_0 (fun _ => 0)) in C2 by reflexivity.
  specialize (C2 ltac:(intros i I NE; destruct (Nat.eqb_spec i k); [contradiction|reflexivity])). lia.
Qed.

Lemma cnt_hit size x y j : x <= y -> cnt size x j < cnt size y j -> exists z, x <= z < y /\ z mod size = j.
Proof.
  intros L. induction L as [|y L IH]; intros C; [lia|]. rewrite cnt_S in C. destruct (Nat.eqb_spec (y mod size) j) as [E|NE].
  - exists y. split; [lia|exact E].
  - destruct IH as (z & Z & E); [lia|]. exists z. split; [lia|exact E].
Qed.

Definition isfull (v : view) : nat := match v with Full _ => 1 | _ => 0 end.
Lemma worth_full v : (worth v <= Z.of_nat (isfull v))%Z.
Proof. destruct v; cbn [worth isfull]; lia. Qed.
Lemma worth_none v : (forall e, v <> Full e) -> (worth v <= 0)%Z.
Proof. intros H. destruct v as [|e|n]; cbn [worth]; try lia. exfalso. apply (H e). reflexivity. Qed.

Section Quiet.
Variable depth workers bexp : nat.
Variable stop : N.
Variable asserts : bool.
Hypothesis stop_ok : valid (Full stop).
Hypothesis workers_pos : 1 <= workers.

Local Notation size := (size depth).
Local Notation batch := (batch bexp).
Local Notation shapes := (shapes workers bexp stop asserts).
Local Notation nB := (nB depth workers).
Local Notation nA := (nA depth workers).
Local Notation Inv := (Inv depth workers bexp stop asserts).
Local Notation dn := (dn depth).
Local Notation up := (up depth).
Local Notation upS := (upS depth workers).
Local Notation dnS := (dnS depth workers).

(** Each thread is outside of the queues, or has to wait at a slot. *)
Definition stuck (a : st) : Prop :=
  forall t, match job (th a t) with
            | Rest => True
            | Push q todo i more p => p = Load /\ 0 < more /\ exists e, see (slots a q (i mod size)) = Full e
            | Pop q got i more block p => p = Load /\ 0 < more /\ block = true /\ forall e, see (slots a q (i mod size)) <> Full e
            end.

Lemma mod_lt i : i mod size < size.
Proof. apply Nat.mod_upper_bound. pose proof (size_pos depth). lia. Qed.

Lemma stuck_pop a t q got i more block p : Inv a -> stuck a -> job (th a t) = Pop q got i more block p ->
  p = Load /\ block = true /\ more = batch /\ got = [] /\ i mod batch = 0 /\ forall e, see (slots a q (i mod size)) <> Full e.
Proof.
  intros IA S J. specialize (S t). pose proof (v_shape _ _ _ _ _ _ IA t) as (_ & _ & SH). rewrite J in *. destruct S as (-> & G & -> & NF).
  destruct SH as (_ & _ & [(E & _)|(_ & LE & X)] & _); [discriminate E|]. destruct (X eq_refl) as (-> & -> & M). auto 7.
Qed.

(** ** [Ready] *)
Lemma ready_popper a t got i more block p : Inv a -> job (th a t) = Pop Ready got i more block p -> t = 0.
Proof. intros IA J. pose proof (v_shape _ _ _ _ _ _ IA t) as (_ & _ & SH). rewrite J in SH. apply SH. Qed.

Lemma ready_tail a : Inv a -> stuck a -> exists T, (forall f, cnt size T f + dnS a Ready f = cnt size (tail a Ready) f) /\
  (forall got i more block p, job (th a 0) = Pop Ready got i more block p -> T = i).
Proof.
  intros IA S.
  assert (D : forall f, dnS a Ready f = dn Ready (th a 0) f).
  { intros f. unfold IoqInv.dnS. apply (sum_only (fun t => dn Ready (th a t) f)); [lia|]. intros t _ NE. unfold IoqInv.dn. destruct (job (th a t)) as [| |q got i more block p] eqn:J; try reflexivity. destruct q; [reflexivity|]. exfalso. apply NE, (ready_popper a t got i more block p IA J). }
  destruct (job (th a 0)) as [| |q got i more block p] eqn:J.
  1,2: exists (tail a Ready); split; [intros f; rewrite D; unfold IoqInv.dn; rewrite J; lia|discriminate].
  destruct (stuck_pop a 0 q got i more block p IA S J) as (-> & -> & -> & -> & _).
  pose proof (v_shape _ _ _ _ _ _ IA 0) as (_ & _ & SH). rewrite J in SH. destruct q; [lia|].
  exists i. split; [|intros ? ? ? ? ? E; injection E; auto]. intros f. rewrite D. unfold IoqInv.dn. rewrite J. cbn [which_eqb].
  rewrite <- (k_tail _ _ _ _ (v_tick _ _ _ _ _ _ IA) _ _ _ _ J). pose proof (cnt_mono size i (i + batch) f ltac:(lia)). lia.
Qed.

Lemma ready_bound a : Inv a -> stuck a ->
  sum (fun j => isfull (see (slots a Ready j))) size + sum (fun t => length (aft (th a t))) (S workers) <= length (used a).
Proof.
  intros IA S. pose proof (v_acct _ _ _ _ _ _ IA) as C. set (F := fun j => match see (slots a Ready j) with Full e => [e] | _ => [] end).
  set (L := flat_map F (seq 0 size) ++ flat_map (fun t => aft (th a t)) (seq 0 (Datatypes.S workers))).
  assert (OL : forall p, occ p L = nA a p).
  { intros p. unfold L. rewrite occ_app, !occ_flat_map. unfold IoqInv.nA, thA, slN. rewrite Nat.add_comm. f_equal. apply sum_ext. intros j _. unfold F, full. destruct (see (slots a Ready j)); [reflexivity| |reflexivity]. rewrite occ_cons. cbn. lia. }
  assert (LL : length L = sum (fun j => isfull (see (slots a Ready j))) size + sum (fun t => length (aft (th a t))) (Datatypes.S workers)).
  { unfold L. rewrite app_length, !length_flat_map. f_equal. apply sum_ext. intros j _. unfold F. destruct (see (slots a Ready j)); reflexivity. }
  rewrite <- LL.
  assert (Z0 : nA a 0%N = 0).
  { unfold IoqInv.nA, thA, slN. rewrite !sum_0; [reflexivity|..].
    - intros j _. unfold full. destruct (see (slots a Ready j)) as [|e|] eqn:E; try reflexivity. destruct (N.eqb_spec e 0) as [-> | ]; [|reflexivity].
      destruct (s_good _ _ _ _ (v_stp _ _ _ _ _ _ IA) Ready j) as (v & V & W). rewrite W, see_word in E by exact V. subst v. cbn [valid] in V. lia.
    - intros t _. destruct (occ 0 (aft (th a t))) eqn:O; [reflexivity|]. exfalso. assert (I : In 0%N (aft (th a t))) by (apply occ_in; lia).
      pose proof (v_shape _ _ _ _ _ _ IA t) as (_ & D0 & SH). unfold aft in I. apply in_app_iff in I. destruct I as [I|I]; [exact (D0 I)|]. destruct (job (th a t)) as [|q todo i more p|q got i more block p] eqn:J; [destruct I|..].
      + destruct q; [destruct I|]. destruct SH as (NZ & _). exact (NZ I).
      + destruct q; [destruct I|]. destruct (stuck_pop a t Ready got i more block p IA S J) as (_ & _ & _ & -> & _). destruct I. }
  assert (ST : nA a stop = 0) by (pose proof (c_nostop _ _ _ _ C); lia).
  apply NoDup_incl_length.
  - apply occ_nodup. intros p. rewrite OL. destruct (N.eq_dec p 0) as [-> | N0]; [lia|]. destruct (N.eq_dec p stop) as [-> | NS]; [lia|].
    pose proof (c_occ _ _ _ _ C p N0 NS). pose proof (nodup_occ (used a) p (c_nd _ _ _ _ C)). lia.
  - intros p I. apply occ_in in I. rewrite OL in I. destruct (N.eq_dec p 0) as [-> | N0]; [lia|]. destruct (N.eq_dec p stop) as [-> | NS]; [lia|].
    apply (used_of depth workers stop a p C N0 NS). lia.
Qed.

Lemma no_ready_pusher a : Inv a -> stuck a -> forall t todo i more p, job (th a t) <> Push Ready todo i more p.
Proof.
  intros IA S t todo i more p J. destruct (ready_tail a IA S) as (T & ET & _). pose proof (ready_bound a IA S) as RB. pose proof (c_depth _ _ _ _ (v_acct _ _ _ _ _ _ IA)) as CD. pose proof (depth_size depth) as DS.
  pose proof (S t) as ST. rewrite J in ST. destruct ST as (-> & G & e & FE). set (j := i mod size) in *. pose proof (mod_lt i) as JL. fold j in JL.
  pose proof (v_shape _ _ _ _ _ _ IA t) as (_ & _ & SH). rewrite J in SH. destruct SH as (_ & _ & _ & (LT & _)).
  assert (EQ : forall f, f < size -> (worth (see (slots a Ready f)) + Z.of_nat (upS a Ready f) = Z.of_nat (cnt size (head a Ready) f) - Z.of_nat (cnt size T f))%Z).
  { intros f FL. pose proof (k_eq _ _ _ _ (v_tick _ _ _ _ _ _ IA) Ready f FL) as K. specialize (ET f). lia. }
  assert (UJ : 1 <= upS a Ready j).
  { pose proof (sum_get (fun u => up Ready (th a u) j) (Datatypes.S workers) t ltac:(lia)) as X. cbv beta in X. unfold IoqInv.up at 1 in X. rewrite J in X. cbn [which_eqb] in X.
    pose proof (cnt_mono size (Datatypes.S i) (i + more) j ltac:(lia)) as Y. rewrite cnt_S in Y. fold j in Y. rewrite Nat.eqb_refl in Y. unfold IoqInv.upS. lia. }
  pose proof (EQ j JL) as EJ. rewrite FE in EJ. cbn [worth] in EJ.
  assert (H1 : T + size < head a Ready) by (apply (cnt_grow size _ _ j); rewrite cnt_lap by exact JL; lia).
  pose proof (sum_cnt size T (head a Ready) (size_pos depth) ltac:(lia)) as SC.
  assert (LE : sum (fun f => cnt size (head a Ready) f - cnt size T f) size <= sum (fun f => isfull (see (slots a Ready f)) + upS a Ready f) size).
  { apply sum_le. intros f FL. pose proof (EQ f FL). pose proof (worth_full (see (slots a Ready f))). lia. }
  rewrite (sum_add (fun f => isfull (see (slots a Ready f))) (upS a Ready)) in LE.
  assert (UP : sum (upS a Ready) size <= sum (fun t => length (aft (th a t))) (Datatypes.S workers)).
  { unfold IoqInv.upS. rewrite (sum_swap (fun f t => up Ready (th a t) f)). apply sum_le. intros u _. unfold IoqInv.up, aft. destruct (job (th a u)) as [|q td x y z|] eqn:JU; try (rewrite sum_0; [lia|reflexivity]). destruct q; [rewrite sum_0; [lia|reflexivity]|]. cbn [which_eqb].
    rewrite sum_cnt by (try apply size_pos; lia). rewrite app_length. pose proof (v_shape _ _ _ _ _ _ IA u) as (_ & _ & SU). rewrite JU in SU. destruct SU as (_ & LU & _). lia. }
  lia.
Qed.

Lemma no_ready_up a f : Inv a -> stuck a -> upS a Ready f = 0.
Proof.
  intros IA S. apply sum_0. intros t _. unfold IoqInv.up. destruct (job (th a t)) as [|q todo i more p|] eqn:J; try reflexivity. destruct q; [reflexivity|]. exfalso. exact (no_ready_pusher a IA S t _ _ _ _ J).
Qed.

(** The owner sleeps: there is nothing in [Ready]. *)
Lemma ready_empty a got i more block p : Inv a -> stuck a -> job (th a 0) = Pop Ready got i more block p -> forall f e, f < size -> see (slots a Ready f) <> Full e.
Proof.
  intros IA S J f e FL FE. destruct (ready_tail a IA S) as (T & ET & TI). specialize (TI _ _ _ _ _ J). subst T.
  assert (EQ : forall f, f < size -> (worth (see (slots a Ready f)) = Z.of_nat (cnt size (head a Ready) f) - Z.of_nat (cnt size i f))%Z).
  { intros g GL. pose proof (k_eq _ _ _ _ (v_tick _ _ _ _ _ _ IA) Ready g GL) as K. specialize (ET g). rewrite (no_ready_up a g IA S) in K. lia. }
  destruct (stuck_pop a 0 Ready got i more block p IA S J) as (_ & _ & _ & _ & _ & NF).
  pose proof (EQ _ (mod_lt i)) as EI. pose proof (worth_none _ NF) as WN. pose proof (EQ f FL) as EF. rewrite FE in EF. cbn [worth] in EF.
  assert (HI : i < head a Ready) by (apply (cnt_grow size _ _ f); lia).
  pose proof (cnt_mono size (Datatypes.S i) (head a Ready) (i mod size) HI) as X. rewrite cnt_S, Nat.eqb_refl in X. lia.
Qed.

(** ** [Pending] *)
Lemma pending_head a : Inv a -> exists H, forall f, cnt size H f + upS a Pending f = cnt size (head a Pending) f.
Proof.
  intros IA. destruct (find (fun t => exists todo i more p, job (th a t) = Push Pending todo i more p /\ 0 < more) (S workers)) as [(t & L & todo & i & more & p & J & G)|NO].
  - intros t. destruct (job (th a t)) as [|q todo i more p|]; try (right; intros (? & ? & ? & ? & E & _); discriminate E). destruct q; [|right; intros (? & ? & ? & ? & E & _); discriminate E].
    destruct more as [|m]; [right; intros (? & ? & ? & ? & E & X); injection E as _ _ <- _; lia|left; exists todo, i, (S m), p; split; [reflexivity|lia]].
  - exists i. intros f. assert (U : upS a Pending f = up Pending (th a t) f).
    { apply (sum_only (fun u => up Pending (th a u) f)); [exact L|]. intros u LU NE. unfold IoqInv.up. destruct (job (th a u)) as [|q todo' i' more' p'|] eqn:JU; try reflexivity. destruct q; [|reflexivity]. cbn [which_eqb]. destruct more' as [|m]; [rewrite Nat.add_0_r; lia|]. exfalso. apply NE.
      pose proof (v_shape _ _ _ _ _ _ IA u) as (_ & _ & SU). rewrite JU in SU. destruct SU as (_ & LU' & _). pose proof (v_shape _ _ _ _ _ _ IA t) as (_ & _ & ST). rewrite J in ST. destruct ST as (_ & LT' & _).
      apply (sole depth workers bexp stop asserts stop_ok a u t todo' i' (S m) p' todo i more p (v_shape _ _ _ _ _ _ IA) (v_acct _ _ _ _ _ _ IA) (v_stp _ _ _ _ _ _ IA) JU); [|exact J|]; intros ->; cbn in *; lia. }
    rewrite U. unfold IoqInv.up. rewrite J. cbn [which_eqb]. rewrite <- (k_head _ _ _ _ (v_tick _ _ _ _ _ _ IA) t _ _ _ _ J G). pose proof (cnt_mono size i (i + more) f ltac:(lia)). lia.
  - exists (head a Pending). intros f. assert (U : upS a Pending f = 0); [|lia]. apply sum_0. intros u LU. unfold IoqInv.up. destruct (job (th a u)) as [|q todo' i' more' p'|] eqn:JU; try reflexivity. destruct q; [|reflexivity]. cbn [which_eqb].
    destruct more' as [|m]; [rewrite Nat.add_0_r; lia|]. exfalso. apply (NO u LU). exists todo', i', (S m), p'. split; [exact JU|lia].
Qed.

(** Some power of two divides both the batch and the queue, and is one of them. *)
Lemma unit : exists m c d, 0 < m /\ 0 < c /\ 0 < d /\ size = m * c /\ batch = m * d /\ (c = 1 \/ d = 1).
Proof.
  unfold IoqModel.size, IoqModel.batch. set (x := Nat.log2_up depth). destruct (le_lt_dec x bexp) as [L|L].
  - exists (2 ^ x), 1, (2 ^ (bexp - x)). rewrite <- Nat.pow_add_r. replace (x + (bexp - x)) with bexp by lia. pose proof (Nat.pow_nonzero 2 x). pose proof (Nat.pow_nonzero 2 (bexp - x)). repeat split; try lia.
  - exists (2 ^ bexp), (2 ^ (x - bexp)), 1. rewrite <- Nat.pow_add_r. replace (bexp + (x - bexp)) with x by lia. pose proof (Nat.pow_nonzero 2 bexp). pose proof (Nat.pow_nonzero 2 (x - bexp)). repeat split; try lia.
Qed.

(** A worker sleeps: there is nothing in [Pending]. *)
Lemma pending_empty a t got i more block p : Inv a -> stuck a -> job (th a t) = Pop Pending got i more block p -> forall f e, f < size -> see (slots a Pending f) <> Full e.
Proof.
  intros IA S J f e FL FE. destruct (pending_head a IA) as (H & EH). destruct unit as (m & c & d & M0 & C0 & D0 & ES & EB & CD).
  assert (EQ : forall f, f < size -> (worth (see (slots a Pending f)) - Z.of_nat (dnS a Pending f) = Z.of_nat (cnt size H f) - Z.of_nat (cnt size (tail a Pending) f))%Z).
  { intros g GL. pose proof (k_eq _ _ _ _ (v_tick _ _ _ _ _ _ IA) Pending g GL) as K. specialize (EH g). lia. }
  set (g := m * (f / m)).
  assert (GF : g <= f) by (unfold g; apply Nat.mul_div_le; lia).
  assert (GRP : forall x, x mod batch = 0 -> cnt size x f = cnt size x g).
  { intros x X. apply Nat.div_exact in X; [|lia]. rewrite X, EB, ES, <- Nat.mul_assoc. apply cnt_group; lia. }
  assert (DG : dnS a Pending f = dnS a Pending g).
  { apply sum_ext. intros u _. unfold IoqInv.dn. destruct (job (th a u)) as [| |q got' i' more' block' p'] eqn:JU; try reflexivity. destruct q; [|reflexivity]. cbn [which_eqb].
    destruct (stuck_pop a u Pending _ _ _ _ _ IA S JU) as (_ & _ & -> & _ & MI & _). rewrite (GRP i' MI), (GRP (i' + batch)); [reflexivity|]. replace (i' + batch) with (i' + 1 * batch) by lia. rewrite Nat.mod_add by lia. exact MI. }
  pose proof (EQ f FL) as EF. rewrite FE in EF. cbn [worth] in EF. pose proof (EQ g ltac:(lia)) as EG. rewrite (GRP _ (k_mod _ _ _ _ (v_tick _ _ _ _ _ _ IA) Pending)) in EF. pose proof (cnt_anti size H g f GF FL) as CA.
  assert (FG : exists e', see (slots a Pending g) = Full e').
  { destruct (see (slots a Pending g)) as [|e'|n]; cbn [worth] in EG; [lia|eauto|lia]. }
  destruct FG as (e' & FG).
  assert (DZ : dnS a Pending g = 0).
  { destruct (dnS a Pending g) eqn:DS; [reflexivity|]. exfalso. unfold IoqInv.dnS in DS. destruct (sum_pos (fun u => dn Pending (th a u) g) (Datatypes.S workers) ltac:(lia)) as (u & LU & DU). unfold IoqInv.dn in DU.
    destruct (job (th a u)) as [| |q got' i' more' block' p'] eqn:JU; try lia. destruct q; cbn [which_eqb] in DU; [|lia].
    destruct (stuck_pop a u Pending _ _ _ _ _ IA S JU) as (_ & _ & -> & _ & MI & NF). destruct (cnt_hit size i' (i' + batch) g ltac:(lia) ltac:(lia)) as (z & ZL & ZG).
    apply (NF e'). rewrite <- FG. do 2 f_equal. apply Nat.div_exact in MI; [|lia]. set (w := i' / batch) in *. destruct CD as [-> | ->].
    - rewrite Nat.mul_1_r in ES. assert (G0 : g = 0) by (unfold g; rewrite Nat.div_small by (rewrite <- ES; exact FL); apply Nat.mul_0_r). rewrite MI, EB, G0, ES, <- Nat.mul_assoc, Nat.mul_comm. apply Nat.mod_mul. lia.
    - rewrite Nat.mul_1_r in EB. assert (ZM : z mod m = 0).
      { assert (X : z mod size mod m = z mod m) by (rewrite ES, Nat.mul_comm; rewrite Nat.mul_comm; rewrite Nat.mod_mul_r by lia; rewrite Nat.mul_comm, Nat.mod_add by lia; apply Nat.mod_mod; lia).
        rewrite <- X, ZG. unfold g. rewrite Nat.mul_comm. apply Nat.mod_mul. lia. }
      apply Nat.div_exact in ZM; [|lia]. assert (z = i') by (rewrite EB in MI, ZL; set (y := z / m) in *; clearbody y w; clear - MI ZL ZM M0; subst i' z; assert (y = w) by nia; subst; reflexivity). subst z. exact ZG. }
  rewrite FG, DZ in EG. cbn [worth] in EG. assert (HT : tail a Pending < H) by (apply (cnt_grow size _ _ g); lia).
  destruct (stuck_pop a t Pending _ _ _ _ _ IA S J) as (_ & _ & MB & _ & _ & NF). pose proof (EQ _ (mod_lt i)) as EI. pose proof (worth_none _ NF) as WN.
  pose proof (v_shape _ _ _ _ _ _ IA t) as (_ & _ & SH). rewrite J in SH. destruct SH as (_ & _ & _ & (LT & _)).
  assert (DI : 1 <= dnS a Pending (i mod size)).
  { pose proof (sum_get (fun u => dn Pending (th a u) (i mod size)) (Datatypes.S workers) t ltac:(lia)) as X. cbv beta in X. unfold IoqInv.dn at 1 in X. rewrite J in X. cbn [which_eqb] in X. pose proof (batch_gt0 bexp).
    pose proof (cnt_mono size (Datatypes.S i) (i + more) (i mod size) ltac:(lia)) as Y. rewrite cnt_S, Nat.eqb_refl in Y. unfold IoqInv.dnS. lia. }
  pose proof (cnt_mono size (tail a Pending) H (i mod size) ltac:(lia)). lia.
Qed.
End Quiet.
