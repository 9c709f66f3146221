(** * Invariants of the I/O queue: how it stops *)

From Coq Require Import List Arith NArith ZArith Bool Lia ZifyBool ZifyNat ZifyN.
Import ListNotations.
From Verif Require Import IoqModel IoqWords IoqSpec IoqCount IoqNorm IoqInv IoqAcct IoqTick.

Lemma last_tail (x e : N) r l : e :: r = l ++ [x] -> (l = [] /\ e = x /\ r = []) \/ exists l', r = l' ++ [x].
Proof. destruct l as [|y l]; cbn [app]; intros E; inversion E; subst; [left; auto|right; eauto]. Qed.

Section Stop.
Variable depth workers bexp : nat.
Variable stop : N.
Variable asserts : bool.
Hypothesis stop_ok : valid (Full stop).
Hypothesis workers_pos : 1 <= workers.

Local Notation size := (size depth).
Local Notation batch := (batch bexp).
Local Notation shapes := (shapes workers bexp stop asserts).
Local Notation nB := (nB depth workers).
Local Notation nA := (nA depth workers).
Local Notation Acct := (Acct depth workers stop).
Local Notation Tick := (Tick depth workers bexp).
Local Notation Stp := (Stp depth workers stop).
Local Notation dn := (dn depth).
Local Notation up := (up depth).
Local Notation worker_step := (worker_step bexp stop asserts).
Local Notation owner_step := (owner_step depth bexp stop).
Local Notation astep := (astep depth bexp stop asserts).

Lemma stp_frame t a a' :
  shapes a -> Acct a -> Stp a -> t <= workers ->
  (forall j, slots a' Pending j = slots a Pending j) ->
  (forall q j, exists v, valid v /\ slots a' q j = word v false) ->
  head a' Pending = head a Pending ->
  (forall u, u <> t -> th a' u = th a u) ->
  (In stop (bef (th a' t)) -> In stop (bef (th a t)) /\ (forall f, dn Pending (th a' t) f = dn Pending (th a t) f) \/ t = 0 /\ cancel a = false) ->
  (stopped (th a t) -> stopped (th a' t)) ->
  (stopped (th a' t) -> stopped (th a t) \/ t <> 0 /\ In stop (bef (th a t)) /\ job (th a t) = Rest) ->
  (cancel a = true -> cancel a' = true) -> (cancel a' = true -> cancel a = true \/ t = 0) ->
  (t = 0 -> cancel a' = true -> pend (th a' 0) = []) ->
  (t = 0 -> forall todo i more p, job (th a' 0) = Push Pending todo i more p -> cancel a' = true -> todo = [] \/ exists l, todo = l ++ [stop]) ->
  (t = 1 -> workers = 1 -> forall got i more block p, job (th a' 1) = Pop Pending got i more block p -> In stop got -> (exists l, entries got = l ++ [stop]) /\ head a Pending <= i) ->
  (t = 1 -> workers = 1 -> In stop (pend (th a' 1)) -> exists l, pend (th a' 1) = l ++ [stop]) ->
  (t = 1 -> workers = 1 -> at_ (th a' 1) = W_stopped -> pend (th a' 1) = []) ->
  Stp a'.
Proof.
  intros H C SP L ES EG EH TH BE ST1 ST2 CC1 CC2 F0 F1 F2 F3 F4. destruct SP as [SL SS SC SHO SA SPO SPE SEN SNO SG].
  constructor.
  - intros todo i more p J X. destruct (Nat.eq_dec t 0) as [-> | NT]; [apply (F1 eq_refl todo i more p J X)|]. rewrite (TH 0) in J by lia. destruct (CC2 X) as [Y|Y]; [apply (SL todo i more p J Y)|contradiction].
  - intros j J. rewrite ES, EH. apply SS, J.
  - intros v V S. assert (Z : cancel a = true -> ~ In stop (bef (th a 0)) -> cancel a' = true /\ ~ In stop (bef (th a' 0))).
    { intros X NI. split; [apply CC1, X|]. destruct (Nat.eq_dec t 0) as [-> | NT]; [|rewrite (TH 0) by lia; exact NI]. intros B. destruct (BE B) as [[Y _]|[_ Y]]; [contradiction|congruence]. }
    destruct (Nat.eq_dec v t) as [-> | NE].
    + destruct (ST2 S) as [S0|(NT & I & _)].
      * destruct (SC t V S0). apply Z; assumption.
      * apply Z; [apply (stop_cancel depth workers stop stop_ok a t C L I)|]. intros I0. apply (stop_two depth workers stop a 0 t C ltac:(lia) L); auto.
    + rewrite (TH v NE) in S. destruct (SC v V S). apply Z; assumption.
  - intros v V NS I OT f FL. rewrite ES. destruct (Nat.eq_dec v t) as [-> | NE].
    + destruct (BE I) as [[I0 DN]|[X _]]; [|lia]. rewrite DN. apply (SHO t V); auto. intros u U UT. rewrite <- (TH u UT). apply OT; assumption.
    + rewrite (TH v NE) in *. apply (SHO v V NS I); auto. intros u U UV. destruct (Nat.eq_dec u t) as [-> | UT]; [|rewrite <- (TH u UT); apply OT; assumption].
      destruct (ST2 (OT t U UV)) as [S0|(_ & I0 & _)]; [exact S0|]. exfalso. apply (stop_two depth workers stop a v t C ltac:(lia) L NE I I0).
  - intros AL f e FL. rewrite ES. intros E. destruct (Nat.eq_dec t 0) as [-> | NT].
    + apply (SA ltac:(intros u U; rewrite <- (TH u) by lia; apply AL, U) f e FL E).
    + destruct (ST2 (AL t ltac:(lia))) as [S0|(_ & I0 & R0)].
      * apply (SA ltac:(intros u U; destruct (Nat.eq_dec u t) as [-> | UT]; [exact S0|rewrite <- (TH u UT); apply AL, U]) f e FL E).
      * assert (D : stopped (th a t) \/ ~ stopped (th a t)) by (unfold stopped; destruct (at_ (th a t)); solve [left; auto|right; intros [X|X]; discriminate X]).
        destruct D as [S0|NS]; [apply (SA ltac:(intros u U; destruct (Nat.eq_dec u t) as [-> | UT]; [exact S0|rewrite <- (TH u UT); apply AL, U]) f e FL E)|]. exfalso.
        pose proof (SHO t ltac:(lia) NS I0 ltac:(intros u U UT; rewrite <- (TH u UT); apply AL, U) f FL) as W. rewrite E in W. unfold IoqInv.dn in W. rewrite R0 in W. cbn [worth] in W. lia.
  - intros W1 got i more block p J I. rewrite EH. destruct (Nat.eq_dec t 1) as [T1|NT]; [apply (F2 T1 W1 got i more block p J I)|]. rewrite (TH 1) in J by congruence. apply (SPO W1 got i more block p J I).
  - intros W1. destruct (Nat.eq_dec t 1) as [T1|NT]; [apply (F3 T1 W1)|]. rewrite (TH 1) by congruence. apply (SPE W1).
  - intros W1. destruct (Nat.eq_dec t 1) as [T1|NT]; [apply (F4 T1 W1)|]. rewrite (TH 1) by congruence. apply (SEN W1).
  - intros X. destruct (Nat.eq_dec t 0) as [T1|NT]; [apply (F0 T1 X)|]. rewrite (TH 0) by congruence. destruct (CC2 X); [auto|contradiction].
  - exact EG.
Qed.

(** ** Facts about slots *)
Lemma good_put a q j v' : (forall q j, exists v, valid v /\ slots a q j = word v false) -> valid v' -> forall q0 j0, exists v, valid v /\ slots (put q j (word v' false) a) q0 j0 = word v false.
Proof. intros G V q0 j0. rewrite slots_put. destruct (_ && _)%bool; [exists v'; auto|apply G]. Qed.

Lemma no_pusher a t j : shapes a -> Acct a -> Stp a -> t <= workers -> j < size ->
  (In stop (bef (th a t)) /\ (forall todo i more p, job (th a t) <> Push Pending todo i more p)) \/ see (slots a Pending j) = Full stop ->
  forall f, upS depth workers a Pending f = 0.
Proof.
  intros H C SP L J W f. apply sum_0. intros u U. unfold IoqInv.up. destruct (job (th a u)) as [|q todo i more p|] eqn:JU; try reflexivity. destruct q; [|reflexivity]. cbn [which_eqb].
  destruct more as [|m]; [rewrite Nat.add_0_r; lia|]. exfalso.
  pose proof (H u) as (_ & _ & SU). rewrite JU in SU. destruct SU as (_ & LE & _). assert (NE : todo <> []) by (intros ->; cbn in LE; lia).
  assert (CC : cancel a = true).
  { destruct W as [[I _]|E]; [apply (stop_cancel depth workers stop stop_ok a t C L I)|]. assert (G : 1 <= nB a stop); [|rewrite (c_stop _ _ _ _ C) in G; destruct (cancel a); [reflexivity|lia]].
    unfold IoqInv.nB, slN. pose proof (sum_get (fun j => full (slots a Pending j) stop) size j J) as F. cbv beta in F. unfold full at 1 in F. rewrite E, N.eqb_refl in F. lia. }
  pose proof (pusher_stop depth workers bexp stop asserts a u todo i (S m) p H SP CC JU NE) as IU. destruct W as [[I NP]|E].
  - destruct (Nat.eq_dec t u) as [-> | NTU]; [exact (NP _ _ _ _ JU)|]. apply (stop_two depth workers stop a t u C L ltac:(lia) NTU I IU).
  - apply (stop_slot depth workers stop a u j C ltac:(lia) J IU E).
Qed.

Lemma pop_is_worker a t got i more block p : shapes a -> job (th a t) = Pop Pending got i more block p -> 1 <= t <= workers /\ at_ (th a t) = W_take /\ pend (th a t) = [].
Proof. intros H J. pose proof (H t) as (_ & _ & SH). rewrite J in SH. destruct SH as (E & _ & _ & L & A & _). auto. Qed.

Lemma only_popper a t : shapes a -> 1 <= t <= workers -> (forall u, 1 <= u <= workers -> u <> t -> stopped (th a u)) -> forall f, dnS depth workers a Pending f = dn Pending (th a t) f.
Proof.
  intros H L OT f. unfold dnS. pose proof (sum_change (fun u => dn Pending (th a u) f) (fun u => if u =? t then dn Pending (th a t) f else 0) (S workers) t ltac:(lia)) as SC. cbv beta in SC. rewrite Nat.eqb_refl in SC.
  assert (Z : forall i, i < S workers -> i <> t -> dn Pending (th a i) f = (if i =? t then dn Pending (th a t) f else 0)).
  { intros u U NE. destruct (Nat.eqb_spec u t); [contradiction|]. unfold IoqInv.dn. destruct (job (th a u)) as [| |q got i more block p] eqn:J; try reflexivity. destruct q; [|reflexivity]. exfalso.
    destruct (pop_is_worker a u _ _ _ _ _ H J) as (LU & AT & _). destruct (OT u LU NE) as [X|X]; congruence. }
  specialize (SC Z). assert (Y : sum (fun u => if u =? t then dn Pending (th a t) f else 0) (S workers) = dn Pending (th a t) f).
  { pose proof (sum_change (fun u => if u =? t then dn Pending (th a t) f else 0) (fun _ => 0) (S workers) t ltac:(lia)) as S2. cbv beta in S2. rewrite Nat.eqb_refl in S2. rewrite (sum_0 (fun _ => 0)) in S2 by reflexivity.
    specialize (S2 ltac:(intros u _ NE; destruct (Nat.eqb_spec u t); [contradiction|reflexivity])). lia. }
  lia.
Qed.

(** ** Popping from [Pending] *)
Lemma stp_pop t a got i more block v v' :
  shapes a -> Acct a -> Tick a -> Stp a -> t <= workers ->
  job (th a t) = Pop Pending got i more block Load ->
  slots a Pending (i mod size) = word v false -> valid v -> valid v' -> after_pop block v = Some v' -> 0 < more ->
  Stp (put_th t (set_job (Pop Pending (got ++ [entry_of v]) (S i) (pred more) false Load) (th a t)) (put Pending (i mod size) (word v' false) a)).
Proof.
  intros H C K SP L J EV V V' AP G. set (j := i mod size) in *. set (x := set_job _ _). set (a' := put_th t x _).
  assert (JL : j < size) by (apply Nat.mod_upper_bound; pose proof (size_pos depth); lia).
  destruct (pop_is_worker a t _ _ _ _ _ H J) as (LT & AT & EP).
  assert (TH : forall u, u <> t -> th a' u = th a u) by (intros u NE; cbn [a' put_th set_th th]; apply upd_other, NE).
  assert (TT : th a' t = x) by (cbn [a' put_th set_th th]; apply upd_same).
  assert (AX : forall u, stopped (th a' u) <-> stopped (th a u)).
  { intros u. destruct (Nat.eq_dec u t) as [-> | NE]; [rewrite TT; reflexivity|rewrite (TH u NE); reflexivity]. }
  assert (SL : forall f, slots a' Pending f = if f =? j then word v' false else slots a Pending f) by (intros f; exact (slots_put Pending j (word v' false) a Pending f)).
  assert (NF : forall e, v' <> Full e) by (intros e ->; destruct v; cbn [after_pop] in AP; try destruct block; inversion AP).
  assert (SV : see (slots a Pending j) = v) by (rewrite EV; apply see_word, V).
  assert (DX : forall f, dn Pending x f + (if j =? f then 1 else 0) = dn Pending (th a t) f).
  { intros f. unfold IoqInv.dn. rewrite J. cbn [x set_job job which_eqb]. apply cnt_take, G. }
  assert (BX : bef x = bef (th a t) ++ [entry_of v]) by (unfold bef; rewrite J; cbn [x set_job pend job]; rewrite app_assoc; reflexivity).
  pose proof SP as SP0. destruct SP as [Z1 SS SC SHO SA SPO SPE SEN SNO SG].
  constructor.
  - intros todo i0 more0 p0 J0 X. rewrite (TH 0) in J0 by lia. exact (Z1 todo i0 more0 p0 J0 X).
  - intros f FL E. rewrite SL in E. destruct (Nat.eqb_spec f j) as [-> | NJ]; [rewrite see_word in E by exact V'; exfalso; exact (NF _ E)|]. exact (SS f FL E).
  - intros u U S. apply AX in S. destruct (SC u U S) as [X Y]. split; [exact X|]. rewrite (TH 0) by lia. exact Y.
  - intros u U NS I OT f FL.
    assert (NSA : ~ stopped (th a u)) by (rewrite <- AX; exact NS). assert (OTA : forall w, 1 <= w <= workers -> w <> u -> stopped (th a w)) by (intros w W N; apply AX, OT; assumption).
    destruct (Nat.eq_dec u t) as [-> | NE].
    2:{ exfalso. specialize (OTA t LT ltac:(congruence)). destruct OTA as [X|X]; congruence. }
    rewrite TT in *. specialize (DX f). rewrite SL.
    assert (OLD : (worth (see (slots a Pending f)) <= Z.of_nat (dn Pending (th a t) f))%Z).
    { rewrite BX in I. apply in_app_iff in I. destruct I as [I|[I|[]]]; [apply (SHO t LT NSA I OTA f FL)|].
      assert (VF : v = Full stop) by (destruct v; cbn [entry_of] in I; try (exfalso; exact (stop_nz _ stop_ok (eq_sym I))); subst; reflexivity). rewrite VF in SV.
      destruct (SS j JL SV) as (h & EH & HJ).
      pose proof (no_pusher a t j H C SP0 L JL (or_intror SV)) as NP. pose proof (only_popper a t H LT OTA) as OP.
      pose proof (k_eq _ _ _ _ K Pending j JL) as KJ. pose proof (k_eq _ _ _ _ K Pending f FL) as KF. rewrite (NP j), (OP j), SV in KJ. rewrite (NP f), (OP f) in KF. rewrite EH in KJ, KF. cbn [worth] in KJ.
      assert (DJ : 1 <= dn Pending (th a t) j).
      { unfold IoqInv.dn. rewrite J. cbn [which_eqb]. pose proof (cnt_mono size (S i) (i + more) j ltac:(lia)). rewrite cnt_S in *. fold j in H0. rewrite Nat.eqb_refl in H0. lia. }
      assert (HT : h < tail a Pending) by (apply (cnt_last size h (tail a Pending) j HJ); lia).
      pose proof (cnt_mono size (S h) (tail a Pending) f HT). lia. }
    destruct (Nat.eqb_spec f j) as [-> | NJ].
    + rewrite Nat.eqb_refl in DX. rewrite see_word by exact V'. rewrite SV in OLD. pose proof (worth_pop _ v v' AP). lia.
    + destruct (Nat.eqb_spec j f); [congruence|]. lia.
  - intros AL f e FL E. exfalso. specialize (AL t LT). apply AX in AL. destruct AL as [X|X]; congruence.
  - intros W1 got0 i0 more0 block0 p0 J0 I. assert (t = 1) by lia. subst t. rewrite TT in J0. cbn [x set_job job] in J0. injection J0 as <- <- <- <- <-.
    change (head a' Pending) with (head a Pending).
    assert (OT : forall u, 1 <= u <= workers -> u <> 1 -> stopped (th a u)) by (intros; lia). pose proof (only_popper a 1 H LT OT) as OP. pose proof (k_one _ _ _ _ K W1 _ _ _ _ J) as KO.
    assert (EQ : forall f, f < size -> upS depth workers a Pending f = 0 -> (worth (see (slots a Pending f)) = Z.of_nat (cnt size (head a Pending) f) - Z.of_nat (cnt size i f))%Z).
    { intros f FL U0. pose proof (k_eq _ _ _ _ K Pending f FL) as KF. rewrite U0, (OP f) in KF. unfold IoqInv.dn in KF. rewrite J in KF. cbn [which_eqb] in KF. rewrite <- KO in KF. pose proof (cnt_mono size i (i + more) f ltac:(lia)). lia. }
    apply in_app_iff in I. destruct (in_dec N.eq_dec stop got) as [IG|NG].
    + destruct (SPO W1 _ _ _ _ _ J IG) as [(l & EL) LE].
      assert (IB : In stop (bef (th a 1))) by (unfold bef; rewrite J; apply in_or_app; right; exact IG).
      pose proof (no_pusher a 1 j H C SP0 L JL ltac:(left; split; [exact IB|congruence]) j) as NP. specialize (EQ j JL NP). rewrite SV in EQ.
      assert (EN : entry_of v = 0%N). { pose proof (cnt_mono size (head a Pending) i j LE). destruct v; try reflexivity. cbn [worth] in EQ. lia. }
      split; [|lia]. exists l. unfold entries in *. rewrite filter_app, EN, EL. cbn [filter negb N.eqb]. apply app_nil_r.
    + destruct I as [I|[I|[]]]; [contradiction|].
      assert (VF : v = Full stop) by (destruct v; cbn [entry_of] in I; try (exfalso; exact (stop_nz _ stop_ok (eq_sym I))); subst; reflexivity). rewrite VF in SV.
      pose proof (no_pusher a 1 j H C SP0 L JL (or_intror SV) j) as NP. specialize (EQ j JL NP). rewrite SV in EQ. cbn [worth] in EQ.
      destruct (SS j JL SV) as (h & EH & HJ). rewrite EH in *. split.
      * exists (entries got). rewrite VF. cbn [entry_of]. unfold entries. rewrite filter_app. cbn [filter]. destruct (N.eqb_spec stop 0); [exfalso; apply (stop_nz _ stop_ok); assumption|reflexivity].
      * assert (h < S i); [|lia]. apply (cnt_last size h (S i) j HJ). rewrite (cnt_S size i j). fold j. rewrite Nat.eqb_refl. lia.
  - intros W1 I. assert (t = 1) by lia. subst t. rewrite TT in *. cbn [x set_job pend] in *. apply (SPE W1 I).
  - intros W1 I. assert (t = 1) by lia. subst t. rewrite TT in *. cbn [x set_job pend at_] in *. apply (SEN W1 I).
  - intros X. rewrite (TH 0) by lia. apply SNO, X.
  - exact (good_put a Pending j v' SG V').
Qed.

(** ** Pushing to [Pending] *)
Lemma stp_push t a todo i more v v' :
  shapes a -> Acct a -> Tick a -> Stp a -> t <= workers ->
  job (th a t) = Push Pending todo i more Load ->
  slots a Pending (i mod size) = word v false -> valid v -> valid v' -> after_push (hd 0%N todo) v = Some v' -> 0 < more ->
  Stp (put_th t (set_job (Push Pending (if is_skip v then todo else tl todo) (S i) (pred more) Load) (th a t)) (put Pending (i mod size) (word v' false) a)).
Proof.
  intros H C K SP L J EV V V' AP G. set (j := i mod size) in *. set (x := set_job _ _). set (a' := put_th t x _).
  assert (JL : j < size) by (apply Nat.mod_upper_bound; pose proof (size_pos depth); lia).
  assert (TH : forall u, u <> t -> th a' u = th a u) by (intros u NE; cbn [a' put_th set_th th]; apply upd_other, NE).
  assert (TT : th a' t = x) by (cbn [a' put_th set_th th]; apply upd_same).
  assert (AX : forall u, stopped (th a' u) <-> stopped (th a u)).
  { intros u. destruct (Nat.eq_dec u t) as [-> | NE]; [rewrite TT; reflexivity|rewrite (TH u NE); reflexivity]. }
  assert (SL : forall f, slots a' Pending f = if f =? j then word v' false else slots a Pending f) by (intros f; exact (slots_put Pending j (word v' false) a Pending f)).
  pose proof (H t) as (_ & _ & SH). rewrite J in SH. destruct SH as (_ & LE & _ & WH). assert (NE : todo <> []) by (intros ->; cbn in LE; lia).
  assert (PS : cancel a = true -> In stop (bef (th a t))) by (intros CC; apply (pusher_stop depth workers bexp stop asserts a t todo i more Load H SP CC J NE)).
  assert (NEWF : forall e, v' = Full e -> v = Empty /\ e = hd 0%N todo).
  { intros e ->. destruct v as [|y|n]; cbn [after_push] in AP; [injection AP as <-; auto|discriminate AP|]. destruct (n =? 1)%N; discriminate AP. }
  assert (PX : pend x = pend (th a t) /\ at_ x = at_ (th a t)) by (split; reflexivity). destruct PX as [PX ATX].
  assert (BI : In stop (bef x) -> In stop (bef (th a t))).
  { unfold bef. rewrite J. cbn [x set_job pend job]. rewrite !in_app_iff. intros [I|I]; [left; exact I|right]. destruct (is_skip v); [exact I|apply in_tl, I]. }
  pose proof SP as SP0. destruct SP as [Z1 SS SC SHO SA SPO SPE SEN SNO SG].
  constructor.
  - intros todo0 i0 more0 p0 J0 X. destruct (Nat.eq_dec t 0) as [-> | NT]; [|rewrite (TH 0) in J0 by lia; exact (Z1 todo0 i0 more0 p0 J0 X)].
    rewrite TT in J0. cbn [x set_job job] in J0. injection J0 as <- _ _ _. destruct (is_skip v); [exact (Z1 _ _ _ _ J X)|]. destruct (Z1 _ _ _ _ J X) as [-> | (l & ->)]; [left; reflexivity|]. destruct l as [|y l]; [left; reflexivity|right; exists l; reflexivity].
  - intros f FL E. rewrite SL in E. change (head a' Pending) with (head a Pending). destruct (Nat.eqb_spec f j) as [-> | NJ]; [|exact (SS f FL E)].
    rewrite see_word in E by exact V'. destruct (NEWF _ E) as [_ HS]. exists i. split; [|reflexivity].
    assert (M1 : more = 1).
    { destruct todo as [|e r]; [contradiction|]. cbn [hd] in HS. subst e. assert (CC : cancel a = true).
      { apply (stop_cancel depth workers stop stop_ok a t C L). unfold bef. rewrite J. apply in_or_app. right. left. reflexivity. }
      assert (RN : r = []).
      { destruct WH as [(-> & _)|(_ & _ & [X|X])]; [|inversion X; reflexivity|discriminate X]. destruct (Z1 _ _ _ _ J CC) as [X|(l & X)]; [discriminate X|].
        destruct (last_tail _ _ _ _ X) as [(_ & _ & Y)|(l' & Y)]; [exact Y|]. exfalso. pose proof (stop_one depth workers stop a C) as O. unfold IoqInv.nB, thB in O.
        pose proof (sum_get (fun v => occ stop (bef (th a v))) (S workers) 0 ltac:(lia)) as GG. cbv beta in GG. unfold bef at 1 in GG. rewrite J, occ_app, occ_cons, N.eqb_refl, Y, occ_app, occ_cons, N.eqb_refl in GG. lia. }
      subst r. cbn [length] in LE. lia. }
    rewrite <- (k_head _ _ _ _ K t _ _ _ _ J G). lia.
  - intros u U S. apply AX in S. destruct (SC u U S) as [X Y]. split; [exact X|]. destruct (Nat.eq_dec t 0) as [-> | NT]; [rewrite TT; intros I; exact (Y (BI I))|rewrite (TH 0) by lia; exact Y].
  - intros u U NS I OT f FL. exfalso. assert (NSA : ~ stopped (th a u)) by (rewrite <- AX; exact NS).
    destruct (Nat.eq_dec u t) as [-> | NU].
    + destruct WH as [(-> & _)|(_ & AT & _)]; [lia|]. apply NSA. left. exact AT.
    + rewrite (TH u NU) in I. pose proof (stop_cancel depth workers stop stop_ok a u C ltac:(lia) I) as CC. apply (stop_two depth workers stop a u t C ltac:(lia) L NU I (PS CC)).
  - intros AL f e FL E. assert (ALA : forall u, 1 <= u <= workers -> stopped (th a u)) by (intros u U; apply AX, AL, U).
    destruct (SC 1 ltac:(lia) (ALA 1 ltac:(lia))) as [CC N0].
    rewrite SL in E. destruct (Nat.eqb_spec f j) as [-> | NJ]; [|apply (SA ALA f e FL E)]. rewrite see_word in E by exact V'. destruct (NEWF _ E) as [_ ->].
    destruct WH as [(-> & _)|(_ & _ & [-> | ->])]; [exfalso; exact (N0 (PS CC))|reflexivity|contradiction].
  - intros W1 got i0 more0 block p J0 I. change (head a' Pending) with (head a Pending). destruct (Nat.eq_dec t 1) as [-> | NT]; [rewrite TT in J0; discriminate J0|]. rewrite (TH 1) in J0 by lia. apply (SPO W1 _ _ _ _ _ J0 I).
  - intros W1. destruct (Nat.eq_dec t 1) as [-> | NT]; [rewrite TT, PX|rewrite (TH 1) by lia]; apply (SPE W1).
  - intros W1. destruct (Nat.eq_dec t 1) as [-> | NT]; [rewrite TT, PX, ATX|rewrite (TH 1) by lia]; apply (SEN W1).
  - intros X. destruct (Nat.eq_dec t 0) as [-> | NT]; [rewrite TT, PX|rewrite (TH 0) by lia]; apply SNO, X.
  - exact (good_put a Pending j v' SG V').
Qed.

(** ** Tickets for [Pending] *)
Lemma stp_tickets t a todo i more :
  shapes a -> Acct a -> Stp a -> t <= workers ->
  job (th a t) = Push Pending todo i more Tickets ->
  Stp (put_th t (set_job (Push Pending todo (head a Pending) (length todo) Load) (th a t)) (set_head (updq (head a) Pending (head a Pending + length todo)) a)).
Proof.
  intros H C SP L J. set (x := set_job _ _). set (a' := put_th t x _).
  assert (TH : forall u, u <> t -> th a' u = th a u) by (intros u NE; cbn [a' put_th set_th th]; apply upd_other, NE).
  assert (TT : th a' t = x) by (cbn [a' put_th set_th th]; apply upd_same).
  assert (AX : forall u, stopped (th a' u) <-> stopped (th a u)).
  { intros u. destruct (Nat.eq_dec u t) as [-> | NE]; [rewrite TT; reflexivity|rewrite (TH u NE); reflexivity]. }
  pose proof (H t) as (_ & _ & SH). rewrite J in SH. destruct SH as (_ & _ & [(_ & _ & NE)|E] & WH); [|discriminate E].
  assert (PS : cancel a = true -> In stop (bef (th a t))) by (intros CC; apply (pusher_stop depth workers bexp stop asserts a t todo i more Tickets H SP CC J NE)).
  assert (PX : pend x = pend (th a t) /\ at_ x = at_ (th a t)) by (split; reflexivity). destruct PX as [PX ATX].
  assert (BX : forall u, bef (th a' u) = bef (th a u)).
  { intros u. destruct (Nat.eq_dec u t) as [-> | NU]; [rewrite TT; unfold bef; rewrite J; reflexivity|rewrite (TH u NU); reflexivity]. }
  pose proof SP as SP0. destruct SP as [Z1 SS SC SHO SA SPO SPE SEN SNO SG].
  constructor.
  - intros todo0 i0 more0 p0 J0 X. destruct (Nat.eq_dec t 0) as [-> | NT]; [|rewrite (TH 0) in J0 by lia; exact (Z1 todo0 i0 more0 p0 J0 X)].
    rewrite TT in J0. cbn [x set_job job] in J0. injection J0 as <- _ _ _. exact (Z1 _ _ _ _ J X).
  - intros f FL E. change (slots a' Pending f) with (slots a Pending f) in E. exfalso.
    assert (CC : 1 <= nB a stop).
    { unfold IoqInv.nB, slN. pose proof (sum_get (fun j => full (slots a Pending j) stop) size f FL) as F. cbv beta in F. unfold full at 1 in F. rewrite E, N.eqb_refl in F. lia. }
    rewrite (c_stop _ _ _ _ C) in CC. destruct (cancel a) eqn:EC; [|lia]. apply (stop_slot depth workers stop a t f C L FL (PS eq_refl) E).
  - intros u U S. apply AX in S. destruct (SC u U S) as [X Y]. split; [exact X|]. rewrite BX. exact Y.
  - intros u U NS I OT f FL. exfalso. assert (NSA : ~ stopped (th a u)) by (rewrite <- AX; exact NS). rewrite BX in I.
    destruct (Nat.eq_dec u t) as [-> | NU].
    + destruct WH as [(-> & _)|(_ & AT & _)]; [lia|]. apply NSA. left. exact AT.
    + pose proof (stop_cancel depth workers stop stop_ok a u C ltac:(lia) I) as CC. apply (stop_two depth workers stop a u t C ltac:(lia) L NU I (PS CC)).
  - intros AL f e FL E. apply (SA ltac:(intros u U; apply AX, AL, U) f e FL E).
  - intros W1 got i0 more0 block p J0 I. exfalso. destruct (Nat.eq_dec t 1) as [-> | NT]; [rewrite TT in J0; discriminate J0|]. rewrite (TH 1) in J0 by lia.
    assert (I1 : In stop (bef (th a 1))) by (unfold bef; rewrite J0; apply in_or_app; right; exact I).
    pose proof (stop_cancel depth workers stop stop_ok a 1 C workers_pos I1) as CC. apply (stop_two depth workers stop a t 1 C L workers_pos NT (PS CC) I1).
  - intros W1. destruct (Nat.eq_dec t 1) as [-> | NT]; [rewrite TT, PX|rewrite (TH 1) by lia]; apply (SPE W1).
  - intros W1. destruct (Nat.eq_dec t 1) as [-> | NT]; [rewrite TT, PX, ATX|rewrite (TH 1) by lia]; apply (SEN W1).
  - intros X. destruct (Nat.eq_dec t 0) as [-> | NT]; [rewrite TT, PX|rewrite (TH 0) by lia]; apply SNO, X.
  - exact SG.
Qed.

Definition same_last t a (x : thread) : Prop :=
  (t = 0 -> cancel a = true -> pend x = []) /\
  (t = 0 -> forall todo i more p, job x = Push Pending todo i more p -> cancel a = true -> todo = [] \/ exists l, todo = l ++ [stop]) /\
  (t = 1 -> workers = 1 -> forall got i more block p, job x = Pop Pending got i more block p -> In stop got -> (exists l, entries got = l ++ [stop]) /\ head a Pending <= i) /\
  (t = 1 -> workers = 1 -> In stop (pend x) -> exists l, pend x = l ++ [stop]) /\
  (t = 1 -> workers = 1 -> at_ x = W_stopped -> pend x = []).

(** A step of [t] that does not write to [Pending] *)
Lemma stp_put t a a' x :
  shapes a -> Acct a -> Stp a -> t <= workers ->
  (forall j, slots a' Pending j = slots a Pending j) ->
  (forall q j, exists v, valid v /\ slots a' q j = word v false) ->
  head a' Pending = head a Pending ->
  (forall u, th a' u = upd (th a) t x u) ->
  (In stop (bef x) -> In stop (bef (th a t)) /\ (forall f, dn Pending x f = dn Pending (th a t) f)) ->
  (stopped (th a t) -> stopped x) ->
  (stopped x -> stopped (th a t) \/ t <> 0 /\ In stop (bef (th a t)) /\ job (th a t) = Rest) ->
  cancel a' = cancel a -> same_last t a x ->
  Stp a'.
Proof.
  intros H C SP L ES EG EH TH BE ST1 ST2 CC (F0 & F1 & F2 & F3 & F4).
  assert (TT : th a' t = x) by (rewrite TH; apply upd_same).
  apply (stp_frame t a a'); try rewrite TT; try assumption.
  - intros u NE. rewrite TH. apply upd_other, NE.
  - intros I. left. auto.
  - congruence.
  - rewrite CC. auto.
  - intros E. subst t. rewrite TT, CC. apply F0. reflexivity.
  - intros E. subst t. rewrite TT, CC. apply F1. reflexivity.
  - intros E. subst t. rewrite TT. apply F2. reflexivity.
  - intros E. subst t. rewrite TT. apply F3. reflexivity.
  - intros E. subst t. rewrite TT. apply F4. reflexivity.
Qed.

Lemma same_job t a j' : shapes a -> Stp a ->
  (forall todo i more p, j' = Push Pending todo i more p -> exists i more p, job (th a t) = Push Pending todo i more p) ->
  (forall got i more block p, j' <> Pop Pending got i more block p \/ ~ In stop got) ->
  same_last t a (set_job j' (th a t)).
Proof.
  intros H SP NPu NPo. destruct SP as [Z1 SS SC SHO SA SPO SPE SEN SNO SG]. unfold same_last. cbn [set_job pend at_ job].
  split; [|split; [|split; [|split]]].
  - intros E. subst t. exact SNO.
  - intros E todo i more p J. subst t. destruct (NPu _ _ _ _ J) as (? & ? & ? & J'). exact (Z1 _ _ _ _ J').
  - intros E W1 got i more block p J I. destruct (NPo got i more block p); contradiction.
  - intros E. subst t. exact SPE.
  - intros E. subst t. exact SEN.
Qed.

Lemma dn_0 x : job x = Rest \/ (exists q l, job x = flush q l) \/ (exists q todo i more p, job x = Push q todo i more p) \/ (exists got i more block p, job x = Pop Ready got i more block p) \/ (exists q got i block p, job x = Pop q got i 0 block p) -> forall f, dn Pending x f = 0.
Proof.
  intros D f. unfold IoqInv.dn. destruct D as [-> | [(q & l & ->)|[(? & ? & ? & ? & ? & ->)|[(? & ? & ? & ? & ? & ->)|(? & ? & ? & ? & ? & ->)]]]]; try reflexivity.
  - unfold flush. destruct l; reflexivity.
  - destruct (which_eqb _ _); [|reflexivity]. rewrite Nat.add_0_r. lia.
Qed.

Lemma flush_pend l todo i more p : flush Pending l = Push Pending todo i more p -> todo = l.
Proof. unfold flush. destruct l; [discriminate|]. intros E. injection E. auto. Qed.
Lemma bef_flush at0 pe l d sp q : bef (Th (flush q l) at0 pe d sp) = pe ++ match q with Pending => l | Ready => [] end.
Proof. unfold bef, flush. destruct l; cbn [pend job]; destruct q; reflexivity. Qed.

Lemma once_tail a r : Acct a -> workers = 1 -> pend (th a 1) = stop :: r -> (exists l, stop :: r = l ++ [stop]) -> r = [].
Proof.
  intros C W1 P (l & E). destruct (last_tail _ _ _ _ E) as [(_ & _ & R)|(l' & R)]; [exact R|]. exfalso.
  pose proof (stop_one depth workers stop a C) as O. unfold IoqInv.nB, thB in O. pose proof (sum_get (fun v => occ stop (bef (th a v))) (S workers) 1 ltac:(lia)) as GG. cbv beta in GG.
  unfold bef at 1 in GG. rewrite P, occ_app, occ_cons, N.eqb_refl, R, occ_app, occ_cons, N.eqb_refl in GG. lia.
Qed.

Lemma stp_worker t a a' : shapes a -> Acct a -> Stp a -> t <= workers -> job (th a t) = Rest -> worker_step t a = Some a' -> Stp a'.
Proof.
  intros H C SP L J E. pose proof (H t) as (P0 & D0 & SH). rewrite J in SH. unfold IoqModel.worker_step in E.
  assert (BO : bef (th a t) = pend (th a t)) by (unfold bef; rewrite J; apply app_nil_r).
  destruct (at_ (th a t)) eqn:AT; try (injection E as <-; exact SP).
  - (* W_top *) assert (T0 : t <> 0) by lia. destruct (pend (th a t)) as [|e r] eqn:EP; injection E as <-.
    + apply (stp_put t a _ (Th (flush Ready (done (th a t))) W_take [] [] (spent (th a t)))); try assumption; try reflexivity.
      * apply SP.
      * rewrite bef_flush. intros [].
      * intros [X|X]; congruence.
      * intros [X|X]; discriminate X.
      * split; [|split; [|split; [|split]]]; try (intros; exfalso; lia); cbn [pend job at_].
        -- intros _ _ got i more block p X. unfold flush in X. destruct (done (th a t)); discriminate X.
        -- intros _ _ [].
        -- intros; reflexivity.
    + apply (stp_put t a _ (Th Rest W_take (e :: r) (done (th a t)) (spent (th a t)))); try assumption; try reflexivity.
      * apply SP.
      * unfold bef at 1. cbn [pend job]. rewrite app_nil_r. intros X. rewrite BO. split; [exact X|]. intros f. rewrite !dn_0; auto.
      * intros [X|X]; congruence.
      * intros [X|X]; discriminate X.
      * split; [|split; [|split; [|split]]]; try (intros; exfalso; lia); cbn [pend job at_].
        -- intros _ _ got i more block p X. discriminate X.
        -- intros E W1. subst t. rewrite <- EP. apply SP, W1.
        -- intros _ _ X. discriminate X.
  - (* W_take *) destruct (pend (th a t)) as [|e r] eqn:EP.
    + injection E as <-. apply (stp_put t a _ (Th (Pop Pending [] 0 0 true Tickets) W_take [] (done (th a t)) (spent (th a t)))); try assumption; try reflexivity.
      * apply SP.
      * intros [].
      * intros [X|X]; congruence.
      * intros [X|X]; discriminate X.
      * split; [|split; [|split; [|split]]]; try (intros; exfalso; lia); cbn [pend job at_].
        -- intros _ _ got i more block p X. injection X as <- _ _ _ _. intros [].
        -- intros _ _ [].
        -- intros; reflexivity.
    + revert E. destruct (N.eqb_spec e stop) as [-> | NES]; intros E.
      * injection E as <-. apply (stp_put t a _ (Th (Push Pending [stop] 0 0 Tickets) W_stopped r (done (th a t)) (spent (th a t)))); try assumption; try reflexivity.
        -- apply SP.
        -- intros _. rewrite BO. split; [left; reflexivity|]. intros f. rewrite !dn_0; auto. right; right; left. cbn [job]. eauto 6.
        -- intros [X|X]; congruence.
        -- intros _. right. split; [lia|]. rewrite BO. split; [left; reflexivity|exact J].
        -- split; [|split; [|split; [|split]]]; try (intros; exfalso; lia); cbn [pend job at_].
           ++ intros _ _ got i more block p X. discriminate X.
           ++ intros T1 W1 I. subst t. exfalso. pose proof (once_tail a r C W1 EP) as OT. rewrite OT in I; [exact I|]. rewrite <- EP. apply SP; [exact W1|]. rewrite EP. left. reflexivity.
           ++ intros T1 W1 _. subst t. apply (once_tail a r C W1 EP). rewrite <- EP. apply SP; [exact W1|]. rewrite EP. left. reflexivity.
      * set (d := done (th a t) ++ [e]) in *.
        assert (IR : In stop r -> In stop (pend (th a t))) by (intros I; rewrite EP; right; exact I).
        assert (LR : t = 1 -> workers = 1 -> In stop r -> exists l, r = l ++ [stop]).
        { intros T1 W1 I. subst t. destruct (s_pend _ _ _ _ SP W1 (IR I)) as (l & X). rewrite EP in X. destruct (last_tail _ _ _ _ X) as [(_ & Y & _)|Y]; [contradiction|exact Y]. }
        destruct (batch <=? length d); injection E as <-.
        -- apply (stp_put t a _ (Th (flush Ready d) W_top r [] (spent (th a t)))); try assumption; try reflexivity.
           ++ apply SP.
           ++ rewrite bef_flush, app_nil_r, BO. intros I. split; [right; exact I|]. intros f. rewrite !dn_0; auto. right. left. cbn [job]. eauto.
           ++ intros [X|X]; congruence.
           ++ intros [X|X]; discriminate X.
           ++ split; [|split; [|split; [|split]]]; try (intros; exfalso; lia); cbn [pend job at_].
              ** intros _ _ got i more block p X. unfold flush in X. destruct d; discriminate X.
              ** exact LR.
              ** intros _ _ X. discriminate X.
        -- apply (stp_put t a _ (Th Rest W_top r d (spent (th a t)))); try assumption; try reflexivity.
           ++ apply SP.
           ++ unfold bef at 1. cbn [pend job]. rewrite app_nil_r, BO. intros I. split; [right; exact I|]. intros f. rewrite !dn_0; auto.
           ++ intros [X|X]; congruence.
           ++ intros [X|X]; discriminate X.
           ++ split; [|split; [|split; [|split]]]; try (intros; exfalso; lia); cbn [pend job at_].
              ** intros _ _ got i more block p X. discriminate X.
              ** exact LR.
              ** intros _ _ X. discriminate X.
  - (* W_filled *) destruct (pend (th a t)) as [|e r] eqn:EP; [discriminate E|].
    revert E. destruct (N.eqb_spec e stop) as [-> | NES]; intros E.
      * injection E as <-. apply (stp_put t a _ (Th (Push Pending [stop] 0 0 Tickets) W_stopped r (done (th a t)) (spent (th a t)))); try assumption; try reflexivity.
        -- apply SP.
        -- intros _. rewrite BO. split; [left; reflexivity|]. intros f. rewrite !dn_0; auto. right; right; left. cbn [job]. eauto 6.
        -- intros [X|X]; congruence.
        -- intros _. right. split; [lia|]. rewrite BO. split; [left; reflexivity|exact J].
        -- split; [|split; [|split; [|split]]]; try (intros; exfalso; lia); cbn [pend job at_].
           ++ intros _ _ got i more block p X. discriminate X.
           ++ intros T1 W1 I. subst t. exfalso. pose proof (once_tail a r C W1 EP) as OT. rewrite OT in I; [exact I|]. rewrite <- EP. apply SP; [exact W1|]. rewrite EP. left. reflexivity.
           ++ intros T1 W1 _. subst t. apply (once_tail a r C W1 EP). rewrite <- EP. apply SP; [exact W1|]. rewrite EP. left. reflexivity.
      * set (d := done (th a t) ++ [e]) in *.
        assert (IR : In stop r -> In stop (pend (th a t))) by (intros I; rewrite EP; right; exact I).
        assert (LR : t = 1 -> workers = 1 -> In stop r -> exists l, r = l ++ [stop]).
        { intros T1 W1 I. subst t. destruct (s_pend _ _ _ _ SP W1 (IR I)) as (l & X). rewrite EP in X. destruct (last_tail _ _ _ _ X) as [(_ & Y & _)|Y]; [contradiction|exact Y]. }
        destruct (batch <=? length d); injection E as <-.
        -- apply (stp_put t a _ (Th (flush Ready d) W_top r [] (spent (th a t)))); try assumption; try reflexivity.
           ++ apply SP.
           ++ rewrite bef_flush, app_nil_r, BO. intros I. split; [right; exact I|]. intros f. rewrite !dn_0; auto. right. left. cbn [job]. eauto.
           ++ intros [X|X]; congruence.
           ++ intros [X|X]; discriminate X.
           ++ split; [|split; [|split; [|split]]]; try (intros; exfalso; lia); cbn [pend job at_].
              ** intros _ _ got i more block p X. unfold flush in X. destruct d; discriminate X.
              ** exact LR.
              ** intros _ _ X. discriminate X.
        -- apply (stp_put t a _ (Th Rest W_top r d (spent (th a t)))); try assumption; try reflexivity.
           ++ apply SP.
           ++ unfold bef at 1. cbn [pend job]. rewrite app_nil_r, BO. intros I. split; [right; exact I|]. intros f. rewrite !dn_0; auto.
           ++ intros [X|X]; congruence.
           ++ intros [X|X]; discriminate X.
           ++ split; [|split; [|split; [|split]]]; try (intros; exfalso; lia); cbn [pend job at_].
              ** intros _ _ got i more block p X. discriminate X.
              ** exact LR.
              ** intros _ _ X. discriminate X.
  - (* W_stopped *) destruct (asserts && _)%bool; [discriminate E|]. injection E as <-.
    apply (stp_put t a _ (Th (flush Ready (done (th a t))) W_exit (pend (th a t)) [] (spent (th a t)))); try assumption; try reflexivity.
    + apply SP.
    + rewrite bef_flush, app_nil_r, BO. intros I. split; [exact I|]. intros f. rewrite !dn_0; auto. right. left. cbn [job]. eauto.
    + intros _. right. reflexivity.
    + intros _. left. left. exact AT.
    + split; [|split; [|split; [|split]]]; try (intros; exfalso; lia); cbn [pend job at_].
      * intros _ _ got i more block p X. unfold flush in X. destruct (done (th a t)); discriminate X.
      * intros T1 W1. subst t. apply SP, W1.
      * intros _ _ X. discriminate X.
Qed.

Lemma stp_take a : shapes a -> Acct a -> Stp a -> job (th a 0) = Rest -> at_ (th a 0) = M_idle \/ at_ (th a 0) = M_filled -> Stp (take (th a 0) a).
Proof.
  intros H C SP J AT. assert (L : 0 <= workers) by lia.
  assert (G : forall a' d sp, slots a' = slots a -> head a' = head a -> cancel a' = cancel a -> (forall u, th a' u = upd (th a) 0 (Th Rest M_idle (pend (th a 0)) d sp) u) -> Stp a').
  { intros a' d sp ES EH EC TH. eapply (stp_put 0 a a'); try eassumption.
    - intros j. rewrite ES. reflexivity.
    - rewrite ES. apply SP.
    - rewrite EH. reflexivity.
    - unfold bef. rewrite J. cbn [pend job]. intros I. split; [exact I|]. intros f. rewrite !dn_0; auto.
    - intros [X|X]; destruct AT; congruence.
    - intros [X|X]; discriminate X.
    - split; [|split; [|split; [|split]]]; try (intros; exfalso; lia); cbn [pend job at_].
      + intros _. apply SP.
      + intros _ todo i more p X. discriminate X. }
  unfold take. destruct (done (th a 0)) as [|e r]; eapply G; reflexivity.
Qed.

Lemma stp_owner o a : shapes a -> Acct a -> Stp a -> job (th a 0) = Rest -> at_ (th a 0) = M_idle -> Stp (owner_step o a).
Proof.
  intros H C SP J AT. assert (L : 0 <= workers) by lia. assert (BO : bef (th a 0) = pend (th a 0)) by (unfold bef; rewrite J; apply app_nil_r).
  unfold IoqModel.owner_step. destruct o as [p close| |block|p|].
  - destruct (cancel a) eqn:EC; [exact SP|]. destruct (depth <=? count a); [exact SP|]. destruct (usable stop p a) eqn:US; [|exact SP].
    assert (NP : p <> stop). { intros ->. unfold usable in US. rewrite N.eqb_refl, andb_false_r in US. discriminate US. }
    assert (IP : In stop (pend (th a 0) ++ [p]) -> In stop (pend (th a 0))) by (rewrite in_app_iff; intros [I|[I|[]]]; [exact I|contradiction]).
    set (l := pend (th a 0) ++ [p]) in *. cbv zeta. set (s1 := St _ _ _ _ _ _ _ _ _ _ _ _ _).
    destruct (batch <=? length l).
    + apply (stp_put 0 a _ (Th (flush Pending l) M_idle [] (done (th a 0)) (spent (th a 0)))); try assumption; try reflexivity.
      * apply SP.
      * rewrite bef_flush, BO. cbn [app]. intros I. split; [apply IP, I|]. intros f. rewrite !dn_0; auto. right. left. cbn [job]. eauto.
      * intros [X|X]; congruence.
      * intros [X|X]; discriminate X.
      * exact (eq_sym EC).
      * split; [|split; [|split; [|split]]]; try (intros; exfalso; lia); congruence.
    + apply (stp_put 0 a _ (Th Rest M_idle l (done (th a 0)) (spent (th a 0)))); try assumption; try reflexivity.
      * apply SP.
      * unfold bef at 1. cbn [pend job]. rewrite app_nil_r, BO. intros I. split; [apply IP, I|]. intros f. rewrite !dn_0; auto.
      * intros [X|X]; congruence.
      * intros [X|X]; discriminate X.
      * exact (eq_sym EC).
      * split; [|split; [|split; [|split]]]; try (intros; exfalso; lia); congruence.
  - apply (stp_put 0 a _ (Th (flush Pending (pend (th a 0))) M_idle [] (done (th a 0)) (spent (th a 0)))); try assumption; try reflexivity.
    + apply SP.
    + rewrite bef_flush, BO. cbn [app]. intros I. split; [exact I|]. intros f. rewrite !dn_0; auto. right. left. cbn [job]. eauto.
    + intros [X|X]; congruence.
    + intros [X|X]; discriminate X.
    + split; [|split; [|split; [|split]]]; try (intros; exfalso; lia); cbn [pend job at_].
      * intros; reflexivity.
      * intros _ todo i more p X Y. rewrite (s_none _ _ _ _ SP Y) in X. discriminate X.
  - destruct (pend (th a 0)) as [|e r] eqn:EP; [|exact SP]. destruct (count a =? 0); [exact SP|]. destruct (done (th a 0)) as [|e r] eqn:ED.
    + destruct (_ && _)%bool.
      * apply (stp_put 0 a _ (Th Rest M_idle [] [] (S (spent (th a 0))))); try assumption; try reflexivity.
        -- apply SP.
        -- intros [].
        -- intros [X|X]; congruence.
        -- intros [X|X]; discriminate X.
        -- split; [|split; [|split; [|split]]]; try (intros; exfalso; lia); cbn [pend job at_]; [reflexivity|]. intros _ todo i more p X. discriminate X.
      * apply (stp_put 0 a _ (Th (Pop Ready [] 0 0 block Tickets) M_filled [] [] (spent (th a 0)))); try assumption; try reflexivity.
        -- apply SP.
        -- intros [].
        -- intros [X|X]; congruence.
        -- intros [X|X]; discriminate X.
        -- split; [|split; [|split; [|split]]]; try (intros; exfalso; lia); cbn [pend job at_]; [reflexivity|]. intros _ todo i more p X. discriminate X.
    + apply stp_take; auto.
  - destruct (existsb _ _); [|exact SP]. destruct SP as [Z1 SS SC SHO SA SPO SPE SEN SNO SG]. constructor; assumption.
  - destruct (cancel a) eqn:EC; [exact SP|]. set (l := pend (th a 0) ++ [stop]).
    apply (stp_frame 0 a); try assumption; try reflexivity.
    + apply SP.
    + intros u NE. cbn [put_th emit set_cancel set_th th]. apply upd_other, NE.
    + intros _. right. auto.
    + intros [X|X]; congruence.
    + intros X. cbn [put_th emit set_cancel set_th th] in X. rewrite upd_same in X. destruct X as [X|X]; discriminate X.
    + intros _. right. reflexivity.
    + intros _ todo i more p X _. cbn [put_th emit set_cancel set_th th] in X. rewrite upd_same in X. cbn [job] in X. apply flush_pend in X. right. exists (pend (th a 0)). exact X.
    + intros. lia.
    + intros. lia.
    + intros. lia.
Qed.

Theorem stp_step t a a' : shapes a -> Acct a -> Tick a -> Stp a -> astep t a a' -> Stp a'.
Proof.
  intros H C K SP A. destruct (le_lt_dec t workers) as [L|L]; [|pose proof A as A0; apply outside with (workers := workers) in A0; [subst a'|assumption..]; exact SP].
  pose proof (H t) as (P0 & D0 & SH). destruct A.
  - destruct q; [apply (stp_tickets t a todo i more H C SP L H0)|].
    eapply (stp_put t a); try eassumption; try reflexivity.
    + apply SP.
    + unfold bef. rewrite H0. cbn [set_job pend job]. intros I. split; [exact I|]. intros f. rewrite !dn_0; auto; right; right; left; cbn [set_job job]; eauto 6.
    + auto.
    + auto.
    + apply same_job; try assumption; [discriminate|left; discriminate].
  - eapply (stp_put t a); try eassumption; try reflexivity.
    + apply SP.
    + unfold bef. rewrite H0 in *. destruct SH as (EP & _). cbn [set_job pend job]. rewrite EP. destruct q; intros [].
    + auto.
    + auto.
    + apply same_job; try assumption; [discriminate|]. intros got0 i0 more0 block0 p0. destruct q; [|left; discriminate]. destruct got0 as [|g got0]; [right; intros []|left; discriminate].
  - destruct q; [apply (stp_push t a todo i more v v'); assumption|].
    eapply (stp_put t a); try eassumption; try reflexivity.
    + apply good_put; [apply SP|assumption].
    + unfold bef. rewrite H0. cbn [set_job pend job]. intros I. split; [exact I|]. intros f. rewrite !dn_0; auto; right; right; left; cbn [set_job job]; eauto 6.
    + auto.
    + auto.
    + apply same_job; try assumption; [discriminate|left; discriminate].
  - destruct q; [apply (stp_pop t a got i more block v v'); assumption|].
    eapply (stp_put t a); try eassumption; try reflexivity.
    + apply good_put; [apply SP|assumption].
    + unfold bef. rewrite H0. cbn [set_job pend job]. intros I. split; [exact I|]. intros f. rewrite !dn_0; auto; right; right; right; left; cbn [set_job job]; eauto 6.
    + auto.
    + auto.
    + apply same_job; try assumption; [discriminate|left; discriminate].
  - eapply (stp_put t a); try eassumption; try reflexivity.
    + apply SP.
    + unfold bef. rewrite H0. cbn [set_job pend job push_on]. intros I. split.
      * destruct todo, q; cbn in I |- *; auto.
      * intros f. rewrite !dn_0; auto; [right; right; left; eauto 6|]. cbn [set_job job push_on]. destruct todo; [left; reflexivity|right; right; left; eauto 6].
    + auto.
    + auto.
    + apply same_job; try assumption.
      * intros todo0 i0 more0 p0 E. unfold push_on in E. destruct todo as [|e r]; [discriminate E|]. injection E as -> <- _ _ _. eauto.
      * intros. left. unfold push_on. destruct todo; discriminate.
  - rewrite H0 in SH. destruct SH as (EP & ED & _ & WH). cbn [pop_on]. destruct q.
    + destruct WH as (LT & AT & _). destruct (Nat.eqb_spec t 0) as [E0|N0]; [lia|].
      eapply (stp_put t a); try eassumption; try reflexivity.
      * apply SP.
      * unfold bef. rewrite H0. cbn [pend job]. rewrite app_nil_r, EP. cbn [app]. intros I. split; [unfold entries in I; apply filter_In in I; apply I|]. intros f. rewrite !dn_0; auto. right; right; right; right. eauto 6.
      * intros [X|X]; congruence.
      * intros [X|X]; discriminate X.
      * split; [|split; [|split; [|split]]]; try (intros; exfalso; lia); cbn [pend job at_].
        -- intros _ _ got0 i0 more0 block0 p0 X. discriminate X.
        -- intros T1 W1 I. subst t. unfold entries in I. apply filter_In in I. apply (s_pop _ _ _ _ SP W1 _ _ _ _ _ H0 (proj1 I)).
        -- intros _ _ X. discriminate X.
    + destruct WH as (-> & AT). cbn [Nat.eqb].
      eapply (stp_put 0 a); try eassumption; try reflexivity.
      * apply SP.
      * unfold bef. rewrite H0. cbn [pend job]. rewrite EP. intros [].
      * intros [X|X]; congruence.
      * intros [X|X]; discriminate X.
      * split; [|split; [|split; [|split]]]; try (intros; exfalso; lia); cbn [pend job at_].
        -- intros; exact EP.
        -- intros _ todo i0 more0 p0 X. discriminate X.
  - apply (stp_worker t a a'); assumption.
  - assert (t = 0) by (rewrite H0, H1 in SH; exact SH). subst t. apply stp_owner; assumption.
  - assert (t = 0) by (rewrite H0, H1 in SH; exact SH). subst t. apply stp_take; auto.
Qed.
End Stop.
