(** * Invariants of the I/O queue: where every request is *)

From Coq Require Import List Arith NArith ZArith Bool Lia ZifyBool ZifyNat ZifyN.
Import ListNotations.
From Verif Require Import IoqModel IoqWords IoqSpec IoqCount IoqNorm IoqInv.

(** ** Logs *)
Lemma completed_cons r e l : completed r (e :: l) <-> (exists t ran, e = Complete r t ran) \/ completed r l.
Proof. unfold completed. split; [intros (t & ran & [E|H]); [left; eauto|right; eauto]|intros [(t & ran & ->)|(t & ran & H)]; exists t, ran; [left; reflexivity|right; exact H]]. Qed.
Lemma returned_cons r e l : returned r (e :: l) <-> e = Return r \/ returned r l.
Proof. unfold returned. cbn [In]. tauto. Qed.
Lemma accepted_cons r e l : accepted r (e :: l) <-> (exists c, e = Accept r c) \/ accepted r l.
Proof. unfold accepted. split; [intros (c & [E|H]); [left; eauto|right; eauto]|intros [(c & ->)|(c & H)]; exists c; [left; reflexivity|right; exact H]]. Qed.
Lemma cancelled_cons e l : cancelled (e :: l) <-> e = Cancelled \/ cancelled l.
Proof. unfold cancelled. cbn [In]. tauto. Qed.

Lemma proper_completed w l r : proper w l -> completed r l -> accepted r l.
Proof.
  induction l as [|e l IH]; intros P C; [destruct C as (? & ? & [])|]. destruct P as [A P]. apply accepted_cons. right.
  apply completed_cons in C. destruct C as [(t & ran & ->)|C]; [apply A|apply IH; assumption].
Qed.
Lemma proper_returned w l r : proper w l -> returned r l -> completed r l.
Proof.
  induction l as [|e l IH]; intros P C; [destruct C|]. destruct P as [A P]. apply completed_cons. right.
  apply returned_cons in C. destruct C as [-> | C]; [apply A|apply IH; assumption].
Qed.

Lemma interrupted_cons e l : interrupted l -> interrupted (e :: l).
Proof. intros (x & y & r & -> & A & C). exists (e :: x), y, r. auto. Qed.

(** ** drop1 *)
Lemma occ_drop1 p x l : occ x (drop1 p l) = occ x l - (if (N.eqb x p && existsb (N.eqb p) l)%bool then 1 else 0).
Proof.
  induction l as [|e l IH]; [destruct (_ && _)%bool; reflexivity|]. cbn [drop1 existsb]. rewrite occ_cons. rewrite (N.eqb_sym p e).
  destruct (N.eqb_spec e p) as [-> | NE].
  - rewrite orb_true_l, andb_true_r. rewrite (N.eqb_sym x p). destruct (p =? x)%N; lia.
  - rewrite orb_false_l, occ_cons, IH. destruct (N.eqb_spec e x) as [-> | ]; [|lia]. destruct (N.eqb_spec x p); [congruence|]. cbn [andb]. lia.
Qed.

Lemma existsb_in p l : existsb (N.eqb p) l = true <-> In p l.
Proof. rewrite existsb_exists. split; [intros (x & I & E); apply N.eqb_eq in E; subst; exact I|intros I; exists p; split; [exact I|apply N.eqb_refl]]. Qed.

Lemma length_drop1 p l : In p l -> length (drop1 p l) = pred (length l).
Proof.
  induction l as [|e l IH]; intros H; [destruct H|]. cbn [drop1]. destruct (N.eqb_spec e p) as [-> | NE]; [reflexivity|].
  destruct H as [E|H]; [contradiction|]. cbn [length]. rewrite (IH H). destruct l; [destruct H|reflexivity].
Qed.

Lemma in_drop1 p x l : NoDup l -> In p l -> (In x (drop1 p l) <-> In x l /\ x <> p).
Proof.
  intros ND I. rewrite (occ_in x (drop1 p l)), occ_drop1, (proj2 (existsb_in p l) I), andb_true_r. pose proof (nodup_occ l x ND). rewrite (occ_in x l).
  destruct (N.eqb_spec x p); [split; [lia|intros [_ C]; contradiction]|]. split; [intros; split; [lia|assumption]|intros [? _]; lia].
Qed.

Lemma nodup_drop1 p l : NoDup l -> NoDup (drop1 p l).
Proof. intros ND. apply occ_nodup. intros x. rewrite occ_drop1. pose proof (nodup_occ l x ND). lia. Qed.

Definition fullv (v : view) (p : N) : nat := match v with Full e => if N.eqb e p then 1 else 0 | _ => 0 end.
Lemma full_word v b p : valid v -> full (word v b) p = fullv v p.
Proof. intros V. unfold full. rewrite see_word by exact V. reflexivity. Qed.

Section Acct.
Variable depth workers bexp : nat.
Variable stop : N.
Variable asserts : bool.
Hypothesis stop_ok : valid (Full stop).

Local Notation size := (size depth).
Local Notation batch := (batch bexp).
Local Notation shape := (shape workers bexp stop asserts).
Local Notation shapes := (shapes workers bexp stop asserts).
Local Notation nB := (nB depth workers).
Local Notation nA := (nA depth workers).
Local Notation Acct := (Acct depth workers stop).
Local Notation worker_step := (worker_step bexp stop asserts).
Local Notation owner_step := (owner_step depth bexp stop).
Local Notation astep := (astep depth bexp stop asserts).

Lemma outside t a a' : shapes a -> workers < t -> astep t a a' -> a' = a.
Proof.
  intros H L A. pose proof (H t) as X. apply shape_w in X; [|exact L]. destruct X as (J & AT & _). destruct A; try congruence.
  unfold IoqModel.worker_step in H3. rewrite AT in H3. congruence.
Qed.

(** The same requests in the same places *)
Lemma acct_same a a' :
  Acct a -> (forall p, p <> 0%N -> nB a' p = nB a p /\ nA a' p = nA a p) ->
  cancel a' = cancel a -> count a' = count a -> used a' = used a -> held a' = held a -> req a' = req a -> closes a' = closes a -> fresh a' = fresh a -> log a' = log a ->
  Acct a'.
Proof.
  intros C N E1 E2 E3 E4 E5 E6 E7 E8. pose proof (stop_nz _ stop_ok) as SZ. destruct C as [ND OK CO DE OC ST NS HE RQ IJ CM RT AC OL CL CN PR CA].
  constructor; rewrite ?E1, ?E2, ?E3, ?E4, ?E5, ?E6, ?E7, ?E8; try assumption.
  - intros p P0 PS. destruct (N p P0) as [-> ->]. apply OC; assumption.
  - destruct (N stop SZ) as [-> _]. exact ST.
  - destruct (N stop SZ) as [_ ->]. exact NS.
  - intros p U. assert (P0 : p <> 0%N) by (destruct (OK p U) as [V _]; cbn [valid] in V; lia). destruct (N p P0) as [-> _]. apply CM, U.
  - intros X. destruct (CA X) as [I|Z]; [left; exact I|right]. intros p P0 PS. destruct (N p P0) as [-> _]. apply Z; assumption.
Qed.

(** A thread moves entries around. *)
Lemma acct_thread a t x :
  Acct a -> t <= workers ->
  (forall p, p <> 0%N -> occ p (bef x) = occ p (bef (th a t))) ->
  (forall p, p <> 0%N -> occ p (aft x) = occ p (aft (th a t))) ->
  Acct (put_th t x a).
Proof.
  intros C L B A. apply (acct_same a); try reflexivity; [exact C|]. intros p P0. unfold IoqInv.nB, IoqInv.nA.
  pose proof (thB_put workers a t x p L). pose proof (thA_put workers a t x p L). specialize (B p P0). specialize (A p P0).
  change (slN depth (put_th t x a) Pending p) with (slN depth a Pending p). change (slN depth (put_th t x a) Ready p) with (slN depth a Ready p). lia.
Qed.

Lemma acct_slot a t x q j w :
  Acct a -> t <= workers -> j < size ->
  (forall p, p <> 0%N -> occ p (bef x) + (if which_eqb Pending q then full w p else 0) = occ p (bef (th a t)) + (if which_eqb Pending q then full (slots a q j) p else 0)) ->
  (forall p, p <> 0%N -> occ p (aft x) + (if which_eqb Ready q then full w p else 0) = occ p (aft (th a t)) + (if which_eqb Ready q then full (slots a q j) p else 0)) ->
  Acct (put_th t x (put q j w a)).
Proof.
  intros C L J B A. apply (acct_same a); try reflexivity; [exact C|]. intros p P0. unfold IoqInv.nB, IoqInv.nA.
  pose proof (thB_put workers (put q j w a) t x p L) as T1. pose proof (thA_put workers (put q j w a) t x p L) as T2. specialize (B p P0). specialize (A p P0).
  change (thB workers (put q j w a) p) with (thB workers a p) in T1. change (thA workers (put q j w a) p) with (thA workers a p) in T2.
  change (th (put q j w a) t) with (th a t) in *.
  change (slN depth (put_th t x (put q j w a)) Pending p) with (slN depth (put q j w a) Pending p). change (slN depth (put_th t x (put q j w a)) Ready p) with (slN depth (put q j w a) Ready p).
  pose proof (slN_put depth a q j w Pending p J). pose proof (slN_put depth a q j w Ready p J). lia.
Qed.

Lemma in_bef_used a t e : Acct a -> t <= workers -> e <> 0%N -> In e (bef (th a t)) -> 1 <= nB a e.
Proof.
  intros C L E0 I. unfold IoqInv.nB. pose proof (sum_get (fun u => occ e (bef (th a u))) (S workers) t ltac:(lia)) as G. cbv beta in G. apply occ_in in I. unfold thB. lia.
Qed.
Lemma in_aft_used a t e : Acct a -> t <= workers -> e <> 0%N -> In e (aft (th a t)) -> 1 <= nA a e.
Proof.
  intros C L E0 I. unfold IoqInv.nA. pose proof (sum_get (fun u => occ e (aft (th a u))) (S workers) t ltac:(lia)) as G. cbv beta in G. apply occ_in in I. unfold thA. lia.
Qed.

Lemma used_of a e : Acct a -> e <> 0%N -> e <> stop -> 1 <= nB a e + nA a e + occ e (held a) -> In e (used a) /\ nB a e + nA a e + occ e (held a) = 1.
Proof.
  intros C E0 ES G. pose proof (c_occ _ _ _ _ C e E0 ES) as O. pose proof (nodup_occ (used a) e (c_nd _ _ _ _ C)). split; [apply occ_in; lia|lia].
Qed.

(** ** A request is completed. *)
Lemma acct_complete a t e r d x :
  Acct a -> 1 <= t <= workers -> job (th a t) = Rest -> pend (th a t) = e :: r -> e <> 0%N -> e <> stop ->
  pend x = r -> (forall p, p <> 0%N -> occ p (bef x) = occ p r) ->
  d = done (th a t) ++ [e] -> (forall p, p <> 0%N -> occ p (aft x) = occ p d) ->
  Acct (put_th t x (emit (Complete (req a e) t (negb (cancel a) || closes a e)) a)).
Proof.
  intros C L J P E0 ES PX BX -> AX. set (ev := Complete (req a e) t (negb (cancel a) || closes a e)). set (a' := put_th t x (emit ev a)).
  assert (NB : forall p, p <> 0%N -> nB a' p + (if N.eqb e p then 1 else 0) = nB a p).
  { intros p P0. unfold IoqInv.nB. pose proof (thB_put workers (emit ev a) t x p ltac:(lia)) as T. change (thB workers (emit ev a) p) with (thB workers a p) in T. change (th (emit ev a) t) with (th a t) in T.
    change (slN depth a' Pending p) with (slN depth a Pending p). rewrite (BX p P0) in T. unfold bef at 1 in T. rewrite J, app_nil_r, P, occ_cons in T. subst a'. lia. }
  assert (NA : forall p, p <> 0%N -> nA a' p = nA a p + (if N.eqb e p then 1 else 0)).
  { intros p P0. unfold IoqInv.nA. pose proof (thA_put workers (emit ev a) t x p ltac:(lia)) as T. change (thA workers (emit ev a) p) with (thA workers a p) in T. change (th (emit ev a) t) with (th a t) in T.
    change (slN depth a' Ready p) with (slN depth a Ready p). rewrite (AX p P0) in T. unfold aft at 1 in T. rewrite J, app_nil_r, occ_app, occ_cons, occ_nil in T. subst a'. lia. }
  assert (IB : 1 <= nB a e).
  { apply (in_bef_used a t e C ltac:(lia) E0). unfold bef. rewrite P. left. reflexivity. }
  destruct (used_of a e C E0 ES ltac:(lia)) as [U ONE].
  pose proof (stop_nz _ stop_ok) as SZ. destruct C as [ND OK CO DE OC ST NS HE RQ IJ CM RT AC OL CL CN PR CA].
  assert (NC : ~ completed (req a e) (log a)) by (rewrite (CM e U); lia).
  constructor; change (used a') with (used a); change (held a') with (held a); change (count a') with (count a); change (cancel a') with (cancel a); change (req a') with (req a); change (closes a') with (closes a); change (fresh a') with (fresh a); change (log a') with (ev :: log a); try assumption.
  - intros p P0 PS. specialize (NB p P0). rewrite (NA p P0). specialize (OC p P0 PS). lia.
  - specialize (NB stop SZ). destruct (N.eqb_spec e stop); [contradiction|]. lia.
  - rewrite (NA stop SZ). destruct (N.eqb_spec e stop); [contradiction|]. lia.
  - intros p PU. assert (P0 : p <> 0%N) by (destruct (OK p PU) as [V _]; cbn [valid] in V; lia). specialize (NB p P0). rewrite completed_cons. destruct (N.eqb_spec e p) as [EQ|NE]; [subst p|].
    + split; [intros _; lia|]. intros _. left. unfold ev. eauto.
    + rewrite (CM p PU). split; [|intros; right; lia]. intros [(t' & ran & EE)|Z]; [|lia]. unfold ev in EE. injection EE as ER _ _. exfalso. apply NE. apply IJ; assumption.
  - intros p PU. rewrite returned_cons, (RT p PU). split; [intros [EE|H]; [discriminate EE|exact H]|auto].
  - intros r0. rewrite accepted_cons, AC. split; [intros [(c & EE)|H]; [discriminate EE|exact H]|auto].
  - intros r0 LR. destruct (OL r0 LR) as [H|[H1 H2]]; [left; exact H|right; split; [apply completed_cons; right; exact H1|apply returned_cons; right; exact H2]].
  - intros p c PU. cbn [In]. rewrite <- (CL p c PU). split; [intros [EE|H]; [discriminate EE|exact H]|auto].
  - rewrite cancelled_cons, CN. split; [auto|intros [EE|H]; [discriminate EE|exact H]].
  - split; [|exact PR]. cbn [allowed ev]. split; [apply AC, RQ, U|]. split; [exact NC|]. split; [exact L|].
    rewrite (CL e false U), <- CN. destruct (cancel a), (closes a e); cbn [negb orb]; split; try discriminate; try (intros [A B]; discriminate); auto.
  - intros CC. destruct (CA CC) as [I|Z]; [left; apply interrupted_cons, I|right]. intros p P0 PS. specialize (NB p P0). specialize (Z p P0 PS). lia.
Qed.

(** ** A request is returned. *)
Lemma acct_return a e r x :
  Acct a -> job (th a 0) = Rest -> done (th a 0) = e :: r -> e <> 0%N ->
  (forall p, p <> 0%N -> occ p (bef x) = occ p (bef (th a 0))) ->
  (forall p, p <> 0%N -> occ p (aft x) = occ p r) ->
  Acct (put_th 0 x (emit (Return (req a e)) (set_held (e :: held a) a))).
Proof.
  intros C J P E0 BX AX. set (b := emit (Return (req a e)) (set_held (e :: held a) a)). set (a' := put_th 0 x b).
  assert (NB : forall p, p <> 0%N -> nB a' p = nB a p).
  { intros p P0. unfold IoqInv.nB. pose proof (thB_put workers b 0 x p ltac:(lia)) as T. change (thB workers b p) with (thB workers a p) in T. change (th b 0) with (th a 0) in T.
    change (slN depth a' Pending p) with (slN depth a Pending p). rewrite (BX p P0) in T. subst a'. lia. }
  assert (NA : forall p, p <> 0%N -> nA a' p + (if N.eqb e p then 1 else 0) = nA a p).
  { intros p P0. unfold IoqInv.nA. pose proof (thA_put workers b 0 x p ltac:(lia)) as T. change (thA workers b p) with (thA workers a p) in T. change (th b 0) with (th a 0) in T.
    change (slN depth a' Ready p) with (slN depth a Ready p). rewrite (AX p P0) in T. unfold aft at 1 in T. rewrite J, app_nil_r, P, occ_cons in T. subst a'. lia. }
  assert (IA : 1 <= nA a e).
  { apply (in_aft_used a 0 e C ltac:(lia) E0). unfold aft. rewrite P. left. reflexivity. }
  assert (ES : e <> stop) by (intros ->; pose proof (c_nostop _ _ _ _ C); lia).
  destruct (used_of a e C E0 ES ltac:(lia)) as [U ONE].
  pose proof (stop_nz _ stop_ok) as SZ. destruct C as [ND OK CO DE OC ST NS HE RQ IJ CM RT AC OL CL CN PR CA].
  assert (NH : ~ In e (held a)) by (rewrite occ_in; lia).
  constructor; change (used a') with (used a); change (held a') with (e :: held a); change (count a') with (count a); change (cancel a') with (cancel a); change (req a') with (req a); change (closes a') with (closes a); change (fresh a') with (fresh a); change (log a') with (Return (req a e) :: log a); try assumption.
  - intros p P0 PS. specialize (NA p P0). rewrite (NB p P0). specialize (OC p P0 PS). rewrite occ_cons. lia.
  - rewrite (NB stop SZ). exact ST.
  - specialize (NA stop SZ). rewrite occ_cons. destruct (N.eqb_spec e stop); [contradiction|]. lia.
  - intros [X|X]; [exact (E0 X)|exact (HE X)].
  - intros p PU. assert (P0 : p <> 0%N) by (destruct (OK p PU) as [V _]; cbn [valid] in V; lia). rewrite completed_cons, (NB p P0), (CM p PU). split; [intros [(t & ran & EE)|H]; [discriminate EE|exact H]|auto].
  - intros p PU. rewrite returned_cons, (RT p PU). cbn [In]. split; intros [EE|H]; auto; left; [injection EE as EE; apply IJ; assumption|rewrite EE; reflexivity].
  - intros r0. rewrite accepted_cons, AC. split; [intros [(c & EE)|H]; [discriminate EE|exact H]|auto].
  - intros r0 LR. destruct (OL r0 LR) as [H|[H1 H2]]; [left; exact H|right; split; [apply completed_cons; right; exact H1|apply returned_cons; right; exact H2]].
  - intros p c PU. cbn [In]. rewrite <- (CL p c PU). split; [intros [EE|H]; [discriminate EE|exact H]|auto].
  - rewrite cancelled_cons, CN. split; [auto|intros [EE|H]; [discriminate EE|exact H]].
  - split; [|exact PR]. cbn [allowed]. split; [apply (CM e U); lia|]. rewrite (RT e U). exact NH.
  - intros CC. destruct (CA CC) as [I|Z]; [left; apply interrupted_cons, I|right]. intros p P0 PS. rewrite (NB p P0). apply Z; assumption.
Qed.

(** ** A request is freed. *)
Lemma acct_free a e :
  Acct a -> In e (held a) -> Acct (set_used (pred (count a)) (drop1 e (used a)) (drop1 e (held a)) a).
Proof.
  intros C H. set (a' := set_used _ _ _ a).
  assert (E0 : e <> 0%N) by (intros ->; exact (c_held _ _ _ _ C H)).
  assert (OH : 1 <= occ e (held a)) by (apply occ_in in H; lia).
  assert (ES : e <> stop) by (intros ->; pose proof (c_nostop _ _ _ _ C); lia).
  destruct (used_of a e C E0 ES ltac:(lia)) as [U ONE].
  pose proof (stop_nz _ stop_ok) as SZ. destruct C as [ND OK CO DE OC ST NS HE RQ IJ CM RT AC OL CL CN PR CA].
  assert (IN : forall p, In p (drop1 e (used a)) <-> In p (used a) /\ p <> e) by (intros p; apply in_drop1; assumption).
  assert (EU : existsb (N.eqb e) (used a) = true) by (apply existsb_in, U). assert (EH : existsb (N.eqb e) (held a) = true) by (apply existsb_in, H).
  assert (IH : forall p, p <> e -> (In p (drop1 e (held a)) <-> In p (held a))).
  { intros p NE. rewrite !occ_in, occ_drop1. destruct (N.eqb_spec p e); [contradiction|]. cbn [andb]. rewrite Nat.sub_0_r. tauto. }
  constructor; change (used a') with (drop1 e (used a)); change (held a') with (drop1 e (held a)); change (count a') with (pred (count a)); change (cancel a') with (cancel a); change (req a') with (req a); change (closes a') with (closes a); change (fresh a') with (fresh a); change (log a') with (log a); try assumption.
  - apply nodup_drop1, ND.
  - intros p PU. apply OK, IN, PU.
  - rewrite length_drop1 by exact U. congruence.
  - rewrite length_drop1 by exact U. lia.
  - intros p P0 PS. change (nB a' p) with (nB a p). change (nA a' p) with (nA a p). specialize (OC p P0 PS). rewrite !occ_drop1, EU, EH, andb_true_r. destruct (N.eqb_spec p e) as [-> | ]; lia.
  - change (nA a' stop) with (nA a stop). rewrite occ_drop1. lia.
  - rewrite occ_in, occ_drop1. rewrite occ_in in HE. lia.
  - intros p PU. apply RQ, IN, PU.
  - intros p p' PU PU'. apply IJ; apply IN; assumption.
  - intros p PU. apply CM, IN, PU.
  - intros p PU. apply IN in PU. destruct PU as [PU NE]. rewrite (RT p PU). symmetry. apply IH, NE.
  - intros r LR. destruct (OL r LR) as [(p & PU & EQ)|X]; [|right; exact X]. destruct (N.eq_dec p e) as [-> | NE]; [right|left; exists p; split; [apply IN; auto|exact EQ]].
    rewrite <- EQ. split; [apply (CM e U); lia|apply (RT e U), H].
  - intros p c PU. apply CL, IN, PU.
Qed.

(** ** A request is accepted. *)
Lemma usable_ok a p : usable stop p a = true -> valid (Full p) /\ p <> stop /\ ~ In p (used a).
Proof.
  unfold usable. rewrite !andb_true_iff, !negb_true_iff. intros ((((A & B) & C) & D) & E). cbn [valid].
  apply N.eqb_neq in A, D. apply N.ltb_lt in B. apply N.eqb_eq in C. change W with (2 ^ 64)%N in B. split; [split; [lia|exact C]|]. split; [exact D|].
  intros X. apply existsb_in in X. congruence.
Qed.

Lemma acct_accept a p close x :
  Acct a -> cancel a = false -> count a < depth -> usable stop p a = true ->
  (forall p', p' <> 0%N -> occ p' (bef x) = occ p' (bef (th a 0)) + (if N.eqb p p' then 1 else 0)) ->
  (forall p', p' <> 0%N -> occ p' (aft x) = occ p' (aft (th a 0))) ->
  Acct (put_th 0 x (St (slots a) (head a) (tail a) (owner a) (th a) (cancel a)
                     (S (count a)) (p :: used a) (held a) (updN (req a) p (fresh a)) (updN (closes a) p close)
                     (S (fresh a)) (Accept (fresh a) close :: log a))).
Proof.
  intros C NC CT US BX AX. set (b := St _ _ _ _ _ _ _ _ _ _ _ _ _). set (a' := put_th 0 x b).
  assert (NB : forall p', p' <> 0%N -> nB a' p' = nB a p' + (if N.eqb p p' then 1 else 0)).
  { intros p' P0. unfold IoqInv.nB. pose proof (thB_put workers b 0 x p' ltac:(lia)) as T. change (thB workers b p') with (thB workers a p') in T. change (th b 0) with (th a 0) in T.
    change (slN depth a' Pending p') with (slN depth a Pending p'). rewrite (BX p' P0) in T. subst a'. lia. }
  assert (NA : forall p', p' <> 0%N -> nA a' p' = nA a p').
  { intros p' P0. unfold IoqInv.nA. pose proof (thA_put workers b 0 x p' ltac:(lia)) as T. change (thA workers b p') with (thA workers a p') in T. change (th b 0) with (th a 0) in T.
    change (slN depth a' Ready p') with (slN depth a Ready p'). rewrite (AX p' P0) in T. subst a'. lia. }
  destruct (usable_ok a p US) as (VP & PS & NU).
  pose proof (stop_nz _ stop_ok) as SZ. destruct C as [ND OK CO DE OC ST NS HE RQ IJ CM RT AC OL CL CN PR CA].
  assert (P0 : p <> 0%N) by (cbn [valid] in VP; lia).
  assert (NO : nB a p + nA a p + occ p (held a) = 0) by (rewrite (OC p P0 PS); rewrite occ_in in NU; lia).
  assert (RQ' : forall p', p' <> p -> updN (req a) p (fresh a) p' = req a p') by (intros p' NE; unfold updN; destruct (N.eqb_spec p' p); [contradiction|reflexivity]).
  assert (RQ0 : updN (req a) p (fresh a) p = fresh a) by (unfold updN; rewrite N.eqb_refl; reflexivity).
  assert (CL' : forall p', p' <> p -> updN (closes a) p close p' = closes a p') by (intros p' NE; unfold updN; destruct (N.eqb_spec p' p); [contradiction|reflexivity]).
  assert (CL0 : updN (closes a) p close p = close) by (unfold updN; rewrite N.eqb_refl; reflexivity).
  assert (NF : ~ accepted (fresh a) (log a)) by (rewrite AC; lia).
  constructor; change (used a') with (p :: used a); change (held a') with (held a); change (count a') with (S (count a)); change (cancel a') with (cancel a); change (req a') with (updN (req a) p (fresh a)); change (closes a') with (updN (closes a) p close); change (fresh a') with (S (fresh a)); change (log a') with (Accept (fresh a) close :: log a).
  - constructor; assumption.
  - intros p' [<- | H]; [auto|apply OK, H].
  - cbn [length]. congruence.
  - cbn [length]. lia.
  - intros p' P0' PS'. rewrite (NB p' P0'), (NA p' P0'), occ_cons. specialize (OC p' P0' PS'). lia.
  - rewrite (NB stop SZ). destruct (N.eqb_spec p stop); [contradiction|]. lia.
  - rewrite (NA stop SZ). exact NS.
  - exact HE.
  - intros p' [<- | H]; [rewrite RQ0; lia|]. rewrite RQ' by congruence. specialize (RQ p' H). lia.
  - intros p1 p2 [<- | H1] [<- | H2]; rewrite ?RQ0, ?RQ' by congruence; intros E; auto.
    + specialize (RQ p2 H2). lia.
    + specialize (RQ p1 H1). lia.
  - intros p' H. rewrite completed_cons. assert (PN : p' <> 0%N) by (destruct H as [<- | H]; [exact P0|destruct (OK p' H) as [V _]; cbn [valid] in V; lia]). rewrite (NB p' PN). destruct (N.eqb_spec p p') as [<- | NE].
    + rewrite RQ0. split; [|lia]. intros [(t & ran & E)|X]; [discriminate E|]. exfalso. apply NF. apply (proper_completed workers); assumption.
    + destruct H as [E|H]; [contradiction|]. rewrite RQ' by congruence. rewrite Nat.add_0_r, (CM p' H). split; [intros [(t & ran & E)|X]; [discriminate E|exact X]|auto].
  - intros p' H. rewrite returned_cons. destruct (N.eq_dec p p') as [<- | NE].
    + rewrite RQ0. split; [|intros X; apply occ_in in X; lia]. intros [E|X]; [discriminate E|]. exfalso. apply NF. apply (proper_completed workers); [exact PR|]. apply (proper_returned workers); assumption.
    + destruct H as [E|H]; [contradiction|]. rewrite RQ' by congruence. rewrite (RT p' H). split; [intros [E|X]; [discriminate E|exact X]|auto].
  - intros r. rewrite accepted_cons, AC. split; [intros [(c & E)|X]; [injection E as <- _; lia|lia]|]. intros X. destruct (Nat.eq_dec r (fresh a)) as [-> | ]; [left; eauto|right; lia].
  - intros r LR. destruct (Nat.eq_dec r (fresh a)) as [-> | NE]; [left; exists p; split; [left; reflexivity|exact RQ0]|]. destruct (OL r ltac:(lia)) as [(p' & H & E)|[H1 H2]].
    + left. exists p'. split; [right; exact H|]. rewrite RQ' by congruence. exact E.
    + right. split; [apply completed_cons; right; exact H1|apply returned_cons; right; exact H2].
  - intros p' c H. cbn [In]. destruct (N.eq_dec p p') as [<- | NE].
    + rewrite RQ0, CL0. split; [|intros ->; left; reflexivity]. intros [E|X]; [injection E as <-; reflexivity|]. exfalso. apply NF. exists c. exact X.
    + destruct H as [E|H]; [contradiction|]. rewrite RQ', CL' by congruence. rewrite <- (CL p' c H). split; [|auto]. intros [E|X]; [|exact X]. injection E as E _. specialize (RQ p' H). lia.
  - rewrite cancelled_cons, CN. split; [auto|intros [E|X]; [discriminate E|exact X]].
  - split; [|exact PR]. cbn [allowed]. split; [exact NF|]. rewrite <- CN, NC. discriminate.
  - congruence.
Qed.

(** ** The queue is cancelled. *)
Lemma acct_cancel a x :
  Acct a -> cancel a = false ->
  (forall p', p' <> 0%N -> occ p' (bef x) = occ p' (bef (th a 0)) + (if N.eqb stop p' then 1 else 0)) ->
  (forall p', p' <> 0%N -> occ p' (aft x) = occ p' (aft (th a 0))) ->
  Acct (put_th 0 x (emit Cancelled (set_cancel true a))).
Proof.
  intros C NC BX AX. set (b := emit _ _). set (a' := put_th 0 x b).
  assert (NB : forall p', p' <> 0%N -> nB a' p' = nB a p' + (if N.eqb stop p' then 1 else 0)).
  { intros p' P0. unfold IoqInv.nB. pose proof (thB_put workers b 0 x p' ltac:(lia)) as T. change (thB workers b p') with (thB workers a p') in T. change (th b 0) with (th a 0) in T.
    change (slN depth a' Pending p') with (slN depth a Pending p'). rewrite (BX p' P0) in T. subst a'. lia. }
  assert (NA : forall p', p' <> 0%N -> nA a' p' = nA a p').
  { intros p' P0. unfold IoqInv.nA. pose proof (thA_put workers b 0 x p' ltac:(lia)) as T. change (thA workers b p') with (thA workers a p') in T. change (th b 0) with (th a 0) in T.
    change (slN depth a' Ready p') with (slN depth a Ready p'). rewrite (AX p' P0) in T. subst a'. lia. }
  pose proof (stop_nz _ stop_ok) as SZ. destruct C as [ND OK CO DE OC ST NS HE RQ IJ CM RT AC OL CL CN PR CA].
  constructor; change (used a') with (used a); change (held a') with (held a); change (count a') with (count a); change (cancel a') with true; change (req a') with (req a); change (closes a') with (closes a); change (fresh a') with (fresh a); change (log a') with (Cancelled :: log a); try assumption.
  - intros p' P0' PS'. rewrite (NB p' P0'), (NA p' P0'). specialize (OC p' P0' PS'). destruct (N.eqb_spec stop p'); [congruence|]. lia.
  - rewrite (NB stop SZ), N.eqb_refl, ST, NC. reflexivity.
  - rewrite (NA stop SZ). exact NS.
  - intros p H. rewrite completed_cons. destruct (OK p H) as [V PS]. cbn [valid] in V. rewrite (NB p ltac:(lia)). destruct (N.eqb_spec stop p); [congruence|]. rewrite Nat.add_0_r, (CM p H). split; [intros [(t & ran & E)|X]; [discriminate E|exact X]|auto].
  - intros p H. rewrite returned_cons, (RT p H). split; [intros [E|X]; [discriminate E|exact X]|auto].
  - intros r. rewrite accepted_cons, AC. split; [intros [(c & E)|X]; [discriminate E|exact X]|auto].
  - intros r LR. destruct (OL r LR) as [H|[H1 H2]]; [left; exact H|right; split; [apply completed_cons; right; exact H1|apply returned_cons; right; exact H2]].
  - intros p c PU. cbn [In]. rewrite <- (CL p c PU). split; [intros [EE|H]; [discriminate EE|exact H]|auto].
  - split; [intros _; left; reflexivity|reflexivity].
  - split; [|exact PR]. cbn [allowed]. rewrite <- CN, NC. discriminate.
  - intros _. destruct (Forall_Exists_dec (fun p => nB a p = 0) (fun p => Nat.eq_dec (nB a p) 0) (used a)) as [F|F].
    + right. intros p P0 PS. rewrite (NB p P0). destruct (N.eqb_spec stop p); [congruence|]. destruct (in_dec N.eq_dec p (used a)) as [I|NI].
      * rewrite Forall_forall in F. rewrite (F p I). reflexivity.
      * specialize (OC p P0 PS). rewrite occ_in in NI. lia.
    + left. apply Exists_exists in F. destruct F as (p & U & NZ). exists [], (log a), (req a p). split; [reflexivity|]. split; [apply AC, RQ, U|]. rewrite (CM p U). exact NZ.
Qed.

(** ** Every step *)
Lemma acct_worker a t a' : shapes a -> Acct a -> t <= workers -> job (th a t) = Rest -> worker_step t a = Some a' -> Acct a'.
Proof.
  intros H C L J W. pose proof (H t) as (P0 & D0 & S). rewrite J in S. unfold IoqModel.worker_step in W.
  assert (FL : forall q l p, occ p (match flush q l with Push Pending todo _ _ _ => todo | Pop Pending got _ _ _ _ => got | _ => [] end) = if which_eqb q Pending then occ p l else 0) by (intros q l p; destruct l, q; reflexivity).
  assert (FA : forall q l p, occ p (match flush q l with Push Ready todo _ _ _ => todo | Pop Ready got _ _ _ _ => got | _ => [] end) = if which_eqb q Ready then occ p l else 0) by (intros q l p; destruct l, q; reflexivity).
  destruct (at_ (th a t)) eqn:AT; try (injection W as <-; exact C).
  - destruct (pend (th a t)) as [|e r] eqn:P; injection W as <-; apply acct_thread; try assumption; intros p _; unfold bef, aft; rewrite ?P, ?J; cbn [pend job done]; rewrite ?occ_app, ?FL, ?FA, ?occ_nil; cbn [which_eqb]; lia.
  - assert (Q : forall e r, pend (th a t) = e :: r -> 1 <= t <= workers -> (if (e =? stop)%N then Some (put_th t (Th (Push Pending [e] 0 0 Tickets) W_stopped r (done (th a t)) (spent (th a t))) a)
          else if batch <=? length (done (th a t) ++ [e])
            then Some (put_th t (Th (flush Ready (done (th a t) ++ [e])) W_top r [] (spent (th a t))) (emit (Complete (req a e) t (negb (cancel a) || closes a e)) a))
            else Some (put_th t (Th Rest W_top r (done (th a t) ++ [e]) (spent (th a t))) (emit (Complete (req a e) t (negb (cancel a) || closes a e)) a))) = Some a' -> Acct a').
    { clear W. intros e r P LT W. rewrite P in P0. assert (E0 : e <> 0%N) by (intros ->; apply P0; left; reflexivity). destruct (N.eqb_spec e stop) as [-> | NE].
      - injection W as <-. apply acct_thread; try assumption; intros p _; unfold bef, aft; rewrite ?P, ?J; cbn [pend job done]; rewrite ?occ_app, ?occ_cons, ?occ_nil; lia.
      - destruct (_ <=? _); injection W as <-; apply (acct_complete a t e r (done (th a t) ++ [e])); try assumption; try reflexivity; intros p _; unfold bef, aft; cbn [pend job done]; rewrite ?occ_app, ?FL, ?FA, ?occ_app, ?occ_nil; cbn [which_eqb]; lia. }
    destruct (pend (th a t)) as [|e r] eqn:P.
    + injection W as <-. apply acct_thread; try assumption; intros p _; unfold bef, aft; rewrite ?P, ?J; cbn [pend job done]; reflexivity.
    + apply (Q e r); [reflexivity|apply S|exact W].
  - assert (Q : forall e r, pend (th a t) = e :: r -> 1 <= t <= workers -> (if (e =? stop)%N then Some (put_th t (Th (Push Pending [e] 0 0 Tickets) W_stopped r (done (th a t)) (spent (th a t))) a)
          else if batch <=? length (done (th a t) ++ [e])
            then Some (put_th t (Th (flush Ready (done (th a t) ++ [e])) W_top r [] (spent (th a t))) (emit (Complete (req a e) t (negb (cancel a) || closes a e)) a))
            else Some (put_th t (Th Rest W_top r (done (th a t) ++ [e]) (spent (th a t))) (emit (Complete (req a e) t (negb (cancel a) || closes a e)) a))) = Some a' -> Acct a').
    { clear W. intros e r P LT W. rewrite P in P0. assert (E0 : e <> 0%N) by (intros ->; apply P0; left; reflexivity). destruct (N.eqb_spec e stop) as [-> | NE].
      - injection W as <-. apply acct_thread; try assumption; intros p _; unfold bef, aft; rewrite ?P, ?J; cbn [pend job done]; rewrite ?occ_app, ?occ_cons, ?occ_nil; lia.
      - destruct (_ <=? _); injection W as <-; apply (acct_complete a t e r (done (th a t) ++ [e])); try assumption; try reflexivity; intros p _; unfold bef, aft; cbn [pend job done]; rewrite ?occ_app, ?FL, ?FA, ?occ_app, ?occ_nil; cbn [which_eqb]; lia. }
    destruct (pend (th a t)) as [|e r] eqn:P; [discriminate W|]. apply (Q e r); [reflexivity|apply S|exact W].
  - destruct (asserts && _)%bool; [discriminate W|]. injection W as <-. apply acct_thread; try assumption; intros p _; unfold bef, aft; rewrite ?J; cbn [pend job done]; rewrite ?occ_app, ?FL, ?FA, ?occ_nil; cbn [which_eqb]; lia.
Qed.

Lemma acct_take a : shapes a -> Acct a -> job (th a 0) = Rest -> Acct (take (th a 0) a).
Proof.
  intros H C J. pose proof (H 0) as (P0 & D0 & S). unfold take. destruct (done (th a 0)) as [|e r] eqn:D.
  - apply acct_thread; [exact C|lia|..]; intros p _; unfold bef, aft; rewrite J; cbn [pend done job]; rewrite ?D; reflexivity.
  - apply (acct_return a e r); try assumption.
    + intros ->. apply D0. left. reflexivity.
    + intros p _. unfold bef. rewrite J. reflexivity.
    + intros p _. unfold aft. cbn [done job]. rewrite app_nil_r. reflexivity.
Qed.

Lemma acct_owner a o : shapes a -> Acct a -> job (th a 0) = Rest -> Acct (owner_step o a).
Proof.
  intros H C J. pose proof (H 0) as (P0 & D0 & S). unfold IoqModel.owner_step.
  assert (FL : forall q l p, occ p (match flush q l with Push Pending todo _ _ _ => todo | Pop Pending got _ _ _ _ => got | _ => [] end) = if which_eqb q Pending then occ p l else 0) by (intros q l p; destruct l, q; reflexivity).
  assert (FA : forall q l p, occ p (match flush q l with Push Ready todo _ _ _ => todo | Pop Ready got _ _ _ _ => got | _ => [] end) = if which_eqb q Ready then occ p l else 0) by (intros q l p; destruct l, q; reflexivity).
  destruct o as [p close| |block|p|].
  - destruct (cancel a) eqn:NC; [exact C|]. destruct (Nat.leb_spec depth (count a)); [exact C|]. destruct (usable stop p a) eqn:US; [|exact C].
    destruct (_ <=? _); rewrite <- NC; apply acct_accept; try assumption; intros p' _; unfold bef, aft; rewrite J; cbn [pend done job]; rewrite ?occ_app, ?FL, ?FA, ?occ_app, ?occ_cons, ?occ_nil; cbn [which_eqb]; lia.
  - apply acct_thread; [exact C|lia|..]; intros p' _; unfold bef, aft; rewrite J; cbn [pend done job]; rewrite ?occ_app, ?FL, ?FA, ?occ_nil; cbn [which_eqb]; lia.
  - destruct (pend (th a 0)) eqn:P; [|exact C]. destruct (count a =? 0); [exact C|]. destruct (done (th a 0)) eqn:D.
    + destruct (_ && _)%bool; (apply acct_thread; [exact C|lia|..]; intros p' _; unfold bef, aft; rewrite J, ?P, ?D; reflexivity).
    + apply acct_take; assumption.
  - destruct (existsb (N.eqb p) (held a)) eqn:E; [|exact C]. apply acct_free; [exact C|apply existsb_in, E].
  - destruct (cancel a) eqn:NC; [exact C|]. apply acct_cancel; try assumption; intros p' _; unfold bef, aft; rewrite J; cbn [pend done job]; rewrite ?occ_app, ?FL, ?FA, ?occ_app, ?occ_cons, ?occ_nil; cbn [which_eqb]; lia.
Qed.

Lemma acct_step t a a' : shapes a -> Acct a -> astep t a a' -> Acct a'.
Proof.
  intros H C A. destruct (le_lt_dec t workers) as [L|L]; [|rewrite (outside t a a' H L A); exact C].
  pose proof (H t) as (P0 & D0 & S).
  assert (JS : forall i, i mod size < size) by (intros i; apply Nat.mod_upper_bound; pose proof (size_pos depth); lia).
  destruct A.
  - apply (acct_same (put_th t (set_job (Push q todo (head a q) (length todo) Load) (th a t)) a)); try reflexivity; [|intros; split; reflexivity]. apply acct_thread; try assumption; intros p _; unfold bef, aft; rewrite H0; reflexivity.
  - apply (acct_same (put_th t (set_job (Pop q [] (tail a q) batch block Load) (th a t)) a)); try reflexivity; [|intros; split; reflexivity]. rewrite H0 in S. destruct S as (_ & _ & [(_ & _ & ->)|(E & _)] & _); [|discriminate E]. apply acct_thread; try assumption; intros p _; unfold bef, aft; rewrite H0; reflexivity.
  - rewrite H0 in S. destruct S as (S1 & S2 & S3 & S4). destruct todo as [|e r]; [cbn [length] in S2; lia|]. apply acct_slot; try assumption; try apply JS; intros p _; rewrite H1, !full_word by assumption; unfold bef, aft; rewrite H0; cbn [set_job pend done job]; rewrite ?occ_app; destruct q; cbn [which_eqb]; try reflexivity; destruct v as [|e'|n]; cbn [after_push hd] in H4; try discriminate H4; injection H4 as <-; cbn [is_skip fullv tl]; rewrite ?occ_cons; try lia; destruct (n =? 1)%N; cbn [fullv]; lia.
  - assert (FE : forall p, p <> 0%N -> fullv v p = occ p [entry_of v] + fullv v' p).
    { intros p NZ. destruct v as [|e|n]; cbn [after_pop] in H4; [destruct block; [discriminate H4|]| |destruct block; [discriminate H4|]]; injection H4 as <-; cbn [fullv entry_of]; rewrite occ_cons, occ_nil; [destruct (N.eqb_spec 0 p); [congruence|lia]|lia|destruct (N.eqb_spec 0 p); [congruence|lia]]. }
    apply acct_slot; try assumption; try apply JS; intros p NZ; specialize (FE p NZ); rewrite H1, !full_word by assumption; unfold bef, aft; rewrite H0; cbn [set_job pend done job]; rewrite ?occ_app; destruct q; cbn [which_eqb]; rewrite ?occ_app; lia.
  - apply acct_thread; try assumption; intros p _; unfold bef, aft; rewrite H0; cbn [set_job pend done job push_on]; destruct todo, q; reflexivity.
  - rewrite H0 in S. destruct S as (EP & ED & _ & S4). cbn [pop_on]. destruct q.
    + destruct (Nat.eqb_spec t 0); [lia|]. apply acct_thread; try assumption; intros p NZ; unfold bef, aft; rewrite H0; cbn [pend done job]; rewrite ?EP, ?app_nil_r; [apply occ_entries, NZ|reflexivity].
    + destruct S4 as (-> & _). cbn [Nat.eqb]. apply acct_thread; try assumption; intros p NZ; unfold bef, aft; rewrite H0; cbn [pend done job]; rewrite ?ED, ?app_nil_r; [reflexivity|apply occ_entries, NZ].
  - apply (acct_worker a t); assumption.
  - assert (t = 0) by (rewrite H0, H1 in S; exact S). subst t. apply acct_owner; assumption.
  - assert (t = 0) by (rewrite H0, H1 in S; exact S). subst t. apply acct_take; assumption.
Qed.
End Acct.
