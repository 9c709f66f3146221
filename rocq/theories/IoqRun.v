(** * The invariants of the I/O queue hold in all runs *)

From Coq Require Import List Arith NArith ZArith Bool Lia ZifyBool ZifyNat ZifyN.
Import ListNotations.
From Verif Require Import IoqModel IoqWords IoqSpec IoqCount IoqNorm IoqInv IoqAcct IoqTick IoqStop IoqSleep.

Section Run.
Variable depth workers bexp : nat.
Variable monitor : nat -> nat.
Variable stop : N.
Variable asserts : bool.
Hypothesis stop_ok : valid (Full stop).
Hypothesis workers_pos : 1 <= workers.

Local Notation size := (size depth).
Local Notation shapes := (shapes workers bexp stop asserts).
Local Notation Inv := (Inv depth workers bexp stop asserts).
Local Notation astep := (astep depth bexp stop asserts).
Local Notation asteps := (asteps depth bexp stop asserts).
Local Notation step := (step depth bexp monitor stop asserts).
Local Notation steps := (steps depth bexp monitor stop asserts).
Local Notation run := (run depth workers bexp monitor stop asserts).
Local Notation conc := (conc depth monitor).

Lemma inv_init : Inv (init workers).
Proof.
  assert (TB : forall p, IoqInv.nB depth workers (init workers) p = 0) by (intros p; unfold nB, thB, slN; rewrite !sum_0; [reflexivity|intros; reflexivity..]).
  assert (TA : forall p, IoqInv.nA depth workers (init workers) p = 0) by (intros p; unfold nA, thA, slN; rewrite !sum_0; [reflexivity|intros; reflexivity..]).
  constructor.
  - intros t. split; [intros []|split; [intros []|]]. cbn [init th job at_]. destruct (Nat.eqb_spec t 0); [assumption|]. destruct (Nat.leb_spec t workers); cbn; [lia|]. repeat split; auto; lia.
  - constructor; cbn [init used count held req closes fresh log cancel].
    + constructor.
    + intros p [].
    + reflexivity.
    + cbn. lia.
    + intros p _ _. fold (init workers). rewrite TB, TA. reflexivity.
    + fold (init workers). apply TB.
    + fold (init workers). rewrite TA. reflexivity.
    + intros [].
    + intros p [].
    + intros p p' [].
    + intros p [].
    + intros p [].
    + intros r. split; [intros (c & [])|lia].
    + intros r. lia.
    + intros p c [].
    + split; [discriminate|intros []].
    + exact I.
    + discriminate.
  - constructor; cbn [init head tail].
    + intros q j _. unfold upS, dnS. rewrite !sum_0 by reflexivity. reflexivity.
    + intros q. apply Nat.mod_0_l. pose proof (batch_gt0 bexp). lia.
    + intros t todo i more p J. discriminate J.
    + intros got i more block J. discriminate J.
    + intros _ got i more block J. discriminate J.
  - constructor; cbn [init cancel].
    + intros todo i more p J. discriminate J.
    + intros j _ E. discriminate E.
    + intros t T [E|E]; cbn [init th at_] in E; destruct (Nat.eqb_spec t 0); try lia; try discriminate; destruct (Nat.leb_spec t workers); try lia; discriminate.
    + intros t _ _ [].
    + intros _ f e _ E. discriminate E.
    + intros _ got i more block p J. discriminate J.
    + intros _ [].
    + intros _ E. cbn [init th at_ Nat.eqb] in E. destruct (1 <=? workers); discriminate E.
    + discriminate.
    + intros q j. exists Empty. split; [exact I|reflexivity].
Qed.

Lemma inv_step t a a' : Inv a -> astep t a a' -> Inv a'.
Proof.
  intros [H C K S] A. constructor.
  - apply (shapes_step depth workers bexp stop asserts stop_ok t a a' K H A).
  - apply (acct_step depth workers bexp stop asserts stop_ok t a a' H C A).
  - apply (tick_step depth workers bexp stop asserts stop_ok t a a' H C S K A).
  - apply (stp_step depth workers bexp stop asserts stop_ok workers_pos t a a' H C K S A).
Qed.

Lemma inv_steps t a a' : Inv a -> asteps t a a' -> Inv a'.
Proof. intros I A. induction A; [exact I|]. apply IHA. apply (inv_step t a a'); assumption. Qed.

Lemma inv_solid a : Inv a -> solid a.
Proof.
  intros [H C K S] t. pose proof (H t) as (_ & _ & SH). destruct (job (th a t)) as [|q todo i more p|] eqn:J; try exact I. destruct p; try exact I. intros G.
  destruct SH as (NZ & LE & _ & WH). destruct todo as [|e r]; [cbn in LE; lia|]. cbn [hd].
  assert (L : t <= workers) by (destruct q; [destruct WH as [(-> & _)|(? & _)]; lia|lia]).
  assert (E0 : e <> 0%N) by (intros ->; apply NZ; left; reflexivity).
  destruct (N.eq_dec e stop) as [-> | NE]; [exact stop_ok|]. apply (c_ok _ _ _ _ C e). apply (used_of depth workers stop a e C E0 NE).
  destruct q.
  - pose proof (in_bef_used depth workers stop a t e C L E0) as X. unfold bef in X. rewrite J in X. specialize (X ltac:(apply in_or_app; right; left; reflexivity)). lia.
  - pose proof (in_aft_used depth workers stop a t e C L E0) as X. unfold aft in X. rewrite J in X. specialize (X ltac:(apply in_or_app; right; left; reflexivity)). lia.
Qed.

Lemma inv_todo a : Inv a -> todo_left a.
Proof.
  intros [H C K S] t q todo i more J. pose proof (H t) as (_ & _ & SH). rewrite J in SH. destruct SH as (_ & _ & [(_ & _ & X)|X] & _); [exact X|discriminate X].
Qed.

(** A worker that has seen the stop request has no other one *)
Definition gone (a : st) : Prop := forall t, at_ (th a t) = W_stopped -> ~ In stop (pend (th a t)).

Lemma gone_put t x a a' : gone a' -> (at_ x = W_stopped -> ~ In stop (pend x)) -> th a = th a' -> gone (put_th t x a).
Proof.
  intros G X E u. cbn [put_th set_th th]. unfold upd. destruct (u =? t); [exact X|]. rewrite E. apply G.
Qed.

Lemma gone_step t a a' : Inv a -> gone a -> astep t a a' -> gone a'.
Proof.
  intros [H C K SP] G A. destruct A as [q todo i more J|q got i more block J|q todo i more v v' J _ _ _ _ _|q got i more block v v' J _ _ _ _ _|q todo i J|q got i block J|a' J _ _ WS|o J AT|J AT].
  - apply (gone_put _ _ _ a G); [apply G|reflexivity].
  - apply (gone_put _ _ _ a G); [apply G|reflexivity].
  - apply (gone_put _ _ _ a G); [apply G|reflexivity].
  - apply (gone_put _ _ _ a G); [apply G|reflexivity].
  - apply (gone_put _ _ _ a G); [apply G|reflexivity].
  - apply (gone_put _ _ _ a G); [|reflexivity]. cbn [pop_on]. destruct (t =? 0); cbn [at_]; discriminate.
  - unfold worker_step in WS. destruct (H t) as (_ & _ & SH). rewrite J in SH.
    assert (TK : at_ (th a t) = W_take \/ at_ (th a t) = W_filled -> 1 <= t <= workers) by (intros [E|E]; rewrite E in SH; lia).
    assert (HD : at_ (th a t) = W_take \/ at_ (th a t) = W_filled -> forall r, pend (th a t) = stop :: r -> ~ In stop r).
    { intros E r P IR. pose proof (in_bef_used depth workers stop a t stop C) as X. pose proof (stop_one depth workers stop a C) as O.
      pose proof (sum_get (fun v => occ stop (bef (th a v))) (S workers) t ltac:(lia)) as GT. cbv beta in GT. unfold nB, thB in O.
      assert (2 <= occ stop (bef (th a t))); [|lia]. unfold bef. rewrite P, J, app_nil_r, occ_cons, N.eqb_refl. apply occ_in in IR. lia. }
    destruct (at_ (th a t)) eqn:AT.
    + injection WS as <-. exact G.
    + injection WS as <-. exact G.
    + destruct (pend (th a t)); injection WS as <-; apply (gone_put _ _ _ a G); try reflexivity; discriminate.
    + destruct (pend (th a t)) as [|e r] eqn:P; [injection WS as <-; apply (gone_put _ _ _ a G); try reflexivity; discriminate|]. destruct (N.eqb_spec e stop) as [E|NE].
      * injection WS as <-. apply (gone_put _ _ _ a G); [|reflexivity]. intros _. cbn [pend]. apply HD; [auto|congruence].
      * destruct (_ <=? _); injection WS as <-; apply (gone_put _ _ _ a G); try reflexivity; discriminate.
    + destruct (pend (th a t)) as [|e r] eqn:P; [discriminate WS|]. destruct (N.eqb_spec e stop) as [E|NE].
      * injection WS as <-. apply (gone_put _ _ _ a G); [|reflexivity]. intros _. cbn [pend]. apply HD; [auto|congruence].
      * destruct (_ <=? _); injection WS as <-; apply (gone_put _ _ _ a G); try reflexivity; discriminate.
    + destruct (_ && _)%bool; [discriminate WS|]. injection WS as <-. apply (gone_put _ _ _ a G); try reflexivity; discriminate.
    + injection WS as <-. exact G.
  - destruct o as [p close| |block|p|]; cbn [owner_step].
    + destruct (cancel a); [exact G|]. destruct (_ <=? _); [exact G|]. destruct (usable stop p a); [|exact G]. destruct (_ <=? _); apply (gone_put _ _ _ a G); try reflexivity; discriminate.
    + apply (gone_put _ _ _ a G); try reflexivity; discriminate.
    + destruct (pend (th a 0)); [|exact G]. destruct (_ =? _); [exact G|]. unfold take. destruct (done (th a 0)); [|apply (gone_put _ _ _ a G); try reflexivity; discriminate]. destruct (_ && _)%bool; apply (gone_put _ _ _ a G); try reflexivity; discriminate.
    + destruct (existsb _ _); exact G.
    + destruct (cancel a); [exact G|]. apply (gone_put _ _ _ a G); try reflexivity; discriminate.
  - unfold take. destruct (done (th a t)); apply (gone_put _ _ _ a G); try reflexivity; discriminate.
Qed.

Lemma gone_steps t a a' : Inv a -> gone a -> asteps t a a' -> gone a'.
Proof. intros I G A. induction A; [exact G|]. apply IHA; [apply (inv_step t a a'); assumption|apply (gone_step t a a'); assumption]. Qed.

(** What is known after [k] steps *)
Definition well (k : nat) (s a : st) : Prop := sim k s a /\ Inv a /\ busy s /\ conc s /\ gone a.

Lemma well_owner k s a t : well k s a -> at_ (th s t) = M_idle \/ at_ (th s t) = M_filled -> t = 0.
Proof.
  intros (M & IA & B & C & G) AT. pose proof (v_shape _ _ _ _ _ _ IA t) as (_ & _ & SH). rewrite (m_th _ _ _ M t) in SH. unfold normal in SH. cbn [set_job job pend done at_] in SH.
  destruct (norm (job (th s t))) as [|q todo i more p|q got i more block p].
  - destruct AT as [AT|AT]; rewrite AT in SH; exact SH.
  - destruct SH as (_ & _ & _ & SH). destruct q.
    + destruct SH as [(E & _)|(_ & E & _)]; [exact E|]. destruct AT; congruence.
    + destruct SH as (_ & _ & [E|[(E & _)|(E & _)]]); destruct AT; congruence.
  - destruct SH as (_ & _ & _ & SH). destruct q; [destruct SH as (_ & E & _); destruct AT; congruence|apply SH].
Qed.

Lemma well_step k s a t b o s' : (N.of_nat k < 2 ^ 61)%N -> well k s a -> step t b o s = Some s' -> exists a', well (S k) s' a'.
Proof.
  intros KB WL H. pose proof (well_owner k s a t WL) as Z. destruct WL as (M & IA & B & C & G).
  pose proof (step_sim depth bexp monitor stop asserts k s a t b o KB M (inv_solid a IA) B Z) as SS. rewrite H in SS. destruct SS as (a' & AS & M').
  exists a'. split; [exact M'|]. split; [apply (inv_steps t a a' IA AS)|]. split; [|split; [|apply (gone_steps t a a' IA G AS)]].
  - apply (busy_step depth bexp monitor stop asserts t b o s s' k a M (inv_todo a IA) B H).
  - apply (conc_step depth bexp monitor stop asserts k s a t b o s' KB M (inv_solid a IA) B Z C H).
Qed.

Lemma well_steps l : forall k s a s', (N.of_nat (k + length l) <= 2 ^ 61)%N -> well k s a -> steps l s = Some s' -> exists a', well (k + length l) s' a'.
Proof.
  induction l as [|[[t b] o] l IH]; intros k s a s' KB WL H; cbn [IoqModel.steps length] in *.
  - injection H as <-. exists a. rewrite Nat.add_0_r. exact WL.
  - destruct (step t b o s) as [s1|] eqn:E; [|discriminate H]. destruct (well_step k s a t b o s1 ltac:(lia) WL E) as (a1 & WL1).
    destruct (IH (S k) s1 a1 s' ltac:(lia) WL1 H) as (a' & WL'). exists a'. replace (k + S (length l)) with (S k + length l) by lia. exact WL'.
Qed.

Lemma well_run l s : (N.of_nat (length l) <= 2 ^ 61)%N -> run l = Some s -> exists a, well (length l) s a.
Proof.
  intros KB H. apply (well_steps l 0 (init workers) (init workers) s KB); [|exact H].
  split; [apply sim_init|]. split; [apply inv_init|]. split; [intros t; exact I|]. split; [apply conc_init|]. intros t _ [].
Qed.
End Run.
