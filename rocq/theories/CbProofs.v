From Coq Require Import List ZArith NArith Arith Bool Lia ZifyBool ZifyNat ZifyN.
From Coq Require Import Init.Byte.
From Coq Require Strings.Byte.
From Verif Require Import TrieModel TrieSpec TrieRefine PwModel PwProofs CbModel CbSpec.
Import ListNotations.

Lemma le_bytes_length k : forall n, length (le_bytes k n) = k.
Proof. induction k; intros n; cbn; auto. Qed.
Lemma le_bytes_inj k : forall a b, (a < 256 ^ N.of_nat k)%N -> (b < 256 ^ N.of_nat k)%N -> le_bytes k a = le_bytes k b -> a = b.
Proof.
  induction k as [|k IH]; intros a b LA LB E.
  - cbn in LA, LB. lia.
  - cbn in E. injection E as E1 E2.
    assert (M : (a mod 256 = b mod 256)%N) by (rewrite <- !byte_of_value; now rewrite E1).
    rewrite Nat2N.inj_succ, N.pow_succ_r' in LA, LB.
    assert (D : (a / 256 = b / 256)%N).
    { apply IH; auto; apply N.div_lt_upper_bound; lia. }
    rewrite (N.div_mod a 256), (N.div_mod b 256) by lia. now rewrite D, M.
Qed.

Lemma stat_id_inj d i d' i' : (d < 2 ^ 64)%N -> (i < 2 ^ 64)%N -> (d' < 2 ^ 64)%N -> (i' < 2 ^ 64)%N ->
  stat_id d i = stat_id d' i' -> (d, i) = (d', i').
Proof.
  intros L1 L2 L3 L4 E. unfold stat_id in E.
  assert (E1 : le_bytes 8 d = le_bytes 8 d').
  { apply (f_equal (firstn 8)) in E. rewrite !firstn_app, !le_bytes_length, Nat.sub_diag, !firstn_O, !app_nil_r in E.
    rewrite !firstn_all2 in E by (rewrite le_bytes_length; lia). exact E. }
  rewrite E1 in E. apply app_inv_head in E.
  f_equal; apply (le_bytes_inj 8); auto; assumption.
Qed.

Section Unique.
Variable omax : nat.
Hypothesis Homax : 1 <= omax.

Definition K16 (k : key) : Prop := length k = 16.
Lemma K16_ok : prefix_free_keys K16.
Proof.
  split; [intros k L ->; discriminate|]. intros a b LA LB P. apply (prefix_eq_len omax); [exact Homax|auto|]. unfold K16 in *. lia.
Qed.

Definition none (k : key) : option unit := None.

(** The trie holds the identities that were met; a leaf without a value is one of a failed call. *)
Definition Uinv (seen : trie) (ids : list (N * N)) : Prop :=
  exists es, Tinv unit omax K16 none [] seen es /\
    (forall e, In e es -> e_val e <> 0%N -> exists d i, In (d, i) ids /\ e_key e = stat_id d i) /\
    (forall d i, In (d, i) ids -> (d < 2 ^ 64 /\ i < 2 ^ 64)%N /\ exists e, In e es /\ e_val e <> 0%N /\ e_key e = stat_id d i).

Lemma agrees_value e : agrees unit none [] e -> e_val e <> 0%N -> e_val e = 1%N.
Proof. intros [A|[(A & _)|(i & x & _ & A & _)]] N; [contradiction|exact A|now destruct i]. Qed.

Lemma unique_ok c f w seen ids : Uinv seen ids -> fits (f, w) -> unique c = true ->
  exists seen' r ids', eval_callback omax c seen f w = Some (seen', r) /\ judged c ids (f, w) r ids' /\ Uinv seen' ids'.
Proof.
  intros U F UC. unfold eval_callback, judged. rewrite UC.
  destruct (is_error f); [do 3 eexists; split; [reflexivity|]; split; [split; reflexivity|exact U]|]. destruct (f_visit f); [|do 3 eexists; split; [reflexivity|]; split; [split; reflexivity|exact U]]. cbn [andb].
  unfold eval_file_unique. unfold fits in F. cbn [snd] in F. destruct (stat w) as [[d i]|]; [|do 3 eexists; split; [reflexivity|]; split; [split; reflexivity|exact U]].
  destruct U as (es & T & U1 & U2).
  assert (KK : K16 (stat_id d i)) by (unfold K16, stat_id; rewrite app_length, !le_bytes_length; reflexivity).
  destruct (insert_case unit omax Homax K16 none [] seen es (mem w) (stat_id d i) K16_ok T KK)
    as (tr & es' & r & -> & T' & KP & KP' & [(e & -> & IE & EK & UE)|(-> & NM & UE)]).
  - rewrite (value_of unit omax K16 none [] tr es' e T' IE). destruct (N.eqb_spec (e_val e) 0) as [V0|NZ]; cbn [negb].
    + (* the first time *)
      destruct (set_leaf_inv unit omax K16 none [] [] tr es' e 1 T' IE) as (T2 & KP2 & IN).
      { intros x IX _. apply T', IX. }
      { right. left. split; reflexivity. }
      { exact V0. }
      assert (NI : ~ In (d, i) ids).
      { intros I. destruct (U2 d i I) as (_ & e0 & I0 & NZ & K0). rewrite <- EK in K0. rewrite EK in K0.
        rewrite <- (UE e0 I0 K0) in NZ. contradiction. }
      do 3 eexists. split; [reflexivity|]. split; [right; left; auto|].
      exists (set_id (e_id e) 1 es'). split; [exact T2|]. split.
      * intros x X NZ. unfold set_id in X. apply in_map_iff in X. destruct X as (y & E & IY).
        destruct (Nat.eqb_spec (e_id y) (e_id e)) as [EI|].
        -- exists d, i. split; [now left|]. subst x. cbn [e_key].
           rewrite <- EK. f_equal. destruct T' as ((_ & _ & _ & ND) & _). eapply id_unique; eauto.
        -- subst y. destruct (U1 x (KP' x IY NZ) NZ) as (d' & i' & I & E'). exists d', i'. split; [now right|exact E'].
      * intros d' i' [E|I].
        -- injection E as <- <-. split; [exact F|]. eexists. split; [exact IN|]. cbn [e_val e_key]. split; [discriminate|exact EK].
        -- destruct (U2 d' i' I) as (F' & e0 & I0 & NZ & K0). split; [exact F'|]. exists e0. split; [|auto]. apply KP2; auto.
    + (* met before *)
      destruct (U1 e (KP' e IE NZ) NZ) as (d' & i' & I & E').
      destruct (U2 d' i' I) as (F' & _).
      assert (E2 : (d, i) = (d', i')) by (apply stat_id_inj; try tauto; congruence).
      injection E2 as <- <-. do 3 eexists. split; [reflexivity|]. split; [left; auto|].
      exists es'. split; [exact T'|]. split.
      * intros x X NX. apply U1; auto.
      * intros a b IA. destruct (U2 a b IA) as (Fa & e0 & I0 & N0 & K0). split; [exact Fa|]. exists e0. auto.
  - do 3 eexists. split; [reflexivity|]. split.
    + right. right. split; [|auto]. intros I. destruct (U2 d i I) as (_ & e0 & I0 & _ & K0). apply (UE e0 I0 K0).
    + exists es'. split; [exact T'|]. split.
      * intros x X NX. apply U1; auto.
      * intros a b IA. destruct (U2 a b IA) as (Fa & e0 & I0 & N0 & K0). split; [exact Fa|]. exists e0. auto.
Qed.

Lemma unique_all c calls : unique c = true -> Forall fits calls -> forall seen ids, Uinv seen ids ->
  exists rs, callbacks omax c seen calls = Some rs /\ judged_all c ids calls rs.
Proof.
  intros UC. induction 1 as [|[f w] calls F FS IH]; intros seen ids U; [exists []; split; [reflexivity|constructor]|].
  destruct (unique_ok c f w seen ids U F UC) as (seen' & r & ids' & E & J & U').
  destruct (IH seen' ids' U') as (rs & E2 & J2). cbn [callbacks]. rewrite E, E2. eexists. split; [reflexivity|].
  econstructor; eauto.
Qed.

Lemma Uinv_init : Uinv trie_init [].
Proof. exists []. split; [apply empty_Tinv; reflexivity|]. split; easy. Qed.
End Unique.

Lemma unique_histories omax : 1 <= omax -> forall c calls, unique c = true -> Forall fits calls ->
  exists rs, callbacks omax c trie_init calls = Some rs /\ judged_all c [] calls rs.
Proof. intros H c calls U F. eapply unique_all; eauto. now apply Uinv_init. Qed.

Lemma judged_met c : forall calls rs ids, judged_all c ids calls rs -> Forall plenty calls ->
  forall i fw r id, nth_error calls i = Some fw -> nth_error rs i = Some r -> subject fw = Some id ->
  (In id ids \/ met (firstn i calls) id -> r = (Duplicate, Prune)) /\
  (~ (In id ids \/ met (firstn i calls) id) -> r = eval_file c (fst fw) (snd fw)).
Proof.
  assert (SC : forall fw, plenty fw -> scarce fw -> False).
  { intros fw (A & B & C) [D|[(n & D)|D]]; [congruence| |congruence]. rewrite B in D. discriminate. }
  intros calls rs ids J. induction J as [ids|ids fw0 r0 ids' calls rs J0 J IH]; intros P i fw r id E1 E2 S; [now destruct i|].
  inversion P as [|? ? P0 P1]; subst. destruct i as [|i].
  - cbn in E1, E2. injection E1 as ->. injection E2 as ->. destruct fw as [f w]. cbn [firstn fst snd].
    unfold subject in S. unfold judged in J0. destruct (is_error f); [discriminate|]. destruct (f_visit f); [|discriminate].
    rewrite S in J0. destruct J0 as [(A & B & _)|[(A & B & _)|(A & B & _)]].
    + split; [auto|]. intros N. exfalso. apply N. auto.
    + split; [|auto]. intros [I|(x & [] & _)]. contradiction.
    + exfalso. eapply SC; eauto.
  - cbn in E1, E2. destruct (IH P1 i fw r id E1 E2 S) as (IH1 & IH2).
    assert (EQ : In id ids \/ met (firstn (Datatypes.S i) (fw0 :: calls)) id <-> In id ids' \/ met (firstn i calls) id).
    { cbn [firstn]. assert (X : In id ids \/ subject fw0 = Some id <-> In id ids').
      { clear -J0 P0 SC. destruct fw0 as [f w]. unfold judged in J0. unfold subject.
        destruct (is_error f); [destruct J0 as (_ & ->); intuition discriminate|].
        destruct (f_visit f); [|destruct J0 as (_ & ->); intuition discriminate].
        destruct (stat w) as [id0|]; [|destruct J0 as (_ & ->); intuition discriminate].
        destruct J0 as [(A & _ & ->)|[(A & _ & ->)|(_ & A & _)]].
        - split; [intros [I|[= <-]]; auto|auto].
        - cbn. split; [intros [I|[= <-]]; auto|intros [<-|I]; auto].
        - exfalso. eapply SC; eauto. }
      rewrite <- X. unfold met. split.
      - intros [I|(x & [<-|I] & SX)]; eauto.
      - intros [[I|SX]|(x & I & SX)]; [auto|right; exists fw0; split; [now left|auto]|right; exists x; split; [now right|auto]]. }
    split; intros H; [apply IH1|apply IH2]; rewrite <- EQ; exact H.
Qed.

Lemma callbacks_length omax c : forall calls seen rs, callbacks omax c seen calls = Some rs -> length rs = length calls.
Proof.
  induction calls as [|[f w] calls IH]; intros seen rs E; cbn in E; [injection E as <-; reflexivity|].
  destruct (eval_callback omax c seen f w) as [[s r]|]; [|discriminate].
  destruct (callbacks omax c s calls) as [rs'|] eqn:E2; [|discriminate]. injection E as <-. cbn. f_equal. eapply IH; eauto.
Qed.

Lemma unique_first omax : 1 <= omax -> forall c calls, unique c = true -> Forall fits calls -> Forall plenty calls ->
  exists rs, callbacks omax c trie_init calls = Some rs /\ length rs = length calls /\
  forall i fw r id, nth_error calls i = Some fw -> nth_error rs i = Some r -> subject fw = Some id ->
    (met (firstn i calls) id -> r = (Duplicate, Prune)) /\
    (~ met (firstn i calls) id -> r = eval_file c (fst fw) (snd fw)).
Proof.
  intros H c calls U F P. destruct (unique_histories omax H c calls U F) as (rs & E & J). exists rs. split; [exact E|].
  split; [eapply callbacks_length; eauto|]. intros i fw r id E1 E2 S.
  destruct (judged_met c calls rs [] J P i fw r id E1 E2 S) as (A & B). split; [auto|]. intros N. apply B. intros [[]|M]. auto.
Qed.
