(** * Invariants of the I/O queue: tickets *)

From Coq Require Import List Arith NArith ZArith Bool Lia ZifyBool ZifyNat ZifyN.
Import ListNotations.
From Verif Require Import IoqModel IoqWords IoqSpec IoqCount IoqNorm IoqInv IoqAcct.

(** A task that has no tickets *)
Definition still (j : task) : Prop :=
  match j with
  | Rest => True
  | Push _ _ _ more _ => more = 0
  | Pop _ _ _ more _ p => more = 0 /\ p = Tickets
  end.

Lemma still_flush q l : still (flush q l).
Proof. destruct l; cbn; auto. Qed.

Section Tick.
Variable depth workers bexp : nat.
Variable stop : N.
Variable asserts : bool.
Hypothesis stop_ok : valid (Full stop).

Local Notation size := (size depth).
Local Notation batch := (batch bexp).
Local Notation shapes := (shapes workers bexp stop asserts).
Local Notation nB := (nB depth workers).
Local Notation nA := (nA depth workers).
Local Notation Acct := (Acct depth workers stop).
Local Notation Tick := (Tick depth workers bexp).
Local Notation Stp := (Stp depth workers stop).
Local Notation worker_step := (worker_step bexp stop asserts).
Local Notation owner_step := (owner_step depth bexp stop).
Local Notation astep := (astep depth bexp stop asserts).

(** ** Who may have [stop] *)
Lemma stop_one a : Acct a -> nB a stop <= 1.
Proof. intros C. rewrite (c_stop _ _ _ _ C). destruct (cancel a); lia. Qed.

Lemma stop_two a t u : Acct a -> t <= workers -> u <= workers -> t <> u -> In stop (bef (th a t)) -> In stop (bef (th a u)) -> False.
Proof.
  intros C T U NE A B. pose proof (stop_one a C) as O. unfold IoqInv.nB, thB in O. pose proof (sum_get2 (fun v => occ stop (bef (th a v))) (S workers) t u ltac:(lia) ltac:(lia) NE) as G. cbv beta in G. apply occ_in in A, B. lia.
Qed.

Lemma stop_slot a t j : Acct a -> t <= workers -> j < size -> In stop (bef (th a t)) -> see (slots a Pending j) = Full stop -> False.
Proof.
  intros C T J A B. pose proof (stop_one a C) as O. unfold IoqInv.nB, thB, slN in O. pose proof (sum_get (fun v => occ stop (bef (th a v))) (S workers) t ltac:(lia)) as G. pose proof (sum_get (fun j => full (slots a Pending j) stop) size j J) as F. cbv beta in G, F. apply occ_in in A. unfold full at 1 in F. rewrite B, N.eqb_refl in F. lia.
Qed.

Lemma stop_cancel a t : Acct a -> t <= workers -> In stop (bef (th a t)) -> cancel a = true.
Proof.
  intros C T A. pose proof (in_bef_used depth workers stop a t stop C T (stop_nz _ stop_ok) A) as G. rewrite (c_stop _ _ _ _ C) in G. destruct (cancel a); [reflexivity|lia].
Qed.

Lemma pusher_stop a t todo i more p : shapes a -> Stp a -> cancel a = true -> job (th a t) = Push Pending todo i more p -> todo <> [] -> In stop (bef (th a t)).
Proof.
  intros H S CC J NE. pose proof (H t) as (_ & _ & SH). rewrite J in SH. destruct SH as (_ & _ & _ & [(-> & _)|(_ & _ & [-> | ->])]).
  - unfold bef. rewrite J. destruct (s_last _ _ _ _ S _ _ _ _ J CC) as [E|(l & ->)]; [contradiction|]. apply in_or_app. right. apply in_or_app. right. left. reflexivity.
  - unfold bef. rewrite J. apply in_or_app. right. left. reflexivity.
  - contradiction.
Qed.

Lemma sole a t u todo i more p todo' i' more' p' :
  shapes a -> Acct a -> Stp a ->
  job (th a t) = Push Pending todo i more p -> todo <> [] -> job (th a u) = Push Pending todo' i' more' p' -> todo' <> [] -> t = u.
Proof.
  intros H C S J N J' N'.
  assert (LT : forall t todo i more p, job (th a t) = Push Pending todo i more p -> t <= workers).
  { intros v td x y z JJ. pose proof (H v) as (_ & _ & SH). rewrite JJ in SH. destruct SH as (_ & _ & _ & [(-> & _)|(L & _)]); lia. }
  assert (CC : forall t todo i more p, job (th a t) = Push Pending todo i more p -> todo <> [] -> t <> 0 -> cancel a = true).
  { intros v td x y z JJ NN NZ. pose proof (LT _ _ _ _ _ JJ) as L. pose proof (H v) as (_ & _ & SH). rewrite JJ in SH. destruct SH as (_ & _ & _ & [(-> & _)|(_ & _ & [-> | ->])]); try contradiction.
    apply (stop_cancel a v C L). unfold bef. rewrite JJ. apply in_or_app. right. left. reflexivity. }
  destruct (Nat.eq_dec t u) as [E|NE]; [exact E|exfalso].
  assert (CT : cancel a = true).
  { destruct (Nat.eq_dec t 0) as [-> | NZ]; [apply (CC u _ _ _ _ J' N'); lia|apply (CC t _ _ _ _ J N NZ)]. }
  apply (stop_two a t u C (LT _ _ _ _ _ J) (LT _ _ _ _ _ J') NE); eapply pusher_stop; eassumption.
Qed.

(** ** Steps without tickets *)
Lemma tick_still a a' t x :
  Tick a -> t <= workers -> (forall q j, up depth q (th a t) j = 0 /\ dn depth q (th a t) j = 0) -> still (job x) ->
  (forall u, th a' u = th (put_th t x a) u) -> slots a' = slots a -> head a' = head a -> tail a' = tail a -> Tick a'.
Proof.
  intros [EQ MD KH KT KO] L Z ST TH ES EH ET.
  assert (ZX : forall q j, up depth q x j = 0 /\ dn depth q x j = 0).
  { intros q j. unfold up, dn. destruct (job x); cbn [still] in ST; [auto| |destruct ST as [ST _]]; subst; rewrite Nat.add_0_r; destruct (which_eqb _ _); split; lia. }
  assert (TT : forall u, job (th a' u) = if u =? t then job x else job (th a u)).
  { intros u. rewrite TH. cbn [put_th set_th th]. unfold upd. destruct (u =? t); reflexivity. }
  constructor.
  - intros q j J. rewrite ES, EH, ET. specialize (EQ q j J).
    assert (U : upS depth workers a' q j = upS depth workers (put_th t x a) q j) by (apply sum_ext; intros u _; rewrite TH; reflexivity).
    assert (D : dnS depth workers a' q j = dnS depth workers (put_th t x a) q j) by (apply sum_ext; intros u _; rewrite TH; reflexivity).
    pose proof (upS_put depth workers a t x q j L). pose proof (dnS_put depth workers a t x q j L). destruct (Z q j), (ZX q j). lia.
  - rewrite ET. exact MD.
  - intros u todo i more p J. rewrite TT in J. rewrite EH. destruct (u =? t); [|apply (KH u todo i more p J)]. rewrite J in ST. cbn [still] in ST. lia.
  - intros got i more block J. rewrite TT in J. rewrite ET. destruct (0 =? t); [|apply (KT got i more block J)]. rewrite J in ST. cbn [still] in ST. destruct ST as [_ E]. discriminate E.
  - intros W1 got i more block J. rewrite TT in J. rewrite ET. destruct (1 =? t); [|apply (KO W1 got i more block J)]. rewrite J in ST. cbn [still] in ST. destruct ST as [_ E]. discriminate E.
Qed.

Definition quiet_change (t : nat) (a a' : st) : Prop :=
  slots a' = slots a /\ head a' = head a /\ tail a' = tail a /\
  exists x, (forall u, th a' u = th (put_th t x a) u) /\ still (job x).

Lemma quiet_refl t a : job (th a t) = Rest -> quiet_change t a a.
Proof.
  intros J. split; [reflexivity|split; [reflexivity|split; [reflexivity|]]]. exists (th a t). split; [|rewrite J; exact I].
  intros u. cbn [put_th set_th th]. unfold upd. destruct (Nat.eqb_spec u t); subst; reflexivity.
Qed.

Lemma worker_quiet t a a' : job (th a t) = Rest -> worker_step t a = Some a' -> quiet_change t a a'.
Proof.
  intros J H. unfold IoqModel.worker_step in H.
  repeat (match type of H with context [match ?x with _ => _ end] => destruct x; try discriminate H end); injection H as <-; try (apply quiet_refl, J);
    (split; [reflexivity|split; [reflexivity|split; [reflexivity|]]]; eexists; split; [intros u; reflexivity|cbn [job]; try apply still_flush; cbn [still]; auto]).
Qed.

Lemma take_quiet a x : job x = Rest -> quiet_change 0 a (take x a).
Proof. intros J. unfold take. destruct (done x); (split; [reflexivity|split; [reflexivity|split; [reflexivity|]]]; eexists; split; [intros u; reflexivity|exact I]). Qed.

Lemma owner_quiet o a : job (th a 0) = Rest -> quiet_change 0 a (owner_step o a).
Proof.
  intros J. unfold IoqModel.owner_step. destruct o as [p close| |block|p|].
  - destruct (cancel a); [apply quiet_refl, J|]. destruct (depth <=? count a); [apply quiet_refl, J|]. destruct (usable _ _ _); [|apply quiet_refl, J].
    destruct (_ <=? _); (split; [reflexivity|split; [reflexivity|split; [reflexivity|]]]; eexists; split; [intros u; reflexivity|cbn [job]; try apply still_flush; exact I]).
  - split; [reflexivity|split; [reflexivity|split; [reflexivity|]]]; eexists; split; [intros u; reflexivity|apply still_flush].
  - destruct (pend (th a 0)); [|apply quiet_refl, J]. destruct (count a =? 0); [apply quiet_refl, J|]. destruct (done (th a 0)); [|apply take_quiet, J].
    destruct (_ && _)%bool; (split; [reflexivity|split; [reflexivity|split; [reflexivity|]]]; eexists; split; [intros u; reflexivity|cbn; auto]).
  - destruct (existsb _ _); [|apply quiet_refl, J]. split; [reflexivity|split; [reflexivity|split; [reflexivity|]]]. exists (th a 0). split; [|rewrite J; exact I].
    intros u. cbn [put_th set_used set_th th]. unfold upd. destruct (Nat.eqb_spec u 0); subst; reflexivity.
  - destruct (cancel a); [apply quiet_refl, J|]. split; [reflexivity|split; [reflexivity|split; [reflexivity|]]]. eexists; split; [intros u; reflexivity|apply still_flush].
Qed.

Lemma rest_none a t : job (th a t) = Rest -> forall q j, up depth q (th a t) j = 0 /\ dn depth q (th a t) j = 0.
Proof. intros J q j. unfold up, dn. rewrite J. auto. Qed.

Lemma worth_push e v v' : valid v -> after_push e v = Some v' -> (worth v' = worth v + 1)%Z.
Proof. destruct v as [|x|n]; cbn [after_push]; intros V E; inversion E; subst; [reflexivity|]. cbn [valid] in V. destruct (N.eqb_spec n 1); subst; cbn [worth]; lia. Qed.
Lemma worth_pop b v v' : after_pop b v = Some v' -> (worth v' = worth v - 1)%Z.
Proof. destruct v as [|x|n]; cbn [after_pop]; intros E; try destruct b; inversion E; subst; cbn [worth]; lia. Qed.

Lemma cnt_take i more j : 0 < more -> cnt size (S i + pred more) j - cnt size (S i) j + (if i mod size =? j then 1 else 0) = cnt size (i + more) j - cnt size i j.
Proof. intros H. replace (S i + pred more) with (i + more) by lia. pose proof (cnt_mono size (S i) (i + more) j ltac:(lia)). rewrite cnt_S in *. lia. Qed.

Lemma job_put t x a u : job (th (put_th t x a) u) = if u =? t then job x else job (th a u).
Proof. cbn [put_th set_th th]. unfold upd. destruct (u =? t); reflexivity. Qed.

Lemma tick_step t a a' : shapes a -> Acct a -> Stp a -> Tick a -> astep t a a' -> Tick a'.
Proof.
  intros H C SP K A. destruct (le_lt_dec t workers) as [L|L]; [|rewrite (outside workers bexp stop asserts t a a' H L A) || (pose proof A as A0; apply outside with (workers := workers) in A0; [subst a'|assumption..]); exact K].
  pose proof (H t) as (P0 & D0 & SH). destruct A.
  - rewrite H0 in SH. destruct SH as (_ & LE & [(_ & M0 & NE)|E] & WH); [|discriminate E]. subst more.
    set (x := set_job _ _). destruct K as [EQ MD KH KT KO]. constructor.
    + intros q0 j J. specialize (EQ q0 j J). set (b := set_head _ a).
      pose proof (upS_put depth workers b t x q0 j L) as U. pose proof (dnS_put depth workers b t x q0 j L) as D.
      change (upS depth workers b q0 j) with (upS depth workers a q0 j) in U. change (dnS depth workers b q0 j) with (dnS depth workers a q0 j) in D. change (th b t) with (th a t) in *.
      unfold up in U. unfold dn in D. rewrite H0 in U, D. unfold x at 2 in U. unfold x at 2 in D. cbn [set_job job] in U, D.
      change (slots (put_th t x b) q0 j) with (slots a q0 j). change (head (put_th t x b) q0) with (updq (head a) q (head a q + length todo) q0). change (tail (put_th t x b) q0) with (tail a q0).
      unfold updq. destruct (which_eqb_spec q0 q) as [-> | NQ].
      * destruct (which_eqb_spec q q); [|contradiction]. rewrite Nat.add_0_r in U. pose proof (cnt_mono size (head a q) (head a q + length todo) j ltac:(lia)). lia.
      * destruct (which_eqb_spec q q0); [congruence|]. lia.
    + exact MD.
    + intros u todo' i' more' p' J G. rewrite job_put in J. cbn [set_head th] in J. change (head (put_th t x (set_head (updq (head a) q (head a q + length todo)) a)) Pending) with (updq (head a) q (head a q + length todo) Pending). unfold updq. destruct (Nat.eqb_spec u t) as [-> | NU].
      * unfold x in J. cbn [set_job job] in J. injection J as -> _ <- <- _. reflexivity.
      * destruct (which_eqb_spec Pending q) as [<- | NQ]; [|apply (KH u todo' i' more' p' J G)]. exfalso. apply NU. pose proof (H u) as (_ & _ & SU). rewrite J in SU. destruct SU as (_ & LU & _).
        apply (sole a u t todo' i' more' p' todo i 0 Tickets); try assumption. intros ->. cbn in LU. lia.
    + intros got i' more' block J. rewrite job_put in J. destruct (0 =? t); [discriminate J|]. apply (KT got i' more' block J).
    + intros W1 got i' more' block J. rewrite job_put in J. destruct (1 =? t); [discriminate J|]. apply (KO W1 got i' more' block J).
  - rewrite H0 in SH. destruct SH as (_ & _ & [(_ & M0 & _)|(E & _)] & WH); [|discriminate E]. subst more.
    set (x := set_job _ _). destruct K as [EQ MD KH KT KO]. constructor.
    + intros q0 j J. specialize (EQ q0 j J). set (b := set_tail _ a).
      pose proof (upS_put depth workers b t x q0 j L) as U. pose proof (dnS_put depth workers b t x q0 j L) as D.
      change (upS depth workers b q0 j) with (upS depth workers a q0 j) in U. change (dnS depth workers b q0 j) with (dnS depth workers a q0 j) in D. change (th b t) with (th a t) in *.
      unfold up in U. unfold dn in D. rewrite H0 in U, D. unfold x at 2 in U. unfold x at 2 in D. cbn [set_job job] in U, D.
      change (slots (put_th t x b) q0 j) with (slots a q0 j). change (tail (put_th t x b) q0) with (updq (tail a) q (tail a q + batch) q0). change (head (put_th t x b) q0) with (head a q0).
      unfold updq. destruct (which_eqb_spec q0 q) as [-> | NQ].
      * destruct (which_eqb_spec q q); [|contradiction]. rewrite Nat.add_0_r in D. pose proof (cnt_mono size (tail a q) (tail a q + batch) j ltac:(lia)). lia.
      * destruct (which_eqb_spec q q0); [congruence|]. lia.
    + intros q0. change (tail (put_th t x (set_tail (updq (tail a) q (tail a q + batch)) a)) q0) with (updq (tail a) q (tail a q + batch) q0). unfold updq. destruct (which_eqb_spec q0 q) as [-> | ]; [|apply MD].
      pose proof (batch_gt0 bexp). replace (tail a q + batch) with (tail a q + 1 * batch) by lia. rewrite Nat.mod_add by lia. apply MD.
    + intros u todo' i' more' p' J G. rewrite job_put in J. destruct (u =? t); [discriminate J|]. apply (KH u todo' i' more' p' J G).
    + intros got' i' more' block' J. rewrite job_put in J. change (tail (put_th t x (set_tail (updq (tail a) q (tail a q + batch)) a)) Ready) with (updq (tail a) q (tail a q + batch) Ready). unfold updq. destruct (Nat.eqb_spec 0 t) as [<- | NT].
      * unfold x in J. cbn [set_job job] in J. injection J as -> _ <- <- _. reflexivity.
      * destruct (which_eqb_spec Ready q) as [<- | NQ]; [destruct WH as [-> _]; congruence|]. apply (KT got' i' more' block' J).
    + intros W1 got' i' more' block' J. rewrite job_put in J. change (tail (put_th t x (set_tail (updq (tail a) q (tail a q + batch)) a)) Pending) with (updq (tail a) q (tail a q + batch) Pending). unfold updq. destruct (Nat.eqb_spec 1 t) as [<- | NT].
      * unfold x in J. cbn [set_job job] in J. injection J as -> _ <- <- _. reflexivity.
      * destruct (which_eqb_spec Pending q) as [<- | NQ]; [lia|]. apply (KO W1 got' i' more' block' J).
  - set (x := set_job _ _). set (w := word v' false). destruct K as [EQ MD KH KT KO]. constructor; [..|exact MD| | |].
    + intros q0 j J. specialize (EQ q0 j J). set (b := put q (i mod size) w a).
      pose proof (upS_put depth workers b t x q0 j L) as U. pose proof (dnS_put depth workers b t x q0 j L) as D.
      change (upS depth workers b q0 j) with (upS depth workers a q0 j) in U. change (dnS depth workers b q0 j) with (dnS depth workers a q0 j) in D. change (th b t) with (th a t) in *.
      unfold up in U. unfold dn in D. rewrite H0 in U, D. unfold x at 2 in U. unfold x at 2 in D. cbn [set_job job] in U, D.
      change (slots (put_th t x b) q0 j) with (slots b q0 j). change (head (put_th t x b) q0) with (head a q0). change (tail (put_th t x b) q0) with (tail a q0).
      unfold b in *. rewrite slots_put. pose proof (cnt_take i more j H5) as CT. rewrite (Nat.eqb_sym j (i mod size)). destruct (which_eqb_spec q0 q) as [-> | NQ].
      * destruct (which_eqb_spec q q); [|contradiction]. destruct (Nat.eqb_spec (i mod size) j) as [<- | NJ]; cbn [andb].
        -- subst w. rewrite see_word by assumption. rewrite H1, see_word in EQ by assumption. pose proof (worth_push _ v v' H2 H4). lia.
        -- lia.
      * cbn [andb]. destruct (which_eqb_spec q q0); [congruence|]. lia.
    + intros u todo' i' more' p' J G. rewrite job_put in J. destruct (Nat.eqb_spec u t) as [-> | NU]; [|apply (KH u todo' i' more' p' J G)].
      unfold x in J. cbn [set_job job] in J. injection J as -> _ <- <- _. change (S i + pred more = head a Pending). rewrite <- (KH t _ _ _ _ H0 H5). lia.
    + intros got i' more' block J. rewrite job_put in J. destruct (0 =? t); [discriminate J|]. apply (KT got i' more' block J).
    + intros W1 got i' more' block J. rewrite job_put in J. destruct (1 =? t); [discriminate J|]. apply (KO W1 got i' more' block J).
  - set (x := set_job _ _). set (w := word v' false). destruct K as [EQ MD KH KT KO]. constructor; [..|exact MD| | |].
    + intros q0 j J. specialize (EQ q0 j J). set (b := put q (i mod size) w a).
      pose proof (upS_put depth workers b t x q0 j L) as U. pose proof (dnS_put depth workers b t x q0 j L) as D.
      change (upS depth workers b q0 j) with (upS depth workers a q0 j) in U. change (dnS depth workers b q0 j) with (dnS depth workers a q0 j) in D. change (th b t) with (th a t) in *.
      unfold up in U. unfold dn in D. rewrite H0 in U, D. unfold x at 2 in U. unfold x at 2 in D. cbn [set_job job] in U, D.
      change (slots (put_th t x b) q0 j) with (slots b q0 j). change (head (put_th t x b) q0) with (head a q0). change (tail (put_th t x b) q0) with (tail a q0).
      unfold b in *. rewrite slots_put. pose proof (cnt_take i more j H5) as CT. rewrite (Nat.eqb_sym j (i mod size)). destruct (which_eqb_spec q0 q) as [-> | NQ].
      * destruct (which_eqb_spec q q); [|contradiction]. destruct (Nat.eqb_spec (i mod size) j) as [<- | NJ]; cbn [andb].
        -- subst w. rewrite see_word by assumption. rewrite H1, see_word in EQ by assumption. pose proof (worth_pop _ v v' H4). lia.
        -- lia.
      * cbn [andb]. destruct (which_eqb_spec q q0); [congruence|]. lia.
    + intros u todo' i' more' p' J G. rewrite job_put in J. destruct (u =? t); [discriminate J|]. apply (KH u todo' i' more' p' J G).
    + intros got' i' more' block' J. rewrite job_put in J. destruct (Nat.eqb_spec 0 t) as [<- | NU]; [|apply (KT got' i' more' block' J)].
      unfold x in J. cbn [set_job job] in J. injection J as -> _ <- <- _. change (S i + pred more = tail a Ready). rewrite <- (KT _ _ _ _ H0). lia.
    + intros W1 got' i' more' block' J. rewrite job_put in J. destruct (Nat.eqb_spec 1 t) as [<- | NU]; [|apply (KO W1 got' i' more' block' J)].
      unfold x in J. cbn [set_job job] in J. injection J as -> _ <- <- _. change (S i + pred more = tail a Pending). rewrite <- (KO W1 _ _ _ _ H0). lia.
  - apply (tick_still a _ t (set_job (push_on q todo i 0) (th a t))); try assumption; try reflexivity.
    + intros q0 j. unfold up, dn. rewrite H0, Nat.add_0_r. destruct (which_eqb q q0); split; lia.
    + cbn [set_job job push_on]. destruct todo; cbn; auto.
  - apply (tick_still a _ t (pop_on t q got i 0 (th a t))); try assumption; try reflexivity.
    + intros q0 j. unfold up, dn. rewrite H0, Nat.add_0_r. destruct (which_eqb q q0); split; lia.
    + cbn [pop_on]. destruct (t =? 0); exact I.
  - destruct (worker_quiet t a a' H0 H3) as (E1 & E2 & E3 & x & TH & ST). apply (tick_still a a' t x); try assumption. apply rest_none, H0.
  - assert (t = 0) by (rewrite H0, H1 in SH; exact SH). subst t. destruct (owner_quiet o a H0) as (E1 & E2 & E3 & x & TH & ST). apply (tick_still a _ 0 x); try assumption. apply rest_none, H0.
  - assert (t = 0) by (rewrite H0, H1 in SH; exact SH). subst t. destruct (take_quiet a (th a 0) H0) as (E1 & E2 & E3 & x & TH & ST). apply (tick_still a _ 0 x); try assumption. apply rest_none, H0.
Qed.
End Tick.
