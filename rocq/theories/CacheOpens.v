(** * Opening and closing directories goes well *)

From Coq Require Import List Arith ZArith Bool Lia.
Import ListNotations.
From Verif Require Import CacheModel CacheSpec CacheLists CacheInv CachePrims CacheMoves CacheCalls.

(** ** Ancestors *)

Lemma nodup_left (a b : list nat) : NoDup (a ++ b) -> NoDup a.
Proof.
  induction a as [|x a IH]; intros H; [constructor|]. change ((x :: a) ++ b) with (x :: (a ++ b)) in H.
  apply NoDup_cons_iff in H. destruct H as [N H]. constructor; [|apply IH, H].
  intros J. apply N, in_app_iff. left; exact J.
Qed.

Lemma parent_alive s f p : tree s -> alive (files s f) = true -> parent f s = Some p ->
  p < f /\ alive (files s p) = true /\ ~ early s p /\ up (files s f) = p :: up (files s p).
Proof.
  intros T A P. pose proof (t_up _ T f (t_lt _ T f A)) as U. pose proof P as P0. unfold parent in P.
  destruct (up (files s f)) as [|q r]; [discriminate|]. injection P as ->.
  destruct U as (L & <- & H). repeat split; auto. intros E. exact (t_leaf _ T p E f A P0).
Qed.

Lemma ups s : tree s -> forall u f, up (files s f) = u -> alive (files s f) = true ->
  NoDup (f :: u) /\ forall p, In p u -> p < f /\ alive (files s p) = true /\ ~ early s p.
Proof.
  intros T. induction u as [|q r IH]; intros f U A.
  - split; [repeat constructor; auto|intros p []].
  - assert (P : parent f s = Some q) by (unfold parent; rewrite U; reflexivity).
    destruct (parent_alive _ _ _ T A P) as (L & AQ & NE & UU).
    assert (UQ : up (files s q) = r) by congruence.
    destruct (IH q UQ AQ) as [ND H].
    assert (K : forall p, In p (q :: r) -> p < f /\ alive (files s p) = true /\ ~ early s p).
    { intros p [<-|I]; [auto|]. destruct (H p I) as (? & ? & ?). repeat split; auto; lia. }
    split; [|exact K]. constructor; [|exact ND]. intros I. destruct (K f I). lia.
Qed.

Lemma nearest_spec s : forall l mid base, nearest l s = (mid, base) ->
  (exists r, l = mid ++ r) /\ (forall p, In p mid -> fd (files s p) = None) /\
  match base with Some b => fd (files s b) <> None /\ In b l | None => True end.
Proof.
  induction l as [|p r IH]; intros mid base E; cbn [nearest] in E.
  - injection E as <- <-. split; [exists []; reflexivity|]. split; [intros p []|exact I].
  - unfold is_open in E at 1. destruct (fd (files s p)) eqn:F.
    + injection E as <- <-. split; [exists (p :: r); reflexivity|]. split; [intros q []|].
      split; [congruence|left; reflexivity].
    + destruct (nearest r s) as [m b] eqn:N. injection E as <- <-. destruct (IH m b eq_refl) as ((r' & ->) & H & K).
      split; [exists r'; reflexivity|]. split.
      * intros q [<-|I]; auto.
      * destruct b; [|exact I]. split; [apply K|right; apply K].
Qed.

Section Opens.

Variable B : nat.

Notation cache := (cache B).
Notation inv := (inv B).

Lemma base_ok p d k n s base : inv (Extra p d k n) s -> match base with Some b => fd (files s b) <> None | None => True end ->
  exists s', pin_base base s = Some s' /\ inv (Extra (bumped base p) d k n) s' /\ calm nobody p s s' /\ flight s' = flight s /\
    (forall g, fd (files s' g) = fd (files s g) /\ dir (files s' g) = dir (files s g)) /\
    base_fd base s' = base_fd base s.
Proof.
  intros [T C] H. destruct base as [b|]; cbn [pin_base bumped base_fd].
  - destruct (pin_ok B _ _ _ _ _ _ C H) as (s' & E & C' & ST & FL & CP & LG & FD). exists s'.
    split; [exact E|]. split; [split; [exact (tree_same _ _ ST T)|exact C']|]. split; [|split; [exact FL|split; [exact FD|apply FD]]].
    apply calm_same; [exact ST|rewrite FL; apply incl_refl|exact FD].
  - exists s. split; [reflexivity|]. split; [split; assumption|]. split; [apply calm_refl|]. repeat split.
Qed.

Lemma unbase_ok p d k n s base : tree s -> cache (Extra (bumped base p) d k n) s ->
  exists s', unpin_base base s = Some s' /\ cache (Extra p d k n) s' /\ same_tree s s' /\ flight s' = flight s /\
    cap s' = cap s /\ to_close s' = to_close s /\ live (log s') = live (log s) /\
    (forall g, fd (files s' g) = fd (files s g) /\ dir (files s' g) = dir (files s g)).
Proof.
  intros T C. destruct base as [b|]; cbn [unpin_base bumped] in *.
  - destruct (unpin_ok B _ _ _ _ _ _ C) as (s' & E & C' & ST & FL & CP & TC & LG & FD). exists s'.
    assert (LV : live (log s') = live (log s)) by (rewrite LG; reflexivity).
    exact (conj E (conj C' (conj ST (conj FL (conj CP (conj TC (conj LV FD))))))).
  - exists s. split; [reflexivity|]. split; [exact C|]. repeat split.
Qed.

Definition alike (s s' : st) : Prop :=
  same_tree s s' /\ flight s' = flight s /\ files s' = files s /\ cap s' = cap s /\ to_close s' = to_close s.

Lemma alike_calm E p s s' : alike s s' -> calm E p s s'.
Proof.
  intros (ST & FL & FI & _). apply calm_same; [exact ST|rewrite FL; apply incl_refl|].
  rewrite FI. split; reflexivity.
Qed.

Lemma pick_alike s : alike s (snd (pick s)).
Proof. destruct (pick_ch s) as [l ->]. repeat split. Qed.

Lemma openat_ok p d n s a r e s' :
  cache (Extra p d 0 n) s -> match a with Some z => In z (live (log s)) | None => True end ->
  length (live (log s)) < B -> openat a s = (r, e, s') ->
  alike s s' /\
  match r with
  | Some z => cache (Extra p (z :: d) 1 n) s' /\ e = false
  | None => cache (Extra p d 0 n) s' /\ live (log s') = live (log s)
  end.
Proof.
  intros C A L E. unfold openat in E.
  assert (CU : cache (Extra p d 0 n) (use a s)) by (destruct a; [apply cache_use; assumption|exact C]).
  assert (KU : alike s (use a s) /\ live (log (use a s)) = live (log s)) by (destruct a; repeat split).
  destruct KU as [KU LU]. pose proof (pick_ch (use a s)) as [l PC].
  destruct (pick (use a s)) as [c s1] eqn:P. cbn [snd] in PC. subst s1.
  pose proof (cache_ch B _ _ l CU) as C1. set (s1 := set_ch l (use a s)) in *.
  assert (K1 : alike s s1) by exact KU.
  assert (L1 : live (log s1) = live (log s)) by exact LU.
  destruct c as [|[|c]]; [|injection E as <- <- <-; auto|injection E as <- <- <-; auto].
  destruct (acquire s1) as [z s2] eqn:Q. injection E as <- <- <-.
  destruct (acquire_ok B _ _ _ _ _ C1) as [C2 ST2]; [rewrite L1; exact L|].
  assert (EZ : z = fresh s1) by (unfold acquire in Q; congruence).
  assert (ES : s2 = snd (acquire s1)) by (rewrite Q; reflexivity).
  subst z s2. split; [|auto]. exact K1.
Qed.

(** ** Opening one file *)

Lemma not_flying x s f : cache x s -> ~ In f (queued s) -> ~ In f (ffiles (flight s)).
Proof. intros C N I. apply N, (c_queued _ _ _ C), I. Qed.

Lemma file_openat_ok p d n s f base :
  inv (Extra p d 0 n) s -> alive (files s f) = true -> ~ In f (queued s) -> fd (files s f) = None ->
  match base with Some b => fd (files s b) <> None | None => True end ->
  exists ok s', file_openat f base s = Some (ok, s') /\ inv (Extra p d 0 n) s' /\ calm (eq f) p s s' /\
    (if ok then fd (files s' f) <> None else fd (files s' f) = None).
Proof.
  intros I0 A NQ FN HB. pose proof I0 as [T0 C0]. pose proof (not_flying _ _ _ C0 NQ) as NF.
  unfold file_openat. rewrite the_alive by exact A.
  replace (is_open f s) with false by (unfold is_open; rewrite FN; reflexivity).
  destruct (base_ok _ _ _ _ _ _ I0 HB) as (s1 & E1 & I1 & K1 & FL1 & FD1 & BF1). rewrite E1.
  destruct (cache_reserve_ok B _ _ I1) as (b & s2 & E2 & I2 & K2 & R2). rewrite E2. cbn [xp] in K2.
  set (a := base_fd base s1) in *.
  assert (AL2 : match a with Some z => In z (live (log s2)) | None => True end).
  { unfold a, base_fd. destruct base as [q|]; [|exact I]. cbn [bumped] in K2.
    rewrite <- (k_keep _ _ _ _ K2 q) by (unfold bump; rewrite Nat.eqb_refl; lia).
    destruct (fd (files s2 q)) eqn:FQ; [|exact I]. apply (c_live _ _ _ (proj2 I2)). left. exists q. exact FQ. }
  assert (K2' : calm (eq f) p s s2).
  { eapply calm_trans; [eapply calm_weaken; [| |exact K1]|eapply calm_weaken; [| |exact K2]]; try tauto;
      intros g; try (intros []); auto using bumped_le. }
  (* What follows once there is a result. *)
  assert (FIN : forall r s3, calm (eq f) p s s3 -> fd (files s3 f) = None ->
    match r with
    | Some z => cache (Extra (bumped base p) (z :: d) 1 n) s3 /\ 0 < cap s3
    | None => cache (Extra (bumped base p) d 0 n) s3
    end ->
    exists ok s', (let* s4 := unpin_base base s3 in
      match r with
      | Some z =>
          let* (_, s5) := cache_add f (put f (set_fd (Some z) (files s4 f)) s4) in
          Some (true, s5)
      | None => Some (false, s4)
      end) = Some (ok, s') /\ inv (Extra p d 0 n) s' /\ calm (eq f) p s s' /\ (if ok then fd (files s' f) <> None else fd (files s' f) = None)).
  { intros r s3 K3 F3 H3. pose proof (tree_same _ _ (k_tree _ _ _ _ K3) T0) as T3.
    destruct r as [z|].
    - destruct H3 as [C3 CP3]. destruct (unbase_ok _ _ _ _ _ _ T3 C3) as (s4 & E4 & C4 & ST4 & FL4 & CP4 & TC4 & _ & FD4).
      rewrite E4. pose proof (same_trans _ _ _ (k_tree _ _ _ _ K3) ST4) as STT.
      assert (A4 : alive (files s4 f) = true) by (rewrite (same_alive _ _ f STT); exact A).
      assert (F4 : fd (files s4 f) = None) by (rewrite (proj1 (FD4 f)); exact F3).
      assert (Q4 : queued s4 = queued s) by apply STT.
      assert (NF4 : ~ In f (ffiles (flight s4))) by (rewrite FL4; intros J; apply NF, (k_flight _ _ _ _ K3), J).
      destruct (cached_ok B p d 0 n s4 f z false (set_fd (Some z) (files s4 f))) as (s5 & E5 & C5 & ST5 & FL5 & TC5 & FO5 & FY5).
      + exact (tree_same _ _ ST4 T3).
      + exact C4.
      + exact A4.
      + exact F4.
      + rewrite CP4. exact CP3.
      + rewrite Q4. intros J. destruct (NQ J).
      + intros d1 a1 J. apply NF4, (ffiles_in (Ropen f d1 a1)); [exact J|reflexivity].
      + unfold set_fd. rewrite A4. destruct (dir (files s4 f)) eqn:DD; [|reflexivity].
        destruct (c_dir _ _ _ C4 f DD F4).
      + rewrite E5. exists true, s5. split; [reflexivity|]. split; [|split].
        * split; [|exact C5]. exact (tree_same _ _ (same_trans _ _ _ STT ST5) T0).
        * eapply calm_trans; [exact K3|]. constructor.
          -- exact (same_trans _ _ _ ST4 ST5).
          -- rewrite FL5, FL4. apply incl_refl.
          -- intros g N S. destruct (Nat.eq_dec g f) as [->|NE]; [left; reflexivity|].
             rewrite FO5, (proj1 (FD4 g)) in S by exact NE. congruence.
          -- intros g N S. destruct (Nat.eq_dec g f) as [->|NE].
             ++ rewrite FY5 in S. cbn [set_fd dir] in S. rewrite (proj2 (FD4 f)) in S. congruence.
             ++ rewrite FO5, (proj2 (FD4 g)) in S by exact NE. congruence.
          -- intros g G. destruct (Nat.eq_dec g f) as [->|NE].
             ++ pose proof (c_pins _ _ _ C4 f) as PP. cbn [xp] in PP. destruct (c_pin _ _ _ C4 f); [lia|exact F4].
             ++ rewrite FO5, (proj1 (FD4 g)) by exact NE. reflexivity.
          -- intros g N S. destruct (Nat.eq_dec g f) as [->|NE]; [right; left; reflexivity|].
             left. rewrite FO5, (proj2 (FD4 g)) by exact NE. exact N.
        * rewrite FY5. discriminate.
    - destruct (unbase_ok _ _ _ _ _ _ T3 H3) as (s4 & E4 & C4 & ST4 & FL4 & CP4 & TC4 & _ & FD4).
      rewrite E4. exists false, s4. split; [reflexivity|]. split; [|split; [|rewrite (proj1 (FD4 f)); exact F3]].
      + split; [exact (tree_same _ _ ST4 T3)|exact C4].
      + eapply calm_trans; [exact K3|]. apply calm_same; [exact ST4|rewrite FL4; apply incl_refl|exact FD4]. }
  assert (NN : forall s3, calm nobody (bumped base p) s2 s3 -> fd (files s3 f) = None).
  { intros s3 K3. destruct (fd (files s3 f)) eqn:S; [|reflexivity]. exfalso.
    pose proof (calm_trans _ _ _ _ _ K2 K3) as K.
    destruct (k_fd _ _ _ _ K f) as [[]|J].
    - rewrite (proj1 (FD1 f)). exact FN.
    - congruence.
    - apply NF. rewrite <- FL1. exact J. }
  assert (KK : forall s3, calm nobody (bumped base p) s2 s3 -> calm (eq f) p s s3).
  { intros s3 K3. eapply calm_trans; [exact K2'|]. eapply calm_weaken; [| |exact K3]; [intros g []|auto using bumped_le]. }
  destruct b.
  2: { apply (FIN None); [exact K2'| |apply I2]. apply NN, calm_refl. }
  specialize (R2 eq_refl). destruct I2 as [T2 C2].
  assert (L2 : length (live (log s2)) < B) by (pose proof (c_cap _ _ _ C2) as CC; cbn [xk] in CC; lia).
  destruct (openat a s2) as [[r e] s3] eqn:O3.
  destruct (openat_ok _ _ _ _ _ _ _ _ C2 AL2 L2 O3) as [K3 H3].
  pose proof (alike_calm nobody (bumped base p) _ _ K3) as K3'.
  destruct e.
  2: { apply (FIN r); [exact (KK _ K3')|exact (NN _ K3')|].
       destruct r; [|apply H3]. split; [apply H3|]. replace (cap s3) with (cap s2); [exact R2|]. symmetry. apply K3. }
  destruct r as [z|]; [destruct H3; discriminate|]. destruct H3 as [C3 LV3].
  assert (CP3 : cap s3 = cap s2) by apply K3.
  assert (T3 : tree s3) by (eapply tree_same; [apply K3|exact T2]).
  destruct (cache_pop_ok B _ _ (conj T3 C3)) as (b & s4 & E4 & [T4 C4] & K4 & FL4 & H4). rewrite E4. cbn [xp] in K4.
  pose proof (calm_trans _ _ _ _ _ K3' K4) as K34.
  destruct b.
  - destruct H4 as [CP4 LV4].
    assert (AL4 : match a with Some z => In z (live (log s4)) | None => True end).
    { unfold a, base_fd. destruct base as [q|]; [|exact I]. cbn [bumped] in *.
      rewrite <- (k_keep _ _ _ _ K2 q) by (unfold bump; rewrite Nat.eqb_refl; lia).
      rewrite <- (k_keep _ _ _ _ K34 q) by (unfold bump; rewrite Nat.eqb_refl; lia).
      destruct (fd (files s4 q)) eqn:FQ; [|exact I]. apply (c_live _ _ _ C4). left. exists q. exact FQ. }
    assert (L4 : length (live (log s4)) < B) by (rewrite <- LV3 in L2; lia).
    destruct (openat a s4) as [[r e] s5] eqn:O5.
    destruct (openat_ok _ _ _ _ _ _ _ _ C4 AL4 L4 O5) as [K5 H5].
    pose proof (alike_calm nobody (bumped base p) _ _ K5) as K5'.
    assert (CP5 : cap s5 = S (cap s3)) by (rewrite <- CP4; apply K5).
    pose proof (calm_trans _ _ _ _ _ K34 K5') as K35.
    assert (K6 : calm nobody (bumped base p) s2 (set_cap 1 s5)).
    { eapply calm_trans; [exact K35|]. apply calm_same; [repeat split|apply incl_refl|split; reflexivity]. }
    apply (FIN r); [exact (KK _ K6)|exact (NN _ K6)|].
    destruct r; [|apply shrink_ok; [apply H5|lia]]. split; [apply shrink_ok; [apply H5|lia]|]. cbn [set_cap cap]. lia.
  - subst s4.
    assert (K6 : calm nobody (bumped base p) s2 (set_cap 1 s3)).
    { eapply calm_trans; [exact K3'|]. apply calm_same; [repeat split|apply incl_refl|split; reflexivity]. }
    apply (FIN None); [exact (KK _ K6)|exact (NN _ K6)|]. apply shrink_ok; [exact C3|lia].
Qed.

(** ** Opening a file by its path *)

Lemma calm_queued E p s s' : calm E p s s' -> queued s' = queued s.
Proof. intros K. apply (k_tree _ _ _ _ K). Qed.

Lemma components_ok p d n : forall l s, inv (Extra p d 0 n) s -> NoDup l ->
  (forall c, In c l -> alive (files s c) = true /\ ~ In c (queued s) /\ fd (files s c) = None) ->
  exists s', components l s = Some s' /\ inv (Extra p d 0 n) s' /\ calm (fun c => In c l) p s s'.
Proof.
  induction l as [|c r IH]; intros s I0 ND H; cbn [components].
  - exists s. split; [reflexivity|]. split; [exact I0|apply calm_refl].
  - destruct (H c (or_introl eq_refl)) as (A & NQ & FN). apply NoDup_cons_iff in ND. destruct ND as [NI ND].
    rewrite the_alive by exact A.
    assert (NF : forall g, In g (c :: r) -> ~ In g (ffiles (flight s))).
    { intros g J. eapply not_flying; [apply I0|]. apply H, J. }
    destruct (match parent c s with Some q => is_open q s | None => true end) eqn:O.
    + destruct (file_openat_ok p d n s c (parent c s) I0 A NQ FN) as (ok & s1 & E1 & I1 & K1 & _).
      { destruct (parent c s) as [q|]; [|exact I]. unfold is_open in O. destruct (fd (files s q)); [congruence|discriminate]. }
      rewrite E1. destruct (IH s1 I1 ND) as (s2 & E2 & I2 & K2).
      { intros g J. destruct (H g (or_intror J)) as (A' & NQ' & FN').
        rewrite (same_alive _ _ g (k_tree _ _ _ _ K1)), (calm_queued _ _ _ _ K1). repeat split; auto.
        destruct (fd (files s1 g)) eqn:S; [|reflexivity]. exfalso.
        destruct (k_fd _ _ _ _ K1 g FN') as [<-|X]; [congruence|exact (NI J)|exact (NF g (or_intror J) X)]. }
      exists s2. split; [exact E2|]. split; [exact I2|]. eapply calm_trans; [eapply calm_weaken; [| |exact K1]|eapply calm_weaken; [| |exact K2]]; auto.
      * intros g <-. left; reflexivity.
      * intros g J. right; exact J.
    + destruct (IH s I0 ND) as (s2 & E2 & I2 & K2); [intros g J; apply H; right; exact J|].
      exists s2. split; [exact E2|]. split; [exact I2|]. eapply calm_weaken; [| |exact K2]; auto. intros g J. right; exact J.
Qed.

Definition chain (s : st) (f c : nat) : Prop := c = f \/ In c (up (files s f)).

Lemma file_open_ok p d n s f :
  inv (Extra p d 0 n) s -> alive (files s f) = true -> ~ In f (queued s) -> fd (files s f) = None ->
  exists ok s', file_open f s = Some (ok, s') /\ inv (Extra p d 0 n) s' /\ calm (chain s f) p s s' /\
    (ok = true -> fd (files s' f) <> None).
Proof.
  intros I0 A NQ FN. unfold file_open. destruct (nearest (up (files s f)) s) as [mid base] eqn:N.
  destruct (nearest_spec _ _ _ _ N) as ((rest & U) & HM & HB).
  destruct (ups s (proj1 I0) _ f eq_refl A) as [ND HU].
  destruct (file_openat_ok p d n s f base I0 A NQ FN) as (ok & s1 & E1 & I1 & K1 & R1).
  { destruct base; [apply HB|exact I]. }
  rewrite E1.
  assert (K1' : calm (chain s f) p s s1).
  { eapply calm_weaken; [| |exact K1]; auto. intros g <-. left; reflexivity. }
  destruct ok; [exists true, s1; split; [reflexivity|]; split; [exact I1|]; split; [exact K1'|intros _; exact R1]|].
  destruct (pick s1) as [c s2] eqn:P. destruct (pick_ok B _ _ _ _ I1 P) as (I2 & K2 & E2). cbn [xp] in K2.
  assert (K2' : calm (chain s f) p s s2).
  { eapply calm_trans; [exact K1'|]. eapply calm_weaken; [| |exact K2]; auto. intros g []. }
  destruct (c =? 0).
  - exists false, s2. split; [reflexivity|]. split; [exact I2|]. split; [exact K2'|discriminate].
  - (* No descriptor yet: the first attempt failed. *)
    assert (FS : forall g, fd (files s2 g) = fd (files s1 g)) by (intros g; rewrite E2; reflexivity).
    assert (HC : forall g, In g (rev (f :: mid)) -> alive (files s2 g) = true /\ ~ In g (queued s2) /\ (g <> f -> fd (files s2 g) = None)).
    { intros g J. apply in_rev in J.
      rewrite (same_alive _ _ g (k_tree _ _ _ _ K2')), (calm_queued _ _ _ _ K2').
      destruct (Nat.eq_dec g f) as [->|NE]; [repeat split; auto; congruence|].
      destruct J as [J|J]; [congruence|].
      destruct (HU g) as (_ & AG & EG); [rewrite U; apply in_app_iff; left; exact J|].
      assert (NG : ~ In g (queued s)) by (intros X; apply EG; left; exact X).
      repeat split; auto. intros _.
      destruct (fd (files s2 g)) eqn:S; [|reflexivity]. exfalso.
      rewrite FS in S. destruct (k_fd _ _ _ _ K1 g (HM g J)) as [X|X]; [congruence|congruence|].
      exact (not_flying _ _ _ (proj2 I0) NG X). }
    assert (S2 : fd (files s2 f) = None) by (rewrite FS; exact R1).
    destruct (components_ok p d n (rev (f :: mid)) s2 I2) as (s3 & E3 & I3 & K3).
    + apply NoDup_rev. constructor.
        -- intros J. apply NoDup_cons_iff in ND. apply (proj1 ND). rewrite U. apply in_app_iff. left; exact J.
        -- apply NoDup_cons_iff in ND. destruct ND as [_ ND]. rewrite U in ND. apply nodup_left in ND. exact ND.
    + intros g J. destruct (HC g J) as (? & ? & H). repeat split; auto.
        destruct (Nat.eq_dec g f) as [->|NE]; auto.
    + rewrite E3. exists (is_open f s3), s3. split; [reflexivity|]. split; [exact I3|]. split.
        -- eapply calm_trans; [exact K2'|]. eapply calm_weaken; [| |exact K3]; auto.
           intros g J. apply in_rev in J. destruct J as [<-|J]; [left; reflexivity|]. right. rewrite U. apply in_app_iff. left; exact J.
        -- unfold is_open. destruct (fd (files s3 f)); [discriminate|congruence].
Qed.

End Opens.
