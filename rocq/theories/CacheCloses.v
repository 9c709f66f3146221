(** * Closing directories and making requests goes well *)

From Coq Require Import List Arith ZArith Bool Lia.
Import ListNotations.
From Verif Require Import CacheModel CacheSpec CacheLists CacheInv CachePrims CacheMoves CacheCalls CacheOpens.

Section Closes.

Variable B : nat.

Notation cache := (cache B).
Notation inv := (inv B).

(** ** Closing *)

Lemma ioq_close_ok p d n s (stream : bool) z :
  inv (Extra p (z :: d) 0 ((if stream then 1 else 0) + n)) s ->
  exists s', ioq_close stream z s = Some s' /\ inv (Extra p d 0 n) s' /\ calm nobody p s s'.
Proof.
  intros I0. unfold ioq_close.
  destruct (ioq_reserve_ok B _ _ I0) as (room & s1 & E1 & I1 & K1). rewrite E1. cbn [xp] in K1.
  destruct (pick s1) as [c s2] eqn:P. destruct (pick_ok B _ _ _ _ I1 P) as ([T2 C2] & K2 & E2). cbn [xp] in K2.
  pose proof (calm_trans _ _ _ _ _ K1 K2) as K12.
  destruct (room && (c =? 0)).
  - eexists. split; [reflexivity|]. set (r := if stream then Rclosedir z else Rclose z).
    assert (C3 : cache (Extra p d 0 n) (set_flight (flight s2 ++ [r]) s2)).
    { apply submit_ok; [|unfold r; destruct stream; exact I]. unfold r. destruct stream; exact C2. }
    split.
    + split; [|exact C3]. (apply (tree_same s2); [repeat split|exact T2]).
    + eapply calm_trans; [exact K12|]. apply calm_same; [repeat split| |split; reflexivity].
      cbn [set_flight flight]. rewrite ffiles_app. replace (ffiles [r]) with (@nil nat) by (unfold r; destruct stream; reflexivity).
      rewrite app_nil_r. apply incl_refl.
  - eexists. split; [reflexivity|].
    pose proof (release_ok B _ _ _ _ _ _ C2) as C3. split.
    + split; [|destruct stream; [exact (freedir_ok B _ _ _ _ _ C3)|exact C3]].
      destruct stream; (apply (tree_same s2); [repeat split|exact T2]).
    + eapply calm_trans; [exact K12|]. destruct stream; (apply calm_same; [repeat split|apply incl_refl|split; reflexivity]).
Qed.

Lemma close_ok p d n s f :
  inv (Extra p d 0 n) s -> fd (files s f) <> None -> pins (files s f) = 0 ->
  exists s', close f s = Some s' /\ inv (Extra p d 0 n) s' /\ calm nobody p s s' /\
    (fd (files s' f) <> None -> In f (ffiles (flight s))).
Proof.
  intros [T C] F Z. destruct (fd (files s f)) as [z|] eqn:FZ; [|congruence]. clear F.
  assert (F : fd (files s f) <> None) by congruence.
  pose proof (alive_open _ _ _ _ C F) as A.
  unfold close. rewrite the_alive by exact A. rewrite FZ, Z. cbn [Nat.eqb].
  rewrite (lru_remove_ok s f (root (log s)) (idle (log s)) A (c_lru _ _ _ C) (c_target _ _ _ C) (c_idle_nd _ _ _ C)).
  2: { apply (c_idle _ _ _ C). auto. }
  destruct (uncache_ok B p d 0 n s f z _ _ T C FZ Z eq_refl eq_refl) as [C1 ST1].
  set (s1 := set_lru _ _ (emit (Uncached f) (put f _ s))) in *.
  destruct (ioq_close_ok p d n s1 (dir (files s f)) z) as (s2 & E2 & I2 & K2).
  { split; [exact (tree_same _ _ ST1 T)|exact C1]. }
  exists s2. split; [exact E2|]. split; [exact I2|].
  assert (F1 : forall g, files s1 g = if g =? f then set_fd None (set_dirp false (files s f)) else files s g) by reflexivity.
  split.
  - eapply calm_trans; [|exact K2]. constructor.
    + exact ST1.
    + apply incl_refl.
    + intros g N S. rewrite F1 in S. destruct (Nat.eqb_spec g f) as [E|]; [destruct S; reflexivity|congruence].
    + intros g N S. rewrite F1 in S. destruct (Nat.eqb_spec g f) as [E|]; [discriminate|congruence].
    + intros g P. rewrite F1. destruct (Nat.eqb_spec g f) as [E|]; [|reflexivity]. subst g.
      pose proof (c_pins _ _ _ C f) as PP. cbn [xp] in PP. lia.
    + intros g N S. rewrite F1 in S |- *. destruct (Nat.eqb_spec g f) as [E|]; [destruct S; reflexivity|]. left; exact N.
  - intros S. destruct (k_fd _ _ _ _ K2 f) as [[]|J]; [|exact S|exact J]. rewrite F1, Nat.eqb_refl. reflexivity.
Qed.

Lemma inpins_zero s s' f : same_tree s s' -> incl (ffiles (flight s')) (ffiles (flight s)) -> inpins s f = 0 -> inpins s' f = 0.
Proof.
  intros ST IN Z. destruct (inpins s' f) eqn:E; [reflexivity|exfalso]. unfold inpins in E.
  destruct (filter _ (flight s')) as [|r l] eqn:FI; [discriminate|].
  assert (J : In r (r :: l)) by (left; reflexivity). rewrite <- FI in J. apply filter_In in J. destruct J as [J R].
  destruct (req_file r) as [g|] eqn:RG; [|discriminate].
  destruct (ffiles_ex g (flight s) (IN g (ffiles_in r g _ J RG))) as (r' & J' & RG').
  unfold parent_is in R. destruct (parent g s') as [q|] eqn:PG; [|discriminate]. apply Nat.eqb_eq in R. subst q.
  rewrite (same_parent _ _ g ST) in PG. pose proof (inpins_pos s r' g f J' RG' PG). lia.
Qed.

Lemma unwrapdir_ok u p d n s f :
  inv (Extra p d 0 n) s -> alive (files s f) = true -> ~ In f (queued s) ->
  exists s', unwrapdir u f s = Some s' /\ inv (Extra p d 0 n) s' /\ calm (eq f) p s s'.
Proof.
  intros [T C] A NQ. unfold unwrapdir. rewrite the_alive by exact A.
  destruct (dir (files s f)) eqn:D; [|exists s; split; [reflexivity|]; split; [split; assumption|apply calm_refl]].
  pose proof (c_dir _ _ _ C f D) as F.
  destruct (u && ((1 <? refs (files s f)) || (0 <? pins (files s f)))) eqn:Q1.
  { eexists. split; [reflexivity|]. destruct (clear_dir_ok B _ _ _ _ _ _ T C D NQ) as [C1 ST1].
    split.
    - split; [|exact (freedir_ok B _ _ _ _ _ C1)]. apply (tree_same s); [exact ST1|exact T].
    - assert (F1 : forall g, files (put f (set_dirp false (files s f)) (freedir s)) g = if g =? f then set_dirp false (files s f) else files s g) by reflexivity.
      constructor.
      + exact ST1.
      + apply incl_refl.
      + intros g N S. left. rewrite F1 in S. destruct (Nat.eqb_spec g f) as [E|]; [auto|congruence].
      + intros g N S. rewrite F1 in S. destruct (Nat.eqb_spec g f) as [E|]; [discriminate|congruence].
      + intros g _. rewrite F1. destruct (Nat.eqb_spec g f) as [E|]; [subst g|]; reflexivity.
      + intros g N S. rewrite F1. destruct (Nat.eqb_spec g f) as [E|]; auto. }
  destruct (negb u && (0 <? pins (files s f))) eqn:Q2.
  { exists s. split; [reflexivity|]. split; [split; assumption|apply calm_refl]. }
  assert (Z : pins (files s f) = 0).
  { destruct u; cbn [andb negb] in Q1, Q2.
    - apply orb_false_iff in Q1. destruct Q1 as [_ Q1]. apply Nat.ltb_ge in Q1. lia.
    - apply Nat.ltb_ge in Q2. lia. }
  destruct (negb (1 <? refs (files s f))) eqn:Q3.
  { destruct (close_ok p d n s f (conj T C) F Z) as (s' & E & I' & K & _). exists s'. split; [exact E|]. split; [exact I'|].
    eapply calm_weaken; [| |exact K]; auto. intros g []. }
  assert (PF : p f = 0 /\ inpins s f = 0 /\ reading s f = 0) by (pose proof (c_pins _ _ _ C f) as PP; cbn [xp] in PP; lia).
  destruct PF as (PZ & IZ & RZ).
  destruct (pin_ok B _ _ _ _ _ _ C F) as (s1 & E1 & C1 & ST1 & FL1 & CP1 & LG1 & FD1). rewrite E1.
  assert (K1 : calm nobody p s s1) by (apply calm_same; [exact ST1|rewrite FL1; apply incl_refl|exact FD1]).
  destruct (cache_reserve_ok B _ _ (conj (tree_same _ _ ST1 T) C1)) as (b & s2 & E2 & [T2 C2] & K2 & R2). rewrite E2. cbn [xp] in K2.
  destruct (unpin_ok B _ _ _ _ _ _ C2) as (s3 & E3 & C3 & ST3 & FL3 & CP3 & TC3 & LG3 & FD3). rewrite E3.
  assert (T3 : tree s3) by exact (tree_same _ _ ST3 T2).
  assert (K3 : calm nobody p s s3).
  { eapply calm_trans; [exact K1|]. eapply calm_trans; [eapply calm_weaken; [| |exact K2]|].
    - auto.
    - apply bump_le.
    - apply calm_same; [exact ST3|rewrite FL3; apply incl_refl|exact FD3]. }
  assert (K3' : calm (eq f) p s s3) by (eapply calm_weaken; [| |exact K3]; auto; intros g []).
  destruct b; [|exists s3; split; [reflexivity|]; split; [split; assumption|exact K3']].
  specialize (R2 eq_refl).
  pose proof (pick_ch s3) as [l PC]. destruct (pick s3) as [c s4] eqn:P4. cbn [snd] in PC. subst s4.
  pose proof (cache_ch B _ _ l C3) as C4. set (s4 := set_ch l s3) in *.
  assert (K4 : calm (eq f) p s s4).
  { eapply calm_trans; [exact K3'|]. apply calm_same; [repeat split|apply incl_refl|split; reflexivity]. }
  assert (T4 : tree s4) by exact (tree_same s3 s4 ltac:(repeat split) T3).
  destruct (c =? 0); [|exists s4; split; [reflexivity|]; split; [split; assumption|exact K4]].
  assert (FF : fd (files s4 f) = fd (files s f)).
  { change (fd (files s3 f) = fd (files s f)). rewrite (proj1 (FD3 f)), (k_keep _ _ _ _ K2 f), (proj1 (FD1 f)); [reflexivity|].
    unfold bump. rewrite Nat.eqb_refl. lia. }
  destruct (fd (files s f)) as [old|] eqn:FO; [|congruence].
  destruct (acquire_ok B _ _ _ _ _ C4) as [C5 ST5].
  { pose proof (c_cap _ _ _ C4) as CC. cbn [xk] in CC. change (cap s4) with (cap s3) in CC. lia. }
  destruct (acquire s4) as [z s5] eqn:AQ. assert (EZ : z = fresh s4) by (unfold acquire in AQ; congruence).
  cbn [snd] in C5, ST5. rewrite <- EZ in C5.
  assert (CP5 : cap s5 = cap s2) by (unfold acquire in AQ; injection AQ as _ <-; exact CP3).
  assert (FI5 : files s5 = files s4) by (unfold acquire in AQ; injection AQ as _ <-; reflexivity).
  assert (FL5 : flight s5 = flight s4) by (unfold acquire in AQ; injection AQ as _ <-; reflexivity).
  destruct (cap s5) as [|k] eqn:CPE; [lia|].
  pose proof (spend_ok B _ _ _ _ _ _ C5 CPE) as C6. set (s6 := set_cap k s5) in *.
  assert (T6 : tree s6) by (apply (tree_same s4); [exact ST5|exact T4]).
  assert (ST46 : same_tree s s6) by exact (same_trans _ _ _ (k_tree _ _ _ _ K4) ST5).
  assert (NQ6 : ~ In f (queued s6)) by (replace (queued s6) with (queued s) by (symmetry; apply ST46); exact NQ).
  assert (F6 : files s6 = files s4) by exact FI5.
  assert (D6 : dir (files s6 f) = true).
  { destruct (k_fall _ _ _ _ K3 f D) as [H|[[]|J]].
    - change (fd (files s4 f) <> None). congruence.
    - rewrite F6. exact H.
    - destruct (not_flying _ _ _ _ C NQ J). }
  destruct (clear_dir_ok B _ _ _ _ _ _ T6 C6 D6 NQ6) as [C7 ST7].
  set (s7 := put f (set_dirp false (files s6 f)) s6) in *.
  assert (T7 : tree s7) by exact (tree_same _ _ ST7 T6).
  assert (F7 : forall g, files s7 g = if g =? f then set_dirp false (files s6 f) else files s6 g) by reflexivity.
  destruct (swap_ok B p d 0 (S n) s7 f old z T7 C7) as [C8 ST8].
  - rewrite F7, Nat.eqb_refl. change (fd (files s6 f) = Some old). rewrite F6. exact FF.
  - rewrite F7, Nat.eqb_refl. change (pins (files s6 f) = 0).
    pose proof (c_pins _ _ _ C6 f) as PP. cbn [xp] in PP.
    rewrite (same_reading _ _ f ST46), RZ, PZ in PP.
    rewrite (inpins_zero s s6 f ST46) in PP; [exact PP| |exact IZ].
    change (flight s6) with (flight s5). rewrite FL5. apply (k_flight _ _ _ _ K4).
  - rewrite F7, Nat.eqb_refl. reflexivity.
  - set (s8 := emit (Swap f z) (put f (set_fd (Some z) (files s7 f)) s7)) in *.
    destruct (ioq_close_ok p d n s8 true old) as (s9 & E9 & I9 & K9).
    { split; [exact (tree_same _ _ ST8 T7)|exact C8]. }
    exists s9. split; [exact E9|]. split; [exact I9|].
    eapply calm_trans; [exact K4|]. eapply calm_trans; [|eapply calm_weaken; [| |exact K9]; auto; intros g []].
    assert (F8 : forall g, g <> f -> files s8 g = files s4 g).
    { intros g NE. unfold s8. change (files (emit (Swap f z) (put f (set_fd (Some z) (files s7 f)) s7)) g) with (files (put f (set_fd (Some z) (files s7 f)) s7) g).
      rewrite files_put. destruct (Nat.eqb_spec g f) as [E|_]; [congruence|]. rewrite F7. destruct (Nat.eqb_spec g f); [congruence|]. rewrite F6. reflexivity. }
    constructor.
    + exact (same_trans _ _ _ (same_trans s4 s6 s7 ST5 ST7) ST8).
    + change (flight s8) with (flight s5). rewrite FL5. apply incl_refl.
    + intros g N S. destruct (Nat.eq_dec g f) as [->|NE]; [left; reflexivity|]. rewrite F8 in S by exact NE. congruence.
    + intros g N S. destruct (Nat.eq_dec g f) as [->|NE]; [|rewrite F8 in S by exact NE; congruence].
      rewrite <- F6 in N. congruence.
    + intros g G. destruct (Nat.eq_dec g f) as [->|NE]; [lia|]. rewrite F8 by exact NE. reflexivity.
    + intros g N S. destruct (Nat.eq_dec g f) as [->|NE]; [right; left; reflexivity|]. left. rewrite F8 by exact NE. exact N.
Qed.

(** ** Making requests *)

Lemma pin_parent_ok p d n s f : inv (Extra p d 0 n) s ->
  exists ok a s', pin_parent f s = Some (ok, a, s') /\ calm nobody p s s' /\ flight s' = flight s /\
    if ok then inv (Extra (bumped (parent f s) p) d 0 n) s' /\
               match parent f s with Some q => a = fd (files s' q) /\ a <> None | None => a = None end
    else s' = s.
Proof.
  intros [T C]. unfold pin_parent. destruct (parent f s) as [q|] eqn:P; cbn [bumped].
  2: { exists true, None, s. split; [reflexivity|]. split; [apply calm_refl|]. split; [reflexivity|]. split; [split; assumption|reflexivity]. }
  destruct (fd (files s q)) as [z|] eqn:F.
  2: { exists false, None, s. split; [reflexivity|]. split; [apply calm_refl|]. split; reflexivity. }
  assert (FQ : fd (files s q) <> None) by congruence.
  destruct (pin_ok B _ _ _ _ _ _ C FQ) as (s1 & E1 & C1 & ST1 & FL1 & CP1 & LG1 & FD1). rewrite E1.
  exists true, (Some z), s1. split; [reflexivity|]. split; [|split; [exact FL1|split]].
  - apply calm_same; [exact ST1|rewrite FL1; apply incl_refl|exact FD1].
  - split; [exact (tree_same _ _ ST1 T)|exact C1].
  - rewrite (proj1 (FD1 q)). split; [congruence|discriminate].
Qed.

Lemma drop_request p d n s f : tree s -> cache (Extra (bumped (parent f s) p) d 0 n) s -> In f (queued s) ->
  exists s', unpin_parent f false s = Some s' /\ inv (Extra p d 0 n) s' /\ same_tree s s'.
Proof.
  intros T C Q. destruct (unpin_parent_ok B p d 0 n s f false T C Q) as (s' & E & C' & ST & _).
  exists s'. split; [exact E|]. split; [split; [exact (tree_same _ _ ST T)|exact C']|exact ST].
Qed.

Lemma kept p d n s s' f a : calm nobody (bumped (parent f s) p) s s' -> inv (Extra (bumped (parent f s) p) d 0 n) s ->
  match parent f s with Some q => a = fd (files s q) /\ a <> None | None => a = None end ->
  match parent f s' with Some q => a = fd (files s' q) | None => a = None end.
Proof.
  intros K [T C] H. rewrite (same_parent _ _ f (k_tree _ _ _ _ K)). destruct (parent f s) as [q|]; [|exact H].
  destruct H as [-> _]. symmetry. apply (k_keep _ _ _ _ K). cbn [bumped]. unfold bump. rewrite Nat.eqb_refl. lia.
Qed.

Lemma ioq_opendir_ok p d n s f :
  inv (Extra p d 0 n) s -> In f (queued s) -> ~ In f (ffiles (flight s)) -> fd (files s f) = None ->
  exists b s', ioq_opendir f s = Some (b, s') /\ inv (Extra p d 0 n) s' /\ same_tree s s'.
Proof.
  intros I0 Q NF FN. unfold ioq_opendir.
  destruct (ioq_reserve_ok B _ _ I0) as (room & s1 & E1 & I1 & K1). rewrite E1. cbn [xp] in K1.
  destruct room; [|exists false, s1; split; [reflexivity|]; split; [exact I1|exact (k_tree _ _ _ _ K1)]].
  destruct (pin_parent_ok p d n s1 f I1) as (ok & a & s2 & E2 & K2 & FL2 & H2). rewrite E2.
  destruct ok; [|subst s2; exists false, s1; split; [reflexivity|]; split; [exact I1|exact (k_tree _ _ _ _ K1)]]. destruct H2 as [I2 HA].
  pose proof (same_parent _ _ f (k_tree _ _ _ _ K2)) as P2. rewrite <- P2 in I2, HA.
  destruct (cache_reserve_ok B _ _ I2) as (space & s3 & E3 & I3 & K3 & R3). rewrite E3. cbn [xp] in K3.
  pose proof (kept _ _ _ _ _ _ _ K3 I2 HA) as HA3.
  pose proof (same_parent _ _ f (k_tree _ _ _ _ K3)) as P3. rewrite <- P3 in I3.
  destruct I3 as [T3 C3].
  assert (K3' : calm nobody p s s3).
  { eapply calm_trans; [exact K1|]. eapply calm_trans; [exact K2|]. eapply calm_weaken; [| |exact K3]; auto. intros g. apply bumped_le. }
  assert (ALL : forall got s4, (if space then allocdir false s3 else (false, s3)) = (got, s4) ->
    cache (Extra (bumped (parent f s4) p) d 0 (if got then S n else n)) s4 /\ alike s3 s4 /\ live (log s4) = live (log s3) /\ (got = true -> 0 < cap s4)).
  { intros got s4 E. destruct space.
    - destruct (allocdir_ok B _ _ _ _ _ _ _ _ C3 E) as (C4 & ST4 & FL4 & FI4 & CP4 & LV4 & TC4).
      rewrite (same_parent _ _ f ST4). split; [exact C4|]. split; [repeat split; auto; apply ST4|]. split; [exact LV4|]. intros _. rewrite CP4. auto.
    - injection E as <- <-. split; [exact C3|]. split; [repeat split|]. split; [reflexivity|discriminate]. }
  destruct (if space then allocdir false s3 else (false, s3)) as [got s4] eqn:E4.
  destruct (ALL got s4 eq_refl) as (C4 & K4 & LV4 & R4). clear ALL.
  pose proof (pick_ch s4) as [l PC]. destruct (pick s4) as [c s5] eqn:P5. cbn [snd] in PC. subst s5.
  pose proof (cache_ch B _ _ l C4) as C5. set (s5 := set_ch l s4) in *.
  assert (K5 : alike s3 s5) by exact K4.
  assert (ST5 : same_tree s s5) by exact (same_trans _ _ _ (k_tree _ _ _ _ K3') (proj1 K5)).
  assert (T5 : tree s5) by exact (tree_same _ _ ST5 (proj1 I0)).
  assert (Q5 : In f (queued s5)) by (replace (queued s5) with (queued s) by (symmetry; apply ST5); exact Q).
  destruct (got && (c =? 0)) eqn:GC.
  - apply andb_true_iff in GC. destruct GC as [-> _]. specialize (R4 eq_refl).
    destruct (acquire_ok B _ _ _ _ _ C5) as [C6 ST6].
    { pose proof (c_cap _ _ _ C5) as CC. cbn [xk] in CC. change (cap s5) with (cap s4) in CC. lia. }
    destruct (acquire s5) as [z s6] eqn:AQ. assert (EZ : z = fresh s5) by (unfold acquire in AQ; congruence).
    cbn [snd] in C6, ST6. rewrite <- EZ in C6.
    assert (CP6 : cap s6 = cap s4) by (unfold acquire in AQ; injection AQ as _ <-; reflexivity).
    assert (FI6 : files s6 = files s3) by (unfold acquire in AQ; injection AQ as _ <-; apply K5).
    assert (FL6 : flight s6 = flight s3) by (unfold acquire in AQ; injection AQ as _ <-; apply K5).
    destruct (cap s6) as [|k] eqn:CPE; [lia|].
    pose proof (spend_ok B _ _ _ _ _ _ C6 CPE) as C7. set (s7 := set_cap k s6) in *.
    assert (ST7 : same_tree s5 s7) by exact ST6.
    exists true, (set_flight (flight s6 ++ [Ropen f z a]) s7). split; [reflexivity|].
    assert (C8 : cache (Extra p d 0 n) (set_flight (flight s7 ++ [Ropen f z a]) s7)).
    { apply submit_ok.
      - cbn [req_fds req_streams app plus req_parent req_file].
        change (req_parent (Ropen f z a) s7) with (parent f s7).
        rewrite (same_parent _ _ f ST7). exact C7.
      - cbn [req_file req_at]. replace (queued s7) with (queued s5) by (symmetry; apply ST7).
        split; [exact Q5|]. change (files s7) with (files s6). change (flight s7) with (flight s6). rewrite FI6, FL6. split; [|split].
        + intros J. apply NF, (k_flight _ _ _ _ K3'), J.
        + rewrite (same_parent _ _ f ST7). rewrite (same_parent s3 s5 f (proj1 K5)). exact HA3.
        + destruct (fd (files s3 f)) eqn:S; [|reflexivity]. exfalso.
          destruct (k_fd _ _ _ _ K3' f FN) as [[]|J]; [congruence|exact (NF J)]. }
    split; [split; [|exact C8]; apply (tree_same s5); [exact ST6|exact T5]|]. exact (same_trans _ _ _ ST5 ST6).
  - set (s6 := if got then freedir s5 else s5).
    assert (C6 : cache (Extra (bumped (parent f s6) p) d 0 n) s6).
    { unfold s6. destruct got; [exact (freedir_ok B _ _ _ _ _ C5)|exact C5]. }
    assert (ST6 : same_tree s5 s6) by (unfold s6; destruct got; repeat split).
    destruct (drop_request p d n s6 f (tree_same _ _ ST6 T5) C6) as (s7 & E7 & I7 & ST7).
    { replace (queued s6) with (queued s5) by (symmetry; apply ST6). exact Q5. }
    fold s6. rewrite E7. exists false, s7. split; [reflexivity|]. split; [exact I7|]. exact (same_trans _ _ _ ST5 (same_trans _ _ _ ST6 ST7)).
Qed.

Lemma ioq_stat_ok p d n s f :
  inv (Extra p d 0 n) s -> In f (queued s) -> ~ In f (ffiles (flight s)) ->
  exists b s', ioq_stat f s = Some (b, s') /\ inv (Extra p d 0 n) s' /\ same_tree s s'.
Proof.
  intros I0 Q NF. unfold ioq_stat.
  destruct (ioq_reserve_ok B _ _ I0) as (room & s1 & E1 & I1 & K1). rewrite E1. cbn [xp] in K1.
  destruct room; [|exists false, s1; split; [reflexivity|]; split; [exact I1|exact (k_tree _ _ _ _ K1)]].
  destruct (pin_parent_ok p d n s1 f I1) as (ok & a & s2 & E2 & K2 & FL2 & H2). rewrite E2.
  destruct ok; [|subst s2; exists false, s1; split; [reflexivity|]; split; [exact I1|exact (k_tree _ _ _ _ K1)]]. destruct H2 as [I2 HA].
  pose proof (same_parent _ _ f (k_tree _ _ _ _ K2)) as P2. rewrite <- P2 in I2, HA.
  pose proof (pick_ch s2) as [l PC]. destruct (pick s2) as [c s3] eqn:P3. cbn [snd] in PC. subst s3.
  destruct I2 as [T2 C2]. pose proof (cache_ch B _ _ l C2) as C3. set (s3 := set_ch l s2) in *.
  assert (T3 : tree s3) by exact (tree_same s2 s3 ltac:(repeat split) T2).
  assert (K12 : calm nobody p s s2) by exact (calm_trans _ _ _ _ _ K1 K2).
  assert (Q3 : In f (queued s3)) by (replace (queued s3) with (queued s) by (symmetry; apply (k_tree _ _ _ _ K12)); exact Q).
  destruct (c =? 0).
  - exists true, (set_flight (flight s3 ++ [Rstat f a]) s3). split; [reflexivity|]. split; [split; [(apply (tree_same s3); [repeat split|exact T3])|]|exact (k_tree _ _ _ _ K12)].
    apply submit_ok; [exact C3|]. cbn [req_file req_at]. split; [exact Q3|]. split; [|split; [|exact I]].
    + intros J. apply NF, (k_flight _ _ _ _ K12), J.
    + change (parent f s3) with (parent f s2). destruct (parent f s2); [apply HA|exact HA].
  - destruct (drop_request p d n s3 f T3 C3 Q3) as (s4 & E4 & I4 & ST4). rewrite E4. exists false, s4. split; [reflexivity|]. split; [exact I4|]. exact (same_trans _ _ _ (k_tree _ _ _ _ K12) ST4).
Qed.

End Closes.
