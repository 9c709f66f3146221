(** * Calls of cache functions go well *)

From Coq Require Import List Arith ZArith Bool Lia.
Import ListNotations.
From Verif Require Import CacheModel CacheSpec CacheLists CacheInv CachePrims CacheMoves.

(** What does not change while a function runs.  [E] are the files that it is
    asked to open, and [p] are the pins that are held meanwhile. *)
Record calm (E : nat -> Prop) (p : nat -> nat) (s s' : st) : Prop := Calm {
  k_tree : same_tree s s';
  k_flight : incl (ffiles (flight s')) (ffiles (flight s));
  k_fd : forall f, fd (files s f) = None -> fd (files s' f) <> None -> E f \/ In f (ffiles (flight s));
  k_dir : forall f, dir (files s f) = false -> dir (files s' f) = true -> In f (ffiles (flight s));
  k_keep : forall f, 0 < p f -> fd (files s' f) = fd (files s f);
  k_fall : forall f, dir (files s f) = true -> fd (files s' f) <> None ->
    dir (files s' f) = true \/ E f \/ In f (ffiles (flight s));
}.

Definition nobody : nat -> Prop := fun _ => False.

Lemma calm_refl E p s : calm E p s s.
Proof.
  constructor; auto using same_refl, incl_refl; try tauto.
  intros f D D'. congruence.
Qed.

Lemma calm_trans E p s1 s2 s3 : calm E p s1 s2 -> calm E p s2 s3 -> calm E p s1 s3.
Proof.
  intros [T1 F1 A1 D1 K1 L1] [T2 F2 A2 D2 K2 L2].
  constructor.
  - exact (same_trans _ _ _ T1 T2).
  - eapply incl_tran; eassumption.
  - intros f N S. destruct (fd (files s2 f)) eqn:E2.
    + apply A1; congruence.
    + destruct (A2 f E2 S) as [H|H]; [left; exact H|right; apply F1, H].
  - intros f N S. destruct (dir (files s2 f)) eqn:E2.
    + apply D1; assumption.
    + apply F1, D2; assumption.
  - intros f P. rewrite K2, K1 by exact P. reflexivity.
  - intros f D S. destruct (fd (files s2 f)) as [d|] eqn:E2.
    + destruct (L1 f D) as [D'|H]; [congruence| |right; exact H].
      destruct (L2 f D' S) as [H|[H|H]]; [left; exact H|right; left; exact H|right; right; apply F1, H].
    + right. destruct (A2 f E2 S) as [H|H]; [left; exact H|right; apply F1, H].
Qed.

Lemma calm_weaken (E E' : nat -> Prop) (p p' : nat -> nat) s s' :
  (forall f, E f -> E' f) -> (forall f, p' f <= p f) -> calm E p s s' -> calm E' p' s s'.
Proof.
  intros HE HP [T F A D K L]. constructor; auto.
  - intros f N S. destruct (A f N S); auto.
  - intros f P. apply K. specialize (HP f). lia.
  - intros f N S. destruct (L f N S) as [|[|]]; auto.
Qed.

(** A change that leaves the files alone, or only their pins. *)
Lemma calm_same E p s s' :
  same_tree s s' -> incl (ffiles (flight s')) (ffiles (flight s)) ->
  (forall f, fd (files s' f) = fd (files s f) /\ dir (files s' f) = dir (files s f)) -> calm E p s s'.
Proof.
  intros T F H. constructor; auto.
  - intros f. destruct (H f) as [-> _]. congruence.
  - intros f. destruct (H f) as [_ ->]. congruence.
  - intros f _. apply H.
  - intros f. destruct (H f) as [_ ->]. auto.
Qed.

Lemma bump_le f p g : p g <= bump f p g.
Proof. unfold bump. destruct (g =? f); lia. Qed.

Lemma bumped_le o p g : p g <= bumped o p g.
Proof. destruct o; cbn [bumped]; [apply bump_le|lia]. Qed.

Section Calls.

Variable B : nat.

Notation cache := (cache B).
Notation inv := (inv B).

Lemma pick_ok x s c s' : inv x s -> pick s = (c, s') ->
  inv x s' /\ calm nobody (xp x) s s' /\ s' = set_ch (ch s') s.
Proof.
  intros [T C] E. destruct (pick_ch s) as (l & P). rewrite E in P. cbn [snd] in P. subst s'.
  split; [split|split].
  - apply (tree_same s); [apply same_ch|exact T].
  - apply cache_ch, C.
  - apply calm_same; [apply same_ch|apply incl_refl|]. split; reflexivity.
  - reflexivity.
Qed.

Lemma idle_open x s f : cache x s -> In f (idle (log s)) -> exists d, fd (files s f) = Some d /\ pins (files s f) = 0 /\ alive (files s f) = true.
Proof.
  intros C I. apply (c_idle _ _ _ C) in I. destruct I as [O Z].
  destruct (fd (files s f)) as [d|] eqn:F; [|congruence]. exists d. repeat split; auto.
  eapply alive_open; [exact C|congruence].
Qed.

Lemma eviction_in l f : hd_error (eviction l) = Some f -> In f (idle l).
Proof.
  unfold eviction. rewrite <- (order_rev (root l) (idle l)). intros H.
  apply (order_in (root l) (idle l)), in_rev. destruct (rev _); [discriminate|]. injection H as ->. left; reflexivity.
Qed.

(** ** Making room *)

Lemma cache_pop_ok x s : inv x s ->
  exists b s', cache_pop s = Some (b, s') /\ inv x s' /\ calm nobody (xp x) s s' /\ flight s' = flight s /\
    (if b then cap s' = S (cap s) /\ S (length (live (log s'))) = length (live (log s)) else s' = s).
Proof.
  intros [T C]. unfold cache_pop.
  assert (TE : tail (lru s) = hd_error (eviction (log s))).
  { rewrite (c_lru _ _ _ C), tail_order. reflexivity. }
  rewrite TE. destruct (hd_error (eviction (log s))) as [f|] eqn:V.
  2: { exists false, s. split; [reflexivity|]. split; [split; assumption|]. split; [apply calm_refl|]. split; reflexivity. }
  pose proof (eviction_in _ _ V) as I.
  pose proof (evict_event _ _ _ _ C V) as C1. set (s1 := emit (Evict f) s) in *.
  destruct (idle_open _ _ _ C I) as (d & F & Z & A).
  destruct x as [p xd0 k n].
  assert (T1 : tree s1) by (apply (tree_same s); [repeat split|exact T]).
  set (l := order (root (log s1)) (without f (idle (log s1)))). set (t := top (root (log s1)) (without f (idle (log s1)))).
  destruct (uncache_ok B p xd0 k n s1 f d l t T1 C1 F Z eq_refl eq_refl) as [C2 ST2].
  set (y := set_fd None (set_dirp false (files s1 f))) in *.
  set (s2 := set_lru l t (emit (Uncached f) (put f y s1))) in *.
  pose proof (release_ok B _ _ _ _ _ _ C2) as C3. set (s3 := set_cap (S (cap s2)) (emit (Release d) s2)) in *.
  set (s4 := if dir (files s f) then freedir s3 else s3).
  assert (C4 : cache (Extra p xd0 k n) s4).
  { unfold s4. change (files s1 f) with (files s f) in C3. destruct (dir (files s f)); [apply freedir_ok|]; exact C3. }
  assert (ST : same_tree s s4).
  { unfold s4. destruct (dir (files s f)); exact ST2. }
  assert (FL : file_close f s1 = Some s4).
  { unfold file_close. rewrite the_alive by exact A. change (files s1 f) with (files s f). rewrite F, Z. cbn [Nat.eqb].
    unfold cache_remove.
    rewrite (lru_remove_ok _ f (root (log s)) (idle (log s))).
    - unfold s4. destruct (dir (files s f)); reflexivity.
    - rewrite files_put, Nat.eqb_refl. exact A.
    - destruct (dir (files s f)); exact (c_lru _ _ _ C).
    - destruct (dir (files s f)); exact (c_target _ _ _ C).
    - exact (c_idle_nd _ _ _ C).
    - exact I. }
  rewrite FL. exists true, s4. split; [reflexivity|].
  assert (FI : forall g, files s4 g = if g =? f then y else files s g).
  { intros g. unfold s4. destruct (dir (files s f)); reflexivity. }
  split; [|split; [|split]].
  - split; [apply (tree_same s); assumption|exact C4].
  - constructor.
    + exact ST.
    + unfold s4. destruct (dir (files s f)); apply incl_refl.
    + intros g N S. rewrite FI in S. destruct (Nat.eqb_spec g f) as [E|]; [destruct S; reflexivity|congruence].
    + intros g N S. rewrite FI in S. destruct (Nat.eqb_spec g f) as [E|]; [discriminate|congruence].
    + intros g P. rewrite FI. destruct (Nat.eqb_spec g f) as [E|]; [|reflexivity]. subst g.
      pose proof (c_pins _ _ _ C f) as PP. cbn [xp] in *. lia.
    + intros g N S. rewrite FI in S |- *. destruct (Nat.eqb_spec g f) as [E|]; [destruct S; reflexivity|]. left. exact N.
  - unfold s4. destruct (dir (files s f)); reflexivity.
  - split; [unfold s4; destruct (dir (files s f)); reflexivity|].
    assert (LV : live (log s4) = without d (live (log s))) by (unfold s4; destruct (dir (files s f)); reflexivity).
    rewrite LV. apply without_length; [apply C|]. apply (c_live _ _ _ C). left. exists f. exact F.
Qed.

(** ** Responses *)

Lemma leaf_parent s f p : tree s -> In f (queued s) -> parent f s = Some p -> ~ early s p /\ alive (files s p) = true.
Proof.
  intros T Q P. pose proof (t_queued _ T f Q) as A. split.
  - intros E. exact (t_leaf _ T p E f A P).
  - pose proof (t_up _ T f (t_lt _ T f A)) as U. unfold parent in P. destruct (up (files s f)) as [|q r]; [discriminate|].
    injection P as ->. apply U, A.
Qed.

Lemma unpin_parent_ok p d k n s f u :
  tree s -> cache (Extra (bumped (parent f s) p) d k n) s -> In f (queued s) ->
  exists s', unpin_parent f u s = Some s' /\ cache (Extra p d k n) s' /\ same_tree s s' /\ flight s' = flight s /\
    cap s' = cap s /\ live (log s') = live (log s) /\
    (forall g, fd (files s' g) = fd (files s g) /\ dir (files s' g) = dir (files s g)).
Proof.
  intros T C Q. unfold unpin_parent. destruct (parent f s) as [q|] eqn:P; cbn [bumped] in C.
  2: { exists s. split; [reflexivity|]. split; [exact C|]. repeat split. }
  destruct (unpin_ok B _ _ _ _ _ _ C) as (s1 & E & C1 & ST & FL & CP & TC & LG & FD). rewrite E.
  assert (LV : live (log s1) = live (log s)) by (rewrite LG; reflexivity).
  destruct (leaf_parent _ _ _ T Q P) as [NE A].
  destruct (u && dir (files s1 q) && (pins (files s1 q) =? 0)) eqn:D.
  - unfold delayed_unwrap. rewrite the_alive by (rewrite (same_alive _ _ q ST); exact A).
    apply andb_true_iff in D. destruct D as [D _]. apply andb_true_iff in D. destruct D as [_ D]. rewrite D.
    destruct (existsb (Nat.eqb q) (to_close s1)).
    + exists s1. exact (conj eq_refl (conj C1 (conj ST (conj FL (conj CP (conj LV FD)))))).
    + eexists. split; [reflexivity|]. split; [|exact (conj ST (conj FL (conj CP (conj LV FD))))].
      apply to_close_ok; [exact C1|]. intros g I. apply in_app_iff in I. destruct I as [I|[<-|[]]]; [left; exact I|].
      right. rewrite (same_alive _ _ q ST). split; [exact A|]. split; [rewrite (same_early _ _ q ST); exact NE|].
      intros _. exists f. rewrite (same_parent _ _ f ST). split; [|exact P].
      replace (queued s1) with (queued s) by (symmetry; apply ST). exact Q.
  - exists s1. exact (conj eq_refl (conj C1 (conj ST (conj FL (conj CP (conj LV FD)))))).
Qed.

Lemma ffiles_in r f l : In r l -> req_file r = Some f -> In f (ffiles l).
Proof.
  intros I E. unfold ffiles. apply in_flat_map. exists r. split; [exact I|]. unfold req_files. rewrite E. left; reflexivity.
Qed.

Lemma ffiles_ex f l : In f (ffiles l) -> exists r, In r l /\ req_file r = Some f.
Proof.
  intros I. unfold ffiles in I. apply in_flat_map in I. destruct I as (r & I & J). exists r. split; [exact I|].
  unfold req_files in J. destruct (req_file r); [|destruct J]. destruct J as [->|[]]. reflexivity.
Qed.

Lemma use_ok x s a f : tree s -> cache x s ->
  match parent f s with Some q => a = fd (files s q) | None => a = None end ->
  cache x (use a s) /\ same_tree s (use a s).
Proof.
  intros T C H. unfold use. destruct a as [d|]; [|split; [exact C|apply same_refl]].
  split; [|repeat split]. apply cache_use; [exact C|]. apply (c_live _ _ _ C). left.
  destruct (parent f s) as [q|]; [|discriminate]. exists q. symmetry. exact H.
Qed.

Lemma use_same a s : count (use a s) = count s /\ files (use a s) = files s /\ flight (use a s) = flight s /\
  cap (use a s) = cap s /\ live (log (use a s)) = live (log s) /\ queued (use a s) = queued s /\ to_close (use a s) = to_close s.
Proof. destruct a; repeat split. Qed.

Lemma ioq_pop_ok x s : inv x s ->
  exists b s', ioq_pop s = Some (b, s') /\ inv x s' /\ calm nobody (xp x) s s' /\
    (if b then length (flight s') < length (flight s) else True).
Proof.
  intros I0. unfold ioq_pop. destruct (pick s) as [c s0] eqn:P0.
  destruct (pick_ok _ _ _ _ I0 P0) as ([T C] & K0 & E0).
  assert (FL0 : flight s0 = flight s) by (rewrite E0; reflexivity).
  destruct (take c (flight s0)) as [[r rest]|] eqn:TK.
  2: { exists false, s0. split; [reflexivity|]. split; [split; assumption|]. split; [exact K0|exact I]. }
  destruct (take_split _ _ _ _ TK) as (a & b & FE & ->).
  destruct x as [p xd0 k n]. cbn [xp] in *.
  pose proof (take_ok B _ _ _ _ _ _ _ _ C FE) as C1.
  set (s1 := set_flight (a ++ b) s0) in *.
  assert (ST1 : same_tree s0 s1) by (repeat split).
  assert (T1 : tree s1) by (apply (tree_same s0); assumption).
  assert (IF1 : incl (ffiles (flight s1)) (ffiles (flight s0))).
  { rewrite FE. change (flight s1) with (a ++ b). rewrite !ffiles_app. change (ffiles (r :: b)) with (req_files r ++ ffiles b).
    intros z Z. apply in_app_iff in Z. rewrite !in_app_iff. tauto. }
  assert (LF : forall s', flight s' = flight s1 -> length (flight s') < length (flight s)).
  { intros s' ->. rewrite <- FL0, FE. change (flight s1) with (a ++ b). rewrite !app_length. cbn [length]. lia. }
  assert (IR : In r (flight s0)) by (rewrite FE; apply in_app_iff; right; left; reflexivity).
  assert (KS : forall s', same_tree s1 s' -> flight s' = flight s1 ->
             (forall f, fd (files s' f) = fd (files s0 f) /\ dir (files s' f) = dir (files s0 f)) -> calm nobody p s s').
  { intros s' ST FL FD. eapply calm_trans; [exact K0|]. apply calm_same.
    - exact (same_trans _ _ _ ST1 ST).
    - rewrite FL. exact IF1.
    - exact FD. }
  destruct r as [f d ad|f ad|d|d].
  - (* Ropen *)
    assert (RF : req_file (Ropen f d ad) = Some f) by reflexivity.
    assert (IQ : In f (ffiles (flight s0))) by (apply (ffiles_in (Ropen f d ad)); auto).
    assert (Q : In f (queued s1)) by (apply (c_queued _ _ _ C), IQ).
    assert (A : alive (files s1 f) = true) by (apply (t_queued _ T1), Q).
    assert (FN : fd (files s1 f) = None) by (eapply (c_open _ _ _ C); exact IR).
    rewrite the_alive by exact A.
    pose proof (c_at _ _ _ C _ _ IR RF) as AT.
    change (req_parent (Ropen f d ad) s0) with (parent f s0) in C1. cbn [req_fds app req_streams] in C1.
    assert (C2 : cache (Extra (bumped (parent f (use ad s1)) p) (d :: xd0) k (S n)) (use ad s1) /\ same_tree s1 (use ad s1)).
    { destruct (use_ok _ s1 ad f T1 C1 AT) as [C2 ST2]. split; [|exact ST2].
      rewrite (same_parent _ _ f ST2). exact C2. }
    destruct C2 as [C2 ST2]. destruct (use_same ad s1) as (_ & UF & UL & UC & _ & UQ & _).
    destruct (unpin_parent_ok p (d :: xd0) k (S n) (use ad s1) f true (tree_same _ _ ST2 T1) C2) as (s2 & E2 & C2' & ST2' & FL2 & CP2 & _ & FD2).
    { rewrite UQ. exact Q. }
    rewrite E2.
    assert (ST12 : same_tree s1 s2) by (eapply same_trans; eassumption).
    assert (T2 : tree s2) by (apply (tree_same s1); assumption).
    destruct (pick (set_cap (S (cap s2)) s2)) as [c' s4] eqn:P4.
    destruct (pick_ch (set_cap (S (cap s2)) s2)) as (l & PC). rewrite P4 in PC. cbn [snd] in PC. subst s4.
    destruct (Nat.eqb_spec c' 0) as [->|NC].
    + pose proof (cache_ch B _ _ l (cap_up B _ _ _ _ _ C2')) as C4.
      set (s4 := set_ch l (set_cap (S (cap s2)) s2)) in *.
      assert (F4 : forall g, files s4 g = files s2 g) by reflexivity.
      assert (A4 : alive (files s4 f) = true) by (rewrite F4, (same_alive _ _ f ST12); exact A).
      assert (N4 : fd (files s4 f) = None) by (rewrite F4, (proj1 (FD2 f)), UF; exact FN).
      assert (FL4 : flight s4 = a ++ b) by (change (flight s4) with (flight s2); rewrite FL2, UL; reflexivity).
      assert (D4 : dir (files s4 f) = false).
      { destruct (dir (files s4 f)) eqn:DD; [|reflexivity]. destruct (c_dir _ _ _ C4 f DD). exact N4. }
      unfold file_set_dir. rewrite the_alive by exact A4. rewrite D4, N4.
      destruct (cached_ok B p xd0 k n s4 f d true (set_fd (Some d) (set_dirp true (files s4 f)))) as (s5 & E5 & C5 & ST5 & FL5 & TC5 & FO5 & FY5).
      * apply (tree_same s2); [repeat split|exact T2].
      * exact C4.
      * exact A4.
      * exact N4.
      * change (cap s4) with (S (cap s2)). lia.
      * reflexivity.
      * intros d1 a1 J. rewrite FL4 in J. pose proof (c_files_nd _ _ _ C) as ND. rewrite FE, ffiles_app in ND.
        change (ffiles (Ropen f d ad :: b)) with (f :: ffiles b) in ND. apply NoDup_remove_2 in ND. apply ND.
        rewrite <- ffiles_app. apply (ffiles_in (Ropen f d1 a1)); [exact J|reflexivity].
      * unfold set_fd, set_dirp. cbn [up fd dir pins refs alive]. rewrite A4. reflexivity.
      * rewrite E5. exists true, s5. split; [reflexivity|].
        assert (STF : same_tree s1 s5). { eapply same_trans; [exact ST12|]. exact ST5. }
        split; [|split].
        -- split; [apply (tree_same s1); assumption|exact C5].
        -- eapply calm_trans; [exact K0|]. constructor.
           ++ exact (same_trans _ _ _ ST1 STF).
           ++ rewrite FL5, FL4. exact IF1.
           ++ intros g N S. destruct (Nat.eq_dec g f) as [->|NE]; [right; exact IQ|].
              rewrite FO5, F4, (proj1 (FD2 g)), UF in S by exact NE. change (files s1 g) with (files s0 g) in S. congruence.
           ++ intros g N S. destruct (Nat.eq_dec g f) as [->|NE]; [exact IQ|].
              rewrite FO5, F4, (proj2 (FD2 g)), UF in S by exact NE. change (files s1 g) with (files s0 g) in S. congruence.
           ++ intros g G. destruct (Nat.eq_dec g f) as [->|NE].
              ** pose proof (c_pins _ _ _ C f) as PP. cbn [xp] in PP. destruct (c_pin _ _ _ C f); [lia|exact FN].
              ** rewrite FO5, F4, (proj1 (FD2 g)), UF by exact NE. reflexivity.
           ++ intros g N S. destruct (Nat.eq_dec g f) as [->|NE]; [right; right; exact IQ|].
              left. rewrite FO5, F4, (proj2 (FD2 g)), UF by exact NE. exact N.
        -- apply LF. rewrite FL5. exact FL4.
    + pose proof (freedir_ok B _ _ _ _ _ (release_ok B _ _ _ _ _ _ (cache_ch B _ _ l C2'))) as C5.
      eexists true, _. split; [reflexivity|]. split; [|split].
      * split; [|exact C5]. apply (tree_same s2); [repeat split|exact T2].
      * apply KS.
        -- eapply same_trans; [exact ST12|repeat split].
        -- change (flight s2 = flight s1). rewrite FL2. exact UL.
        -- intros g. change (fd (files s2 g) = fd (files s0 g) /\ dir (files s2 g) = dir (files s0 g)).
           destruct (FD2 g) as [-> ->]. rewrite UF. split; reflexivity.
      * apply LF. change (flight s2 = flight s1). rewrite FL2. exact UL.
  - (* Rstat *)
    assert (RF : req_file (Rstat f ad) = Some f) by reflexivity.
    assert (Q : In f (queued s1)) by (apply (c_queued _ _ _ C), (ffiles_in (Rstat f ad)); auto).
    assert (A : alive (files s1 f) = true) by (apply (t_queued _ T1), Q).
    rewrite the_alive by exact A.
    pose proof (c_at _ _ _ C _ _ IR RF) as AT.
    change (req_parent (Rstat f ad) s0) with (parent f s0) in C1. cbn [req_fds app req_streams plus] in C1.
    assert (C2 : cache (Extra (bumped (parent f (use ad s1)) p) xd0 k n) (use ad s1) /\ same_tree s1 (use ad s1)).
    { destruct (use_ok _ s1 ad f T1 C1 AT) as [C2 ST2]. split; [|exact ST2].
      rewrite (same_parent _ _ f ST2). exact C2. }
    destruct C2 as [C2 ST2]. destruct (use_same ad s1) as (_ & UF & UL & UC & _ & UQ & _).
    destruct (unpin_parent_ok p xd0 k n (use ad s1) f true (tree_same _ _ ST2 T1) C2) as (s2 & E2 & C2' & ST2' & FL2 & CP2 & _ & FD2).
    { rewrite UQ. exact Q. }
    rewrite E2.
    assert (ST12 : same_tree s1 s2) by (eapply same_trans; eassumption).
    exists true, s2. split; [reflexivity|]. split; [|split].
    + split; [apply (tree_same s1); assumption|exact C2'].
    + apply KS; [exact ST12|rewrite FL2; exact UL|]. intros g. destruct (FD2 g) as [-> ->]. rewrite UF. split; reflexivity.
    + apply LF. rewrite FL2. exact UL.
  - (* Rclose *)
    cbn [req_parent req_file bumped req_fds app req_streams plus] in C1.
    pose proof (release_ok B _ _ _ _ _ _ C1) as C2.
    eexists true, _. split; [reflexivity|]. split; [|split].
    + split; [|exact C2]. apply (tree_same s1); [repeat split|exact T1].
    + apply KS; [repeat split|reflexivity|]. intros g. split; reflexivity.
    + apply LF. reflexivity.
  - (* Rclosedir *)
    cbn [req_parent req_file bumped req_fds app req_streams plus] in C1.
    pose proof (freedir_ok B _ _ _ _ _ (release_ok B _ _ _ _ _ _ C1)) as C2.
    eexists true, _. split; [reflexivity|]. split; [|split].
    + split; [|exact C2]. apply (tree_same s1); [repeat split|exact T1].
    + apply KS; [repeat split|reflexivity|]. intros g. split; reflexivity.
    + apply LF. reflexivity.
Qed.

(** ** Reserving *)

Lemma ioq_reserve_ok x s : inv x s ->
  exists b s', ioq_reserve s = Some (b, s') /\ inv x s' /\ calm nobody (xp x) s s'.
Proof.
  intros I0. unfold ioq_reserve. destruct (pick s) as [c s1] eqn:P.
  destruct (pick_ok _ _ _ _ I0 P) as (I1 & K & _).
  destruct c as [|[|c]].
  - exists true, s1. auto.
  - exists false, s1. auto.
  - destruct (ioq_pop_ok _ _ I1) as (b & s2 & E & I2 & K2 & _). exists b, s2.
    split; [exact E|]. split; [exact I2|]. eapply calm_trans; eassumption.
Qed.

Lemma reserve_loop_ok x : forall fuel s, inv x s -> length (flight s) < fuel ->
  exists b s', reserve_loop fuel s = Some (b, s') /\ inv x s' /\ calm nobody (xp x) s s' /\ (b = true -> 0 < cap s').
Proof.
  induction fuel as [|fuel IH]; intros s I0 L; [lia|]. cbn [reserve_loop].
  destruct (ioq_pop_ok _ _ I0) as (b & s1 & E & I1 & K & LT). rewrite E. destruct b.
  - destruct (Nat.eqb_spec (cap s1) 0) as [Z|NZ].
    + destruct (IH s1 I1 ltac:(lia)) as (b & s2 & E2 & I2 & K2 & R). exists b, s2.
      split; [exact E2|]. split; [exact I2|]. split; [|exact R]. eapply calm_trans; eassumption.
    + exists true, s1. split; [reflexivity|]. split; [exact I1|]. split; [exact K|]. intros _. lia.
  - exists false, s1. split; [reflexivity|]. split; [exact I1|]. split; [exact K|]. discriminate.
Qed.

Lemma cache_reserve_ok x s : inv x s ->
  exists b s', cache_reserve s = Some (b, s') /\ inv x s' /\ calm nobody (xp x) s s' /\ (b = true -> 0 < cap s').
Proof.
  intros I0. unfold cache_reserve. destruct (Nat.eqb_spec (cap s) 0) as [Z|NZ].
  - destruct (reserve_loop_ok x (S (length (flight s))) s I0 ltac:(lia)) as (b & s1 & E & I1 & K & R). rewrite E. destruct b.
    + exists true, s1. auto.
    + destruct (cache_pop_ok _ _ I1) as (b & s2 & E2 & I2 & K2 & _ & H). rewrite E2. destruct b.
      * destruct H as [CP _]. rewrite CP. cbn [Nat.eqb]. exists true, s2. split; [reflexivity|]. split; [exact I2|].
        split; [eapply calm_trans; eassumption|]. lia.
      * exists false, s2. split; [reflexivity|]. split; [exact I2|].
        split; [eapply calm_trans; eassumption|]. discriminate.
  - exists true, s. split; [reflexivity|]. split; [exact I0|]. split; [apply calm_refl|]. lia.
Qed.

End Calls.
