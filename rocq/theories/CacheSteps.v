(** * Every step of the walk goes well *)

From Coq Require Import List Arith ZArith Bool Lia.
Import ListNotations.
From Verif Require Import CacheModel CacheSpec CacheLists CacheInv CachePrims CacheMoves CacheCalls CacheOpens CacheCloses.

Definition zp : nat -> nat := fun _ => 0.
Definition zx : extra := Extra zp [] 0 0.

Section Steps.

Variable B : nat.

Notation cache := (cache B).
Notation inv := (inv B).

(** What holds between two steps. *)
Record good (s : st) : Prop := Good {
  g_inv : inv zx s;
  g_taken : forall f, cur s = Some f -> now s = Taken -> fd (files s f) <> None -> dir (files s f) = true;
  g_dead : forall f, cur s = Some f -> now s = Dead -> refs (files s f) = 0;
}.

(** ** Changing what the walk does *)

Lemma walk_cache p p' d k n s q c m :
  cache (Extra p d k n) s ->
  (forall f, reading (set_walk q c m s) f + p' f = reading s f + p f) ->
  (forall f, In f (ffiles (flight s)) -> In f q) ->
  (forall f, In f q -> fd (files s f) <> None -> dir (files s f) = true) ->
  (forall f, In f (to_close s) -> ~ early (set_walk q c m s) f) ->
  (climbing (set_walk q c m s) -> forall z, In z (to_close s) -> exists f, In f q /\ parent f s = Some z) ->
  cache (Extra p' d k n) (set_walk q c m s).
Proof.
  intros C HP HQ HE HL HC. destruct C. cbn [xp xd xk xs] in *. constructor; try assumption.
  intros f. cbn [xp]. change (inpins (set_walk q c m s) f) with (inpins s f).
  change (pins (files (set_walk q c m s) f)) with (pins (files s f)). rewrite c_pins. specialize (HP f). lia.
Qed.

Lemma own_queued s f : tree s -> cur s = Some f -> own s f = match now s with Dead => 0 | _ => 1 end.
Proof.
  intros T C. unfold own. rewrite C, Nat.eqb_refl. destruct (t_cur _ T f C) as [_ NQ].
  replace (is_queued f s) with false; [reflexivity|]. symmetry. apply Bool.not_true_iff_false.
  unfold is_queued. rewrite existsb_in. exact NQ.
Qed.

Lemma mode_tree s f m : tree s -> cur s = Some f -> now s <> Dead -> m <> Dead -> m <> Taken ->
  tree (set_walk (queued s) (cur s) m s).
Proof.
  intros T C N M MT. pose proof T as [U L R P ND Q CU LF]. constructor; unf; flds; try assumption.
  - intros g A. change (kids _ g) with (kids s g). rewrite (R g A). f_equal. unfold own. unf. flds.
    change (is_queued g _) with (is_queued g s). rewrite C. destruct (f =? g); [|reflexivity].
    destruct (now s) eqn:X, m; congruence.
  - intros g A. destruct (P g A) as [H|[_ H]]; [left; exact H|congruence].
  - intros g [H|[H1 H2]] c A; [|flds_in H2; congruence]. apply (LF g); [left; exact H|exact A].
Qed.

Lemma mode_good s f m : inv zx s -> cur s = Some f -> now s <> Dead -> now s <> Reading ->
  m <> Dead -> m <> Taken -> m <> Reading -> m <> Dropping ->
  good (set_walk (queued s) (cur s) m s).
Proof.
  intros [T C] CU N1 N2 M1 M2 M3 M4. constructor.
  - split; [apply (mode_tree s f m); assumption|]. apply (walk_cache zp zp); try assumption.
    + intros g. unfold reading. unf. flds. rewrite CU. destruct (now s) eqn:X, m; try congruence; reflexivity.
    + apply (c_queued _ _ _ C).
    + apply (c_early _ _ _ C).
    + intros g J [E|[_ E]]; [|cbn [set_walk now] in E; congruence]. apply (c_late _ _ _ C g J). left. exact E.
    + intros [E|E]; cbn [set_walk now] in E; congruence.
  - intros g _ E. cbn [set_walk now] in E. congruence.
  - intros g _ E. cbn [set_walk now] in E. congruence.
Qed.

(** ** Opening *)

Lemma file_opendir_ok s f :
  inv zx s -> alive (files s f) = true -> ~ In f (queued s) -> fd (files s f) = None ->
  exists ok s', file_opendir f s = Some (ok, s') /\ inv zx s' /\ same_tree s s' /\ (ok = true -> fd (files s' f) <> None).
Proof.
  intros I0 A NQ FN. pose proof (not_flying B _ _ _ (proj2 I0) NQ) as NF. unfold file_opendir.
  destruct (file_open_ok B _ _ _ _ _ I0 A NQ FN) as (ok & s1 & E1 & [T1 C1] & K1 & R1). rewrite E1.
  pose proof (k_tree _ _ _ _ K1) as ST1.
  destruct ok.
  2: { exists false, s1. split; [reflexivity|]. split; [split; assumption|]. split; [exact ST1|discriminate]. }
  specialize (R1 eq_refl). destruct (allocdir true s1) as [got s2] eqn:E2.
  destruct (allocdir_ok B _ _ _ _ _ _ _ _ C1 E2) as (C2 & ST2 & FL2 & FI2 & CP2 & LV2 & TC2).
  assert (T2 : tree s2) by exact (tree_same _ _ ST2 T1).
  destruct got.
  2: { exists false, s2. split; [reflexivity|]. split; [split; assumption|]. split; [exact (same_trans _ _ _ ST1 ST2)|discriminate]. }
  pose proof (pick_ch s2) as [l PC]. destruct (pick s2) as [c s3] eqn:P3. cbn [snd] in PC. subst s3.
  pose proof (cache_ch B _ _ l C2) as C3. set (s3 := set_ch l s2) in *.
  assert (T3 : tree s3) by (apply (tree_same s2); [repeat split|exact T2]).
  assert (ST3 : same_tree s s3) by exact (same_trans _ _ _ ST1 ST2).
  assert (F3 : files s3 = files s1) by exact FI2.
  destruct (fd (files s3 f)) as [z|] eqn:FZ; [|rewrite F3 in FZ; congruence].
  assert (D3 : dir (files s3 f) = false).
  { rewrite F3. destruct (dir (files s1 f)) eqn:DD; [|reflexivity]. exfalso. apply NF, (k_dir _ _ _ _ K1 f); [|exact DD].
    destruct (dir (files s f)) eqn:DS; [|reflexivity]. destruct (c_dir _ _ _ (proj2 I0) f DS FN). }
  assert (A3 : alive (files s3 f) = true) by (rewrite (same_alive _ _ f ST3); exact A).
  destruct (c =? 0).
  - unfold file_set_dir. rewrite the_alive by exact A3. rewrite D3, FZ, Nat.eqb_refl.
    destruct (set_dir_ok B _ _ _ _ _ f T3 C3) as [C4 ST4]; [congruence|exact D3|].
    eexists true, _. split; [reflexivity|]. split; [split; [exact (tree_same _ _ ST4 T3)|exact C4]|].
    split; [exact (same_trans _ _ _ ST3 ST4)|]. intros _. rewrite files_put, Nat.eqb_refl. cbn [set_dirp fd]. congruence.
  - exists false, (freedir s3). split; [reflexivity|]. split; [|split; [exact ST3|discriminate]].
    split; [|exact (freedir_ok B _ _ _ _ _ C3)]. apply (tree_same s3); [repeat split|exact T3].
Qed.

Lemma opendir_good s f : good s -> cur s = Some f -> now s = Taken -> exists s', opendir f s = Some s' /\ good s'.
Proof.
  intros [I0 GT _] CU NW. pose proof I0 as [T C]. destruct (t_cur _ T f CU) as [A NQ].
  unfold opendir. rewrite the_alive by exact A.
  assert (H : exists ok s1, (if dir (files s f) then Some (true, s) else file_opendir f s) = Some (ok, s1) /\ inv zx s1 /\ same_tree s s1 /\
            (ok = true -> fd (files s1 f) <> None)).
  { destruct (dir (files s f)) eqn:D.
    - exists true, s. split; [reflexivity|]. split; [exact I0|]. split; [apply same_refl|]. intros _. apply (c_dir _ _ _ C), D.
    - apply file_opendir_ok; auto. destruct (fd (files s f)) eqn:F; [|reflexivity].
      rewrite (GT f CU NW) in D; congruence. }
  destruct H as (ok & s1 & E1 & [T1 C1] & ST1 & R1). rewrite E1.
  assert (CU1 : cur s1 = Some f) by (destruct ST1 as (_ & _ & -> & _); exact CU).
  assert (NW1 : now s1 = Taken) by (destruct ST1 as (_ & _ & _ & -> & _); exact NW).
  destruct ok.
  - specialize (R1 eq_refl). destruct (pin_ok B _ _ _ _ _ _ C1 R1) as (s2 & E2 & C2 & ST2 & FL2 & CP2 & LG2 & FD2). rewrite E2.
    assert (T2 : tree s2) by exact (tree_same _ _ ST2 T1).
    assert (CU2 : cur s2 = Some f) by (destruct ST2 as (_ & _ & -> & _); exact CU1).
    assert (NW2 : now s2 = Taken) by (destruct ST2 as (_ & _ & _ & -> & _); exact NW1).
    eexists. split; [reflexivity|]. constructor.
    + split; [apply (mode_tree s2 f Reading); congruence|]. apply (walk_cache (bump f zp) zp); try assumption.
      * intros g. unfold reading. unf. flds. rewrite CU2, NW2. unfold bump, zp. rewrite (Nat.eqb_sym g f). destruct (f =? g); reflexivity.
      * apply (c_queued _ _ _ C2).
      * apply (c_early _ _ _ C2).
      * intros g J [E|[_ E]]; [|unf; discriminate E]. apply (c_late _ _ _ C2 g J). left. exact E.
      * intros [E|E]; discriminate E.
    + intros g _ E. discriminate E.
    + intros g _ E. discriminate E.
  - eexists. split; [reflexivity|]. apply (mode_good s1 f Failed); try congruence. split; assumption.
Qed.

Lemma ensure_ok s f : inv zx s -> alive (files s f) = true -> ~ In f (queued s) ->
  exists s', ensure_open f s = Some s' /\ inv zx s' /\ calm (chain s f) zp s s'.
Proof.
  intros I0 A NQ. unfold ensure_open. rewrite the_alive by exact A. unfold is_open.
  destruct (fd (files s f)) eqn:F.
  - exists s. split; [reflexivity|]. split; [exact I0|apply calm_refl].
  - destruct (file_open_ok B _ _ _ _ _ I0 A NQ F) as (ok & s1 & E1 & I1 & K1 & R1). rewrite E1. exists s1. auto.
Qed.

(** Nothing changes for the current file, unless it is opened. *)
Lemma calm_good E s s' : good s -> inv zx s' -> calm E zp s s' ->
  (forall f, cur s = Some f -> now s = Taken -> ~ E f) -> good s'.
Proof.
  intros [I0 GT GD] I1 K H. pose proof (k_tree _ _ _ _ K) as (_ & _ & CU & NW & _). constructor.
  - exact I1.
  - rewrite CU, NW. intros f C N F.
    assert (NF : ~ In f (ffiles (flight s))).
    { eapply not_flying; [apply I0|]. apply (t_cur _ (proj1 I0) f C). }
    destruct (fd (files s f)) eqn:F0.
    + assert (D : dir (files s f) = true) by (apply GT; congruence).
      destruct (k_fall _ _ _ _ K f D F) as [X|[X|X]]; [exact X|destruct (H f C N X)|destruct (NF X)].
    + destruct (k_fd _ _ _ _ K f F0 F) as [X|X]; [destruct (H f C N X)|destruct (NF X)].
  - rewrite CU, NW. intros f C N. rewrite (same_refs _ _ f (k_tree _ _ _ _ K)). apply GD; assumption.
Qed.

Lemma ensure_good u s : good s -> exists s', step u Ensure s = Some s' /\ good s'.
Proof.
  intros G. pose proof G as [I0 GT GD]. pose proof I0 as [T C]. cbn [step].
  destruct (cur s) as [f|] eqn:CU; [|exists s; auto].
  destruct (t_cur _ T f CU) as [A NQ].
  assert (PAR : exists s', match parent f s with Some p => ensure_open p s | None => Some s end = Some s' /\ good s').
  { destruct (parent f s) as [p|] eqn:P; [|exists s; auto].
    destruct (parent_alive _ _ _ T A P) as (L & AP & EP & UP).
    destruct (ensure_ok s p I0 AP) as (s' & E & I' & K); [intros J; apply EP; left; exact J|].
    exists s'. split; [exact E|]. apply (calm_good _ _ _ G I' K).
    intros g CG NG [X|X].
    - assert (g = f) by congruence. lia.
    - assert (g = f) by congruence. subst g. destruct (ups s T _ p eq_refl AP) as [_ HU]. destruct (HU f X). lia. }
  destruct (now s) eqn:NW; try exact PAR.
  - destruct (ensure_ok s f I0 A NQ) as (s' & E & I' & K). exists s'. split; [exact E|]. apply (calm_good _ _ _ G I' K). congruence.
  - exists s; auto.
Qed.

(** ** Requests *)

Lemma in_flight_spec s f : in_flight f s = true <-> In f (ffiles (flight s)).
Proof.
  unfold in_flight. rewrite existsb_exists. split.
  - intros (r & J & E). destruct (req_file r) as [g|] eqn:R; [|discriminate]. apply Nat.eqb_eq in E. subst g.
    exact (ffiles_in r f _ J R).
  - intros J. destruct (ffiles_ex _ _ J) as (r & I & R). exists r. split; [exact I|]. rewrite R. apply Nat.eqb_refl.
Qed.

Lemma is_queued_spec s f : is_queued f s = true <-> In f (queued s).
Proof. unfold is_queued. apply existsb_in. Qed.

Lemma not_in_flight s f : negb (in_flight f s) = true -> ~ In f (ffiles (flight s)).
Proof. intros H J. apply in_flight_spec in J. rewrite J in H. discriminate. Qed.

Lemma idle_good s : inv zx s -> (forall f, cur s = Some f -> now s = Reading) -> good s.
Proof.
  intros I0 H. constructor; [exact I0| |]; intros f C N; rewrite (H f C) in N; discriminate.
Qed.

Lemma reading_cases s : match cur s, now s with None, _ | Some _, Reading => true | _, _ => false end = true ->
  forall f, cur s = Some f -> now s = Reading.
Proof. intros H f C. rewrite C in H. destruct (now s); congruence. Qed.

Lemma async_open_good u f s : good s -> exists s', step u (Async_open f) s = Some s' /\ good s'.
Proof.
  intros G. cbn [step].
  assert (H : (forall g, cur s = Some g -> now s = Reading) -> exists s',
    (if is_queued f s && negb (in_flight f s) && negb (is_open f s) then let* (_, s1) := ioq_opendir f s in Some s1 else Some s) = Some s' /\ good s').
  { intros R. destruct (is_queued f s && negb (in_flight f s) && negb (is_open f s)) eqn:E; [|exists s; auto].
    apply andb_true_iff in E. destruct E as [E O]. apply andb_true_iff in E. destruct E as [Q F].
    apply is_queued_spec in Q. apply not_in_flight in F.
    assert (FN : fd (files s f) = None) by (unfold is_open in O; destruct (fd (files s f)); [discriminate|reflexivity]).
    (* Only the invariant and what is current matters. *)
    destruct (ioq_opendir_ok B _ _ _ _ _ (g_inv _ G) Q F FN) as (b & s' & E & I' & ST). rewrite E. exists s'. split; [reflexivity|].
    apply idle_good; [exact I'|]. destruct ST as (_ & _ & -> & -> & _). exact R. }
  destruct (cur s) as [g|] eqn:CU; [destruct (now s) eqn:NW|]; try (exists s; auto; fail); apply H; congruence.
Qed.

Lemma async_stat_good u f s : good s -> exists s', step u (Async_stat f) s = Some s' /\ good s'.
Proof.
  intros G. cbn [step].
  assert (H : (forall g, cur s = Some g -> now s = Reading) -> exists s',
    (if is_queued f s && negb (in_flight f s) then let* (_, s1) := ioq_stat f s in Some s1 else Some s) = Some s' /\ good s').
  { intros R. destruct (is_queued f s && negb (in_flight f s)) eqn:E; [|exists s; auto].
    apply andb_true_iff in E. destruct E as [Q F].
    apply is_queued_spec in Q. apply not_in_flight in F.
    destruct (ioq_stat_ok B _ _ _ _ _ (g_inv _ G) Q F) as (b & s' & E & I' & ST). rewrite E. exists s'. split; [reflexivity|].
    apply idle_good; [exact I'|]. destruct ST as (_ & _ & -> & -> & _). exact R. }
  destruct (cur s) as [g|] eqn:CU; [destruct (now s) eqn:NW|]; try (exists s; auto; fail); apply H; congruence.
Qed.

Lemma respond_good u s : good s -> exists s', step u Respond s = Some s' /\ good s'.
Proof.
  intros G. cbn [step]. destruct (ioq_pop_ok B _ _ (g_inv _ G)) as (b & s' & E & I' & K & _). rewrite E. exists s'. split; [reflexivity|].
  apply (calm_good _ _ _ G I' K). intros f _ _ [].
Qed.

(** ** Queues *)

Lemma NoDup_snoc (f : nat) l : NoDup l -> ~ In f l -> NoDup (l ++ [f]).
Proof.
  intros ND N. apply NoDup_rev in ND. rewrite <- (rev_involutive (l ++ [f])). apply NoDup_rev.
  rewrite rev_app_distr. constructor; [rewrite <- in_rev; exact N|exact ND].
Qed.

Lemma remove1_without f l : NoDup l -> remove1 f l = without f l.
Proof.
  induction l as [|g l IH]; intros ND; [reflexivity|]. apply NoDup_cons_iff in ND. destruct ND as [N ND].
  unfold without. cbn [remove1 filter]. destruct (Nat.eqb_spec g f) as [E|E]; cbn [negb].
  - subst g. fold (without f l). symmetry. apply without_notin, N.
  - f_equal. apply IH, ND.
Qed.

Lemma queued_bool s s' g : (In g (queued s') <-> In g (queued s)) -> is_queued g s' = is_queued g s.
Proof.
  intros H. destruct (is_queued g s) eqn:E.
  - apply is_queued_spec, H, is_queued_spec, E.
  - apply Bool.not_true_iff_false. intros X. apply is_queued_spec, H, is_queued_spec in X. congruence.
Qed.

Lemma not_queued s g : ~ In g (queued s) -> is_queued g s = false.
Proof. intros N. apply Bool.not_true_iff_false. intros X. apply N, is_queued_spec, X. Qed.

Lemma take_good u f s : good s -> exists s', step u (Take f) s = Some s' /\ good s'.
Proof.
  intros G. pose proof G as [[T C] GT GD]. cbn [step]. destruct (cur s) eqn:CU; [exists s; auto|].
  destruct (is_queued f s && negb (in_flight f s)) eqn:E; [|exists s; auto].
  apply andb_true_iff in E. destruct E as [Q F]. pose proof Q as QB. apply is_queued_spec in Q. apply not_in_flight in F.
  eexists. split; [reflexivity|]. pose proof T as [U L R P ND QA CA LF].
  rewrite (remove1_without f _ ND). set (s' := set_walk (without f (queued s)) (Some f) Taken s).
  assert (EA : forall g, early s' g -> early s g).
  { intros g [J|[J _]]; left; [apply without_in in J; apply J|]. cbn [s' set_walk cur] in J. congruence. }
  assert (QS : forall g, In g (queued s') <-> In g (queued s) /\ g <> f) by (intros g; apply without_in).
  constructor.
  - split.
    + constructor; try assumption.
      * intros g A. change (kids s' g) with (kids s g). change (refs (files s' g)) with (refs (files s g)). rewrite (R g A). f_equal.
        unfold own. rewrite CU. cbn [s' set_walk cur now].
        destruct (Nat.eqb_spec f g) as [X|X].
        -- subst g. rewrite QB, not_queued; [reflexivity|]. rewrite QS. tauto.
        -- rewrite (queued_bool s s' g); [reflexivity|]. rewrite QS. intuition congruence.
      * intros g A. destruct (P g A) as [H|[H _]]; [left; exact H|congruence].
      * apply NoDup_filter, ND.
      * intros g J. apply QS in J. apply QA, J.
      * intros g J. cbn [s' set_walk cur] in J. injection J as <-. split; [apply QA, Q|]. rewrite QS. tauto.
      * intros g J c A. apply (LF g); [apply EA, J|exact A].
    + apply (walk_cache zp zp); try assumption.
      * intros g. unfold reading. rewrite CU. reflexivity.
      * intros g J. apply without_in. split; [apply (c_queued _ _ _ C), J|]. intros ->. exact (F J).
      * intros g J. apply without_in in J. apply (c_early _ _ _ C), J.
      * intros g J X. apply (c_late _ _ _ C g J), EA, X.
      * intros [X|X]; discriminate X.
  - intros g J _. cbn [s' set_walk cur] in J. injection J as <-. apply (c_early _ _ _ C), Q.
  - intros g _ J. discriminate J.
Qed.

Lemma requeue_good u s : good s -> exists s', step u Requeue s = Some s' /\ good s'.
Proof.
  intros G. pose proof G as [[T C] GT GD]. cbn [step]. destruct (cur s) as [f|] eqn:CU; [|exists s; auto].
  destruct (now s) eqn:NW; try (exists s; auto; fail).
  destruct (is_open f s) eqn:O; [exists s; auto|].
  assert (FN : fd (files s f) = None) by (unfold is_open in O; destruct (fd (files s f)); [discriminate|reflexivity]).
  eexists. split; [reflexivity|]. pose proof T as [U L R P ND QA CA LF]. destruct (CA f CU) as [A0 NQ].
  set (s' := set_walk (queued s ++ [f]) None Taken s).
  assert (QS : forall g, In g (queued s') <-> In g (queued s) \/ g = f).
  { intros g. change (queued s') with (queued s ++ [f]). rewrite in_app_iff. cbn [In]. intuition. }
  assert (EA : forall g, early s' g -> early s g).
  { intros g [J|[J _]]; [|discriminate J]. apply QS in J. destruct J as [J|J]; [left; exact J|subst g; right; auto]. }
  constructor.
  - split.
    + constructor; try assumption.
      * intros g A. change (kids s' g) with (kids s g). change (refs (files s' g)) with (refs (files s g)). rewrite (R g A). f_equal.
        unfold own. rewrite CU, NW. cbn [s' set_walk cur now].
        destruct (Nat.eqb_spec f g) as [X|X].
        -- subst g. rewrite (not_queued s f NQ). replace (is_queued f s') with true; [reflexivity|]. symmetry. apply is_queued_spec, QS. auto.
        -- rewrite (queued_bool s s' g); [reflexivity|]. rewrite QS. intuition congruence.
      * intros g A. destruct (P g A) as [H|[_ H]]; [left; exact H|congruence].
      * change (NoDup (queued s ++ [f])). apply NoDup_snoc; assumption.
      * intros g J. apply QS in J. destruct J as [J|J]; [apply QA, J|subst g; exact A0].
      * intros g J. discriminate J.
      * intros g J c A. apply (LF g); [apply EA, J|exact A].
    + apply (walk_cache zp zp); try assumption.
      * intros g. unfold reading. rewrite CU, NW. reflexivity.
      * intros g J. apply in_app_iff. left. apply (c_queued _ _ _ C), J.
      * intros g J. apply in_app_iff in J. destruct J as [J|[<-|[]]]; [apply (c_early _ _ _ C), J|congruence].
      * intros g J X. apply (c_late _ _ _ C g J), EA, X.
      * intros [X|X]; discriminate X.
  - intros g J. discriminate J.
  - intros g J. discriminate J.
Qed.

(** ** Giving back *)

Lemma finish_good s f : good s -> cur s = Some f -> match now s with Taken | Reading | Failed => True | _ => False end ->
  exists s', finish f s = Some s' /\ good s'.
Proof.
  intros G CU NW. pose proof G as [[T C] GT GD]. destruct (t_cur _ T f CU) as [A NQ].
  unfold finish. rewrite the_alive by exact A. set (s0 := set_walk (queued s) (cur s) Done s).
  assert (T0 : tree s0) by (apply (mode_tree s f Done); auto; destruct (now s); congruence).
  assert (H : exists s1, match now s with Reading => cache_unpin f s0 | _ => Some s0 end = Some s1 /\ cache zx s1 /\ same_tree s0 s1).
  { destruct (now s) eqn:N; try (destruct NW); try (exists s0; split; [reflexivity|]; split; [|apply same_refl]; apply (mode_good s f Done); try congruence; split; assumption).
    assert (C0 : cache (Extra (bump f zp) [] 0 0) s0).
    { apply (walk_cache zp); try assumption.
      - intros g. unfold reading. unf. flds. rewrite CU, N. unfold bump, zp. rewrite (Nat.eqb_sym g f). destruct (f =? g); reflexivity.
      - apply (c_queued _ _ _ C).
      - apply (c_early _ _ _ C).
      - intros g J [E|[_ E]]; [|discriminate E]. apply (c_late _ _ _ C g J). left. exact E.
      - intros [E|E]; discriminate E. }
    destruct (unpin_ok B _ _ _ _ _ _ C0) as (s1 & E1 & C1 & ST1 & _). exists s1. auto. }
  destruct H as (s1 & E1 & C1 & ST1). rewrite E1.
  assert (T1 : tree s1) by exact (tree_same _ _ ST1 T0).
  assert (D1 : now s1 = Done) by (destruct ST1 as (_ & _ & _ & -> & _); reflexivity).
  assert (Q1 : queued s1 = queued s) by (destruct ST1 as (_ & -> & _); reflexivity).
  assert (A1 : alive (files s1 f) = true) by (rewrite (same_alive _ _ f ST1); exact A).
  assert (FIN : forall s2, inv zx s2 -> now s2 = Done -> good s2).
  { intros s2 I2 N2. constructor; [exact I2| |]; intros g _; congruence. }
  destruct (dir (files s1 f)) eqn:D.
  - unfold delayed_unwrap. rewrite the_alive by exact A1. rewrite D.
    destruct (existsb (Nat.eqb f) (to_close s1)).
    + exists s1. split; [reflexivity|]. apply FIN; [split; assumption|exact D1].
    + eexists. split; [reflexivity|]. apply FIN; [|exact D1]. split; [apply (tree_same s1); [repeat split|exact T1]|].
      apply to_close_ok; [exact C1|]. intros g J. apply in_app_iff in J. destruct J as [J|[<-|[]]]; [left; exact J|].
      right. split; [exact A1|]. split.
      * intros [X|[_ X]]; [rewrite Q1 in X; exact (NQ X)|congruence].
      * intros [X|X]; congruence.
  - exists s1. split; [reflexivity|]. apply FIN; [split; assumption|exact D1].
Qed.

Lemma unwrap_good u s : good s -> exists s', step u Unwrap s = Some s' /\ good s'.
Proof.
  intros G. pose proof G as [[T C] GT GD]. cbn [step].
  assert (H : (forall g, cur s = Some g -> now s = Done) -> exists s',
    match to_close s with [] => Some s | f :: r => unwrapdir u f (set_to_close r s) end = Some s' /\ good s').
  { intros R. destruct (to_close s) as [|f r] eqn:TC; [exists s; auto|].
    assert (J : In f (to_close s)) by (rewrite TC; left; reflexivity).
    set (s1 := set_to_close r s).
    assert (I1 : inv zx s1).
    { split; [apply (tree_same s); [repeat split|exact T]|]. apply to_close_ok; [exact C|].
      intros g X. left. rewrite TC. right; exact X. }
    destruct (unwrapdir_ok B u _ _ _ s1 f I1) as (s' & E & I' & K).
    - apply (c_to_close _ _ _ C), J.
    - intros X. apply (c_late _ _ _ C f J). left. exact X.
    - exists s'. split; [exact E|]. pose proof (k_tree _ _ _ _ K) as (_ & _ & CU & NW & _).
      constructor; [exact I'| |]; intros g X Y; rewrite CU in X; rewrite NW in Y; change (cur s = Some g) in X; change (now s1) with (now s) in Y; rewrite (R g X) in Y; discriminate Y. }
  destruct (cur s) as [g|] eqn:CU; [destruct (now s) eqn:NW|]; try (exists s; auto; fail); apply H; congruence.
Qed.


End Steps.
