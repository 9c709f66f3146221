(** * What follows for the cache of open directories *)

From Coq Require Import List Arith ZArith Bool Lia.
Import ListNotations.
From Verif Require Import CacheModel CacheSpec CacheLists CacheInv CachePrims CacheMoves CacheCalls CacheOpens CacheCloses CacheSteps CacheRuns.

(** ** Proper logs *)

Section Proper.

Variable B : nat.

Lemma proper_app a b : proper B (a ++ b) -> proper B b.
Proof. induction a as [|e a IH]; [auto|]. cbn [app proper]. intros [_ H]. apply IH, H. Qed.

Lemma without_le d l : length (without d l) <= length l.
Proof. induction l as [|x l IH]; [auto|]. unfold without. cbn [filter length]. destruct (negb (x =? d)); cbn [length]; unfold without in IH; lia. Qed.

Lemma proper_budget l : proper B l -> length (live l) <= B.
Proof.
  induction l as [|e l IH]; intros H; [cbn; lia|]. destruct H as [O H]. specialize (IH H).
  destruct e; cbn [live] in *; auto.
  - cbn [ok length] in *. lia.
  - pose proof (without_le d (live l)). lia.
Qed.

Lemma proper_live_nodup l : proper B l -> NoDup (live l).
Proof.
  induction l as [|e l IH]; intros H; [constructor|]. destruct H as [O H]. specialize (IH H).
  destruct e; cbn [live ok] in *; auto.
  - constructor; [apply O|exact IH].
  - apply without_nodup, IH.
Qed.

Lemma proper_holds l : proper B l -> forall f d, holds l f = Some d -> In d (live l).
Proof.
  induction l as [|e l IH]; intros H f d E; [discriminate|]. destruct H as [O H]. specialize (IH H).
  destruct e; cbn [holds live ok] in *; eauto.
  - right. eauto.
  - apply without_in. split; [eauto|]. intros ->. exact (proj2 O f E).
  - destruct (Nat.eqb_spec f0 f); [injection E as <-; apply O|eauto].
  - destruct (Nat.eqb_spec f0 f); [injection E as <-; apply O|eauto].
  - destruct (Nat.eqb_spec f0 f); [discriminate|eauto].
Qed.

Lemma proper_alone l : proper B l -> forall f g d, holds l f = Some d -> holds l g = Some d -> f = g.
Proof.
  induction l as [|e l IH]; intros H f g d E1 E2; [discriminate|]. destruct H as [O H]. specialize (IH H).
  destruct e; cbn [holds ok] in *; eauto.
  - destruct (Nat.eqb_spec f0 f), (Nat.eqb_spec f0 g); try congruence; eauto.
    + injection E1 as <-. destruct O as (_ & _ & O). destruct (O g E2).
    + injection E2 as <-. destruct O as (_ & _ & O). destruct (O f E1).
  - destruct (Nat.eqb_spec f0 f), (Nat.eqb_spec f0 g); try congruence; eauto.
    + injection E1 as <-. destruct O as (_ & _ & O & _). destruct (O g E2).
    + injection E2 as <-. destruct O as (_ & _ & O & _). destruct (O f E1).
  - destruct (Nat.eqb_spec f0 f), (Nat.eqb_spec f0 g); try congruence; eauto.
Qed.

Lemma proper_pinned l : proper B l -> forall f, 0 < pinned l f -> exists d, holds l f = Some d /\ In d (live l).
Proof.
  intros H f P. cut (holds l f <> None).
  { intros N. destruct (holds l f) as [d|] eqn:E; [|congruence]. exists d. split; [reflexivity|]. exact (proper_holds l H f d E). }
  induction l as [|e l IH]; [cbn in P; lia|]. destruct H as [O H]. specialize (IH H).
  destruct e; cbn [holds pinned ok] in *; auto.
  - destruct (Nat.eqb_spec f0 f); [discriminate|auto].
  - destruct (Nat.eqb_spec f0 f); [discriminate|auto].
  - destruct (Nat.eqb_spec f0 f); [subst f0; destruct O; lia|auto].
  - destruct (Nat.eqb_spec f0 f); [subst f0; exact O|auto].
  - destruct (Nat.eqb_spec f0 f); [subst f0; apply IH; lia|auto].
Qed.

Lemma proper_kept e l f : proper B (e :: l) -> 0 < pinned l f -> holds (e :: l) f = holds l f.
Proof.
  intros [O H] P. destruct (proper_pinned l H f P) as (z & HF & _).
  destruct e; cbn [holds ok] in *; auto; destruct (Nat.eqb_spec f0 f); auto; subst f0.
  - destruct O. congruence.
  - lia.
  - lia.
Qed.

End Proper.

(** ** Histories *)

Section Facts.

Variables (unwrap : bool) (B : nat) (choices : list nat) (ops : list op).

Lemma run_safe : exists s, run unwrap B choices ops = Some s /\ proper B (log s).
Proof.
  destruct (run_good B unwrap choices ops) as (s & E & G). exists s. split; [exact E|].
  exact (c_proper _ _ _ (proj2 (g_inv _ _ G))).
Qed.

Lemma run_proper s : run unwrap B choices ops = Some s -> good B s.
Proof. intros E. destruct (run_good B unwrap choices ops) as (s' & E' & G). congruence. Qed.

Lemma run_budget s later earlier :
  run unwrap B choices ops = Some s -> log s = later ++ earlier -> NoDup (live earlier) /\ length (live earlier) <= B.
Proof.
  intros E L. pose proof (c_proper _ _ _ (proj2 (g_inv _ _ (run_proper s E)))) as P. rewrite L in P. apply proper_app in P.
  split; [exact (proper_live_nodup _ _ P)|exact (proper_budget _ _ P)].
Qed.

Lemma run_pinned s later e earlier f :
  run unwrap B choices ops = Some s -> log s = later ++ e :: earlier -> 0 < pinned earlier f ->
  exists d, holds earlier f = Some d /\ In d (live earlier) /\
            holds (e :: earlier) f = Some d /\ In d (live (e :: earlier)) /\
            forall g, holds earlier g = Some d -> g = f.
Proof.
  intros E L PF. pose proof (c_proper _ _ _ (proj2 (g_inv _ _ (run_proper s E)))) as P. rewrite L in P. apply proper_app in P.
  pose proof (proj2 P) as P'. destruct (proper_pinned _ _ P' f PF) as (d & H & LV).
  pose proof (proper_kept _ _ _ _ P PF) as K. rewrite H in K.
  exists d. repeat split; auto.
  - exact (proper_holds _ _ P f d K).
  - intros g HG. exact (proper_alone _ _ P' g f d HG H).
Qed.

Lemma run_order s : run unwrap B choices ops = Some s ->
  rev (lru s) = eviction (log s) /\ NoDup (lru s) /\
  forall f, In f (lru s) <-> holds (log s) f <> None /\ pinned (log s) f = 0.
Proof.
  intros E. pose proof (proj2 (g_inv _ _ (run_proper s E))) as C. split; [|split].
  - rewrite (c_lru _ _ _ C). apply order_rev.
  - rewrite (c_lru _ _ _ C). apply order_nodup, (c_idle_nd _ _ _ C).
  - intros f. rewrite (c_lru _ _ _ C), order_in, (c_idle _ _ _ C), (c_holds _ _ _ C), (c_pinned _ _ _ C). reflexivity.
Qed.

Lemma nobody_alive s : tree s -> queued s = [] -> cur s = None -> forall f, alive (files s f) = false.
Proof.
  intros T Q CU.
  assert (H : forall n f, count s - f <= n -> alive (files s f) = true -> False).
  { induction n as [|n IH]; intros f L A; pose proof (t_lt _ T f A) as LT; [lia|].
    destruct (t_pos _ T f A) as [P|[P _]]; [|congruence]. rewrite (t_refs _ T f A) in P.
    assert (O : own s f = 0) by (unfold own, is_queued; rewrite Q, CU; reflexivity). rewrite O in P.
    destruct (counted_ex _ _ P) as (c & LC & K). apply andb_true_iff in K. destruct K as [AC PC].
    unfold parent_is in PC. destruct (parent c s) as [q|] eqn:PP; [|discriminate]. apply Nat.eqb_eq in PC. subst q.
    destruct (parent_alive _ _ _ T AC PP) as (LL & _). apply (IH c); [lia|exact AC]. }
  intros f. apply Bool.not_true_iff_false. intros A. exact (H _ f (le_n _) A).
Qed.

Lemma run_closed s : run unwrap B choices ops = Some s -> queued s = [] -> cur s = None -> flight s = [] ->
  live (log s) = [] /\ streams (log s) = 0 /\ cache_destroy s = true.
Proof.
  intros E Q CU FL. pose proof (g_inv _ _ (run_proper s E)) as [T C]. pose proof (nobody_alive s T Q CU) as N.
  assert (F : forall f, fd (files s f) = None) by (intros f; apply (c_dead _ _ _ C), N).
  assert (I : idle (log s) = []).
  { destruct (idle (log s)) as [|f l] eqn:ID; [reflexivity|]. assert (J : In f (idle (log s))) by (rewrite ID; left; reflexivity).
    apply (c_idle _ _ _ C) in J. destruct J as [J _]. destruct (J (F f)). }
  split; [|split].
  - destruct (live (log s)) as [|d l] eqn:LV; [reflexivity|]. assert (J : In d (live (log s))) by (rewrite LV; left; reflexivity).
    apply (c_live _ _ _ C) in J. rewrite FL in J. destruct J as [[f X]|[[]|[]]]. rewrite F in X. discriminate.
  - rewrite (c_streams _ _ _ C), FL. unfold dirs. rewrite counted_zero; [reflexivity|].
    intros f _. destruct (dir (files s f)) eqn:D; [|reflexivity]. destruct (c_dir _ _ _ C f D (F f)).
  - unfold cache_destroy. rewrite (c_lru _ _ _ C), (c_target _ _ _ C), I. reflexivity.
Qed.

End Facts.

(** ** Budget that is not used *)

Lemma room_used :
  exists ops s s',
    run true 10 [1] ops = Some s /\ now s = Failed /\ live (log s) = [0] /\ cap s = 0 /\
    run true 10 [2] ops = Some s' /\ now s' = Reading.
Proof.
  exists [New; Take 0; Opendir; Finish; Drop; Free; New; Take 1; Opendir; New; Finish; Unwrap; Drop; Take 2; Opendir].
  eexists. eexists. vm_compute. repeat split.
Qed.
