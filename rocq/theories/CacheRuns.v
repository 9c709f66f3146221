(** * Every history goes well *)

From Coq Require Import List Arith ZArith Bool Lia.
Import ListNotations.
From Verif Require Import CacheModel CacheSpec CacheLists CacheInv CachePrims CacheMoves CacheCalls CacheOpens CacheCloses CacheSteps.

Section Runs.

Variable B : nat.

Notation cache := (cache B).
Notation inv := (inv B).
Notation good := (good B).

(** ** Files that change in what the cache does not look at *)

Lemma cache_files x s h :
  cache x s ->
  (forall g, fd (h g) = fd (files s g) /\ dir (h g) = dir (files s g) /\ pins (h g) = pins (files s g) /\ up (h g) = up (files s g)) ->
  (forall g, alive (h g) = true -> alive (files s g) = true) ->
  (forall g, alive (h g) = false -> fd (files s g) = None) ->
  (forall g, In g (to_close s) -> alive (h g) = true) ->
  cache x (set_files h s).
Proof.
  intros C H A1 A2 A3. destruct C. set (s' := set_files h s).
  assert (XF : forall g, fd (files s' g) = fd (files s g)) by apply H.
  assert (XD : forall g, dir (files s' g) = dir (files s g)) by apply H.
  assert (XP : forall g, pins (files s' g) = pins (files s g)) by apply H.
  assert (XU : forall g, up (files s' g) = up (files s g)) by apply H.
  assert (P : forall g, parent g s' = parent g s) by (intros g; unfold parent; rewrite XU; reflexivity).
  constructor.
  - intros f A. rewrite XF. apply A2, A.
  - intros f. rewrite XF, XD. apply c_dir.
  - intros f. rewrite XF, XP. apply c_pin.
  - intros f. rewrite XF. apply c_holds.
  - intros f. rewrite XP. apply c_pinned.
  - intros f A. rewrite XU. apply c_root, A1, A.
  - exact c_idle_nd.
  - intros f. rewrite XF, XP. apply c_idle.
  - exact c_lru.
  - exact c_target.
  - exact c_live_nd.
  - intros d. change (log s') with (log s). change (flight s') with (flight s). rewrite c_live.
    split; (intros [[f F]|K]; [left; exists f|right; exact K]); [rewrite XF|rewrite XF in F]; exact F.
  - intros f g d. rewrite !XF. apply c_inj.
  - exact c_flight_nd.
  - intros f d. rewrite XF. apply c_apart.
  - exact c_fresh.
  - exact c_cap.
  - exact c_lim.
  - change (log s') with (log s). rewrite c_streams. do 2 f_equal. apply counted_ext. intros f _. rewrite XD. reflexivity.
  - exact c_proper.
  - intros f. rewrite XP, c_pins. f_equal. f_equal. unfold inpins. f_equal. apply filter_ext_in. intros r _.
    destruct (req_file r); [|reflexivity]. unfold parent_is. rewrite P. reflexivity.
  - exact c_queued.
  - exact c_files_nd.
  - intros f d a. rewrite XF. apply c_open.
  - intros r f J R. rewrite P. specialize (c_at r f J R). destruct (parent f s); [rewrite XF|]; exact c_at.
  - intros f. rewrite XF, XD. apply c_early.
  - intros f J. apply A3, J.
  - exact c_late.
  - intros K p J. destruct (c_climb K p J) as (f & Q & F). exists f. rewrite P. auto.
Qed.

Lemma kids_none s f : tree s -> kids s f = 0 -> forall c, alive (files s c) = true -> parent c s <> Some f.
Proof.
  intros T K c A P. assert (0 < kids s f); [|lia]. apply (counted_pos _ c); [apply (t_lt _ T), A|].
  rewrite A. unfold parent_is. rewrite P. apply Nat.eqb_refl.
Qed.

(** ** Dropping a reference *)

Lemma drop_good s f : good s -> cur s = Some f -> (now s = Done /\ to_close s = []) \/ now s = Dropping ->
  exists s', drop f s = Some s' /\ good s'.
Proof.
  intros G CU NW. pose proof G as [[T C] GT GD]. pose proof T as [U L R P ND QA CA LF]. destruct (CA f CU) as [A NQ].
  unfold drop. rewrite the_alive by exact A.
  assert (ND1 : now s <> Dead) by (destruct NW as [[-> _]| ->]; discriminate).
  assert (NR : forall g, reading s g = 0) by (intros g; unfold reading; rewrite CU; destruct NW as [[-> _]| ->]; reflexivity).
  assert (OW : own s f = 1) by (rewrite (own_queued s f T CU); destruct (now s); congruence).
  pose proof (R f A) as RF. rewrite OW in RF.
  assert (CF : forall r, cache zx (put f (set_refs r (files s f)) s)).
  { intros r. apply cache_files; [exact C| | | |].
    - intros g. destruct (Nat.eqb_spec g f) as [E|]; [subst g|]; repeat split.
    - intros g. destruct (Nat.eqb_spec g f) as [E|]; [subst g|]; auto.
    - intros g. destruct (Nat.eqb_spec g f) as [E|]; [subst g|]; apply (c_dead _ _ _ C).
    - intros g J. destruct (Nat.eqb_spec g f) as [E|]; [exact A|apply (c_to_close _ _ _ C), J]. }
  assert (GEN : forall c m r, refs (files s f) = S r ->
    (c = Some f /\ m = Dead /\ r = 0) \/ (c = None /\ m = Taken /\ 0 < r) ->
    good (set_walk (queued s) c m (put f (set_refs r (files s f)) s))).
  { intros c m r RR H. set (s1 := put f (set_refs r (files s f)) s). set (s' := set_walk (queued s) c m s1).
    assert (F1 : forall g, files s' g = if g =? f then set_refs r (files s f) else files s g) by reflexivity.
    assert (XU : forall g, up (files s' g) = up (files s g)).
    { intros g. rewrite F1. destruct (Nat.eqb_spec g f) as [E|]; [subst g|]; reflexivity. }
    assert (XA : forall g, alive (files s' g) = alive (files s g)).
    { intros g. rewrite F1. destruct (Nat.eqb_spec g f) as [E|]; [subst g|]; reflexivity. }
    assert (XP : forall g, parent g s' = parent g s) by (intros g; unfold parent; rewrite XU; reflexivity).
    assert (XK : forall g, kids s' g = kids s g).
    { intros g. apply counted_ext. intros z _. unfold parent_is. rewrite XA, XP. reflexivity. }
    assert (XE : forall g, early s' g -> In g (queued s)).
    { intros g [J|[J1 J2]]; [exact J|]. destruct H as [(-> & -> & _)|(-> & _)]; discriminate. }
    assert (XO : forall g, own s' g = if is_queued g s then 1 else 0).
    { intros g. unfold own. change (is_queued g s') with (is_queued g s). cbn [s' set_walk cur now].
      destruct H as [(-> & -> & _)|(-> & _)]; [destruct (f =? g)|]; lia. }
    constructor.
    - split.
      + constructor.
        * intros g K. rewrite XU. specialize (U g K). destruct (up (files s g)); [exact U|]. rewrite XU, !XA. exact U.
        * intros g K. rewrite XA in K. apply L, K.
        * intros g K. rewrite XA in K. rewrite XK, XO. rewrite F1. destruct (Nat.eqb_spec g f) as [E|NE].
          -- subst g. cbn [set_refs refs]. rewrite (not_queued s f NQ). lia.
          -- rewrite (R g K). f_equal. unfold own. rewrite CU. destruct (Nat.eqb_spec f g); [congruence|lia].
        * intros g K. rewrite XA in K. rewrite F1. destruct (Nat.eqb_spec g f) as [E|NE].
          -- subst g. cbn [set_refs refs]. destruct H as [(-> & -> & _)|(_ & _ & H)]; [right; split; reflexivity|left; exact H].
          -- destruct (P g K) as [X|[X _]]; [left; exact X|congruence].
        * exact ND.
        * intros g J. rewrite XA. apply QA, J.
        * intros g J. destruct H as [(-> & _)|(-> & _)]; [|discriminate J]. cbn [s' set_walk cur] in J. injection J as <-.
          rewrite XA. split; [exact A|exact NQ].
        * intros g J z K. rewrite XA in K. rewrite XP. apply LF; [left; apply XE, J|exact K].
      + apply (walk_cache B zp zp); [apply CF| | | | |].
        * intros g. unfold reading at 1. cbn [set_walk cur now]. change (reading s1 g) with (reading s g). rewrite NR.
          destruct H as [(-> & -> & _)|(-> & _)]; reflexivity.
        * exact (c_queued _ _ _ C).
        * intros g J. change (fd (files s' g) <> None -> dir (files s' g) = true). rewrite F1.
          destruct (Nat.eqb_spec g f) as [E|NE]; [subst g; destruct (NQ J)|apply (c_early _ _ _ C), J].
        * intros g J K. apply (c_late _ _ _ C g J). left. apply XE, K.
        * intros K z J. change (In z (to_close s)) in J. destruct H as [(-> & -> & _)|(-> & -> & _)]; [|destruct K as [K|K]; discriminate K].
          destruct NW as [[_ TC]|NW]; [rewrite TC in J; destruct J|].
          destruct (c_climb _ _ _ C (or_introl NW) z J) as (g & Q & PG). exists g. split; [exact Q|].
          change (parent g s' = Some z). rewrite XP. exact PG.
    - intros g K1 K. destruct H as [(-> & -> & _)|(-> & -> & _)]; [discriminate K|discriminate K1].
    - intros g K1 K2. destruct H as [(-> & -> & ->)|(-> & -> & _)]; [|discriminate K2]. cbn [set_walk cur] in K1. injection K1 as <-.
      change (refs (files s' f) = 0). rewrite F1, Nat.eqb_refl. reflexivity. }
  destruct (refs (files s f)) as [|[|r]] eqn:RR; [lia| |].
  - eexists. split; [reflexivity|]. apply GEN; [reflexivity|]. left. auto.
  - eexists. split; [reflexivity|]. apply GEN; [reflexivity|]. right. repeat split. lia.
Qed.

(** ** Freeing a file *)

Lemma free_good s f : good s -> cur s = Some f -> now s = Dead -> exists s', free f s = Some s' /\ good s'.
Proof.
  intros G CU NW. pose proof G as [[T C] GT GD]. destruct (t_cur _ T f CU) as [A NQ].
  pose proof (GD f CU NW) as RZ. pose proof (t_refs _ T f A) as RF.
  assert (KZ : kids s f = 0) by lia.
  pose proof (kids_none s f T KZ) as NK.
  assert (IZ : inpins s f = 0).
  { destruct (inpins s f) eqn:E; [reflexivity|exfalso]. unfold inpins in E.
    destruct (filter _ (flight s)) as [|r l] eqn:FI; [discriminate|].
    assert (J : In r (r :: l)) by (left; reflexivity). rewrite <- FI in J. apply filter_In in J. destruct J as [J RR].
    destruct (req_file r) as [g|] eqn:RG; [|discriminate]. unfold parent_is in RR.
    destruct (parent g s) as [q|] eqn:PG; [|discriminate]. apply Nat.eqb_eq in RR. subst q.
    apply (NK g); [|exact PG]. apply (t_queued _ T), (c_queued _ _ _ C), (ffiles_in r g _ J RG). }
  assert (PZ : pins (files s f) = 0).
  { rewrite (c_pins _ _ _ C f), IZ. unfold reading. rewrite CU, NW. reflexivity. }
  assert (H : exists s1, (if is_open f s then close f s else Some s) = Some s1 /\ inv zx s1 /\ same_tree s s1 /\ fd (files s1 f) = None).
  { unfold is_open. destruct (fd (files s f)) eqn:F.
    - destruct (close_ok B zp [] 0 s f (conj T C)) as (s1 & E & I1 & K & X); [congruence|exact PZ|].
      exists s1. split; [exact E|]. split; [exact I1|]. split; [apply K|].
      destruct (fd (files s1 f)) eqn:F1; [|reflexivity]. exfalso. apply NQ, (c_queued _ _ _ C), X. congruence.
    - exists s. split; [reflexivity|]. split; [split; assumption|]. split; [apply same_refl|exact F]. }
  destruct H as (s1 & E1 & [T1 C1] & ST & F1).
  unfold free. rewrite the_alive by exact A. rewrite E1.
  pose proof ST as (_ & Q1 & CU1 & NW1 & _). rewrite CU in CU1. rewrite NW in NW1.
  assert (R1 : refs (files s1 f) = 0) by (rewrite (same_refs _ _ f ST); exact RZ).
  assert (A1 : alive (files s1 f) = true) by (rewrite (same_alive _ _ f ST); exact A).
  rewrite R1. replace (is_open f s1) with false by (unfold is_open; rewrite F1; reflexivity).
  eexists. split; [reflexivity|].
  assert (D1 : dir (files s1 f) = false).
  { destruct (dir (files s1 f)) eqn:D; [|reflexivity]. destruct (c_dir _ _ _ C1 f D F1). }
  assert (P1 : pins (files s1 f) = 0).
  { destruct (pins (files s1 f)) eqn:D; [reflexivity|]. destruct (c_pin _ _ _ C1 f ltac:(lia) F1). }
  assert (NK1 : forall c, alive (files s1 c) = true -> parent c s1 <> Some f).
  { intros c K. rewrite (same_parent _ _ c ST). apply NK. rewrite <- (same_alive _ _ c ST). exact K. }
  set (y := File (up (files s1 f)) None false 0 0 false). set (s2 := put f y s1).
  assert (F2 : forall g, files s2 g = if g =? f then y else files s1 g) by reflexivity.
  assert (NC : ~ In f (to_close s1)).
  { intros J. destruct (c_climb _ _ _ C1 (or_intror NW1) f J) as (g & Q & PG). apply (NK1 g); [apply (t_queued _ T1), Q|exact PG]. }
  assert (C2 : cache zx s2).
  { apply cache_files; [exact C1| | | |].
    - intros g. destruct (Nat.eqb_spec g f) as [E|]; [subst g|]; repeat split; cbn [y fd dir pins]; congruence.
    - intros g. destruct (Nat.eqb_spec g f) as [E|]; [discriminate|auto].
    - intros g. destruct (Nat.eqb_spec g f) as [E|]; [subst g; intros _; exact F1|apply (c_dead _ _ _ C1)].
    - intros g J. destruct (Nat.eqb_spec g f) as [E|]; [subst g; destruct (NC J)|apply (c_to_close _ _ _ C1), J]. }
  set (m := match up (files s1 f) with [] => Taken | _ => Dropping end).
  set (c := hd_error (up (files s1 f))). set (s' := set_walk (queued s2) c m s2).
  assert (CM : (c = None /\ m = Taken) \/ (exists p, c = Some p /\ m = Dropping /\ parent f s1 = Some p)).
  { unfold c, m, parent. destruct (up (files s1 f)) as [|p r]; [left; auto|right; exists p; auto]. }
  pose proof T1 as [U L R P ND QA CA LF].
  assert (XU : forall g, up (files s' g) = up (files s1 g)).
  { intros g. change (files s' g) with (files s2 g). rewrite F2. destruct (Nat.eqb_spec g f) as [E|]; [subst g|]; reflexivity. }
  assert (XA : forall g, alive (files s' g) = if g =? f then false else alive (files s1 g)).
  { intros g. change (files s' g) with (files s2 g). rewrite F2. destruct (g =? f); reflexivity. }
  assert (XA' : forall g, alive (files s' g) = true -> g <> f /\ alive (files s1 g) = true).
  { intros g. rewrite XA. destruct (Nat.eqb_spec g f); [discriminate|auto]. }
  assert (XP : forall g, parent g s' = parent g s1) by (intros g; unfold parent; rewrite XU; reflexivity).
  assert (XK : forall g, kids s' g + (if parent_is g f s1 then 1 else 0) = kids s1 g).
  { intros g. unfold kids. change (count s') with (count s1).
    pose proof (counted_change (fun z => alive (files s' z) && parent_is g z s') (fun z => alive (files s1 z) && parent_is g z s1) f (count s1)) as H.
    cbv beta in H. rewrite A1, XA, Nat.eqb_refl in H. cbn [andb] in H. rewrite Nat.add_0_r in H. apply H; [|apply L, A1].
    intros z NE. unfold parent_is. rewrite XA, XP. destruct (Nat.eqb_spec z f); [congruence|reflexivity]. }
  assert (QS : queued s' = queued s1) by reflexivity.
  assert (NQ1 : ~ In f (queued s1)) by (rewrite Q1; exact NQ).
  assert (XE : forall g, early s' g -> In g (queued s1)).
  { intros g [J|[J1 J2]]; [exact J|]. change (c = Some g) in J1. change (m = Taken) in J2. destruct CM as [(-> & _)|(p & _ & -> & _)]; congruence. }
  assert (XR : forall g, reading s' g = 0).
  { intros g. unfold reading. cbn [s' set_walk cur now]. destruct CM as [(-> & _)|(p & -> & -> & _)]; reflexivity. }
  constructor.
  - split.
    + constructor.
      * intros g K. rewrite XU. specialize (U g K). destruct (up (files s1 g)) as [|p r] eqn:UG; [exact I|]. rewrite XU.
        destruct U as (U1 & U2 & U3). repeat split; auto. intros AG. destruct (XA' g AG) as [NE AG1]. rewrite XA.
        destruct (Nat.eqb_spec p f) as [E|_]; [|apply U3, AG1]. subst p. exfalso. apply (NK1 g AG1). unfold parent. rewrite UG. reflexivity.
      * intros g K. apply L. apply XA', K.
      * intros g K. destruct (XA' g K) as [NE K1]. change (files s' g) with (files s2 g). rewrite F2. destruct (Nat.eqb_spec g f) as [E|_]; [congruence|].
        rewrite (R g K1). specialize (XK g).
        assert (OO : own s' g = own s1 g + (if parent_is g f s1 then 1 else 0)); [|lia].
        unfold own. change (is_queued g s') with (is_queued g s1). rewrite CU1. cbn [s' set_walk cur now].
        destruct (Nat.eqb_spec f g) as [E|_]; [congruence|]. unfold parent_is.
        destruct CM as [(Hc & Hm)|(p & Hc & Hm & PP)]; rewrite ?Hc, ?Hm.
        -- unfold parent. fold c. rewrite Hc. lia.
        -- rewrite PP. destruct (p =? g); lia.
      * intros g K. destruct (XA' g K) as [NE K1]. left. change (files s' g) with (files s2 g). rewrite F2. destruct (Nat.eqb_spec g f) as [E|_]; [congruence|].
        destruct (P g K1) as [X|[X _]]; [exact X|congruence].
      * exact ND.
      * intros g J. rewrite QS in J. rewrite XA. destruct (Nat.eqb_spec g f) as [E|_]; [subst g; destruct (NQ1 J)|apply QA, J].
      * intros g J. cbn [s' set_walk cur] in J. destruct CM as [(Hc & _)|(p & Hc & _ & PP)]; [congruence|].
        assert (g = p) by congruence. subst g. destruct (parent_alive _ _ _ T1 A1 PP) as (LT & AP & EP & _).
        rewrite XA, QS. destruct (Nat.eqb_spec p f) as [E|_]; [lia|]. split; [exact AP|]. intros J'. apply EP. left. exact J'.
      * intros g J z K. rewrite XP. apply LF; [left; apply XE, J|]. apply XA', K.
    + apply (walk_cache B zp zp); [exact C2| | | | |].
      * intros g. fold s'. rewrite XR. change (reading s2 g) with (reading s1 g). unfold reading. rewrite CU1, NW1. reflexivity.
      * exact (c_queued _ _ _ C2).
      * exact (c_early _ _ _ C2).
      * intros g J K. apply (c_late _ _ _ C2 g J). left. apply XE, K.
      * intros K z J. apply (c_climb _ _ _ C2); [right; exact NW1|exact J].
  - intros g K1 K2. cbn [s' set_walk cur now] in K1, K2. destruct CM as [(Hc & _)|(p & _ & Hm & _)]; congruence.
  - intros g K1 K2. cbn [s' set_walk cur now] in K1, K2. destruct CM as [(Hc & _)|(p & _ & Hm & _)]; congruence.
Qed.

(** ** Creating a file *)

Lemma new_good s : good s -> (forall p, cur s = Some p -> now s = Reading) -> exists s', new_file s = Some s' /\ good s'.
Proof.
  intros G RD. pose proof G as [[T C] GT GD]. pose proof T as [U L R P ND QA CA LF].
  unfold new_file. set (f := count s).
  assert (AF : alive (files s f) = false).
  { apply Bool.not_true_iff_false. intros X. apply L in X. unfold f in X. lia. }
  assert (FF : fd (files s f) = None) by (apply (c_dead _ _ _ C), AF).
  assert (DF : dir (files s f) = false).
  { destruct (dir (files s f)) eqn:D; [|reflexivity]. destruct (c_dir _ _ _ C f D FF). }
  assert (PF : pins (files s f) = 0).
  { destruct (pins (files s f)) eqn:D; [reflexivity|]. destruct (c_pin _ _ _ C f ltac:(lia) FF). }
  set (u := match cur s with None => [] | Some p => p :: up (files s p) end).
  assert (H : exists s1, match cur s with None => Some s | Some p => let* x := the p s in Some (put p (set_refs (S (refs x)) x) s) end = Some s1 /\
    s1 = set_files (files s1) s /\
    forall g, files s1 g = match cur s with Some p => if g =? p then set_refs (S (refs (files s p))) (files s p) else files s g | None => files s g end).
  { destruct (cur s) as [p|] eqn:CU.
    - rewrite the_alive by (apply (CA p eq_refl)). eexists. split; [reflexivity|]. split; reflexivity.
    - exists s. split; [reflexivity|]. split; [destruct s; reflexivity|reflexivity]. }
  destruct H as (s1 & E1 & S1 & F1). rewrite E1. eexists. split; [reflexivity|]. clear E1.
  set (h := fun g => if g =? f then File u None false 0 1 true else files s1 g).
  match goal with |- good ?z => set (s' := z) end.
  assert (ES : s' = St (S f) h (lru s) (target s) (cap s) (lim s) (flight s) (queued s ++ [f]) (cur s) (now s) (to_close s) (fresh s) (Created f (none u) :: log s) (ch s)).
  { unfold s'. rewrite S1. reflexivity. }
  clearbody s'. subst s'.
  match goal with |- good ?z => set (s' := z) end.
  assert (HF : forall g, files s' g = if g =? f then File u None false 0 1 true else files s1 g) by reflexivity.
  assert (XO : forall g, g <> f -> fd (files s' g) = fd (files s g) /\ dir (files s' g) = dir (files s g) /\ pins (files s' g) = pins (files s g) /\
    up (files s' g) = up (files s g) /\ alive (files s' g) = alive (files s g)).
  { intros g NE. rewrite HF. destruct (Nat.eqb_spec g f); [congruence|]. rewrite F1.
    destruct (cur s) as [p|]; [|repeat split]. destruct (Nat.eqb_spec g p) as [E|]; [subst g|]; repeat split. }
  assert (XN : files s' f = File u None false 0 1 true) by (rewrite HF, Nat.eqb_refl; reflexivity).
  assert (XF : forall g, fd (files s' g) = fd (files s g)).
  { intros g. destruct (Nat.eq_dec g f) as [->|NE]; [rewrite XN; auto|apply XO, NE]. }
  assert (XD : forall g, dir (files s' g) = dir (files s g)).
  { intros g. destruct (Nat.eq_dec g f) as [->|NE]; [rewrite XN; auto|apply XO, NE]. }
  assert (XP : forall g, pins (files s' g) = pins (files s g)).
  { intros g. destruct (Nat.eq_dec g f) as [->|NE]; [rewrite XN; auto|apply XO, NE]. }
  assert (XU : forall g, g <> f -> up (files s' g) = up (files s g)) by (intros g NE; apply XO, NE).
  assert (XA : forall g, g <> f -> alive (files s' g) = alive (files s g)) by (intros g NE; apply XO, NE).
  assert (XPA : forall g, g <> f -> parent g s' = parent g s) by (intros g NE; unfold parent; rewrite XU by exact NE; reflexivity).
  assert (AL : forall g, alive (files s g) = true -> g <> f /\ alive (files s' g) = true).
  { intros g K. assert (g <> f) by congruence. rewrite XA; auto. }
  assert (PN : parent f s' = cur s).
  { unfold parent. rewrite XN. unfold u. cbn [up]. destruct (cur s); reflexivity. }
  assert (QS : forall g, In g (queued s') <-> In g (queued s) \/ g = f).
  { intros g. change (queued s') with (queued s ++ [f]). rewrite in_app_iff. cbn [In]. intuition. }
  assert (NQ : ~ In f (queued s)) by (intros J; apply QA in J; congruence).
  assert (CN : cur s <> Some f) by (intros J; apply CA in J; destruct J; congruence).
  (* Nobody has the new file as a parent. *)
  assert (NP : forall g, alive (files s' g) = true -> parent g s' <> Some f).
  { intros g K PG. destruct (Nat.eq_dec g f) as [E|NE].
    - subst g. congruence.
    - rewrite XA in K by exact NE. rewrite XPA in PG by exact NE. destruct (parent_alive _ _ _ T K PG) as (_ & X & _). congruence. }
  assert (PI : forall g, In g (ffiles (flight s)) -> alive (files s g) = true) by (intros g J; apply QA, (c_queued _ _ _ C), J).
  assert (IN : forall g, inpins s' g = inpins s g).
  { intros g. unfold inpins. f_equal. apply filter_ext_in. intros r J. destruct (req_file r) as [z|] eqn:RZ; [|reflexivity].
    unfold parent_is. rewrite XPA; [reflexivity|]. apply AL, PI, (ffiles_in r z _ J RZ). }
  assert (ID : forall g, In g (idle (log s)) -> root (log s) g = root (Created f (none u) :: log s) g).
  { intros g J. destruct (idle_open _ _ _ _ C J) as (_ & _ & _ & K). cbn [root]. destruct (Nat.eqb_spec f g) as [E|]; [subst g; congruence|reflexivity]. }
  assert (EA : forall g, early s' g -> early s g \/ g = f).
  { intros g [J|J]; [|left; right; exact J]. apply QS in J. destruct J as [J|J]; [left; left; exact J|right; exact J]. }
  constructor.
  - split.
    + constructor.
      * intros g K. change (count s') with (S f) in K. destruct (Nat.eq_dec g f) as [E|NE].
        -- subst g. rewrite XN. cbn [up alive]. unfold u. destruct (cur s) as [p|] eqn:CU; [|exact I].
           destruct (CA p eq_refl) as [AP _]. destruct (AL p AP) as [NP' AP']. split; [apply (L p AP)|]. split; [apply XU, NP'|auto].
        -- rewrite XU, XA by exact NE. specialize (U g ltac:(unfold f in *; lia)). destruct (up (files s g)) as [|p r]; [exact I|].
           destruct U as (U1 & U2 & U3). assert (p <> f) by (unfold f in *; lia). rewrite XU, XA by assumption. auto.
      * intros g K. change (count s') with (S f). destruct (Nat.eq_dec g f) as [E|NE]; [lia|]. rewrite XA in K by exact NE. apply L in K. unfold f. lia.
      * intros g K.
        assert (KK : kids s' g = kids s g + (if match cur s with Some p => p =? g | None => false end then 1 else 0)).
        { unfold kids. change (count s') with (S f). rewrite counted_S. f_equal.
          - apply counted_ext. intros z LZ. assert (z <> f) by lia. unfold parent_is. rewrite XA, XPA by assumption. reflexivity.
          - rewrite XN. cbn [alive andb]. unfold parent_is. rewrite PN. reflexivity. }
        rewrite KK. destruct (Nat.eq_dec g f) as [E|NE].
        -- subst g. rewrite XN. cbn [refs].
           assert (KZ : kids s f = 0).
           { apply counted_zero. intros z LZ. destruct (alive (files s z)) eqn:AZ; [|reflexivity]. cbn [andb].
             unfold parent_is. destruct (parent z s) as [q|] eqn:PZ; [|reflexivity].
             destruct (parent_alive _ _ _ T AZ PZ) as (_ & X & _). apply Nat.eqb_neq. intros E. subst q. congruence. }
           rewrite KZ. unfold own. replace (is_queued f s') with true by (symmetry; apply is_queued_spec, QS; auto).
           change (cur s') with (cur s). destruct (cur s) as [p|]; [|reflexivity].
           destruct (Nat.eqb_spec p f) as [E|]; [subst p; congruence|reflexivity].
        -- rewrite XA in K by exact NE.
           assert (OO : own s' g = own s g).
           { unfold own. rewrite (queued_bool s s' g); [reflexivity|]. rewrite QS. intuition congruence. }
           rewrite OO, HF. destruct (Nat.eqb_spec g f) as [E|_]; [congruence|]. rewrite F1. rewrite Nat.add_assoc, <- (R g K).
           destruct (cur s) as [p|]; [|lia]. rewrite (Nat.eqb_sym p g). destruct (Nat.eqb_spec g p) as [E|]; [subst g; cbn [set_refs refs]; lia|lia].
      * intros g K. destruct (Nat.eq_dec g f) as [E|NE]; [left; subst g; rewrite XN; cbn [refs]; lia|].
        rewrite XA in K by exact NE. destruct (P g K) as [X|X]; [|right; exact X]. left.
        rewrite HF. destruct (Nat.eqb_spec g f) as [E|_]; [congruence|]. rewrite F1.
        destruct (cur s) as [p|]; [|exact X]. destruct (Nat.eqb_spec g p); [cbn [set_refs refs]; lia|exact X].
      * change (NoDup (queued s ++ [f])). apply NoDup_snoc; assumption.
      * intros g J. apply QS in J. destruct J as [J|J]; [apply AL, QA, J|subst g; rewrite XN; reflexivity].
      * intros g J. destruct (CA g J) as [K1 K2]. split; [apply AL, K1|]. rewrite QS. intros [X|X]; [exact (K2 X)|congruence].
      * intros g J z K. destruct (EA g J) as [E|E]; [|subst g; apply NP, K].
        destruct (Nat.eq_dec z f) as [EZ|NE].
        -- subst z. rewrite PN. intros CG. destruct E as [E|[_ E]]; [destruct (CA g CG) as [_ X]; exact (X E)|]. rewrite (RD g CG) in E. discriminate E.
        -- rewrite XA in K by exact NE. rewrite XPA by exact NE. apply LF; assumption.
    + pose proof C as C0. destruct C. constructor.
      * intros g K. rewrite XF. destruct (Nat.eq_dec g f) as [E|NE]; [subst g; exact FF|]. rewrite XA in K by exact NE. apply c_dead, K.
      * intros g. rewrite XF, XD. apply c_dir.
      * intros g. rewrite XF, XP. apply c_pin.
      * intros g. rewrite XF. apply c_holds.
      * intros g. rewrite XP. apply c_pinned.
      * intros g K. change (log s') with (Created f (none u) :: log s). cbn [root]. destruct (Nat.eqb_spec f g) as [E|NE].
        -- subst g. rewrite XN. reflexivity.
        -- rewrite XA in K by congruence. rewrite XU by congruence. apply c_root, K.
      * exact c_idle_nd.
      * intros g. rewrite XF, XP. apply c_idle.
      * change (lru s = order (root (Created f (none u) :: log s)) (idle (log s))). rewrite <- (order_ext _ _ _ ID). exact c_lru.
      * change (target s = top (root (Created f (none u) :: log s)) (idle (log s))). rewrite <- (top_ext _ _ _ ID). exact c_target.
      * exact c_live_nd.
      * intros d. change (live (log s')) with (live (log s)). change (flight s') with (flight s). rewrite c_live.
        split; (intros [[g F]|K]; [left; exists g|right; exact K]); [rewrite XF|rewrite XF in F]; exact F.
      * intros g z d. rewrite !XF. apply c_inj.
      * exact c_flight_nd.
      * intros g d. rewrite XF. apply c_apart.
      * exact c_fresh.
      * exact c_cap.
      * exact c_lim.
      * change (streams (log s')) with (streams (log s)). rewrite c_streams. do 2 f_equal.
        unfold dirs. change (count s') with (S f). rewrite counted_S, XN. cbn [dir]. rewrite Nat.add_0_r.
        apply counted_ext. intros z _. rewrite XD. reflexivity.
      * split; [exact I|exact c_proper].
      * intros g. rewrite XP, IN. apply c_pins.
      * intros g J. apply QS. left. apply c_queued, J.
      * exact c_files_nd.
      * intros g d a. rewrite XF. apply c_open.
      * intros r g J RG. rewrite XPA by (apply AL, PI, (ffiles_in r g _ J RG)). specialize (c_at r g J RG).
        destruct (parent g s); [rewrite XF|]; exact c_at.
      * intros g J. rewrite XF, XD. apply QS in J. destruct J as [J|J]; [apply c_early, J|]. subst g. congruence.
      * intros g J. apply AL, c_to_close, J.
      * intros g J K. destruct (EA g K) as [E|E]; [exact (c_late g J E)|]. subst g. specialize (c_to_close f J). congruence.
      * intros K p J. destruct (c_climb K p J) as (g & Q & PG). exists g. split; [apply QS; left; exact Q|].
        rewrite XPA; [exact PG|]. apply AL, QA, Q.
  - intros g K1 K2. change (cur s = Some g) in K1. change (now s = Taken) in K2. rewrite (RD g K1) in K2. discriminate K2.
  - intros g K1 K2. change (cur s = Some g) in K1. change (now s = Dead) in K2. rewrite (RD g K1) in K2. discriminate K2.
Qed.

(** ** All steps *)

Theorem step_good u o s : good s -> exists s', step u o s = Some s' /\ good s'.
Proof.
  intros G. destruct o.
  - cbn [step]. destruct (cur s) as [f|] eqn:CU; [destruct (now s) eqn:NW|]; try (exists s; auto; fail); apply new_good; auto; congruence.
  - apply async_open_good, G.
  - apply async_stat_good, G.
  - apply respond_good, G.
  - apply take_good, G.
  - apply requeue_good, G.
  - cbn [step]. destruct (cur s) as [f|] eqn:CU; [destruct (now s) eqn:NW|]; try (exists s; auto; fail). apply opendir_good; auto.
  - apply ensure_good, G.
  - cbn [step]. destruct (cur s) as [f|] eqn:CU; [destruct (now s) eqn:NW|]; try (exists s; auto; fail); apply finish_good; auto; rewrite NW; exact I.
  - apply unwrap_good, G.
  - cbn [step]. destruct (cur s) as [f|] eqn:CU; [destruct (now s) eqn:NW|]; try (exists s; auto; fail).
    + destruct (to_close s) eqn:TC; cbn [none]; [|exists s; auto]. apply drop_good; auto.
    + apply drop_good; auto.
  - cbn [step]. destruct (cur s) as [f|] eqn:CU; [destruct (now s) eqn:NW|]; try (exists s; auto; fail). apply free_good; auto.
Qed.

Theorem steps_good u l : forall s, good s -> exists s', steps u l s = Some s' /\ good s'.
Proof.
  induction l as [|o l IH]; intros s G; cbn [steps]; [exists s; auto|].
  destruct (step_good u o s G) as (s1 & E & G1). rewrite E. apply IH, G1.
Qed.

Lemma init_good c : good (init B c).
Proof.
  constructor; [split|..]; try (intros; discriminate).
  - constructor; cbn; try (intros; discriminate); try (intros; contradiction).
    + intros; exact I.
    + constructor.
  - constructor; cbn; try (intros; discriminate); try reflexivity; try (intros; contradiction); try constructor; try (intros; lia); auto.
    + intros [X _]. congruence.
    + intros [[f X]|[[]|[]]]; discriminate X.
Qed.

Theorem run_good u c l : exists s, run u B c l = Some s /\ good s.
Proof. apply steps_good, init_good. Qed.

End Runs.
