(** * The steps that cache functions are made of *)

From Coq Require Import List Arith ZArith Bool Lia.
Import ListNotations.
From Verif Require Import CacheModel CacheSpec CacheLists CacheInv.

Definition bump (f : nat) (p : nat -> nat) : nat -> nat :=
  fun g => if g =? f then S (p g) else p g.

Ltac unf := unfold freedir, put, emit, set_files, set_lru, set_cap, set_lim, set_flight, set_walk, set_to_close.

Ltac flds := cbn [count files lru target cap lim flight queued cur now to_close fresh log ch
                  up fd dir pins refs alive set_fd set_dirp set_pins set_refs
                  live holds pinned idle root streams xp xd xk xs].

Ltac flds_in H := cbn [count files lru target cap lim flight queued cur now to_close fresh log ch
                  up fd dir pins refs alive set_fd set_dirp set_pins set_refs
                  live holds pinned idle root streams xp xd xk xs] in H.

Section Prims.

Variable B : nat.

Notation cache := (cache B).

Definition set_ch l s := St (count s) (files s) (lru s) (target s) (cap s) (lim s) (flight s) (queued s) (cur s) (now s) (to_close s) (fresh s) (log s) l.

Lemma pick_ch s : exists l, snd (pick s) = set_ch l s.
Proof.
  unfold pick, set_ch. destruct (ch s) as [|c l] eqn:E; cbn [snd].
  - exists []. rewrite <- E. destruct s; reflexivity.
  - exists l. reflexivity.
Qed.

Lemma cache_ch x s l : cache x s -> cache x (set_ch l s).
Proof. intros C. destruct C. constructor; assumption. Qed.

Lemma same_ch s l : same_tree s (set_ch l s).
Proof. repeat split. Qed.

Lemma alive_open x s f : cache x s -> fd (files s f) <> None -> alive (files s f) = true.
Proof.
  intros C O. destruct (alive (files s f)) eqn:A; [reflexivity|]. destruct O. apply (c_dead _ _ _ C), A.
Qed.

Lemma the_alive s f : alive (files s f) = true -> the f s = Some (files s f).
Proof. unfold the. intros ->. reflexivity. Qed.

(** ** Use of a descriptor *)

Lemma cache_use x s d : cache x s -> In d (live (log s)) -> cache x (emit (Use d) s).
Proof.
  intros C I. destruct C. constructor; try assumption. unf. flds. split; assumption.
Qed.

(** ** Pins *)

Lemma the_some s f y : the f s = Some y -> y = files s f.
Proof. unfold the. destruct (alive (files s f)); congruence. Qed.

Lemma lru_remove_ok s f rt l :
  alive (files s f) = true -> lru s = order rt l -> target s = top rt l -> NoDup l -> In f l ->
  lru_remove f s = Some (set_lru (order rt (without f l)) (top rt (without f l)) s).
Proof.
  intros A L T ND I. unfold lru_remove. rewrite (the_alive _ _ A).
  replace (existsb (Nat.eqb f) (lru s)) with true.
  2: { symmetry. apply existsb_in. rewrite L. apply order_in, I. }
  rewrite L, T, top_without, unlink_without, order_without by auto using order_nodup. reflexivity.
Qed.

Lemma lru_add_ok s f rt l :
  alive (files s f) = true -> fd (files s f) <> None -> rt f = none (up (files s f)) ->
  lru s = order rt l -> target s = top rt l -> NoDup l ->
  lru_add f s = Some (set_lru (order rt (f :: l)) (top rt (f :: l)) s).
Proof.
  intros A O R L T ND. unfold lru_add. rewrite (the_alive _ _ A).
  destruct (fd (files s f)); [|congruence]. rewrite L, T, insert_order by exact ND.
  rewrite top_add, R. destruct (up (files s f)); reflexivity.
Qed.

Lemma pin_ok p d k n s f :
  cache (Extra p d k n) s -> fd (files s f) <> None ->
  exists s', cache_pin f s = Some s' /\ cache (Extra (bump f p) d k n) s' /\ same_tree s s' /\
    flight s' = flight s /\ cap s' = cap s /\ log s' = Pin f :: log s /\
    (forall g, fd (files s' g) = fd (files s g) /\ dir (files s' g) = dir (files s g)).
Proof.
  intros C O. pose proof (alive_open _ _ _ C O) as A.
  unfold cache_pin. rewrite (the_alive _ _ A).
  destruct (fd (files s f)) as [d0|] eqn:F; [|congruence].
  set (y := set_pins (S (pins (files s f))) (files s f)).
  assert (ST : same_tree s (emit (Pin f) (put f y s))).
  { apply (same_put f y s); reflexivity. }
  assert (FD : forall g, fd (files (emit (Pin f) (put f y s)) g) = fd (files s g) /\
                         dir (files (emit (Pin f) (put f y s)) g) = dir (files s g)).
  { intros g. unf. flds. destruct (Nat.eqb_spec g f) as [->|]; split; reflexivity. }
  set (s1 := emit (Pin f) (put f y s)) in *.
  assert (PN : forall g, pins (files s1 g) = if g =? f then S (pins (files s f)) else pins (files s g)).
  { intros g. unfold s1, y. unf. flds. destruct (Nat.eqb_spec g f) as [->|]; reflexivity. }
  assert (G : forall l t, l = order (root (log s)) (without f (idle (log s))) -> t = top (root (log s)) (without f (idle (log s))) ->
            cache (Extra (bump f p) d k n) (set_lru l t s1)).
  { intros l t EL ET.
    pose proof C as C'. destruct C'. constructor; try assumption;
      change (files (set_lru l t s1)) with (files s1); change (flight (set_lru l t s1)) with (flight s);
      change (log (set_lru l t s1)) with (Pin f :: log s); flds.
    - intros g. rewrite (proj1 (FD g)). rewrite (same_alive _ _ g ST). apply c_dead.
    - intros g. rewrite (proj1 (FD g)), (proj2 (FD g)). apply c_dir.
    - intros g. rewrite (proj1 (FD g)), PN. destruct (Nat.eqb_spec g f) as [->|]; [intros _; congruence|]. apply c_pin.
    - intros g. rewrite (proj1 (FD g)). apply c_holds.
    - intros g. rewrite PN, Nat.eqb_sym. destruct (Nat.eqb_spec g f) as [->|]; rewrite c_pinned; reflexivity.
    - intros g. rewrite (same_alive _ _ g ST), (same_up _ _ g ST). apply c_root.
    - apply without_nodup, c_idle_nd.
    - intros g. rewrite (proj1 (FD g)), without_in, c_idle, PN.
      destruct (Nat.eqb_spec g f) as [->|NE]; intuition (congruence || lia).
    - intros d1. rewrite c_live. split; intros [(g & E)|E]; auto; left; exists g; [rewrite (proj1 (FD g))|rewrite (proj1 (FD g)) in E]; exact E.
    - intros g h d1. rewrite (proj1 (FD g)), (proj1 (FD h)). apply c_inj.
    - intros g d1. rewrite (proj1 (FD g)). apply c_apart.
    - rewrite c_streams. f_equal. f_equal. unfold dirs. apply counted_ext. intros g _. symmetry. apply FD.
    - split; [cbn [ok]; rewrite c_holds; congruence|assumption].
    - intros g. rewrite PN. change (inpins (set_lru l t s1) g) with (inpins s1 g).
      change (reading (set_lru l t s1) g) with (reading s g).
      rewrite (same_inpins s s1 g ST eq_refl). unfold bump. cbn [xp] in c_pins. rewrite c_pins.
      destruct (Nat.eqb_spec g f) as [->|]; rewrite ?c_pins; lia.
    - intros g d1 a. rewrite (proj1 (FD g)). apply c_open.
    - intros r g IN RF. change (parent g (set_lru l t s1)) with (parent g s1). rewrite (same_parent _ _ g ST).
      specialize (c_at r g IN RF). destruct (parent g s); [rewrite (proj1 (FD n0))|]; exact c_at.
    - intros g. rewrite (proj1 (FD g)), (proj2 (FD g)). apply c_early.
    - intros g. change (to_close (set_lru l t s1)) with (to_close s). rewrite (same_alive _ _ g ST). apply c_to_close.
    - intros CL q IN. destruct (c_climb CL q IN) as (g & Q & P). exists g. split; [exact Q|].
      change (parent g (set_lru l t s1)) with (parent g s1). rewrite (same_parent _ _ g ST). exact P. }
  destruct (Nat.eqb_spec (pins (files s f)) 0) as [Z|NZ].
  - assert (I : In f (idle (log s))) by (apply (c_idle _ _ _ C); split; [congruence|exact Z]).
    assert (R : lru_remove f s1 = Some (set_lru (order (root (log s)) (without f (idle (log s)))) (top (root (log s)) (without f (idle (log s)))) s1)).
    { apply lru_remove_ok; auto.
      - rewrite (same_alive _ _ f ST). exact A.
      - exact (c_lru _ _ _ C).
      - exact (c_target _ _ _ C).
      - exact (c_idle_nd _ _ _ C). }
    rewrite R. eexists. split; [reflexivity|]. split; [apply G; reflexivity|]. repeat split; apply ST || apply FD.
  - exists s1. split; [reflexivity|]. split.
    + replace s1 with (set_lru (lru s) (target s) s1) by reflexivity.
      assert (NI : ~ In f (idle (log s))) by (rewrite (c_idle _ _ _ C); intuition congruence).
      apply G; rewrite without_notin by exact NI; apply C.
    + repeat split; apply ST || apply FD.
Qed.


Lemma unpin_ok p d k n s f :
  cache (Extra (bump f p) d k n) s ->
  exists s', cache_unpin f s = Some s' /\ cache (Extra p d k n) s' /\ same_tree s s' /\
    flight s' = flight s /\ cap s' = cap s /\ to_close s' = to_close s /\ log s' = Unpin f :: log s /\
    (forall g, fd (files s' g) = fd (files s g) /\ dir (files s' g) = dir (files s g)).
Proof.
  intros C.
  assert (PF : exists q, pins (files s f) = S q /\ q = inpins s f + reading s f + p f).
  { pose proof (c_pins _ _ _ C f) as P. unfold bump in P. cbn [xp] in P. rewrite Nat.eqb_refl in P.
    exists (inpins s f + reading s f + p f). split; [lia|reflexivity]. }
  destruct PF as (q & PF & QE).
  assert (O : fd (files s f) <> None) by (apply (c_pin _ _ _ C); lia).
  pose proof (alive_open _ _ _ C O) as A.
  unfold cache_unpin. rewrite (the_alive _ _ A), PF.
  destruct (fd (files s f)) as [d0|] eqn:F; [|congruence].
  set (y := set_pins q (files s f)).
  assert (ST : same_tree s (emit (Unpin f) (put f y s))).
  { apply (same_put f y s); reflexivity. }
  assert (FD : forall g, fd (files (emit (Unpin f) (put f y s)) g) = fd (files s g) /\
                         dir (files (emit (Unpin f) (put f y s)) g) = dir (files s g)).
  { intros g. unf. flds. destruct (Nat.eqb_spec g f) as [->|]; split; reflexivity. }
  set (s1 := emit (Unpin f) (put f y s)) in *.
  assert (PN : forall g, pins (files s1 g) = if g =? f then q else pins (files s g)).
  { intros g. unfold s1, y. unf. flds. destruct (Nat.eqb_spec g f) as [EQ|]; [subst g|]; reflexivity. }
  assert (NI : ~ In f (idle (log s))) by (rewrite (c_idle _ _ _ C); lia).
  set (l' := if q =? 0 then f :: idle (log s) else idle (log s)).
  assert (IL : idle (Unpin f :: log s) = l').
  { flds. rewrite (c_pinned _ _ _ C), PF. reflexivity. }
  assert (G : forall l t, l = order (root (log s)) l' -> t = top (root (log s)) l' ->
            cache (Extra p d k n) (set_lru l t s1)).
  { intros l t EL ET.
    pose proof C as C'. destruct C'. constructor; try assumption;
      change (files (set_lru l t s1)) with (files s1); change (flight (set_lru l t s1)) with (flight s);
      change (log (set_lru l t s1)) with (Unpin f :: log s); rewrite ?IL; flds.
    - intros g. rewrite (proj1 (FD g)). rewrite (same_alive _ _ g ST). apply c_dead.
    - intros g. rewrite (proj1 (FD g)), (proj2 (FD g)). apply c_dir.
    - intros g. rewrite (proj1 (FD g)), PN. destruct (Nat.eqb_spec g f) as [EQ|]; [subst g; intros _; congruence|]. apply c_pin.
    - intros g. rewrite (proj1 (FD g)). apply c_holds.
    - intros g. rewrite PN, Nat.eqb_sym. destruct (Nat.eqb_spec g f) as [EQ|]; [subst g|]; rewrite c_pinned, ?PF; reflexivity.
    - intros g. rewrite (same_alive _ _ g ST), (same_up _ _ g ST). apply c_root.
    - unfold l'. destruct (q =? 0); [constructor|]; assumption.
    - intros g. rewrite (proj1 (FD g)), PN. unfold l'. destruct (Nat.eqb_spec q 0) as [->|NZ].
      + cbn [In]. rewrite c_idle. destruct (Nat.eqb_spec g f) as [EQ|NE]; [subst g|]; intuition congruence.
      + rewrite c_idle. destruct (Nat.eqb_spec g f) as [EQ|NE]; [subst g|tauto]. lia.
    - exact EL.
    - exact ET.
    - intros d1. rewrite c_live. split; intros [(g & E)|E]; auto; left; exists g; [rewrite (proj1 (FD g))|rewrite (proj1 (FD g)) in E]; exact E.
    - intros g h d1. rewrite (proj1 (FD g)), (proj1 (FD h)). apply c_inj.
    - intros g d1. rewrite (proj1 (FD g)). apply c_apart.
    - rewrite c_streams. f_equal. f_equal. unfold dirs. apply counted_ext. intros g _. symmetry. apply FD.
    - split; [cbn [ok]; rewrite c_pinned; lia|assumption].
    - intros g. rewrite PN. change (inpins (set_lru l t s1) g) with (inpins s1 g).
      change (reading (set_lru l t s1) g) with (reading s g).
      rewrite (same_inpins s s1 g ST eq_refl). unfold bump in c_pins. cbn [xp] in c_pins. rewrite (c_pins g).
      destruct (Nat.eqb_spec g f) as [E|]; [subst g|]; lia.
    - intros g d1 a. rewrite (proj1 (FD g)). apply c_open.
    - intros r g IN RF. change (parent g (set_lru l t s1)) with (parent g s1). rewrite (same_parent _ _ g ST).
      specialize (c_at r g IN RF). destruct (parent g s); [rewrite (proj1 (FD n0))|]; exact c_at.
    - intros g. rewrite (proj1 (FD g)), (proj2 (FD g)). apply c_early.
    - intros g. change (to_close (set_lru l t s1)) with (to_close s). rewrite (same_alive _ _ g ST). apply c_to_close.
    - intros CL q1 IN. destruct (c_climb CL q1 IN) as (g & Q & P). exists g. split; [exact Q|].
      change (parent g (set_lru l t s1)) with (parent g s1). rewrite (same_parent _ _ g ST). exact P. }
  destruct (Nat.eqb_spec q 0) as [Z|NZ]; cbn [Nat.eqb] in *.
  - assert (R : lru_add f s1 = Some (set_lru (order (root (log s)) (f :: idle (log s))) (top (root (log s)) (f :: idle (log s))) s1)).
    { apply lru_add_ok; auto.
      - rewrite (same_alive _ _ f ST). exact A.
      - rewrite (proj1 (FD f)). congruence.
      - rewrite (same_up _ _ f ST). apply (c_root _ _ _ C), A.
      - exact (c_lru _ _ _ C).
      - exact (c_target _ _ _ C).
      - exact (c_idle_nd _ _ _ C). }
    rewrite R. eexists. split; [reflexivity|]. split; [apply G; reflexivity|]. repeat split; apply ST || apply FD.
  - exists s1. split; [reflexivity|]. split.
    + replace s1 with (set_lru (lru s) (target s) s1) by reflexivity.
      apply G; apply C.
    + repeat split; apply ST || apply FD.
Qed.

(** ** Descriptors of files *)

Lemma inpins_pos s r g f : In r (flight s) -> req_file r = Some g -> parent g s = Some f -> 0 < inpins s f.
Proof.
  intros I E P. unfold inpins.
  assert (J : In r (filter (fun r => match req_file r with Some f0 => parent_is f f0 s | None => false end) (flight s))).
  { apply filter_In. split; [exact I|]. rewrite E. unfold parent_is. rewrite P. apply Nat.eqb_refl. }
  destruct (filter _ _); [destruct J|]. cbn [length]. lia.
Qed.

Lemma no_flight x s f : cache x s -> pins (files s f) = 0 ->
  forall r g, In r (flight s) -> req_file r = Some g -> parent g s <> Some f.
Proof.
  intros C Z r g I E P. pose proof (inpins_pos _ _ _ _ I E P). pose proof (c_pins _ _ _ C f). lia.
Qed.

Lemma dirs_put f y s n' :
  f < count s -> count n' = count s -> (forall g, dir (files n' g) = if g =? f then dir y else dir (files s g)) ->
  dirs n' + (if dir (files s f) then 1 else 0) = dirs s + (if dir y then 1 else 0).
Proof.
  intros L CN E. unfold dirs. rewrite CN.
  pose proof (counted_change (fun g => dir (files n' g)) (fun g => dir (files s g)) f (count s)) as H.
  cbn beta in H. rewrite (E f), Nat.eqb_refl in H. apply H; [|exact L].
  intros g NE. rewrite E. destruct (Nat.eqb_spec g f); [contradiction|reflexivity].
Qed.

(** A file gives up its descriptor. *)
Lemma uncache_ok p d k n s f d0 l t :
  tree s -> cache (Extra p d k n) s -> fd (files s f) = Some d0 -> pins (files s f) = 0 ->
  l = order (root (log s)) (without f (idle (log s))) -> t = top (root (log s)) (without f (idle (log s))) ->
  cache (Extra p (d0 :: d) k ((if dir (files s f) then 1 else 0) + n))
    (set_lru l t (emit (Uncached f) (put f (set_fd None (set_dirp false (files s f))) s))) /\
  same_tree s (set_lru l t (emit (Uncached f) (put f (set_fd None (set_dirp false (files s f))) s))).
Proof.
  intros T C F Z EL ET.
  assert (A : alive (files s f) = true) by (eapply alive_open; [exact C|congruence]).
  set (y := set_fd None (set_dirp false (files s f))).
  assert (ST : same_tree s (set_lru l t (emit (Uncached f) (put f y s)))).
  { apply (same_put f y s); reflexivity. }
  split; [|exact ST].
  assert (FD : forall g, files (set_lru l t (emit (Uncached f) (put f y s))) g = if g =? f then y else files s g) by reflexivity.
  set (s1 := set_lru l t (emit (Uncached f) (put f y s))) in *.
  assert (LT : f < count s) by (apply (t_lt _ T), A).
  assert (NF := no_flight _ _ _ C Z).
  pose proof C as C'. destruct C'. constructor; try assumption;
    change (flight s1) with (flight s); change (log s1) with (Uncached f :: log s);
    change (fresh s1) with (fresh s); flds.
  - intros g. rewrite FD. destruct (Nat.eqb_spec g f) as [EQ|]; [subst g; reflexivity|]. apply c_dead.
  - intros g. rewrite FD. destruct (Nat.eqb_spec g f) as [EQ|]; [subst g; cbn; congruence|]. apply c_dir.
  - intros g. rewrite FD. destruct (Nat.eqb_spec g f) as [EQ|]; [subst g; cbn; lia|]. apply c_pin.
  - intros g. rewrite FD, Nat.eqb_sym. destruct (Nat.eqb_spec g f) as [EQ|]; [subst g; reflexivity|]. apply c_holds.
  - intros g. rewrite FD. rewrite c_pinned. destruct (Nat.eqb_spec g f) as [EQ|]; [subst g|]; reflexivity.
  - intros g. rewrite (same_alive _ _ g ST), (same_up _ _ g ST). apply c_root.
  - apply without_nodup, c_idle_nd.
  - intros g. rewrite FD, without_in, c_idle. destruct (Nat.eqb_spec g f) as [EQ|NE]; [subst g|]; cbn [fd y set_fd]; [|tauto]. intuition congruence.
  - intros d1. rewrite c_live. cbn [In]. split.
    + intros [(g & E)|[E|E]]; auto. destruct (Nat.eq_dec g f) as [->|NE]; [right; right; left; congruence|].
      left. exists g. rewrite FD. destruct (Nat.eqb_spec g f); [contradiction|exact E].
    + intros [(g & E)|[E|[E|E]]]; auto.
      * left. exists g. rewrite FD in E. destruct (Nat.eqb_spec g f) as [EQ|]; [subst g; discriminate|exact E].
      * left. exists f. congruence.
  - intros g h d1. rewrite !FD. destruct (Nat.eqb_spec g f) as [EQ|]; [subst g; discriminate|].
    destruct (Nat.eqb_spec h f) as [->|]; [discriminate|]. apply c_inj.
  - cbn [xd] in *. apply NoDup_Add with (a := d0) (l := fds (flight s) ++ d).
    + apply Add_app.
    + split; [assumption|]. apply (c_apart f). exact F.
  - intros g d1. rewrite FD. destruct (Nat.eqb_spec g f) as [EQ|NE]; [subst g; discriminate|]. intros E.
    rewrite in_app_iff. cbn [In]. intros [I|[I|I]].
    + apply (c_apart g d1 E), in_app_iff. left; exact I.
    + subst d1. apply NE. apply (c_inj g f d0); assumption.
    + apply (c_apart g d1 E), in_app_iff. right; exact I.
  - pose proof (dirs_put f y s s1 LT eq_refl) as DP. cbn [xs] in c_streams. rewrite c_streams.
    assert (DP' : dirs s1 + (if dir (files s f) then 1 else 0) = dirs s + (if dir y then 1 else 0)).
    { apply DP. intros g. rewrite FD. destruct (g =? f); reflexivity. }
    cbn [dir y set_fd set_dirp] in DP'. lia.
  - split; [|assumption]. cbn [ok]. rewrite c_holds, c_pinned. split; [congruence|exact Z].
  - intros g. rewrite (same_inpins s s1 g ST eq_refl), (same_reading _ _ g ST). cbn [xp] in c_pins.
    rewrite <- c_pins, FD. destruct (Nat.eqb_spec g f) as [EQ|]; [subst g|]; reflexivity.
  - intros g d1 a IN. rewrite FD. destruct (Nat.eqb_spec g f) as [EQ|]; [subst g; reflexivity|]. eapply c_open; exact IN.
  - intros r g IN RF. rewrite (same_parent _ _ g ST). specialize (c_at r g IN RF). specialize (NF r g IN RF).
    destruct (parent g s) as [q|]; [|exact c_at]. rewrite FD. destruct (Nat.eqb_spec q f) as [->|]; [congruence|exact c_at].
  - intros g E. rewrite FD. destruct (Nat.eqb_spec g f) as [EQ|]; [subst g; cbn; congruence|]. apply c_early, E.
  - intros g. change (to_close s1) with (to_close s). rewrite (same_alive _ _ g ST). apply c_to_close.
  - intros CL q1 IN. destruct (c_climb CL q1 IN) as (g & Q & P). exists g. split; [exact Q|].
    rewrite (same_parent _ _ g ST). exact P.
Qed.

(** A file gets a descriptor. *)
Lemma cached_ok p d k n s f d0 (v : bool) y :
  tree s -> cache (Extra p (d0 :: d) (S k) ((if v then 1 else 0) + n)) s ->
  alive (files s f) = true -> fd (files s f) = None -> 0 < cap s ->
  (In f (queued s) -> v = true) -> (forall d1 a, ~ In (Ropen f d1 a) (flight s)) ->
  y = File (up (files s f)) (Some d0) v (pins (files s f)) (refs (files s f)) true ->
  exists s', cache_add f (put f y s) = Some (true, s') /\
    cache (Extra p d k n) s' /\ same_tree s s' /\
    flight s' = flight s /\ to_close s' = to_close s /\
    (forall g, g <> f -> files s' g = files s g) /\ files s' f = y.
Proof.
  intros T C A F CP EV NO ->. set (y := File _ _ _ _ _ _).
  assert (Z : pins (files s f) = 0).
  { destruct (pins (files s f)) eqn:E; [reflexivity|]. destruct (c_pin _ _ _ C f); [lia|exact F]. }
  assert (DF : dir (files s f) = false).
  { destruct (dir (files s f)) eqn:E; [|reflexivity]. destruct (c_dir _ _ _ C f); assumption. }
  unfold cache_add.
  assert (TH : the f (put f y s) = Some y).
  { unfold the. rewrite files_put, Nat.eqb_refl. reflexivity. }
  rewrite TH. cbn [fd y].
  change (cap (put f y s)) with (cap s).
  destruct (Nat.eqb_spec (cap s) 0) as [E|_]; [lia|].
  change (cap (put f y s)) with (cap s).
  destruct (cap s) as [|c] eqn:CE; [lia|].
  assert (NI : ~ In f (idle (log s))) by (rewrite (c_idle _ _ _ C); intuition congruence).
  set (l := order (root (log s)) (f :: idle (log s))). set (t := top (root (log s)) (f :: idle (log s))).
  assert (R : lru_add f (set_cap c (put f y s)) = Some (set_lru l t (set_cap c (put f y s)))).
  { apply lru_add_ok.
    - change (files (set_cap c (put f y s))) with (files (put f y s)). rewrite files_put, Nat.eqb_refl. reflexivity.
    - change (files (set_cap c (put f y s))) with (files (put f y s)). rewrite files_put, Nat.eqb_refl. cbn. congruence.
    - change (files (set_cap c (put f y s))) with (files (put f y s)). rewrite files_put, Nat.eqb_refl. cbn [up y].
      apply (c_root _ _ _ C), A.
    - exact (c_lru _ _ _ C).
    - exact (c_target _ _ _ C).
    - exact (c_idle_nd _ _ _ C). }
  rewrite R. set (s1 := emit (Cached f d0) (set_lru l t (set_cap c (put f y s)))).
  exists s1. split; [reflexivity|].
  assert (FD : forall g, files s1 g = if g =? f then y else files s g) by reflexivity.
  assert (ST : same_tree s s1).
  { apply (same_put f y s); [reflexivity|cbn [alive y]; congruence|reflexivity]. }
  assert (LT : f < count s) by (apply (t_lt _ T), A).
  assert (NF := no_flight _ _ _ C Z).
  split; [|repeat split; try apply ST].
  2: { intros g NE. rewrite FD. destruct (Nat.eqb_spec g f); [contradiction|reflexivity]. }
  2: { rewrite FD, Nat.eqb_refl. reflexivity. }
  pose proof C as C'. destruct C'. cbn [xp xd xk xs] in *.
  assert (DN : forall g, fd (files s g) <> Some d0).
  { intros g E. apply (c_apart g d0 E), in_app_iff. right; left; reflexivity. }
  constructor; try assumption;
    change (flight s1) with (flight s); change (log s1) with (Cached f d0 :: log s);
    change (fresh s1) with (fresh s); change (cap s1) with c; flds.
  - intros g. rewrite FD. destruct (Nat.eqb_spec g f) as [EQ|]; [subst g; discriminate|]. apply c_dead.
  - intros g. rewrite FD. destruct (Nat.eqb_spec g f) as [EQ|]; [subst g; discriminate|]. apply c_dir.
  - intros g. rewrite FD. destruct (Nat.eqb_spec g f) as [EQ|]; [subst g; discriminate|]. apply c_pin.
  - intros g. rewrite FD, Nat.eqb_sym. destruct (Nat.eqb_spec g f) as [EQ|]; [subst g; reflexivity|]. apply c_holds.
  - intros g. rewrite FD. rewrite c_pinned. destruct (Nat.eqb_spec g f) as [EQ|]; [subst g|]; reflexivity.
  - intros g. rewrite (same_alive _ _ g ST), (same_up _ _ g ST). apply c_root.
  - constructor; assumption.
  - intros g. rewrite FD. cbn [In]. rewrite c_idle. destruct (Nat.eqb_spec g f) as [EQ|NE]; [subst g|]; cbn [fd pins y]; intuition congruence.
  - reflexivity.
  - reflexivity.
  - intros d1. rewrite c_live. cbn [In]. split.
    + intros [(g & E)|[E|[E|E]]]; auto.
      * left. exists g. rewrite FD. destruct (Nat.eqb_spec g f) as [EQ|]; [subst g; congruence|exact E].
      * left. exists f. rewrite FD, Nat.eqb_refl. cbn. congruence.
    + intros [(g & E)|[E|E]]; auto.
      rewrite FD in E. destruct (Nat.eqb_spec g f) as [EQ|]; [subst g|left; exists g; exact E].
      right; right; left. cbn in E. congruence.
  - intros g h d1. rewrite !FD. destruct (Nat.eqb_spec g f) as [EQ|NG]; [subst g|]; destruct (Nat.eqb_spec h f) as [->|NH]; cbn [fd y]; intros G H; auto.
    + destruct (DN h). congruence.
    + destruct (DN g). congruence.
    + eapply c_inj; eassumption.
  - eapply (NoDup_remove_1 (fds (flight s)) d d0). assumption.
  - intros g d1. rewrite FD. destruct (Nat.eqb_spec g f) as [EQ|NE]; [subst g|].
    + cbn [fd y]. intros E. injection E as <-. eapply (NoDup_remove_2 (fds (flight s)) d d0). assumption.
    + intros E. pose proof (c_apart g d1 E) as NA. rewrite in_app_iff in NA |- *. cbn [In] in NA. tauto.
  - lia.
  - pose proof (dirs_put f y s s1 LT eq_refl) as DP. rewrite c_streams.
    assert (DP' : dirs s1 + (if dir (files s f) then 1 else 0) = dirs s + (if dir y then 1 else 0)).
    { apply DP. intros g. rewrite FD. destruct (g =? f); reflexivity. }
    rewrite DF in DP'. cbn [dir y] in DP'. lia.
  - split; [|assumption]. cbn [ok]. rewrite c_holds, c_live. split; [exact F|]. split; [right; right; left; reflexivity|].
    intros g. rewrite c_holds. apply DN.
  - intros g. rewrite (same_inpins s s1 g ST eq_refl), (same_reading _ _ g ST).
    rewrite <- c_pins, FD. destruct (Nat.eqb_spec g f) as [EQ|]; [subst g|]; reflexivity.
  - intros g d1 a IN. rewrite FD. destruct (Nat.eqb_spec g f) as [EQ|]; [subst g; destruct (NO _ _ IN)|]. eapply c_open; exact IN.
  - intros r g IN RF. rewrite (same_parent _ _ g ST). specialize (c_at r g IN RF). specialize (NF r g IN RF).
    destruct (parent g s) as [q|]; [|exact c_at]. rewrite FD. destruct (Nat.eqb_spec q f) as [->|]; [congruence|exact c_at].
  - intros g E. rewrite FD. destruct (Nat.eqb_spec g f) as [EQ|]; [subst g; intros _; exact (EV E)|]. apply c_early, E.
  - intros g. change (to_close s1) with (to_close s). rewrite (same_alive _ _ g ST). apply c_to_close.
  - intros CL q1 IN. destruct (c_climb CL q1 IN) as (g & Q & P). exists g. split; [exact Q|].
    rewrite (same_parent _ _ g ST). exact P.
Qed.

End Prims.
