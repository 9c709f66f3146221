(** * More steps that cache functions are made of *)

From Coq Require Import List Arith ZArith Bool Lia Permutation.
Import ListNotations.
From Verif Require Import CacheModel CacheSpec CacheLists CacheInv CachePrims.

Definition bumped (o : option nat) (p : nat -> nat) : nat -> nat :=
  match o with Some f => bump f p | None => p end.

Section Moves.

Variable B : nat.

Notation cache := (cache B).

(** ** Descriptors *)

Lemma release_ok p d k n s d0 :
  cache (Extra p (d0 :: d) k n) s ->
  cache (Extra p d k n) (set_cap (S (cap s)) (emit (Release d0) s)).
Proof.
  intros C. destruct C. cbn [xp xd xk xs] in *.
  assert (L : In d0 (live (log s))) by (apply c_live; right; right; left; reflexivity).
  assert (DN : forall g, fd (files s g) <> Some d0).
  { intros g E. apply (c_apart g d0 E), in_app_iff. right; left; reflexivity. }
  assert (NI : ~ In d0 (fds (flight s) ++ d)) by (apply NoDup_remove_2; assumption).
  constructor; unf; flds; try assumption.
  - apply without_nodup. assumption.
  - intros d1. rewrite without_in, c_live. rewrite in_app_iff in NI. cbn [In].
    split; [intuition congruence|].
    intros [(g & E)|[E|E]]; (split; [eauto|]); [intros ->; exact (DN g E)| |]; intros ->; tauto.
  - apply NoDup_remove_1 in c_flight_nd. exact c_flight_nd.
  - intros f d1 E. specialize (c_apart f d1 E). rewrite in_app_iff in *. cbn [In] in *. tauto.
  - intros d1. rewrite without_in. intros [I _]. apply c_fresh, I.
  - pose proof (without_length d0 _ c_live_nd L). lia.
  - split; [|assumption]. cbn [ok]. split; [exact L|]. intros f. rewrite c_holds. apply DN.
Qed.

Lemma acquire_ok p d k n s :
  cache (Extra p d k n) s -> length (live (log s)) < B ->
  cache (Extra p (fresh s :: d) (S k) n) (snd (acquire s)) /\ same_tree s (snd (acquire s)).
Proof.
  intros C LT. split; [|repeat split]. destruct C. cbn [xp xd xk xs] in *.
  assert (NL : ~ In (fresh s) (live (log s))) by (intros I; specialize (c_fresh _ I); lia).
  constructor; unfold acquire; cbn [snd]; flds; try assumption.
  - constructor; assumption.
  - intros d1. cbn [In]. rewrite c_live. tauto.
  - apply NoDup_Add with (a := fresh s) (l := fds (flight s) ++ d); [apply Add_app|].
    split; [assumption|]. intros I. apply NL, c_live. rewrite in_app_iff in I. tauto.
  - intros f d1 E I. rewrite in_app_iff in I. cbn [In] in I. destruct I as [I|[I|I]].
    + apply (c_apart f d1 E), in_app_iff. left; exact I.
    + subst d1. apply NL, c_live. left. exists f. exact E.
    + apply (c_apart f d1 E), in_app_iff. right; exact I.
  - intros d1. cbn [In]. intros [<-|I]; [lia|]. specialize (c_fresh _ I). lia.
  - cbn [length]. lia.
  - split; [|assumption]. cbn [ok]. split; assumption.
Qed.

Lemma spend_ok p d k n s c :
  cache (Extra p d (S k) n) s -> cap s = S c -> cache (Extra p d k n) (set_cap c s).
Proof.
  intros C E. destruct C. cbn [xp xd xk xs] in *. constructor; unf; flds; try assumption. lia.
Qed.

Lemma shrink_ok x s c : cache x s -> c <= cap s -> cache x (set_cap c s).
Proof. intros C E. destruct C. constructor; unf; flds; try assumption. lia. Qed.

(** ** Directory streams *)

Lemma freedir_ok p d k n s : cache (Extra p d k (S n)) s -> cache (Extra p d k n) (freedir s).
Proof.
  intros C. destruct C. cbn [xp xd xk xs] in *.
  constructor; unf; flds; try assumption.
  - rewrite c_lim. lia.
  - rewrite c_streams. change (dirs _) with (dirs s). lia.
  - split; [cbn [ok]; lia|assumption].
Qed.

Lemma dir_limit_ahead z : (0 < dir_limit B - Z.of_nat z)%Z -> z < ahead B.
Proof.
  unfold dir_limit, ahead. destruct (Nat.ltb_spec 1024 B) as [L|L].
  - replace 1024%Z with (Z.of_nat 1024) by reflexivity.
    intros H. apply Nat.min_glb_lt; lia.
  - intros H. apply Nat.min_glb_lt; lia.
Qed.

Lemma allocdir_ok p d k n s force b s' :
  cache (Extra p d k n) s -> allocdir force s = (b, s') ->
  cache (Extra p d k (if b then S n else n)) s' /\ same_tree s s' /\ flight s' = flight s /\ files s' = files s /\
  cap s' = cap s /\ live (log s') = live (log s) /\ to_close s' = to_close s.
Proof.
  intros C. unfold allocdir. destruct (negb force && (lim s <=? 0)%Z) eqn:E.
  - intros H. injection H as <- <-. split; [exact C|]. repeat split.
  - destruct (pick s) as [c s1] eqn:P. destruct (pick_ch s) as (l & PC). rewrite P in PC. cbn [snd] in PC. subst s1.
    pose proof (cache_ch B _ _ l C) as C1. destruct (c =? 0); intros H; injection H as <- <-.
    2: { split; [exact C1|]. repeat split. }
    split; [|repeat split].
    destruct C. cbn [xp xd xk xs] in *. constructor; unf; unfold set_ch; flds; try assumption.
    + lia.
    + rewrite c_streams. change (dirs _) with (dirs s) at 2. lia.
    + split; [|assumption]. cbn [ok]. intros ->. cbn [negb andb] in E. apply Z.leb_gt in E.
      apply dir_limit_ahead. lia.
Qed.

Lemma set_dir_ok p d k n s f :
  tree s -> cache (Extra p d k (S n)) s -> fd (files s f) <> None -> dir (files s f) = false ->
  cache (Extra p d k n) (put f (set_dirp true (files s f)) s) /\ same_tree s (put f (set_dirp true (files s f)) s).
Proof.
  intros T C O DF. set (y := set_dirp true (files s f)).
  assert (ST : same_tree s (put f y s)) by (apply (same_put f y s); reflexivity).
  split; [|exact ST].
  assert (A : alive (files s f) = true) by (eapply alive_open; eassumption).
  assert (FD : forall g, fd (files (put f y s) g) = fd (files s g) /\ pins (files (put f y s) g) = pins (files s g) /\
                         (dir (files (put f y s) g) = if g =? f then true else dir (files s g))).
  { intros g. rewrite files_put. destruct (Nat.eqb_spec g f) as [->|]; repeat split. }
  pose proof (dirs_put f y s (put f y s) (t_lt _ T _ A) eq_refl) as DP.
  assert (DP' : dirs (put f y s) + (if dir (files s f) then 1 else 0) = dirs s + (if dir y then 1 else 0)).
  { apply DP. intros g. rewrite files_put. destruct (g =? f); reflexivity. }
  rewrite DF in DP'. cbn [dir y set_dirp] in DP'.
  set (s1 := put f y s) in *.
  destruct C. cbn [xp xd xk xs] in *. constructor; try assumption;
    change (flight s1) with (flight s); change (log s1) with (log s).
  - intros g. rewrite (proj1 (FD g)), (same_alive _ _ g ST). apply c_dead.
  - intros g. destruct (FD g) as (-> & _ & ->). destruct (Nat.eqb_spec g f) as [EQ|]; [subst g; intros _; exact O|]. apply c_dir.
  - intros g. destruct (FD g) as (-> & -> & _). apply c_pin.
  - intros g. rewrite (proj1 (FD g)). apply c_holds.
  - intros g. destruct (FD g) as (_ & -> & _). apply c_pinned.
  - intros g. rewrite (same_alive _ _ g ST), (same_up _ _ g ST). apply c_root.
  - intros g. destruct (FD g) as (-> & -> & _). apply c_idle.
  - intros d1. rewrite c_live. split; intros [(g & E)|E]; auto; left; exists g; [rewrite (proj1 (FD g))|rewrite (proj1 (FD g)) in E]; exact E.
  - intros g h d1. rewrite (proj1 (FD g)), (proj1 (FD h)). apply c_inj.
  - intros g d1. rewrite (proj1 (FD g)). apply c_apart.
  - cbn [xs]. lia.
  - intros g. destruct (FD g) as (_ & -> & _). rewrite (same_inpins s s1 g ST eq_refl), (same_reading _ _ g ST). apply c_pins.
  - intros g d1 a. rewrite (proj1 (FD g)). apply c_open.
  - intros r g IN RF. rewrite (same_parent _ _ g ST).
    specialize (c_at r g IN RF). destruct (parent g s) as [q|]; [rewrite (proj1 (FD q))|]; exact c_at.
  - intros g E. destruct (FD g) as (-> & _ & ->). destruct (g =? f); [reflexivity|]. apply c_early, E.
  - intros g. change (to_close s1) with (to_close s). rewrite (same_alive _ _ g ST). apply c_to_close.
  - intros CL q1 IN. destruct (c_climb CL q1 IN) as (g & Q & P). exists g. split; [exact Q|].
    rewrite (same_parent _ _ g ST). exact P.
Qed.

Lemma clear_dir_ok p d k n s f :
  tree s -> cache (Extra p d k n) s -> dir (files s f) = true -> ~ In f (queued s) ->
  cache (Extra p d k (S n)) (put f (set_dirp false (files s f)) s) /\ same_tree s (put f (set_dirp false (files s f)) s).
Proof.
  intros T C DT NE. set (y := set_dirp false (files s f)).
  assert (ST : same_tree s (put f y s)) by (apply (same_put f y s); reflexivity).
  split; [|exact ST].
  assert (A : alive (files s f) = true) by (eapply alive_open; [eassumption|]; eapply c_dir; eassumption).
  assert (FD : forall g, fd (files (put f y s) g) = fd (files s g) /\ pins (files (put f y s) g) = pins (files s g) /\
                         (dir (files (put f y s) g) = if g =? f then false else dir (files s g))).
  { intros g. rewrite files_put. destruct (Nat.eqb_spec g f) as [->|]; repeat split. }
  pose proof (dirs_put f y s (put f y s) (t_lt _ T _ A) eq_refl) as DP.
  assert (DP' : dirs (put f y s) + (if dir (files s f) then 1 else 0) = dirs s + (if dir y then 1 else 0)).
  { apply DP. intros g. rewrite files_put. destruct (g =? f); reflexivity. }
  rewrite DT in DP'. cbn [dir y set_dirp] in DP'.
  set (s1 := put f y s) in *.
  destruct C. cbn [xp xd xk xs] in *. constructor; try assumption;
    change (flight s1) with (flight s); change (log s1) with (log s).
  - intros g. rewrite (proj1 (FD g)), (same_alive _ _ g ST). apply c_dead.
  - intros g. destruct (FD g) as (-> & _ & ->). destruct (Nat.eqb_spec g f) as [EQ|]; [discriminate|]. apply c_dir.
  - intros g. destruct (FD g) as (-> & -> & _). apply c_pin.
  - intros g. rewrite (proj1 (FD g)). apply c_holds.
  - intros g. destruct (FD g) as (_ & -> & _). apply c_pinned.
  - intros g. rewrite (same_alive _ _ g ST), (same_up _ _ g ST). apply c_root.
  - intros g. destruct (FD g) as (-> & -> & _). apply c_idle.
  - intros d1. rewrite c_live. split; intros [(g & E)|E]; auto; left; exists g; [rewrite (proj1 (FD g))|rewrite (proj1 (FD g)) in E]; exact E.
  - intros g h d1. rewrite (proj1 (FD g)), (proj1 (FD h)). apply c_inj.
  - intros g d1. rewrite (proj1 (FD g)). apply c_apart.
  - cbn [xs]. lia.
  - intros g. destruct (FD g) as (_ & -> & _). rewrite (same_inpins s s1 g ST eq_refl), (same_reading _ _ g ST). apply c_pins.
  - intros g d1 a. rewrite (proj1 (FD g)). apply c_open.
  - intros r g IN RF. rewrite (same_parent _ _ g ST).
    specialize (c_at r g IN RF). destruct (parent g s) as [q|]; [rewrite (proj1 (FD q))|]; exact c_at.
  - intros g E. destruct (FD g) as (-> & _ & ->). destruct (Nat.eqb_spec g f) as [EQ|]; [subst g; destruct NE; exact E|]. apply c_early, E.
  - intros g. change (to_close s1) with (to_close s). rewrite (same_alive _ _ g ST). apply c_to_close.
  - intros CL q1 IN. destruct (c_climb CL q1 IN) as (g & Q & P). exists g. split; [exact Q|].
    rewrite (same_parent _ _ g ST). exact P.
Qed.

(** A file changes its descriptor. *)
Lemma swap_ok p d k n s f d0 d1 :
  tree s -> cache (Extra p (d1 :: d) k n) s -> fd (files s f) = Some d0 -> pins (files s f) = 0 ->
  dir (files s f) = false ->
  cache (Extra p (d0 :: d) k n) (emit (Swap f d1) (put f (set_fd (Some d1) (files s f)) s)) /\
  same_tree s (emit (Swap f d1) (put f (set_fd (Some d1) (files s f)) s)).
Proof.
  intros T C F Z DF. set (y := set_fd (Some d1) (files s f)).
  assert (ST : same_tree s (emit (Swap f d1) (put f y s))) by (apply (same_put f y s); reflexivity).
  split; [|exact ST].
  assert (A : alive (files s f) = true) by (eapply alive_open; [eassumption|]; congruence).
  assert (FD : forall g, files (emit (Swap f d1) (put f y s)) g = if g =? f then y else files s g) by reflexivity.
  assert (NF := no_flight _ _ _ _ C Z).
  set (s1 := emit (Swap f d1) (put f y s)) in *.
  assert (PN : forall g, pins (files s1 g) = pins (files s g) /\ dir (files s1 g) = dir (files s g)).
  { intros g. rewrite FD. destruct (Nat.eqb_spec g f) as [EQ|]; [subst g|]; split; reflexivity. }
  destruct C. cbn [xp xd xk xs] in *.
  assert (DN : forall g, fd (files s g) <> Some d1).
  { intros g E. apply (c_apart g d1 E), in_app_iff. right; left; reflexivity. }
  constructor; try assumption;
    change (flight s1) with (flight s); change (log s1) with (Swap f d1 :: log s); flds.
  - intros g. rewrite FD. destruct (Nat.eqb_spec g f) as [EQ|]; [subst g; cbn; congruence|]. apply c_dead.
  - intros g. rewrite FD. destruct (Nat.eqb_spec g f) as [EQ|]; [subst g; cbn; congruence|]. apply c_dir.
  - intros g. rewrite FD. destruct (Nat.eqb_spec g f) as [EQ|]; [subst g; cbn; congruence|]. apply c_pin.
  - intros g. rewrite FD, Nat.eqb_sym. destruct (Nat.eqb_spec g f) as [EQ|]; [reflexivity|]. apply c_holds.
  - intros g. rewrite (proj1 (PN g)). apply c_pinned.
  - intros g. rewrite (same_alive _ _ g ST), (same_up _ _ g ST). apply c_root.
  - intros g. rewrite (proj1 (PN g)), c_idle, FD. destruct (Nat.eqb_spec g f) as [EQ|]; [subst g|tauto]. cbn. intuition congruence.
  - intros e. rewrite c_live. cbn [In]. split.
    + intros [(g & E)|[E|[E|E]]]; auto.
      * destruct (Nat.eq_dec g f) as [->|NE]; [right; right; left; congruence|].
        left. exists g. rewrite FD. destruct (Nat.eqb_spec g f); [contradiction|exact E].
      * left. exists f. rewrite FD, Nat.eqb_refl. cbn. congruence.
    + intros [(g & E)|[E|[E|E]]]; auto.
      * rewrite FD in E. destruct (Nat.eqb_spec g f) as [EQ|]; [|left; exists g; exact E].
        right; right; left. cbn in E. congruence.
      * left. exists f. congruence.
  - intros g h e. rewrite !FD. destruct (Nat.eqb_spec g f) as [EQ|NG]; destruct (Nat.eqb_spec h f) as [EQ'|NH]; cbn [fd y set_fd]; intros G H.
    + congruence.
    + destruct (DN h). congruence.
    + destruct (DN g). congruence.
    + eapply c_inj; eassumption.
  - assert (NA : ~ In d0 (fds (flight s) ++ d)).
    { intros I. apply (c_apart f d0 F). rewrite in_app_iff in *. cbn [In]. tauto. }
    apply NoDup_Add with (a := d0) (l := fds (flight s) ++ d); [apply Add_app|].
    split; [|exact NA]. apply NoDup_remove_1 in c_flight_nd. exact c_flight_nd.
  - intros g e. rewrite FD. destruct (Nat.eqb_spec g f) as [EQ|NE].
    + cbn [fd y set_fd]. intros E. injection E as <-. intros I. rewrite in_app_iff in I. cbn [In] in I.
      apply NoDup_remove_2 in c_flight_nd. rewrite in_app_iff in c_flight_nd.
      destruct I as [I|[I|I]]; [tauto| |tauto]. apply (DN f). congruence.
    + intros E I. rewrite in_app_iff in I. cbn [In] in I. pose proof (c_apart g e E) as NA. rewrite in_app_iff in NA. cbn [In] in NA.
      destruct I as [I|[I|I]]; [tauto| |tauto]. subst e. apply NE. eapply c_inj; eassumption.
  - rewrite c_streams. f_equal. f_equal. unfold dirs. apply counted_ext. intros g _. symmetry. apply PN.
  - split; [|assumption]. cbn [ok]. rewrite c_holds, c_pinned. split; [congruence|].
    split; [apply c_live; right; right; left; reflexivity|]. split; [|exact Z]. intros g. rewrite c_holds. apply DN.
  - intros g. rewrite (proj1 (PN g)), (same_inpins s s1 g ST eq_refl), (same_reading _ _ g ST). apply c_pins.
  - intros g e a IN. rewrite FD. destruct (Nat.eqb_spec g f) as [EQ|]; [|eapply c_open; exact IN].
    subst g. specialize (c_open _ _ _ IN). congruence.
  - intros r g IN RF. rewrite (same_parent _ _ g ST). specialize (c_at r g IN RF). specialize (NF r g IN RF).
    destruct (parent g s) as [q|]; [|exact c_at]. rewrite FD. destruct (Nat.eqb_spec q f) as [->|]; [congruence|exact c_at].
  - intros g E. rewrite (proj2 (PN g)). intros N. apply c_early; [exact E|]. rewrite FD in N. destruct (Nat.eqb_spec g f) as [EQ|]; [subst g; congruence|exact N].
  - intros g. change (to_close s1) with (to_close s). rewrite (same_alive _ _ g ST). apply c_to_close.
  - intros CL q1 IN. destruct (c_climb CL q1 IN) as (g & Q & P). exists g. split; [exact Q|].
    rewrite (same_parent _ _ g ST). exact P.
Qed.

(** ** Requests *)

Lemma take_split : forall k l r rest, take k l = Some (r, rest) -> exists a b, l = a ++ r :: b /\ rest = a ++ b.
Proof.
  induction k as [|k IH]; intros [|x l] r rest E; try discriminate.
  - injection E as <- <-. exists [], l. split; reflexivity.
  - cbn [take] in E. destruct (take k l) as [[y l']|] eqn:T; [|discriminate]. injection E as <- <-.
    destruct (IH _ _ _ T) as (a & b & -> & ->). exists (x :: a), b. split; reflexivity.
Qed.

Lemma fds_app a b : fds (a ++ b) = fds a ++ fds b.
Proof. apply flat_map_app. Qed.

Lemma ffiles_app a b : ffiles (a ++ b) = ffiles a ++ ffiles b.
Proof. apply flat_map_app. Qed.

Lemma fstreams_app a b : fstreams (a ++ b) = fstreams a + fstreams b.
Proof. unfold fstreams. rewrite map_app. apply list_sum_app. Qed.

Definition req_parent (r : req) (s : st) : option nat :=
  match req_file r with Some f => parent f s | None => None end.

Definition pins_of (s : st) (l : list req) (p : nat) : nat :=
  length (filter (fun r => match req_file r with Some f => parent_is p f s | None => false end) l).

Lemma pins_of_app s a b p : pins_of s (a ++ b) p = pins_of s a p + pins_of s b p.
Proof. unfold pins_of. rewrite filter_app. apply app_length. Qed.

Lemma pins_of_one s r q z : bumped (req_parent r s) q z = pins_of s [r] z + q z.
Proof.
  unfold pins_of, req_parent, parent_is. cbn [filter].
  destruct (req_file r) as [f|]; cbn [bumped]; [|reflexivity].
  destruct (parent f s) as [p|]; cbn [bumped]; [|reflexivity].
  unfold bump. rewrite Nat.eqb_sym. destruct (p =? z); reflexivity.
Qed.

Lemma take_ok p d k n s r a b :
  cache (Extra p d k n) s -> flight s = a ++ r :: b ->
  cache (Extra (bumped (req_parent r s) p) (req_fds r ++ d) k (req_streams r + n)) (set_flight (a ++ b) s).
Proof.
  intros C E. destruct C. cbn [xp xd xk xs] in *. rewrite E in *.
  assert (PERM : Permutation (fds (a ++ r :: b) ++ d) (fds (a ++ b) ++ req_fds r ++ d)).
  { rewrite !fds_app. change (fds (r :: b)) with (req_fds r ++ fds b). rewrite <- !app_assoc.
    apply Permutation_app_head. rewrite !app_assoc. apply Permutation_app_tail, Permutation_app_comm. }
  constructor; unf; flds; try assumption.
  - intros e. rewrite c_live. split; intros [H|H]; auto; right; apply in_app_iff.
    + apply (Permutation_in e PERM). apply in_app_iff. exact H.
    + apply (Permutation_in e (Permutation_sym PERM)). apply in_app_iff. exact H.
  - eapply Permutation_NoDup; [exact PERM|assumption].
  - intros f e F I. apply (c_apart f e F). apply (Permutation_in e (Permutation_sym PERM)). exact I.
  - rewrite c_streams, !fstreams_app. change (fstreams (r :: b)) with (req_streams r + fstreams b).
    change (dirs _) with (dirs s) at 2. lia.
  - intros f. rewrite c_pins. unfold inpins. rewrite E. cbn [flight].
    change (length (filter _ (a ++ r :: b))) with (pins_of s (a ++ r :: b) f).
    change (length (filter _ (a ++ b))) with (pins_of s (a ++ b) f).
    change (reading _ f) with (reading s f) at 2.
    rewrite pins_of_one, !pins_of_app. change (r :: b) with ([r] ++ b). rewrite pins_of_app. lia.
  - intros f I. apply c_queued. rewrite ffiles_app in *. change (ffiles (r :: b)) with (req_files r ++ ffiles b).
    rewrite !in_app_iff in *. tauto.
  - rewrite ffiles_app in *. change (ffiles (r :: b)) with (req_files r ++ ffiles b) in c_files_nd.
    unfold req_files in c_files_nd. destruct (req_file r); cbn [app] in c_files_nd; [|exact c_files_nd].
    apply NoDup_remove_1 in c_files_nd. exact c_files_nd.
  - intros f e q I. apply (c_open f e q). rewrite in_app_iff in *. cbn [In]. tauto.
  - intros r' f I RF. change (parent f _) with (parent f s). apply (c_at r' f); [|exact RF]. rewrite in_app_iff in *. cbn [In]. tauto.
Qed.

Lemma submit_ok p d k n s r :
  cache (Extra (bumped (req_parent r s) p) (req_fds r ++ d) k (req_streams r + n)) s ->
  match req_file r with
  | Some f => In f (queued s) /\ ~ In f (ffiles (flight s)) /\
      match parent f s with Some q => req_at r = fd (files s q) | None => req_at r = None end /\
      match r with Ropen _ _ _ => fd (files s f) = None | _ => True end
  | None => True
  end ->
  cache (Extra p d k n) (set_flight (flight s ++ [r]) s).
Proof.
  intros C H. destruct C. cbn [xp xd xk xs] in *.
  assert (FD1 : fds [r] = req_fds r) by (unfold fds; cbn [flat_map]; apply app_nil_r).
  assert (FF1 : ffiles [r] = req_files r) by (unfold ffiles; cbn [flat_map]; apply app_nil_r).
  constructor; unf; flds; try assumption.
  - intros e. rewrite c_live, fds_app, FD1, !in_app_iff. tauto.
  - rewrite fds_app, FD1, <- app_assoc. exact c_flight_nd.
  - intros f e F. rewrite fds_app, FD1, <- app_assoc. apply (c_apart f e F).
  - rewrite c_streams, fstreams_app. unfold fstreams at 3. cbn [map list_sum fold_right].
    change (dirs _) with (dirs s) at 2. lia.
  - intros f. rewrite c_pins, pins_of_one. unfold inpins. cbn [flight].
    change (length (filter _ (flight s ++ [r]))) with (pins_of s (flight s ++ [r]) f).
    change (length (filter _ (flight s))) with (pins_of s (flight s) f).
    change (reading _ f) with (reading s f) at 2. rewrite pins_of_app. lia.
  - intros f. rewrite ffiles_app, FF1, in_app_iff. intros [I|I]; [apply c_queued, I|].
    unfold req_files in I. destruct (req_file r); [|destruct I]. destruct I as [<-|[]]. apply H.
  - rewrite ffiles_app, FF1. unfold req_files. destruct (req_file r) as [f|]; [|rewrite app_nil_r; exact c_files_nd].
    apply NoDup_Add with (a := f) (l := ffiles (flight s)).
    + pose proof (Add_app f (ffiles (flight s)) []) as AA. rewrite app_nil_r in AA. exact AA.
    + split; [assumption|]. apply H.
  - intros f e q I. apply in_app_iff in I. destruct I as [I|[I|[]]]; [eapply c_open; exact I|].
    subst r. cbn [req_file] in H. apply H.
  - intros r' f I RF. change (parent f _) with (parent f s). apply in_app_iff in I. destruct I as [I|[I|[]]]; [apply (c_at r' f); assumption|].
    subst r'. rewrite RF in H. apply H.
Qed.

(** ** Directories to unwrap *)

Lemma to_close_ok x s l :
  cache x s -> (forall f, In f l -> In f (to_close s) \/ (alive (files s f) = true /\ ~ early s f /\ (climbing s -> exists g, In g (queued s) /\ parent g s = Some f))) ->
  cache x (set_to_close l s).
Proof.
  intros C H. destruct C. constructor; unf; flds; try assumption.
  - intros f I. destruct (H f I) as [J|J]; [apply c_to_close, J|apply J].
  - intros f I. change (early _ f) with (early s f). destruct (H f I) as [J|J]; [apply c_late, J|apply J].
  - intros CL f I. destruct (H f I) as [J|J]; [exact (c_climb CL f J)|apply J, CL].
Qed.

Lemma cap_up p d k n s : cache (Extra p d k n) s -> cache (Extra p d (S k) n) (set_cap (S (cap s)) s).
Proof. intros C. destruct C. cbn [xp xd xk xs] in *. constructor; unf; flds; try assumption. lia. Qed.

Lemma evict_event x s f : cache x s -> hd_error (eviction (log s)) = Some f -> cache x (emit (Evict f) s).
Proof.
  intros C I. destruct C. constructor; try assumption. unf. flds. split; assumption.
Qed.

End Moves.
