(** Proofs about arenas *)
From Coq Require Import List NArith Arith Bool Lia ZifyBool ZifyN ZifyNat Permutation.
From Verif Require Import BitModel BitProofs TrieBits AllocModel AllocSpec AllocSizes.
Import ListNotations.
Local Open Scope N_scope.

(** ** Free lists *)
Inductive chain (a : arena) (m : memory) : N -> list N -> Prop :=
| chain_nil : chain a m 0 []
| chain_cons p l : p <> 0 -> chain a m (chunk_next a m p) l -> chain a m p (p :: l).

Lemma chain_frame a m m' p l : chain a m p l -> (forall q, In q l -> m' q = m q) -> chain a m' p l.
Proof.
  induction 1 as [|p l NZ C IH]; intros E; [constructor|]. constructor; [exact NZ|].
  replace (chunk_next a m' p) with (chunk_next a m p) by (unfold chunk_next; rewrite (E p (or_introl eq_refl)); reflexivity).
  apply IH. intros q Q. apply E. right. exact Q.
Qed.
Lemma chain_size a a' m p l : size a' = size a -> chain a m p l -> chain a' m p l.
Proof.
  intros S. induction 1 as [|p l NZ C IH]; constructor; [exact NZ|]. unfold chunk_next in *. rewrite S. exact IH.
Qed.
Lemma chain_zero a m l : chain a m 0 l -> l = [].
Proof. inversion 1; [reflexivity|contradiction]. Qed.

Lemma next_set a m p n : n < W -> chunk_next a (chunk_set_next a m p n) p = n.
Proof.
  intros L. unfold chunk_next, chunk_set_next, store. rewrite N.eqb_refl.
  set (x := p + size a). pose proof (N.mod_lt x W ltac:(discriminate)) as X.
  rewrite <- N.add_mod_idemp_l by discriminate. rewrite N.add_mod_idemp_r by discriminate.
  replace (x mod W + (n + W - x mod W)) with (n + 1 * W) by lia. rewrite N.mod_add by discriminate. apply N.mod_small. exact L.
Qed.
Lemma set_other a m p n q : q <> p -> chunk_set_next a m p n q = m q.
Proof. intros NE. unfold chunk_set_next, store. replace (q =? p) with false by lia. reflexivity. Qed.

(** ** Chunks *)
Definition in_slab (s : N) (sl : N * N) (p : N) : Prop := exists k, p = fst sl + k * s /\ k * s < snd sl.
Definition in_arena (a : arena) (p : N) : Prop := exists sl, In sl (slabs a) /\ in_slab (size a) sl p.

Definition slab_ok (a : arena) (sl : N * N) : Prop :=
  0 < fst sl /\ fst sl mod align a = 0 /\ fst sl + snd sl <= W /\ snd sl mod size a = 0.

(** The size of the first slab *)
Definition slab0 (a : arena) : N :=
  let size0 := if 4096 <? size a then size a else 4096 in size0 - size0 mod size a.

Record arena_ok (a : arena) : Prop := {
  ok_align : exists k, 3 <= k /\ align a = 2 ^ k;
  ok_size : 8 <= size a < W /\ size a mod align a = 0;
  ok_slabs : forall sl, In sl (slabs a) -> slab_ok a sl;
  ok_small : slabs a <> [] -> slab0 a * 2 ^ (nslabs a - 1) <= ALLOC_MAX
}.

Lemma slab0_pos a : arena_ok a -> 0 < slab0 a < W /\ slab0 a mod size a = 0 /\ size a <= slab0 a.
Proof.
  intros A. destruct (ok_size a A) as [S _]. unfold slab0.
  set (z := if 4096 <? size a then size a else 4096).
  assert (Z : size a <= z < W).
  { unfold z. destruct (N.ltb_spec 4096 (size a)); rewrite W_value in *; lia. }
  pose proof (N.div_mod z (size a) ltac:(lia)). pose proof (N.mod_lt z (size a) ltac:(lia)).
  replace (z - z mod size a) with (z / size a * size a) by lia.
  assert (1 <= z / size a) by (apply N.div_le_lower_bound; lia).
  split; [nia|]. split; [apply N.mod_mul; lia|nia].
Qed.

Lemma slab_size_value a : arena_ok a -> slab_size a = slab0 a * 2 ^ nslabs a.
Proof.
  intros A. unfold slab_size. fold (slab0 a). rewrite N.shiftl_mul_pow2. apply N.mod_small.
  destruct (slabs a) as [|sl l] eqn:E.
  - unfold nslabs. rewrite E. change (2 ^ N.of_nat (length (@nil (N * N)))) with 1. rewrite N.mul_1_r. apply (slab0_pos a A).
  - assert (NN : nslabs a <> 0) by (unfold nslabs; rewrite E; cbn [length]; lia).
    pose proof (ok_small a A ltac:(rewrite E; discriminate)) as M.
    replace (nslabs a) with (nslabs a - 1 + 1) by lia. rewrite N.pow_add_r. change (2 ^ 1) with 2.
    rewrite ALLOC_MAX_value, W_value in *. lia.
Qed.

Lemma slab_size_ok a : arena_ok a -> 0 < slab_size a /\ slab_size a mod size a = 0 /\ size a <= slab_size a.
Proof.
  intros A. rewrite slab_size_value by exact A. pose proof (slab0_pos a A) as (P & M & L). pose proof (pow_pos (nslabs a)).
  destruct (ok_size a A) as [S _]. split; [nia|]. split; [|nia].
  rewrite <- N.mul_mod_idemp_l by lia. rewrite M. apply N.mod_0_l. lia.
Qed.

Lemma chunk_fits s (sl : N * N) k : 0 < s -> snd sl mod s = 0 -> k * s < snd sl -> k * s + s <= snd sl.
Proof.
  intros S M L. apply N.mod_divide in M; [|lia]. destruct M as [q M]. rewrite M in *.
  assert (k < q) by (apply (N.mul_lt_mono_pos_r s); lia). nia.
Qed.

Lemma in_slab_inside a sl p : arena_ok a -> In sl (slabs a) -> in_slab (size a) sl p ->
  inside (p, size a) sl /\ p mod align a = 0 /\ 0 < p.
Proof.
  intros A I (k & -> & L). destruct (ok_slabs a A sl I) as (P & AL & B & M). destruct (ok_size a A) as [S SA].
  destruct (ok_align a A) as (j & _ & J). pose proof (pow_pos j).
  pose proof (chunk_fits (size a) sl k ltac:(lia) M L). split; [unfold inside; cbn [fst snd]; lia|]. split; [|lia].
  rewrite <- N.add_mod_idemp_r by lia. rewrite <- N.mul_mod_idemp_r by lia. rewrite SA, N.mul_0_r. rewrite N.mod_0_l by lia. rewrite N.add_0_r. exact AL.
Qed.

Lemma chunk_lt a p : arena_ok a -> in_arena a p -> p < W.
Proof.
  intros A (sl & I & S). pose proof (in_slab_inside a sl p A I S) as ((H1 & H2) & _).
  destruct (ok_slabs a A sl I) as (_ & _ & B & _). destruct (ok_size a A) as [Z _]. cbn [fst snd] in *. lia.
Qed.

Lemma same_slab_disjoint s sl p q : 0 < s -> in_slab s sl p -> in_slab s sl q -> p <> q -> disjoint (p, s) (q, s).
Proof.
  intros S (i & -> & Li) (j & -> & Lj) NE. unfold disjoint. cbn [fst snd].
  destruct (N.lt_trichotomy i j) as [L|[->|L]]; [left; nia|congruence|right; nia].
Qed.

Lemma inside_disjoint r r' s s' : inside r s -> inside r' s' -> disjoint s s' -> disjoint r r'.
Proof. unfold inside, disjoint. lia. Qed.

(** ** Several arenas *)
Definition live_of (i : nat) (live : list (nat * N)) : list N := map snd (filter (fun x => Nat.eqb (fst x) i) live).
Lemma in_live_of i p live : In p (live_of i live) <-> In (i, p) live.
Proof.
  unfold live_of. rewrite in_map_iff. split.
  - intros ([j q] & <- & H). apply filter_In in H. destruct H as [H E]. cbn in E. apply Nat.eqb_eq in E. subst. exact H.
  - intros H. exists (i, p). split; [reflexivity|]. apply filter_In. split; [exact H|]. cbn. apply Nat.eqb_refl.
Qed.

Definition slabs_disjoint (l : list arena) : Prop :=
  forall i a k s j b n t, nth_error l i = Some a -> nth_error (slabs a) k = Some s ->
    nth_error l j = Some b -> nth_error (slabs b) n = Some t -> (i, k) <> (j, n) -> disjoint s t.

Definition owns (a : arena) (m : memory) (live : list N) : Prop :=
  exists fl, chain a m (chunks a) fl /\ NoDup (fl ++ live) /\ forall p, In p (fl ++ live) <-> in_arena a p.

Record ok (l : list arena) (m : memory) (live : list (nat * N)) : Prop := {
  ok_arenas : forall i a, nth_error l i = Some a -> arena_ok a;
  ok_disjoint : slabs_disjoint l;
  ok_owns : forall i a, nth_error l i = Some a -> owns a m (live_of i live);
  ok_live : forall i p, In (i, p) live -> exists a, nth_error l i = Some a
}.

Lemma chunks_disjoint l m live i a p j b q : ok l m live ->
  nth_error l i = Some a -> in_arena a p -> nth_error l j = Some b -> in_arena b q -> (i, p) <> (j, q) ->
  disjoint (p, size a) (q, size b).
Proof.
  intros K A (s & Is & P) B (t & It & Q) NE.
  pose proof (ok_arenas _ _ _ K i a A) as OA. pose proof (ok_arenas _ _ _ K j b B) as OB.
  destruct (In_nth_error _ _ Is) as [k Ek]. destruct (In_nth_error _ _ It) as [n En].
  destruct (Nat.eq_dec i j) as [<-|NI]; [destruct (Nat.eq_dec k n) as [<-|NK]|].
  - assert (a = b) by congruence. subst b. assert (s = t) by congruence. subst t.
    apply same_slab_disjoint with (sl := s); try assumption; [destruct (ok_size a OA); lia|congruence].
  - eapply inside_disjoint; [eapply in_slab_inside; eassumption|eapply in_slab_inside; eassumption|].
    eapply (ok_disjoint _ _ _ K i a k s i b n); try eassumption. congruence.
  - eapply inside_disjoint; [eapply in_slab_inside; eassumption|eapply in_slab_inside; eassumption|].
    eapply (ok_disjoint _ _ _ K i a k s j b n); try eassumption. congruence.
Qed.

Lemma live_in l m live i a p : ok l m live -> nth_error l i = Some a -> In (i, p) live -> in_arena a p.
Proof.
  intros K A L. destruct (ok_owns _ _ _ K i a A) as (fl & _ & _ & M). apply M. apply in_or_app. right. apply in_live_of. exact L.
Qed.

(** A block of a live chunk does not contain another chunk's address. *)
Lemma not_within l m live i a p j b q x : ok l m live ->
  nth_error l i = Some a -> in_arena a p -> nth_error l j = Some b -> in_arena b q -> (i, p) <> (j, q) ->
  within x (p, size a) -> ~ within x (q, size b).
Proof.
  intros K A P B Q NE X Y. pose proof (chunks_disjoint l m live i a p j b q K A P B Q NE) as D.
  unfold disjoint, within in *. cbn [fst snd] in *. lia.
Qed.

Lemma within_self l m live i a p : ok l m live -> nth_error l i = Some a -> within p (p, size a).
Proof. intros K A. destruct (ok_size a (ok_arenas _ _ _ K i a A)). unfold within. cbn [fst snd]. lia. Qed.

Lemma nodup_disjoint {A} (x : A) a b : NoDup (a ++ b) -> In x a -> In x b -> False.
Proof.
  induction a as [|y a IH]; cbn [app]; intros ND Ia Ib; [destruct Ia|]. inversion ND as [|? ? NI ND']; subst.
  destruct Ia as [->|Ia]; [apply NI, in_or_app; right; exact Ib|exact (IH ND' Ia Ib)].
Qed.

(** Changing memory only inside live blocks *)
Lemma ok_write l m m' live i a p : ok l m live -> nth_error l i = Some a -> In (i, p) live ->
  (forall x, ~ within x (p, size a) -> m' x = m x) -> ok l m' live.
Proof.
  intros K A L E. split; try apply K.
  intros j b B. destruct (ok_owns _ _ _ K j b B) as (fl & C & ND & M). exists fl. split; [|split; assumption].
  apply (chain_frame b m m'); [exact C|]. intros q Q. apply E.
  assert (IQ : in_arena b q) by (apply M, in_or_app; left; exact Q).
  assert (NE : (i, p) <> (j, q)).
  { intros [= <- <-]. apply in_live_of in L. exact (nodup_disjoint p _ _ ND Q L). }
  intros X. apply (not_within l m live i a p j b q q K A (live_in l m live i a p K A L) B IQ NE X).
  apply (within_self l m live j b q K B).
Qed.

(** ** Updating one arena *)
Lemma nth_set {A} (l : list A) i j x : nth_error (set_nth l i x) j =
  if Nat.eqb i j then (match nth_error l i with Some _ => Some x | None => None end) else nth_error l j.
Proof.
  revert i j. induction l as [|y l IH]; intros i j; cbn [set_nth].
  - destruct i, j; cbn; try reflexivity. destruct (Nat.eqb i j); reflexivity.
  - destruct i, j; cbn; try reflexivity. apply IH.
Qed.
Lemma set_length {A} (l : list A) i x : length (set_nth l i x) = length l.
Proof. revert i. induction l as [|y l IH]; intros [|i]; cbn; auto. Qed.

Lemma live_of_cons i j p live : live_of i ((j, p) :: live) = if Nat.eqb j i then p :: live_of i live else live_of i live.
Proof. unfold live_of. cbn [filter fst]. destruct (Nat.eqb j i); reflexivity. Qed.
Lemma live_of_app i a b : live_of i (a ++ b) = live_of i a ++ live_of i b.
Proof. unfold live_of. rewrite filter_app, map_app. reflexivity. Qed.

(** A new arena *)
Lemma arena_init_ok al s k : 3 <= k <= 32 -> al = 2 ^ k -> s < W -> s mod al = 0 -> 0 < s ->
  arena_init al s = Some (mkArena 0 [] al s) /\ arena_ok (mkArena 0 [] al s).
Proof.
  intros K -> L M P. assert (P8 : 2 ^ 3 <= 2 ^ k) by (apply N.pow_le_mono_r; lia). change (2 ^ 3) with 8 in P8.
  assert (S8 : 8 <= s). { apply N.mod_divide in M; [|lia]. destruct M as [q ->]. assert (q <> 0) by (intros ->; lia). nia. }
  split.
  - unfold arena_init. rewrite is_aligned_value, M. cbn [N.eqb]. replace (2 ^ k <? 8) with false by lia.
    replace (s <? 8) with false by lia. rewrite is_aligned_value, M. reflexivity.
  - split; cbn [align size slabs]; [exists k; split; [lia|reflexivity]|split; [lia|exact M]|contradiction|congruence].
Qed.

Lemma ok_add l m live a : ok l m live -> arena_ok a -> slabs a = [] -> chunks a = 0 -> ok (l ++ [a]) m live.
Proof.
  intros K A S C.
  assert (N1 : forall i b, nth_error (l ++ [a]) i = Some b -> nth_error l i = Some b \/ (i = length l /\ b = a)).
  { intros i b E. destruct (Nat.lt_ge_cases i (length l)) as [L|G].
    - rewrite nth_error_app1 in E by exact L. auto.
    - rewrite nth_error_app2 in E by exact G. destruct (i - length l)%nat as [|x] eqn:X; cbn in E; [|destruct x; discriminate].
      right. split; [lia|congruence]. }
  split.
  - intros i b E. destruct (N1 i b E) as [H|[_ ->]]; [exact (ok_arenas _ _ _ K i b H)|exact A].
  - intros i b k s j c n t B Ks Cj Nt NE. destruct (N1 i b B) as [H|[_ ->]]; [|rewrite S in Ks; destruct k; discriminate].
    destruct (N1 j c Cj) as [H'|[_ ->]]; [|rewrite S in Nt; destruct n; discriminate].
    eapply (ok_disjoint _ _ _ K i b k s j c n t); eassumption.
  - intros i b E. destruct (N1 i b E) as [H|[-> ->]]; [exact (ok_owns _ _ _ K i b H)|].
    assert (LV : live_of (length l) live = []).
    { destruct (live_of (length l) live) as [|p r] eqn:LV; [reflexivity|].
      assert (I : In p (live_of (length l) live)) by (rewrite LV; left; reflexivity). apply in_live_of in I.
      destruct (ok_live _ _ _ K _ _ I) as (b & B). assert (nth_error l (length l) <> None) by congruence. apply nth_error_Some in H. lia. }
    rewrite LV. exists []. rewrite C. split; [constructor|]. split; [constructor|]. intros p. split; [intros []|].
    intros (sl & I & _). rewrite S in I. exact I.
  - intros i p I. destruct (ok_live _ _ _ K i p I) as (b & B). exists b. rewrite nth_error_app1; [exact B|].
    apply nth_error_Some. congruence.
Qed.

(** ** A new slab *)
Definition chunk_list (b s : N) (from n : nat) : list N := map (fun k => b + N.of_nat k * s) (seq from n).

Lemma in_chunk_list b s n p : In p (chunk_list b s 0 n) <-> exists k, p = b + k * s /\ k < N.of_nat n.
Proof.
  unfold chunk_list. rewrite in_map_iff. split.
  - intros (k & <- & I). apply in_seq in I. exists (N.of_nat k). split; [reflexivity|lia].
  - intros (k & -> & L). exists (N.to_nat k). rewrite N2Nat.id. split; [reflexivity|]. apply in_seq. lia.
Qed.
Lemma chunk_list_nodup b s from n : 0 < s -> NoDup (chunk_list b s from n).
Proof.
  intros S. unfold chunk_list. apply FinFun.Injective_map_NoDup; [|apply seq_NoDup].
  intros x y E. nia.
Qed.

Lemma slab_chain a m b n : 0 < size a -> 0 < b -> b + N.of_nat n * size a <= W ->
  forall c from, (from + S c = n)%nat ->
  (forall k, (from <= k < n - 1)%nat -> m (b + N.of_nat k * size a) = 0) ->
  chunk_next a m (b + N.of_nat (n - 1) * size a) = 0 ->
  chain a m (b + N.of_nat from * size a) (chunk_list b (size a) from (S c)).
Proof.
  intros S B L. induction c as [|c IH]; intros from E Z LST.
  - cbn. constructor; [lia|]. replace from with (n - 1)%nat by lia. rewrite LST. constructor.
  - change (chunk_list b (size a) from (Datatypes.S (Datatypes.S c))) with
      ((b + N.of_nat from * size a) :: chunk_list b (size a) (Datatypes.S from) (Datatypes.S c)).
    constructor; [lia|]. unfold chunk_next. rewrite (Z from ltac:(lia)). rewrite N.add_0_r, N.mod_small.
    + replace (b + N.of_nat from * size a + size a) with (b + N.of_nat (Datatypes.S from) * size a) by lia.
      apply IH; [lia| |exact LST]. intros k K. apply Z. lia.
    + assert (N.of_nat from + 2 <= N.of_nat n) by lia. nia.
Qed.

Lemma mul_fit k q s : k < q -> k * s + s <= q * s.
Proof. intros. nia. Qed.

Lemma slab_alloc_ok l m live i a o a' m' : ok l m live -> nth_error l i = Some a -> fair (flat_map slabs l) o ->
  chunks a = 0 -> slab_alloc a m o = Some (a', m') ->
  ok (set_nth l i a') m' live /\ chunks a' <> 0 /\ size a' = size a /\ align a' = align a /\
  (forall j b s x, nth_error l j = Some b -> In s (slabs b) -> within x s -> m' x = m x).
Proof.
  intros K A F CZ H. pose proof (ok_arenas _ _ _ K i a A) as OA. unfold slab_alloc, zalloc in H.
  destruct (N.ltb_spec ALLOC_MAX (slab_size a)) as [|MX]; [discriminate|].
  destruct (o_slab o (align a) (slab_size a)) as [base|] eqn:O; [|discriminate].
  destruct (o_grown o); [|discriminate]. injection H as <- <-.
  destruct (F _ _ _ O) as (BP & BA & BW & BD). set (len := slab_size a) in *.
  destruct (slab_size_ok a OA) as (LP & LM & LS). fold len in LP, LM, LS. destruct (ok_size a OA) as [S SA].
  assert (MX' : slab0 a * 2 ^ nslabs a <= ALLOC_MAX) by (rewrite <- slab_size_value by exact OA; exact MX).
  clearbody len.
  set (m1 := clear m base len). set (last := base + len - size a).
  set (m2 := chunk_set_next a m1 last (chunks a)).
  set (a' := mkArena base (slabs a ++ [(base, len)]) (align a) (size a)).
  assert (LL : within last (base, len)) by (unfold within, last; cbn [fst snd]; lia).
  assert (OUT : forall x, ~ within x (base, len) -> m2 x = m x).
  { intros x X. unfold m2. rewrite set_other by (intros ->; contradiction). unfold m1, clear, within in *. cbn [fst snd] in X.
    replace ((base <=? x) && (x <? base + len)) with false by lia. reflexivity. }
  assert (NEWD : forall j b s, nth_error l j = Some b -> In s (slabs b) -> disjoint (base, len) s).
  { intros j b s B I. apply BD. apply in_flat_map. exists b. split; [exact (nth_error_In _ _ B)|exact I]. }
  assert (FRAME : forall j b s x, nth_error l j = Some b -> In s (slabs b) -> within x s -> m2 x = m x).
  { intros j b s x B I X. apply OUT. intros Y. specialize (NEWD j b s B I). unfold disjoint, within in *. cbn [fst snd] in *. lia. }
  assert (IN : (i < length l)%nat) by (apply nth_error_Some; congruence).
  assert (NTH : forall j b, nth_error (set_nth l i a') j = Some b -> (i = j /\ b = a') \/ (i <> j /\ nth_error l j = Some b)).
  { intros j b E. rewrite nth_set, A in E. destruct (Nat.eqb_spec i j) as [<-|NE]; [left; split; congruence|right; auto]. }
  assert (LQ : len = len / size a * size a).
  { pose proof (N.div_mod len (size a) ltac:(lia)). lia. }
  set (n := N.to_nat (len / size a)).
  assert (NV : N.of_nat n = len / size a) by (unfold n; rewrite N2Nat.id; reflexivity).
  assert (NP : (1 <= n)%nat). { assert (1 <= len / size a) by (apply N.div_le_lower_bound; lia). lia. }
  clearbody n.
  assert (LASTV : last = base + N.of_nat (n - 1) * size a).
  { unfold last. rewrite Nat2N.inj_sub, NV. rewrite LQ at 1. clear - NP NV. assert (1 <= len / size a) by lia. change (N.of_nat 1) with 1. nia. }
  split; [|split; [cbn; lia|split; [reflexivity|split; [reflexivity|exact FRAME]]]].
  split.
  - intros j b E. destruct (NTH j b E) as [[<- ->]|[_ E']]; [|exact (ok_arenas _ _ _ K j b E')].
    split; cbn [align size slabs a'].
    + exact (ok_align a OA).
    + exact (ok_size a OA).
    + intros sl I. apply in_app_or in I. destruct I as [I|[<-|[]]]; [exact (ok_slabs a OA sl I)|].
      unfold slab_ok. cbn [fst snd]. auto.
    + intros _. unfold nslabs. cbn [slabs a']. rewrite app_length. cbn [length].
      replace (N.of_nat (length (slabs a) + 1) - 1) with (nslabs a) by (unfold nslabs; clear; lia).
      change (slab0 a') with (slab0 a). exact MX'.
  - intros j b k s j' b' n' t B Ks B' Nt NE.
    assert (SP : forall k s, nth_error (slabs a') k = Some s -> nth_error (slabs a) k = Some s \/ (k = length (slabs a) /\ s = (base, len))).
    { intros k0 s0 E. cbn [slabs a'] in E. destruct (Nat.lt_ge_cases k0 (length (slabs a))).
      - rewrite nth_error_app1 in E by assumption. auto.
      - rewrite nth_error_app2 in E by assumption. destruct (k0 - length (slabs a))%nat as [|z] eqn:Z; cbn in E; [|destruct z; discriminate].
        right. split; [clear - H Z; lia|congruence]. }
    assert (SYM : forall r s, disjoint r s -> disjoint s r) by (unfold disjoint; lia).
    destruct (NTH j b B) as [[<- ->]|[_ E1]], (NTH j' b' B') as [[<- ->]|[_ E2]].
    + destruct (SP _ _ Ks) as [E3|[-> ->]], (SP _ _ Nt) as [E4|[-> ->]].
      * eapply (ok_disjoint _ _ _ K i a k s i a n' t); eassumption.
      * apply SYM. eapply NEWD; [exact A|exact (nth_error_In _ _ E3)].
      * eapply NEWD; [exact A|exact (nth_error_In _ _ E4)].
      * contradiction.
    + destruct (SP _ _ Ks) as [E3|[-> ->]].
      * eapply (ok_disjoint _ _ _ K i a k s j' b' n' t); eassumption.
      * eapply NEWD; [exact E2|exact (nth_error_In _ _ Nt)].
    + destruct (SP _ _ Nt) as [E3|[-> ->]].
      * eapply (ok_disjoint _ _ _ K j b k s i a n' t); eassumption.
      * apply SYM. eapply NEWD; [exact E1|exact (nth_error_In _ _ Ks)].
    + eapply (ok_disjoint _ _ _ K j b k s j' b' n' t); eassumption.
  - intros j b E. destruct (NTH j b E) as [[<- ->]|[NE E']].
    + destruct (ok_owns _ _ _ K i a A) as (fl & C & ND & M). rewrite CZ in C. apply chain_zero in C. subst fl. cbn [app] in *.
      exists (chunk_list base (size a) 0 n). split; [|split].
      * replace (chunks a') with (base + N.of_nat 0 * size a) by (cbn; lia).
        apply (chain_size a a'); [reflexivity|]. assert (CL : chunk_list base (size a) 0 n = chunk_list base (size a) 0 (Datatypes.S (n - 1))) by (f_equal; clear - NP; lia). rewrite CL.
        apply (slab_chain a m2 base n); try (clear - S BP BW LQ NV NP; lia).
        -- intros k Kk. unfold m2. rewrite set_other by (rewrite LASTV; clear - Kk NP S; nia). unfold m1, clear.
           replace (_ && _) with true; [reflexivity|]. symmetry. apply andb_true_intro.
           pose proof (mul_fit (N.of_nat k) (len / size a) (size a) ltac:(clear - Kk NV NP; lia)) as MF. rewrite <- LQ in MF. clear - MF S. lia.
        -- rewrite <- LASTV. unfold m2. rewrite CZ. apply next_set. reflexivity.
      * (* no duplicates *)
        assert (DJ : forall x, In x (chunk_list base (size a) 0 n) -> ~ In x (live_of i live)).
        { intros x X Y. apply M in Y. destruct Y as (sl & I & Y). destruct (in_slab_inside a sl x OA I Y) as ((Y1 & Y2) & _).
          apply in_chunk_list in X. destruct X as (k & -> & Lk). specialize (NEWD i a sl A I). unfold disjoint in NEWD. cbn [fst snd] in *.
          pose proof (mul_fit k (len / size a) (size a) ltac:(clear - Lk NV; lia)) as MF. rewrite <- LQ in MF. clear - MF NEWD Y1 Y2 S. lia. }
        assert (ND1 : NoDup (chunk_list base (size a) 0 n)) by (apply chunk_list_nodup; lia).
        clear - DJ ND1 ND. revert DJ ND1. generalize (chunk_list base (size a) 0 n). intros cl.
        induction cl as [|x cl IH]; intros DJ ND1; cbn [app]; [exact ND|]. inversion ND1; subst. constructor.
        -- rewrite in_app_iff. intros [I|I]; [contradiction|]. exact (DJ x (or_introl eq_refl) I).
        -- apply IH; [intros y Y; apply DJ; right; exact Y|assumption].
      * intros p. rewrite in_app_iff, M, in_chunk_list. unfold in_arena. cbn [slabs a' size]. split.
        -- intros [(k & -> & Lk)|(sl & I & P)].
           ++ exists (base, len). split; [apply in_or_app; right; left; reflexivity|]. exists k. cbn [fst snd]. split; [reflexivity|].
              pose proof (mul_fit k (len / size a) (size a) ltac:(clear - Lk NV; lia)) as MF. rewrite <- LQ in MF. clear - MF S. lia.
           ++ exists sl. split; [apply in_or_app; left; exact I|exact P].
        -- intros (sl & I & P). apply in_app_or in I. destruct I as [I|[<-|[]]]; [right; exists sl; auto|].
           left. destruct P as (k & E1 & Lk). rewrite E1. cbn [fst snd] in *. exists k. split; [reflexivity|]. rewrite NV.
           apply (N.mul_lt_mono_pos_r (size a)); clear - S LQ Lk; lia.
    + destruct (ok_owns _ _ _ K j b E') as (fl & C & ND & M). exists fl. split; [|split; assumption].
      apply (chain_frame b m m2); [exact C|]. intros q Q. assert (IQ : in_arena b q) by (apply M, in_or_app; left; exact Q).
      destruct IQ as (sl & I & P). apply (FRAME j b sl q E' I). pose proof (ok_arenas _ _ _ K j b E') as OB.
      destruct (in_slab_inside b sl q OB I P) as ((Y1 & Y2) & _). destruct (ok_size b OB) as [SB _]. clear - Y1 Y2 SB. unfold within. cbn [fst snd] in *. lia.
  - intros j p I. destruct (ok_live _ _ _ K j p I) as (b & B). rewrite nth_set, A.
    destruct (Nat.eqb i j); eauto.
Qed.
