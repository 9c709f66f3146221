(** Proofs about varenas *)
From Coq Require Import List NArith Arith Bool Lia ZifyBool ZifyN ZifyNat Permutation.
From Verif Require Import BitModel BitProofs TrieBits AllocModel AllocSpec AllocSizes AllocProofs.
Import ListNotations.
Local Open Scope N_scope.

(** ** Popping and pushing chunks *)
Lemma ok_same l m live i a a' m' live' : ok l m live -> nth_error l i = Some a ->
  slabs a' = slabs a -> size a' = size a -> align a' = align a ->
  (forall j b q, i <> j -> nth_error l j = Some b -> in_arena b q -> m' q = m q) ->
  (forall j, i <> j -> live_of j live' = live_of j live) ->
  owns a' m' (live_of i live') ->
  (forall j p, In (j, p) live' -> i = j \/ In (j, p) live) ->
  ok (set_nth l i a') m' live'.
Proof.
  intros K A E1 E2 E3 FR LV OW LI.
  assert (NTH : forall j b, nth_error (set_nth l i a') j = Some b -> (i = j /\ b = a') \/ (i <> j /\ nth_error l j = Some b)).
  { intros j b E. rewrite nth_set, A in E. destruct (Nat.eqb_spec i j) as [<-|NE]; [left; split; congruence|right; auto]. }
  assert (OLD : forall j b, nth_error (set_nth l i a') j = Some b -> exists b0, nth_error l j = Some b0 /\ slabs b = slabs b0).
  { intros j b E. destruct (NTH j b E) as [[<- ->]|[_ E']]; eauto. }
  split.
  - intros j b E. destruct (NTH j b E) as [[<- ->]|[_ E']]; [|exact (ok_arenas _ _ _ K j b E')].
    pose proof (ok_arenas _ _ _ K i a A) as OA. split.
    + rewrite E3. apply OA.
    + rewrite E2, E3. apply OA.
    + rewrite E1. intros sl I. pose proof (ok_slabs a OA sl I) as H. unfold slab_ok in *. rewrite E2, E3. exact H.
    + unfold nslabs, slab0. rewrite E1, E2. apply OA.
  - intros j b k s j' b' n t B Ks B' Nt NE. destruct (OLD j b B) as (c & C & S). destruct (OLD j' b' B') as (c' & C' & S').
    rewrite S in Ks. rewrite S' in Nt. eapply (ok_disjoint _ _ _ K j c k s j' c' n t); eassumption.
  - intros j b E. destruct (NTH j b E) as [[<- ->]|[NE E']]; [exact OW|].
    destruct (ok_owns _ _ _ K j b E') as (fl & C & ND & M). rewrite LV by exact NE. exists fl. split; [|split; assumption].
    apply (chain_frame b m m'); [exact C|]. intros q Q. apply (FR j b); try assumption. apply M, in_or_app. left. exact Q.
  - intros j p I. rewrite nth_set, A. destruct (Nat.eqb_spec i j) as [<-|NE]; [eauto|].
    destruct (LI j p I) as [->|I']; [contradiction|]. exact (ok_live _ _ _ K j p I').
Qed.

Lemma pop_ok l m live i a : ok l m live -> nth_error l i = Some a -> chunks a <> 0 ->
  ok (set_nth l i (mkArena (chunk_next a m (chunks a)) (slabs a) (align a) (size a))) m ((i, chunks a) :: live) /\
  ~ In (i, chunks a) live.
Proof.
  intros K A NZ. destruct (ok_owns _ _ _ K i a A) as (fl & C & ND & M). inversion C as [|p fl' P C' E]; subst; [congruence|].
  cbn [app] in ND, M. inversion ND as [|x y NI ND']; subst.
  split.
  - eapply ok_same; try eassumption; try reflexivity.
    + intros j NE. rewrite live_of_cons. replace (Nat.eqb i j) with false by (symmetry; apply Nat.eqb_neq; exact NE). reflexivity.
    + rewrite live_of_cons, Nat.eqb_refl. exists fl'. split; [|split].
      * cbn [chunks]. eapply chain_size; [|exact C']. reflexivity.
      * apply NoDup_Add with (a := chunks a) (l := fl' ++ live_of i live); [apply Add_app|]. auto.
      * intros q. specialize (M q). unfold in_arena in *. cbn [slabs size]. rewrite <- M. rewrite !in_app_iff. cbn [In]. rewrite in_app_iff. tauto.
    + intros j q [[= <- <-]|I]; auto.
  - intros I. apply NI, in_or_app. right. apply in_live_of. exact I.
Qed.

Lemma free_ok l m live1 p live2 i a a' m' : ok l m (live1 ++ (i, p) :: live2) -> nth_error l i = Some a ->
  arena_free a m p = (a', m') ->
  ok (set_nth l i a') m' (live1 ++ live2) /\ size a' = size a /\ align a' = align a /\ slabs a' = slabs a /\ (forall x, x <> p -> m' x = m x).
Proof.
  intros K A H. unfold arena_free in H. injection H as <- <-.
  pose proof (ok_arenas _ _ _ K i a A) as OA.
  assert (IP : In (i, p) (live1 ++ (i, p) :: live2)) by (apply in_or_app; right; left; reflexivity).
  pose proof (live_in _ _ _ i a p K A IP) as AP.
  destruct (ok_owns _ _ _ K i a A) as (fl & C & ND & M).
  assert (LV : live_of i (live1 ++ (i, p) :: live2) = live_of i live1 ++ p :: live_of i live2).
  { rewrite live_of_app, live_of_cons, Nat.eqb_refl. reflexivity. }
  rewrite LV in ND, M.
  split; [|split; [reflexivity|split; [reflexivity|split; [reflexivity|intros x X; apply set_other; exact X]]]].
  eapply ok_same; try eassumption; try reflexivity.
  - intros j b q NE B Q. apply set_other. intros ->.
    apply (not_within _ _ _ i a p j b p p K A AP B Q); try congruence; eapply within_self; eassumption.
  - intros j NE. rewrite !live_of_app, live_of_cons. replace (Nat.eqb i j) with false by (symmetry; apply Nat.eqb_neq; exact NE). reflexivity.
  - cbn [chunks]. rewrite live_of_app. exists (p :: fl). cbn [app].
    assert (PM : Permutation (p :: fl ++ live_of i live1 ++ live_of i live2) (fl ++ live_of i live1 ++ p :: live_of i live2)).
    { rewrite !app_assoc. apply Permutation_middle. }
    split; [|split].
    + assert (CB : chunks a < W).
      { inversion C as [E|? ? ? ? E]; subst; [pose proof W_pos; congruence|].
        apply (chunk_lt a); [exact OA|]. apply M. left. reflexivity. }
      constructor.
      * destruct AP as (sl & I & S). destruct (in_slab_inside a sl p OA I S) as (_ & _ & P). lia.
      * assert (E : chunk_next (mkArena p (slabs a) (align a) (size a)) (chunk_set_next a m p (chunks a)) p = chunks a).
        { change (chunk_next a (chunk_set_next a m p (chunks a)) p = chunks a). apply next_set. exact CB. }
        rewrite E. apply (chain_size a); [reflexivity|]. apply (chain_frame a m); [exact C|]. intros q Q. apply set_other. intros ->.
        apply (nodup_disjoint p _ _ ND Q). apply in_or_app. right. left. reflexivity.
    + eapply Permutation_NoDup; [apply Permutation_sym; exact PM|exact ND].
    + intros q. specialize (M q). unfold in_arena in *. cbn [slabs size]. rewrite <- M. split; apply Permutation_in; [exact PM|apply Permutation_sym; exact PM].
  - intros j q I. right. apply in_app_or in I. apply in_or_app. destruct I; [auto|]. right. right. assumption.
Qed.

Lemma set_nth_same {A} (l : list A) i a : nth_error l i = Some a -> set_nth l i a = l.
Proof.
  revert i. induction l as [|x l IH]; intros [|i] E; cbn in *; try discriminate; [congruence|]. f_equal. auto.
Qed.
Lemma set_nth_twice {A} (l : list A) i a b : set_nth (set_nth l i a) i b = set_nth l i b.
Proof. revert i. induction l as [|x l IH]; intros [|i]; cbn; f_equal; auto. Qed.

Lemma arena_alloc_ok l m live i a o p a' m' : ok l m live -> nth_error l i = Some a -> fair (flat_map slabs l) o ->
  arena_alloc a m o = (p, a', m') ->
  size a' = size a /\ align a' = align a /\
  (forall j b s x, nth_error l j = Some b -> In s (slabs b) -> within x s -> m' x = m x) /\
  ((p = 0 /\ a' = a /\ m' = m /\ chunks a = 0 /\ refused a o) \/
   (p <> 0 /\ ok (set_nth l i a') m' ((i, p) :: live) /\ ~ In (i, p) live)).
Proof.
  intros K A F H. unfold arena_alloc in H. destruct (N.eqb_spec (chunks a) 0) as [Z|NZ].
  - destruct (slab_alloc a m o) as [[a1 m1]|] eqn:S.
    + destruct (slab_alloc_ok l m live i a o a1 m1 K A F Z S) as (K1 & NZ & E1 & E2 & FR). injection H as <- <- <-.
      cbn [size align]. split; [exact E1|]. split; [exact E2|]. split; [exact FR|]. right. split; [exact NZ|].
      assert (A1 : nth_error (set_nth l i a1) i = Some a1) by (rewrite nth_set, A, Nat.eqb_refl; reflexivity).
      destruct (pop_ok _ _ _ i a1 K1 A1 NZ) as [K2 NI]. rewrite set_nth_twice in K2. auto.
    + injection H as <- <- <-. split; [reflexivity|]. split; [reflexivity|]. split; [reflexivity|]. left.
      do 4 (split; [auto|]). unfold slab_alloc, zalloc in S. unfold refused.
      destruct (N.ltb_spec ALLOC_MAX (slab_size a)); [auto|]. destruct (o_slab _ _ _); [|auto]. destruct (o_grown o); [discriminate|auto].
  - injection H as <- <- <-. cbn [size align]. split; [reflexivity|]. split; [reflexivity|]. split; [reflexivity|]. right.
    split; [exact NZ|]. exact (pop_ok _ _ _ i a K A NZ).
Qed.

Lemma nodup_app_r {A} (a b : list A) : NoDup (a ++ b) -> NoDup b.
Proof. induction a as [|x a IH]; cbn; [auto|]. intros H. inversion H; subst. auto. Qed.

Lemma live_of_perm i live live' : Permutation live live' -> Permutation (live_of i live) (live_of i live').
Proof.
  induction 1 as [|[j p] a b P IH|[j p] [k q] a|a b c P1 IH1 P2 IH2].
  - constructor.
  - rewrite !live_of_cons. destruct (Nat.eqb j i); [constructor; exact IH|exact IH].
  - rewrite !live_of_cons. destruct (Nat.eqb j i), (Nat.eqb k i); try apply Permutation_refl. apply perm_swap.
  - eapply Permutation_trans; eassumption.
Qed.
Lemma ok_perm l m live live' : Permutation live live' -> ok l m live -> ok l m live'.
Proof.
  intros P K. split; try apply K.
  - intros i a A. destruct (ok_owns _ _ _ K i a A) as (fl & C & ND & M). exists fl.
    pose proof (Permutation_app_head fl (live_of_perm i _ _ P)) as PM. split; [exact C|]. split.
    + eapply Permutation_NoDup; eassumption.
    + intros p. rewrite <- M. split; apply Permutation_in; [apply Permutation_sym|]; exact PM.
  - intros i p I. apply (ok_live _ _ _ K i p). eapply Permutation_in; [apply Permutation_sym; exact P|exact I].
Qed.

(** ** Size classes *)
Section Varena.
  Variables al off sz : N.
  Hypothesis LAY : layout al off sz.

  Definition place (v : varena) (b : N * N) : nat * N := (N.to_nat (size_class v (snd b)), fst b).

  Record vok (v : varena) (m : memory) (live : list (N * N)) : Prop := {
    v_align : valign v = al; v_offset : voffset v = off; v_size : vsize v = sz;
    v_shift : vshift v <= 63;
    v_arenas : forall j a, nth_error (arenas v) j = Some a ->
      align a = al /\ size a = flex_size al off sz (2 ^ (N.of_nat j + vshift v)) /\ N.of_nat j + vshift v <= 63;
    v_ok : ok (arenas v) m (map (place v) live);
    v_counts : forall b, In b live -> snd b <= 2 ^ 63
  }.

  Lemma pow_lt_W k : k <= 63 -> 2 ^ k < W.
  Proof. intros. apply N.pow_lt_mono_r; lia. Qed.

  Lemma class_bound v count : vshift v <= 63 -> count <= 2 ^ 63 ->
    size_class v count + vshift v <= 63 /\ count <= 2 ^ (size_class v count + vshift v).
  Proof.
    intros S C. unfold size_class. set (c := count - if count =? 0 then 0 else 1).
    assert (CL : c < 2 ^ 63 /\ count <= c + 1).
    { unfold c. change (2 ^ 63) with 9223372036854775808 in *. destruct (N.eqb_spec count 0); lia. }
    clearbody c. set (x := N.shiftr c (vshift v)).
    assert (XL : x < 2 ^ 64).
    { unfold x. rewrite N.shiftr_div_pow2. apply N.le_lt_trans with c; [apply N.div_le_upper_bound; pose proof (pow_pos (vshift v)); nia|].
      apply N.lt_trans with (2 ^ 63); [apply CL|reflexivity]. }
    destruct (bit_width_ok 64 x XL) as [B1 B2].
    assert (DV : c < (x + 1) * 2 ^ vshift v).
    { unfold x. rewrite N.shiftr_div_pow2. pose proof (pow_pos (vshift v)). pose proof (N.div_mod c (2 ^ vshift v) ltac:(lia)).
      pose proof (N.mod_lt c (2 ^ vshift v) ltac:(lia)). lia. }
    split.
    - destruct (N.eq_dec x 0) as [->|NZ]; [rewrite bit_width_0; lia|]. destruct (B2 ltac:(lia)) as [B3 B4].
      assert (2 ^ (bit_width 64 x - 1 + vshift v) <= c).
      { rewrite N.pow_add_r. unfold x in B4 at 2. rewrite N.shiftr_div_pow2 in B4.
        pose proof (pow_pos (vshift v)). pose proof (N.mul_div_le c (2 ^ vshift v) ltac:(lia)).
        transitivity (c / 2 ^ vshift v * 2 ^ vshift v); [apply N.mul_le_mono_r; exact B4|lia]. }
      assert (bit_width 64 x - 1 + vshift v < 63); [|lia].
      apply (N.pow_lt_mono_r_iff 2); [lia|]. lia.
    - rewrite N.pow_add_r. assert (x + 1 <= 2 ^ bit_width 64 x) by lia.
      assert ((x + 1) * 2 ^ vshift v <= 2 ^ bit_width 64 x * 2 ^ vshift v) by (apply N.mul_le_mono_r; assumption). lia.
  Qed.

  Lemma lay_align : exists k, 3 <= k <= 32 /\ al = 2 ^ k.
  Proof. apply LAY. Qed.
  Lemma lay_off : off < 2 ^ 32. Proof. apply LAY. Qed.
  Lemma lay_size : 0 < sz < 2 ^ 32. Proof. apply LAY. Qed.

  Lemma init_ok m : vok (varena_init al off sz) m [].
  Proof.
    split; try reflexivity.
    - unfold varena_init. cbn [vshift]. destruct lay_align as (k & K & AE). pose proof lay_off as O. pose proof lay_size as S. rewrite AE. clear AE.
      rewrite (flex_size_value k off sz 1 (proj2 K) O (proj1 S) eq_refl).
      assert (P32 : 2 ^ k <= 2 ^ 32) by (apply N.pow_le_mono_r; lia). pose proof (pow_pos k).
      change (2 ^ 32) with 4294967296 in *.
      
      rewrite N.mul_1_r. replace (_ <? W) with true by (rewrite W_value; lia).
      pose proof (round_up_lt (2 ^ k) (off + sz) ltac:(lia)) as R. set (r := round_up _ _) in *. clearbody r.
      set (x := (r - off + sz - 1) / sz - 1).
      assert (X : x < 4294967296 * 2).
      { unfold x. assert ((r - off + sz - 1) / sz < 4294967296 + 3); [|lia]. apply N.div_lt_upper_bound; nia. }
      clearbody x. destruct (bit_width_ok 64 x) as [_ B]; [change (2 ^ 64) with W; rewrite W_value; lia|].
      destruct (N.eq_dec x 0) as [->|NZ]; [rewrite bit_width_0; lia|]. destruct (B ltac:(lia)) as [_ B2].
      assert (bit_width 64 x - 1 < 33); [|lia]. apply (N.pow_lt_mono_r_iff 2); [lia|]. change (2 ^ 33) with (4294967296 * 2). lia.
    - intros j a E. destruct j; discriminate.
    - cbn. split.
      + intros i a E. destruct i; discriminate.
      + intros i a k s j b n t E. destruct i; discriminate.
      + intros i a E. destruct i; discriminate.
      + intros i p [].
    - intros b [].
  Qed.

  Lemma get_loop_ok n : forall v m live grown, vok v m live -> N.of_nat (length (arenas v) + n) + vshift v <= 64 ->
    exists v' r, get_loop n v grown = Some (v', r) /\ vok v' m live /\ obtained v' = obtained v /\ vshift v' = vshift v /\
      (r = true -> (length (arenas v') = length (arenas v) + n)%nat) /\ (r = false -> exists j, grown j = false) /\
      (n = O -> v' = v).
  Proof.
    induction n as [|n IH]; intros v m live grown V B; cbn [get_loop].
    - exists v, true. do 4 (split; [auto|]). split; [lia|]. split; [discriminate|auto].
    - destruct (grown (N.of_nat (length (arenas v)))) eqn:G.
      + set (j := N.of_nat (length (arenas v))) in *.
        assert (J : j + vshift v <= 63) by lia.
        rewrite N.shiftl_1_l. rewrite N.mod_small by (apply pow_lt_W; exact J).
        unfold exact_size. rewrite (v_align _ _ _ V), (v_offset _ _ _ V), (v_size _ _ _ V).
        destruct lay_align as (k & K & AE). pose proof lay_off as O. pose proof lay_size as S.
        assert (PW : 2 ^ (j + vshift v) < W) by (apply pow_lt_W; exact J). pose proof (pow_pos (j + vshift v)) as PP.
        set (s := flex_size al off sz (2 ^ (j + vshift v))).
        assert (SL : s < W) by (unfold s; rewrite AE; apply flex_size_lt; lia).
        assert (SM : s mod al = 0) by (unfold s; rewrite AE; apply flex_size_aligned; lia).
        assert (SP : 0 < s).
        { unfold s. rewrite AE. rewrite flex_size_value by lia. pose proof (pow_pos k).
          assert (P32 : 2 ^ k <= 2 ^ 32) by (apply N.pow_le_mono_r; lia). change (2 ^ 32) with 4294967296 in *.
          destruct (_ <? W); [|rewrite W_value; lia]. pose proof (round_up_ge (2 ^ k) (off + sz * 2 ^ (j + vshift v)) ltac:(lia)). nia. }
        destruct (arena_init_ok al s k K AE SL SM SP) as [E AO]. rewrite E.
        set (v1 := mkVarena al off sz (vshift v) (arenas v ++ [mkArena 0 [] al s])).
        destruct (IH v1 m live grown) as (v' & r & E' & V' & OB & SH & R1 & R2 & R3).
        * split; cbn [valign voffset vsize vshift arenas v1]; try reflexivity.
          -- exact (v_shift _ _ _ V).
          -- intros i a N. destruct (Nat.lt_ge_cases i (length (arenas v))) as [L|L].
             ++ rewrite nth_error_app1 in N by exact L. exact (v_arenas _ _ _ V i a N).
             ++ rewrite nth_error_app2 in N by exact L. destruct (i - length (arenas v))%nat as [|x] eqn:X; cbn in N; [|destruct x; discriminate].
                injection N as <-. cbn [align size]. assert (N.of_nat i = j) as -> by (unfold j; lia). split; [reflexivity|]. split; [reflexivity|exact J].
          -- apply ok_add; [exact (v_ok _ _ _ V)|exact AO|reflexivity|reflexivity].
          -- exact (v_counts _ _ _ V).
        * cbn [arenas v1 vshift]. rewrite app_length. cbn [length]. lia.
        * exists v', r. split; [exact E'|]. split; [exact V'|]. split.
          -- rewrite OB. unfold obtained. cbn [arenas v1]. rewrite flat_map_app. cbn. apply app_nil_r.
          -- split; [exact SH|]. split; [|split; [exact R2|discriminate]].
             intros RT. rewrite (R1 RT). cbn [arenas v1]. rewrite app_length. cbn [length]. lia.
      + exists v, false. do 4 (split; [auto|]). split; [discriminate|]. split; [eauto|discriminate].
  Qed.

  Lemma get_ok v m live count grown : vok v m live -> count <= 2 ^ 63 ->
    exists v' r, varena_get v count grown = Some (v', r) /\ vok v' m live /\ obtained v' = obtained v /\ vshift v' = vshift v /\
      (forall i, r = Some i -> i = N.to_nat (size_class v count) /\ exists a, arena_at v' i = Some a) /\
      (r = None -> exists j, grown j = false) /\
      (forall a, arena_at v (N.to_nat (size_class v count)) = Some a -> v' = v /\ r = Some (N.to_nat (size_class v count))).
  Proof.
    intros V C. unfold varena_get. destruct (class_bound v count (v_shift _ _ _ V) C) as [B _].
    set (i := N.to_nat (size_class v count)) in *.
    destruct (Nat.lt_ge_cases i (length (arenas v))) as [L|L].
    - replace (S i - length (arenas v))%nat with O by lia. cbn [get_loop]. exists v, (Some i).
      do 4 (split; [auto|]). split; [|split; [discriminate|auto]].
      intros i' [= <-]. split; [reflexivity|]. unfold arena_at. destruct (nth_error (arenas v) i) eqn:E; [eauto|]. apply nth_error_None in E. lia.
    - destruct (get_loop_ok (S i - length (arenas v)) v m live grown V) as (v' & r & E & V' & OB & SH & R1 & R2 & R3).
      + rewrite Nat.add_comm, Nat.sub_add by lia. unfold i. lia.
      + rewrite E. assert (NA : forall a, arena_at v i = Some a -> False).
        { intros a Ha. unfold arena_at in Ha. assert (nth_error (arenas v) i <> None) by congruence. apply nth_error_Some in H. lia. }
        destruct r.
        * exists v', (Some i). do 4 (split; [auto|]). split; [|split; [discriminate|intros a Ha; destruct (NA a Ha)]].
          intros i' [= <-]. split; [reflexivity|]. unfold arena_at. destruct (nth_error (arenas v') i) eqn:N; [eauto|].
          apply nth_error_None in N. specialize (R1 eq_refl). lia.
        * exists v', None. do 4 (split; [auto|]). split; [discriminate|]. split; [auto|intros a Ha; destruct (NA a Ha)].
  Qed.

  Lemma class_shift v v' c : vshift v' = vshift v -> size_class v' c = size_class v c.
  Proof. intros E. unfold size_class. rewrite E. reflexivity. Qed.

  (** Updating an arena of the varena *)
  Lemma vok_set v m live i a a' m' live' : vok v m live -> nth_error (arenas v) i = Some a ->
    size a' = size a -> align a' = align a ->
    ok (set_nth (arenas v) i a') m' (map (place v) live') -> (forall b, In b live' -> snd b <= 2 ^ 63) ->
    vok (set_arena v i a') m' live'.
  Proof.
    intros V A E1 E2 K C. split; cbn [set_arena valign voffset vsize vshift arenas]; try apply V.
    - intros j b N. rewrite nth_set, A in N. destruct (Nat.eqb_spec i j) as [<-|NE]; [|exact (v_arenas _ _ _ V j b N)].
      injection N as <-. rewrite E1, E2. exact (v_arenas _ _ _ V i a A).
    - exact K.
    - exact C.
  Qed.

  (** The blocks hold the objects. *)
  Lemma live_block v m live b : vok v m live -> In b live ->
    exists a, arena_at v (N.to_nat (size_class v (snd b))) = Some a /\ in_arena a (fst b) /\
      off + sz * snd b <= size a /\ align a = al.
  Proof.
    intros V I. assert (IP : In (place v b) (map (place v) live)) by (apply in_map; exact I).
    destruct (ok_live _ _ _ (v_ok _ _ _ V) _ _ IP) as (a & A). exists a. split; [exact A|].
    pose proof (live_in _ _ _ _ a (fst b) (v_ok _ _ _ V) A IP) as IA. split; [exact IA|].
    destruct (v_arenas _ _ _ V _ a A) as (EA & ES & J). split; [|exact EA].
    pose proof (ok_arenas _ _ _ (v_ok _ _ _ V) _ a A) as OA.
    assert (SMALL : size a <= ALLOC_MAX).
    { destruct IA as (sl & IS & _). assert (NE : slabs a <> []) by (intros E; rewrite E in IS; destruct IS).
      pose proof (ok_small a OA NE). pose proof (slab0_pos a OA) as (_ & _ & G). pose proof (pow_pos (nslabs a - 1)). nia. }
    destruct (class_bound v (snd b) (v_shift _ _ _ V) (v_counts _ _ _ V b I)) as [B1 B2].
    rewrite N2Nat.id in ES, J. destruct lay_align as (k & K & AE). pose proof lay_off as O. pose proof lay_size as S.
    rewrite ES in SMALL |- *. rewrite AE in SMALL |- *.
    pose proof (flex_size_enough k off sz _ ltac:(lia) O ltac:(lia) (pow_lt_W _ B1) SMALL) as [F _].
    assert (sz * snd b <= sz * 2 ^ (size_class v (snd b) + vshift v)) by (apply N.mul_le_mono_l; exact B2). lia.
  Qed.

  Lemma place_shift v v' live : vshift v' = vshift v -> map (place v') live = map (place v) live.
  Proof. intros E. apply map_ext. intros b. unfold place. rewrite (class_shift v v') by exact E. reflexivity. Qed.

  (** An object is inside memory from the system. *)
  Lemma live_slab v m live b x : vok v m live -> In b live -> within x (object off sz b) ->
    exists j a s, nth_error (arenas v) j = Some a /\ In s (slabs a) /\ within x s.
  Proof.
    intros V I X. destruct (live_block v m live b V I) as (a & A & (s & IS & P) & L & _).
    exists (N.to_nat (size_class v (snd b))), a, s. split; [exact A|]. split; [exact IS|].
    pose proof (ok_arenas _ _ _ (v_ok _ _ _ V) _ a A) as OA. destruct (in_slab_inside a s (fst b) OA IS P) as ((I1 & I2) & _).
    unfold within, object in *. cbn [fst snd] in *. lia.
  Qed.

  Lemma vok_mono v m live live' : vok v m live -> ok (arenas v) m (map (place v) live') -> (forall b, In b live' -> In b live) -> vok v m live'.
  Proof. intros V K I. split; try apply V. - exact K. - intros b B. apply (v_counts _ _ _ V), I, B. Qed.

  Theorem alloc_ok v m live count o : vok v m live -> fair (obtained v) o -> count <= 2 ^ 63 ->
    exists p v' m', varena_alloc v m count o = Some (p, v', m') /\
      vok v' m' (if p =? 0 then live else (p, count) :: live) /\
      (forall b, In b live -> same m m' (object off sz b)) /\
      (p = 0 -> refusal v' count o).
  Proof.
    intros V F C. unfold varena_alloc.
    destruct (get_ok v m live count (o_arenas o) V C) as (v1 & r & G & V1 & OB & SH & R1 & R2 & _). rewrite G.
    destruct r as [i|].
    - destruct (R1 i eq_refl) as (EI & a & A). rewrite A. destruct (arena_alloc a m o) as [[p a'] m'] eqn:AL.
      rewrite <- OB in F. destruct (arena_alloc_ok _ m _ i a o p a' m' (v_ok _ _ _ V1) A F AL) as (E1 & E2 & FR & CS).
      exists p, (set_arena v1 i a'), m'. split; [reflexivity|]. split; [|split].
      + destruct CS as [(-> & -> & -> & _)|(NZ & K & NI)].
        * change (0 =? 0) with true. cbv iota. apply (vok_set v1 m live i a); try assumption; try reflexivity.
          -- rewrite (set_nth_same _ _ _ A). exact (v_ok _ _ _ V1).
          -- exact (v_counts _ _ _ V1).
        * replace (p =? 0) with false by lia. apply (vok_set v1 m live i a); try assumption.
          -- cbn [map]. unfold place at 1. cbn [fst snd]. rewrite (class_shift v v1) by exact SH. rewrite <- EI. exact K.
          -- intros b [<-|I]; [exact C|exact (v_counts _ _ _ V1 b I)].
      + intros b I x X. destruct (live_slab v1 m live b x V1 I X) as (j & c & s & J & IS & XS). exact (FR j c s x J IS XS).
      + intros ->. right. destruct CS as [(_ & -> & _ & _ & RF)|(NZ & _)]; [|contradiction]. exists a. split; [|exact RF].
        rewrite (class_shift v (set_arena v1 i a)) by exact SH. rewrite <- EI. unfold arena_at, set_arena. cbn [arenas]. rewrite (set_nth_same _ _ _ A). exact A.
    - exists 0, v1, m. split; [reflexivity|]. change (0 =? 0) with true. cbv iota. split; [exact V1|]. split; [intros b _ x _; reflexivity|].
      intros _. left. exact (R2 eq_refl).
  Qed.

  (** Other live blocks *)
  Lemma objects_disjoint v m live1 b live2 c : vok v m (live1 ++ b :: live2) -> In c (live1 ++ live2) ->
    exists a a', arena_at v (N.to_nat (size_class v (snd b))) = Some a /\ arena_at v (N.to_nat (size_class v (snd c))) = Some a' /\
      in_arena a (fst b) /\ in_arena a' (fst c) /\ place v b <> place v c /\
      disjoint (fst b, size a) (fst c, size a').
  Proof.
    intros V I.
    assert (IB : In b (live1 ++ b :: live2)) by (apply in_or_app; right; left; reflexivity).
    assert (IC : In c (live1 ++ b :: live2)) by (apply in_app_or in I; apply in_or_app; destruct I; [auto|right; right; assumption]).
    destruct (live_block _ _ _ b V IB) as (a & A & IA & _). destruct (live_block _ _ _ c V IC) as (a' & A' & IA' & _).
    exists a, a'. do 4 (split; [assumption|]).
    assert (NE : place v b <> place v c).
    { intros E. destruct (ok_owns _ _ _ (v_ok _ _ _ V) _ a A) as (fl & _ & ND & _).
      apply nodup_app_r in ND. rewrite map_app in ND. cbn [map] in ND. unfold place at 2 in ND. rewrite live_of_app, live_of_cons, Nat.eqb_refl in ND.
      apply NoDup_remove_2 in ND. apply ND. rewrite <- live_of_app. apply in_live_of. change (In (place v b) (map (place v) live1 ++ map (place v) live2)).
      rewrite E, <- map_app. apply in_map. exact I. }
    split; [exact NE|]. exact (chunks_disjoint _ _ _ _ a (fst b) _ a' (fst c) (v_ok _ _ _ V) A IA A' IA' NE).
  Qed.

  Lemma free_core v m live1 p count live2 a a' m' : vok v m (live1 ++ (p, count) :: live2) ->
    arena_at v (N.to_nat (size_class v count)) = Some a -> arena_free a m p = (a', m') ->
    vok (set_arena v (N.to_nat (size_class v count)) a') m' (live1 ++ live2) /\
    (forall b, In b (live1 ++ live2) -> same m m' (object off sz b)).
  Proof.
    intros V A FE.
    assert (K : ok (arenas v) m (map (place v) live1 ++ (N.to_nat (size_class v count), p) :: map (place v) live2)).
    { pose proof (v_ok _ _ _ V) as K. rewrite map_app in K. exact K. }
    destruct (free_ok _ m _ p _ _ a a' m' K A FE) as (K' & E1 & E2 & _ & FR).
    assert (IN : forall b, In b (live1 ++ live2) -> In b (live1 ++ (p, count) :: live2)).
    { intros b I. apply in_app_or in I. apply in_or_app. destruct I; [auto|right; right; assumption]. }
    split.
    - apply (vok_set v m (live1 ++ (p, count) :: live2) _ a); try assumption.
      + rewrite map_app. exact K'.
      + intros b I. apply (v_counts _ _ _ V), IN, I.
    - intros b I x X. apply FR. intros ->. destruct (objects_disjoint v m live1 (p, count) live2 b V I) as (a1 & a2 & A1 & A2 & _ & _ & _ & D).
      cbn [fst snd] in *. assert (a1 = a) by congruence. subst a1.
      destruct (live_block _ _ _ b V (IN b I)) as (a3 & A3 & _ & L3 & _). assert (a3 = a2) by congruence. subst a3.
      pose proof (ok_size a (ok_arenas _ _ _ (v_ok _ _ _ V) _ a A)) as S8.
      unfold disjoint, within, object in *. cbn [fst snd] in *. clear - D X L3 S8. lia.
  Qed.

  Theorem free_varena_ok v m live1 p count live2 o : vok v m (live1 ++ (p, count) :: live2) ->
    exists v' m', varena_free v m p count o = Some (v', m') /\ vok v' m' (live1 ++ live2) /\
      (forall b, In b (live1 ++ live2) -> same m m' (object off sz b)).
  Proof.
    intros V. unfold varena_free.
    assert (IB : In (p, count) (live1 ++ (p, count) :: live2)) by (apply in_or_app; right; left; reflexivity).
    destruct (live_block _ _ _ _ V IB) as (a & A & _). cbn [fst snd] in *.
    destruct (get_ok v m _ count (o_arenas o) V (v_counts _ _ _ V _ IB)) as (v1 & r & G & _ & _ & _ & _ & _ & R). rewrite G.
    destruct (R a A) as [-> ->]. rewrite A. destruct (arena_free a m p) as [a' m'] eqn:FE.
    destruct (free_core v m live1 p count live2 a a' m' V A FE) as [V' S]. eauto.
  Qed.

  Lemma copy_other m t f n x : ~ within x (t, n) -> copy m t f n x = m x.
  Proof. unfold within, copy. cbn [fst snd]. intros H. destruct (N.leb_spec t x), (N.ltb_spec x (t + n)); cbn; try reflexivity. lia. Qed.
  Lemma copy_this m t f n x : x < n -> copy m t f n (t + x) = m (f + x).
  Proof. intros H. unfold copy. replace (t <=? t + x) with true by lia. replace (t + x <? t + n) with true by lia. cbn. f_equal. lia. Qed.

  Lemma vok_write v m m' live b a : vok v m live -> In b live -> arena_at v (N.to_nat (size_class v (snd b))) = Some a ->
    (forall x, ~ within x (fst b, size a) -> m' x = m x) -> vok v m' live.
  Proof.
    intros V I A E. split; try apply V. apply (ok_write _ m m' _ _ a (fst b) (v_ok _ _ _ V) A); [|exact E].
    exact (in_map (place v) live b I).
  Qed.

  Lemma live_pos v m live b : vok v m live -> In b live -> fst b <> 0.
  Proof.
    intros V I. destruct (live_block v m live b V I) as (a & A & (s & IS & P) & _).
    destruct (in_slab_inside a s (fst b) (ok_arenas _ _ _ (v_ok _ _ _ V) _ a A) IS P) as (_ & _ & H). lia.
  Qed.

  Theorem realloc_ok v m live1 p c live2 c' o : vok v m (live1 ++ (p, c) :: live2) -> fair (obtained v) o -> c' <= 2 ^ 63 ->
    exists p' v' m', varena_realloc v m p c c' o = Some (p', v', m') /\
      vok v' m' (live1 ++ (if p' =? 0 then (p, c) else (p', c')) :: live2) /\ vshift v' = vshift v /\
      (forall b, In b (live1 ++ live2) -> same m m' (object off sz b)) /\
      (p' = 0 -> same m m' (object off sz (p, c)) /\ refusal v' c' o) /\
      (p' <> 0 -> forall x, x < off + sz * c -> x < off + sz * c' -> m' (p' + x) = m (p + x)) /\
      (size_class v c' = size_class v c -> p' = p /\ m' = m).
  Proof.
    intros V F C. unfold varena_realloc. set (live := live1 ++ (p, c) :: live2) in *.
    assert (IB : In (p, c) live) by (apply in_or_app; right; left; reflexivity).
    pose proof (live_pos _ _ _ _ V IB) as PP. cbn [fst] in PP.
    destruct (get_ok v m _ c' (o_arenas o) V C) as (v1 & r & G & V1 & OB & SH & R1 & R2 & R3). rewrite G.
    destruct (live_block _ _ _ _ V1 IB) as (ao & AO & _ & SO & _). cbn [fst snd] in AO, SO.
    destruct (get_ok v1 m _ c (o_arenas o) V1 (v_counts _ _ _ V1 _ IB)) as (v2 & r' & G' & _ & _ & _ & _ & _ & R'). rewrite G'.
    destruct (R' ao AO) as [-> ->]. clear R' G'.
    destruct r as [i|].
    - destruct (R1 i eq_refl) as (EI & an & AN). rewrite AN, AO. rewrite <- (class_shift v v1 c') in EI by exact SH.
      destruct (Nat.eqb_spec i (N.to_nat (size_class v1 c))) as [EQ|NE].
      + exists p, v1, m. split; [reflexivity|]. replace (p =? 0) with false by lia. split.
        * assert (PL : map (place v1) (live1 ++ (p, c') :: live2) = map (place v1) live).
          { unfold live. rewrite !map_app. cbn [map]. unfold place at 2 5. cbn [fst snd]. rewrite <- EI, EQ. reflexivity. }
          split; try apply V1.
          -- rewrite PL. exact (v_ok _ _ _ V1).
          -- intros b I. apply in_app_or in I. destruct I as [I|[<-|I]].
             ++ apply (v_counts _ _ _ V1), in_or_app. auto.
             ++ exact C.
             ++ apply (v_counts _ _ _ V1), in_or_app. right. right. exact I.
        * split; [exact SH|]. split; [intros b _ x _; reflexivity|]. split; [contradiction|]. split; [reflexivity|auto].
      + destruct (arena_alloc an m o) as [[ret a'] m1] eqn:AL. rewrite <- OB in F.
        destruct (arena_alloc_ok _ m _ i an o ret a' m1 (v_ok _ _ _ V1) AN F AL) as (E1 & E2 & FR & CS).
        assert (CE : size_class v c' = size_class v c -> False).
        { intros E. apply NE. rewrite EI, !(class_shift v v1) by exact SH. rewrite E. reflexivity. }
        assert (FR' : forall b, In b live -> same m m1 (object off sz b)).
        { intros b I x X. destruct (live_slab v1 m live b x V1 I X) as (j & d & s & J & IS & XS). exact (FR j d s x J IS XS). }
        assert (INL : forall b, In b (live1 ++ live2) -> In b live).
        { intros b I. apply in_app_or in I. apply in_or_app. destruct I; [auto|right; right; assumption]. }
        destruct CS as [(-> & -> & -> & _ & RF)|(NZ & K & NI)].
        * change (0 =? 0) with true. cbv iota. exists 0, (set_arena v1 i an), m. split; [reflexivity|].
          change (0 =? 0) with true. cbv iota. split; [|split; [exact SH|split; [intros b _ x _; reflexivity|split; [|split; [intros []; reflexivity|intros E; destruct (CE E)]]]]].
          -- apply (vok_set v1 m live i an); try assumption; try reflexivity.
             ++ rewrite (set_nth_same _ _ _ AN). exact (v_ok _ _ _ V1).
             ++ exact (v_counts _ _ _ V1).
          -- intros _. split; [intros x _; reflexivity|]. right. exists an. split; [|exact RF].
             rewrite (class_shift v1 (set_arena v1 i an)) by reflexivity. rewrite <- EI. unfold arena_at, set_arena. cbn [arenas]. rewrite (set_nth_same _ _ _ AN). exact AN.
        * replace (ret =? 0) with false by lia.
          set (v2 := set_arena v1 i a').
          assert (V2 : vok v2 m1 ((ret, c') :: live)).
          { apply (vok_set v1 m live i an); try assumption.
            - cbn [map]. unfold place at 1. cbn [fst snd]. rewrite <- EI. exact K.
            - intros b [<-|I]; [exact C|exact (v_counts _ _ _ V1 b I)]. }
          assert (A2 : arena_at v2 (N.to_nat (size_class v2 c')) = Some a').
          { rewrite (class_shift v1 v2) by reflexivity. rewrite <- EI. unfold arena_at, v2, set_arena. cbn [arenas].
            unfold arena_at in AN. rewrite nth_set, AN, Nat.eqb_refl. reflexivity. }
          assert (AO2 : arena_at v2 (N.to_nat (size_class v2 c)) = Some ao).
          { rewrite (class_shift v1 v2) by reflexivity. unfold arena_at, v2, set_arena. cbn [arenas].
            rewrite nth_set, (proj2 (Nat.eqb_neq _ _) NE). exact AO. }
          set (m2 := copy m1 ret p (N.min (size a') (size ao))).
          assert (OUT : forall x, ~ within x (ret, size a') -> m2 x = m1 x).
          { intros x X. apply copy_other. intros X'. apply X. unfold within in *. cbn [fst snd] in *. clear - X'. lia. }
          assert (V2' : vok v2 m2 ((ret, c') :: live)).
          { apply (vok_write v2 m1 m2 _ (ret, c') a' V2); [left; reflexivity|exact A2|exact OUT]. }
          destruct (arena_free ao m2 p) as [ao' m3] eqn:FE.
          destruct (free_core v2 m2 ((ret, c') :: live1) p c live2 ao ao' m3 V2' AO2 FE) as [V3 FR3].
          rewrite (class_shift v1 v2) in V3 by reflexivity.
          exists ret, (set_arena v2 (N.to_nat (size_class v1 c)) ao'), m3. split; [reflexivity|].
          replace (ret =? 0) with false by lia. split; [|split; [exact SH|split; [|split; [intros Z0; destruct (NZ Z0)|split; [|intros E; destruct (CE E)]]]]].
          -- split; try apply V3.
             ++ eapply ok_perm; [|exact (v_ok _ _ _ V3)]. apply Permutation_map. apply Permutation_middle.
             ++ intros b I. apply (v_counts _ _ _ V3). eapply Permutation_in; [apply Permutation_sym, Permutation_middle|exact I].
          -- intros b I x X. rewrite (FR3 b (or_intror I) x X). rewrite OUT; [exact (FR' b (INL b I) x X)|].
             intros X'. destruct (objects_disjoint v2 m1 [] (ret, c') live b V2 (INL b I)) as (a1 & a2 & B1 & B2 & _ & _ & _ & D).
             cbn [fst snd] in *. assert (a1 = a') by congruence. subst a1.
             destruct (live_block v2 m1 _ b V2 (or_intror (INL b I))) as (a3 & B3 & _ & L3 & _). assert (a3 = a2) by congruence. subst a3.
             unfold disjoint, within, object in *. cbn [fst snd] in *. clear - D X X' L3. lia.
          -- intros _ x X1 X2. destruct (live_block v2 m1 _ (ret, c') V2 (or_introl eq_refl)) as (a3 & B3 & _ & L3 & _).
             cbn [fst snd] in *. assert (a3 = a') by congruence. subst a3.
             rewrite (FR3 (ret, c') (or_introl eq_refl) (ret + x)); [|unfold within, object; cbn [fst snd]; clear - X2; lia].
             unfold m2. rewrite copy_this by (clear - X1 X2 L3 SO; lia).
             apply (FR' (p, c) IB). unfold within, object. cbn [fst snd]. clear - X1. lia.
    - exists 0, v1, m. split; [reflexivity|]. change (0 =? 0) with true. cbv iota. split; [exact V1|]. split; [exact SH|].
      split; [intros b _ x _; reflexivity|]. split; [|split; [intros []; reflexivity|]].
      + intros _. split; [intros x _; reflexivity|]. left. exact (R2 eq_refl).
      + intros E. rewrite E in R3. unfold arena_at in R3.
        destruct (live_block _ _ _ _ V IB) as (a0 & A0 & _). cbn [snd] in A0. destruct (R3 a0 A0) as [_ R4]. discriminate.
  Qed.

  (** Growing *)
  Lemma class_full v c : vshift v <= 63 -> c <= 2 ^ 63 ->
    size_class v (2 ^ (size_class v c + vshift v)) = size_class v c.
  Proof.
    intros S C. destruct (class_bound v c S C) as [B _]. set (k := size_class v c) in *. clearbody k.
    unfold size_class. pose proof (pow_pos (k + vshift v)) as P.
    replace (2 ^ (k + vshift v) =? 0) with false by lia. rewrite N.shiftr_div_pow2.
    assert (E : (2 ^ (k + vshift v) - 1) / 2 ^ vshift v = 2 ^ k - 1).
    { pose proof (pow_pos (vshift v)). pose proof (pow_pos k). rewrite N.pow_add_r in *.
      symmetry. apply (N.div_unique _ _ _ (2 ^ vshift v - 1)); [lia|]. nia. }
    rewrite E. assert (L : 2 ^ k <= 2 ^ 63) by (apply N.pow_le_mono_r; lia).
    destruct (bit_width_ok 64 (2 ^ k - 1)) as [B1 B2].
    { change (2 ^ 64) with (2 ^ 63 * 2). lia. }
    pose proof (pow_pos k) as Pk. assert (K1 : k <= bit_width 64 (2 ^ k - 1)) by (apply (N.pow_le_mono_r_iff 2); lia).
    destruct (N.eq_dec k 0) as [->|NZ]; [reflexivity|].
    assert (2 ^ 1 <= 2 ^ k) by (apply N.pow_le_mono_r; lia). change (2 ^ 1) with 2 in *.
    destruct (B2 ltac:(lia)) as [B3 B4].
    assert (bit_width 64 (2 ^ k - 1) - 1 < k); [|lia]. apply (N.pow_lt_mono_r_iff 2); lia.
  Qed.

  Theorem grow_ok v m live1 p c live2 o : vok v m (live1 ++ (p, c) :: live2) -> fair (obtained v) o -> c < 2 ^ 63 ->
    exists p' c' v' m', varena_grow v m p c o = Some (p', c', v', m') /\
      vok v' m' (live1 ++ (if p' =? 0 then p else p', c') :: live2) /\
      (forall b, In b (live1 ++ live2) -> same m m' (object off sz b)) /\
      (p' = 0 -> c' = c /\ same m m' (object off sz (p, c)) /\ refusal v' (2 ^ (size_class v (c + 1) + vshift v)) o) /\
      (p' <> 0 -> c < c' /\ forall x, x < off + sz * c -> m' (p' + x) = m (p + x)).
  Proof.
    intros V F C. unfold varena_grow. pose proof (v_shift _ _ _ V) as S.
    destruct (class_bound v (c + 1) S ltac:(lia)) as [B1 B2].
    rewrite N.shiftl_1_l, N.mod_small by (apply pow_lt_W; exact B1).
    set (c' := 2 ^ (size_class v (c + 1) + vshift v)) in *.
    assert (C' : c' <= 2 ^ 63) by (apply N.pow_le_mono_r; lia).
    destruct (realloc_ok v m live1 p c live2 c' o V F C') as (p' & v' & m' & E & V' & SH & O1 & O2 & O3 & _). rewrite E.
    exists p', (if p' =? 0 then c else c'), v', m'. split; [reflexivity|]. split; [|split; [exact O1|]].
    - destruct (p' =? 0); exact V'.
    - split; intros Z.
      + subst p'. split; [reflexivity|]. exact (O2 eq_refl).
      + replace (p' =? 0) with false by lia. split; [clearbody c'; lia|]. intros x X. apply (O3 Z); [exact X|].
        assert (sz * c <= sz * c') by (apply N.mul_le_mono_l; clearbody c'; lia). lia.
  Qed.

  (** ** Every history *)
  Theorem history_ok v m live : history al off sz v m live -> vok v m live.
  Proof.
    induction 1 as [m|v m live count o p v' m' H IH F C E|v m live1 p count live2 o v' m' H IH E
      |v m live1 p count live2 count' o p' v' m' H IH F C E|v m live1 p count live2 o p' count' v' m' H IH F C E
      |v m live b x w H IH I X].
    - apply init_ok.
    - destruct (alloc_ok v m live count o IH F C) as (p1 & v1 & m1 & E1 & V & _). rewrite E1 in E. injection E as <- <- <-. exact V.
    - destruct (free_varena_ok v m live1 p count live2 o IH) as (v1 & m1 & E1 & V & _). rewrite E1 in E. injection E as <- <-. exact V.
    - destruct (realloc_ok v m live1 p count live2 count' o IH F C) as (p1 & v1 & m1 & E1 & V & _). rewrite E1 in E. injection E as <- <- <-. exact V.
    - destruct (grow_ok v m live1 p count live2 o IH F C) as (p1 & c1 & v1 & m1 & E1 & V & _). rewrite E1 in E. injection E as <- <- <- <-. exact V.
    - destruct (live_block v m live b IH I) as (a & A & _ & L & _).
      apply (vok_write v m _ live b a IH I A). intros y Y. unfold store. destruct (N.eqb_spec y x) as [->|]; [|reflexivity].
      destruct Y. unfold within, object in *. cbn [fst snd] in *. lia.
  Qed.
End Varena.

(** ** The properties *)
Theorem objects_ok al off sz v m live : layout al off sz -> history al off sz v m live ->
  (forall i j b c, nth_error live i = Some b -> nth_error live j = Some c -> i <> j -> disjoint (object off sz b) (object off sz c)) /\
  (forall b, In b live -> fst b <> 0 /\ fst b mod al = 0 /\ exists r, In r (obtained v) /\ inside (object off sz b) r).
Proof.
  intros LAY H. pose proof (history_ok al off sz LAY v m live H) as V. split.
  - assert (G : forall i j b c, nth_error live i = Some b -> nth_error live j = Some c -> (i < j)%nat -> disjoint (object off sz b) (object off sz c)).
    { intros i j b c B C L. destruct (nth_error_split live i B) as (l1 & l2 & E & LEN).
      assert (IC : In c (l1 ++ l2)).
      { rewrite E in C. rewrite nth_error_app2 in C by lia. destruct (j - length l1)%nat eqn:J; [lia|]. cbn in C.
        apply in_or_app. right. exact (nth_error_In _ _ C). }
      rewrite E in V. destruct (objects_disjoint al off sz LAY v m l1 b l2 c V IC) as (a & a' & A & A' & _ & _ & _ & D).
      assert (IB : In b (l1 ++ b :: l2)) by (apply in_or_app; right; left; reflexivity).
      assert (IC' : In c (l1 ++ b :: l2)) by (apply in_app_or in IC; apply in_or_app; destruct IC; [auto|right; right; assumption]).
      destruct (live_block al off sz LAY v m _ b V IB) as (a1 & A1 & _ & L1 & _).
      destruct (live_block al off sz LAY v m _ c V IC') as (a2 & A2 & _ & L2 & _).
      assert (a1 = a) by congruence. assert (a2 = a') by congruence. subst a1 a2.
      unfold disjoint, object in *. cbn [fst snd] in *. clear - D L1 L2. lia. }
    intros i j b c B C NE. destruct (Nat.lt_total i j) as [L|[L|L]]; [exact (G i j b c B C L)|contradiction|].
    destruct (G j i c b C B L); [right|left]; assumption.
  - intros b I. split; [exact (live_pos al off sz LAY v m live b V I)|].
    destruct (live_block al off sz LAY v m live b V I) as (a & A & (s & IS & P) & L & EA).
    pose proof (ok_arenas _ _ _ (v_ok _ _ _ _ _ _ V) _ a A) as OA. destruct (in_slab_inside a s (fst b) OA IS P) as ((I1 & I2) & AL & _).
    split; [rewrite <- EA; exact AL|]. exists s. split.
    + apply in_flat_map. exists a. split; [exact (nth_error_In _ _ A)|exact IS].
    + unfold inside, object in *. cbn [fst snd] in *. lia.
Qed.

Theorem alloc_property al off sz v m live count o : layout al off sz -> history al off sz v m live ->
  fair (obtained v) o -> count <= 2 ^ 63 ->
  exists p v' m', varena_alloc v m count o = Some (p, v', m') /\
    (forall b, In b live -> same m m' (object off sz b)) /\ (p = 0 -> refusal v' count o).
Proof.
  intros LAY H F C. destruct (alloc_ok al off sz LAY v m live count o (history_ok al off sz LAY v m live H) F C) as (p & v' & m' & E & _ & S & R).
  exists p, v', m'. auto.
Qed.

Theorem free_property al off sz v m live1 p count live2 o : layout al off sz -> history al off sz v m (live1 ++ (p, count) :: live2) ->
  exists v' m', varena_free v m p count o = Some (v', m') /\
    (forall b, In b (live1 ++ live2) -> same m m' (object off sz b)).
Proof.
  intros LAY H. destruct (free_varena_ok al off sz LAY v m live1 p count live2 o (history_ok al off sz LAY v m _ H)) as (v' & m' & E & _ & S).
  eauto.
Qed.

Theorem realloc_property al off sz v m live1 p count live2 count' o : layout al off sz ->
  history al off sz v m (live1 ++ (p, count) :: live2) -> fair (obtained v) o -> count' <= 2 ^ 63 ->
  exists p' v' m', varena_realloc v m p count count' o = Some (p', v', m') /\
    (forall b, In b (live1 ++ live2) -> same m m' (object off sz b)) /\
    (p' = 0 -> same m m' (object off sz (p, count)) /\ refusal v' count' o) /\
    (p' <> 0 -> forall x, x < off + sz * count -> x < off + sz * count' -> m' (p' + x) = m (p + x)).
Proof.
  intros LAY H F C. destruct (realloc_ok al off sz LAY v m live1 p count live2 count' o (history_ok al off sz LAY v m _ H) F C)
    as (p' & v' & m' & E & _ & _ & S & Z & NZ & _). exists p', v', m'. auto.
Qed.

Theorem grow_property al off sz v m live1 p count live2 o : layout al off sz ->
  history al off sz v m (live1 ++ (p, count) :: live2) -> fair (obtained v) o -> count < 2 ^ 63 ->
  exists p' count' v' m', varena_grow v m p count o = Some (p', count', v', m') /\
    (forall b, In b (live1 ++ live2) -> same m m' (object off sz b)) /\
    (p' = 0 -> count' = count /\ same m m' (object off sz (p, count))) /\
    (p' <> 0 -> count < count' /\ forall x, x < off + sz * count -> m' (p' + x) = m (p + x)).
Proof.
  intros LAY H F C. destruct (grow_ok al off sz LAY v m live1 p count live2 o (history_ok al off sz LAY v m _ H) F C)
    as (p' & c' & v' & m' & E & _ & S & Z & NZ). exists p', c', v', m'. split; [exact E|]. split; [exact S|]. split; [|exact NZ].
  intros P. destruct (Z P) as (A & B & _). auto.
Qed.

Theorem flex_size_property k off sz count : k <= 32 -> off < 2 ^ 32 -> 0 < sz -> count < W ->
  flex_size (2 ^ k) off sz count mod 2 ^ k = 0 /\
  (flex_size (2 ^ k) off sz count <= ALLOC_MAX -> off + sz * count <= flex_size (2 ^ k) off sz count < off + sz * count + 2 ^ k).
Proof. intros K O S C. split; [exact (flex_size_aligned k off sz count K O S C)|exact (flex_size_enough k off sz count K O S C)]. Qed.

(** ** Arenas of one size *)
Lemma arena_history_ok al sz : (exists k, 3 <= k <= 32 /\ al = 2 ^ k) -> sz mod al = 0 -> 0 < sz < W ->
  forall a m live, arena_history al sz a m live -> ok [a] m (map (pair O) live) /\ align a = al /\ size a = sz.
Proof.
  intros (k & K & AE) SM SP. induction 1 as [a m E|a m live o p a' m' H IH F E|a m live1 p live2 a' m' H IH E|a m live p x w H IH I X].
  - destruct (arena_init_ok al sz k K AE (proj2 SP) SM (proj1 SP)) as [E' AO]. rewrite E' in E. injection E as <-. split; [|auto].
    apply (ok_add [] m [] (mkArena 0 [] al sz)); try assumption; try reflexivity. split.
    + intros i a E. destruct i; discriminate.
    + intros i a j s n b t u E. destruct i; discriminate.
    + intros i a E. destruct i; discriminate.
    + intros i p [].
  - destruct IH as (IH & A & S). assert (F' : fair (flat_map slabs [a]) o) by (cbn; rewrite app_nil_r; exact F).
    destruct (arena_alloc_ok [a] m _ 0%nat a o p a' m' IH eq_refl F' E) as (E1 & E2 & FR & CS).
    split; [|split; congruence]. destruct CS as [(-> & -> & -> & _)|(NZ & K1 & NI)].
    + exact IH.
    + replace (p =? 0) with false by lia. exact K1.
  - destruct IH as (IH & A & S). rewrite map_app in IH. cbn [map] in IH.
    destruct (free_ok [a] m _ p _ 0%nat a a' m' IH eq_refl E) as (K' & E1 & E2 & _ & FR).
    split; [|split; congruence]. rewrite map_app. exact K'.
  - destruct IH as (IH & A & S). split; [|auto].
    apply (ok_write [a] m _ _ 0%nat a p IH eq_refl); [exact (in_map (pair O) live p I)|].
    intros y Y. unfold store. destruct (N.eqb_spec y x) as [->|]; [|reflexivity]. destruct Y. rewrite S. exact X.
Qed.

Theorem arena_blocks_ok al sz a m live : (exists k, 3 <= k <= 32 /\ al = 2 ^ k) -> sz mod al = 0 -> 0 < sz < W ->
  arena_history al sz a m live ->
  (forall i j p q, nth_error live i = Some p -> nth_error live j = Some q -> i <> j -> disjoint (p, sz) (q, sz)) /\
  (forall p, In p live -> p <> 0 /\ p mod al = 0 /\ exists r, In r (slabs a) /\ inside (p, sz) r).
Proof.
  intros HA SM SP H. destruct (arena_history_ok al sz HA SM SP a m live H) as (K & A & S).
  assert (LI : forall p, In p live -> in_arena a p).
  { intros p I. exact (live_in [a] m _ 0%nat a p K eq_refl (in_map (pair O) live p I)). }
  split.
  - intros i j p q P Q NE.
    assert (PQ : p <> q).
    { intros ->. destruct (ok_owns _ _ _ K 0%nat a eq_refl) as (fl & _ & ND & _). apply nodup_app_r in ND.
      assert (E : live_of 0 (map (pair O) live) = live).
      { clear. induction live as [|x l IH]; [reflexivity|]. cbn [map]. rewrite live_of_cons. cbn. f_equal. exact IH. }
      rewrite E in ND. apply NE. rewrite NoDup_nth_error in ND. apply ND; [|congruence]. apply nth_error_Some. congruence. }
    rewrite <- S. apply (chunks_disjoint [a] m _ 0%nat a p 0%nat a q K eq_refl (LI p (nth_error_In _ _ P)) eq_refl (LI q (nth_error_In _ _ Q))).
    congruence.
  - intros p I. destruct (LI p I) as (s & IS & P). pose proof (ok_arenas _ _ _ K 0%nat a eq_refl) as OA.
    destruct (in_slab_inside a s p OA IS P) as (IN & AL & PP). split; [lia|]. rewrite A in AL. split; [exact AL|].
    exists s. split; [exact IS|]. rewrite <- S. exact IN.
Qed.

Theorem arena_contents_ok al sz a m live : (exists k, 3 <= k <= 32 /\ al = 2 ^ k) -> sz mod al = 0 -> 0 < sz < W ->
  arena_history al sz a m live ->
  (forall o p a' m', fair (slabs a) o -> arena_alloc a m o = (p, a', m') ->
     (forall q, In q live -> same m m' (q, sz)) /\ (p = 0 -> refused a o)) /\
  (forall live1 p live2 a' m', live = live1 ++ p :: live2 -> arena_free a m p = (a', m') ->
     forall q, In q (live1 ++ live2) -> same m m' (q, sz)).
Proof.
  intros HA SM SP H. destruct (arena_blocks_ok al sz a m live HA SM SP H) as (DJ & _).
  destruct (arena_history_ok al sz HA SM SP a m live H) as (K & A & S). split.
  - intros o p a' m' F E. assert (F' : fair (flat_map slabs [a]) o) by (cbn; rewrite app_nil_r; exact F).
    destruct (arena_alloc_ok [a] m _ 0%nat a o p a' m' K eq_refl F' E) as (_ & _ & FR & CS). split.
    + intros q I x X. pose proof (live_in [a] m _ 0%nat a q K eq_refl (in_map (pair O) live q I)) as (s & IS & P).
      destruct (in_slab_inside a s q (ok_arenas _ _ _ K 0%nat a eq_refl) IS P) as ((I1 & I2) & _).
      apply (FR 0%nat a s x eq_refl IS). unfold within in *. cbn [fst snd] in *. rewrite S in I2. lia.
    + intros ->. destruct CS as [(_ & _ & _ & _ & R)|(NZ & _)]; [exact R|contradiction].
  - intros live1 p live2 a' m' -> E q I x X. unfold arena_free in E. injection E as <- <-. apply set_other. intros ->.
    apply in_app_or in I.
    assert (D : disjoint (p, sz) (q, sz)).
    { destruct I as [I|I]; apply In_nth_error in I; destruct I as (n & N).
      - apply (DJ (length live1) n); [rewrite nth_error_app2, Nat.sub_diag by lia; reflexivity| |].
        + rewrite nth_error_app1; [exact N|]. apply nth_error_Some. congruence.
        + assert (n < length live1)%nat by (apply nth_error_Some; congruence). lia.
      - apply (DJ (length live1) (length live1 + 1 + n)%nat); [rewrite nth_error_app2, Nat.sub_diag by lia; reflexivity| |lia].
        rewrite nth_error_app2 by lia. replace (length live1 + 1 + n - length live1)%nat with (Datatypes.S n) by lia. exact N. }
    unfold disjoint, within in *. cbn [fst snd] in *. lia.
Qed.
