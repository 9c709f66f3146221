(** Proofs about growable strings *)
From Coq Require Import List NArith Arith Bool Lia ZifyBool ZifyN ZifyNat.
From Coq Require Import Init.Byte.
From Verif Require Import BitModel BitProofs AllocModel AllocSizes QuoteModel QuoteProofs DstrModel DstrSpec.
Import ListNotations.
Local Open Scope N_scope.

Lemma nlen_app a b : nlen (a ++ b) = nlen a + nlen b.
Proof. unfold nlen. rewrite app_length. lia. Qed.
Lemma nlen_to s : N.to_nat (nlen s) = length s.
Proof. unfold nlen. lia. Qed.

(** The string holds [s]. *)
Definition holds (d : dstring) (s : list byte) : Prop :=
  len d = nlen s /\ (exists rest, mem d = s ++ x00 :: rest) /\ len d < cap d /\ cap d <= nlen (mem d).

Lemma holds_contents d s : holds d s -> contents d = s /\ terminated d.
Proof.
  intros (L & (r & M) & C & B). unfold contents, terminated. rewrite M, L, nlen_to in *. split.
  - rewrite firstn_app, Nat.sub_diag, firstn_O, firstn_all, app_nil_r. reflexivity.
  - split; [lia|]. split; [rewrite <- M; rewrite M; assumption|]. rewrite nth_error_app2, Nat.sub_diag by lia. reflexivity.
Qed.

Lemma poke_value m off b : off + nlen b <= nlen m ->
  poke m off b = Some (firstn (N.to_nat off) m ++ b ++ skipn (N.to_nat off + length b) m).
Proof. intros H. unfold poke. replace (_ <=? _) with true by lia. reflexivity. Qed.

Lemma poke_length m off b m' : poke m off b = Some m' -> nlen m' = nlen m.
Proof.
  unfold poke. destruct (N.leb_spec (off + nlen b) (nlen m)); [|discriminate]. intros [= <-].
  unfold nlen in *. rewrite !app_length, firstn_length, skipn_length. lia.
Qed.

(** Writing after a prefix *)
Lemma poke_prefix s t b r : (length b <= length t)%nat ->
  poke (s ++ t ++ r) (nlen s) b = Some (s ++ b ++ skipn (length b) t ++ r).
Proof.
  intros H. rewrite poke_value by (rewrite !nlen_app; unfold nlen; lia). rewrite nlen_to. f_equal.
  rewrite firstn_app, Nat.sub_diag, firstn_O, firstn_all, app_nil_r. f_equal. f_equal.
  rewrite skipn_app. rewrite skipn_all2 by lia. cbn [app]. replace (length s + length b - length s)%nat with (length b) by lia.
  rewrite skipn_app. replace (length b - length t)%nat with O by lia. reflexivity.
Qed.

Lemma flex_dstr c : c <= 2 ^ 62 -> c <= flex_size 8 16 1 c - 16 /\ flex_size 8 16 1 c <= ALLOC_MAX /\ 16 <= flex_size 8 16 1 c.
Proof.
  intros H. change 8 with (2 ^ 3). change (2 ^ 62) with 4611686018427387904 in *.
  rewrite flex_size_value; [|lia|reflexivity|reflexivity|rewrite W_value; lia].
  replace (_ <? W) with true by (rewrite W_value; change (2 ^ 3) with 8; lia).
  pose proof (round_up_ge (2 ^ 3) (16 + 1 * c) eq_refl). pose proof (round_up_lt (2 ^ 3) (16 + 1 * c) eq_refl).
  change (2 ^ 3) with 8 in *. rewrite ALLOC_MAX_value. lia.
Qed.

Lemma alloc_str_ok c a : c <= 2 ^ 62 ->
  match alloc_str c a with
  | None => a = None
  | Some m => c <= nlen m
  end.
Proof.
  intros H. destruct (flex_dstr c H) as (E & L & _). unfold alloc_str. change DSTR_OFFSET with 16.
  replace (ALLOC_MAX <? _) with false by lia. destruct a as [junk|]; [|reflexivity].
  unfold nlen. rewrite map_length, seq_length. lia.
Qed.

Lemma realloc_str_ok old c a : c <= 2 ^ 62 ->
  match realloc_str old c a with
  | None => a = None
  | Some m => c <= nlen m /\ forall k, N.of_nat k <= c -> (k <= length old)%nat -> firstn k m = firstn k old
  end.
Proof.
  intros H. destruct (flex_dstr c H) as (E & L & _). unfold realloc_str. change DSTR_OFFSET with 16.
  replace (ALLOC_MAX <? _) with false by lia. destruct a as [junk|]; [|reflexivity]. set (n := N.to_nat _).
  assert (N1 : c <= N.of_nat n) by lia. split.
  - unfold nlen. rewrite app_length, firstn_length, map_length, seq_length. lia.
  - intros k K1 K2. rewrite firstn_app, firstn_firstn, firstn_length.
    replace (k - Nat.min n (length old))%nat with O by lia. rewrite firstn_O, app_nil_r. f_equal. lia.
Qed.

Lemma setlen_ok c l0 m l : l < c -> c <= nlen m ->
  exists m', dstrsetlen (mkDstring c l0 m) l = Some (mkDstring c l m') /\ nlen m' = nlen m /\
    firstn (N.to_nat l) m' = firstn (N.to_nat l) m /\ exists r, m' = firstn (N.to_nat l) m ++ x00 :: r.
Proof.
  intros L C. unfold dstrsetlen. cbn [cap mem]. replace (l <? c) with true by lia.
  assert (B : l + nlen [x00] <= nlen m) by (change (nlen [x00]) with 1; lia).
  rewrite poke_value by exact B. eexists. split; [reflexivity|].
  assert (LF : length (firstn (N.to_nat l) m) = N.to_nat l) by (rewrite firstn_length; unfold nlen in *; lia).
  split; [apply (poke_length m l [x00]); apply poke_value; exact B|]. split.
  - rewrite firstn_app, firstn_firstn, LF, Nat.sub_diag, firstn_O, app_nil_r. f_equal. lia.
  - eexists. reflexivity.
Qed.

Lemma firstn_holds d s : holds d s -> forall k, (k <= length s)%nat -> firstn k (mem d) = firstn k s.
Proof. intros (_ & (r & ->) & _) k K. rewrite firstn_app. replace (k - length s)%nat with O by lia. rewrite firstn_O, app_nil_r. reflexivity. Qed.

Lemma alloc_impl_ok c s a : nlen s < c -> c <= 2 ^ 61 ->
  (dstralloc_impl c (nlen s) s a = Some None /\ a = None) \/
  exists d, dstralloc_impl c (nlen s) s a = Some (Some d) /\ holds d s /\ c <= cap d <= 2 ^ 62.
Proof.
  intros L C. unfold dstralloc_impl. change DSTR_OFFSET with 16.
  change (2 ^ 61) with 2305843009213693952 in *. change (2 ^ 62) with 4611686018427387904 in *.
  assert (C1 : c <= (if c <? 16 then 16 else c) <= 4611686018427387904) by (destruct (N.ltb_spec c 16); lia).
  set (c1 := if c <? 16 then 16 else c) in *. clearbody c1.
  pose proof (alloc_str_ok c1 a ltac:(change (2 ^ 62) with 4611686018427387904; lia)) as A. destruct (alloc_str c1 a) as [m|]; [|auto]. right.
  destruct (setlen_ok c1 0 m (nlen s) ltac:(lia) A) as (m' & -> & LM & _ & (r & R)). cbn [mem].
  rewrite nlen_to, firstn_all. rewrite poke_value by lia. eexists. split; [reflexivity|]. split; [|exact C1].
  assert (LF : length (firstn (N.to_nat (nlen s)) m) = length s) by (rewrite firstn_length; unfold nlen in *; lia).
  split; [reflexivity|]. cbn [mem len cap]. change (N.to_nat 0) with O. rewrite firstn_O. cbn [app]. split; [|split; [lia|]].
  - exists r. f_equal. rewrite R. rewrite skipn_app, LF. replace (0 + length s - length s)%nat with O by lia.
    rewrite skipn_all2 by lia. reflexivity.
  - rewrite nlen_app. replace (nlen s + nlen (skipn (0 + length s) m')) with (nlen m'); [lia|].
    unfold nlen in *. rewrite skipn_length. lia.
Qed.

(** The invariant *)
Definition inv (p : option dstring) (c : option (list byte)) : Prop :=
  match p, c with
  | None, None => True
  | Some d, Some s => holds d s /\ nlen s <= 2 ^ 60 /\ cap d <= 2 ^ 62
  | _, _ => False
  end.
Definition bytes (c : option (list byte)) : list byte := match c with Some s => s | None => [] end.

Lemma inv_contents p c : inv p c -> option_map contents p = c.
Proof. destruct p, c; cbn; try tauto. intros (H & _). f_equal. apply holds_contents. exact H. Qed.

Lemma reserve_ok p c n a : inv p c -> n <= 2 ^ 61 - 1 ->
  (dstreserve p n a = Some (p, false) /\ a = None) \/
  exists d, dstreserve p n a = Some (Some d, true) /\ inv (Some d) (Some (bytes c)) /\ n < cap d.
Proof.
  intros I B. assert (B' : n + 1 <= 2 ^ 61) by (change (2 ^ 61) with 2305843009213693952 in *; lia). clear B.
  assert (MW : (n + 1) mod W = n + 1).
  { apply N.mod_small. rewrite W_value. change (2 ^ 61) with 2305843009213693952 in *. lia. }
  unfold dstreserve. destruct p as [d|], c as [s|]; cbn [inv] in I; try contradiction.
  - destruct I as (H & SZ & C). rewrite MW. destruct (N.leb_spec (n + 1) (cap d)) as [L|L].
    + right. exists d. split; [reflexivity|]. cbn [inv bytes]. split; [auto|]. lia.
    + destruct (bit_ceil_ok 64 (n + 1) eq_refl) as (k & E & K1 & K2).
      { etransitivity; [exact B'|]. discriminate. }
      rewrite E. assert (K : 2 ^ k <= 2 ^ 62).
      { apply N.pow_le_mono_r; [lia|]. transitivity 61; [|lia]. apply K2. exact B'. }
      pose proof (realloc_str_ok (mem d) (2 ^ k) a K) as R. destruct (realloc_str (mem d) (2 ^ k) a) as [m|]; [|auto]. right.
      destruct R as [R1 R2]. eexists. split; [reflexivity|]. cbn [inv bytes cap]. split; [|lia].
      split; [|split; assumption]. destruct H as (L1 & (r & M) & L3 & L4). split; [exact L1|]. cbn [mem len cap]. split; [|split; [lia|exact R1]].
      pose proof (R2 (S (length s))) as R. rewrite M in R at 2. specialize (R ltac:(unfold nlen in *; lia)).
      assert (LM : (S (length s) <= length (mem d))%nat) by (rewrite M, app_length; cbn [length]; lia).
      specialize (R LM). rewrite firstn_app in R. rewrite (firstn_all2 s) in R by lia. replace (S (length s) - length s)%nat with 1%nat in R by lia.
      change (firstn 1 (x00 :: r)) with [x00] in R. exists (skipn (S (length s)) m). rewrite <- (firstn_skipn (S (length s)) m) at 1. rewrite R, <- app_assoc. reflexivity.
  - unfold dstralloc. rewrite MW. pose proof (alloc_impl_ok (n + 1) [] a) as A. change (nlen []) with 0 in A.
    destruct (A ltac:(lia) B') as [[-> ->]|(d & -> & H & C)]; [auto|]. right. exists d. split; [reflexivity|]. cbn [inv bytes].
    split; [|lia]. split; [exact H|]. split; [discriminate|lia].
Qed.

Lemma resize_ok p c n a : inv p c -> n <= 2 ^ 60 ->
  (dstresize p n a = Some (p, false) /\ a = None) \/
  exists d s, dstresize p n a = Some (Some d, true) /\ inv (Some d) (Some s) /\ nlen s = n /\
    let k := N.to_nat (N.min n (nlen (bytes c))) in firstn k s = firstn k (bytes c).
Proof.
  intros I B. unfold dstresize.
  assert (B' : n <= 2 ^ 61 - 1) by (etransitivity; [exact B|discriminate]).
  destruct (reserve_ok p c n a I B') as [[-> ->]|(d & -> & (H & SZ & C) & L)]; [left; split; [destruct p; reflexivity|reflexivity]|]. right.
  destruct d as [cp l0 m]. cbn [cap] in *. pose proof H as (E1 & (r & M) & E3 & E4). cbn [len mem cap] in *.
  destruct (setlen_ok cp l0 m n L E4) as (m' & -> & LM & F & (r' & R)).
  exists (mkDstring cp n m'), (firstn (N.to_nat n) m). split; [reflexivity|].
  assert (LN : nlen (firstn (N.to_nat n) m) = n) by (unfold nlen in *; rewrite firstn_length; lia).
  split; [|split; [exact LN|]].
  - cbn [inv]. split; [|split; [rewrite LN; exact B|exact C]]. split; [symmetry; exact LN|]. cbn [mem len cap].
    split; [exists r'; exact R|]. split; [exact L|lia].
  - cbn zeta. rewrite firstn_firstn. replace (Nat.min _ _) with (N.to_nat (N.min n (nlen (bytes c)))) by lia.
    apply (firstn_holds _ _ H). unfold nlen. lia.
Qed.

Lemma store_ok d s t pre : inv (Some d) (Some s) -> (exists k, firstn k s = pre /\ length pre = k) -> nlen s = nlen pre + nlen t ->
  exists d', dstrstore d (nlen pre) t = Some (Some d', true) /\ inv (Some d') (Some (pre ++ t)).
Proof.
  intros (H & SZ & C) (k & P & K) L. destruct H as (E1 & (r & M) & E3 & E4). unfold dstrstore.
  assert (SP : s = pre ++ skipn k s) by (rewrite <- P; symmetry; apply firstn_skipn).
  assert (LT : length (skipn k s) = length t) by (rewrite skipn_length; unfold nlen in *; lia).
  rewrite M, SP, <- app_assoc, poke_prefix by lia. rewrite skipn_all2 by lia. cbn [app].
  eexists. split; [reflexivity|]. cbn [inv]. split; [|split; [rewrite nlen_app, <- L; exact SZ|exact C]].
  split; [cbn [len]; rewrite nlen_app; lia|]. cbn [mem len cap]. split; [exists r; rewrite <- app_assoc; reflexivity|]. split; [exact E3|].
  rewrite M in E4. rewrite !nlen_app in *. lia.
Qed.

Lemma xcat_ok d s t a : inv (Some d) (Some s) -> nlen s + nlen t <= 2 ^ 60 ->
  (dstrxcat (Some d) t a = Some (Some d, false) /\ a = None) \/
  exists d', dstrxcat (Some d) t a = Some (Some d', true) /\ inv (Some d') (Some (s ++ t)).
Proof.
  intros I B. unfold dstrxcat. pose proof I as (H & _). destruct H as (E1 & _). rewrite E1.
  rewrite N.mod_small by (rewrite W_value; change (2 ^ 60) with 1152921504606846976 in *; lia).
  destruct (resize_ok (Some d) (Some s) (nlen s + nlen t) a I B) as [[-> ->]|(d' & s' & -> & I' & L & F)]; [auto|]. right.
  cbn [bytes] in F. replace (N.to_nat _) with (length s) in F by (unfold nlen; lia). rewrite firstn_all in F.
  apply (store_ok d' s' t s I'); [|exact L]. exists (length s). auto.
Qed.

Lemma xcpy_ok p c t a : inv p c -> nlen t <= 2 ^ 60 ->
  (dstrxcpy p t a = Some (p, false) /\ a = None) \/
  exists d', dstrxcpy p t a = Some (Some d', true) /\ inv (Some d') (Some t).
Proof.
  intros I B. unfold dstrxcpy.
  destruct (resize_ok p c (nlen t) a I B) as [[-> ->]|(d' & s' & -> & I' & L & F)]; [left; split; [destruct p; reflexivity|reflexivity]|]. right.
  destruct (store_ok d' s' t [] I') as (d2 & E & I2); [exists O; auto|rewrite L; reflexivity|]. exists d2. auto.
Qed.

Lemma shrink_ok d s n : inv (Some d) (Some s) -> n <= nlen s ->
  exists d', dstrshrink (Some d) n = Some (Some d', true) /\ inv (Some d') (Some (firstn (N.to_nat n) s)).
Proof.
  intros (H & SZ & C) L. unfold dstrshrink. pose proof H as (E1 & (r & M) & E3 & E4). replace (n <=? len d) with true by lia.
  destruct d as [cp l0 m]. cbn [len cap mem] in *.
  destruct (setlen_ok cp l0 m n ltac:(lia) E4) as (m' & -> & LM & F & (r' & R)). eexists. split; [reflexivity|].
  assert (FE : firstn (N.to_nat n) m = firstn (N.to_nat n) s) by (apply (firstn_holds _ _ H); unfold nlen in L; lia).
  assert (LN : nlen (firstn (N.to_nat n) s) = n) by (unfold nlen in *; rewrite firstn_length; lia).
  cbn [inv]. split; [|split; [rewrite LN; lia|exact C]]. split; [symmetry; exact LN|]. cbn [mem len cap].
  split; [exists r'; rewrite R, FE; reflexivity|]. split; lia.
Qed.

(** Formatting *)
Lemma poke_tail d s off b : holds d s -> off = nlen s -> nlen b <= cap d - nlen s ->
  exists m, poke (mem d) off b = Some m /\ nlen m = nlen (mem d) /\ firstn (length (s ++ b)) m = s ++ b.
Proof.
  intros (E1 & (r & M) & E3 & E4) -> L.
  assert (B : nlen s + nlen b <= nlen (mem d)) by lia.
  rewrite poke_value by exact B. eexists. split; [reflexivity|]. split; [apply (poke_length (mem d) (nlen s) b), poke_value, B|].
  rewrite nlen_to. assert (F : firstn (length s) (mem d) = s) by (rewrite M, firstn_app, Nat.sub_diag, firstn_O, firstn_all, app_nil_r; reflexivity).
  rewrite F, app_assoc, firstn_app, firstn_all, Nat.sub_diag, firstn_O, app_nil_r. reflexivity.
Qed.

(** A string whose terminator may be overwritten *)
Definition torn (d : dstring) (s : list byte) : Prop :=
  len d = nlen s /\ firstn (length s) (mem d) = s /\ len d < cap d /\ cap d <= nlen (mem d) /\ cap d <= 2 ^ 62 /\ nlen s <= 2 ^ 60.

Lemma torn_of d s : inv (Some d) (Some s) -> torn d s.
Proof.
  intros (H & SZ & C). pose proof H as (E1 & (r & M) & E3 & E4). split; [exact E1|].
  split; [rewrite (firstn_holds _ _ H) by lia; apply firstn_all|]. auto.
Qed.

Lemma torn_poke d s b : torn d s -> nlen b <= cap d - nlen s ->
  exists m, poke (mem d) (nlen s) b = Some m /\ nlen m = nlen (mem d) /\ m = s ++ b ++ skipn (length s + length b) (mem d).
Proof.
  intros (E1 & F & E3 & E4 & _) L.
  assert (B : nlen s + nlen b <= nlen (mem d)) by lia.
  rewrite poke_value by exact B. eexists. split; [reflexivity|]. split; [apply (poke_length (mem d) (nlen s) b), poke_value, B|].
  rewrite nlen_to, F. reflexivity.
Qed.

Lemma firstn_app_l {A} (s r : list A) : firstn (length s) (s ++ r) = s.
Proof. rewrite firstn_app, Nat.sub_diag, firstn_O, firstn_all, app_nil_r. reflexivity. Qed.

Lemma printed_torn d s size r : torn d s -> size <= cap d - nlen s ->
  exists d', vsnprintf d (nlen s) size r = Some d' /\ torn d' s /\ cap d' = cap d /\
    (forall t, r = Text t -> nlen t < size -> exists rest, mem d' = s ++ t ++ x00 :: rest).
Proof.
  intros T L. unfold vsnprintf.
  set (b := match r with Text s0 => firstn (N.to_nat (size - 1)) s0 ++ [x00] | Failed s0 => firstn (N.to_nat size) s0 end).
  assert (LB : nlen (if size =? 0 then [] else b) <= cap d - nlen s).
  { destruct (N.eqb_spec size 0); [cbn; lia|]. etransitivity; [|exact L]. unfold b, nlen.
    destruct r; [rewrite app_length, firstn_length; cbn [length]|rewrite firstn_length]; lia. }
  destruct (torn_poke d s _ T LB) as (m & -> & LM & M). eexists. split; [reflexivity|].
  split; [|split; [reflexivity|]].
  - destruct T as (E1 & F & E3 & E4 & E5 & E6). split; [exact E1|]. cbn [mem len cap]. split; [rewrite M; apply firstn_app_l|].
    split; [exact E3|]. split; [lia|]. auto.
  - intros t -> LT. cbn [mem]. rewrite M. unfold b. replace (size =? 0) with false by lia.
    rewrite (firstn_all2 t) by (unfold nlen in LT; lia). eexists. rewrite <- !app_assoc. reflexivity.
Qed.

Lemma fail_ok d s : torn d s -> exists d', catf_fail d (nlen s) = Some (Some d', false) /\ inv (Some d') (Some s).
Proof.
  intros T. unfold catf_fail. destruct (torn_poke d s [x00] T) as (m & -> & LM & M).
  { destruct T as (E1 & _ & E3 & _). change (nlen [x00]) with 1. lia. }
  eexists. split; [reflexivity|]. destruct T as (E1 & F & E3 & E4 & E5 & E6). cbn [inv]. split; [|auto].
  split; [exact E1|]. cbn [mem len cap]. split; [eexists; exact M|]. split; [exact E3|lia].
Qed.

Lemma torn_reserve d s n a : torn d s -> n <= 2 ^ 61 - 1 ->
  (dstreserve (Some d) n a = Some (Some d, false) /\ a = None) \/
  exists d', dstreserve (Some d) n a = Some (Some d', true) /\ torn d' s /\ n < cap d'.
Proof.
  intros (E1 & F & E3 & E4 & E5 & E6) B. assert (B' : n + 1 <= 2 ^ 61) by (change (2 ^ 61) with 2305843009213693952 in *; lia). clear B.
  unfold dstreserve. rewrite N.mod_small by (rewrite W_value; change (2 ^ 61) with 2305843009213693952 in *; lia).
  destruct (N.leb_spec (n + 1) (cap d)) as [L|L].
  - right. exists d. split; [reflexivity|]. split; [repeat (split; [assumption|]); assumption|lia].
  - destruct (bit_ceil_ok 64 (n + 1) eq_refl) as (k & E & K1 & K2).
    { etransitivity; [exact B'|]. discriminate. }
    rewrite E. assert (K : 2 ^ k <= 2 ^ 62).
    { apply N.pow_le_mono_r; [lia|]. transitivity 61; [|lia]. apply K2. exact B'. }
    pose proof (realloc_str_ok (mem d) (2 ^ k) a K) as R. destruct (realloc_str (mem d) (2 ^ k) a) as [m|]; [|auto]. right.
    destruct R as [R1 R2]. eexists. split; [reflexivity|]. cbn [cap]. split; [|lia].
    split; [exact E1|]. cbn [mem len cap]. split; [|split; [lia|split; [exact R1|split; assumption]]].
    rewrite R2; [exact F|unfold nlen in *; lia|unfold nlen in *; lia].
Qed.

Lemma done_ok d s t rest : torn d s -> mem d = s ++ t ++ x00 :: rest -> nlen s + nlen t < cap d -> nlen s + nlen t <= 2 ^ 60 ->
  inv (Some (mkDstring (cap d) (len d + nlen t) (mem d))) (Some (s ++ t)).
Proof.
  intros (E1 & F & E3 & E4 & E5 & E6) M L B. cbn [inv]. rewrite nlen_app. split; [|auto].
  split; [cbn [len]; rewrite nlen_app; lia|]. cbn [mem len cap]. split; [exists rest; rewrite M, <- app_assoc; reflexivity|]. split; [lia|exact E4].
Qed.

Lemma catf_ok d s fmt r1 r2 a1 a2 : inv (Some d) (Some s) -> nlen s + 2 * fmt <= 2 ^ 60 ->
  match r1 with
  | Failed _ => True
  | Text t => nlen s + nlen t <= 2 ^ 60 /\ match r2 with Text t' => t' = t | Failed _ => True end
  end ->
  ((exists d', dstrvcatf (Some d) fmt r1 r2 a1 a2 = Some (Some d', false) /\ inv (Some d') (Some s)) /\ refused (Format fmt r1 r2 a1 a2)) \/
  exists d' t, dstrvcatf (Some d) fmt r1 r2 a1 a2 = Some (Some d', true) /\ r1 = Text t /\ inv (Some d') (Some (s ++ t)).
Proof.
  intros I B1 B2. unfold dstrvcatf. pose proof I as ((E1 & _) & _). rewrite E1.
  change (2 ^ 60) with 1152921504606846976 in *.
  rewrite (N.mod_small (nlen s + 2 * fmt)) by (rewrite W_value; lia).
  assert (R : exists d1 b, dstreserve (Some d) (nlen s + 2 * fmt) a1 = Some (Some d1, b) /\ torn d1 s).
  { destruct (reserve_ok (Some d) (Some s) (nlen s + 2 * fmt) a1 I) as [[-> ->]|(d1 & -> & I1 & _)].
    - change (2 ^ 61) with 2305843009213693952. lia.
    - exists d, false. split; [reflexivity|]. apply torn_of, I.
    - exists d1, true. split; [reflexivity|]. apply torn_of, I1. }
  destruct R as (d1 & b & -> & T).
  assert (TC : (cap d1 + W - nlen s) mod W = cap d1 - nlen s).
  { pose proof T as (L1 & _ & L3 & _ & L5 & _). replace (cap d1 + W - nlen s) with (cap d1 - nlen s + 1 * W) by lia.
    rewrite N.mod_add by discriminate. apply N.mod_small. rewrite W_value. change (2 ^ 62) with 4611686018427387904 in L5. lia. }
  rewrite TC. destruct (printed_torn d1 s (cap d1 - nlen s) r1 T (N.le_refl _)) as (d2 & -> & T2 & C2 & P2).
  destruct r1 as [t|junk].
  - destruct B2 as [B2 B3]. destruct (N.leb_spec (cap d1 - nlen s) (nlen t)) as [FULL|FITS].
    + rewrite (N.mod_small (nlen s + nlen t)) by (rewrite W_value; lia).
      destruct (torn_reserve d2 s (nlen s + nlen t) a2 T2) as [[-> ->]|(d3 & -> & T3 & C3)].
      * change (2 ^ 61) with 2305843009213693952. lia.
      * left. split; [apply fail_ok; exact T2|]. cbn. auto.
      * destruct (printed_torn d3 s (nlen t + 1) r2 T3) as (d4 & -> & T4 & C4 & P4); [lia|].
        destruct r2 as [t2|junk]; [|left; split; [apply fail_ok; exact T4|cbn; eauto]]. subst t2. rewrite N.eqb_refl. right.
        destruct (P4 t eq_refl ltac:(lia)) as (rest & M). eexists _, t. split; [reflexivity|]. split; [reflexivity|].
        apply (done_ok d4 s t rest T4 M); [rewrite C4; exact C3|change (2 ^ 60) with 1152921504606846976; lia].
    + right. destruct (P2 t eq_refl FITS) as (rest & M). eexists _, t. split; [reflexivity|]. split; [reflexivity|].
      apply (done_ok d2 s t rest T2 M); [rewrite C2; lia|change (2 ^ 60) with 1152921504606846976; lia].
  - left. split; [apply fail_ok; exact T2|]. cbn. eauto.
Qed.

Lemma escape_ok lc shell p c t a1 a2 : inv p c -> nlen (bytes c) + 4 * nlen t + 3 <= 2 ^ 60 ->
  (dstrnescat lc shell p t a1 a2 = Some (p, false) /\ a1 = None) \/
  exists d' q sp, dstrnescat lc shell p t a1 a2 = Some (Some d', true) /\
    wordnesc lc shell ([], 4 * length t + 4)%nat t = (q, S sp) /\ inv (Some d') (Some (bytes c ++ q)).
Proof.
  intros I B. unfold dstrnescat.
  assert (E0 : match p with Some d => len d | None => 0 end = nlen (bytes c)).
  { destruct p, c; cbn in I; try contradiction; [destruct I as ((E & _) & _); exact E|reflexivity]. }
  rewrite E0. change (2 ^ 60) with 1152921504606846976 in *. set (l0 := nlen (bytes c)) in *.
  rewrite N.mod_small by (rewrite W_value; lia).
  destruct (reserve_ok p c (l0 + 4 * nlen t + 3) a1 I) as [[-> ->]|(d & -> & I1 & L)].
  - change (2 ^ 61) with 2305843009213693952. lia.
  - left. split; [destruct p; reflexivity|reflexivity].
  - replace (N.to_nat (l0 + 4 * nlen t + 3 + 1 - l0)) with (4 * length t + 4)%nat by (unfold nlen; lia).
    destruct (wordnesc_fits lc shell [] (4 * length t + 4) t ltac:(lia)) as (q & E & Q). cbn [app] in E. rewrite E.
    destruct (torn_poke d (bytes c) (q ++ [x00]) (torn_of _ _ I1)) as (m & PE & LM & M).
    { fold l0. rewrite nlen_app. change (nlen [x00]) with 1. unfold nlen in *. lia. }
    fold l0 in PE. rewrite PE.
    replace (Nat.eqb _ 0) with false by lia.
    assert (I2 : inv (Some (mkDstring (cap d) (l0 + nlen q) m)) (Some (bytes c ++ q))).
    { destruct I1 as ((H1 & H2 & H3 & H4) & S1 & C1). cbn [inv]. rewrite nlen_app. fold l0. split.
      - split; [cbn [len]; rewrite nlen_app; reflexivity|]. cbn [mem len cap]. split.
        + eexists. rewrite M. rewrite <- !app_assoc. reflexivity.
        + split; [unfold nlen in *; lia|lia].
      - split; [unfold nlen in *; change (2 ^ 60) with 1152921504606846976; lia|exact C1]. }
    right. unfold dstresize, dstreserve. cbn [cap mem].
    rewrite N.mod_small by (rewrite W_value; unfold nlen in *; lia).
    replace (l0 + nlen q + 1 <=? cap d) with true by (unfold nlen in *; lia).
    destruct I2 as ((H1 & (r & H2) & H3 & H4) & S1 & C1). cbn [len mem cap] in *.
    destruct (setlen_ok (cap d) (len d) m (l0 + nlen q) H3 H4) as (m' & -> & LM' & F & (r' & R)).
    eexists _, q, (4 * length t + 3 - length q)%nat. split; [reflexivity|]. split; [f_equal; lia|].
    cbn [inv]. split; [|split; assumption]. split; [exact H1|]. cbn [mem len cap]. split; [|split; [exact H3|lia]].
    exists r'. rewrite R. f_equal. rewrite H1, nlen_to, H2. apply firstn_app_l.
Qed.

(** ** Every operation *)
Theorem run_ok l o p c : inv p c -> allowed o c ->
  exists p' ok c', run l o p = Some (p', ok) /\ inv p' c' /\
    (ok = false -> c' = c /\ refused o) /\ (ok = true -> exists s, c' = Some s /\ effect l o c s).
Proof.
  intros I A. destruct o as [n a|t a|n a|n a|n|t a|t a|fmt r1 r2 a1 a2|shell t a1 a2]; cbn [run allowed effect] in *.
  - destruct A as [-> B]. destruct p; [contradiction|]. unfold dstralloc. change (2 ^ 60) with 1152921504606846976 in *.
    rewrite N.mod_small by (rewrite W_value; lia). pose proof (alloc_impl_ok (n + 1) [] a) as X. change (nlen []) with 0 in X.
    change (2 ^ 61) with 2305843009213693952 in X.
    destruct (X ltac:(lia) ltac:(lia)) as [[-> ->]|(d & -> & H & C)].
    + exists None, false, None. repeat split; auto; try reflexivity; discriminate.
    + exists (Some d), true, (Some []). split; [reflexivity|]. split; [split; [exact H|split; [discriminate|apply C]]|]. split; [discriminate|eauto].
  - destruct A as [-> B]. destruct p; [contradiction|]. unfold dstrxdup. change (2 ^ 60) with 1152921504606846976 in *.
    rewrite N.mod_small by (rewrite W_value; lia). pose proof (alloc_impl_ok (nlen t + 1) t a) as X.
    change (2 ^ 61) with 2305843009213693952 in X.
    destruct (X ltac:(lia) ltac:(lia)) as [[-> ->]|(d & -> & H & C)].
    + exists None, false, None. repeat split; auto; try reflexivity; discriminate.
    + exists (Some d), true, (Some t). split; [reflexivity|]. split; [split; [exact H|split; [exact B|apply C]]|]. split; [discriminate|eauto].
  - destruct (reserve_ok p c n a I) as [[-> ->]|(d & -> & I' & _)].
    + etransitivity; [exact A|]. discriminate.
    + exists p, false, c. repeat split; auto; try reflexivity; discriminate.
    + exists (Some d), true, (Some (bytes c)). split; [reflexivity|]. split; [exact I'|]. split; [discriminate|]. intros _. eexists. split; reflexivity.
  - destruct (resize_ok p c n a I A) as [[-> ->]|(d & s & -> & I' & L & F)].
    + exists p, false, c. repeat split; auto; try reflexivity; discriminate.
    + exists (Some d), true, (Some s). split; [reflexivity|]. split; [exact I'|]. split; [discriminate|]. intros _. exists s. auto.
  - destruct A as [NZ L]. destruct p as [d|], c as [s|]; cbn in I; try contradiction.
    destruct (shrink_ok d s n I L) as (d' & -> & I'). eexists _, _, _. split; [reflexivity|]. split; [exact I'|]. split; [discriminate|eauto].
  - destruct A as [NZ B]. destruct p as [d|], c as [s|]; cbn in I; try contradiction; try congruence.
    destruct (xcat_ok d s t a I B) as [[-> ->]|(d' & -> & I')].
    + exists (Some d), false, (Some s). repeat split; auto; try apply I; discriminate.
    + eexists _, _, _. split; [reflexivity|]. split; [exact I'|]. split; [discriminate|eauto].
  - destruct (xcpy_ok p c t a I A) as [[-> ->]|(d' & -> & I')].
    + exists p, false, c. repeat split; auto; try reflexivity; discriminate.
    + eexists _, _, _. split; [reflexivity|]. split; [exact I'|]. split; [discriminate|eauto].
  - destruct A as (NZ & B1 & B2). destruct p as [d|], c as [s|]; cbn in I; try contradiction; try congruence.
    destruct (catf_ok d s fmt r1 r2 a1 a2 I B1 B2) as [[(d' & -> & I') RF]|(d' & t & -> & -> & I')].
    + eexists _, _, _. split; [reflexivity|]. split; [exact I'|]. split; [auto|discriminate].
    + eexists _, _, _. split; [reflexivity|]. split; [exact I'|]. split; [discriminate|]. intros _. eauto.
  - destruct (escape_ok l shell p c t a1 a2 I A) as [[-> ->]|(d' & q & sp & -> & E & I')].
    + exists p, false, c. repeat split; auto; try reflexivity; discriminate.
    + eexists _, _, _. split; [reflexivity|]. split; [exact I'|]. split; [discriminate|]. intros _. eexists. split; [reflexivity|]. eauto.
Qed.

Lemma history_inv l p : history l p -> exists c, inv p c.
Proof.
  induction 1 as [|o p p' ok H [c IH] A E]; [exists None; exact I|].
  rewrite (inv_contents p c IH) in A. destruct (run_ok l o p c IH A) as (p1 & ok1 & c1 & E1 & I1 & _).
  rewrite E1 in E. injection E as <- <-. eauto.
Qed.

Theorem history_terminated l d : history l (Some d) -> terminated d.
Proof. intros H. destruct (history_inv l _ H) as ([s|] & I); [|contradiction]. destruct I as (I & _). apply (holds_contents d s I). Qed.

Theorem history_run l p o : history l p -> allowed o (option_map contents p) ->
  (exists d, run l o p = Some (Some d, true) /\ effect l o (option_map contents p) (contents d)) \/
  (exists p', run l o p = Some (p', false) /\ option_map contents p' = option_map contents p /\ refused o).
Proof.
  intros H A. destruct (history_inv l p H) as (c & I). rewrite (inv_contents p c I) in *.
  destruct (run_ok l o p c I A) as (p' & [|] & c' & E & I' & F & T).
  - left. destruct (T eq_refl) as (s & -> & EF). destruct p' as [d|]; [|contradiction]. exists d. split; [exact E|].
    pose proof (inv_contents _ _ I') as X. cbn in X. injection X as ->. exact EF.
  - right. exists p'. split; [exact E|]. rewrite (inv_contents _ _ I'). destruct (F eq_refl) as [-> RF]. auto.
Qed.

(** Repetition *)
Lemma repeat_loop_ok t n : forall a d s, inv (Some d) (Some s) -> nlen s + N.of_nat n * nlen t <= 2 ^ 60 ->
  (repeat_loop t n a (Some d) = Some (None, false) /\ exists i, a i = None) \/
  exists d', repeat_loop t n a (Some d) = Some (Some d', true) /\ inv (Some d') (Some (s ++ concat (repeat t n))).
Proof.
  induction n as [|n IH]; intros a d s I B; cbn [repeat_loop repeat concat].
  - right. exists d. rewrite app_nil_r. auto.
  - destruct (xcat_ok d s t (a n) I) as [[-> E]|(d' & -> & I')]; [lia|left; eauto|].
    destruct (IH a d' (s ++ t) I') as [[-> E]|(d2 & -> & I2)]; [rewrite nlen_app; lia|auto|].
    right. exists d2. rewrite <- app_assoc in I2. auto.
Qed.

Theorem repeat_ok t n a0 a : n * nlen t <= 2 ^ 60 ->
  (dstrepeat t n a0 a = Some (None, false) /\ (a0 = None \/ exists i, a i = None)) \/
  exists d, dstrepeat t n a0 a = Some (Some d, true) /\ terminated d /\ contents d = concat (repeat t (N.to_nat n)).
Proof.
  intros B. unfold dstrepeat, dstralloc. assert (B2 : n * nlen t <= 1152921504606846976) by exact B.
  rewrite (N.mod_small (n * nlen t)) by (rewrite W_value; lia). rewrite N.mod_small by (rewrite W_value; lia).
  pose proof (alloc_impl_ok (n * nlen t + 1) [] a0) as X. change (nlen []) with 0 in X. change (2 ^ 61) with 2305843009213693952 in X.
  destruct (X ltac:(lia) ltac:(lia)) as [[-> ->]|(d & -> & H & C)]; [auto|].
  destruct (repeat_loop_ok t (N.to_nat n) a d []) as [[-> E]|(d' & -> & I')].
  - split; [exact H|]. split; [discriminate|apply C].
  - rewrite N2Nat.id. exact B.
  - auto.
  - right. exists d'. split; [reflexivity|]. destruct I' as (I' & _). cbn [app] in I'. destruct (holds_contents _ _ I'). auto.
Qed.

Theorem vprintf_ok fmt r1 r2 a0 a1 a2 : 2 * fmt <= 2 ^ 60 ->
  match r1 with
  | Failed _ => True
  | Text t => nlen t <= 2 ^ 60 /\ match r2 with Text t' => t' = t | Failed _ => True end
  end ->
  dstrvprintf fmt r1 r2 a0 a1 a2 = Some (None, false) \/
  exists d t, dstrvprintf fmt r1 r2 a0 a1 a2 = Some (Some d, true) /\ r1 = Text t /\ terminated d /\ contents d = t.
Proof.
  intros B R. unfold dstrvprintf, dstralloc. assert (B2 : 2 * fmt <= 1152921504606846976) by exact B.
  rewrite (N.mod_small (2 * fmt)) by (rewrite W_value; lia). rewrite N.mod_small by (rewrite W_value; lia).
  pose proof (alloc_impl_ok (2 * fmt + 1) [] a0) as X. change (nlen []) with 0 in X. change (2 ^ 61) with 2305843009213693952 in X.
  destruct (X ltac:(lia) ltac:(lia)) as [[-> ->]|(d & -> & H & C)]; [auto|].
  assert (I0 : inv (Some d) (Some [])) by (split; [exact H|split; [discriminate|apply C]]).
  destruct (catf_ok d [] fmt r1 r2 a1 a2 I0) as [[(d' & -> & I') _]|(d' & t & -> & -> & I')].
  - change (nlen []) with 0. lia.
  - destruct r1; [|exact R]. change (nlen []) with 0. exact R.
  - auto.
  - right. exists d', t. destruct I' as (I' & _). cbn [app] in I'. destruct (holds_contents _ _ I'). auto.
Qed.

Theorem append_all_ok l : forall lc d, history lc (Some d) -> nlen (contents d) + total l <= 2 ^ 60 ->
  exists d', append_all l (Some d) = Some (Some d') /\ history lc (Some d') /\
    ((forall x, In x l -> granted x = true) -> contents d' = contents d ++ concat (map fst l)).
Proof.
  induction l as [|[t a] l IH]; intros lc d H B; cbn [append_all total map fst concat] in *.
  - exists d. rewrite app_nil_r. auto.
  - assert (A : allowed (Append t a) (option_map contents (Some d))).
    { cbn. split; [discriminate|]. lia. }
    destruct (history_run lc (Some d) (Append t a) H A) as [(d1 & R & E)|(p1 & R & E & RF)].
    + pose proof (ran lc (Append t a) _ _ _ H A R) as H1. cbn [run] in R. rewrite R. cbn in E.
      destruct (IH lc d1 H1) as (d' & E' & H' & G); [rewrite E, nlen_app; lia|]. exists d'. split; [exact E'|]. split; [exact H'|].
      intros X. rewrite G by (intros x Hx; apply X; right; exact Hx). rewrite E, <- app_assoc. reflexivity.
    + pose proof (ran lc (Append t a) _ _ _ H A R) as H1. cbn [run] in R. rewrite R. destruct p1 as [d1|]; [|discriminate]. cbn in E. injection E as E.
      destruct (IH lc d1 H1) as (d' & E' & H' & G); [rewrite E; lia|]. exists d'. split; [exact E'|]. split; [exact H'|].
      intros X. specialize (X (t, a) (or_introl eq_refl)). cbn in RF. subst a. discriminate.
Qed.
