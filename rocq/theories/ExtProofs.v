(** * Which extension's color is chosen *)
From Coq Require Import List NArith Arith Bool Init.Byte Lia ZifyNat ZifyN ZifyBool.
From Verif Require Import TrieModel TrieSpec TrieBits TrieRefine ExtModel ExtSpec ExtTrie.
Import ListNotations.
Local Open Scope nat_scope.

(** ** Prefixes *)
Lemma prefix_trans {T} (a b c : list T) : prefix a b -> prefix b c -> prefix a c.
Proof. intros [x ->] [y ->]. exists (x ++ y). symmetry. apply app_assoc. Qed.
Lemma prefix_both {T} (a : list T) : forall b q, prefix a q -> prefix b q -> length a <= length b -> prefix a b.
Proof.
  induction a as [|x a IH]; intros b q [c ->] [d E] L; [exists b; reflexivity|].
  destruct b as [|y b]; [cbn in L; lia|]. cbn in E. injection E as <- E. cbn in L.
  destruct (IH b (a ++ c)) as [e ->]; [exists c; reflexivity|exists d; exact E|lia|]. exists e. reflexivity.
Qed.
Lemma prefix_len {T} (a b : list T) : prefix a b -> length a <= length b.
Proof. intros [c ->]. rewrite app_length. lia. Qed.
Lemma prefix_rev (a b : list byte) : prefix (rev a) (rev b) <-> suffix a b.
Proof.
  split; intros [c E].
  - exists (rev c). apply (f_equal (@rev _)) in E. rewrite rev_app_distr, !rev_involutive in E. exact E.
  - exists (rev c). rewrite E. apply rev_app_distr.
Qed.
Lemma suffix_skipn k m name : length k <= length name - m -> suffix k (skipn m name) <-> suffix k name.
Proof.
  intros L. split; intros [c E].
  - exists (firstn m name ++ c). rewrite <- app_assoc, <- E. symmetry. apply firstn_skipn.
  - subst name. rewrite app_length in L. exists (skipn m c). rewrite skipn_app.
    destruct (Nat.le_gt_cases m (length c)) as [Le|Gt].
    + replace (m - length c) with 0 by lia. reflexivity.
    + replace k with (@nil byte) by (destruct k; [reflexivity|cbn in L; lia]). rewrite skipn_nil. reflexivity.
Qed.

(** ** Case *)
Lemma tolower_lower c : tolower c = lower_letter c.
Proof. destruct c; reflexivity. Qed.
Lemma tolower_is s : map tolower s = lower s.
Proof. apply map_ext, tolower_lower. Qed.
Lemma tolower_nul c : tolower c = x00 -> c = x00.
Proof. destruct c; vm_compute; congruence. Qed.
Lemma lower_nul s : nul_free s -> nul_free (lower s).
Proof. rewrite <- tolower_is. intros N I. apply in_map_iff in I. destruct I as (c & E & I). apply tolower_nul in E. subst. exact (N I). Qed.

(** ** Inserting in order *)
Definition item := (list byte * N)%type.
Fixpoint surv (L : list item) : list item :=
  match L with
  | [] => []
  | x :: L => if existsb (fun y => prefixb (fst y) (fst x)) L then surv L else x :: surv L
  end.
Lemma without_surv_app s A B : without s (A ++ B) = without s A ++ without s B.
Proof. apply filter_app. Qed.
Lemma surv_snoc L s p : surv (L ++ [(s, p)]) = without s (surv L) ++ [(s, p)].
Proof.
  induction L as [|[k q] L IH]; [reflexivity|]. cbn [app surv]. rewrite existsb_app. cbn [existsb fst].
  rewrite orb_false_r, IH. destruct (existsb (fun y => prefixb (fst y) k) L); [reflexivity|]. cbn [orb without filter]. fold (without s (surv L)).
  destruct (prefixb s k); reflexivity.
Qed.
Lemma surv_sub L x : In x (surv L) -> In x L.
Proof.
  induction L as [|y L IH]; [intros []|]. cbn [surv]. destruct (existsb (fun z => prefixb (fst z) (fst y)) L); [right; auto|].
  intros [->|I]; [left; reflexivity|right; auto].
Qed.
(** Increasing pointers *)
Fixpoint inc (l : list N) : Prop := match l with [] => True | x :: l => (forall y, In y l -> (x < y)%N) /\ inc l end.
Lemma surv_some L q : (exists x, In x L /\ prefix (fst x) q) -> exists x, In x (surv L) /\ prefix (fst x) q.
Proof.
  induction L as [|y L IH]; intros (x & I & P); [destruct I|]. cbn [surv].
  destruct (existsb (fun z => prefixb (fst z) (fst y)) L) eqn:X.
  - apply IH. destruct I as [->|I]; [|eauto]. apply existsb_exists in X. destruct X as (z & Iz & Pz). apply prefixb_ok in Pz.
    exists z. split; [exact Iz|]. eapply prefix_trans; eauto.
  - destruct I as [->|I]; [exists x; split; [left; reflexivity|exact P]|].
    destruct IH as (z & Iz & Pz); [eauto|]. exists z. split; [right; exact Iz|exact Pz].
Qed.
(** The longest match is the last one. *)
Lemma longest_last L q : inc (map snd L) -> forall s p, In (s, p) (surv L) -> prefix s q ->
  (forall s' p', In (s', p') (surv L) -> prefix s' q -> length s' <= length s) ->
  forall s' p', In (s', p') L -> prefix s' q -> (p' <= p)%N.
Proof.
  induction L as [|[k r] L IH]; intros Inc s p I P M s' p' I' P'; [destruct I|]. cbn [surv fst] in *.
  cbn in Inc. destruct Inc as [In1 Inc].
  assert (Lt : forall a b, In (a, b) L -> (r < b)%N) by (intros a b Ia; apply In1; apply in_map_iff; exists (a, b); auto).
  destruct (existsb (fun z => prefixb (fst z) k) L) eqn:X.
  - destruct I' as [E|I']; [injection E as <- <-|eauto]. apply existsb_exists in X. destruct X as ([a b] & Iz & Pz). apply prefixb_ok in Pz.
    cbn in Pz. assert (b <= p)%N by (eapply (IH Inc s p I P M a b Iz); eapply prefix_trans; eauto). specialize (Lt a b Iz). lia.
  - destruct I as [E|I].
    + injection E as <- <-. destruct I' as [E|I']; [injection E as <- <-; lia|].
      destruct (surv_some L q) as ([a b] & Ia & Pa); [exists (s', p'); auto|]. cbn in Pa.
      assert (length a <= length k) by (apply (M a b); [right; exact Ia|exact Pa]).
      assert (prefix a k) by (eapply prefix_both; eauto).
      assert (existsb (fun z => prefixb (fst z) k) L = true); [|congruence].
      apply existsb_exists. exists (a, b). split; [apply surv_sub; exact Ia|]. apply prefixb_ok. assumption.
    + assert (IHL : forall s' p', In (s', p') L -> prefix s' q -> (p' <= p)%N).
      { apply (IH Inc s p I P). intros a b Ia Pa. apply (M a b); [right; exact Ia|exact Pa]. }
      destruct I' as [E|I']; [injection E as <- <-|eauto]. specialize (Lt s p (surv_sub _ _ I)). lia.
Qed.

(** ** Settings *)
Lemma nul_in_ok k : has_nul k = false <-> nul_free k.
Proof.
  unfold has_nul, nul_free. rewrite <- not_true_iff_false, existsb_exists. split; intros N X; apply N.
  - exists x00. auto.
  - destruct X as (x & I & E). apply beq in E. subst. exact I.
Qed.

(** The settings with their pointers *)
Fixpoint number (i : nat) (l : list (list byte * list byte)) : list item :=
  match l with [] => [] | (k, _) :: l => (rev k, pointer i) :: number (S i) l end.
Lemma number_snoc l k v : forall i, number i (l ++ [(k, v)]) = number i l ++ [(rev k, pointer (i + length l))].
Proof.
  induction l as [|[k' v'] l IH]; intros i; cbn [app number length].
  - rewrite Nat.add_0_r. reflexivity.
  - rewrite IH. replace (i + S (length l)) with (S i + length l) by lia. reflexivity.
Qed.
Lemma number_in l : forall i s p, In (s, p) (number i l) <-> exists n k v, nth_error l n = Some (k, v) /\ s = rev k /\ p = pointer (i + n).
Proof.
  induction l as [|[k v] l IH]; intros i s p; cbn [number].
  - split; [intros []|]. intros ([|n] & k & v & E & _); discriminate.
  - cbn [In]. rewrite IH. split.
    + intros [E|(n & k' & v' & E & -> & ->)].
      * injection E as <- <-. exists 0, k, v. rewrite Nat.add_0_r. auto.
      * exists (S n), k', v'. split; [exact E|]. split; [reflexivity|]. f_equal. lia.
    + intros ([|n] & k' & v' & E & -> & ->).
      * injection E as <- <-. left. rewrite Nat.add_0_r. reflexivity.
      * right. exists n, k', v'. split; [exact E|]. split; [reflexivity|]. f_equal. lia.
Qed.
Lemma pointer_inj i j : pointer i = pointer j -> i = j.
Proof. unfold pointer. lia. Qed.
Lemma number_inc l : forall i, inc (map snd (number i l)).
Proof.
  induction l as [|[k v] l IH]; intros i; cbn [number map snd inc]; [exact I|]. split; [|apply IH].
  intros y Y. apply in_map_iff in Y. destruct Y as ([s p] & <- & Y). apply number_in in Y. destruct Y as (n & _ & _ & _ & _ & ->).
  unfold pointer. cbn. lia.
Qed.
Lemma surv_inc L : inc (map snd L) -> inc (map snd (surv L)).
Proof.
  induction L as [|x L IH]; [auto|]. cbn [map inc surv]. intros [A B]. destruct (existsb (fun z => prefixb (fst z) (fst x)) L); [auto|]. cbn [map inc]. split; [|auto].
  intros y Y. apply A. apply in_map_iff in Y. destruct Y as (z & <- & Z). apply in_map. apply surv_sub. exact Z.
Qed.

Lemma surv_number l : forall i s p, In (s, p) (surv (number i l)) <->
  exists n k v, alive l n k v /\ s = rev k /\ p = pointer (i + n).
Proof.
  unfold alive, set. induction l as [|[k v] l IH]; intros i s p.
  - cbn. split; [intros []|]. intros ([|n] & k & v & (E & _) & _); discriminate.
  - cbn [number surv fst].
    destruct (existsb (fun y => prefixb (fst y) (rev k)) (number (S i) l)) eqn:X.
    + rewrite IH. split.
      * intros (n & k' & v' & (E & A) & -> & ->). exists (S n), k', v'. split; [split; [exact E|]|split; [reflexivity|f_equal; lia]].
        intros [|j] k2 v2 L S2; [lia|]. apply (A j k2 v2); [lia|exact S2].
      * intros ([|n] & k' & v' & (E & A) & -> & ->).
        -- exfalso. cbn in E. injection E as <- <-. apply existsb_exists in X. destruct X as ([a b] & Ia & Pa). apply prefixb_ok in Pa. cbn in Pa.
           apply number_in in Ia. destruct Ia as (n & k2 & v2 & E2 & -> & _). apply prefix_rev in Pa. apply (A (S n) k2 v2); [lia|exact E2|exact Pa].
        -- exists n, k', v'. split; [split; [exact E|]|split; [reflexivity|f_equal; lia]].
           intros j k2 v2 L S2. apply (A (S j) k2 v2); [lia|exact S2].
    + cbn [In]. rewrite IH. split.
      * intros [E|(n & k' & v' & (E & A) & -> & ->)].
        -- injection E as <- <-. exists 0, k, v. split; [split; [reflexivity|]|split; [reflexivity|f_equal; lia]].
           intros [|j] k2 v2 L S2 P; [lia|]. cbn in S2. rewrite <- not_true_iff_false in X. apply X. apply existsb_exists.
           exists (rev k2, pointer (S i + j)). split; [apply number_in; eauto 6|]. apply prefixb_ok. apply prefix_rev. exact P.
        -- exists (S n), k', v'. split; [split; [exact E|]|split; [reflexivity|f_equal; lia]].
           intros [|j] k2 v2 L S2; [lia|]. apply (A j k2 v2); [lia|exact S2].
      * intros ([|n] & k' & v' & (E & A) & -> & ->).
        -- left. cbn in E. injection E as <- <-. f_equal. f_equal. lia.
        -- right. exists n, k', v'. split; [split; [exact E|]|split; [reflexivity|f_equal; lia]].
           intros j k2 v2 L S2. apply (A (S j) k2 v2); [lia|exact S2].
Qed.

Section Build.
  Variable omax : nat.
  Hypothesis Homax : 1 <= omax.
  Notation rep := (rep omax).

  Definition maxlen (l : list (list byte * list byte)) : nat := fold_left (fun m kv => if m <? length (fst kv) then length (fst kv) else m) l 0.
  Definition fresh (l : list (list byte * list byte)) : list ext_color := map (fun kv => mkExt (snd kv) (rev (fst kv)) false) l.

  Lemma clean_app a b : usable (a ++ b) = usable a ++ usable b.
  Proof. apply filter_app. Qed.
  Lemma set_exts_snoc l : forall c x, set_exts omax c (l ++ [x]) =
    match set_exts omax c l with Some c => set_ext omax c (fst x) (snd x) | None => None end.
  Proof.
    induction l as [|[k v] l IH]; intros c x; cbn [app set_exts].
    - destruct x as [k v]. cbn. destruct (set_ext omax c k v); reflexivity.
    - destruct (set_ext omax c k v); [apply IH|reflexivity].
  Qed.
  Lemma set_exts_ok l : exists c, set_exts omax colors_init l = Some c /\ exts c = fresh (usable l) /\ ext_len c = maxlen (usable l) /\
    rep (ext_trie c) (surv (number 0 (usable l))) /\ iext_trie c = trie_init.
  Proof.
    induction l as [|[k v] l IH] using rev_ind.
    - exists colors_init. cbn. repeat split. apply init_rep. 
    - destruct IH as (c & E & X & Len & R & It). rewrite set_exts_snoc, E. cbn [fst snd]. unfold set_ext.
      rewrite clean_app. cbn [usable filter fst]. fold (has_nul k). destruct (has_nul k) eqn:Nk; cbn [negb].
      + exists c. rewrite app_nil_r. auto.
      + apply nul_in_ok in Nk. unfold ext_reverse.
        destruct (insert_rep omax Homax (ext_trie c) _ (rev k) (pointer (length (exts c))) R) as (tr & Ei & R').
        { intros I. apply in_rev in I. exact (Nk I). }
        rewrite Ei. eexists. split; [reflexivity|]. cbn [exts ext_len ext_trie iext_trie].
        split; [rewrite X; unfold fresh; rewrite map_app; reflexivity|].
        split; [rewrite Len; unfold maxlen; rewrite fold_left_app; reflexivity|].
        split; [|exact It].
        rewrite number_snoc, surv_snoc. cbn [Nat.add]. rewrite X in R'. unfold fresh in R'. rewrite map_length in R'. exact R'.
  Qed.

  (** ** Smart case *)
  Section Smart.
    Variable l : list (list byte * list byte).
    Hypothesis nuls : forall k v, In (k, v) l -> nul_free k.
    Definition K (i : nat) : list byte := match nth_error l i with Some (k, _) => lower (rev k) | None => [] end.
    Definition V (i : nat) : list byte := match nth_error l i with Some (_, v) => v | None => [] end.
    Definition R (i : nat) : list byte := match nth_error l i with Some (k, _) => rev k | None => [] end.

    Definition consec (P : list nat) (a b : nat) : Prop :=
      In a P /\ In b P /\ a < b /\ K a = K b /\ forall m, In m P -> a < m -> m < b -> K m <> K a.
    Definition flag (P : list nat) (i : nat) : Prop :=
      In i P /\ exists a b, consec P a b /\ K a = K i /\ a <= i /\ V a <> V b.
    Definition lastof (P : list nat) (a : nat) : Prop := In a P /\ forall m, In m P -> K m = K a -> m <= a.

    (** After the settings [P] *)
    Record sinv (P : list nat) (c : list ext_color) (itr : trie) (B : list item) : Prop := {
      si_exts : forall i, i < length l -> exists b, nth_error c i = Some (mkExt (V i) (if existsb (Nat.eqb i) P then K i else R i) b) /\ (b = true <-> flag P i);
      si_len : length c = length l;
      si_rep : rep itr B;
      si_map : forall s p, In (s, p) B <-> exists a, lastof P a /\ s = K a /\ p = pointer a
    }.

    Lemma deref_pointer (c : list ext_color) i : deref c (pointer i) = nth_error c i.
    Proof.
      unfold deref, pointer. destruct (N.of_nat (S i)) eqn:E; [lia|]. rewrite <- E. f_equal. lia.
    Qed.
    Lemma update_pointer i f (c : list ext_color) : forall j, nth_error (update (pointer i) f c) j = if j =? i then option_map f (nth_error c i) else nth_error c j.
    Proof.
      intros j. unfold update, pointer. destruct (N.of_nat (S i)) eqn:E; [lia|]. rewrite <- E. replace (Nat.pred (N.to_nat (N.of_nat (S i)))) with i by lia.
      destruct (nth_error c i) as [e|] eqn:X.
      - assert (L : i < length c) by (apply nth_error_Some; congruence).
        assert (Lf : length (firstn i c) = i) by (rewrite firstn_length; lia).
        destruct (Nat.eqb_spec j i) as [->|Ne].
        + rewrite nth_error_app2 by lia. rewrite Lf, Nat.sub_diag. reflexivity.
        + destruct (Nat.lt_ge_cases j i) as [Lt|Ge].
          * rewrite nth_error_app1 by lia. rewrite <- (firstn_skipn i c) at 2. rewrite nth_error_app1 by lia. reflexivity.
          * rewrite nth_error_app2 by lia. rewrite Lf. destruct (j - i) as [|d] eqn:D; [lia|]. cbn [nth_error].
            rewrite <- (firstn_skipn (S i) c) at 2. rewrite nth_error_app2; [|rewrite firstn_length; lia]. f_equal. rewrite firstn_length. lia.
      - destruct (Nat.eqb_spec j i) as [->|Ne]; [exact X|reflexivity].
    Qed.
    Lemma update_length i f (c : list ext_color) : length (update (pointer i) f c) = length c.
    Proof.
      unfold update. destruct (pointer i); [reflexivity|]. destruct (nth_error c _) eqn:X; [|reflexivity].
      assert (L : Nat.pred (N.to_nat (N.pos p)) < length c) by (apply nth_error_Some; congruence).
      rewrite app_length. cbn [length]. rewrite firstn_length, skipn_length. lia.
    Qed.

    Lemma K_nul i : i < length l -> nul_free (K i).
    Proof.
      intros L. unfold K. destruct (nth_error l i) as [[k v]|] eqn:E; [|apply nth_error_None in E; lia].
      apply nth_error_In in E. apply nuls in E. apply lower_nul. intros I. apply in_rev in I. exact (E I).
    Qed.
    Lemma mem_eqb i P : existsb (Nat.eqb i) P = true <-> In i P.
    Proof.
      rewrite existsb_exists. split.
      - intros (x & I & E). apply Nat.eqb_eq in E. subst. exact I.
      - intros I. exists i. split; [exact I|apply Nat.eqb_refl].
    Qed.

    Lemma consec_snoc P j : (forall i, In i P -> i < j) -> forall a b,
      consec (P ++ [j]) a b <-> consec P a b \/ b = j /\ lastof P a /\ K a = K j.
    Proof.
      intros Lt a b. unfold consec, lastof. split.
      - intros (A & B & AB & Kab & M). apply in_app_iff in A, B. cbn in A, B.
        assert (Ia : In a P). { destruct A as [A|[<-|[]]]; [exact A|]. destruct B as [B|[<-|[]]]; [apply Lt in B|]; lia. }
        destruct B as [B|[<-|[]]].
        + left. split; [exact Ia|]. split; [exact B|]. split; [exact AB|]. split; [exact Kab|]. intros m Im. apply M. apply in_app_iff. auto.
        + right. split; [reflexivity|]. split; [|exact Kab]. split; [exact Ia|]. intros m Im Km.
          destruct (Nat.le_gt_cases m a) as [Le|Gt]; [exact Le|]. exfalso. apply (M m); [apply in_app_iff; auto|exact Gt|apply Lt; exact Im|exact Km].
      - intros [(A & B & AB & Kab & M)|(-> & (A & M) & Kab)].
        + split; [apply in_app_iff; auto|]. split; [apply in_app_iff; auto|]. split; [exact AB|]. split; [exact Kab|].
          intros m Im L1 L2. apply in_app_iff in Im. destruct Im as [Im|[<-|[]]]; [auto|]. apply Lt in B. lia.
        + split; [apply in_app_iff; auto|]. split; [apply in_app_iff; cbn; auto|]. split; [apply Lt; exact A|]. split; [exact Kab|].
          intros m Im L1 L2 Km. apply in_app_iff in Im. destruct Im as [Im|[<-|[]]]; [|lia]. specialize (M m Im Km). lia.
    Qed.
    Lemma flag_old P j i : (forall i, In i P -> i < j) -> In i P ->
      flag (P ++ [j]) i <-> flag P i \/ lastof P i /\ K i = K j /\ V i <> V j.
    Proof.
      intros Lt Ii. unfold flag. split.
      - intros (_ & a & b & C & Ka & Le & Vn). apply consec_snoc in C; [|exact Lt]. destruct C as [C|(-> & La & Kj)].
        + left. split; [exact Ii|]. exists a, b. auto.
        + right. assert (a = i) as ->; [|auto]. destruct La as [Ia M]. specialize (M i Ii (eq_sym Ka)). lia.
      - intros [(_ & a & b & C & X)|(La & Kj & Vn)].
        + split; [apply in_app_iff; auto|]. exists a, b. split; [apply consec_snoc; auto|exact X].
        + split; [apply in_app_iff; auto|]. exists i, j. split; [apply consec_snoc; auto|auto].
    Qed.
    Lemma exists_last_of P i : In i P -> exists m, lastof P m /\ K m = K i /\ i <= m.
    Proof.
      assert (D : forall s, (forall m, In m P -> K m <> s) \/ exists m, In m P /\ K m = s /\ forall y, In y P -> K y = s -> y <= m).
      { intros s. induction P as [|x P IH]; [left; intros m []|].
        destruct (key_eqb_spec (K x) s) as [E|E].
        - right. destruct IH as [N|(m & Im & Km & M)].
          + exists x. split; [left; reflexivity|]. split; [exact E|]. intros y [<-|Iy] Ky; [lia|]. exfalso. exact (N y Iy Ky).
          + destruct (Nat.le_gt_cases x m) as [L|L]; [exists m|exists x]; (split; [cbn; auto|]); (split; [auto|]); intros y [<-|Iy] Ky; try lia; specialize (M y Iy Ky); lia.
        - destruct IH as [N|(m & Im & Km & M)]; [left; intros m [<-|Im]; auto|]. right. exists m. split; [right; exact Im|]. split; [exact Km|].
          intros y [<-|Iy] Ky; [congruence|auto]. }
      intros I. destruct (D (K i)) as [N|(m & Im & Km & M)]; [exfalso; exact (N i I eq_refl)|].
      exists m. split; [split; [exact Im|]|split; [exact Km|apply M; auto]]. intros y Iy Ky. apply M; congruence.
    Qed.
    Lemma flag_new P j : (forall i, In i P -> i < j) ->
      flag (P ++ [j]) j <-> exists a, lastof P a /\ K a = K j /\ (flag P a \/ V a <> V j).
    Proof.
      intros Lt. split.
      - intros (_ & a & b & C & Ka & Le & Vn). apply consec_snoc in C; [|exact Lt]. destruct C as [C|(-> & La & Kj)].
        + destruct (exists_last_of P b) as (m & Lm & Km & Lb); [apply C|].
          assert (Kb : K a = K b) by apply C. exists m. split; [exact Lm|]. split; [congruence|]. left. split; [apply Lm|].
          exists a, b. split; [exact C|]. split; [congruence|]. split; [|exact Vn]. destruct C as (_ & _ & C & _). lia.
        + exists a. auto.
      - intros (a & La & Ka & [F|Vn]).
        + destruct F as (_ & x & y & C & Kx & Lx & Vn). split; [apply in_app_iff; cbn; auto|]. exists x, y.
          split; [apply consec_snoc; auto|]. split; [congruence|]. split; [|exact Vn]. destruct C as (C & _). apply Lt in C. lia.
        + split; [apply in_app_iff; cbn; auto|]. exists a, j. split; [apply consec_snoc; auto|]. split; [exact Ka|]. split; [|exact Vn].
          destruct La as [Ia _]. apply Lt in Ia. lia.
    Qed.
    Lemma lastof_snoc P j a : (forall i, In i P -> i < j) -> lastof (P ++ [j]) a <-> a = j \/ lastof P a /\ K a <> K j.
    Proof.
      intros Lt. unfold lastof. split.
      - intros [Ia M]. apply in_app_iff in Ia. destruct Ia as [Ia|[<-|[]]]; [|auto]. right. split.
        + split; [exact Ia|]. intros m Im. apply M. apply in_app_iff. auto.
        + intros Ka. assert (j <= a); [|apply Lt in Ia; lia]. apply M; [apply in_app_iff; cbn; auto|auto].
      - intros [->|[[Ia M] Ka]].
        + split; [apply in_app_iff; cbn; auto|]. intros m Im _. apply in_app_iff in Im. destruct Im as [Im|[<-|[]]]; [apply Lt in Im|]; lia.
        + split; [apply in_app_iff; auto|]. intros m Im Km. apply in_app_iff in Im. destruct Im as [Im|[<-|[]]]; [auto|congruence].
    Qed.
    Lemma lastof_unique P a b : lastof P a -> lastof P b -> K a = K b -> a = b.
    Proof. intros [Ia Ma] [Ib Mb] E. specialize (Ma b Ib (eq_sym E)). specialize (Mb a Ia E). lia. Qed.
    Lemma in_put k p B s q : In (s, q) (put k p B) <-> s = k /\ q = p \/ s <> k /\ In (s, q) B.
    Proof.
      unfold put. destruct (existsb (fun '(s', _) => key_eqb s' k) B) eqn:X.
      - rewrite in_map_iff. split.
        + intros ([s' q'] & E & I). destruct (key_eqb_spec s' k) as [Y|Y]; injection E as <- <-; [left|right]; auto.
        + intros [[-> ->]|[N I]].
          * apply in_existsb in X. destruct X as [q' X]. exists (k, q'). split; [|exact X]. cbv beta iota. destruct (key_eqb_spec k k) as [Y|Y]; [reflexivity|congruence].
          * exists (s, q). split; [|exact I]. cbv beta iota. destruct (key_eqb_spec s k) as [Y|Y]; [congruence|reflexivity].
      - rewrite in_app_iff. cbn. split.
        + intros [I|[E|[]]]; [|injection E as <- <-; auto]. right. split; [|exact I]. intros ->.
          rewrite <- not_true_iff_false in X. apply X. apply in_existsb. eauto.
        + intros [[-> ->]|[_ I]]; auto.
    Qed.

    Lemma smart_step P j c itr B : (forall i, In i P -> i < j) -> j < length l -> sinv P c itr B ->
      exists e ip itr' c2, 
        deref (update (pointer j) set_lower c) (pointer j) = Some e /\ get_mem itr (cstr (ext e)) = Some ip /\
        set_mem omax ok itr (cstr (ext e)) (pointer j) = (itr', Some true) /\
        c2 = (if ext_case_sensitive e (deref (update (pointer j) set_lower c) ip)
              then update ip set_sensitive (update (pointer j) set_sensitive (update (pointer j) set_lower c))
              else update (pointer j) set_lower c) /\
        sinv (P ++ [j]) c2 itr' (put (K j) (pointer j) B).
    Proof.
      intros Lt Lj [SE SL SR SM].
      assert (Nj : ~ In j P) by (intros X; apply Lt in X; lia).
      destruct (SE j Lj) as (bj & Ej & Fj).
      assert (existsb (Nat.eqb j) P = false) as Xj by (rewrite <- not_true_iff_false, mem_eqb; exact Nj).
      rewrite Xj in Ej. assert (bj = false) as ->.
      { destruct bj; [|reflexivity]. destruct Fj as [Fj _]. destruct (Fj eq_refl) as [X _]. contradiction. }
      assert (KR : ext_tolower (R j) = K j).
      { unfold R, K, ext_tolower. destruct (nth_error l j) as [[k v]|]; [rewrite tolower_is|]; reflexivity. }
      set (c1 := update (pointer j) set_lower c).
      assert (D1 : deref c1 (pointer j) = Some (mkExt (V j) (K j) false)).
      { rewrite deref_pointer. unfold c1. rewrite update_pointer, Nat.eqb_refl, Ej. cbn [option_map]. unfold set_lower. cbn [esc ext case_sensitive]. rewrite KR. reflexivity. }
      destruct (get_rep omax Homax itr B (K j) SR) as (ip & G & Gi).
      destruct (set_rep omax Homax itr B (K j) (pointer j) SR (K_nul j Lj)) as (itr' & Sm & R').
      eexists _, ip, itr', _. split; [exact D1|]. cbn [ext]. split; [exact G|]. split; [exact Sm|]. split; [reflexivity|].
      assert (Map : forall s p, In (s, p) (put (K j) (pointer j) B) <-> exists a, lastof (P ++ [j]) a /\ s = K a /\ p = pointer a).
      { intros s p. rewrite in_put, SM. split.
        - intros [[-> ->]|[N (a & La & -> & ->)]]; [exists j|exists a]; split; auto; apply lastof_snoc; auto.
        - intros (a & La & -> & ->). apply lastof_snoc in La; [|exact Lt]. destruct La as [->|[La Ka]]; [auto|]. right. split; eauto. }
      assert (N1 : forall i, i < length l -> i <> j -> nth_error c1 i = nth_error c i).
      { intros i _ Ne. unfold c1. rewrite update_pointer. destruct (Nat.eqb_spec i j); congruence. }
      assert (Mem : forall i, i <> j -> existsb (Nat.eqb i) (P ++ [j]) = existsb (Nat.eqb i) P).
      { intros i Ne. rewrite existsb_app. cbn. destruct (Nat.eqb_spec i j); [congruence|]. cbn. apply orb_false_r. }
      assert (Memj : existsb (Nat.eqb j) (P ++ [j]) = true).
      { rewrite existsb_app. cbn. rewrite Nat.eqb_refl. cbn. apply orb_true_r. }
      assert (Nf : forall i, i <> j -> flag (P ++ [j]) i -> In i P).
      { intros i Ne [X _]. apply in_app_iff in X. destruct X as [X|[X|[]]]; [exact X|congruence]. }
      assert (Flen : forall c' : list ext_color, length c' = length c1 -> length c' = length l).
      { intros c' ->. unfold c1. rewrite update_length. exact SL. }
      destruct Gi as [Gi|[-> Gn]].
      - apply SM in Gi. destruct Gi as (a & La & Ka & ->).
        assert (Ia : In a P) by apply La. assert (Lta : a < j) by (apply Lt; exact Ia). assert (Lal : a < length l) by lia.
        assert (Xa : existsb (Nat.eqb a) P = true) by (apply mem_eqb; exact Ia).
        destruct (SE a Lal) as (ba & Ea & Fa). rewrite Xa in Ea.
        assert (Da : deref c1 (pointer a) = Some (mkExt (V a) (K a) ba)) by (rewrite deref_pointer, N1 by lia; exact Ea).
        rewrite Da. unfold ext_case_sensitive. cbn [case_sensitive esc].
        assert (Cond : (if ba then true else negb (key_eqb (V a) (V j))) = true <-> flag P a \/ V a <> V j).
        { destruct ba; [split; [intros _; left; apply Fa; reflexivity|reflexivity]|].
          destruct (key_eqb_spec (V a) (V j)) as [E|E]; cbn [negb].
          - split; [discriminate|]. intros [X|X]; [apply Fa in X; discriminate|congruence].
          - split; [auto|reflexivity]. }
        assert (Fo : forall i, i <> j -> i < length l -> flag (P ++ [j]) i <-> flag P i \/ i = a /\ V a <> V j).
        { intros i Ne Li. split.
          - intros F. apply flag_old in F; [|exact Lt|apply Nf; auto]. destruct F as [F|(Li' & Kj & Vn)]; [auto|].
            right. assert (i = a) by (eapply lastof_unique; eauto; congruence). subst. auto.
          - intros [F|(-> & Vn)]; apply flag_old; auto. apply F. }
        assert (Fn : flag (P ++ [j]) j <-> flag P a \/ V a <> V j).
        { rewrite flag_new by exact Lt. split.
          - intros (a' & La' & Ka' & X). assert (a' = a) by (eapply lastof_unique; eauto; congruence). subst. exact X.
          - intros X. exists a. auto. }
        destruct (if ba then true else negb (key_eqb (V a) (V j))) eqn:Cd.
        + constructor; [|apply Flen; rewrite !update_length; reflexivity|exact R'|exact Map].
          intros i Li. rewrite !update_pointer. destruct (Nat.eqb_spec i a) as [->|Na].
          * destruct (Nat.eqb_spec a j); [lia|]. rewrite N1 by lia. rewrite Ea. cbn [option_map]. unfold set_sensitive. cbn [esc ext case_sensitive].
            rewrite Mem by lia. rewrite Xa. exists true. split; [reflexivity|]. split; [|reflexivity]. intros _. apply Fo; [lia|lia|].
            destruct Cond as [Cd1 _]. destruct (Cd1 eq_refl); auto.
          * destruct (Nat.eqb_spec i j) as [->|Nj'].
            -- rewrite deref_pointer in D1. rewrite D1. cbn [option_map]. unfold set_sensitive. cbn [esc ext case_sensitive]. rewrite Memj. exists true. split; [reflexivity|].
               split; [|reflexivity]. intros _. apply Fn. apply Cond. reflexivity.
            -- rewrite N1 by auto. destruct (SE i Li) as (b & Eb & Fb). rewrite Mem by exact Nj'. exists b. split; [exact Eb|].
               rewrite Fo by auto. rewrite Fb. split; [auto|]. intros [X|[X _]]; [exact X|congruence].
        + assert (NC : ~ (flag P a \/ V a <> V j)) by (rewrite <- Cond; discriminate).
          constructor; [|apply Flen; reflexivity|exact R'|exact Map].
          intros i Li. destruct (Nat.eq_dec i j) as [->|Nj'].
          * rewrite deref_pointer in D1. rewrite D1, Memj. exists false. split; [reflexivity|]. rewrite Fn. split; [discriminate|]. intros X. contradiction.
          * rewrite N1 by auto. destruct (SE i Li) as (b & Eb & Fb). rewrite Mem by exact Nj'. exists b. split; [exact Eb|].
            rewrite Fo by auto. rewrite Fb. split; [auto|]. intros [X|[_ X]]; [exact X|]. exfalso. apply NC. auto.
      - assert (No : forall a, lastof P a -> K a <> K j).
        { intros a La Ka. apply (Gn (pointer a)). apply SM. exists a. auto. }
        cbn [deref ext_case_sensitive]. constructor; [|apply Flen; reflexivity|exact R'|exact Map].
        intros i Li. destruct (Nat.eq_dec i j) as [->|Nj'].
        + rewrite deref_pointer in D1. rewrite D1, Memj. exists false. split; [reflexivity|]. rewrite flag_new by exact Lt.
          split; [discriminate|]. intros (a & La & Ka & _). exfalso. exact (No a La Ka).
        + rewrite N1 by auto. destruct (SE i Li) as (b & Eb & Fb). rewrite Mem by exact Nj'. exists b. split; [exact Eb|]. rewrite Fb. split.
          * intros F. apply flag_old; auto. apply F.
          * intros F. apply flag_old in F; [|exact Lt|apply Nf; auto]. destruct F as [F|(La & Ka & _)]; [exact F|]. exfalso. exact (No i La Ka).
    Qed.

    Fixpoint below (P : list nat) : Prop := match P with [] => True | j :: P => (forall i, In i P -> j < i) /\ below P end.
    Lemma smart_loop Q : forall P ls vals c itr B, map (fun x => vals (lid x)) ls = map pointer Q ->
      below (P ++ Q) -> (forall j, In j Q -> j < length l) -> sinv P c itr B ->
      exists c' itr' B', smart_case omax ls vals c itr = Some (c', itr') /\ sinv (P ++ Q) c' itr' B'.
    Proof.
      induction Q as [|j Q IH]; intros P ls vals c itr B E Bl Lj I; destruct ls as [|x ls]; try discriminate.
      - rewrite app_nil_r. exists c, itr, B. split; [reflexivity|exact I].
      - cbn [map] in E. injection E as Ex E. change (vals (lid x) = pointer j) in Ex. cbn [smart_case]. cbv zeta. rewrite Ex.
        assert (Lt : forall i, In i P -> i < j).
        { clear -Bl. induction P as [|y P IHP]; [intros i []|]. cbn in Bl. destruct Bl as [A Bl]. intros i [<-|Ii].
          - apply A. apply in_app_iff. cbn. auto.
          - apply IHP; auto. }
        destruct (smart_step P j c itr B Lt) as (e & ip & itr' & c2 & D & G & Sm & -> & I'); [apply Lj; left; reflexivity|exact I|].
        rewrite D, G, Sm. replace (P ++ j :: Q) with ((P ++ [j]) ++ Q) by (rewrite <- app_assoc; reflexivity).
        eapply IH; [exact E| | |exact I'].
        + rewrite <- app_assoc. exact Bl.
        + intros i Ii. apply Lj. right. exact Ii.
    Qed.

    (** ** The second loop *)
    Definition folded (c : list ext_color) (Q : list nat) : list item :=
      map (fun i => (K i, pointer i)) (filter (fun i => match nth_error c i with Some e => negb (case_sensitive e) | None => false end) Q).
    Lemma rebuild_loop c Q : (forall i, In i Q -> exists b, nth_error c i = Some (mkExt (V i) (K i) b)) -> (forall j, In j Q -> j < length l) ->
      forall ls vals itr L, map (fun x => vals (lid x)) ls = map pointer Q -> rep itr (surv L) ->
      exists itr', rebuild omax ls vals c itr = Some itr' /\ rep itr' (surv (L ++ folded c Q)).
    Proof.
      induction Q as [|j Q IH]; intros HK HL ls vals itr L E Rp; destruct ls as [|x ls]; try discriminate.
      - cbn. rewrite app_nil_r. eauto.
      - cbn [map] in E. injection E as Ex E. change (vals (lid x) = pointer j) in Ex. cbn [rebuild]. cbv zeta. rewrite Ex, deref_pointer.
        destruct (HK j) as [b Eb]; [left; reflexivity|]. rewrite Eb. cbn [case_sensitive ext].
        unfold folded. cbn [filter]. rewrite Eb. cbn [case_sensitive]. fold (folded c Q).
        assert (HK' : forall i, In i Q -> exists b, nth_error c i = Some (mkExt (V i) (K i) b)) by (intros; apply HK; right; auto).
        assert (HL' : forall i, In i Q -> i < length l) by (intros; apply HL; right; auto).
        destruct b; cbn [negb].
        + apply (IH HK' HL' ls vals itr L E Rp).
        + destruct (insert_rep omax Homax itr _ (K j) (pointer j) Rp) as (tr & Ei & R'); [apply K_nul; apply HL; left; reflexivity|].
          rewrite Ei. rewrite <- surv_snoc in R'. destruct (IH HK' HL' ls vals tr _ E R') as (itr' & Er & Rr). exists itr'. split; [exact Er|].
          rewrite <- app_assoc in Rr. exact Rr.
    Qed.
  End Smart.

  Lemma below_lt P : below P -> forall n m i j, nth_error P n = Some i -> nth_error P m = Some j -> n < m -> i < j.
  Proof.
    induction P as [|x P IH]; intros B n m i j En Em L; [destruct n; discriminate|]. cbn in B. destruct B as [A B].
    destruct m as [|m]; [lia|]. cbn in Em. destruct n as [|n]; cbn in En.
    - injection En as <-. apply A. eapply nth_error_In. exact Em.
    - eapply (IH B n m); eauto. lia.
  Qed.
  Lemma inc_below Q : inc (map pointer Q) -> below Q.
  Proof.
    induction Q as [|x Q IH]; cbn [map inc below]; [auto|]. intros [A B]. split; [|auto].
    intros i Ii. assert (pointer x < pointer i)%N by (apply A; apply in_map; exact Ii). unfold pointer in *. lia.
  Qed.
  Definition live (l : list (list byte * list byte)) : list nat := map (fun x => Nat.pred (N.to_nat (snd x))) (surv (number 0 l)).
  Lemma live_pointers l : map pointer (live l) = map snd (surv (number 0 l)).
  Proof.
    unfold live. rewrite map_map. apply map_ext_in. intros [s p] I. apply surv_number in I. destruct I as (n & k & v & _ & _ & ->).
    unfold pointer. cbn [snd]. lia.
  Qed.
  Lemma live_below l : below (live l).
  Proof. apply inc_below. rewrite live_pointers. apply surv_inc. apply number_inc. Qed.
  Lemma live_in l i : In i (live l) <-> exists k v, alive l i k v.
  Proof.
    unfold live. rewrite in_map_iff. split.
    - intros ([s p] & E & I). apply surv_number in I. destruct I as (n & k & v & A & _ & ->). unfold pointer in E. cbn [snd] in E.
      assert (X : n = i) by lia. exists k, v. rewrite <- X. exact A.
    - intros (k & v & A). exists (rev k, pointer i). split; [unfold pointer; cbn [snd]; lia|]. apply surv_number. exists i, k, v. auto.
  Qed.

  Lemma set_K l i k v : set l i k v -> K l i = rev (lower k) /\ V l i = v /\ R l i = rev k /\ i < length l.
  Proof.
    unfold set, K, V, R, lower. intros E. rewrite E. split; [apply map_rev|]. split; [reflexivity|]. split; [reflexivity|].
    apply nth_error_Some. congruence.
  Qed.
  Lemma rev_inj (a b : list byte) : rev a = rev b -> a = b.
  Proof. intros E. rewrite <- (rev_involutive a), E. apply rev_involutive. Qed.
  Lemma flag_exact l i k v : alive l i k v -> flag l (live l) i <-> exact l i k.
  Proof.
    intros A. destruct A as [Si Ai]. destruct (set_K l i k v Si) as (Ki & Vi & _ & Li). unfold flag, exact, next, consec. split.
    - intros (_ & a & b & (Ia & Ib & Lt & Kab & M) & Kai & Le & Vn).
      apply live_in in Ia, Ib. destruct Ia as (ka & va & Aa). destruct Ib as (kb & vb & Ab).
      destruct (set_K l a ka va (proj1 Aa)) as (Ka & Va & _). destruct (set_K l b kb vb (proj1 Ab)) as (Kb & Vb & _).
      assert (E1 : lower ka = lower kb) by (apply rev_inj; congruence). assert (E2 : lower ka = lower k) by (apply rev_inj; congruence).
      exists a, b, ka, va, vb. split; [exact Le|]. split; [|split; [apply Aa|split; [exact E2|congruence]]].
      split; [exact Lt|]. exists ka, kb. split; [exact Aa|]. split; [exact Ab|]. split; [exact E1|].
      intros m km vm L1 L2 Am E. destruct (set_K l m km vm (proj1 Am)) as (Km & _). apply (M m); [apply live_in; eauto|exact L1|exact L2|congruence].
    - intros (a & b & ka & va & vb & Le & (Lt & ka' & kb & Aa & Ab & E1 & M) & Sa & E2 & Vn).
      assert (ka' = ka). { destruct Aa as [Sa' _]. unfold set in Sa, Sa'. congruence. } subst ka'.
      destruct (set_K l a ka va Sa) as (Ka & Va & _). destruct (set_K l b kb vb (proj1 Ab)) as (Kb & Vb & _).
      split; [apply live_in; exists k, v; split; auto|]. exists a, b. split; [|split; [congruence|split; [exact Le|congruence]]].
      split; [apply live_in; eauto|]. split; [apply live_in; eauto|]. split; [exact Lt|]. split; [congruence|].
      intros m Im L1 L2 Km. apply live_in in Im. destruct Im as (km & vm & Am). apply (M m km vm L1 L2 Am).
      destruct (set_K l m km vm (proj1 Am)) as (Km' & _). apply rev_inj. congruence.
  Qed.

  Lemma usable_nul l k v : In (k, v) (usable l) -> nul_free k.
  Proof. intros I. apply filter_In in I. destruct I as [_ I]. apply nul_in_ok. cbn [fst] in I. destruct (has_nul k); [discriminate I|reflexivity]. Qed.
  Lemma maxlen_le l k v : In (k, v) l -> length k <= maxlen l.
  Proof.
    unfold maxlen. assert (G : forall m, m <= fold_left (fun m kv => if m <? length (fst kv) then length (fst kv) else m) l m /\
      (In (k, v) l -> length k <= fold_left (fun m kv => if m <? length (fst kv) then length (fst kv) else m) l m)); [|apply G].
    induction l as [|[k' v'] l IH]; intros m; cbn [fold_left fst]; [split; [lia|intros []]|].
    destruct (IH (if m <? length k' then length k' else m)) as [A B]. destruct (Nat.ltb_spec m (length k')) as [L|L].
    - split; [lia|]. intros [E|I]; [injection E as <- <-; lia|auto].
    - split; [lia|]. intros [E|I]; [injection E as <- <-; lia|auto].
  Qed.

  (** The case-insensitive trie's entries *)
  Definition loose (l : list (list byte * list byte)) (c : list ext_color) : list item := folded l c (live l).

  Lemma ext_colors_ok l : exists c, ext_colors omax l = Some c /\ length (exts c) = length (usable l) /\
    (forall i k v, alive (usable l) i k v -> exists b, nth_error (exts c) i = Some (mkExt v (rev (lower k)) b) /\ (b = true <-> exact (usable l) i k)) /\
    (forall i k v, set (usable l) i k v -> exists x b, nth_error (exts c) i = Some (mkExt v x b)) /\
    ext_len c = maxlen (usable l) /\ rep (ext_trie c) (surv (number 0 (usable l))) /\ rep (iext_trie c) (surv (loose (usable l) (exts c))).
  Proof.
    destruct (set_exts_ok l) as (c & E & X & Len & Rp & It). unfold ext_colors. rewrite E. unfold build_iext_trie.
    set (l' := usable l) in *. assert (Nu : forall k v, In (k, v) l' -> nul_free k) by apply usable_nul.
    assert (Ord : map (fun x => values (ext_trie c) (lid x)) (order (ext_trie c)) = map pointer (live l')).
    { rewrite live_pointers. apply (order_rep omax). exact Rp. }
    assert (Lv : forall j, In j (live l') -> j < length l').
    { intros j Ij. apply live_in in Ij. destruct Ij as (k & v & [Sj _]). apply (set_K _ _ _ _ Sj). }
    assert (Ini : sinv l' [] (exts c) (iext_trie c) []).
    { rewrite X, It. constructor.
      - intros i Li. destruct (nth_error l' i) as [[k v]|] eqn:Ei; [|apply nth_error_None in Ei; lia].
        exists false. split.
        + unfold fresh. rewrite nth_error_map, Ei. cbn. unfold V, R. rewrite Ei. reflexivity.
        + split; [discriminate|]. intros [[] _].
      - apply map_length.
      - apply init_rep.
      - intros s p. split; [intros []|]. intros (a & [[] _] & _). }
    destruct (smart_loop l' Nu (live l') [] _ _ _ _ _ Ord (live_below l') Lv Ini) as (es & itr & B & -> & Si). cbn [app] in Si.
    assert (HK : forall i, In i (live l') -> exists b, nth_error es i = Some (mkExt (V l' i) (K l' i) b)).
    { intros i Ii. destruct (si_exts _ _ _ _ _ Si i (Lv i Ii)) as (b & Eb & _). exists b. rewrite Eb.
      assert (existsb (Nat.eqb i) (live l') = true) as -> by (apply mem_eqb; exact Ii). reflexivity. }
    destruct (rebuild_loop l' Nu es (live l') HK Lv _ _ (clear itr) [] Ord) as (itr' & -> & R').
    { eapply clear_rep; [exact Homax|]. apply (si_rep _ _ _ _ _ Si). }
    eexists. split; [reflexivity|]. cbn [exts ext_len ext_trie iext_trie].
    split; [apply (si_len _ _ _ _ _ Si)|].
    split; [|split; [|split; [exact Len|split; [exact Rp|exact R']]]].
    - intros i k v A. destruct (set_K _ _ _ _ (proj1 A)) as (Ki & Vi & _ & Li). destruct (si_exts _ _ _ _ _ Si i Li) as (b & Eb & Fb).
      exists b. assert (existsb (Nat.eqb i) (live l') = true) as Ex by (apply mem_eqb; apply live_in; eauto). rewrite Ex, Ki, Vi in Eb.
      split; [exact Eb|]. rewrite Fb. eapply flag_exact. exact A.
    - intros i k v A. destruct (set_K _ _ _ _ A) as (Ki & Vi & _ & Li). destruct (si_exts _ _ _ _ _ Si i Li) as (b & Eb & Fb).
      rewrite Vi in Eb. eauto.
  Qed.

  Lemma loose_in l c s p : In (s, p) (loose l c) <-> exists i e, In i (live l) /\ nth_error c i = Some e /\ case_sensitive e = false /\ s = K l i /\ p = pointer i.
  Proof.
    unfold loose, folded. rewrite in_map_iff. split.
    - intros (i & E & I). apply filter_In in I. destruct I as [I N]. injection E as <- <-. destruct (nth_error c i) as [e|] eqn:X; [|discriminate].
      exists i, e. destruct (case_sensitive e) eqn:Y; [discriminate|]. auto.
    - intros (i & e & I & X & Y & -> & ->). exists i. split; [reflexivity|]. apply filter_In. rewrite X, Y. auto.
  Qed.
  Lemma inc_filter f Q : inc (map pointer Q) -> inc (map pointer (filter f Q)).
  Proof.
    induction Q as [|x Q IH]; [auto|]. cbn [map inc filter]. intros [A B]. destruct (f x); [|auto]. cbn [map inc]. split; [|auto].
    intros y Y. apply A. apply in_map_iff in Y. destruct Y as (z & <- & Z). apply filter_In in Z. apply in_map. apply Z.
  Qed.
  Lemma loose_inc l c : inc (map snd (loose l c)).
  Proof.
    unfold loose, folded. rewrite map_map. cbn [snd]. change (map (fun x : nat => pointer x)) with (map pointer). apply inc_filter.
    rewrite live_pointers. apply surv_inc. apply number_inc.
  Qed.

  Lemma lookup_last tr L q : rep tr (surv L) -> inc (map snd L) -> nul_free q ->
    exists p, match find_prefix tr q with Found x => values tr (lid x) = p | Null => p = 0%N | Assert => False end /\
      (p = 0%N /\ (forall s p', In (s, p') L -> ~ prefix s q) \/
       (exists s, In (s, p) L /\ prefix s q) /\ forall s p', In (s, p') L -> prefix s q -> (p' <= p)%N).
  Proof.
    intros Rp Inc Nq. pose proof (prefix_rep omax Homax tr _ q Rp Nq) as F. destruct (find_prefix tr q) as [x| |]; [| |contradiction].
    - destruct F as (s & I & P & M). eexists. split; [reflexivity|]. right. split; [exists s; split; [apply surv_sub; exact I|exact P]|].
      intros s' p' I' P'. exact (longest_last L q Inc s _ I P M s' p' I' P').
    - exists 0%N. split; [reflexivity|]. left. split; [reflexivity|]. intros s p' I P. destruct (surv_some L q) as ([s2 p2] & I2 & P2); [exists (s, p'); auto|].
      exact (F s2 p2 I2 P2).
  Qed.

  Theorem chosen_ok l name : no_nul name -> exists c color, ext_colors omax l = Some c /\ get_ext c name = Some color /\ chosen (usable l) name color.
  Proof.
    intros Nn. destruct (ext_colors_ok l) as (c & E & Lc & Al & Se & Len & Rp & Ri). set (l' := usable l) in *.
    exists c. unfold get_ext. set (n := if length name <? ext_len c then length name else ext_len c).
    assert (Ln : n <= length name /\ (forall k : list byte, length k <= maxlen l' -> length k <= length name -> length k <= n)).
    { unfold n. rewrite Len. destruct (Nat.ltb_spec (length name) (maxlen l')); split; try lia; intros; lia. }
    destruct Ln as [Ln Lk]. set (q := ext_reverse (skipn (length name - n) name)).
    assert (Nq : nul_free q).
    { intros I. apply in_rev in I. apply Nn. rewrite <- (firstn_skipn (length name - n) name). apply in_app_iff. right. exact I. }
    assert (M1 : forall i k v, set l' i k v -> prefix (rev k) q <-> suffix k name).
    { intros i k v Si. unfold q, ext_reverse. rewrite prefix_rev. assert (Lm : length k <= maxlen l') by (eapply maxlen_le; eapply nth_error_In; exact Si).
      split; intros X.
      - assert (length k <= n). { apply prefix_rev in X. apply prefix_len in X. rewrite !rev_length, skipn_length in X. lia. }
        apply suffix_skipn in X; [exact X|lia].
      - assert (length k <= n). { apply Lk; [exact Lm|]. apply prefix_rev in X. apply prefix_len in X. rewrite !rev_length in X. exact X. }
        apply suffix_skipn; [lia|exact X]. }
    assert (M2 : forall i k v, set l' i k v -> prefix (rev (lower k)) (ext_tolower q) <-> suffix (lower k) (lower name)).
    { intros i k v Si. unfold q, ext_reverse, ext_tolower. rewrite map_rev, prefix_rev. rewrite ?tolower_is.
      unfold lower at 2. rewrite <- skipn_map. change (map lower_letter) with lower.
      assert (Lm : length k <= maxlen l') by (eapply maxlen_le; eapply nth_error_In; exact Si).
      assert (L1 : length (lower k) = length k) by apply map_length. assert (L2 : length (lower name) = length name) by apply map_length.
      split; intros X.
      - assert (length k <= n). { apply prefix_rev in X. apply prefix_len in X. rewrite !rev_length, skipn_length in X. lia. }
        apply suffix_skipn in X; [exact X|lia].
      - assert (length k <= n). { apply Lk; [exact Lm|]. apply prefix_rev in X. apply prefix_len in X. rewrite !rev_length in X. lia. }
        apply suffix_skipn; [lia|exact X]. }
    destruct (lookup_last _ _ q Rp (number_inc _ _) Nq) as (p & Fp & Bp).
    destruct (lookup_last _ _ (ext_tolower q) Ri (loose_inc _ _) (eq_ind_r nul_free (lower_nul q Nq) (tolower_is q))) as (ip & Fi & Bi).
    assert (G : exists color, (match find_prefix (ext_trie c) q, find_prefix (iext_trie c) (ext_tolower q) with
        | Assert, _ | _, Assert => None
        | leaf, ileaf =>
          let p := match leaf with Found l => values (ext_trie c) (lid l) | _ => 0%N end in
          let ip := match ileaf with Found l => values (iext_trie c) (lid l) | _ => 0%N end in
          let p := if negb (ip =? 0)%N && ((p =? 0)%N || (p <? ip)%N) then ip else p in
          Some (option_map esc (deref (exts c) p)) end) = Some color /\ color = option_map esc (deref (exts c) (N.max p ip))).
    { destruct (find_prefix (ext_trie c) q) as [x| |]; [| |contradiction]; destruct (find_prefix (iext_trie c) (ext_tolower q)) as [y| |]; try contradiction;
        rewrite ?Fp, ?Fi; eexists; (split; [reflexivity|]); do 2 f_equal; subst; cbv zeta;
        repeat match goal with |- context [(?a =? ?b)%N] => destruct (N.eqb_spec a b) | |- context [(?a <? ?b)%N] => destruct (N.ltb_spec a b) end; cbn [negb andb orb]; lia. }
    destruct G as (color & G & ->). eexists. split; [exact E|]. split; [exact G|]. clear G Fp Fi.
    (* what the pointers say *)
    assert (Ex : forall i k v, alive l' i k v -> suffix k name -> (pointer i <= p)%N).
    { intros i k v A X. assert (I : In (rev k, pointer i) (number 0 l')) by (apply number_in; exists i, k, v; split; [apply A|auto]).
      apply (M1 i k v (proj1 A)) in X. destruct Bp as [[_ N]|[_ M]]; [exfalso; exact (N _ _ I X)|exact (M _ _ I X)]. }
    assert (Ei : forall i k v, alive l' i k v -> suffix (lower k) (lower name) -> ~ exact l' i k -> (pointer i <= ip)%N).
    { intros i k v A X NE. destruct (Al i k v A) as (b & Eb & Fb). destruct (set_K _ _ _ _ (proj1 A)) as (Ki & _).
      assert (I : In (rev (lower k), pointer i) (loose l' (exts c))).
      { apply loose_in. exists i. eexists. split; [apply live_in; eauto|]. split; [exact Eb|]. cbn. split; [|split; congruence].
        destruct b; [|reflexivity]. exfalso. apply NE. apply Fb. reflexivity. }
      apply (M2 i k v (proj1 A)) in X. destruct Bi as [[_ N]|[_ M]]; [exfalso; exact (N _ _ I X)|exact (M _ _ I X)]. }
    assert (Up : forall i k v, alive l' i k v -> matches l' i k name -> (pointer i <= N.max p ip)%N).
    { intros i k v A [X|[X NE]]; [pose proof (Ex i k v A X)|pose proof (Ei i k v A X NE)]; lia. }
    assert (Dp : p = 0%N \/ exists i k v, p = pointer i /\ alive l' i k v /\ suffix k name).
    { destruct Bp as [[-> _]|[(s & I & P) M]]; [auto|]. right. apply number_in in I. destruct I as (i & k & v & Si & -> & ->). cbn [Nat.add] in *.
      exists i, k, v. split; [reflexivity|]. apply (M1 i k v Si) in P. split; [|exact P]. split; [exact Si|].
      intros j k' v' L Sj Sx. assert (suffix k' name) as X. { destruct P as [a ->]. destruct Sx as [b ->]. exists (a ++ b). apply app_assoc. }
      apply (M1 j k' v' Sj) in X. assert (I : In (rev k', pointer j) (number 0 l')) by (apply number_in; exists j, k', v'; auto).
      specialize (M _ _ I X). unfold pointer in M. lia. }
    assert (Di : ip = 0%N \/ exists i k v, ip = pointer i /\ alive l' i k v /\ suffix (lower k) (lower name) /\ ~ exact l' i k).
    { destruct Bi as [[-> _]|[(s & I & P) M]]; [auto|]. right. apply loose_in in I. destruct I as (i & e & I & X & Y & -> & ->).
      apply live_in in I. destruct I as (k & v & A). exists i, k, v. split; [reflexivity|]. split; [exact A|].
      destruct (set_K _ _ _ _ (proj1 A)) as (Ki & _). rewrite Ki in P. apply (M2 i k v (proj1 A)) in P. split; [exact P|].
      destruct (Al i k v A) as (b & Eb & Fb). rewrite X in Eb. injection Eb as ->. cbn in Y. subst b. intros Z. apply Fb in Z. discriminate. }
    assert (Hit : forall i k v, N.max p ip = pointer i -> alive l' i k v -> matches l' i k name ->
      chosen l' name (option_map esc (deref (exts c) (N.max p ip)))).
    { intros i k v Em A Ma. destruct (Al i k v A) as (b & Eb & _). rewrite Em, deref_pointer, Eb. cbn [option_map esc chosen].
      exists i, k. split; [exact A|]. split; [exact Ma|]. intros j k' v' L Aj Mj. pose proof (Up j k' v' Aj Mj) as U. rewrite Em in U. unfold pointer in U. lia. }
    destruct (N.max_spec p ip) as [[L Em]|[L Em]].
    - destruct Di as [D|(i & k & v & D & A & X & NE)]; [lia|]. apply (Hit i k v); [congruence|exact A|right; auto].
    - destruct Dp as [D|(i & k & v & D & A & X)]; [|apply (Hit i k v); [congruence|exact A|left; exact X]].
      rewrite Em, D. cbn [deref option_map chosen]. intros i k v A Ma. pose proof (Up i k v A Ma) as U. rewrite Em, D in U. unfold pointer in U. lia.
  Qed.
End Build.

(** ** What happens is determined, and is what should happen for simple settings *)
Lemma set_same l i k v k' v' : set l i k v -> set l i k' v' -> k = k' /\ v = v'.
Proof. unfold set. intros A B. rewrite A in B. injection B. auto. Qed.
Lemma chosen_unique l name a b : chosen l name a -> chosen l name b -> a = b.
Proof.
  destruct a as [va|], b as [vb|]; cbn; [| | |reflexivity].
  - intros (i & k & A & M & L) (i' & k' & A' & M' & L'). destruct (Nat.lt_trichotomy i i') as [H|[H|H]].
    + exfalso. exact (L _ _ _ H A' M').
    + subst. f_equal. apply (set_same l i' k va k' vb (proj1 A) (proj1 A')).
    + exfalso. exact (L' _ _ _ H A M).
  - intros (i & k & A & M & _) N. exfalso. exact (N _ _ _ A M).
  - intros N (i & k & A & M & _). exfalso. exact (N _ _ _ A M).
Qed.
Lemma intended_unique l name a b : intended l name a -> intended l name b -> a = b.
Proof.
  destruct a as [va|], b as [vb|]; cbn; [| | |reflexivity].
  - intros (i & k & A & M & L) (i' & k' & A' & M' & L'). destruct (Nat.lt_trichotomy i i') as [H|[H|H]].
    + exfalso. exact (L _ _ _ H A' M').
    + subst. f_equal. apply (set_same l i' k va k' vb A A').
    + exfalso. exact (L' _ _ _ H A M).
  - intros (i & k & A & M & _) N. exfalso. exact (N _ _ _ A M).
  - intros N (i & k & A & M & _). exfalso. exact (N _ _ _ A M).
Qed.

Lemma hidden_dec l i k : (exists j k' v', i < j /\ set l j k' v' /\ suffix k' k) \/ (forall j k' v', i < j -> set l j k' v' -> ~ suffix k' k).
Proof.
  destruct (existsb (fun j => match nth_error l j with Some (k', _) => prefixb (rev k') (rev k) | None => false end) (seq (S i) (length l))) eqn:X.
  - left. apply existsb_exists in X. destruct X as (j & Ij & Pj). destruct (nth_error l j) as [[k' v']|] eqn:E; [|discriminate].
    apply in_seq in Ij. exists j, k', v'. split; [lia|]. split; [exact E|]. apply prefix_rev. apply prefixb_ok. exact Pj.
  - right. intros j k' v' L S P. rewrite <- not_true_iff_false in X. apply X. apply existsb_exists. exists j. split.
    + apply in_seq. assert (j < length l) by (apply nth_error_Some; unfold set in S; congruence). lia.
    + unfold set in S. rewrite S. apply prefixb_ok. apply prefix_rev. exact P.
Qed.
Lemma alive_effective l i k v : alive l i k v -> effective l i k v.
Proof.
  intros [S A]. split; [exact S|]. intros j v' Sj. destruct (Nat.le_gt_cases j i) as [L|L]; [exact L|]. exfalso.
  apply (A j k v' L Sj). exists []. reflexivity.
Qed.
Lemma suffix_lower k name : suffix k name -> suffix (lower k) (lower name).
Proof. intros [c ->]. exists (lower c). apply map_app. Qed.
Lemma suffix_trans a b c : suffix a b -> suffix b c -> suffix a c.
Proof. intros [x ->] [y ->]. exists (y ++ x). apply app_assoc. Qed.
Lemma contested_sym l i j k k' v v' : effective l i k v -> effective l j k' v' -> k' <> k -> lower k' = lower k -> v <> v' -> contested l k /\ contested l k'.
Proof.
  intros A B N L D. split.
  - exists i, j, k', v, v'. auto.
  - exists j, i, k, v', v. split; [exact B|]. split; [exact A|]. split; [auto|]. split; [auto|]. auto.
Qed.
Lemma exact_contested l i k v : simple l -> alive l i k v -> exact l i k <-> contested l k.
Proof.
  intros Sm A. split.
  - intros (a & b & ka & va & vb & Le & (Lt & ka' & kb & Aa & Ab & E1 & M) & Sa & E2 & Vn).
    destruct (set_same _ _ _ _ _ _ Sa (proj1 Aa)) as [<- _].
    assert (Nk : kb <> ka). { intros ->. destruct Aa as [_ Aa]. apply (Aa b ka vb Lt (proj1 Ab)). exists []. reflexivity. }
    destruct (contested_sym l a b ka kb va vb) as [Ca Cb]; auto using alive_effective.
    destruct (two_cases l Sm a b i ka kb k va vb v) as [H|[H|H]]; [exact Sa|apply Ab|apply A|auto|congruence|exact Ca| | |].
    + congruence.
    + subst. exact Cb.
    + subst. exact Ca.
  - intros C. pose proof C as C0. destruct C as (i0 & j & k' & v0 & v' & Ei & Ej & Nk & Lk & Vn).
    assert (i0 = i).
    { destruct (alive_effective _ _ _ _ A) as [S1 M1]. destruct Ei as [S2 M2]. specialize (M1 _ _ S2). specialize (M2 _ _ S1). lia. }
    subst i0. destruct (set_same _ _ _ _ _ _ (proj1 A) (proj1 Ei)) as [_ <-].
    assert (Cj : contested l k') by (eapply contested_sym; [exact Ei|exact Ej|auto|auto|auto]).
    assert (Aj : alive l j k' v').
    { destruct Ej as [Sj Mj]. split; [exact Sj|]. intros m k2 v2 L S2 P.
      destruct (key_eqb_spec k2 k') as [->|N2]; [specialize (Mj m v2 S2); lia|].
      destruct (apart l Sm j m k' k2 v' v2 L Sj S2 P N2) as [X _]. contradiction. }
    assert (No : forall m km vm, alive l m km vm -> lower km = lower k -> m = i \/ m = j).
    { intros m km vm Am Lm.
      assert (D : km = k \/ km = k').
      { destruct (two_cases l Sm i j m k k' km v v' vm) as [H|[H|H]]; [apply A|apply Aj|apply Am|auto|congruence|exact C0| | |]; auto. congruence. }
      destruct D as [->| ->]; [left|right].
      - pose proof (alive_effective _ _ _ _ A) as [S1 M1]. destruct (alive_effective _ _ _ _ Am) as [S2 M2]. specialize (M1 _ _ S2). specialize (M2 _ _ S1). lia.
      - destruct Ej as [S1 M1]. destruct (alive_effective _ _ _ _ Am) as [S2 M2]. specialize (M1 _ _ S2). specialize (M2 _ _ S1). lia. }
    destruct (Nat.lt_trichotomy i j) as [H|[H|H]].
    + exists i, j, k, v, v'. split; [lia|]. split; [|split; [apply A|auto]]. split; [exact H|]. exists k, k'. split; [exact A|]. split; [exact Aj|]. split; [auto|].
      intros m km vm L1 L2 Am E. destruct (No m km vm Am E); lia.
    + subst. destruct (set_same _ _ _ _ _ _ (proj1 A) (proj1 Aj)) as [X _]. congruence.
    + exists j, i, k', v', v. split; [lia|]. split; [|split; [apply Aj|split; [exact Lk|congruence]]]. split; [exact H|]. exists k', k. split; [exact Aj|]. split; [exact A|]. split; [auto|].
      intros m km vm L1 L2 Am E. destruct (No m km vm Am); [congruence|lia|lia].
Qed.
Lemma should_alive l name : simple l -> forall n j k v, length l - j <= n -> set l j k v -> should_match l k name ->
  exists j' k' v', j <= j' /\ alive l j' k' v' /\ should_match l k' name.
Proof.
  intros Sm. induction n as [|n IH]; intros j k v L Sj Ma.
  - assert (j < length l) by (apply nth_error_Some; unfold set in Sj; congruence). lia.
  - destruct (hidden_dec l j k) as [(m & k' & v' & Lm & S' & P)|N]; [|exists j, k, v; split; [lia|]; split; [split; auto|exact Ma]].
    assert (Ma' : should_match l k' name).
    { destruct Ma as [X|[X NC]]; [left; eapply suffix_trans; eauto|]. destruct (key_eqb_spec k' k) as [->|Ne]; [right; auto|].
      right. split; [eapply suffix_trans; [apply suffix_lower; exact P|exact X]|]. apply (apart l Sm j m k k' v v' Lm Sj S' P Ne). }
    destruct (IH m k' v') as (j2 & k2 & v2 & L2 & A2 & M2); auto; [lia|]. exists j2, k2, v2. split; [lia|auto].
Qed.
Lemma simple_intended l name color : simple l -> chosen l name color -> intended l name color.
Proof.
  intros Sm.
  assert (Eq : forall i k v, alive l i k v -> matches l i k name <-> should_match l k name).
  { intros i k v A. unfold matches, should_match. rewrite (exact_contested l i k v Sm A). reflexivity. }
  destruct color as [v|]; cbn.
  - intros (i & k & A & M & N). exists i, k. split; [apply A|]. split; [apply (Eq i k v A); exact M|].
    intros j k' v' L Sj Mj. destruct (should_alive l name Sm _ j k' v' (le_n _) Sj Mj) as (j2 & k2 & v2 & L2 & A2 & M2).
    apply (N j2 k2 v2); [lia|exact A2|]. apply (Eq j2 k2 v2 A2). exact M2.
  - intros N i k v Sj Mj. destruct (should_alive l name Sm _ i k v (le_n _) Sj Mj) as (j2 & k2 & v2 & L2 & A2 & M2).
    apply (N j2 k2 v2 A2). apply (Eq j2 k2 v2 A2). exact M2.
Qed.
Theorem intended_ok omax l name : 1 <= omax -> no_nul name -> simple (usable l) ->
  exists c color, ext_colors omax l = Some c /\ get_ext c name = Some color /\ intended (usable l) name color.
Proof.
  intros Ho Nn Sm. destruct (chosen_ok omax Ho l name Nn) as (c & color & E & G & C). exists c, color. split; [exact E|]. split; [exact G|].
  apply simple_intended; assumption.
Qed.
