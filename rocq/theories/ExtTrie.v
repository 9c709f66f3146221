(** * The tries of color.c as lists of strings with pointers *)
From Coq Require Import List NArith Arith Bool Init.Byte Lia.
From Verif Require Import TrieModel TrieSpec TrieBits TrieMismatch TrieProofs TrieRefine ExtModel ExtSpec.
Import ListNotations.
Local Open Scope nat_scope.

Fixpoint prefixb (a b : list byte) : bool :=
  match a, b with
  | [], _ => true
  | x :: a, y :: b => Byte.eqb x y && prefixb a b
  | _, _ => false
  end.
Lemma beq x y : Byte.eqb x y = true <-> x = y.
Proof. split; [apply Byte.byte_dec_bl|intros ->; apply Byte.byte_dec_lb; reflexivity]. Qed.
Lemma prefixb_ok a : forall b, prefixb a b = true <-> prefix a b.
Proof.
  induction a as [|x a IH]; intros b.
  - split; [|reflexivity]. intros _. exists b. reflexivity.
  - destruct b as [|y b]; cbn [prefixb].
    + split; [discriminate|]. intros [c E]. discriminate.
    + rewrite andb_true_iff, beq, IH. split.
      * intros [-> [c ->]]. exists c. reflexivity.
      * intros [c E]. injection E as -> ->. split; [reflexivity|]. exists c. reflexivity.
Qed.
Lemma prefixb_not a b : prefixb a b = false <-> ~ prefix a b.
Proof. rewrite <- prefixb_ok. destruct (prefixb a b); split; congruence || intuition discriminate. Qed.
Lemma cstr_inj a b : cstr a = cstr b -> a = b.
Proof. unfold cstr. intros H. apply app_inj_tail in H. apply H. Qed.
Lemma nul_cstr_prefix a b : nul_free a -> nul_free b -> prefix (cstr a) (cstr b) -> a = b.
Proof.
  intros Na Nb [c E]. unfold cstr in E. destruct c as [|x c] using rev_ind.
  - rewrite app_nil_r in E. apply app_inj_tail in E. symmetry. apply E.
  - clear IHc. rewrite app_assoc in E. apply app_inj_tail in E. destruct E as [E _]. exfalso. apply Nb. rewrite E.
    apply in_or_app. left. apply in_or_app. right. left. reflexivity.
Qed.

Lemma set_inv es a k v es' r : step es (OSet a k v) es' r ->
  (exists es1 id k', step es (OInsert a k) es1 (RLeaf id k') /\ es' = set_value k' v es1 /\ r = RDone true) \/
  (step es (OInsert a k) es RNull /\ es' = es /\ r = RDone false).
Proof. intros H. inversion H; subst; [left|right]; eauto 8. Qed.
Lemma leaf_inv es a k es' id k' : step es (OInsert a k) es' (RLeaf id k') ->
  (exists e, In e es /\ e_key e = k /\ es' = es /\ k' = k) \/
  (compatible es k /\ es' = es ++ [Entry id k 0%N] /\ k' = k) \/
  (exists e, In e es /\ prefix k (e_key e) /\ e_key e <> k).
Proof. intros H. inversion H; subst; [left|right; left|right; right]; eauto 8. Qed.
Lemma null_inv es k es' : step es (OInsert ok k) es' RNull -> k = [] \/ exists e, In e es /\ prefix (e_key e) k /\ e_key e <> k.
Proof.
  intros H. inversion H; subst; eauto.
  exfalso. match goal with X : _ \/ _ |- _ => destruct X as [X|[[n X]|X]]; discriminate end.
Qed.

Section Rep.
  Variable omax : nat.
  Hypothesis Homax : 1 <= omax.
  Notation Inv := (Inv omax).

  Definition pairs (es : list entry) : list (key * N) := map (fun e => (e_key e, e_val e)) es.
  Definition cpairs (A : list (list byte * N)) : list (key * N) := map (fun '(s, p) => (cstr s, p)) A.
  Definition rep (tr : trie) (A : list (list byte * N)) : Prop :=
    exists es, Inv tr es /\ pairs es = cpairs A /\ (forall s p, In (s, p) A -> nul_free s) /\ NoDup (map fst A).

  Lemma pairs_in es A : pairs es = cpairs A -> forall e, In e es -> exists s, In (s, e_val e) A /\ e_key e = cstr s.
  Proof.
    intros E e I. assert (X : In (e_key e, e_val e) (pairs es)) by (unfold pairs; apply in_map_iff; eauto).
    rewrite E in X. unfold cpairs in X. apply in_map_iff in X. destruct X as ([s p] & X & Y). injection X as <- <-. eauto.
  Qed.
  Lemma in_pairs es A : pairs es = cpairs A -> forall s p, In (s, p) A -> exists e, In e es /\ e_key e = cstr s /\ e_val e = p.
  Proof.
    intros E s p I. assert (X : In (cstr s, p) (cpairs A)) by (unfold cpairs; apply in_map_iff; exists (s, p); auto).
    rewrite <- E in X. unfold pairs in X. apply in_map_iff in X. destruct X as (e & X & Y). injection X as <- <-. eauto.
  Qed.
  Lemma rep_str (tr : trie) es A : pairs es = cpairs A -> (forall s p, In (s, p) A -> nul_free s) -> str_entries es.
  Proof. intros E N e I. destruct (pairs_in es A E e I) as (s & X & K). exists s. split; [eapply N; exact X|exact K]. Qed.

  Lemma find_prefix_inv tr es q : Inv tr es -> str_entries es -> nul_free q ->
    match find_prefix tr q with
    | Found l => exists e s, In e es /\ l = to_leaf e /\ e_key e = cstr s /\ prefix s q /\
        forall e' s', In e' es -> e_key e' = cstr s' -> prefix s' q -> length s' <= length s
    | Null => forall e s, In e es -> e_key e = cstr s -> ~ prefix s q
    | Assert => False
    end.
  Proof.
    intros I St Nq. unfold find_prefix. destruct (root tr) as [t|] eqn:Hr.
    - destruct (Inv_root_leaves omax tr es t I St Hr) as [W Sl].
      destruct (find_prefix_loop_ok omax Homax q Nq t 0 None 0 W Sl) as (res & -> & Lg & _); try discriminate.
      { intros l Il. split; auto. destruct (Sl l Il) as (s & _ & E). rewrite E, (cstr_len omax Homax). lia. }
      destruct res as [l|]; cbn.
      + destruct Lg as ((s & Es & Ps) & [|Il] & Mx); [discriminate|].
        apply (in_es_leaves omax tr es) in Il; auto. destruct Il as (e & Ie & ->). exists e, s.
        split; [exact Ie|]. split; [reflexivity|]. split; [exact Es|]. split; [exact Ps|].
        intros e' s' I' K' P'.
        assert (H : length (lkey (to_leaf e')) <= length (lkey (to_leaf e))).
        { apply Mx. apply (in_es_leaves omax tr es); eauto. exists s'. auto. }
        cbn in H. cbn in Es. rewrite K', Es, !(cstr_len omax Homax) in H. lia.
      + destruct Lg as [_ Ln]. intros e s I' K' P'.
        apply (Ln (to_leaf e)). apply (in_es_leaves omax tr es); eauto. exists s. auto.
    - intros e s I' _ _. rewrite (root_none_nil omax tr es I Hr) in I'. destruct I'.
  Qed.
  Lemma find_postfix_inv tr es q : Inv tr es -> str_entries es -> nul_free q ->
    match find_postfix tr q with
    | Found l => exists e s, In e es /\ l = to_leaf e /\ e_key e = cstr s /\ prefix q s
    | Null => forall e s, In e es -> e_key e = cstr s -> ~ prefix q s
    | Assert => False
    end.
  Proof.
    intros I St Nq. unfold find_postfix. destruct (root tr) as [t|] eqn:Hr.
    - destruct (Inv_root_leaves omax tr es t I St Hr) as [W Sl].
      destruct (rep_exists omax Homax (cstr q) t 0 W) as (r0 & Rp & Ir). rewrite Rp.
      assert (Oth : forall e s, In e es -> e_key e = cstr s -> prefix q s -> prefix q (lkey r0)).
      { intros e s Ie Ek P'. destruct (rep_shorter omax Homax (cstr q) t 0 (to_leaf e) (nibs q) W) as (r & Rr & _ & Pr).
        { apply (in_es_leaves omax tr es); eauto. }
        { apply prefix_nibs. exists [x00]. auto. }
        { apply prefix_nibs. cbn. rewrite Ek. destruct P' as [c ->]. exists (c ++ [x00]). unfold cstr. rewrite app_assoc. auto. }
        rewrite Rp in Rr. injection Rr as <-. apply prefix_nibs in Pr. exact Pr. }
      destruct (Nat.leb_spec (length q) (length (lkey r0))) as [Hl|Hl]; cbn [andb].
      + destruct (key_eqb_spec (firstn (length q) (lkey r0)) q) as [E|E]; cbn.
        * destruct (Sl r0 Ir) as (s & _ & Es). apply (in_es_leaves omax tr es) in Ir; auto. destruct Ir as (e & Ie & ->).
          exists e, s. split; [exact Ie|]. split; [reflexivity|]. split; [exact Es|].
          apply prefix_cstr; auto. rewrite <- Es, <- E. apply prefix_firstn.
        * intros e s I' K' P'. destruct (Oth e s I' K' P') as [c Hc].
          apply E. rewrite Hc, firstn_app, Nat.sub_diag, firstn_O, app_nil_r. apply firstn_all.
      + intros e s I' K' P'. destruct (Oth e s I' K' P') as [c Hc]. rewrite Hc, app_length in Hl. lia.
    - intros e s I' _ _. rewrite (root_none_nil omax tr es I Hr) in I'. destruct I'.
  Qed.

  Definition without (s : list byte) (A : list (list byte * N)) : list (list byte * N) :=
    filter (fun '(s', _) => negb (prefixb s s')) A.
  Definition del (s : list byte) (A : list (list byte * N)) : list (list byte * N) :=
    filter (fun '(s', _) => negb (key_eqb s' s)) A.

  Lemma cstr_eqb a b : key_eqb (cstr a) (cstr b) = key_eqb a b.
  Proof.
    destruct (key_eqb_spec (cstr a) (cstr b)) as [E|E]; destruct (key_eqb_spec a b) as [X|X]; try reflexivity; exfalso.
    - apply X. apply cstr_inj. exact E.
    - apply E. rewrite X. reflexivity.
  Qed.
  Lemma pairs_delete es A s : pairs es = cpairs A -> pairs (delete (cstr s) es) = cpairs (del s A).
  Proof.
    revert A. induction es as [|e es IH]; intros [|[s' p] A] E; try discriminate; [reflexivity|].
    cbn in E. injection E as K V E. cbn [delete filter del]. fold (delete (cstr s) es). fold (del s A).
    rewrite K, cstr_eqb. destruct (key_eqb s' s); cbn [negb]; [apply IH; exact E|].
    cbn. rewrite K, V. f_equal. apply IH. exact E.
  Qed.
  Lemma map_fst_filter (f : list byte * N -> bool) A : NoDup (map fst A) -> NoDup (map fst (filter f A)).
  Proof.
    induction A as [|a A IH]; cbn; intros N; [constructor|]. inversion N; subst. destruct (f a); cbn; [|auto].
    constructor; [|auto]. intros X. apply H1. apply in_map_iff in X. destruct X as (b & <- & I). apply filter_In in I. apply in_map. apply I.
  Qed.
  Lemma remove_rep tr es A e s : Inv tr es -> pairs es = cpairs A -> In e es -> e_key e = cstr s ->
    (forall s p, In (s, p) A -> nul_free s) -> NoDup (map fst A) ->
    exists tr' es', remove omax tr (to_leaf e) = Some tr' /\ Inv tr' es' /\ pairs es' = cpairs (del s A).
  Proof.
    intros I E Ie K N D. destruct (remove_ok omax Homax tr es e I Ie) as (tr1 & E1 & I1).
    exists tr1, (delete (e_key e) es). split; [exact E1|]. split; [exact I1|]. rewrite K. apply pairs_delete. exact E.
  Qed.
  Lemma without_del s s' A : prefix s s' -> without s (del s' A) = without s A.
  Proof.
    intros P. induction A as [|[k p] A IH]; [reflexivity|]. cbn. destruct (key_eqb_spec k s') as [->|K]; cbn [negb].
    - apply prefixb_ok in P. rewrite P. cbn [negb]. exact IH.
    - cbn. destruct (prefixb s k); cbn [negb]; [exact IH|]. f_equal. exact IH.
  Qed.
  Lemma del_length s A p : In (s, p) A -> S (length (del s A)) <= length A.
  Proof.
    assert (F : forall l, length (del s l) <= length l).
    { intros l. induction l as [|[x q] l IH]; cbn; [lia|]. fold (del s l). destruct (key_eqb x s); cbn [negb length]; lia. }
    induction A as [|[x q] A IH]; intros I; [destruct I|]. cbn [del filter length]. fold (del s A).
    destruct (key_eqb_spec x s) as [E|E]; cbn [negb length].
    - specialize (F A). lia.
    - destruct I as [I|I]; [congruence|]. specialize (IH I). lia.
  Qed.
  Lemma remove_all_rep fuel : forall tr es A s, Inv tr es -> pairs es = cpairs A -> (forall s p, In (s, p) A -> nul_free s) ->
    NoDup (map fst A) -> nul_free s -> length A <= fuel ->
    exists tr' es', remove_all omax fuel tr s = Some tr' /\ Inv tr' es' /\ pairs es' = cpairs (without s A).
  Proof.
    induction fuel as [|fuel IH]; intros tr es A s I E N D Ns L; cbn [remove_all];
      pose proof (find_postfix_inv tr es s I (rep_str tr es A E N) Ns) as F; destruct (find_postfix tr s) as [l| |]; try contradiction.
    - destruct A; [|cbn in L; lia]. destruct F as (e & s' & Ie & _). destruct (pairs_in es [] E e Ie) as (? & [] & _).
    - destruct A; [|cbn in L; lia]. exists tr, es. auto.
    - destruct F as (e & s' & Ie & -> & K & P). destruct (pairs_in es A E e Ie) as (s2 & I2 & K2).
      assert (s2 = s') by (apply cstr_inj; congruence). subst s2.
      destruct (remove_rep tr es A e s' I E Ie K N D) as (tr1 & es1 & R & I1 & E1). rewrite R.
      destruct (IH tr1 es1 (del s' A) s I1 E1) as (tr2 & es2 & R2 & Iv2 & E2); auto.
      + intros k p X. unfold del in X. apply filter_In in X. eapply N. apply X.
      + apply map_fst_filter. exact D.
      + pose proof (del_length _ _ _ I2). lia.
      + exists tr2, es2. rewrite without_del in E2 by exact P. auto.
    - exists tr, es. split; [reflexivity|]. split; [exact I|]. rewrite E. f_equal. symmetry. unfold without.
      assert (forall B, (forall a, In a B -> In a A) -> filter (fun '(s', _) => negb (prefixb s s')) B = B) as G; [|apply G; auto].
      induction B as [|[k p] B IHB]; intros Sub; [reflexivity|]. cbn. destruct (prefixb s k) eqn:X; cbn [negb].
      + exfalso. apply prefixb_ok in X. destruct (in_pairs es A E k p) as (e & Ie & K & _); [apply Sub; left; reflexivity|]. exact (F e k Ie K X).
      + f_equal. apply IHB. intros a Ia. apply Sub. right. exact Ia.
  Qed.

  Definition put (s : list byte) (p : N) (A : list (list byte * N)) : list (list byte * N) :=
    if existsb (fun '(s', _) => key_eqb s' s) A then map (fun '(s', p') => (s', if key_eqb s' s then p else p')) A else A ++ [(s, p)].
  Lemma in_existsb s (A : list (list byte * N)) : existsb (fun '(s', _) => key_eqb s' s) A = true <-> exists p, In (s, p) A.
  Proof.
    rewrite existsb_exists. split.
    - intros ([s' p] & I & K). destruct (key_eqb_spec s' s) as [->|]; [eauto|discriminate].
    - intros [p I]. exists (s, p). split; [exact I|]. destruct (key_eqb_spec s s); congruence.
  Qed.
  Lemma pairs_set es A s p : pairs es = cpairs A -> pairs (set_value (cstr s) p es) = cpairs (map (fun '(s', p') => (s', if key_eqb s' s then p else p')) A).
  Proof.
    revert A. induction es as [|e es IH]; intros [|[s' p'] A] E; try discriminate; [reflexivity|].
    cbn in E. injection E as K V E. cbn. fold (set_value (cstr s) p es). rewrite K, cstr_eqb.
    f_equal; [|apply IH; exact E]. destruct (key_eqb s' s); cbn; congruence.
  Qed.
  Lemma set_value_app k v a b : set_value k v (a ++ b) = set_value k v a ++ set_value k v b.
  Proof. apply map_app. Qed.
  Lemma set_value_none k v es : (forall e, In e es -> e_key e <> k) -> set_value k v es = es.
  Proof.
    induction es as [|e es IH]; intros N; [reflexivity|]. cbn. destruct (key_eqb_spec (e_key e) k) as [X|X].
    - exfalso. apply (N e); [left; reflexivity|exact X].
    - f_equal. apply IH. intros e' I. apply N. right. exact I.
  Qed.
  Lemma NoDup_snoc {T} (l : list T) x : NoDup l -> ~ In x l -> NoDup (l ++ [x]).
  Proof.
    intros N I. induction l as [|y l IH]; cbn; [repeat constructor; auto|]. inversion N; subst. constructor.
    - rewrite in_app_iff. cbn. intros [X|[X|[]]]; [auto|]. subst. apply I. left. reflexivity.
    - apply IH; auto. intros X. apply I. right. exact X.
  Qed.

  Lemma set_rep tr A s p : rep tr A -> nul_free s -> exists tr', set_mem omax ok tr (cstr s) p = (tr', Some true) /\ rep tr' (put s p A).
  Proof.
    intros (es & I & E & N & D) Ns.
    destruct (do_op omax tr (OSet ok (cstr s) p)) as [tr' r] eqn:Op.
    destruct (do_op_ok omax Homax tr es _ tr' r I Op) as (es' & St & I').
    assert (Comp : (exists e, In e es /\ e_key e = cstr s) \/ (forall e, In e es -> e_key e <> cstr s /\ ~ prefix (e_key e) (cstr s) /\ ~ prefix (cstr s) (e_key e))).
    { destruct (existsb (fun '(s', _) => key_eqb s' s) A) eqn:X.
      - left. apply in_existsb in X. destruct X as [p' X]. destruct (in_pairs es A E s p' X) as (e & Ie & K & _). eauto.
      - right. intros e Ie. destruct (pairs_in es A E e Ie) as (s' & I2 & K).
        assert (s' <> s). { intros ->. assert (existsb (fun '(s', _) => key_eqb s' s) A = true) by (apply in_existsb; eauto). congruence. }
        assert (Ns' : nul_free s') by (eapply N; exact I2).
        rewrite K. split; [intros Y; apply H; apply cstr_inj; exact Y|].
        split; intros Y; apply nul_cstr_prefix in Y; auto. }
    cbn [do_op] in Op. destruct (set_mem omax ok tr (cstr s) p) as [tr1 [[|]|]] eqn:Sm; injection Op as <- <-.
    - exists tr1. split; [reflexivity|]. exists es'. split; [exact I'|].
      apply set_inv in St. destruct St as [(es1 & id & k' & Ins & -> & _)|(_ & _ & X)]; [|discriminate X]. apply leaf_inv in Ins.
      destruct Comp as [(e & Ie & K)|Comp].
      + assert (Put : put s p A = map (fun '(s', p') => (s', if key_eqb s' s then p else p')) A).
        { unfold put. destruct (pairs_in es A E e Ie) as (s' & I2 & K2). assert (s' = s) by (apply cstr_inj; congruence). subst s'.
          replace (existsb _ A) with true; [reflexivity|]. symmetry. apply in_existsb. eauto. }
        assert (Same : es1 = es /\ k' = cstr s).
        { destruct Ins as [(e0 & _ & _ & -> & ->)|[(C & _)|(e0 & Ie0 & P0 & N0)]]; [auto| |]; exfalso.
          - destruct (C e Ie) as [X _]. apply X. rewrite K. exists []. rewrite app_nil_r. reflexivity.
          - assert (e0 = e); [|congruence]. symmetry. apply (Inv_unique omax Homax tr es e e0 I Ie Ie0). rewrite K. exact P0. }
        destruct Same as [-> ->]. rewrite Put. split; [apply pairs_set; exact E|]. split.
        * intros k q X. apply in_map_iff in X. destruct X as ([k0 q0] & X & Y). injection X as <- _. eapply N. exact Y.
        * rewrite map_map. erewrite map_ext; [exact D|]. intros [k q]. reflexivity.
      + assert (Nin : existsb (fun '(s', _) => key_eqb s' s) A = false).
        { destruct (existsb (fun '(s', _) => key_eqb s' s) A) eqn:X; [|reflexivity]. apply in_existsb in X. destruct X as [p' X].
          destruct (in_pairs es A E s p' X) as (e & Ie & K & _). exfalso. exact (proj1 (Comp e Ie) K). }
        unfold put. rewrite Nin.
        destruct Ins as [(e & Ie & K & _)|[(C & -> & ->)|(e & Ie & P0 & _)]].
        * exfalso. exact (proj1 (Comp e Ie) K).
        * rewrite set_value_app. rewrite set_value_none by (intros e Ie; apply Comp; exact Ie). cbn.
          destruct (key_eqb_spec (cstr s) (cstr s)) as [_|X]; [|congruence]. unfold pairs, cpairs. rewrite !map_app. cbn.
          unfold pairs, cpairs in E. rewrite E. split; [reflexivity|]. split.
          -- intros k q X. apply in_app_iff in X. destruct X as [X|[X|[]]]; [eapply N; exact X|]. injection X as <- <-. exact Ns.
          -- apply NoDup_snoc; [exact D|]. intros X. apply in_map_iff in X. destruct X as ([k q] & <- & X). cbn in *.
             assert (existsb (fun '(s', _) => key_eqb s' k) A = true) by (apply in_existsb; eauto). congruence.
        * exfalso. exact (proj2 (proj2 (Comp e Ie)) P0).
    - exfalso. apply set_inv in St. destruct St as [(es1 & id & k' & _ & _ & X)|(Ins & _)]; [discriminate X|].
      apply null_inv in Ins. destruct Ins as [X|(e & Ie & P0 & N0)]; [destruct s; discriminate|].
      destruct Comp as [(e' & Ie' & K)|Comp]; [|exact (proj1 (proj2 (Comp e Ie)) P0)].
      assert (e = e') by (apply (Inv_unique omax Homax tr es e e' I Ie Ie'); rewrite K; exact P0). subst. auto.
    - exfalso. inversion St.
  Qed.

  Lemma insert_rep tr A s p : rep tr A -> nul_free s -> exists tr', insert_ext omax tr s p = Some tr' /\ rep tr' (without s A ++ [(s, p)]).
  Proof.
    intros (es & I & E & N & D) Ns. unfold insert_ext.
    assert (L : length A <= length (order tr)).
    { destruct I as (-> & _). rewrite map_length. apply (f_equal (@length _)) in E. unfold pairs, cpairs in E. rewrite !map_length in E. lia. }
    destruct (remove_all_rep _ tr es A s I E N D Ns L) as (tr1 & es1 & R & I1 & E1). rewrite R.
    assert (Rp : rep tr1 (without s A)).
    { exists es1. split; [exact I1|]. split; [exact E1|]. split; [|apply map_fst_filter; exact D].
      intros k q X. apply filter_In in X. eapply N. apply X. }
    destruct (set_rep tr1 (without s A) s p Rp Ns) as (tr2 & Sm & R2). rewrite Sm. exists tr2. split; [reflexivity|].
    unfold put in R2. destruct (existsb (fun '(s', _) => key_eqb s' s) (without s A)) eqn:X; [|exact R2]. exfalso.
    apply in_existsb in X. destruct X as [q X]. apply filter_In in X. destruct X as [_ X].
    assert (prefixb s s = true) by (apply prefixb_ok; exists []; rewrite app_nil_r; reflexivity). rewrite H in X. discriminate.
  Qed.

  Lemma get_rep tr A s : rep tr A -> exists p, get_mem tr (cstr s) = Some p /\ (In (s, p) A \/ p = 0%N /\ forall q, ~ In (s, q) A).
  Proof.
    intros (es & I & E & N & D). unfold get_mem. destruct (find_mem_ok omax Homax tr es (cstr s) I) as [(e & Ie & Ek & ->)|[Hn ->]].
    - eexists. split; [reflexivity|]. left. destruct I as (_ & _ & Hv & _). destruct (Hv e Ie) as [_ V]. cbn [to_leaf lid]. rewrite V.
      destruct (pairs_in es A E e Ie) as (s' & I2 & K). assert (s' = s) by (apply cstr_inj; congruence). subst. exact I2.
    - exists 0%N. split; [reflexivity|]. right. split; [reflexivity|]. intros q X. destruct (in_pairs es A E s q X) as (e & Ie & K & _).
      apply (Hn e Ie K).
  Qed.
  Lemma prefix_rep tr A q : rep tr A -> nul_free q ->
    match find_prefix tr q with
    | Found l => exists s, In (s, values tr (lid l)) A /\ prefix s q /\ forall s' p', In (s', p') A -> prefix s' q -> length s' <= length s
    | Null => forall s p, In (s, p) A -> ~ prefix s q
    | Assert => False
    end.
  Proof.
    intros (es & I & E & N & D) Nq. pose proof (find_prefix_inv tr es q I (rep_str tr es A E N) Nq) as F.
    destruct (find_prefix tr q) as [l| |]; [| |exact F].
    - destruct F as (e & s & Ie & -> & K & P & M). exists s. destruct I as (_ & _ & Hv & _). destruct (Hv e Ie) as [_ V].
      cbn [to_leaf lid]. rewrite V. destruct (pairs_in es A E e Ie) as (s' & I2 & K2). assert (s' = s) by (apply cstr_inj; congruence). subst s'.
      split; [exact I2|]. split; [exact P|]. intros s' p' X Y. destruct (in_pairs es A E s' p' X) as (e' & Ie' & K' & _). eauto.
    - intros s p X. destruct (in_pairs es A E s p X) as (e & Ie & K & _). eauto.
  Qed.
  Lemma order_rep tr A : rep tr A -> map (fun l => values tr (lid l)) (order tr) = map snd A.
  Proof.
    intros (es & I & E & N & D). destruct I as (-> & _ & Hv & _). rewrite map_map. cbn [to_leaf lid].
    transitivity (map e_val es).
    - apply map_ext_in. intros e Ie. apply Hv. exact Ie.
    - apply (f_equal (map snd)) in E. unfold pairs, cpairs in E. rewrite !map_map in E. cbn in E.
      change (map e_val es) with (map (fun x => e_val x) es). etransitivity; [exact E|]. apply map_ext. intros [s p]. reflexivity.
  Qed.
  Lemma init_rep : rep trie_init [].
  Proof. exists []. split; [apply Inv_init|]. split; [reflexivity|]. split; [intros ? ? []|constructor]. Qed.
  Lemma clear_rep tr A : rep tr A -> rep (clear tr) [].
  Proof.
    intros (es & I & _). destruct (do_op_ok omax Homax tr es OClear _ _ I eq_refl) as (es' & St & I'). inversion St; subst.
    exists []. split; [exact I'|]. split; [reflexivity|]. split; [intros ? ? []|constructor].
  Qed.
End Rep.
