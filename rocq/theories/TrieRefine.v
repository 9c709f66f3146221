(** The trie model refines the specification over every history. *)
From Coq Require Import List ZArith NArith Arith Bool Lia ZifyBool ZifyNat ZifyN Permutation.
From Coq Require Import Init.Byte.
From Coq Require Strings.Byte.
From Verif Require Import TrieModel TrieSpec TrieBits TrieMismatch TrieProofs.
Import ListNotations.
Ltac Zify.zify_post_hook ::= Z.div_mod_to_equations.

Definition to_leaf (e : entry) : leaf := Leaf (e_id e) (e_key e).

Section Refine.
  Variable omax : nat.
  Hypothesis Homax : 1 <= omax.

  Definition tree_ok (r : option tree) (ls : list leaf) : Prop :=
    match r with
    | None => ls = []
    | Some t => wf omax 0 t /\ Permutation (leaves t) ls
    end.

  Definition Inv (tr : trie) (es : list entry) : Prop :=
    order tr = map to_leaf es /\ tree_ok (root tr) (order tr) /\
    (forall e, In e es -> e_id e < next_id tr /\ values tr (e_id e) = e_val e) /\
    NoDup (map e_id es).

  Lemma lcp_full_l (a b : list N) : lcp a b = length a -> prefix a b.
  Proof.
    revert b; induction a; intros b H.
    - exists b; auto.
    - destruct b; simpl in H; [lia|]. destruct (N.eqb_spec a n); [|lia]. subst.
      destruct (IHa b) as [c ->]; [lia|]. exists c. auto.
  Qed.

  Lemma prefix_lcp (a b : list N) : prefix a b -> lcp a b = length a.
  Proof. intros [c ->]. rewrite <- (app_nil_r a) at 1. rewrite lcp_app. simpl. lia. Qed.

  Lemma prefix_refl {A} (a : list A) : prefix a a.
  Proof. exists []. rewrite app_nil_r. auto. Qed.

  Lemma prefix_eq_len {A} (a b : list A) : prefix a b -> length b <= length a -> a = b.
  Proof. intros [c ->] H. rewrite app_length in H. destruct c; simpl in *; [|lia]. rewrite app_nil_r. auto. Qed.

  Lemma in_es_leaves tr es t l : Inv tr es -> root tr = Some t ->
    (In l (leaves t) <-> exists e, In e es /\ l = to_leaf e).
  Proof.
    intros (Ho & Ht & _) Hr. rewrite Hr in Ht. destruct Ht as [_ P]. rewrite Ho in P.
    split.
    - intros H. apply (Permutation_in _ P) in H. apply in_map_iff in H. destruct H as (e & <- & H). eauto.
    - intros (e & H & ->). apply (Permutation_in _ (Permutation_sym P)). apply in_map; auto.
  Qed.

  Lemma Inv_unique tr es e1 e2 : Inv tr es -> In e1 es -> In e2 es -> prefix (e_key e1) (e_key e2) -> e1 = e2.
  Proof.
    intros I I1 I2 P.
    destruct (root tr) as [t|] eqn:Hr.
    2:{ destruct I as (Ho & Ht & _). rewrite Hr in Ht. cbn in Ht. rewrite Ht in Ho. destruct es; [contradiction|discriminate]. }
    assert (E : to_leaf e1 = to_leaf e2).
    { pose proof I as (Ho & Ht & I'). rewrite Hr in Ht. destruct Ht as [W _].
      eapply (wf_prefix_free omax Homax t 0); eauto; apply (in_es_leaves tr es t); eauto. }
    destruct I as (_ & _ & _ & ND). injection E as E _.
    clear - ND I1 I2 E. induction es as [|e es IH]; [contradiction|].
    simpl in ND. inversion ND; subst. destruct I1 as [<-|I1], I2 as [<-|I2]; auto.
    - exfalso. apply H1. rewrite E. apply in_map; auto.
    - exfalso. apply H1. rewrite <- E. apply in_map; auto.
  Qed.

  Lemma filter_fresh (es : list entry) n : (forall e, In e es -> e_id e < n) ->
    filter (fun l' => negb (n =? lid l')) (map to_leaf es) = map to_leaf es.
  Proof.
    induction es as [|e es IH]; intros H; auto. cbn [map filter to_leaf lid].
    assert (e_id e < n) by (apply H; simpl; auto).
    destruct (Nat.eqb_spec n (e_id e)); [lia|]. cbn [negb]. f_equal.
    apply IH. intros; apply H; simpl; auto.
  Qed.

  (** What trie_insert_mem does, in terms of the entries. *)
  Lemma insert_mem_ok a tr es k : Inv tr es ->
    exists tr' es' r, insert_mem omax a tr k = (tr', r) /\ Inv tr' es' /\
      step es (OInsert a k) es' (out_of r) /\
      (forall l, r = Found l -> exists e, In e es' /\ to_leaf e = l) /\ (r = Null -> es' = es).
  Proof.
    intros I. pose proof I as I0. destruct I as (Ho & Ht & Hv & ND). unfold insert_mem.
    assert (Fresh : ~ In (next_id tr) (map e_id es)).
    { intros H. apply in_map_iff in H. destruct H as (e & E & H). apply Hv in H. lia. }
    assert (Hnew : forall r ls, ls = order tr ++ [Leaf (next_id tr) k] -> tree_ok r ls ->
       Inv (Trie r ls (fun i => if i =? next_id tr then 0%N else values tr i) (S (next_id tr)))
           (es ++ [Entry (next_id tr) k 0%N])).
    { intros r ls -> T. split; [|split; [|split]]; cbn [order root values next_id].
      - rewrite Ho, map_app. reflexivity.
      - exact T.
      - intros e H. apply in_app_iff in H. destruct H as [H|[<-|[]]].
        + destruct (Hv e H). destruct (Nat.eqb_spec (e_id e) (next_id tr)); [lia|]. split; auto.
        + cbn. rewrite Nat.eqb_refl. auto.
      - rewrite map_app. cbn.
        clear - ND Fresh. induction (map e_id es); simpl in *.
        + constructor; [auto|constructor].
        + inversion ND; subst. constructor.
          * rewrite in_app_iff. simpl. intuition auto.
          * apply IHl; auto. }
    destruct (root tr) as [t|] eqn:Hr; cbn [tree_ok] in Ht.
    - destruct Ht as [W P].
      destruct (rep_exists omax Homax k t 0 W) as (rep & R & Ir). rewrite R.
      destruct (proj1 (in_es_leaves tr es t rep I0 Hr) Ir) as (e & Ie & Ee).
      rewrite mismatch_lcp. set (M := lcp (nibs (lkey rep)) (nibs k)).
      assert (M <= 2 * length k) by (unfold M; rewrite <- nibs_length; apply lcp_le_r).
      assert (M <= 2 * length (lkey rep)) by (unfold M; rewrite <- nibs_length; apply lcp_le_l).
      destruct (Nat.leb_spec (length k) (M / 2)) as [H1|H1].
      { (* the key is a prefix of the representative *)
        destruct (Nat.eqb_spec (M / 2) (length k)); [|lia].
        assert (P1 : prefix k (lkey rep)).
        { apply prefix_nibs. apply lcp_full_l. rewrite lcp_comm. fold M. rewrite nibs_length. lia. }
        exists tr, es, (Found rep). split; [reflexivity|]. split; [exact I0|].
        subst rep. cbn [out_of to_leaf lid lkey] in *. split; [|split].
        - destruct (key_eqb_spec (e_key e) k) as [<-|Hne].
          + eapply s_insert_old; eauto.
          + eapply s_insert_shorter; eauto.
        - intros l [= <-]. eauto.
        - discriminate. }
      destruct (Nat.leb_spec (length (lkey rep)) (M / 2)) as [H2|H2].
      { assert (P1 : prefix (lkey rep) k).
        { apply prefix_nibs. apply lcp_full_l. fold M. rewrite nibs_length. lia. }
        exists tr, es, Null. split; [reflexivity|]. split; [exact I0|].
        subst rep. cbn [out_of to_leaf lid lkey] in *. split; [|split; auto; discriminate].
        eapply s_insert_longer; eauto.
        intros E. rewrite E in H2. lia. }
      assert (Comp : compatible es k).
      { intros e' Ie'. split; intros Pf.
        - assert (R' : representative k t 0 = Some (to_leaf e')).
          { apply (rep_longer omax Homax); auto. apply (in_es_leaves tr es); eauto. }
          assert (Er : rep = to_leaf e') by congruence.
          assert (Ekr : lkey rep = e_key e') by (rewrite Er; reflexivity).
          assert (M = 2 * length (e_key e')).
          { unfold M. rewrite Ekr, prefix_lcp; [apply nibs_length|]. apply prefix_nibs; auto. }
          rewrite Ekr in H2. lia.
        - destruct (rep_shorter omax Homax k t 0 (to_leaf e') (nibs k) W) as (r' & R' & _ & Pr).
          + apply (in_es_leaves tr es); eauto.
          + apply prefix_refl.
          + cbn. apply prefix_nibs; auto.
          + rewrite R in R'. injection R' as <-.
            assert (M = 2 * length k).
            { unfold M. rewrite lcp_comm, prefix_lcp; [apply nibs_length|]. auto. }
            lia. }
      destruct (a_leaf a) eqn:Al; cbn [negb].
      2:{ exists tr, es, Null. split; [reflexivity|]. split; [exact I0|].
          split; [|split; auto; discriminate]. apply s_insert_nomem; auto. }
      cbn [leaf_alloc fst snd]. unfold leaf_alloc.
      set (l := Leaf (next_id tr) k).
      destruct (insert_at_ok omax Homax a l rep M eq_refl) with (t := t) (o := 0) as (t' & ok & -> & W' & _ & L');
        try (cbn; lia); auto.
      destruct ok.
      + eexists _, (es ++ [Entry (next_id tr) k 0%N]), (Found l). split; [reflexivity|].
        split; [|split; [|split]].
        * unfold set_root. cbn [root order values next_id]. apply Hnew; auto.
          split; auto. rewrite L', P. apply Permutation_cons_append.
        * cbn. apply s_insert_new; auto. intros ->. simpl in H1. lia.
        * intros l' [= <-]. eexists. split; [apply in_app_iff; right; left; reflexivity|]. reflexivity.
        * discriminate.
      + eexists _, es, Null. split; [reflexivity|]. destruct L' as [L' Hn].
        split; [|split; [|split]]; auto; [|apply s_insert_nomem; auto|discriminate].
        assert (Fl : list_remove l (order tr ++ [l]) = order tr).
        { unfold list_remove. rewrite filter_app. cbn [filter]. unfold leaf_is. rewrite Nat.eqb_refl. cbn.
          rewrite app_nil_r, Ho. apply (filter_fresh _ (next_id tr)).
          intros e' Ie'. apply Hv; auto. }
        split; [|split; [|split]]; cbn [leaf_free set_root order root values next_id]; rewrite ?Fl; auto.
        * split; auto. rewrite L'. auto.
        * intros e' Ie'. destruct (Hv e' Ie'). destruct (Nat.eqb_spec (e_id e') (next_id tr)); [lia|]. split; auto.
    - assert (es = []). { rewrite Ho in Ht. destruct es; auto; discriminate. } subst es.
      destruct (Nat.leb_spec (length k) 0) as [Hk|Hk].
      { destruct k; [|simpl in *; lia]. exists tr, [], Null. split; [reflexivity|]. split; [exact I0|].
        split; [apply s_insert_empty|split; auto; discriminate]. }
      destruct (a_leaf a) eqn:Al; cbn [negb].
      2:{ exists tr, [], Null. split; [reflexivity|]. split; [exact I0|].
        split; [|split; auto; discriminate].
        apply s_insert_nomem; auto. intros e []. }
      unfold leaf_alloc.
      eexists _, ([] ++ [Entry (next_id tr) k 0%N]), (Found (Leaf (next_id tr) k)). split; [reflexivity|].
      split; [|split; [|split]].
      * unfold set_root. cbn [root order values next_id]. apply Hnew; auto.
        rewrite Ht. split; [exact I|]. reflexivity.
      * cbn [out_of lid lkey]. apply s_insert_new; auto; [intros ->; simpl in Hk; lia|intros e []].
      * intros l' [= <-]. eexists. split; [left; reflexivity|]. reflexivity.
      * discriminate.
  Qed.

  Lemma find_mem_ok tr es k : Inv tr es ->
    (exists e, In e es /\ e_key e = k /\ find_mem tr k = Found (to_leaf e)) \/
    ((forall e, In e es -> e_key e <> k) /\ find_mem tr k = Null).
  Proof.
    intros I. pose proof I as I0. destruct I as (Ho & Ht & Hv & ND). unfold find_mem.
    destruct (root tr) as [t|] eqn:Hr; cbn in Ht.
    - destruct Ht as [W P].
      destruct (rep_exists omax Homax k t 0 W) as (rep & R & Ir). rewrite R.
      destruct (proj1 (in_es_leaves tr es t rep I0 Hr) Ir) as (e & Ie & ->).
      destruct (key_eqb_spec (lkey (to_leaf e)) k) as [E|E].
      + left. exists e. rewrite E, Nat.eqb_refl. cbn. auto.
      + right. rewrite andb_false_r. split; auto. intros e' Ie' Ek.
        assert (R' : representative k t 0 = Some (to_leaf e')).
        { apply (rep_longer omax Homax); auto. apply (in_es_leaves tr es); eauto. cbn. rewrite Ek. apply prefix_refl. }
        rewrite R in R'. injection R' as E1 E2. apply E. cbn. congruence.
    - right. rewrite Ht in Ho. destruct es; [|discriminate]. split; auto.
  Qed.

  Lemma to_leaf_id_in e es : NoDup (map e_id es) -> In e es ->
    list_remove (to_leaf e) (map to_leaf es) = map to_leaf (filter (fun e' => negb (e_id e =? e_id e')) es).
  Proof.
    intros _ _. unfold list_remove, leaf_is. cbn.
    induction es as [|e' es IH]; auto. cbn. destruct (e_id e =? e_id e'); cbn; congruence.
  Qed.

  Lemma NoDup_map_filter {A B} (f : A -> B) p l : NoDup (map f l) -> NoDup (map f (filter p l)).
  Proof.
    induction l; simpl; auto. intros H; inversion H; subst.
    destruct (p a); simpl; auto. constructor; auto. intros I. apply H2.
    apply in_map_iff in I. destruct I as (x & <- & I). apply filter_In in I. apply in_map. tauto.
  Qed.

  Lemma id_unique es (e1 e2 : entry) : NoDup (map e_id es) -> In e1 es -> In e2 es -> e_id e1 = e_id e2 -> e1 = e2.
  Proof.
    intros ND I1 I2 E. induction es as [|e es IH]; [contradiction|].
    simpl in ND. inversion ND; subst. destruct I1 as [<-|I1], I2 as [<-|I2]; auto.
    - exfalso. apply H1. rewrite E. apply in_map; auto.
    - exfalso. apply H1. rewrite <- E. apply in_map; auto.
  Qed.

  Lemma remove_ok tr es e : Inv tr es -> In e es ->
    exists tr', remove omax tr (to_leaf e) = Some tr' /\ Inv tr' (delete (e_key e) es).
  Proof.
    intros I Ie. pose proof I as I0. destruct I as (Ho & Ht & Hv & ND).
    assert (Del : filter (fun e' => negb (e_id e =? e_id e')) es = delete (e_key e) es).
    { unfold delete. apply filter_ext_in'. intros e' Ie'. f_equal.
      destruct (Nat.eqb_spec (e_id e) (e_id e')) as [E|E].
      - rewrite (id_unique es e e' ND Ie Ie' E). destruct (key_eqb_spec (e_key e') (e_key e')); congruence.
      - destruct (key_eqb_spec (e_key e') (e_key e)) as [E'|]; auto. exfalso. apply E.
        rewrite (Inv_unique tr es e e'); auto. rewrite E'. apply prefix_refl. }
    assert (Perm : forall t, Permutation (to_leaf e :: t) (map to_leaf es) ->
        Permutation t (map to_leaf (delete (e_key e) es))).
    { intros t P. rewrite <- Del, <- to_leaf_id_in by auto.
      assert (P' : Permutation (list_remove (to_leaf e) (to_leaf e :: t)) (list_remove (to_leaf e) (map to_leaf es))).
      { unfold list_remove. clear - P. induction P; simpl; auto.
        - destruct (negb (leaf_is (to_leaf e) x)); auto.
        - destruct (negb (leaf_is (to_leaf e) y)), (negb (leaf_is (to_leaf e) x)); auto. constructor.
        - etransitivity; eauto. }
      rewrite <- P'. unfold list_remove. cbn [filter]. unfold leaf_is at 1. rewrite Nat.eqb_refl. cbn [negb].
      assert (NDl : NoDup (map lid (to_leaf e :: t))).
      { rewrite P. rewrite map_map. cbn. auto. }
      simpl in NDl. inversion NDl; subst. clear - H1. induction t as [|x t IH]; auto. cbn [filter].
      unfold leaf_is at 1. cbn [to_leaf lid]. destruct (Nat.eqb_spec (e_id e) (lid x)).
      - exfalso. apply H1. left. auto.
      - cbn [negb]. constructor. apply IH. intros X. apply H1. right. auto. }
    destruct (root tr) as [t|] eqn:Hr; cbn in Ht.
    2:{ rewrite Ht in Ho. destruct es; [contradiction|discriminate]. }
    destruct Ht as [W P]. unfold remove. rewrite Hr.
    assert (Il : In (to_leaf e) (leaves t)) by (apply (in_es_leaves tr es); eauto).
    rewrite Ho in P.
    destruct (remove_at_ok omax Homax (to_leaf e) t 0 W Il) as [[-> L]|(t' & -> & W' & _ & L)].
    - eexists. split; [reflexivity|]. rewrite L in P.
      assert (Permutation [] (map to_leaf (delete (e_key e) es))) by (apply Perm; auto).
      apply Permutation_nil in H. 
      split; [|split; [|split]]; cbn [leaf_free set_root order root values next_id].
      + rewrite Ho, to_leaf_id_in, Del; auto.
      + cbn. rewrite Ho, to_leaf_id_in, Del; auto.
      + intros e' Ie'. apply Hv. unfold delete in Ie'. apply filter_In in Ie'. tauto.
      + apply NoDup_map_filter; auto.
    - eexists. split; [reflexivity|]. rewrite L in P.
      split; [|split; [|split]]; cbn [leaf_free set_root order root values next_id].
      + rewrite Ho, to_leaf_id_in, Del; auto.
      + cbn. rewrite Ho, to_leaf_id_in, Del; auto.
      + intros e' Ie'. apply Hv. unfold delete in Ie'. apply filter_In in Ie'. tauto.
      + apply NoDup_map_filter; auto.
  Qed.

  Lemma set_value_leaf k v es : map to_leaf (set_value k v es) = map to_leaf es.
  Proof.
    unfold set_value. rewrite map_map. apply map_ext. intros e. destruct (key_eqb (e_key e) k); auto.
  Qed.

  Lemma do_op_ok tr es o tr' r : Inv tr es -> do_op omax tr o = (tr', r) ->
    exists es', step es o es' r /\ Inv tr' es'.
  Proof.
    intros I D. destruct o as [a k|a k v|k|k|k| |]; cbn [do_op] in D.
    - destruct (insert_mem_ok a tr es k I) as (tr1 & es1 & r1 & E & I1 & S & _). rewrite E in D.
      injection D as <- <-. eauto.
    - unfold set_mem in D.
      destruct (insert_mem_ok a tr es k I) as (tr1 & es1 & r1 & E & I1 & S & Fd & Nl). rewrite E in D.
      destruct r1 as [l| |].
      + injection D as <- <-. destruct (Fd l eq_refl) as (e & Ie & <-).
        exists (set_value (e_key e) v es1). cbn in S. split.
        * eapply s_set_ok; eauto.
        * pose proof I1 as (Ho & Ht & Hv & ND).
          split; [|split; [|split]]; cbn [order root values next_id].
          -- rewrite set_value_leaf. auto.
          -- auto.
          -- intros e' Ie'. unfold set_value in Ie'. apply in_map_iff in Ie'. destruct Ie' as (e0 & Ee & Ie0).
             destruct (Hv e0 Ie0) as [Hv1 Hv2].
             destruct (key_eqb_spec (e_key e0) (e_key e)) as [Ek|Ek]; subst e'; cbn.
             ++ assert (e0 = e). { apply (Inv_unique tr1 es1); auto. rewrite Ek. apply prefix_refl. } subst e0.
                rewrite Nat.eqb_refl. auto.
             ++ split; auto. destruct (Nat.eqb_spec (e_id e0) (e_id e)) as [Ei|]; auto.
                exfalso. apply Ek. rewrite (id_unique es1 e0 e); auto.
          -- unfold set_value. rewrite map_map. erewrite map_ext; [exact ND|].
             intros e'. destruct (key_eqb (e_key e') (e_key e)); auto.
      + injection D as <- <-. rewrite (Nl eq_refl) in *. exists es. split; auto. apply s_set_fail. auto.
      + inversion S.
    - injection D as <- <-. exists es. split; auto.
      destruct (find_mem_ok tr es k I) as [(e & Ie & Ek & ->)|[Hn ->]]; cbn.
      + rewrite Ek. apply s_find; auto.
      + apply s_find_none; auto.
    - injection D as <- <-. exists es. split; auto. unfold get_mem.
      destruct (find_mem_ok tr es k I) as [(e & Ie & Ek & ->)|[Hn ->]]; cbn.
      + destruct I as (_ & _ & Hv & _). destruct (Hv e Ie) as [_ ->]. eapply s_get; eauto.
      + apply s_get_none; auto.
    - destruct (find_mem_ok tr es k I) as [(e & Ie & Ek & F)|[Hn F]]; rewrite F in D.
      + destruct (remove_ok tr es e I Ie) as (tr1 & E1 & I1). rewrite E1 in D. injection D as <- <-.
        exists (delete k es). rewrite Ek in I1. split; auto. eapply s_remove; eauto.
      + injection D as <- <-. exists es. split; auto. apply s_remove_none; auto.
    - injection D as <- <-. exists []. split; [constructor|].
      repeat split; cbn; try constructor; try contradiction.
    - injection D as <- <-. exists es. split; auto.
      assert (E : map (fun l => (lid l, lkey l)) (order tr) = map (fun e => (e_id e, e_key e)) es).
      { destruct I as (-> & _). rewrite map_map. reflexivity. }
      rewrite E. constructor.
  Qed.

  Lemma run_ok ops : forall tr es tr' rs, Inv tr es -> run omax tr ops = (tr', rs) ->
    exists es', steps es ops es' rs /\ Inv tr' es'.
  Proof.
    induction ops as [|o ops IH]; intros tr es tr' rs I R; cbn [run] in R.
    - injection R as <- <-. exists es. split; auto. constructor.
    - destruct (do_op omax tr o) as [tr1 r] eqn:D. destruct (run omax tr1 ops) as [tr2 rs2] eqn:R2.
      injection R as <- <-.
      destruct (do_op_ok _ _ _ _ _ I D) as (es1 & S & I1).
      destruct (IH _ _ _ _ I1 R2) as (es2 & Ss & I2).
      exists es2. split; auto. econstructor; eauto.
  Qed.

  Definition lookup (es : list entry) (k : key) : N :=
    match find (fun e => key_eqb (e_key e) k) es with Some e => e_val e | None => 0%N end.

  Lemma lookup_none es k : (forall e, In e es -> e_key e <> k) -> lookup es k = 0%N.
  Proof.
    intros H. unfold lookup. destruct (find _ es) as [e|] eqn:F; auto.
    apply find_some in F. destruct F as [I E]. destruct (key_eqb_spec (e_key e) k); [|discriminate].
    exfalso. eapply H; eauto.
  Qed.

  Lemma lookup_set es k k' v : (exists e, In e es /\ e_key e = k') ->
    lookup (set_value k' v es) k = if key_eqb k' k then v else lookup es k.
  Proof.
    unfold lookup. induction es as [|e es IH]; intros (e0 & I & E); [contradiction|].
    cbn [set_value map find].
    destruct (key_eqb_spec (e_key e) k') as [Ek|Ek]; cbn [e_key e_val].
    - rewrite Ek. destruct (key_eqb_spec k' k) as [->|Hk]; auto.
      clear IH I E Ek e e0. induction es as [|e es IH]; auto. cbn [map find set_value].
      destruct (key_eqb_spec (e_key e) k') as [Ek'|Ek']; cbn [e_key e_val].
      + rewrite Ek'. destruct (key_eqb_spec k' k); [contradiction|]. auto.
      + destruct (key_eqb (e_key e) k); auto.
    - destruct (key_eqb_spec (e_key e) k) as [Ek2|Ek2].
      + subst. destruct (key_eqb_spec (e_key e0) (e_key e)); [congruence|]. auto.
      + apply IH. destruct I as [<-|I]; [contradiction|]. eauto.
  Qed.

  Lemma lookup_app_new es id k' k : (forall e, In e es -> e_key e <> k') ->
    lookup (es ++ [Entry id k' 0%N]) k = lookup es k.
  Proof.
    intros H. unfold lookup. induction es as [|e es IH]; cbn [app find e_key].
    - destruct (key_eqb k' k); auto.
    - destruct (key_eqb (e_key e) k); auto. apply IH. intros; apply H; simpl; auto.
  Qed.

  Lemma lookup_delete es k k' : lookup (delete k' es) k = if key_eqb k' k then 0%N else lookup es k.
  Proof.
    unfold lookup, delete. induction es as [|e es IH]; cbn [filter find].
    - destruct (key_eqb k' k); auto.
    - destruct (key_eqb_spec (e_key e) k') as [Ek|Ek]; cbn [negb find].
      + rewrite IH, Ek. destruct (key_eqb k' k); auto.
      + destruct (key_eqb_spec (e_key e) k) as [Ek2|Ek2]; auto.
        destruct (key_eqb_spec k' k); [congruence|]. auto.
  Qed.

  Definition keys_in (K : key -> Prop) (es : list entry) : Prop := forall e, In e es -> K (e_key e).

  Lemma step_lookup K es o es' r k v : prefix_free K -> plain_op K o -> K k -> keys_in K es ->
    step es o es' r -> lookup es k = v ->
    keys_in K es' /\ lookup es' k = last_value k [o] v.
  Proof.
    intros [Kne Kpf] Po Kk Kes S L.
    assert (Ins : forall a k' es1 r1, plain_op K (OInsert a k') -> step es (OInsert a k') es1 r1 ->
       keys_in K es1 /\ lookup es1 k = v /\ (forall id k2, r1 = RLeaf id k2 -> k2 = k' /\ exists e, In e es1 /\ e_key e = k') /\ r1 <> RNull).
    { intros a k' es1 r1 (Kk' & A1 & A2 & A3) S1. inversion S1; subst; auto.
      - split; auto. split; auto. split; [|discriminate]. intros ? ? [= <- <-]. eauto.
      - split; [|split; [|split]].
        + intros e Ie. apply in_app_iff in Ie. destruct Ie as [Ie|[<-|[]]]; auto.
        + apply lookup_app_new. intros e Ie E. match goal with C : compatible _ _ |- _ => destruct (C e Ie) as [C1 _] end.
          apply C1. rewrite E. apply prefix_refl.
        + intros ? ? [= <- <-]. split; auto. eexists. split; [apply in_app_iff; right; left; reflexivity|]. auto.
        + discriminate.
      - exfalso. destruct H5 as [H5|[[n H5]|H5]]; rewrite ?A1, ?A2, ?A3 in H5; discriminate.
      - contradiction.
      - exfalso. match goal with N : e_key _ <> _ |- _ => apply N end. apply Kpf; auto.
      - exfalso. match goal with N : e_key _ <> _ |- _ => apply N end. symmetry. apply Kpf; auto. }
    destruct o; cbn [last_value].
    - destruct (Ins _ _ _ _ Po S) as (? & ? & _). auto.
    - inversion S; subst.
      + match goal with H : step _ _ _ _ |- _ => destruct (Ins _ _ _ _ Po H) as (I1 & I2 & I3 & _) end.
        destruct (I3 _ _ eq_refl) as [-> Ex]. split.
        * intros e Ie. unfold set_value in Ie. apply in_map_iff in Ie. destruct Ie as (e0 & <- & Ie).
          specialize (I1 _ Ie). destruct (key_eqb (e_key e0) k0); auto.
        * rewrite lookup_set by auto. rewrite I2. auto.
      + exfalso. match goal with H : step _ _ _ _ |- _ => destruct (Ins _ _ _ _ Po H) as (_ & _ & _ & I4) end. auto.
    - inversion S; subst; auto.
    - inversion S; subst; auto.
    - inversion S; subst.
      + split; [|apply lookup_delete]. intros e' Ie'. apply filter_In in Ie'. apply Kes. tauto.
      + split; auto. destruct (key_eqb_spec k0 k); auto. subst. apply lookup_none; auto.
    - inversion S; subst. split; [intros e []|]. auto.
    - inversion S; subst; auto.
  Qed.

  Lemma last_value_cons o ops k v : last_value k (o :: ops) v = last_value k ops (last_value k [o] v).
  Proof. destruct o; auto. Qed.

  Lemma steps_lookup K k : prefix_free K -> K k -> forall ops es es' rs, steps es ops es' rs ->
    Forall (plain_op K) ops -> keys_in K es -> lookup es' k = last_value k ops (lookup es k).
  Proof.
    intros HK Kk ops es es' rs S. induction S; intros F Kes; auto.
    inversion F; subst. destruct (step_lookup K _ _ _ _ k _ HK H2 Kk Kes H eq_refl) as [K1 L1].
    rewrite last_value_cons, <- L1. auto.
  Qed.

  Lemma Inv_init : Inv trie_init [].
  Proof. repeat split; cbn; try constructor; contradiction. Qed.

  Theorem trie_refines ops tr rs : run omax trie_init ops = (tr, rs) ->
    exists es, steps [] ops es rs.
  Proof.
    intros R. destruct (run_ok ops _ _ _ _ Inv_init R) as (es & S & I). exists es. auto.
  Qed.

  Theorem trie_last_value K ops tr rs k : prefix_free K -> Forall (plain_op K) ops -> K k ->
    run omax trie_init ops = (tr, rs) -> get_mem tr k = Some (last_value k ops 0%N).
  Proof.
    intros HK F Kk R. destruct (run_ok ops _ _ _ _ Inv_init R) as (es & S & I).
    pose proof (steps_lookup K k HK Kk _ _ _ _ S F ltac:(intros e [])) as L. cbn in L.
    change (lookup [] k) with 0%N in L. rewrite <- L.
    unfold get_mem. destruct (find_mem_ok tr es k I) as [(e & Ie & Ek & ->)|[Hn ->]].
    - f_equal. cbn. unfold lookup.
      destruct (find _ es) as [e'|] eqn:Fd.
      + apply find_some in Fd. destruct Fd as [I' E'].
        destruct (key_eqb_spec (e_key e') k) as [E2|]; [|discriminate].
        assert (e' = e). { apply (Inv_unique tr es); auto. rewrite Ek, E2. apply prefix_refl. } subst e'.
        destruct I as (_ & _ & Hv & _). apply Hv; auto.
      + exfalso. apply (find_none _ _ Fd) in Ie. destruct (key_eqb_spec (e_key e) k); [discriminate|contradiction].
    - f_equal. symmetry. apply lookup_none; auto.
  Qed.

  (** ** Strings *)
  Definition str_entries (es : list entry) : Prop :=
    forall e, In e es -> exists s, nul_free s /\ e_key e = cstr s.

  Lemma step_str es o es' r : str_op o -> step es o es' r -> str_entries es -> str_entries es'.
  Proof.
    assert (Ins : forall es a k es' r, step es (OInsert a k) es' r ->
       (exists s, nul_free s /\ k = cstr s) -> str_entries es -> str_entries es').
    { intros es0 a k es1 r0 S H St. inversion S; subst; auto.
      intros e Ie. apply in_app_iff in Ie. destruct Ie as [Ie|[<-|[]]]; auto. }
    intros So S St. destruct o; cbn in So.
    - eapply Ins; eauto.
    - inversion S; subst; auto.
      assert (St' : str_entries es'0) by (eapply Ins; eauto).
      intros e Ie. unfold set_value in Ie. apply in_map_iff in Ie. destruct Ie as (e0 & <- & Ie).
      destruct (St' e0 Ie) as (s & ? & ?). exists s. destruct (key_eqb (e_key e0) k'); auto.
    - inversion S; subst; auto.
    - inversion S; subst; auto.
    - inversion S; subst; auto. intros e' Ie'. apply filter_In in Ie'. apply St. tauto.
    - inversion S; subst; auto. intros e [].
    - inversion S; subst; auto.
  Qed.

  Lemma steps_str es ops es' rs : steps es ops es' rs -> Forall str_op ops -> str_entries es -> str_entries es'.
  Proof.
    induction 1; intros F St; auto. inversion F; subst. apply IHsteps; auto. eapply step_str; eauto.
  Qed.

  Lemma nibs_cstr s : nibs (cstr s) = nibs s ++ [0%N; 0%N].
  Proof. unfold cstr. rewrite nibs_app. reflexivity. Qed.

  Section Str.
    Variable q : list byte.
    Hypothesis Hq : nul_free q.
    Definition strleaf (l : leaf) : Prop := exists s, nul_free s /\ lkey l = cstr s.
    Definition good (l : leaf) : Prop := exists s, lkey l = cstr s /\ prefix s q.

    Lemma cstr_len s : length (cstr s) = S (length s).
    Proof. unfold cstr. rewrite app_length. simpl. lia. Qed.

    Lemma good_nth l i : good l -> i < 2 * (length (lkey l) - 1) -> nth_error (nibs (lkey l)) i = nth_error (nibs (cstr q)) i.
    Proof.
      intros (s & E & [c ->]) Hi. rewrite E, cstr_len in *. rewrite !nibs_cstr, nibs_app.
      rewrite !nth_error_app1 by (rewrite ?app_length, nibs_length; lia). auto.
    Qed.

    Lemma str_zero l i : strleaf l -> 2 * (length (lkey l) - 1) <= i -> i < 2 * length (lkey l) ->
      nth_error (nibs (lkey l)) i = Some 0%N.
    Proof.
      intros (s & _ & E) H1 H2. rewrite E, cstr_len in *. rewrite nibs_cstr.
      rewrite nth_error_app2 by (rewrite nibs_length; lia). rewrite nibs_length.
      destruct (i - 2 * length s) as [|[|n]] eqn:Ei; auto. lia.
    Qed.

    Lemma leaf_len_gt p bm cs l : Forall2 (branch p) (bits bm) cs -> In l (flat_map leaves cs) ->
      length p < 2 * length (lkey l).
    Proof.
      intros F I. destruct (leaf_child _ _ _ _ F I) as (n & Nn & _).
      rewrite <- nibs_length. apply nth_error_Some. congruence.
    Qed.

    (** The first child is the child of nibble 0 if bit 0 is set. *)
    Lemma first_child p bm cs : Forall2 (branch p) (bits bm) cs -> N.testbit bm 0 = true ->
      exists c cs', cs = c :: cs' /\ branch p 0 c /\
        (forall l, In l (flat_map leaves cs) -> nth_error (nibs (lkey l)) (length p) = Some 0%N -> In l (leaves c)).
    Proof.
      intros F T.
      destruct (descend p bm cs 0 F ltac:(lia) T) as (c1 & c & c2 & E & L & F1 & B & F2).
      assert (c1 = []). { unfold low in F1. simpl in F1. inversion F1. auto. }
      subst c1. exists c, c2. split; auto. split; auto. intros l I N0.
      destruct (leaf_child _ _ _ _ F I) as (n & Nn & _ & Hn & Tn & d1 & d & d2 & E' & L' & G1 & D & G2 & Id).
      assert (n = 0%N) by congruence. subst n.
      assert (d1 = []). { unfold low in G1. simpl in G1. inversion G1. auto. }
      subst d1. simpl in E, E'. congruence.
    Qed.

    Lemma terminal_in n t : forall o tl, wf omax o t -> terminal_leaf n t = Some tl -> In tl (leaves t).
    Proof.
      revert t. induction n as [|n IH]; intros t o tl W H; destruct t as [l|b off cs]; cbn [terminal_leaf] in H;
        try (injection H as <-; simpl; auto; fail); try discriminate.
      destruct (N.testbit b 0); [|discriminate]. destruct cs as [|c cs]; [discriminate|].
      apply wf_node in W. destruct W as (_ & _ & W). inversion W; subst.
      simpl. apply in_app_iff. left. eapply IH; eauto. apply H2.
    Qed.

    Lemma terminal_min n t : forall o tl l, wf omax o t -> terminal_leaf n t = Some tl ->
      In l (leaves t) -> strleaf l -> good l -> good tl -> length (lkey tl) <= length (lkey l).
    Proof.
      revert t. induction n as [|n IH]; intros t o tl l W H I Sl Gl Gt; destruct t as [lf|b off cs]; cbn [terminal_leaf] in H.
      - injection H as <-. destruct I as [->|[]]. auto.
      - discriminate.
      - injection H as <-. destruct I as [->|[]]. auto.
      - destruct (N.testbit b 0) eqn:T; [|discriminate].
        pose proof W as W0.
        apply wf_node in W. destruct W as (_ & (p & Lp & F) & W).
        destruct (first_child p b cs F T) as (c & cs' & -> & B & Fc).
        inversion W; subst. destruct H2 as [Wc Pc].
        pose proof (terminal_in _ _ _ _ Wc H) as Itl.
        cbn [leaves] in I.
        destruct (leaf_child _ _ _ _ F I) as (y & Ny & _).
        destruct (N.eq_dec y 0) as [->|Hy].
        + eapply IH; eauto.
        + destruct (Nat.leb_spec (length (lkey tl)) (length (lkey l))) as [|Hlt]; auto. exfalso.
          assert (Nt : nth_error (nibs (lkey tl)) (length p) = Some 0%N).
          { eapply prefix_nth; [apply B; eauto|]. rewrite nth_error_app2, Nat.sub_diag by lia. auto. }
          assert (Hp : length p < 2 * length (lkey l)) by (eapply leaf_len_gt; eauto).
          destruct (Nat.ltb_spec (length p) (2 * (length (lkey l) - 1))).
          * rewrite good_nth in Ny by auto. rewrite good_nth in Nt by (auto; lia). congruence.
          * rewrite str_zero in Ny by auto. congruence.
    Qed.

    (** A good leaf that leaves the search path is the terminal leaf. *)
    Lemma terminal_found t : forall o l x, wf omax o t -> (forall l, In l (leaves t) -> strleaf l) ->
      In l (leaves t) -> good l ->
      (match t with
       | TLeaf _ => True
       | TNode _ off _ => nth_error (nibs (cstr q)) (o + off) = Some x /\ nth_error (nibs (lkey l)) (o + off) <> Some x
       end) ->
      terminal_leaf 2 t = Some l.
    Proof.
      intros o l x W Sl I G Hx. destruct t as [lf|b off cs].
      - destruct I as [->|[]]. reflexivity.
      - destruct Hx as [Hx1 Hx2].
        apply wf_node in W. destruct W as (_ & (p & Lp & F) & W). rewrite <- Lp in *.
        cbn [leaves] in *.
        assert (Hp : length p < 2 * length (lkey l)) by (eapply leaf_len_gt; eauto).
        assert (Hge : 2 * (length (lkey l) - 1) <= length p).
        { destruct (Nat.ltb_spec (length p) (2 * (length (lkey l) - 1))); [|lia].
          rewrite good_nth in Hx2 by auto. congruence. }
        assert (N0 : nth_error (nibs (lkey l)) (length p) = Some 0%N) by (apply str_zero; auto).
        destruct (leaf_child _ _ _ _ F I) as (y & Ny & _ & _ & Ty & _).
        assert (y = 0%N) by congruence. subst y.
        destruct (first_child p b cs F Ty) as (c & cs' & -> & B & Fc).
        cbn [terminal_leaf]. rewrite Ty.
        specialize (Fc l I N0).
        inversion W; subst. destruct H1 as [Wc Pc].
        destruct c as [lf|b2 off2 cs2].
        { destruct Fc as [->|[]]. reflexivity. }
        apply wf_node in Wc. destruct Wc as (_ & (p2 & Lp2 & F2) & W2).
        cbn [leaves pos_node] in *. 
        assert (Hp2 : length p2 < 2 * length (lkey l)) by (eapply leaf_len_gt; eauto).
        assert (N2 : nth_error (nibs (lkey l)) (length p2) = Some 0%N) by (apply str_zero; auto; lia).
        destruct (leaf_child _ _ _ _ F2 Fc) as (y & Ny2 & _ & _ & Ty2 & _).
        assert (y = 0%N) by congruence. subst y.
        destruct (first_child p2 b2 cs2 F2 Ty2) as (c & cs3 & -> & B2 & Fc2).
        rewrite Ty2. specialize (Fc2 l Fc N2).
        destruct c as [lf|b3 off3 cs4].
        { destruct Fc2 as [->|[]]. reflexivity. }
        exfalso. inversion W2; subst. destruct H1 as [Wc2 Pc2].
        apply wf_node in Wc2. destruct Wc2 as (_ & (p3 & Lp3 & F3) & W3).
        cbn [leaves pos_node] in *.
        assert (Hp3 : length p3 < 2 * length (lkey l)) by (eapply leaf_len_gt; eauto).
        lia.
    Qed.

    Lemma firstn_add_split {A} (a b : nat) (l : list A) : firstn (a + b) l = firstn a l ++ firstn b (skipn a l).
    Proof.
      revert l. induction a; intros l; simpl; auto. destruct l; simpl; [destruct b; auto|]. f_equal. auto.
    Qed.

    Lemma check_prefix_ok l skip : strleaf l ->
      firstn skip (lkey l) = firstn skip (cstr q) -> skip + 1 <= length (lkey l) ->
      exists ok, check_prefix (Some l) skip (cstr q) = Some ok /\ (ok = true <-> good l).
    Proof.
      intros (s & Ns & E) Hf Hs. unfold check_prefix.
      assert (Gl : good l -> length (lkey l) <= length (cstr q)).
      { intros (s' & E' & [c Hc]). rewrite E', !cstr_len, Hc, app_length. lia. }
      destruct (Nat.leb_spec (length (lkey l)) (length (cstr q))).
      2:{ exists false. split; auto. split; [discriminate|]. intros G. apply Gl in G. lia. }
      destruct (Nat.leb_spec (skip + 1) (length (lkey l))); [|lia].
      eexists. split; [reflexivity|].
      rewrite E, cstr_len in *. rewrite cstr_len in H.
      replace (S (length s) - skip - 1) with (length s - skip) by lia.
      assert (EE : firstn (length s) (cstr s) = s).
      { unfold cstr. rewrite firstn_app, Nat.sub_diag, firstn_O, app_nil_r. apply firstn_all. }
      assert (Eq : firstn (length s) (cstr q) = firstn (length s) q).
      { unfold cstr. rewrite firstn_app. replace (length s - length q) with 0 by lia. rewrite firstn_O, app_nil_r. auto. }
      assert (Iff : firstn (length s - skip) (skipn skip (cstr q)) = firstn (length s - skip) (skipn skip (cstr s))
                    <-> firstn (length s) q = s).
      { assert (X1 : firstn (length s) q = firstn skip (cstr q) ++ firstn (length s - skip) (skipn skip (cstr q))).
        { rewrite <- Eq. rewrite <- firstn_add_split. f_equal. lia. }
        assert (X2 : s = firstn skip (cstr q) ++ firstn (length s - skip) (skipn skip (cstr s))).
        { rewrite <- Hf, <- firstn_add_split. replace (skip + (length s - skip)) with (length s) by lia. auto. }
        rewrite X1. rewrite X2 at 5. split; [congruence|]. apply app_inv_head. }
      destruct (key_eqb_spec (firstn (length s - skip) (skipn skip (cstr q))) (firstn (length s - skip) (skipn skip (cstr s)))) as [K|K].
      - split; auto. intros _. apply Iff in K. exists s. split; auto. rewrite <- K. apply prefix_firstn.
      - split; [discriminate|]. intros (s' & E' & P). exfalso. apply K, Iff.
        assert (s' = s). { rewrite E in E'. unfold cstr in E'. apply app_inj_tail in E'. symmetry. apply E'. } subst s'.
        destruct P as [c ->]. rewrite firstn_app, Nat.sub_diag, firstn_O, app_nil_r. apply firstn_all.
    Qed.

    Lemma nibs_firstn k i : nibs (firstn i k) = firstn (2 * i) (nibs k).
    Proof.
      revert i. induction k as [|b k IH]; intros i; destruct i; auto.
      cbn [firstn]. change (nibs (b :: firstn i k)) with (nibbles_of b ++ nibs (firstn i k)).
      change (nibs (b :: k)) with (nibbles_of b ++ nibs k).
      replace (2 * S i) with (S (S (2 * i))) by lia. rewrite IH. reflexivity.
    Qed.

    (** Leaves that share [p] share its whole bytes. *)
    Lemma share_bytes p l1 l2 : prefix p (nibs (lkey l1)) -> prefix p (nibs (lkey l2)) ->
      firstn (length p / 2) (lkey l1) = firstn (length p / 2) (lkey l2).
    Proof.
      intros [c1 P1] [c2 P2]. apply nibs_inj. rewrite !nibs_firstn, P1, P2, !firstn_app.
      replace (2 * (length p / 2) - length p) with 0 by lia. auto.
    Qed.

    Definition longest (ls : list leaf) (best res : option leaf) : Prop :=
      match res with
      | Some r => good r /\ (best = Some r \/ In r ls) /\
                  (forall l, In l ls -> good l -> length (lkey l) <= length (lkey r))
      | None => best = None /\ forall l, In l ls -> ~ good l
      end.

    (** [best] is at most as long as the good leaves below, so a good leaf
        below always wins. *)
    Lemma find_prefix_loop_ok t : forall o best skip, wf omax o t -> (forall l, In l (leaves t) -> strleaf l) ->
      (forall l, In l (leaves t) -> firstn skip (lkey l) = firstn skip (cstr q) /\ skip + 1 <= length (lkey l)) ->
      (forall b, best = Some b -> good b) ->
      (forall b l, best = Some b -> In l (leaves t) -> good l -> length (lkey b) <= length (lkey l)) ->
      exists res, find_prefix_loop (cstr q) t o best skip = Some (to_outcome res) /\ longest (leaves t) best res /\
        (forall b r, best = Some b -> res = Some r -> length (lkey b) <= length (lkey r)).
    Proof.
      induction t as [lf|b off cs IH] using tree_rect'; intros o best skip W Sl Sk Gb Mb.
      - cbn [find_prefix_loop].
        destruct (Sk lf) as [Sk1 Sk2]; [simpl; auto|].
        destruct (check_prefix_ok lf skip (Sl lf (or_introl eq_refl)) Sk1 Sk2) as (ok & -> & Hok).
        destruct ok.
        + exists (Some lf). split; auto. assert (G : good lf) by (apply Hok; auto).
          split.
          * cbn. repeat split; auto. intros l [<-|[]] _. auto.
          * intros b0 r Eb [= <-]. eapply Mb; eauto. simpl; auto.
        + exists best. split; auto. split.
          * destruct best as [b0|]; cbn.
            -- repeat split; auto. intros l [<-|[]] G. apply Hok in G. discriminate.
            -- split; auto. intros l [<-|[]] G. apply Hok in G. discriminate.
          * intros b9 r9 E8 E9. replace r9 with b9 by congruence. auto.
      - cbn [find_prefix_loop].
        pose proof W as W0.
        apply wf_node in W. destruct W as ((Hb & Hoff & Hc) & (p & Lp & F) & W).
        assert (Hlen : forall l, In l (leaves (TNode b off cs)) -> o + off < 2 * length (lkey l)).
        { intros l I. rewrite <- Lp. eapply leaf_len_gt; eauto. }
        assert (Gl : forall l, good l -> length (lkey l) <= length (cstr q)).
        { intros l (s' & E' & [c Hcc]). rewrite E', !cstr_len, Hcc, app_length. lia. }
        destruct (Nat.leb_spec (2 * length (cstr q)) (o + off)) as [Hlim|Hlim].
        { exists best. split; auto. split.
          - destruct best as [b0|]; cbn [longest].
            + repeat split; auto. intros l I G. apply Hlen in I. apply Gl in G. lia.
            + split; auto. intros l I G. apply Hlen in I. apply Gl in G. lia.
          - intros b9 r9 E8 E9. replace r9 with b9 by congruence. auto. }
        (* the terminal leaf *)
        assert (Tl : exists ok, check_prefix (terminal_leaf 2 (TNode b off cs)) skip (cstr q) = Some ok /\
           (ok = true <-> exists tl, terminal_leaf 2 (TNode b off cs) = Some tl /\ good tl)).
        { destruct (terminal_leaf 2 (TNode b off cs)) as [tl|] eqn:Et.
          - pose proof (terminal_in _ _ _ _ W0 Et) as It. destruct (Sk tl It) as [Sk1 Sk2].
            destruct (check_prefix_ok tl skip (Sl tl It) Sk1 Sk2) as (ok & -> & Hok).
            exists ok. split; auto. rewrite Hok. split; eauto. intros (tl' & [= ->] & G). auto.
          - exists false. split; auto. split; [discriminate|]. intros (? & [=] & _). }
        destruct Tl as (ok & -> & Hok).
        set (tlf := terminal_leaf 2 (TNode b off cs)) in *.
        set (best' := if ok then tlf else best).
        set (skip' := if ok then (o + off) / 2 else skip).
        rewrite key_nibble_nth.
        destruct (nth_error (nibs (cstr q)) (o + off)) as [x|] eqn:Ex.
        2:{ apply nth_error_None in Ex. rewrite nibs_length in Ex. lia. }
        rewrite bit_test.
        assert (Gb' : forall b0, best' = Some b0 -> good b0).
        { intros b0. unfold best'. destruct ok; auto. intros E0.
          destruct (proj1 Hok eq_refl) as (tl & E1 & G). congruence. }
        assert (Mb' : forall b0 l, best' = Some b0 -> In l (leaves (TNode b off cs)) -> good l -> length (lkey b0) <= length (lkey l)).
        { intros b0 l. unfold best'. destruct ok; eauto. intros E0 I G.
          eapply terminal_min; eauto. }
        assert (Bb : forall b0 b1, best = Some b0 -> best' = Some b1 -> length (lkey b0) <= length (lkey b1)).
        { intros b0 b1 E0. unfold best'. destruct ok.
          - intros E1. eapply Mb; eauto. eapply terminal_in; eauto.
          - intros E1. replace b1 with b0 by congruence. auto. }
        assert (Bn : best' = None -> best = None).
        { unfold best'. destruct ok; auto. intros E0. destruct (proj1 Hok eq_refl) as (tl & E1 & G). congruence. }
        assert (Bin : forall b1, best' = Some b1 -> best = Some b1 \/ In b1 (leaves (TNode b off cs))).
        { intros b1. unfold best'. destruct ok; auto. intros E1. right. eapply terminal_in; eauto. }
        (* a good leaf off the path is best' *)
        assert (Off : forall l, In l (leaves (TNode b off cs)) -> good l ->
            nth_error (nibs (lkey l)) (o + off) <> Some x -> best' = Some l).
        { intros l I G Hn. assert (E0 : tlf = Some l) by (eapply terminal_found; eauto).
          unfold best'. assert (ok = true) by (apply Hok; eauto). subst ok. auto. }
        destruct (N.testbit b x) eqn:Tx; cbn [negb].
        + assert (Hx : (x < 16)%N) by (eapply nib_lt; eauto).
          destruct (descend p b cs x F Hx Tx) as (d1 & d & d2 & E & L & G1 & D & G2).
          assert (Pk : forall f : tree -> option outcome, pick f cs (length d1) = f d) by (intros f; rewrite E; apply pick_app).
          rewrite <- L, Pk.
          rewrite Forall_forall in IH, W.
          assert (Ind : In d cs) by (rewrite E; auto with datatypes).
          assert (Sub : forall l, In l (leaves d) -> In l (leaves (TNode b off cs))).
          { intros l I. cbn [leaves]. apply in_flat_map. eauto. }
          destruct (W d Ind) as [Wd Pd].
          destruct (IH d Ind (o + off) best' skip') as (res & R & Lg & Mr).
          * auto.
          * auto.
          * intros l I. unfold skip'. destruct ok; auto.
            destruct (proj1 Hok eq_refl) as (tl & Et & Gt).
            assert (It : In tl (leaves (TNode b off cs))) by (eapply terminal_in; eauto).
            split; [|specialize (Hlen l (Sub l I)); lia].
            destruct (leaf_child _ _ _ _ F It) as (n1 & _ & P1 & _).
            pose proof (D l I) as P2. apply prefix_app_l in P1, P2.
            rewrite <- Lp, (share_bytes p l tl) by auto.
            destruct Gt as (s & Es & [c Hcq]). specialize (Hlen tl It). rewrite Es, cstr_len in *.
            unfold cstr. rewrite Hcq, !firstn_app. rewrite Lp.
            replace ((o + off) / 2 - length s) with 0 by lia.
            rewrite app_length. replace ((o + off) / 2 - (length s + length c)) with 0 by lia.
            rewrite !firstn_O, !app_nil_r. auto.
          * auto.
          * intros. eapply Mb'; eauto.
          * exists res. split; auto. split.
            -- destruct res as [r|]; cbn [longest] in Lg |- *.
               ++ destruct Lg as (Gr & Or & Mx). split; auto. split.
                  { destruct Or as [Or|Or]; auto. }
                  intros l I G. destruct (leaf_child _ _ _ _ F I) as (y & Ny & _ & _ & _ & _).
                  rewrite Lp in Ny.
                  destruct (N.eq_dec y x) as [->|Hy].
                  { apply Mx; auto.
                    destruct (leaf_child _ _ _ _ F I) as (y & Ny' & _ & Hy' & Ty' & e1 & e & e2 & E' & L' & _ & _ & _ & Ie).
                    rewrite Lp in Ny'. assert (y = x) by congruence. subst y.
                    rewrite E in E'. rewrite <- L in L'.
                    assert (d = e). { apply app_inv_len in E'; [|lia]. destruct E' as [_ E']. congruence. } subst e. auto. }
                  { assert (B' : best' = Some l) by (apply Off; auto; congruence).
                    eapply Mr; eauto. }
               ++ destruct Lg as [Ln Lg]. split; auto. intros l I G.
                  destruct (leaf_child _ _ _ _ F I) as (y & Ny' & _ & Hy' & Ty' & e1 & e & e2 & E' & L' & _ & _ & _ & Ie).
                  rewrite Lp in Ny'.
                  destruct (N.eq_dec y x) as [->|Hy].
                  { rewrite E in E'. rewrite <- L in L'.
                    assert (d = e). { apply app_inv_len in E'; [|lia]. destruct E' as [_ E']. congruence. } subst e.
                    eapply Lg; eauto. }
                  { assert (B' : best' = Some l) by (apply Off; auto; congruence). congruence. }
            -- intros b0 r E0 E1. destruct best' as [b1|] eqn:Eb.
               ++ specialize (Bb b0 b1 E0 eq_refl). specialize (Mr b1 r eq_refl E1). lia.
               ++ specialize (Bn eq_refl). congruence.
        + exists best'. split; auto.
          assert (Offall : forall l, In l (leaves (TNode b off cs)) -> good l -> best' = Some l).
          { intros l I G. apply Off; auto. intros Nx.
            destruct (leaf_child _ _ _ _ F I) as (y & Ny & _ & _ & Ty & _). rewrite Lp in Ny. congruence. }
          split.
          * destruct best' as [b1|] eqn:Eb; cbn [longest].
            -- repeat split; auto. intros l I G. specialize (Offall l I G). replace l with b1 by congruence. auto.
            -- split; auto. intros l I G. specialize (Offall l I G). discriminate.
          * intros b0 r E0 E1. eauto.
    Qed.
  End Str.

  Lemma Inv_root_leaves tr es t : Inv tr es -> str_entries es -> root tr = Some t ->
    wf omax 0 t /\ (forall l, In l (leaves t) -> strleaf l).
  Proof.
    intros I St Hr. split.
    - destruct I as (_ & Ht & _). rewrite Hr in Ht. apply Ht.
    - intros l Il. apply (proj1 (in_es_leaves tr es t l I Hr)) in Il. destruct Il as (e & Ie & ->). apply St; auto.
  Qed.

  Lemma iterate_in tr es ls id k : Inv tr es -> do_op omax tr OIterate = (tr, RAll ls) ->
    (In (id, k) ls <-> exists e, In e es /\ e_id e = id /\ e_key e = k).
  Proof.
    intros (Ho & _) [= <-]. rewrite Ho, map_map. cbn. rewrite in_map_iff. split.
    - intros (e & [= <- <-] & H). eauto.
    - intros (e & H & <- & <-). eauto.
  Qed.

  Lemma root_none_nil tr es : Inv tr es -> root tr = None -> es = [].
  Proof. intros (Ho & Ht & _) Hr. rewrite Hr in Ht. cbn in Ht. rewrite Ht in Ho. destruct es; auto; discriminate. Qed.

  Theorem find_prefix_correct ops q tr rs ls :
    Forall str_op ops -> nul_free q -> run omax trie_init ops = (tr, rs) ->
    do_op omax tr OIterate = (tr, RAll ls) ->
    match out_of (find_prefix tr q) with
    | RLeaf id k => exists s, k = cstr s /\ In (id, k) ls /\ prefix s q /\
        forall id' s', In (id', cstr s') ls -> prefix s' q -> length s' <= length s
    | RNull => forall id s, In (id, cstr s) ls -> ~ prefix s q
    | _ => False
    end.
  Proof.
    intros So Nq R It. destruct (run_ok ops _ _ _ _ Inv_init R) as (es & Ss & I).
    assert (St : str_entries es). { eapply steps_str; eauto. intros e []. }
    unfold find_prefix. destruct (root tr) as [t|] eqn:Hr.
    - destruct (Inv_root_leaves tr es t I St Hr) as [W Sl].
      destruct (find_prefix_loop_ok q Nq t 0 None 0 W Sl) as (res & -> & Lg & _); try discriminate.
      { intros l Il. split; auto. destruct (Sl l Il) as (s & _ & E). rewrite E, cstr_len. lia. }
      destruct res as [l|]; cbn.
      + destruct Lg as ((s & Es & Ps) & [|Il] & Mx); [discriminate|].
        exists s. split; auto. split.
        { apply (iterate_in tr es ls); auto. apply (in_es_leaves tr es) in Il; auto.
          destruct Il as (e & Ie & ->). eauto. }
        split; auto. intros id' s' I' P'.
        apply (iterate_in tr es ls) in I'; auto. destruct I' as (e & Ie & _ & Ek).
        assert (length (lkey (to_leaf e)) <= length (lkey l)).
        { apply Mx. apply (in_es_leaves tr es); eauto. exists s'. auto. }
        cbn in H. rewrite Ek, Es, !cstr_len in H. lia.
      + destruct Lg as [_ Ln]. intros id s I' P'.
        apply (iterate_in tr es ls) in I'; auto. destruct I' as (e & Ie & _ & Ek).
        apply (Ln (to_leaf e)). apply (in_es_leaves tr es); eauto. exists s. auto.
    - cbn. intros id s I' _. apply (iterate_in tr es ls) in I'; auto.
      rewrite (root_none_nil tr es I Hr) in I'. destruct I' as (? & [] & _).
  Qed.

  Lemma prefix_cstr q s : nul_free q -> prefix q (cstr s) -> prefix q s.
  Proof.
    intros Nq [c H]. destruct c as [|x c] using rev_ind.
    - rewrite app_nil_r in H. exfalso. apply Nq. rewrite <- H. unfold cstr. apply in_app_iff. simpl. auto.
    - rewrite app_assoc in H. unfold cstr in H. apply app_inj_tail in H. destruct H as [H _]. exists c. auto.
  Qed.

  Theorem find_postfix_correct ops q tr rs ls :
    Forall str_op ops -> nul_free q -> run omax trie_init ops = (tr, rs) ->
    do_op omax tr OIterate = (tr, RAll ls) ->
    match out_of (find_postfix tr q) with
    | RLeaf id k => exists s, k = cstr s /\ In (id, k) ls /\ prefix q s
    | RNull => forall id s, In (id, cstr s) ls -> ~ prefix q s
    | _ => False
    end.
  Proof.
    intros So Nq R It. destruct (run_ok ops _ _ _ _ Inv_init R) as (es & Ss & I).
    assert (St : str_entries es). { eapply steps_str; eauto. intros e []. }
    unfold find_postfix. destruct (root tr) as [t|] eqn:Hr.
    - destruct (Inv_root_leaves tr es t I St Hr) as [W Sl].
      destruct (rep_exists omax Homax (cstr q) t 0 W) as (rep & Rp & Ir). rewrite Rp.
      destruct (Nat.leb_spec (length q) (length (lkey rep))) as [Hl|Hl]; cbn [andb].
      + destruct (key_eqb_spec (firstn (length q) (lkey rep)) q) as [E|E]; cbn.
        * destruct (Sl rep Ir) as (s & _ & Es). exists s. split; auto. split.
          { apply (iterate_in tr es ls); auto. apply (in_es_leaves tr es) in Ir; auto.
            destruct Ir as (e & Ie & ->). eauto. }
          apply prefix_cstr; auto. rewrite <- Es, <- E. apply prefix_firstn.
        * intros id s I' P'.
          apply (iterate_in tr es ls) in I'; auto. destruct I' as (e & Ie & _ & Ek).
          destruct (rep_shorter omax Homax (cstr q) t 0 (to_leaf e) (nibs q) W) as (r & Rr & _ & Pr).
          { apply (in_es_leaves tr es); eauto. }
          { apply prefix_nibs. exists [x00]. auto. }
          { apply prefix_nibs. cbn. rewrite Ek. destruct P' as [c ->]. exists (c ++ [x00]). unfold cstr. rewrite app_assoc. auto. }
          rewrite Rp in Rr. injection Rr as <-. apply prefix_nibs in Pr. destruct Pr as [c Hc].
          apply E. rewrite Hc, firstn_app, Nat.sub_diag, firstn_O, app_nil_r. apply firstn_all.
      + cbn. intros id s I' P'.
        apply (iterate_in tr es ls) in I'; auto. destruct I' as (e & Ie & _ & Ek).
        destruct (rep_shorter omax Homax (cstr q) t 0 (to_leaf e) (nibs q) W) as (r & Rr & _ & Pr).
        { apply (in_es_leaves tr es); eauto. }
        { apply prefix_nibs. exists [x00]. auto. }
        { apply prefix_nibs. cbn. rewrite Ek. destruct P' as [c ->]. exists (c ++ [x00]). unfold cstr. rewrite app_assoc. auto. }
        rewrite Rp in Rr. injection Rr as <-. apply prefix_nibs in Pr. destruct Pr as [c Hc].
        rewrite Hc, app_length in Hl. lia.
    - cbn. intros id s I' _. apply (iterate_in tr es ls) in I'; auto.
      rewrite (root_none_nil tr es I Hr) in I'. destruct I' as (? & [] & _).
  Qed.
End Refine.
