From Coq Require Import String.
From Coq Require Import List NArith Arith Bool Lia ZifyBool ZifyNat ZifyN Init.Byte.
From Coq Require Import Strings.Byte.
From Verif Require Import TrieModel TrieSpec TrieBits TrieRefine PwModel PwProofs ExtTrie PathModel PathSpec PathProofs MtabModel MtabSpec.
Import ListNotations.
Local Open Scope nat_scope.

Lemma str_eqb_ok a b : str_eqb a b = true <-> a = b.
Proof. unfold str_eqb. destruct (list_eq_dec byte_eq_dec a b); split; congruence. Qed.
Lemma bytes_length k : forall n, length (bytes_of k n) = k.
Proof. induction k; intros n; cbn; auto. Qed.
Lemma bytes_inj k : forall a b, (a < 256 ^ N.of_nat k)%N -> (b < 256 ^ N.of_nat k)%N -> bytes_of k a = bytes_of k b -> a = b.
Proof.
  induction k as [|k IH]; intros a b A B E.
  - cbn in A, B. lia.
  - rewrite Nat2N.inj_succ, N.pow_succ_r' in A, B. cbn [bytes_of] in E. injection E as E1 E2.
    apply IH in E2; [|apply N.div_lt_upper_bound; lia|apply N.div_lt_upper_bound; lia].
    apply (f_equal Byte.to_N) in E1. rewrite !byte_of_value in E1.
    rewrite (N.div_mod a 256), (N.div_mod b 256) by lia. congruence.
Qed.
Lemma mnt_key_inj a b : (a < 2 ^ 64)%N -> (b < 2 ^ 64)%N -> mnt_key a = mnt_key b -> a = b.
Proof. intros A B. apply bytes_inj; exact A || exact B. Qed.

Lemma skipn_exact {T} (a b : list T) : skipn (length a) (a ++ b) = b.
Proof. rewrite skipn_app, skipn_all, Nat.sub_diag. reflexivity. Qed.

Lemma absolute_snoc ns n : absolute (ns ++ [n]) = concat (map (cons slash) ns) ++ slash :: n.
Proof. unfold absolute. destruct (ns ++ [n]) eqn:E; [destruct ns; discriminate|]. rewrite <- E, map_app, concat_app. cbn. rewrite app_nil_r. reflexivity. Qed.
Lemma canonical_form p : canonical p -> ~ In x00 p /\ (p = [slash] \/ exists d n, is_name n /\ p = d ++ slash :: n).
Proof.
  intros (ns & F & ->). split.
  - assert (X : ~ In x00 (concat (map (cons slash) ns))).
    { induction F as [|n ns [_ N] F IH]; [intros []|]. cbn. intros [E|I]; [discriminate|]. apply in_app_or in I. tauto. }
    unfold absolute. destruct ns; [|exact X]. cbn. intros [E|[]]. discriminate.
  - destruct ns as [|n ns _] using rev_ind; [left; reflexivity|right]. apply Forall_app in F. destruct F as (_ & F). inversion F; subst. exists (concat (map (cons slash) ns)), n. split; [tauto|apply absolute_snoc].
Qed.

Section Tries.
  Variable omax : nat.
  Hypothesis Homax : 1 <= omax.
  Definition K8 (k : key) : Prop := length k = 8.
  Lemma K8_free : TrieSpec.prefix_free K8.
  Proof.
    split; [discriminate|]. intros a b A B [c ->]. unfold K8 in *. rewrite app_length in B. destruct c; [rewrite app_nil_r; reflexivity|cbn in B; lia].
  Qed.
  Definition holds (tr : trie) (f : key -> N) : Prop := exists es, Inv omax tr es /\ keys_in K8 es /\ forall k, K8 k -> TrieRefine.lookup es k = f k.
  Lemma holds_init : holds trie_init (fun _ => 0%N).
  Proof. exists []. split; [apply Inv_init|]. split; [intros e []|]. reflexivity. Qed.
  Lemma holds_set tr f k v : holds tr f -> K8 k -> exists tr', set_mem omax ok tr k v = (tr', Some true) /\ holds tr' (fun k' => if key_eqb k k' then v else f k').
  Proof.
    intros (es & I & Ke & L) Kk.
    assert (P : plain_op K8 (OSet ok k v)) by (cbn; auto).
    destruct (do_op omax tr (OSet ok k v)) as [tr' r] eqn:E. destruct (do_op_ok omax Homax _ _ _ _ _ I E) as (es' & S & I').
    assert (G : holds tr' (fun k' => if key_eqb k k' then v else f k')).
    { exists es'. split; [exact I'|]. split.
      - destruct (step_lookup K8 es _ es' r k _ K8_free P Kk Ke S eq_refl). assumption.
      - intros k' K'. destruct (step_lookup K8 es _ es' r k' _ K8_free P K' Ke S eq_refl) as (_ & X). rewrite X, L by exact K'. cbn. destruct (key_eqb k k'); reflexivity. }
    cbn in E. destruct (set_mem omax ok tr k v) as [tr1 [[|]|]]; injection E as <- <-.
    - exists tr1. auto.
    - exfalso. inversion S; subst. match goal with H : step _ (OInsert _ _) _ RNull |- _ => apply null_inv in H; destruct H as [->|(e & Ie & Pe & N)] end; [discriminate Kk|].
      apply N. apply (proj2 K8_free); auto.
    - exfalso. inversion S.
  Qed.
  Lemma holds_get tr f k : holds tr f -> K8 k -> get_mem tr k = Some (f k).
  Proof.
    intros (es & I & Ke & L) Kk. rewrite <- L by exact Kk. unfold get_mem. destruct (find_mem_ok omax Homax tr es k I) as [(e & Ie & Ek & ->)|[Hn ->]].
    - f_equal. cbn. unfold TrieRefine.lookup.
      destruct (find _ es) as [e'|] eqn:Fd.
      + apply find_some in Fd. destruct Fd as [I' E'].
        destruct (key_eqb_spec (e_key e') k) as [E2|]; [|discriminate].
        assert (e' = e) by (apply (Inv_unique omax Homax tr es); auto; rewrite Ek, E2; apply prefix_refl). subst e'.
        destruct I as (_ & _ & Hv & _). apply Hv; auto.
      + exfalso. apply (find_none _ _ Fd) in Ie. destruct (key_eqb_spec (e_key e) k); [discriminate|contradiction].
    - f_equal. symmetry. apply lookup_none; auto.
  Qed.

  Definition has (tr : trie) (A : list (list byte)) : Prop :=
    exists es, Inv omax tr es /\ (forall e, In e es -> exists s, In s A /\ e_key e = cstr s) /\ (forall s, In s A -> exists e, In e es /\ e_key e = cstr s).
  Lemma has_init : has trie_init [].
  Proof. exists []. split; [apply Inv_init|]. split; [intros e []|intros s []]. Qed.
  Lemma has_insert tr A s : has tr A -> Forall nul_free A -> nul_free s -> exists tr' l, insert_mem omax ok tr (cstr s) = (tr', Found l) /\ has tr' (A ++ [s]).
  Proof.
    intros (es & I & H1 & H2) F Ns. rewrite Forall_forall in F.
    destruct (insert_mem_ok omax Homax ok tr es (cstr s) I) as (tr' & es' & r & E & I' & S & _).
    assert (C : (exists e, In e es /\ e_key e = cstr s /\ es' = es) \/ (exists id, es' = es ++ [TrieSpec.Entry id (cstr s) 0%N] )).
    { inversion S; subst; eauto.
      - exfalso. match goal with X : _ \/ _ |- _ => destruct X as [X|[[n X]|X]]; discriminate X end.
      - exfalso. match goal with X : [] = cstr s |- _ => destruct s; discriminate X end.
      - exfalso. match goal with H : In e _ |- _ => destruct (H1 e H) as (s0 & A0 & E0) end. match goal with P : prefix _ _, N : e_key e <> _ |- _ => rewrite E0 in P, N; apply N; f_equal; apply (nul_cstr_prefix s0 s); auto end.
      - exfalso. match goal with H : In e _ |- _ => destruct (H1 e H) as (s0 & A0 & E0) end. match goal with P : prefix _ _, N : e_key e <> _ |- _ => rewrite E0 in P, N; apply N; f_equal; symmetry; apply (nul_cstr_prefix s s0); auto end. }
    assert (R : exists l, r = Found l).
    { destruct r as [l| |]; [eauto| |]; exfalso; cbn in S.
      - apply null_inv in S. destruct S as [X|(e & Ie & Pe & N)]; [destruct s; discriminate X|]. destruct (H1 e Ie) as (s0 & A0 & E0). rewrite E0 in Pe, N. apply N. f_equal. apply nul_cstr_prefix; auto.
      - inversion S. }
    destruct R as (l & ->). exists tr', l. split; [exact E|]. exists es'. split; [exact I'|]. destruct C as [(e & Ie & Ee & ->)|(id & ->)].
    - split; [intros x X; destruct (H1 x X) as (y & Y & Z); exists y; split; [apply in_or_app; auto|exact Z]|]. intros x X. apply in_app_or in X. destruct X as [X|[<-|[]]]; [apply H2, X|exists e; auto].
    - split.
      + intros x X. apply in_app_or in X. destruct X as [X|[<-|[]]]; [destruct (H1 x X) as (y & Y & Z); exists y; split; [apply in_or_app; auto|exact Z]|]. exists s. split; [apply in_or_app; right; left; reflexivity|reflexivity].
      + intros x X. apply in_app_or in X. destruct X as [X|[<-|[]]].
        * destruct (H2 x X) as (e & Ie & Ee). exists e. split; [apply in_or_app; auto|exact Ee].
        * eexists. split; [apply in_or_app; right; left; reflexivity|reflexivity].
  Qed.
  Lemma has_find tr A s : has tr A -> (match find_mem tr (cstr s) with Found _ => true | _ => false end = true <-> In s A).
  Proof.
    intros (es & I & H1 & H2). destruct (find_mem_ok omax Homax tr es (cstr s) I) as [(e & Ie & Ek & ->)|[Hn ->]]; split; intros H; try discriminate.
    - destruct (H1 e Ie) as (x & X & E). rewrite Ek in E. apply cstr_inj in E. congruence.
    - reflexivity.
    - exfalso. destruct (H2 s H) as (e & Ie & E). apply (Hn e Ie E).
  Qed.

  (** ** Parsing *)
  Definition base (p : list byte) : list byte := skipn (xbaseoff p) p.
  Lemma base_nul p : ~ In x00 p -> nul_free (base p).
  Proof. intros H I. apply H. unfold base in I. rewrite <- (firstn_skipn (xbaseoff p) p). apply in_or_app. right. exact I. Qed.
  Definition to_mount (x : list byte * list byte) : mount := mkMount (fst x) (snd x).
  Lemma add_all_ok table : (forall p t, In (p, t) table -> ~ In x00 p) -> forall m A, has (names m) A -> Forall nul_free A ->
    exists m', add_all omax m table = Some m' /\ mounts m' = mounts m ++ map to_mount table /\ types m' = types m /\ types_filled m' = types_filled m /\
      has (names m') (A ++ map (fun x => base (fst x)) table).
  Proof.
    induction table as [|[p t] table IH]; intros Nt m A H F; cbn [add_all].
    - exists m. cbn [map]. rewrite !app_nil_r. auto.
    - unfold bfs_mtab_add. destruct (has_insert _ A (base p) H F (base_nul p (Nt p t (or_introl eq_refl)))) as (tr & l & E & H'). fold (base p). rewrite E.
      destruct (IH (fun p t I => Nt p t (or_intror I)) (mkMtab (mounts m ++ [mkMount p t]) tr (types m) (types_filled m)) (A ++ [base p])) as (m' & E' & X1 & X2 & X3 & X4).
      + exact H'.
      + apply Forall_app. split; [exact F|]. constructor; [|constructor]. apply base_nul, (Nt p t (or_introl eq_refl)).
      + exists m'. cbn [names mounts types types_filled] in *. rewrite <- app_assoc in X1, X4. auto.
  Qed.
  Lemma parse_ok table : (forall p t, In (p, t) table -> canonical p) ->
    exists m, bfs_mtab_parse omax table = Some m /\ mounts m = map to_mount table /\ types m = trie_init /\ types_filled m = false /\ has (names m) (map (fun x => base (fst x)) table).
  Proof.
    intros C. destruct (add_all_ok table (fun p t I => proj1 (canonical_form p (C p t I))) (mkMtab [] trie_init trie_init false) [] has_init (Forall_nil _)) as (m & X). exists m. exact X.
  Qed.

  (** ** Names *)
  Lemma name_base d n : is_name n -> base (d ++ slash :: n) = n /\ exists e off, dir_base (d ++ slash :: n) e n off.
  Proof.
    intros N. pose proof N as N0. assert (D : exists e off, dir_base (d ++ slash :: n) e n off /\ skipn off (d ++ slash :: n) = n).
    { assert (S : forall d, exists q c, (d = q \/ exists r b, d = (r ++ [b]) ++ q /\ b <> slash /\ c = r ++ [b]) /\ q = slashes (length q)).
      { clear. induction d as [|x d (q & c & H & Q)] using rev_ind; [exists [], []; split; [left; reflexivity|reflexivity]|].
        destruct (byte_eq_dec x slash) as [->|Nx].
        - exists (q ++ [slash]), c. split.
          + destruct H as [->|(r & b & -> & Nb & ->)]; [left; reflexivity|]. right. exists r, b. rewrite <- !app_assoc. auto.
          + rewrite app_length. cbn [length]. rewrite Q at 1. unfold slashes. rewrite repeat_app. reflexivity.
        - exists [], (d ++ [x]). split; [right; exists d, x; rewrite app_nil_r; auto|reflexivity]. }
      destruct (S d) as (q & c & H & Q).
      assert (Eq : q ++ slash :: n = slashes (Datatypes.S (length q)) ++ n ++ slashes 0).
      { rewrite app_nil_r, Q at 1. clear. unfold slashes. induction (length q) as [|k IH]; [reflexivity|]. cbn [repeat app] in *. rewrite IH. reflexivity. }
      assert (L : forall k, length (slashes k) = k) by (intros k; apply repeat_length).
      destruct H as [->|(r & b & -> & Nb & ->)].
      - exists [slash], (Datatypes.S (length q)). rewrite Eq. split; [apply db_root_name, N0|]. rewrite app_nil_r. rewrite <- (L (Datatypes.S (length q))) at 1. apply skipn_exact.
      - exists (r ++ [b]), (length (r ++ [b]) + Datatypes.S (length q)). rewrite <- (app_assoc (r ++ [b])), Eq. split; [apply db_path; auto|].
        rewrite app_nil_r, app_assoc. rewrite <- (L (Datatypes.S (length q))) at 1. rewrite <- app_length. apply skipn_exact. }
    destruct D as (e & off & D & Sk). split; [|exists e, off; exact D]. destruct (dir_base_unique _ _ _ _ _ _ _ (path_functions (d ++ slash :: n)) D) as (_ & _ & O). unfold base. rewrite O. exact Sk.
  Qed.

  Lemma canonical_base p : canonical p -> exists e off, dir_base p e (base p) off.
  Proof.
    intros C. destruct (canonical_form p C) as (_ & [->|(d & n & N & ->)]).
    - exists [slash], 0. change (base [slash]) with [slash]. apply (db_root 0).
    - destruct (name_base d n N) as (-> & E). exact E.
  Qed.
  Lemma base_dir p : canonical p -> dir_base p (xdirname p) (base p) (xbaseoff p).
  Proof.
    intros C. destruct (canonical_base p C) as (e & off & D). destruct (dir_base_unique _ _ _ _ _ _ _ (path_functions p) D) as (-> & _ & ->). exact D.
  Qed.
  Theorem names_ok table : (forall p t, In (p, t) table -> canonical p) -> exists m, bfs_mtab_parse omax table = Some m /\
    forall n, bfs_might_be_mount m n = true <-> exists p t d off, In (p, t) table /\ dir_base p d n off.
  Proof.
    intros C. destruct (parse_ok table C) as (m & E & _ & _ & _ & H). exists m. split; [exact E|]. intros n. unfold bfs_might_be_mount. rewrite (has_find _ _ n H), in_map_iff. split.
    - intros ([p t] & <- & I). destruct (canonical_base p (C p t I)) as (d & off & D). exists p, t, d, off. auto.
    - intros (p & t & d & off & I & D). exists (p, t). split; [|exact I]. cbn [fst]. destruct (canonical_base p (C p t I)) as (d' & off' & D').
      destruct (dir_base_unique _ _ _ _ _ _ _ D D') as (_ & X & _). congruence.
  Qed.

  (** ** Types *)
  Section Kernel.
    Variables (D : Type) (open_dir : list byte -> option D) (fstat : D -> option stat) (statat : option D -> list byte -> option stat).
    Notation fill_types := (fill_types omax D open_dir fstat statat).
    Notation open_parent := (open_parent D open_dir fstat).
    Definition contributes (p : list byte) : option N :=
      let '(_, fd, st) := open_parent (xdirname p) in
      match statat fd (match fd with Some _ => base p | None => p end) with
      | None => None
      | Some sb => if not_a_mount st sb then None else Some (mnt_id sb)
      end.
    Fixpoint vals (i : nat) (l : list mount) (v : N) (k : key) : N :=
      match l with
      | [] => v
      | m :: l => vals (S i) l (match contributes (path m) with Some id => if key_eqb (mnt_key id) k then N.of_nat (S i) else v | None => v end) k
      end.
    Lemma mnt_key_8 n : K8 (mnt_key n). Proof. apply bytes_length. Qed.
    Lemma holds_ext tr f g : (forall k, f k = g k) -> holds tr f -> holds tr g.
    Proof. intros E (es & I & Ke & L). exists es. split; [exact I|]. split; [exact Ke|]. intros k Kk. rewrite <- E. apply L, Kk. Qed.
    Lemma next_ok cur dir : (forall c, cur = Some c -> exists d, c = open_parent d) -> next_parent D open_dir fstat cur dir = open_parent dir.
    Proof.
      intros H. destruct cur as [[[d fd] st]|]; [|reflexivity]. cbn [next_parent]. destruct (str_eqb d dir) eqn:E; [|reflexivity]. apply str_eqb_ok in E.
      destruct (H _ eq_refl) as (d' & Ed). rewrite Ed. unfold open_parent in Ed. injection Ed as -> _ _. congruence.
    Qed.
    Lemma fill_ok l : forall i cur tr f, (forall c, cur = Some c -> exists d, c = open_parent d) -> holds tr f ->
      exists tr', fill_types i l cur tr = Some tr' /\ holds tr' (fun k => vals i l (f k) k).
    Proof.
      induction l as [|m l IH]; intros i cur tr f C H; cbn [MtabModel.fill_types vals].
      - exists tr. auto.
      - rewrite (next_ok cur (xdirname (path m)) C). fold (base (path m)).
        unfold contributes. assert (Cn : forall c, Some (open_parent (xdirname (path m))) = Some c -> exists d, c = open_parent d) by (intros c Ec; injection Ec as <-; eauto).
        pose proof (fun tr f => IH (S i) _ tr f Cn) as IH'.
        destruct (open_parent (xdirname (path m))) as [[d fd] st]. destruct (statat fd _) as [sb|]; [|apply IH', H].
        destruct (not_a_mount st sb); [apply IH', H|].
        destruct (holds_set tr f (mnt_key (mnt_id sb)) (N.of_nat (S i)) H (mnt_key_8 _)) as (tr1 & E & H1). rewrite E.
        destruct (IH' tr1 _ H1) as (tr2 & E2 & H2). exists tr2. split; [exact E2|]. eapply holds_ext, H2. reflexivity.
    Qed.
    Lemma vals_case l k : forall i v, (vals i l v k = v /\ forall m, In m l -> forall id, contributes (path m) = Some id -> mnt_key id <> k) \/
      exists before m after id, l = before ++ m :: after /\ vals i l v k = N.of_nat (S (i + length before)) /\ contributes (path m) = Some id /\ mnt_key id = k /\
        forall m', In m' after -> forall id', contributes (path m') = Some id' -> mnt_key id' <> k.
    Proof.
      induction l as [|m l IH]; intros i v; cbn [vals]; [left; split; [reflexivity|intros m []]|].
      set (v1 := match contributes (path m) with Some id => if key_eqb (mnt_key id) k then N.of_nat (S i) else v | None => v end).
      destruct (IH (S i) v1) as [(E & N)|(b & m1 & a & id & -> & E & C & Ki & N)].
      - rewrite E. unfold v1. destruct (contributes (path m)) as [id|] eqn:C.
        + destruct (key_eqb_spec (mnt_key id) k) as [Ek|Ek].
          * right. exists [], m, l, id. cbn. rewrite Nat.add_0_r. auto.
          * left. split; [reflexivity|]. intros m' [<-|I]; [congruence|apply N, I].
        + left. split; [reflexivity|]. intros m' [<-|I]; [congruence|apply N, I].
      - right. exists (m :: b), m1, a, id. cbn [length app]. split; [reflexivity|]. split; [rewrite E; f_equal; lia|]. auto.
    Qed.

    Variables (w : world) (table : list (list byte * list byte)).
    Hypothesis R : right w table.
    Hypothesis T : tells w table open_dir fstat statat.
    Definition final (s : stat) : list byte :=
      match vals 0 (map to_mount table) 0 (mnt_key (mnt_id s)) with
      | 0%N => unknown
      | v => match nth_error (map to_mount table) (N.to_nat v - 1) with Some x => type x | None => [] end
      end.
    Lemma sees p : canonical p -> let fd := open_dir (xdirname p) in statat fd (match fd with Some _ => base p | None => p end) = at_path w p.
    Proof.
      intros C. cbv zeta. destruct (open_dir (xdirname p)) as [d|] eqn:E; [|apply (t_path _ _ _ _ _ T)]. apply (t_name _ _ _ _ _ T p (xdirname p) (base p) (xbaseoff p) d); auto using base_dir.
    Qed.
    Lemma contributes_some p t id : In (p, t) table -> contributes p = Some id -> exists s, at_path w p = Some s /\ mounted w p = true /\ id = mnt_id s.
    Proof.
      intros I H. pose proof (r_paths _ _ R p t I) as C. unfold contributes, open_parent in H. rewrite (sees p C) in H. destruct (at_path w p) as [s|] eqn:E; [|discriminate].
      exists s. split; [reflexivity|]. destruct (not_a_mount _ s) eqn:Nm; [discriminate|]. injection H as <-. split; [|reflexivity].
      destruct (mounted w p) eqn:M; [reflexivity|]. exfalso.
      destruct (r_others _ _ R p t s I E M) as (d & ps & s' & P & Ed & Es & Dv & Io). assert (s' = s) by congruence. subst s'.
      destruct P as (n & off & P). destruct (dir_base_unique _ _ _ _ _ _ _ P (base_dir p C)) as (-> & _ & _).
      destruct (t_others _ _ _ _ _ T p t (xdirname p) I M) as (fd & Eo & Ef); [exists (base p), (xbaseoff p); apply base_dir, C|].
      rewrite Eo, Ef, Ed in Nm. cbn in Nm. rewrite Dv, N.eqb_refl in Nm. destruct (N.eqb_spec (ino ps) (ino s)); [contradiction|discriminate].
    Qed.
    Lemma mounted_contributes p t s : In (p, t) table -> at_path w p = Some s -> ~ same_device w p -> contributes p = Some (mnt_id s).
    Proof.
      intros I E Ns. pose proof (r_paths _ _ R p t I) as C. unfold contributes, open_parent. rewrite (sees p C), E.
      destruct (not_a_mount _ s) eqn:Nm; [|reflexivity]. exfalso. apply Ns. destruct (open_dir (xdirname p)) as [d|] eqn:Ed; [|discriminate]. destruct (fstat d) as [ps|] eqn:Ef; [|discriminate].
      exists (xdirname p), ps, s. split; [exists (base p), (xbaseoff p); apply base_dir, C|]. split; [apply (t_open _ _ _ _ _ T (xdirname p) d); auto|]. split; [exact E|].
      cbn in Nm. apply andb_true_iff in Nm. destruct Nm as (N1 & N2). apply N.eqb_eq in N1. apply negb_true_iff, N.eqb_neq in N2. auto.
    Qed.
    Lemma in_to_mount m l : In m (map to_mount l) -> In (path m, type m) l.
    Proof. intros I. apply in_map_iff in I. destruct I as ([p t] & <- & I). exact I. Qed.
    Lemma map_split l : forall b m a, map to_mount l = b ++ m :: a -> exists b' a', l = b' ++ (path m, type m) :: a' /\ b = map to_mount b' /\ a = map to_mount a'.
    Proof.
      induction l as [|[p t] l IH]; intros b m a E; [destruct b; discriminate|]. destruct b as [|x b]; cbn in E.
      - injection E as <- <-. exists [], l. auto.
      - injection E as <- E. destruct (IH b m a E) as (b' & a' & -> & -> & ->). exists ((p, t) :: b'), a'. auto.
    Qed.
    Lemma final_ok s : (mnt_id s < 2 ^ 64)%N ->
      (final s = type_of w (mnt_id s) /\ vals 0 (map to_mount table) 0 (mnt_key (mnt_id s)) <> 0%N) \/
      (final s = unknown /\ vals 0 (map to_mount table) 0 (mnt_key (mnt_id s)) = 0%N).
    Proof.
      intros B. unfold final. destruct (vals_case (map to_mount table) (mnt_key (mnt_id s)) 0 0%N) as [(E & N)|(b & m & a & id & El & E & C & Ki & N)].
      - right. rewrite E. split; reflexivity.
      - left. rewrite E. split; [|lia]. cbn [plus]. change (N.of_nat (S (length b))) with (N.pos (Pos.of_succ_nat (length b))). cbv iota.
        replace (N.to_nat (N.pos (Pos.of_succ_nat (length b))) - 1) with (length b) by lia. rewrite El, nth_error_app2, Nat.sub_diag by lia. cbn [nth_error].
        destruct (map_split table b m a El) as (b' & a' & Et & -> & ->).
        assert (I : In (path m, type m) table) by (rewrite Et; apply in_elt).
        destruct (contributes_some _ _ _ I C) as (r & Er & M & ->).
        apply mnt_key_inj in Ki; [|eapply r_ids; eauto|exact B]. rewrite <- Ki.
        apply (r_types _ _ R b' (path m) (type m) a' r Et); auto. intros J. apply in_map_iff in J. destruct J as ([p t] & Ep & J). cbn in Ep. subst p.
        apply (N (mkMount (path m) t)) with (id' := mnt_id r); [apply in_map_iff; exists (path m, t); auto|exact C|congruence].
    Qed.
    Lemma fstype_filled m s : mounts m = map to_mount table -> types_filled m = true -> holds (types m) (fun k => vals 0 (map to_mount table) 0 k) ->
      (mnt_id s < 2 ^ 64)%N -> bfs_fstype omax D open_dir fstat statat m s = Some (m, final s).
    Proof.
      intros M F H B. unfold bfs_fstype, final. rewrite F, (holds_get _ _ _ H (mnt_key_8 _)), M.
      destruct (vals_case (map to_mount table) (mnt_key (mnt_id s)) 0 0%N) as [(E & N)|(b & x & a & id & El & E & C & Ki & N)].
      - rewrite E. reflexivity.
      - rewrite E. cbn [plus]. change (N.of_nat (S (length b))) with (N.pos (Pos.of_succ_nat (length b))). cbv iota.
        replace (N.to_nat (N.pos (Pos.of_succ_nat (length b))) - 1) with (length b) by lia. rewrite El, nth_error_app2, Nat.sub_diag by lia. reflexivity.
    Qed.
    Lemma fstypes_filled m l : mounts m = map to_mount table -> types_filled m = true -> holds (types m) (fun k => vals 0 (map to_mount table) 0 k) ->
      Forall (fun s => (mnt_id s < 2 ^ 64)%N) l -> fstypes omax D open_dir fstat statat m l = Some (map final l).
    Proof.
      intros M F H. induction l as [|s l IH]; intros B; [reflexivity|]. inversion B; subst. cbn [fstypes map]. rewrite fstype_filled, IH by auto. reflexivity.
    Qed.
    Lemma fstypes_all m l : bfs_mtab_parse omax table = Some m -> Forall (fun s => (mnt_id s < 2 ^ 64)%N) l -> fstypes omax D open_dir fstat statat m l = Some (map final l).
    Proof.
      intros P B. destruct (parse_ok table (r_paths _ _ R)) as (m' & P' & Mo & Ty & Tf & _). assert (m' = m) by congruence. subst m'.
      destruct l as [|s l]; [reflexivity|].
      destruct (fill_ok (mounts m) 0 None (types m) (fun _ => 0%N)) as (tr & E & H); [discriminate|rewrite Ty; apply holds_init|]. rewrite Mo in E, H.
      assert (X : forall s, bfs_fstype omax D open_dir fstat statat m s = bfs_fstype omax D open_dir fstat statat (mkMtab (mounts m) (names m) tr true) s).
      { intros x. unfold bfs_fstype at 1. rewrite Tf. unfold bfs_mtab_fill_types. rewrite Mo, E. reflexivity. }
      change (s :: l) with ([s] ++ l). transitivity (fstypes omax D open_dir fstat statat (mkMtab (mounts m) (names m) tr true) (s :: l)).
      - cbn [app fstypes]. rewrite X. reflexivity.
      - apply fstypes_filled; auto.
    Qed.
  End Kernel.
End Tries.

Theorem fstype_sound omax : 1 <= omax -> forall (D : Type) open_dir fstat statat w table, right w table -> @tells w table D open_dir fstat statat ->
  exists m, bfs_mtab_parse omax table = Some m /\ forall l, Forall (fun s => (mnt_id s < 2 ^ 64)%N) l ->
  exists ts, fstypes omax D open_dir fstat statat m l = Some ts /\
    Forall2 (fun s t => t = type_of w (mnt_id s) \/
      t = unknown_type /\ forall p t' r, In (p, t') table -> at_path w p = Some r -> mnt_id r = mnt_id s -> same_device w p) l ts.
Proof.
  intros H D open_dir fstat statat w table R T. destruct (parse_ok omax H table (r_paths _ _ R)) as (m & P & _). exists m. split; [exact P|]. intros l B.
  exists (map (final D open_dir fstat statat table) l). split; [apply (fstypes_all omax H D open_dir fstat statat w table R m l P B)|].
  induction B as [|s l Bs B IH]; cbn [map]; constructor; [|exact IH].
  destruct (final_ok omax H D open_dir fstat statat w table R T s Bs) as [(E & _)|(E & V)]; [left; exact E|right]. split; [exact E|].
  intros p t r I Ep Ei. assert (X : same_device w p \/ ~ same_device w p).
  { destruct (contributes D open_dir fstat statat p) as [id|] eqn:C.
    - exfalso. destruct (contributes_some D open_dir fstat statat w table R T p t id I C) as (r' & Er & M & ->). assert (r' = r) by congruence. subst r'.
      destruct (vals_case omax H D open_dir fstat statat (map to_mount table) (mnt_key (mnt_id s)) 0 0%N) as [(_ & N)|(b & m' & a & id & _ & E' & _)]; [|rewrite E' in V; lia].
      apply (N (to_mount (p, t)) (in_map to_mount _ _ I) (mnt_id r) C). congruence.
    - left. unfold contributes, open_parent in C. pose proof (r_paths _ _ R p t I) as Cp. rewrite (sees D open_dir fstat statat w table T p Cp), Ep in C.
      destruct (not_a_mount _ r) eqn:Nm; [|discriminate]. destruct (open_dir (xdirname p)) as [d|] eqn:Ed; [|discriminate]. destruct (fstat d) as [ps|] eqn:Ef; [|discriminate].
      exists (xdirname p), ps, r. split; [exists (base p), (xbaseoff p); apply base_dir, Cp|]. split; [apply (t_open _ _ _ _ _ T (xdirname p) d); auto|]. split; [exact Ep|].
      cbn in Nm. apply andb_true_iff in Nm. destruct Nm as (N1 & N2). apply N.eqb_eq in N1. apply negb_true_iff, N.eqb_neq in N2. auto. }
  destruct X as [X|X]; [exact X|]. exfalso.
  destruct (vals_case omax H D open_dir fstat statat (map to_mount table) (mnt_key (mnt_id s)) 0 0%N) as [(_ & N)|(b & m' & a & id & _ & E' & _)]; [|rewrite E' in V; lia].
  apply (N (to_mount (p, t)) (in_map to_mount _ _ I) (mnt_id r)); [|congruence]. apply (mounted_contributes D open_dir fstat statat w table R T p t r I Ep X).
Qed.

(** ** A system with some paths, to show that there are such systems *)
Lemma parent_absolute ns n : Forall (fun n => is_name n /\ ~ In x00 n) (ns ++ [n]) -> exists off, dir_base (absolute (ns ++ [n])) (absolute ns) n off.
Proof.
  intros F. rewrite absolute_snoc. apply Forall_app in F. destruct F as (F & Fn). inversion Fn as [|? ? (N & _) _]; subst.
  destruct ns as [|n' ns _] using rev_ind.
  - exists 1. cbn. pose proof (db_root_name n 0 0 N) as X. cbn in X. rewrite app_nil_r in X. exact X.
  - apply Forall_app in F. destruct F as (_ & F). inversion F as [|? ? ((N1 & N2) & _) _]; subst.
    rewrite absolute_snoc. rewrite map_app, concat_app. cbn [map concat]. rewrite app_nil_r.
    destruct n' as [|c n' _] using rev_ind; [contradiction N1; reflexivity|].
    exists (length ((concat (map (cons slash) ns) ++ slash :: n') ++ [c]) + 1). change (slash :: n' ++ [c]) with ((slash :: n') ++ [c]). rewrite app_assoc.
    pose proof (db_path (concat (map (cons slash) ns) ++ slash :: n') c n 0 0 N) as X. cbn [slashes repeat app] in X. rewrite app_nil_r in X. apply X. intros ->. apply N2. apply in_or_app. right. left. reflexivity.
Qed.
Section System.
  Variable (f : list byte -> option stat).
  Definition statat_of (d : option (list byte)) (n : list byte) : option stat :=
    match d with
    | None => f n
    | Some d => if str_eqb n [slash] then f [slash] else if str_eqb d [slash] then f (d ++ n) else f (d ++ slash :: n)
    end.
  Lemma statat_of_ok p dir n off : canonical p -> dir_base p dir n off -> statat_of (Some dir) n = f p.
  Proof.
    intros (ns & F & ->) D. destruct ns as [|x ns _] using rev_ind.
    - destruct (dir_base_unique _ _ _ _ _ _ _ D (db_root 0)) as (_ & -> & _). reflexivity.
    - destruct (parent_absolute ns x F) as (o & P). destruct (dir_base_unique _ _ _ _ _ _ _ D P) as (-> & -> & _).
      apply Forall_app in F. destruct F as (F & Fn). inversion Fn as [|? ? ((N1 & N2) & _) _]; subst.
      cbn [statat_of]. destruct (str_eqb x [slash]) eqn:E; [apply str_eqb_ok in E; subst x; exfalso; apply N2; left; reflexivity|].
      rewrite absolute_snoc. destruct ns as [|y ns _] using rev_ind; [reflexivity|].
      destruct (str_eqb (absolute (ns ++ [y])) [slash]) eqn:E2.
      + apply str_eqb_ok in E2. apply Forall_app in F. destruct F as (_ & F). inversion F as [|? ? ((N3 & N4) & _) _]; subst.
        rewrite absolute_snoc in E2. destruct (concat (map (cons slash) ns)) as [|c r]; cbn in E2; [injection E2 as ->; contradiction N3; reflexivity|]. injection E2 as _ E2. destruct r; discriminate.
      + unfold absolute. destruct (ns ++ [y]) eqn:E3; [destruct ns; discriminate|]. reflexivity.
  Qed.
  Lemma tells_of w table : at_path w = f -> tells w table (fun p => Some p) f statat_of.
  Proof.
    intros E. constructor.
    - intros p d s [= <-] H. rewrite E. exact H.
    - intros p. rewrite E. reflexivity.
    - intros p dir n off d C D [= <-]. rewrite E. apply (statat_of_ok p dir n off C D).
    - intros p t dir _ _ _. exists dir. rewrite E. auto.
  Qed.
End System.

(** mount --bind /x /b: the same device, so that the type is not found *)
Definition b (s : string) : list byte := list_byte_of_string s.
Arguments b s%string_scope.
Definition bind_stat (p : list byte) : option stat :=
  if str_eqb p (b "/") then Some (mkStat 1 2 10) else if str_eqb p (b "/b") then Some (mkStat 1 5 11) else None.
Definition bind_world : world := mkWorld bind_stat (fun p => str_eqb p (b "/") || str_eqb p (b "/b")) (fun _ => b "ext4").
Definition bind_table : list (list byte * list byte) := [(b "/", b "ext4"); (b "/b", b "ext4")].
Lemma bind_right : right bind_world bind_table.
Proof.
  constructor.
  - intros p t [E|[E|[]]]; injection E as <- <-.
    + exists []. split; [constructor|reflexivity].
    + exists [b "b"]. split; [|reflexivity]. constructor; [|constructor]. split; [split; [discriminate|]|]; intros [X|[]]; discriminate.
  - intros before p t after s E _ _ _. assert (I : In (p, t) bind_table) by (rewrite E; apply in_elt). destruct I as [X|[X|[]]]; injection X as <- <-; reflexivity.
  - intros p t s [E|[E|[]]] _ M; injection E as <- <-; discriminate M.
  - intros p s E. cbn in E. unfold bind_stat in E. destruct (str_eqb p _); [injection E as <-; reflexivity|]. destruct (str_eqb p _); [injection E as <-; reflexivity|discriminate].
Qed.
Lemma bind_unknown : exists w table (D : Type) open_dir fstat statat p t s m,
  right w table /\ @tells w table D open_dir fstat statat /\ In (p, t) table /\ mounted w p = true /\ at_path w p = Some s /\ t = type_of w (mnt_id s) /\
  bfs_mtab_parse 64 table = Some m /\ fstypes 64 D open_dir fstat statat m [s] = Some [unknown_type] /\ t <> unknown_type.
Proof.
  destruct (parse_ok 64 ltac:(lia) bind_table (r_paths _ _ bind_right)) as (m & P & _).
  exists bind_world, bind_table, (list byte), (fun p => Some p), bind_stat, (statat_of bind_stat), (b "/b"), (b "ext4"), (mkStat 1 5 11), m.
  split; [exact bind_right|]. split; [apply tells_of; reflexivity|]. split; [right; left; reflexivity|]. split; [reflexivity|]. split; [reflexivity|]. split; [reflexivity|]. split; [exact P|].
  split; [|discriminate].
  rewrite (fstypes_all 64 ltac:(lia) _ (fun p => Some p) bind_stat (statat_of bind_stat) bind_world bind_table bind_right m [mkStat 1 5 11] P); [|repeat constructor].
  vm_compute. reflexivity.
Qed.
