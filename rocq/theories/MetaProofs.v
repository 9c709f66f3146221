(** * Proofs about the tests on a file's metadata *)
From Coq Require Import List NArith ZArith Bool Init.Byte Lia ZifyBool ZifyN.
From Verif Require Import NumModel NumSpec NumProofs MetaModel MetaSpec.
Import ListNotations.
Local Open Scope Z_scope.

Lemma flag_letter c t w : type_flag c = Some (t, w) <-> In (c, t) letters /\ w = (t =? BFS_WHT)%N.
Proof.
  split.
  - intros E. destruct c; try discriminate E; cbn [type_flag] in E; injection E as <- <-; (split; [cbn; tauto|reflexivity]).
  - intros (I & ->). cbn in I. repeat (destruct I as [I | I]; [injection I as <- <-; reflexivity|]). destruct I.
Qed.

Lemma type_loop_ok arg : forall num w,
  (forall m w', type_loop arg num w = Some (m, w') -> exists ts, type_list arg ts) /\
  (forall ts, type_list arg ts -> exists m w', type_loop arg num w = Some (m, w') /\
     (forall i, N.testbit m i = N.testbit num i || existsb (N.eqb i) ts) /\ w' = w || existsb (N.eqb BFS_WHT) ts).
Proof.
  assert (G : forall n arg, (length arg <= n)%nat -> forall num w,
    (forall m w', type_loop arg num w = Some (m, w') -> exists ts, type_list arg ts) /\
    (forall ts, type_list arg ts -> exists m w', type_loop arg num w = Some (m, w') /\
       (forall i, N.testbit m i = N.testbit num i || existsb (N.eqb i) ts) /\ w' = w || existsb (N.eqb BFS_WHT) ts)).
  2:{ exact (G (length arg) arg (le_n _)). }
  clear arg. induction n as [|n IH]; intros arg L num w.
  { destruct arg; [|cbn in L; lia]. split; [discriminate|]. intros ts H. inversion H. }
  destruct arg as [|c arg]; [split; [discriminate|intros ts H; inversion H]|]. cbn [type_loop]. split.
  - intros m w' E. destruct (type_flag c) as [(t & v)|] eqn:F; [|discriminate]. apply flag_letter in F as (F & _).
    destruct arg as [|y arg]; [exists [t]; apply one; exact F|]. destruct (Byte.eqb y ",") eqn:Y; [|discriminate].
    apply Byte.byte_dec_bl in Y. subst y. cbn [length] in L.
    destruct (proj1 (IH arg ltac:(lia) _ _) _ _ E) as (ts & T). exists (t :: ts). apply more; assumption.
  - intros ts H. inversion H as [c0 t I|c0 t arg0 ts0 I T]; subst.
    + rewrite (proj2 (flag_letter c t _) (conj I eq_refl)). eexists _, _. split; [reflexivity|]. split.
      * intros i. rewrite N.lor_spec, N.shiftl_1_l, N.pow2_bits_eqb, N.eqb_sym. cbn [existsb]. rewrite orb_false_r. reflexivity.
      * cbn [existsb]. rewrite orb_false_r, N.eqb_sym. reflexivity.
    + rewrite (proj2 (flag_letter c t _) (conj I eq_refl)). change (Byte.eqb "," ",") with true. cbn iota. cbn [length] in L.
      destruct (proj2 (IH arg0 ltac:(lia) (N.lor num (N.shiftl 1 t)) (w || (t =? BFS_WHT)%N)) ts0 T) as (m & w' & E & B & W).
      exists m, w'. split; [exact E|]. split.
      * intros i. rewrite B, N.lor_spec, N.shiftl_1_l, N.pow2_bits_eqb. cbn [existsb]. rewrite orb_assoc, (N.eqb_sym i t). reflexivity.
      * rewrite W. cbn [existsb]. rewrite orb_assoc, (N.eqb_sym t). reflexivity.
Qed.

Lemma eval_type_bit num t : eval_type num t = N.testbit num t.
Proof.
  unfold eval_type. rewrite N.shiftl_1_l. destruct (N.eqb_spec (N.land (2 ^ t) num) 0) as [E | E]; cbn [negb].
  - assert (X : N.testbit (N.land (2 ^ t) num) t = false) by (rewrite E; apply N.bits_0).
    rewrite N.land_spec, N.pow2_bits_true in X. cbn in X. congruence.
  - destruct (N.testbit num t) eqn:T; [reflexivity|]. destruct E. apply N.bits_inj. intros i. rewrite N.bits_0, N.land_spec, N.pow2_bits_eqb.
    destruct (N.eqb_spec t i); [subst; exact T|reflexivity].
Qed.

Lemma types arg :
  ((exists m w, parse_type arg = Some (m, w)) <-> exists ts, type_list arg ts) /\
  forall ts m w, type_list arg ts -> parse_type arg = Some (m, w) ->
    (forall t, eval_type m t = true <-> In t ts) /\ (w = true <-> In BFS_WHT ts).
Proof.
  destruct (type_loop_ok arg 0 false) as (A & B). split.
  - split; [intros (m & w & E); exact (A m w E)|]. intros (ts & T). destruct (B ts T) as (m & w & E & _). exists m, w. exact E.
  - intros ts m w T E. destruct (B ts T) as (m' & w' & E' & BI & W). unfold parse_type in E. rewrite E in E'. injection E' as <- <-. split.
    + intros t. rewrite eval_type_bit, BI, N.bits_0. cbn [orb]. rewrite existsb_exists. split.
      * intros (x & I & Q). apply N.eqb_eq in Q. subst. exact I.
      * intros I. exists t. split; [exact I|apply N.eqb_refl].
    + rewrite W. cbn [orb]. rewrite existsb_exists. split.
      * intros (x & I & Q). apply N.eqb_eq in Q. subst. exact I.
      * intros I. exists BFS_WHT. split; [exact I|apply N.eqb_refl].
Qed.

Lemma prefixed_looks arg cmp t n : prefixed arg cmp t -> numeral 10 t n [] -> looks_like_icmp arg = true.
Proof.
  intros P (sgn & ds & -> & ND & F & _ & G). apply looks_like_icmp_ok.
  destruct ds as [|c ds]; [contradiction|]. inversion F as [|? ? FC _]; subst.
  assert (S1 : (length sgn <= 1)%nat /\ Forall (fun x => x = "+"%byte \/ x = "-"%byte) sgn).
  { destruct G as [(-> & _) | [(-> & _) | (-> & _)]]; (split; [cbn; lia|try (constructor; [auto|]); constructor]). }
  destruct S1 as (L & FS). destruct cmp; cbn [prefixed] in P.
  - destruct P as (-> & _). exists sgn, c, (ds ++ []). split; [reflexivity|]. split; [lia|]. split; assumption.
  - subst arg. exists ("-"%byte :: sgn), c, (ds ++ []). split; [reflexivity|]. split; [cbn [length]; lia|].
    split; [constructor; auto|assumption].
  - subst arg. exists ("+"%byte :: sgn), c, (ds ++ []). split; [reflexivity|]. split; [cbn [length]; lia|].
    split; [constructor; auto|assumption].
Qed.

Lemma user isspace (SA : sane isspace) getnam arg :
  (forall cmp num, parse_user isspace getnam arg = inl (cmp, num) <-> user_arg getnam arg cmp num).
Proof.
  intros cmp num. unfold parse_user, user_arg. assert (NF : (exists id, getnam arg = Found id) \/ forall id, getnam arg <> Found id).
  { destruct (getnam arg); [left; eauto| |]; right; intros; discriminate. }
  destruct NF as [(id & E) | NF].
  - rewrite E. split.
    + intros X. injection X as <- <-. left. split; reflexivity.
    + intros [(X & ->) | (X & _)]; [injection X as ->; reflexivity|destruct (X id eq_refl)].
  - assert (EQ : forall x, match getnam arg with Found id => inl (BFS_INT_EQUAL, id) | _ => x end = x :> (int_cmp * Z + parse_error)).
    { intros x. destruct (getnam arg) as [id| |] eqn:E; [destruct (NF id eq_refl)| |]; reflexivity. }
    split.
    + intros X. right. split; [exact NF|].
      assert (P : exists r, parse_icmp isspace false arg = inl (cmp, num, r)).
      { destruct (getnam arg) as [id| |]; [destruct (NF id eq_refl)| |]; (destruct (looks_like_icmp arg); [|discriminate]);
          (destruct (parse_icmp isspace false arg) as [[[c n] r]|]; [|discriminate]); injection X as -> ->; exists r; reflexivity. }
      destruct P as (r & P). apply (parse_icmp_ok isspace SA) in P as (t & A & B & [C | ->] & D); [discriminate|].
      exists t. split; [exact A|]. split; [exact B|]. unfold LLONG_MAX in D. lia.
    + intros [(X & _) | (_ & t & A & B & D)]; [destruct (NF _ X)|].
      assert (P : parse_icmp isspace false arg = inl (cmp, num, [])).
      { apply (parse_icmp_ok isspace SA). exists t. split; [exact A|]. split; [exact B|]. split; [right; reflexivity|]. unfold LLONG_MAX. lia. }
      rewrite (prefixed_looks arg cmp t num A B), P. destruct (getnam arg) as [id| |]; [destruct (NF id eq_refl)| |]; reflexivity.
Qed.

Lemma uid_user : exists isspace getnam arg, sane isspace /\ numeral 10 arg 5 [] /\ parse_user isspace getnam arg = inl (BFS_INT_EQUAL, 1000).
Proof.
  exists (fun _ => false), (fun _ => Found 1000), ["5"%byte]. split; [discriminate|]. split; [|reflexivity].
  exists [], ["5"%byte]. split; [reflexivity|]. split; [discriminate|]. split; [constructor; [unfold is_digit_of; cbn; lia|constructor]|].
  split; [exact I|]. left. split; reflexivity.
Qed.

Lemma pair_true (b : bool) : (b, false) = (true, false) <-> b = true.
Proof. split; [congruence|intros ->; reflexivity]. Qed.

Lemma numbers cmp num s : stat_ok s ->
  (eval_uid cmp num (Some s) = (true, false) <-> comparison cmp (uid s) num) /\
  (eval_gid cmp num (Some s) = (true, false) <-> comparison cmp (gid s) num) /\
  (ino s < 2 ^ 63 -> (eval_inum cmp num (Some s) = (true, false) <-> comparison cmp (ino s) num)) /\
  (nlink s < 2 ^ 63 -> (eval_links cmp num (Some s) = (true, false) <-> comparison cmp (nlink s) num)).
Proof.
  intros _. unfold eval_uid, eval_gid, eval_inum, eval_links, with_stat, to_long_long. rewrite !pair_true.
  split; [apply bfs_expr_cmp_ok|]. split; [apply bfs_expr_cmp_ok|]. split.
  - intros L. apply Z.ltb_lt in L. rewrite L. apply bfs_expr_cmp_ok.
  - intros L. apply Z.ltb_lt in L. rewrite L. apply bfs_expr_cmp_ok.
Qed.

Lemma inum_large : exists s num, stat_ok s /\ 0 <= num <= 2 ^ 63 - 1 /\ ino s > num /\
  eval_inum BFS_INT_GREATER num (Some s) = (false, false) /\ eval_inum BFS_INT_LESS num (Some s) = (true, false).
Proof.
  exists (mkStat 1 (2 ^ 63) 1 0 0 0 0 None), 5. unfold stat_ok. cbn [dev ino nlink uid gid size blocks].
  split; [lia|]. split; [lia|]. split; [lia|]. split; reflexivity.
Qed.

Lemma samefile d i s : eval_samefile d i (Some s) = (true, false) <-> dev s = d /\ ino s = i.
Proof. unfold eval_samefile, with_stat. rewrite pair_true, andb_true_iff, !Z.eqb_eq. reflexivity. Qed.

Ltac Zify.zify_post_hook ::= Z.to_euclidean_division_equations.

Lemma sparse s : stat_ok s -> size s + 512 < 2 ^ 63 ->
  exists b, eval_sparse (Some s) = Some (b, false) /\ (b = true <-> blocks s * 512 < size s).
Proof.
  intros (_ & _ & _ & _ & _ & Z0 & B0) L. unfold eval_sparse, LLONG_MAX.
  destruct (Z.ltb_spec (2 ^ 63 - 1) (size s + 512)) as [H | H]; [lia|]. eexists. split; [reflexivity|]. rewrite Z.ltb_lt. split; intros; lia.
Qed.

Lemma sparse_large : exists s, stat_ok s /\ eval_sparse (Some s) = None.
Proof.
  exists (mkStat 1 1 1 0 0 (2 ^ 63 - 1) 0 None). unfold stat_ok. cbn [dev ino nlink uid gid size blocks]. split; [lia|reflexivity].
Qed.

Lemma nouser look s : look (uid s) <> Failed -> eval_nouser look (Some s) = (true, false) <-> look (uid s) = Missing.
Proof. intros H. unfold eval_nouser, with_stat. destruct (look (uid s)); [|split; reflexivity|contradiction]. split; discriminate. Qed.
Lemma nogroup look s : look (gid s) <> Failed -> eval_nogroup look (Some s) = (true, false) <-> look (gid s) = Missing.
Proof. intros H. unfold eval_nogroup, with_stat. destruct (look (gid s)); [|split; reflexivity|contradiction]. split; discriminate. Qed.
Lemma owners look s :
  (look (uid s) <> Failed -> (eval_nouser look (Some s) = (true, false) <-> look (uid s) = Missing)) /\
  (look (gid s) <> Failed -> (eval_nogroup look (Some s) = (true, false) <-> look (gid s) = Missing)) /\
  (look (uid s) = Failed -> snd (eval_nouser look (Some s)) = true) /\
  (look (gid s) = Failed -> snd (eval_nogroup look (Some s)) = true) /\
  (look (uid s) <> Failed -> snd (eval_nouser look (Some s)) = false) /\
  (look (gid s) <> Failed -> snd (eval_nogroup look (Some s)) = false).
Proof.
  split; [apply nouser|]. split; [apply nogroup|]. unfold eval_nouser, eval_nogroup, with_stat.
  split; [intros ->; reflexivity|]. split; [intros ->; reflexivity|].
  split; intros H; [destruct (look (uid s))|destruct (look (gid s))]; try reflexivity; contradiction.
Qed.
Lemma nouser_failed : exists look s, stat_ok s /\ look (uid s) = Failed /\ fst (eval_nouser look (Some s)) = true /\ fst (eval_nogroup look (Some s)) = true.
Proof.
  exists (fun _ => Failed), (mkStat 1 1 1 0 0 0 0 None). unfold stat_ok. cbn [dev ino nlink uid gid size blocks].
  split; [lia|]. split; [reflexivity|]. split; reflexivity.
Qed.

Lemma land_zero a b : (N.land a b = 0)%N <-> forall i, ~ (flag a i /\ flag b i).
Proof.
  unfold flag. split.
  - intros E i (A & B). assert (X : N.testbit (N.land a b) i = false) by (rewrite E; apply N.bits_0).
    rewrite N.land_spec, A, B in X. discriminate.
  - intros H. apply N.bits_inj. intros i. rewrite N.bits_0, N.land_spec. specialize (H i).
    destruct (N.testbit a i), (N.testbit b i); try reflexivity. destruct H. split; reflexivity.
Qed.
Lemma land_all a b : (N.land a b = b)%N <-> forall i, flag b i -> flag a i.
Proof.
  unfold flag. split.
  - intros E i B. rewrite <- E, N.land_spec, andb_true_iff in B. apply B.
  - intros H. apply N.bits_inj. intros i. rewrite N.land_spec. specialize (H i).
    destruct (N.testbit b i); [rewrite H; reflexivity|apply andb_false_r].
Qed.
Lemma not_none a : negb (a =? 0)%N = true <-> exists i, flag a i.
Proof.
  rewrite negb_true_iff, N.eqb_neq. split.
  - intros H. exists (N.log2 a). apply N.bit_log2. exact H.
  - intros (i & F) ->. unfold flag in F. rewrite N.bits_0 in F. discriminate.
Qed.

Lemma flags set clear s fs : attrs s = Some fs ->
  (eval_flags BFS_MODE_EQUAL set clear (Some s) = (true, false) <->
   (forall i, flag fs i <-> flag set i) /\ forall i, flag clear i -> ~ flag fs i) /\
  (eval_flags BFS_MODE_ALL set clear (Some s) = (true, false) <->
   (forall i, flag set i -> flag fs i) /\ forall i, flag clear i -> ~ flag fs i) /\
  (eval_flags BFS_MODE_ANY set clear (Some s) = (true, false) <->
   (exists i, flag set i /\ flag fs i) \/ exists i, flag clear i /\ ~ flag fs i).
Proof.
  intros A. unfold eval_flags, with_stat. rewrite A, !pair_true, !andb_true_iff, orb_true_iff, !N.eqb_eq, land_zero, land_all.
  assert (C : (forall i, ~ (flag fs i /\ flag clear i)) <-> forall i, flag clear i -> ~ flag fs i).
  { split; [intros H i X Y; exact (H i (conj Y X))|intros H i (X & Y); exact (H i Y X)]. }
  rewrite C. split; [|split; [reflexivity|]].
  - split; intros (X & Y); (split; [|exact Y]).
    + subst. intros i. reflexivity.
    + apply N.bits_inj. intros i. specialize (X i). unfold flag in X. destruct (N.testbit fs i), (N.testbit set i); try reflexivity; [destruct X as (X & _)|destruct X as (_ & X)]; discriminate (X eq_refl).
  - rewrite not_none, negb_true_iff, N.eqb_neq. split.
    + intros [(i & F) | F]; [left; exists i; unfold flag in *; rewrite N.land_spec, andb_true_iff in F; tauto|right].
      assert (NZ : N.ldiff clear fs <> 0%N).
      { intros E. apply F. apply land_all. intros i Hi. unfold flag in *. assert (X : N.testbit (N.ldiff clear fs) i = false) by (rewrite E; apply N.bits_0).
        rewrite N.ldiff_spec, Hi in X. cbn [andb] in X. apply negb_false_iff in X. exact X. }
      exists (N.log2 (N.ldiff clear fs)). pose proof (N.bit_log2 _ NZ) as X. rewrite N.ldiff_spec, andb_true_iff, negb_true_iff in X.
      unfold flag. destruct X as (X & Y). split; [exact X|]. rewrite Y. discriminate.
    + intros [(i & X & Y) | (i & X & Y)]; [left; exists i; unfold flag in *; rewrite N.land_spec, X, Y; reflexivity|right].
      intros E. apply Y. exact (proj1 (land_all fs clear) E i X).
Qed.

Lemma no_attrs cmp set clear s : attrs s = None -> eval_flags cmp set clear (Some s) = (false, true).
Proof. intros A. unfold eval_flags, with_stat. rewrite A. reflexivity. Qed.

Lemma empty type sb entries b e : eval_empty type sb entries = (b, e) ->
  (b = true <-> (type = BFS_REG /\ exists s, sb = Some s /\ size s = 0) \/ (type = BFS_DIR /\ entries = Some false)) /\
  (e = true <-> (type = BFS_REG /\ sb = None) \/ (type = BFS_DIR /\ entries = None)).
Proof.
  unfold eval_empty. destruct (N.eqb_spec type BFS_REG) as [-> | R].
  - unfold with_stat. destruct sb as [s|]; intros E; injection E as <- <-.
    + split; [|split; [discriminate|intros [(_ & X) | (X & _)]; discriminate]]. rewrite Z.eqb_eq. split.
      * intros E. left. split; [reflexivity|]. exists s. split; [reflexivity|exact E].
      * intros [(_ & s' & E & Q) | (X & _)]; [injection E as ->; exact Q|discriminate].
    + split; split; try discriminate.
      * intros [(_ & s' & E & Q) | (X & _)]; discriminate.
      * intros _. left. split; reflexivity.
      * intros _. reflexivity.
  - destruct (N.eqb_spec type BFS_DIR) as [-> | D].
    + destruct entries as [some|]; intros E; injection E as <- <-.
      * split; [|split; [discriminate|intros [(X & _) | (_ & X)]; discriminate]]. rewrite negb_true_iff. split.
        -- intros ->. right. split; reflexivity.
        -- intros [(X & _) | (_ & X)]; [discriminate|congruence].
      * split; split; try discriminate.
        -- intros [(X & _) | (_ & X)]; discriminate.
        -- intros _. right. split; reflexivity.
        -- intros _. reflexivity.
    + intros E. injection E as <- <-. split; (split; [discriminate|]); intros [(X & _) | (X & _)]; contradiction.
Qed.

Lemma unknown cmp num d i set clear fc look :
  eval_uid cmp num None = (false, true) /\ eval_gid cmp num None = (false, true) /\ eval_inum cmp num None = (false, true) /\
  eval_links cmp num None = (false, true) /\ eval_samefile d i None = (false, true) /\ eval_sparse None = Some (false, true) /\
  eval_flags fc set clear None = (false, true) /\ eval_nouser look None = (false, true) /\ eval_nogroup look None = (false, true).
Proof. repeat (split; [reflexivity|]). reflexivity. Qed.

Lemma user_error isspace getnam arg :
  (parse_user isspace getnam arg = inr No_such -> getnam arg = Missing) /\ (parse_user isspace getnam arg = inr Lookup_error -> getnam arg = Failed).
Proof.
  unfold parse_user. destruct (getnam arg) as [id| |]; [split; discriminate| |]; (destruct (looks_like_icmp arg);
    [destruct (parse_icmp isspace false arg) as [[[c n] r]|]; split; discriminate|split; congruence]).
Qed.
