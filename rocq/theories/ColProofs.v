(** * Proofs about colored paths *)
From Coq Require Import List Arith NArith Bool Init.Byte Lia ZifyNat ZifyN ZifyBool.
From Verif Require Import PathModel PathSpec PathProofs QuoteModel QuoteSpec QuoteProofs StatModel ColModel ColSpec.
Import ListNotations.
Local Open Scope nat_scope.

(** ** Texts *)
Section Tty.
  Variable l : locale.
  Lemma relax_w c : wesc_iswprint (relaxed l) true c = wesc_iswprint l false c.
  Proof. unfold wesc_iswprint. cbn. destruct (iswprint l c), (iswspace l c); reflexivity. Qed.
  Lemma relax_b c : wesc_isprint (relaxed l) true c = wesc_isprint l false c.
  Proof. unfold wesc_isprint. cbn. destruct (isprint l c), (isspace l c); reflexivity. Qed.
  Lemma relax_ascii n : forall s, print_ascii (relaxed l) true n s = print_ascii l false n s.
  Proof. induction n as [|n IH]; intros [|c s]; cbn [print_ascii]; try reflexivity. rewrite relax_b, IH. reflexivity. Qed.
  Lemma relax_wide n : forall s mb, print_wide (relaxed l) true n s mb = print_wide l false n s mb.
  Proof.
    induction n as [|n IH]; intros [|x s] mb; cbn [print_wide]; try reflexivity. unfold xmbrtowc. cbn [relaxed decode mb_init].
    destruct (decode l mb (x :: s)) as [[[k d] mb2]|]; [|reflexivity]. rewrite relax_w. destruct (wesc_iswprint l false d); [|reflexivity].
    rewrite IH. reflexivity.
  Qed.
  Lemma relax_len s : printable_len (relaxed l) true s = printable_len l false s.
  Proof. unfold printable_len. rewrite relax_ascii, relax_wide. reflexivity. Qed.
  Lemma relax_dollar n : forall s mb, dollar_str (relaxed l) true n s mb = dollar_str l false n s mb.
  Proof.
    induction n as [|n IH]; intros [|x s] mb; cbn [dollar_str]; try reflexivity. unfold xmbrtowc. cbn [relaxed decode mb_init].
    destruct (decode l mb (x :: s)) as [[[k d] mb2]|]; rewrite ?relax_w, IH; reflexivity.
  Qed.

  Lemma tty_eq s out : fst (wordnesc l false (out, 4 * length s + 4) s) = out ++ quoted l false s.
  Proof. rewrite wordnesc_eq by lia. pose proof (quoted_length l false s). rewrite put_fits by lia. reflexivity. Qed.
  Lemma tty_quoted s : tty l s = quoted l false s.
  Proof. unfold tty. rewrite tty_eq. reflexivity. Qed.
  Theorem tty_printable s : printable (relaxed l) (tty l s).
  Proof.
    rewrite tty_quoted. assert (H : printable (relaxed l) (quoted0 l false s)).
    { unfold quoted0. destruct (Nat.ltb_spec (printable_len l false s) (length s)) as [P|P].
      - apply pr_app; [apply pr_all; reflexivity|]. apply pr_app; [|apply pr_all; reflexivity]. rewrite <- relax_dollar. apply pr_dollar.
      - cbn [negb orb]. apply pr_whole. rewrite relax_len. exact P. }
    unfold quoted, QuoteProofs.nonempty. destruct (quoted0 l false s); [apply pr_all; reflexivity|exact H].
  Qed.
  Theorem tty_control s b : control l b -> ~ In b (tty l s).
  Proof.
    intros (A & B & C & D). pose proof (tty_printable s) as P. induction P as [|c t H P IH|c t H P IH|mb t n c mb' t' Dc H P IH]; [intros []| | |].
    - intros [<-|I]; auto.
    - intros [<-|I]; [|auto]. cbn in H. rewrite B, C in H. discriminate.
    - intros I. apply in_app_iff in I. destruct I as [I|I]; [|auto]. cbn in H, Dc. apply orb_true_iff in H. exact (D _ _ _ _ _ Dc H I).
  Qed.
  (** Printable text is left as it is. *)
  Theorem tty_plain s : s <> [] -> (forall b, In b s -> (Byte.to_N b < 128)%N /\ (isprint l b = true \/ isspace l b = true)) -> tty l s = s.
  Proof.
    intros N H. rewrite tty_quoted. unfold quoted, quoted0.
    assert (A : asciinlen s = length s /\ print_ascii l false (asciinlen s) s = length s).
    { clear N. induction s as [|c s IH]; [split; reflexivity|]. destruct IH as [I1 I2]; [intros b I; apply H; right; exact I|].
      destruct (H c) as [L P]; [left; reflexivity|]. cbn [asciinlen length]. destruct (N.ltb_spec (Byte.to_N c) 128); [|lia].
      rewrite I1. split; [reflexivity|]. cbn [print_ascii]. unfold wesc_isprint. cbn [negb andb].
      assert (isprint l c || isspace l c = true) as -> by (apply orb_true_iff; exact P). rewrite I1 in I2. rewrite I2. reflexivity. }
    destruct A as [A1 A2]. unfold printable_len. rewrite A2, A1. rewrite Nat.ltb_irrefl. rewrite skipn_all.
    replace (print_wide l false (length s) [] (mb_init l)) with 0 by (destruct (length s); reflexivity). rewrite Nat.add_0_r, Nat.ltb_irrefl.
    cbn [negb orb QuoteProofs.nonempty]. destruct s; [congruence|reflexivity].
  Qed.
End Tty.

(** ** Segments *)
Lemma colored_ok l cs b e s : (forall x y, e = Some x -> reset cs = Some y -> addr x <> addr y) ->
  print_colored l cs (mkCfile b false) e s = mkCfile (b ++ segment l cs e s) false.
Proof.
  intros A. destruct s as [|c s]; [cbn; rewrite app_nil_r; reflexivity|]. set (t := c :: s). change (print_colored l cs (mkCfile b false) e t) with
    (print_reset cs (print_wordesc l (print_esc cs (mkCfile b false) e) t false)).
  unfold print_wordesc. rewrite tty_eq. unfold segment. unfold t at 4. fold t. rewrite <- tty_quoted.
  destruct e as [e|]; [|reflexivity]. cbn [print_esc buffer need_reset].
  assert (same (Some e) (reset cs) = false) as Sm.
  { unfold same. destruct (reset cs) as [y|] eqn:R; [|reflexivity]. apply Nat.eqb_neq. eapply A; eauto. }
  rewrite Sm. unfold print_reset, print_esc_chunk. cbn [buffer need_reset negb]. rewrite <- !app_assoc. reflexivity.
Qed.

(** ** The color of a file *)
Lemma bits_testbit m n : bits m (2 ^ n) = N.testbit m n.
Proof.
  unfold bits. destruct (N.testbit m n) eqn:T.
  - apply negb_true_iff, N.eqb_neq. intros E. assert (N.testbit (N.land m (2 ^ n)) n = false) by (rewrite E; apply N.bits_0).
    rewrite N.land_spec, T, N.pow2_bits_true in H. discriminate.
  - apply negb_false_iff, N.eqb_eq. apply N.bits_inj_iff. intros k. rewrite N.land_spec, N.bits_0. destruct (N.eq_dec n k) as [->|Ne].
    + rewrite T. reflexivity.
    + rewrite N.pow2_bits_false by exact Ne. apply andb_false_r.
Qed.
Lemma land_or m a b : N.land m (N.lor a b) = N.lor (N.land m a) (N.land m b).
Proof. apply N.land_lor_distr_r. Qed.
Lemma bits_or m a b : bits m (N.lor a b) = bits m a || bits m b.
Proof.
  unfold bits. rewrite land_or. destruct (N.eqb_spec (N.lor (N.land m a) (N.land m b)) 0) as [E|E].
  - apply N.lor_eq_0_iff in E. destruct E as [-> ->]. reflexivity.
  - cbn [negb]. symmetry. apply orb_true_iff. rewrite !negb_true_iff, !N.eqb_neq.
    destruct (N.eq_dec (N.land m a) 0) as [A|A]; [|auto]. right. intros B. apply E. rewrite A, B. reflexivity.
Qed.
Lemma bits_exec m : bits m 73 = N.testbit m 0 || N.testbit m 3 || N.testbit m 6.
Proof.
  change 73%N with (N.lor (N.lor (2 ^ 0) (2 ^ 3)) (2 ^ 6)). rewrite !bits_or, !bits_testbit. reflexivity.
Qed.
Lemma bits_sticky m : (N.land m 514 =? 514)%N = N.testbit m 9 && N.testbit m 1.
Proof.
  change 514%N with (N.lor (2 ^ 9) (2 ^ 1)). apply eq_true_iff_eq. rewrite N.eqb_eq, andb_true_iff. split.
  - intros E. split; [apply (f_equal (fun x => N.testbit x 9)) in E|apply (f_equal (fun x => N.testbit x 1)) in E];
      rewrite N.land_spec in E; cbn in E; rewrite andb_true_r in E; exact E.
  - intros [A B]. apply N.bits_inj_iff. intros k. rewrite N.land_spec. destruct (N.testbit (N.lor (2 ^ 9) (2 ^ 1)) k) eqn:T; [|apply andb_false_r].
    rewrite N.lor_spec in T. apply orb_true_iff in T. rewrite andb_true_r. destruct T as [T|T].
    + destruct (N.eq_dec 9 k) as [<-|Ne]; [exact A|]. rewrite N.pow2_bits_false in T by exact Ne. discriminate.
    + destruct (N.eq_dec 1 k) as [<-|Ne]; [exact B|]. rewrite N.pow2_bits_false in T by exact Ne. discriminate.
Qed.

Definition name_of (c : cpath) : list byte := firstn (c_valid c - c_nameoff c) (skipn (c_nameoff c) (c_path c)).
Lemma nonempty_len cs e : match e with Some x => if length (seq x) =? 0 then normal cs else e | None => None end = nonempty cs e.
Proof. unfold nonempty. destruct e as [x|]; [|reflexivity]. destruct (seq x); reflexivity. Qed.

Lemma nonempty_some cs x : (if length (seq x) =? 0 then normal cs else Some x) = nonempty cs (Some x).
Proof. unfold nonempty. destruct (seq x); reflexivity. Qed.

Lemma color_gen cs t st caps br name (f : ftwbuf) c :
  (if c_valid c =? c_len c then Use (type_of f (c_flags c)) else match c_stat c with Some s => Use (bfs_mode_to_type (mode s)) | None => Undefined end) = Use t ->
  cpath_stat f c = Use st -> cpath_has_capabilities f c = caps -> (t = BFS_LNK -> cpath_is_broken f c = br) -> name_of c = name ->
  file_color cs f c = Use (wanted cs t st caps br name).
Proof.
  intros Et Es Ec Eb En. unfold file_color. rewrite Et, Es, Ec. unfold name_of in En. rewrite En. clear Et Es Ec En.
  destruct t; cbn [wanted]; rewrite ?nonempty_len, ?nonempty_some; try reflexivity.
  - unfold bad. cbn [pick]. destruct (missing cs), (orphan cs); reflexivity.
  - change (bits (mode ?s)) with (bits (mode s)).
    destruct (has (sticky_other_writable cs) || has (other_writable cs) || has (sticky cs)) eqn:Nd.
    + destruct st as [s|]; cbn [andb].
      * rewrite bits_sticky. change 2%N with (2 ^ 1)%N. change 512%N with (2 ^ 9)%N. rewrite !bits_testbit.
        destruct (sticky_other_writable cs), (other_writable cs), (sticky cs), (directory cs); cbn [has pick];
          destruct (N.testbit (mode s) 9), (N.testbit (mode s) 1); cbn [andb pick]; rewrite ?nonempty_len, ?nonempty_some; reflexivity.
      * unfold bad. cbn [pick]. destruct (missing cs), (orphan cs); reflexivity.
    + rewrite andb_false_r. destruct (sticky_other_writable cs), (other_writable cs), (sticky cs); try discriminate Nd. cbn [has pick].
      rewrite ?nonempty_len, ?nonempty_some. destruct (directory cs); reflexivity.
  - rewrite (Eb eq_refl). destruct (orphan cs), br, (link cs); reflexivity.
  - destruct (has (setuid cs) || has (setgid cs) || has (executable cs) || has (multi_hard cs)) eqn:Nd.
    + destruct st as [s|]; cbn [andb].
      * rewrite bits_exec. change 2048%N with (2 ^ 11)%N. change 1024%N with (2 ^ 10)%N. rewrite !bits_testbit.
        destruct (N.testbit (mode s) 0 || N.testbit (mode s) 3 || N.testbit (mode s) 6) eqn:X.
        all: destruct (setuid cs), (N.testbit (mode s) 11); cbn [has pick]; rewrite ?nonempty_len, ?nonempty_some; try reflexivity.
        all: destruct (setgid cs), (N.testbit (mode s) 10); cbn [has pick]; rewrite ?nonempty_len, ?nonempty_some; try reflexivity.
        all: destruct (capable cs), caps; cbn [has pick andb]; rewrite ?nonempty_len, ?nonempty_some; try reflexivity.
        all: destruct (executable cs); cbn [has pick]; rewrite ?nonempty_len, ?nonempty_some; try reflexivity.
        all: destruct (multi_hard cs), (1 <? nlink s)%N; cbn [has pick]; rewrite ?nonempty_len, ?nonempty_some; try reflexivity.
        all: destruct (get_ext cs name); cbn [has pick]; rewrite ?nonempty_len, ?nonempty_some; try reflexivity.
        all: destruct (file cs); reflexivity.
      * unfold bad. cbn [pick]. destruct (missing cs), (orphan cs); reflexivity.
    + rewrite andb_false_r. destruct (setuid cs), (setgid cs), (executable cs), (multi_hard cs); try discriminate Nd. cbn [has pick].
      destruct (capable cs), caps; cbn [has pick andb]; rewrite ?nonempty_len, ?nonempty_some; try reflexivity.
      all: destruct (get_ext cs name); cbn [has pick]; rewrite ?nonempty_len, ?nonempty_some; try reflexivity.
      all: destruct (file cs); reflexivity.
Qed.

(** ** Going back *)
Lemma skip_back_le p s n : skip_back p s n <= n.
Proof. induction n as [|n IH]; [cbn; lia|]. cbn [skip_back]. destruct (p (at_ s n)); lia. Qed.
Lemma skip_back_all p s n : forall m, skip_back p s n <= m -> m < n -> p (at_ s m) = true.
Proof.
  induction n as [|n IH]; intros m L L'; [lia|]. cbn [skip_back] in L. destruct (p (at_ s n)) eqn:E; [|lia].
  destruct (Nat.eq_dec m n) as [->|Ne]; [exact E|]. apply IH; [exact L|lia].
Qed.
Lemma skip_back_end p s n : 0 < skip_back p s n -> p (at_ s (skip_back p s n - 1)) = false.
Proof.
  induction n as [|n IH]; [cbn; lia|]. cbn [skip_back]. destruct (p (at_ s n)) eqn:E; [exact IH|].
  intros _. replace (S n - 1) with n by lia. exact E.
Qed.

Definition nonslash (b : byte) : bool := negb (is_slash b).
(** Where the last name of the first [valid] bytes starts, if they do not end with a slash *)
Definition placed (c : cpath) : Prop :=
  c_nameoff c <= c_valid c /\ c_valid c <= length (c_path c) /\ c_len c = length (c_path c) /\
  (0 < c_valid c -> is_slash (at_ (c_path c) (c_valid c - 1)) = false -> c_nameoff c = skip_back nonslash (c_path c) (c_valid c)).
Definition settled (c : cpath) : Prop :=
  placed c /\ boundary (c_path c) (c_valid c) /\ (0 < c_valid c -> is_slash (at_ (c_path c) (c_valid c - 1)) = true -> c_nameoff c = c_valid c).

Lemma retreat_ok c : placed c -> boundary (c_path c) (c_valid c) -> 0 < c_valid c ->
  let c' := cpath_retreat c in
  c_path c' = c_path c /\ c_flags c' = c_flags c /\ c_stat c' = c_stat c /\ settled c' /\ c_valid c' < c_valid c /\
  forall n, boundary (c_path c) n -> c_valid c' < n -> c_valid c <= n.
Proof.
  intros (A & B & C & D) Bd Pos. cbv zeta. unfold cpath_retreat. destruct (Nat.ltb_spec 0 (c_valid c)); [|lia]. cbn [andb].
  set (p := c_path c) in *. set (v := c_valid c) in *.
  destruct (is_slash (at_ p (v - 1))) eqn:S; cbn [c_path c_flags c_stat].
  - set (w := skip_back is_slash p v).
    assert (Lw : w < v).
    { unfold w. destruct v as [|v']; [lia|]. cbn [skip_back]. replace (Datatypes.S v' - 1) with v' in S by lia. rewrite S. pose proof (skip_back_le is_slash p v'). lia. }
    assert (Ew : 0 < w -> is_slash (at_ p (w - 1)) = false) by exact (skip_back_end is_slash p v).
    assert (Bw : boundary p w).
    { destruct (Nat.eq_dec w 0) as [E|Ne]; [left; exact E|]. right. right. split; [lia|].
      rewrite Ew by lia. rewrite (skip_back_all is_slash p v w) by (fold w; lia). discriminate. }
    pose proof (skip_back_le (fun b => negb (is_slash b)) p w) as Ln.
    split; [reflexivity|]. split; [reflexivity|]. split; [reflexivity|]. split; [|split; [exact Lw|]].
    + split; [|split; [exact Bw|]].
      * unfold placed. cbn [c_nameoff c_valid c_path c_len]. split; [exact Ln|]. split; [fold p; lia|]. split; [exact C|]. intros _ _. reflexivity.
      * cbn [c_nameoff c_valid c_path]. intros P X. fold p in X. rewrite Ew in X by exact P. discriminate.
    + cbn [c_valid]. intros n Bn Lt. destruct (Nat.le_gt_cases v n) as [L|L]; [exact L|]. exfalso.
      assert (E1 : is_slash (at_ p n) = true) by (apply (skip_back_all is_slash p v); fold w; lia).
      assert (E2 : is_slash (at_ p (n - 1)) = true) by (apply (skip_back_all is_slash p v); fold w; lia).
      destruct Bn as [Bn|[Bn|[_ Bn]]]; [lia|lia|congruence].
  - specialize (D Pos eq_refl). set (w := skip_back nonslash p v) in *. rewrite D.
    assert (Lw : w < v).
    { unfold w. destruct v as [|v']; [lia|]. cbn [skip_back]. replace (Datatypes.S v' - 1) with v' in S by lia. unfold nonslash at 1. rewrite S. cbn [negb].
      pose proof (skip_back_le nonslash p v'). lia. }
    assert (Ew : 0 < w -> is_slash (at_ p (w - 1)) = true).
    { intros P. pose proof (skip_back_end nonslash p v P) as X. unfold nonslash in X at 1. apply negb_false_iff in X. exact X. }
    assert (Bw : boundary p w).
    { destruct (Nat.eq_dec w 0) as [E|Ne]; [left; exact E|]. right. right. split; [lia|]. rewrite Ew by lia.
      pose proof (skip_back_all nonslash p v w) as X. fold w in X. unfold nonslash in X. intros Y. rewrite <- Y in X. discriminate X; lia. }
    split; [reflexivity|]. split; [reflexivity|]. split; [reflexivity|]. split; [|split; [exact Lw|]].
    + split; [|split; [exact Bw|]].
      * unfold placed. cbn [c_nameoff c_valid c_path c_len]. split; [lia|]. split; [fold p; lia|]. split; [exact C|]. intros P X. fold p in X.
        rewrite Ew in X by exact P. discriminate.
      * reflexivity.
    + cbn [c_valid]. intros n Bn Lt. destruct (Nat.le_gt_cases v n) as [L|L]; [exact L|]. exfalso.
      pose proof (skip_back_all nonslash p v n) as E1. pose proof (skip_back_all nonslash p v (n - 1)) as E2. fold w in E1, E2. unfold nonslash in E1, E2.
      specialize (E1 ltac:(lia) L). specialize (E2 ltac:(lia) ltac:(lia)). apply negb_true_iff in E1, E2.
      destruct Bn as [Bn|[Bn|[_ Bn]]]; [lia|lia|congruence].
Qed.

Lemma find_valid_ok stat_ base r : forall fuel c, settled c -> c_valid c <= fuel ->
  (forall n, 0 < n <= length (c_path c) -> stat_ (base ++ firstn n (c_path c)) = r (firstn n (c_path c))) ->
  exists c', find_valid fuel stat_ base c = Some c' /\ c_path c' = c_path c /\ c_flags c' = c_flags c /\ settled c' /\ c_valid c' <= c_valid c /\
    (c_valid c' = 0 \/ exists s, c_stat c' = Some s /\ r (firstn (c_valid c') (c_path c)) = Some s) /\
    forall n, boundary (c_path c) n -> c_valid c' < n -> n <= c_valid c -> r (firstn n (c_path c)) = None.
Proof.
  induction fuel as [|fuel IH]; intros c St L R; cbn [find_valid]; destruct (Nat.eqb_spec (c_valid c) 0) as [Z|Z].
  - exists c. split; [reflexivity|]. split; [reflexivity|]. split; [reflexivity|]. split; [exact St|]. split; [lia|]. split; [auto|]. intros; lia.
  - lia.
  - exists c. split; [reflexivity|]. split; [reflexivity|]. split; [reflexivity|]. split; [exact St|]. split; [lia|]. split; [auto|]. intros; lia.
  - rewrite R by (pose proof St as ((_ & X & _) & _); lia). destruct (r (firstn (c_valid c) (c_path c))) as [s|] eqn:E.
    + eexists. split; [reflexivity|]. cbn [c_path c_flags c_valid c_stat]. split; [reflexivity|]. split; [reflexivity|]. split; [exact St|]. split; [lia|].
      split; [right; exists s; auto|]. intros; lia.
    + pose proof St as (Pl & Bd & _). destruct (retreat_ok c Pl Bd ltac:(lia)) as (P & F & Sx & St' & Lt & Nx).
      destruct (IH (cpath_retreat c) St' ltac:(lia)) as (c' & E' & P' & F' & St2 & Le & Hit & No).
      { rewrite P. exact R. }
      rewrite P in *. rewrite F in *. exists c'. split; [exact E'|]. split; [exact P'|]. split; [exact F'|]. split; [exact St2|]. split; [lia|]. split; [exact Hit|].
      intros n Bn L1 L2. destruct (Nat.le_gt_cases n (c_valid (cpath_retreat c))) as [Ln|Ln]; [auto|].
      specialize (Nx n Bn Ln). assert (n = c_valid c) by lia. subst n. exact E.
Qed.

Lemma retreat_any c : placed c -> boundary (c_path c) (c_valid c) ->
  let c' := cpath_retreat c in
  c_path c' = c_path c /\ c_flags c' = c_flags c /\ c_stat c' = c_stat c /\ settled c' /\ c_valid c' <= c_valid c /\
  (0 < c_valid c -> c_valid c' < c_valid c) /\ forall n, boundary (c_path c) n -> c_valid c' < n -> c_valid c <= n.
Proof.
  intros P B. destruct (Nat.eq_dec (c_valid c) 0) as [Z|Z].
  - destruct P as (A & A' & A'' & D). cbv zeta. unfold cpath_retreat. rewrite Z in *. cbn [Nat.ltb Nat.leb andb].
    assert (c_nameoff c = 0) as -> by lia. cbn [c_path c_flags c_stat c_valid]. do 3 (split; [reflexivity|]). split; [|split; [lia|split; [lia|intros; lia]]].
    split; [|split; [left; reflexivity|cbn; lia]]. unfold placed. cbn [c_nameoff c_valid c_path c_len]. split; [lia|]. split; [lia|]. split; [exact A''|]. lia.
  - destruct (retreat_ok c P B ltac:(lia)) as (H1 & H2 & H3 & H4 & H5 & H6). cbv zeta. do 3 (split; [assumption|]). split; [exact H4|]. split; [lia|]. split; [auto|exact H6].
Qed.

Lemma skip_leading_le n path : forall i, i <= length path -> skip_leading n path i <= length path.
Proof.
  induction n as [|n IH]; intros i L; cbn [skip_leading]; [exact L|].
  destruct (is_slash (at_ path i)) eqn:S; cbn [andb]; [|exact L]. destruct (negb (Byte.eqb (at_ path (Datatypes.S i)) x00)); [|exact L].
  apply IH. destruct (Nat.eq_dec i (length path)) as [->|Ne]; [|lia]. unfold at_ in S. rewrite nth_overflow in S by lia. discriminate.
Qed.
Lemma baseoff_placed p fl s : placed (mkCpath p (xbaseoff p) (length p) (length p) fl s).
Proof.
  unfold placed. cbn [c_nameoff c_valid c_path c_len]. split.
  - unfold xbaseoff. apply skip_leading_le. pose proof (skip_back_le (fun c => negb (is_slash c)) p (skip_back is_slash p (length p))).
    pose proof (skip_back_le is_slash p (length p)). lia.
  - split; [lia|]. split; [reflexivity|]. intros P S. unfold xbaseoff.
    assert (skip_back is_slash p (length p) = length p) as ->.
    { destruct (length p) as [|n] eqn:E; [lia|]. replace (Datatypes.S n - 1) with n in S by lia. cbn [skip_back]. rewrite S. reflexivity. }
    apply skip_leading_stop. left. fold nonslash. pose proof (skip_back_le nonslash p (length p)) as L.
    assert (skip_back nonslash p (length p) < length p).
    { destruct (length p) as [|n] eqn:E; [lia|]. replace (Datatypes.S n - 1) with n in S by lia. cbn [skip_back]. unfold nonslash at 1. rewrite S. cbn [negb].
      pose proof (skip_back_le nonslash p n). lia. }
    pose proof (skip_back_all nonslash p (length p) (skip_back nonslash p (length p)) ltac:(lia) ltac:(lia)) as X. unfold nonslash in X at 1.
    apply negb_true_iff in X. exact X.
Qed.

(** ** Printing *)
Lemma at_nth p n : n < length p -> In (at_ p n) p.
Proof. intros L. apply nth_In, L. Qed.
Lemma firstn_last p n : 0 < n <= length p -> exists d, firstn n p = d ++ [at_ p (n - 1)].
Proof.
  intros [L L']. exists (firstn (n - 1) p). unfold at_. rewrite <- (firstn_skipn (n - 1) p) at 1.
  rewrite firstn_app, firstn_firstn, firstn_length. replace (Nat.min n (n - 1)) with (n - 1) by lia. replace (n - Nat.min (n - 1) (length p)) with 1 by lia.
  f_equal. assert (X : nth (n - 1) p x00 = nth 0 (skipn (n - 1) p) x00).
  { rewrite <- (firstn_skipn (n - 1) p) at 1. rewrite app_nth2; rewrite firstn_length; [f_equal; lia|lia]. }
  rewrite X. assert (length (skipn (n - 1) p) > 0) by (rewrite skipn_length; lia). destruct (skipn (n - 1) p); [cbn in *; lia|reflexivity].
Qed.
Lemma range_in p a b x : a <= b <= length p -> In x (firstn (b - a) (skipn a p)) -> exists n, a <= n < b /\ x = at_ p n.
Proof.
  intros L I. apply In_nth with (d := x00) in I. destruct I as (k & Lk & E). rewrite firstn_length, skipn_length in Lk.
  exists (a + k). split; [lia|]. rewrite <- E. unfold at_. rewrite <- (firstn_skipn a p) at 2. rewrite app_nth2; rewrite firstn_length; [|lia].
  replace (a + k - Nat.min a (length p)) with k by lia. rewrite <- (firstn_skipn (b - a) (skipn a p)) at 2. rewrite app_nth1; [reflexivity|].
  rewrite firstn_length, skipn_length. lia.
Qed.
Lemma split3 (p : list byte) a b : a <= b <= length p ->
  p = firstn a p ++ firstn (b - a) (skipn a p) ++ skipn b p /\ firstn a p ++ firstn (b - a) (skipn a p) = firstn b p.
Proof.
  intros L. assert (E : firstn a p ++ firstn (b - a) (skipn a p) = firstn b p).
  { rewrite <- (firstn_skipn a p) at 3. rewrite firstn_app, firstn_firstn, firstn_length. replace (Nat.min b a) with a by lia.
    replace (b - Nat.min a (length p)) with (b - a) by lia. reflexivity. }
  split; [|exact E]. rewrite app_assoc, E, firstn_skipn. reflexivity.
Qed.
Lemma settled_name c : settled c -> ColSpec.last_name (firstn (c_nameoff c) (c_path c)) (name_of c).
Proof.
  intros ((A & B & C & D) & Bd & E). destruct (Nat.eq_dec (c_valid c) 0) as [Z|Z].
  - assert (N0 : c_nameoff c = 0) by lia. split; [|left; rewrite N0; reflexivity]. unfold name_of. rewrite Z, N0. cbn. auto.
  - destruct (is_slash (at_ (c_path c) (c_valid c - 1))) eqn:S.
    + specialize (E ltac:(lia) eq_refl). split.
      * unfold name_of. rewrite E, Nat.sub_diag. cbn. auto.
      * right. destruct (firstn_last (c_path c) (c_valid c) ltac:(lia)) as (d & Ed). exists d. rewrite E, Ed. destruct (is_slash_spec (at_ (c_path c) (c_valid c - 1))); congruence.
    + specialize (D ltac:(lia) eq_refl). split.
      * intros I. apply range_in in I; [|lia]. destruct I as (n & Ln & En). pose proof (skip_back_all nonslash (c_path c) (c_valid c) n ltac:(lia) ltac:(lia)) as X.
        rewrite <- En in X. discriminate.
      * destruct (Nat.eq_dec (c_nameoff c) 0) as [N0|N0]; [left; rewrite N0; reflexivity|]. right.
        destruct (firstn_last (c_path c) (c_nameoff c) ltac:(lia)) as (d & Ed). exists d. rewrite Ed.
        pose proof (skip_back_end nonslash (c_path c) (c_valid c)) as X. rewrite <- D in X. specialize (X ltac:(lia)). unfold nonslash in X. apply negb_false_iff in X.
        destruct (is_slash_spec (at_ (c_path c) (c_nameoff c - 1))); congruence.
Qed.

Lemma pick_in l e : pick l = Some e -> exists b, In (Some e, b) l.
Proof.
  induction l as [|[[x|] [|]] l IH]; cbn [pick]; intros H; try discriminate.
  - exists true. left. congruence.
  - destruct (IH H) as [b I]. exists b. right. exact I.
  - destruct (IH H) as [b I]. exists b. right. exact I.
  - destruct (IH H) as [b I]. exists b. right. exact I.
Qed.
Lemma bad_palette cs e : bad cs = Some e -> palette cs e.
Proof.
  unfold bad. intros H. apply pick_in in H. destruct H as [b [H|[H|[]]]]; injection H as H _; right; rewrite H; cbn; tauto.
Qed.
Lemma nonempty_palette cs x e : (forall e, x = Some e -> palette cs e) -> nonempty cs x = Some e -> palette cs e.
Proof. intros H. unfold nonempty. destruct x as [x|]; [|discriminate]. destruct (seq x); [|auto]. intros H2. right. left. exact H2. Qed.
Lemma wanted_palette cs t st caps br name e : wanted cs t st caps br name = Some e -> palette cs e.
Proof.
  destruct t; cbn [wanted]; try discriminate; try apply bad_palette.
  all: try (apply nonempty_palette; intros x Hx; right; rewrite Hx; cbn; tauto).
  - destruct (match st with Some _ => false | None => true end && _); [apply bad_palette|]. apply nonempty_palette. intros x H. apply pick_in in H.
    destruct H as (b & H). cbn [In] in H. repeat (destruct H as [H|H]; [injection H as H _; right; rewrite H; cbn; tauto|]). destruct H.
  - apply nonempty_palette. intros x H. apply pick_in in H.
    destruct H as (b & H). cbn [In] in H. repeat (destruct H as [H|H]; [injection H as H _; right; rewrite H; cbn; tauto|]). destruct H.
  - destruct (match st with Some _ => false | None => true end && _); [apply bad_palette|]. apply nonempty_palette. intros x H. apply pick_in in H.
    destruct H as (b & H). cbn [In] in H.
    destruct H as [H|[H|[H|[H|[H|[H|[H|[]]]]]]]]; injection H as H _; try (right; rewrite H; cbn; tauto). left. exists name. exact H.
Qed.

Section Painting.
  Variables (l : locale) (cs : colors).
  Hypothesis Ap : apart cs.
  Lemma palette_apart e x y : (forall e', e = Some e' -> palette cs e') -> e = Some x -> reset cs = Some y -> addr x <> addr y.
  Proof. intros P E R. eapply Ap; eauto. Qed.

  Lemma paint_ok b p nameoff valid color : nameoff <= valid -> valid <= length p -> (nameoff < valid -> forall e, color = Some e -> palette cs e) ->
    let off := if nameoff <? valid then if same color (directory cs) then valid else nameoff else nameoff in
    let col := if nameoff <? valid then color else None in
    print_colored l cs (print_colored l cs (print_colored l cs (mkCfile b false) (directory cs) (firstn off p)) col (firstn (valid - off) (skipn off p)))
      (bad cs) (firstn (length p - valid) (skipn valid p)) =
    mkCfile (b ++ painted l cs (firstn nameoff p) (firstn (valid - nameoff) (skipn nameoff p)) (skipn valid p) color) false.
  Proof.
    intros L L' P. cbv zeta. rewrite (firstn_all2 (skipn valid p)) by (rewrite skipn_length; lia).
    assert (Bd : forall x y, bad cs = Some x -> reset cs = Some y -> addr x <> addr y) by (intros x y H R; eapply Ap; eauto using bad_palette).
    assert (Dr : forall x y, directory cs = Some x -> reset cs = Some y -> addr x <> addr y).
    { intros x y H R. eapply Ap; eauto. right. rewrite H. cbn. tauto. }
    rewrite (colored_ok l cs b (directory cs)) by exact Dr. unfold painted. destruct (Nat.ltb_spec nameoff valid) as [N|N].
    - rewrite colored_ok by (intros x y H R; eapply Ap; eauto). rewrite colored_ok by exact Bd.
      assert (X : exists c t, firstn (valid - nameoff) (skipn nameoff p) = c :: t).
      { assert (length (firstn (valid - nameoff) (skipn nameoff p)) > 0) by (rewrite firstn_length, skipn_length; lia).
        destruct (firstn (valid - nameoff) (skipn nameoff p)) as [|c t]; [cbn in *; lia|eauto]. }
      destruct X as (c & t & X). destruct (same color (directory cs)).
      + destruct (split3 p nameoff valid ltac:(lia)) as [_ E]. rewrite Nat.sub_diag, <- E, X. cbn [firstn segment]. rewrite app_nil_r, <- !app_assoc. reflexivity.
      + rewrite X. rewrite <- !app_assoc. reflexivity.
    - assert (nameoff = valid) by lia. subst nameoff. rewrite Nat.sub_diag. cbn [firstn]. cbn [print_colored]. rewrite colored_ok by exact Bd. rewrite <- app_assoc. reflexivity.
  Qed.

  Lemma bad_eq : (if has (missing cs) then missing cs else orphan cs) = bad cs.
  Proof. unfold bad. cbn [pick]. destruct (missing cs), (orphan cs); reflexivity. Qed.

  Lemma print_parts b p own f fl c color : cpath_init p own f fl = Some c -> c_path c = p -> c_len c = length p -> c_nameoff c <= c_valid c -> c_valid c <= length p ->
    (c_nameoff c < c_valid c -> file_color cs f c = Use color) -> (c_nameoff c < c_valid c -> forall e, color = Some e -> palette cs e) ->
    print_path_colored l cs (mkCfile b false) p own f fl =
    Some (mkCfile (b ++ painted l cs (firstn (c_nameoff c) p) (name_of c) (skipn (c_valid c) p) color) false).
  Proof.
    intros E Ep El L L' Fc P. unfold print_path_colored. rewrite E, El, bad_eq. unfold name_of. rewrite Ep.
    rewrite <- (paint_ok b p (c_nameoff c) (c_valid c) color) by assumption. cbv zeta. destruct (Nat.ltb_spec (c_nameoff c) (c_valid c)) as [N|N].
    - rewrite (Fc N). reflexivity.
    - reflexivity.
  Qed.

  Lemma there_ok b p (own : bool) f fl off : off = (if own then nameoff f else xbaseoff p) -> off <= length p -> type_of f fl <> BFS_ERROR ->
    exists dirs name tail color, print_path_colored l cs (mkCfile b false) p own f fl = Some (mkCfile (b ++ painted l cs dirs name tail color) false) /\
      there cs f (type_of f fl) (stat_of f fl) off p dirs name tail color.
  Proof.
    intros Eo Lo T. set (c := mkCpath p off (length p) (length p) fl None).
    assert (Ei : cpath_init p own f fl = Some c).
    { unfold cpath_init. rewrite <- Eo. fold c. destruct (ftype_eqb (type_of f fl) BFS_ERROR) eqn:X; [|reflexivity]. exfalso. apply T. destruct (type_of f fl); try discriminate; reflexivity. }
    set (color := wanted cs (type_of f fl) (stat_of f fl) (capabilities f) (broken f) (name_of c)).
    exists (firstn off p), (name_of c), [], color. split.
    - rewrite (print_parts b p own f fl c color); cbn [c c_path c_len c_nameoff c_valid]; try reflexivity; try assumption; try lia.
      + rewrite skipn_all. reflexivity.
      + intros _. apply color_gen; cbn [c c_valid c_len c_flags]; try reflexivity.
        * rewrite Nat.eqb_refl. reflexivity.
        * unfold cpath_stat. cbn [c c_valid c_len c_flags]. rewrite Nat.eqb_refl. reflexivity.
        * unfold cpath_has_capabilities. cbn [c c_valid c_len]. rewrite Nat.eqb_refl. reflexivity.
        * intros _. unfold cpath_is_broken, broken. cbn [c c_valid c_len]. rewrite Nat.ltb_irrefl. reflexivity.
      + intros _ e. apply wanted_palette.
    - split; [exact T|]. split.
      + destruct (split3 p off (length p) ltac:(lia)) as [X _]. rewrite skipn_all, app_nil_r in X. unfold name_of. cbn [c c_valid c_nameoff c_path]. exact X.
      + split; [rewrite firstn_length; lia|]. split; [reflexivity|]. intros _. reflexivity.
  Qed.

  Lemma not_there_ok b p own f fl r stat_ base : let c0 := cpath_retreat (mkCpath p (xbaseoff p) (length p) (length p) fl None) in
    type_of f fl = BFS_ERROR -> cpath_init p own f fl = find_valid (length p) stat_ base c0 ->
    (forall n, 0 < n <= length p -> stat_ (base ++ firstn n p) = r (firstn n p)) ->
    exists dirs name tail color, print_path_colored l cs (mkCfile b false) p own f fl = Some (mkCfile (b ++ painted l cs dirs name tail color) false) /\
      not_there cs (type_of f fl) r p dirs name tail color.
  Proof.
    intros c0 T Ei R. destruct (retreat_any (mkCpath p (xbaseoff p) (length p) (length p) fl None)) as (P0 & F0 & S0 & St0 & Le0 & Lt0 & Nx0).
    { apply baseoff_placed. } { right. left. reflexivity. }
    fold c0 in P0, F0, S0, St0, Le0, Lt0, Nx0. cbn [c_path c_flags c_stat c_valid] in *.
    destruct (find_valid_ok stat_ base r (length p) c0 St0 Le0) as (c & Ec & Pc & Fc & Stc & Lec & Hit & No).
    { rewrite P0. exact R. }
    rewrite P0 in *. rewrite Ec in Ei. pose proof Stc as ((A & B & C & D) & Bd & E). rewrite Pc in *.
    set (color := match c_stat c with Some s => wanted cs (bfs_mode_to_type (mode s)) (Some s) false false (name_of c) | None => None end).
    destruct (split3 p (c_nameoff c) (c_valid c) ltac:(lia)) as [Sp Sf]. rewrite <- Pc in Sf at 2. rewrite <- Pc in Sp at 3.
    exists (firstn (c_nameoff c) p), (name_of c), (skipn (c_valid c) p), color. split.
    - apply print_parts with (1 := Ei); try assumption.
      + intros N. destruct Hit as [Z|(s & Es & _)]; [lia|]. unfold color. rewrite Es.
        assert (Ne : (c_valid c =? c_len c) = false) by (apply Nat.eqb_neq; lia).
        assert (Lt : (c_valid c <? c_len c) = true) by (apply Nat.ltb_lt; lia).
        apply color_gen.
        * rewrite Ne, Es. reflexivity.
        * unfold cpath_stat. rewrite Ne, Es. reflexivity.
        * unfold cpath_has_capabilities. rewrite Ne. reflexivity.
        * intros _. unfold cpath_is_broken. rewrite Lt. reflexivity.
        * reflexivity.
      + intros _ e. unfold color. destruct (c_stat c); [apply wanted_palette|discriminate].
    - unfold not_there. change (firstn (c_valid c - c_nameoff c) (skipn (c_nameoff c) (c_path c))) with (name_of c) in *. rewrite Sf.
      assert (Lf : length (firstn (c_valid c) p) = c_valid c) by (rewrite firstn_length; lia). rewrite Lf.
      split; [exact T|]. split; [exact Sp|]. split; [rewrite <- Pc at 1; apply settled_name, Stc|]. split.
      { intros Np X. assert (length p > 0) by (destruct p; [congruence|cbn; lia]). apply (f_equal (@length _)) in X. rewrite skipn_length in X. cbn in X. lia. }
      split; [exact Bd|]. split.
      { destruct Hit as [Z|(s & Es & Er)]; [left; rewrite Z; reflexivity|]. right. exists s. split; [exact Er|]. intros _. unfold color. rewrite Es. reflexivity. }
      intros n Bn [L1 L2]. apply No; [exact Bn|exact L1|]. destruct (Nat.le_gt_cases n (c_valid c0)) as [H|H]; [exact H|]. specialize (Nx0 n Bn H). lia.
  Qed.

  Lemma flags_ok f : print_flags cs f = as_shown cs f.
  Proof. unfold print_flags, as_shown. destruct (link_as_target cs), (ftw_type f); reflexivity. Qed.

  Theorem path_ok b f : proper f -> let fl := as_shown cs f in
    exists dirs name tail color, print_path l (Some cs) (mkCfile b false) f = Some (mkCfile (b ++ painted l cs dirs name tail color) false) /\
      (there cs f (type_of f fl) (stat_of f fl) (nameoff f) (path f) dirs name tail color \/
       depth f = 0 /\ not_there cs (type_of f fl) (stat_cwd f) (path f) dirs name tail color \/
       0 < depth f /\ found f (type_of f fl) (path f) dirs name tail).
  Proof.
    intros Pr fl. cbn [print_path]. rewrite flags_ok. fold fl.
    assert (Lo : nameoff f <= length (path f)).
    { destruct Pr as [(_ & ->)|(_ & d & x & -> & -> & _)]; [|rewrite !app_length; lia]. apply (baseoff_placed (path f) fl None). }
    destruct (ftype_eqb (type_of f fl) BFS_ERROR) eqn:T.
    - assert (T' : type_of f fl = BFS_ERROR) by (destruct (type_of f fl); try discriminate; reflexivity). destruct Pr as [(D & N)|(D & d & x & Ep & En & Ne & Ns)].
      + destruct (not_there_ok b (path f) true f fl (stat_cwd f) (stat_cwd f) []) as (dirs & name & tail & color & H1 & H2).
        * exact T'.
        * unfold cpath_init. rewrite T, D, N. reflexivity.
        * intros n _. reflexivity.
        * exists dirs, name, tail, color. split; [exact H1|]. right. left. auto.
      + set (c := mkCpath (path f) (nameoff f) (nameoff f) (length (path f)) fl None).
        assert (Ei : cpath_init (path f) true f fl = Some c).
        { unfold cpath_init. rewrite T. cbn [negb]. destruct (Nat.ltb_spec 0 (depth f)); [|lia]. unfold cpath_retreat. cbn [c_path c_valid c_nameoff c_len c_flags c_stat].
          assert (is_slash (at_ (path f) (length (path f) - 1)) = false) as ->; [|rewrite andb_false_r; reflexivity].
          destruct (exists_last Ne) as (x' & y & ->). destruct (is_slash_spec (at_ (path f) (length (path f) - 1))) as [X|]; [|reflexivity]. exfalso. apply Ns.
          rewrite <- X. rewrite Ep at 1. unfold at_. rewrite !app_assoc. rewrite Ep. rewrite !app_assoc. rewrite app_nth2; rewrite !app_length; cbn [length]; [|lia].
          replace (_ - _) with 0 by lia. cbn. apply in_app_iff. right. left. reflexivity. }
        exists (firstn (nameoff f) (path f)), [], (skipn (nameoff f) (path f)), None. split.
        * rewrite (print_parts b (path f) true f fl c None Ei); cbn [c c_path c_len c_nameoff c_valid]; try reflexivity; try lia; try assumption.
          unfold name_of. cbn [c c_path c_nameoff c_valid]. rewrite Nat.sub_diag. reflexivity.
        * right. right. split; [exact D|]. split; [exact T'|]. split; [symmetry; apply firstn_skipn|]. split; [reflexivity|]. rewrite firstn_length. lia.
    - destruct (there_ok b (path f) true f fl (nameoff f) eq_refl Lo) as (dirs & name & tail & color & H1 & H2).
      { intros X. rewrite X in T. discriminate. }
      exists dirs, name, tail, color. split; [exact H1|]. left. exact H2.
  Qed.

  Theorem target_ok b f r p : target f = Some p -> from_link f r ->
    exists dirs name tail color, print_link_target l (Some cs) (mkCfile b false) f = Some (mkCfile (b ++ painted l cs dirs name tail color) false) /\
      (there cs f (type_of f BFS_STAT_FOLLOW) (stat_of f BFS_STAT_FOLLOW) (xbaseoff p) p dirs name tail color \/
       not_there cs (type_of f BFS_STAT_FOLLOW) r p dirs name tail color).
  Proof.
    intros Tg (F1 & F2 & F3). unfold print_link_target. rewrite Tg. set (fl := BFS_STAT_FOLLOW).
    destruct (ftype_eqb (type_of f fl) BFS_ERROR) eqn:T.
    - assert (T' : type_of f fl = BFS_ERROR) by (destruct (type_of f fl); try discriminate; reflexivity).
      destruct (not_there_ok b p false f fl r (if at_cwd f && negb (is_slash (at_ p 0)) then stat_cwd f else stat_at f)
        (if at_cwd f && negb (is_slash (at_ p 0)) then firstn (nameoff f) (path f) else [])) as (dirs & name & tail & color & H1 & H2).
      + exact T'.
      + unfold cpath_init. rewrite T. cbn [negb]. destruct (at_cwd f && negb (is_slash (at_ p 0))); reflexivity.
      + intros n L. assert (X : at_ (firstn n p) 0 = at_ p 0) by (destruct n; [lia|]; destruct p; reflexivity).
        assert (Y : firstn n p <> []) by (destruct n; [lia|]; destruct p; [cbn in L; lia|discriminate]).
        destruct (at_cwd f) eqn:Cw; cbn [andb]; [|apply F2; reflexivity].
        destruct (is_slash (at_ p 0)) eqn:Sl; cbn [negb]; [apply F1; congruence|]. apply F3; [reflexivity|exact Y|congruence].
      + exists dirs, name, tail, color. auto.
    - destruct (there_ok b p false f fl (xbaseoff p) eq_refl) as (dirs & name & tail & color & H1 & H2).
      { apply (baseoff_placed p fl None). } { intros X. rewrite X in T. discriminate. }
      exists dirs, name, tail, color. auto.
  Qed.

  Theorem name_ok b f : let fl := as_shown cs f in let name := skipn (nameoff f) (path f) in
    print_name l (Some cs) (mkCfile b false) f =
    Some (mkCfile (b ++ segment l cs (wanted cs (type_of f fl) (stat_of f fl) (capabilities f) (broken f) name) name) false).
  Proof.
    cbv zeta. cbn [print_name]. rewrite flags_ok. unfold print_name_colored. set (name := skipn (nameoff f) (path f)). set (fl := as_shown cs f).
    rewrite (color_gen cs (type_of f fl) (stat_of f fl) (capabilities f) (broken f) name).
    - rewrite colored_ok; [reflexivity|]. intros x y H R. eapply Ap; eauto using wanted_palette.
    - cbn [c_valid c_len c_flags]. rewrite Nat.eqb_refl. reflexivity.
    - unfold cpath_stat. cbn [c_valid c_len c_flags]. rewrite Nat.eqb_refl. reflexivity.
    - unfold cpath_has_capabilities. cbn [c_valid c_len]. rewrite Nat.eqb_refl. reflexivity.
    - intros _. unfold cpath_is_broken. cbn [c_valid c_len]. rewrite Nat.ltb_irrefl. reflexivity.
    - unfold name_of. cbn [c_valid c_nameoff c_path skipn]. rewrite Nat.sub_0_r. apply firstn_all.
  Qed.

  Lemma segment_safe e s b : control l b -> (forall x, e = Some x -> palette cs x) -> In b (segment l cs e s) -> in_colors cs b.
  Proof.
    intros C P I. unfold segment in I. destruct s as [|c s]; [destruct I|]. destruct e as [e|]; [|destruct (tty_control l _ _ C I)].
    rewrite !in_app_iff in I. unfold in_colors. destruct I as [I|[I|[I|[I|I]]]]; auto; [right; right; right; eauto|destruct (tty_control l _ _ C I)].
  Qed.
  Lemma painted_safe dirs name tail color b : control l b -> (name <> [] -> forall x, color = Some x -> palette cs x) ->
    In b (painted l cs dirs name tail color) -> in_colors cs b.
  Proof.
    intros C P I. unfold painted in I. rewrite in_app_iff in I.
    assert (D : forall x, directory cs = Some x -> palette cs x) by (intros x H; right; rewrite H; cbn; tauto).
    destruct I as [I|I]; [|exact (segment_safe _ _ _ C (bad_palette cs) I)].
    destruct name as [|c s]; [exact (segment_safe _ _ _ C D I)|]. destruct (same color (directory cs)); [exact (segment_safe _ _ _ C D I)|].
    rewrite in_app_iff in I. destruct I as [I|I]; [exact (segment_safe _ _ _ C D I)|]. refine (segment_safe _ _ _ C _ I). apply P. discriminate.
  Qed.

  Theorem path_safe b f c o : proper f -> control l c -> print_path l (Some cs) (mkCfile b false) f = Some o ->
    exists new, buffer o = b ++ new /\ (In c new -> in_colors cs c).
  Proof.
    intros Pr Cc E. destruct (path_ok b f Pr) as (dirs & name & tail & color & H & P). rewrite E in H. injection H as ->. cbn [buffer].
    eexists. split; [reflexivity|]. apply painted_safe; [exact Cc|]. intros Nn x X.
    destruct P as [(_ & _ & _ & _ & P)|[(_ & _ & _ & Ln & _ & _ & P & _)|(_ & _ & _ & P & _)]]; [|destruct P as [P|(s & _ & P)]|congruence].
    - eapply wanted_palette. rewrite <- (P Nn). exact X.
    - apply app_eq_nil in P. destruct P. congruence.
    - eapply wanted_palette. rewrite <- (P Nn). exact X.
  Qed.
  Theorem target_safe b f r p c o : target f = Some p -> from_link f r -> control l c -> print_link_target l (Some cs) (mkCfile b false) f = Some o ->
    exists new, buffer o = b ++ new /\ (In c new -> in_colors cs c).
  Proof.
    intros Tg Fl Cc E. destruct (target_ok b f r p Tg Fl) as (dirs & name & tail & color & H & P). rewrite E in H. injection H as ->. cbn [buffer].
    eexists. split; [reflexivity|]. apply painted_safe; [exact Cc|]. intros Nn x X.
    destruct P as [(_ & _ & _ & _ & P)|(_ & _ & Ln & _ & _ & P & _)]; [|destruct P as [P|(s & _ & P)]].
    - eapply wanted_palette. rewrite <- (P Nn). exact X.
    - apply app_eq_nil in P. destruct P. congruence.
    - eapply wanted_palette. rewrite <- (P Nn). exact X.
  Qed.
End Painting.

Lemma carriage_return : exists l s, good_locale l /\ ~ In x1b (tty l s) /\ In x0d (tty l s).
Proof.
  exists c_locale, [x61; x0d; x62]. split.
  - split; [|split; [|split; reflexivity]].
    + intros mb s n c mb' _ H. destruct s; [discriminate|]. injection H as <- _ _. cbn. lia.
    + intros mb s n c mb' H P. destruct s; [discriminate|]. injection H as <- <- _. cbn [firstn]. split; intros [->|[]]; discriminate P.
  - change (tty c_locale [x61; x0d; x62]) with [x61; x0d; x62]. cbn. split; [|auto]. intros [H|[H|[H|[]]]]; discriminate.
Qed.
