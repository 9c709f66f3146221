(** * Proofs about the status bar *)
From Coq Require Import String List Arith NArith ZArith Bool Lia.
From Coq Require Import Init.Byte Strings.Byte.
From Coq Require Import ZifyBool ZifyNat ZifyN.
From Verif Require Import QuoteModel QuoteSpec QuoteProofs BarModel BarSpec.
Import ListNotations.
Local Open Scope nat_scope.

Section Text.
  Variable l : locale.
  Variable wcwidth : wc l -> Z.
  Hypothesis S : sane l wcwidth.
  Notation pr := (Forall (fun c => iswprint l c = true)).
  Notation shows := (shows l).
  Notation columns := (columns l wcwidth).

  Lemma skipn_app_le {A} n (s t : list A) : n <= List.length s -> skipn n (s ++ t) = skipn n s ++ t.
  Proof. intros L. rewrite skipn_app. replace (n - List.length s) with 0 by lia. reflexivity. Qed.

  Lemma shows_app s cs : shows s cs -> pr cs -> forall t ds, shows t ds -> shows (s ++ t) (cs ++ ds).
  Proof.
    induction 1 as [|s n c mb cs D SH IH]; intros P t ds T; [exact T|]. inversion_clear P as [|? ? P1 P2].
    pose proof (sn_print _ _ S _ _ _ _ _ D P1) as L. cbn [app]. apply (sh_cons l _ n c mb).
    - rewrite <- (firstn_skipn n s), <- app_assoc. apply (sn_prefix _ _ S); [exact D|lia].
    - rewrite skipn_app_le by lia. apply IH; assumption.
  Qed.
  Lemma columns_app cs ds : columns (cs ++ ds) = columns cs + columns ds.
  Proof. induction cs as [|c cs IH]; [reflexivity|]. cbn [app]. unfold BarSpec.columns in *. cbn [fold_right]. lia. Qed.

  (** Strings of printable characters *)
  Lemma printable_shows s : printable l s -> exists cs, shows s cs /\ pr cs.
  Proof.
    induction 1 as [|b s A P (cs & IH & F)|b s A P (cs & IH & F)|mb t n c mb' s D A P (cs & IH & F)].
    - exists []. split; constructor.
    - destruct (sn_byte _ _ S b (mb_init l) s (sn_visible _ _ S b A)) as (c & mb & D & W). exists (c :: cs). split; [|constructor; assumption]. apply (sh_cons l _ 1 c mb); [exact D|exact IH].
    - destruct (sn_byte _ _ S b (mb_init l) s A) as (c & mb & D & W). exists (c :: cs). split; [|constructor; assumption]. apply (sh_cons l _ 1 c mb); [exact D|exact IH].
    - exists (c :: cs). split; [|constructor; assumption]. pose proof (sn_print _ _ S _ _ _ _ _ D A) as L. rewrite (sn_state _ _ S) in D.
      apply (sh_cons l _ n c mb'); [apply (sn_prefix _ _ S); [exact D|lia]|]. rewrite skipn_app_le by (rewrite firstn_length; lia). rewrite skipn_firstn_comm, Nat.sub_diag. exact IH.
  Qed.

  (** ** Escaping *)
  Lemma tidy_skip s n c mb : tidy l s -> s <> [] -> decode l (mb_init l) s = Some (n, c, mb) -> tidy l (skipn n s) /\ (wesc_iswprint l false c = true -> iswprint l c = true).
  Proof.
    intros T N D. inversion T as [|s' n' c' mb' NE D' W T' E|b s' D' T' E]; subst; [congruence| |congruence].
    rewrite D in D'. injection D' as <- <- <-. split; [exact T'|]. unfold wesc_iswprint. cbn [negb andb]. destruct (iswprint l c) eqn:I; [reflexivity|]. cbn [orb]. auto.
  Qed.
  Lemma tidy_bad b s : tidy l (b :: s) -> decode l (mb_init l) (b :: s) = None -> tidy l s.
  Proof. intros T D. inversion T; subst; congruence. Qed.

  Lemma tidy_dollar fuel : forall s mb, tidy l s -> printable l (dollar_str l false fuel s mb).
  Proof.
    induction fuel as [|fuel IH]; intros s mb T; cbn [dollar_str]; [constructor|].
    destruct s as [|x s]; [constructor|]. unfold xmbrtowc. rewrite (sn_state _ _ S). destruct (decode l (mb_init l) (x :: s)) as [[[n c] mb']|] eqn:D.
    - destruct (tidy_skip _ _ _ _ T ltac:(discriminate) D) as (T' & W). apply pr_app; [|apply IH; exact T'].
      match goal with |- context [?a && negb ?e] => destruct a eqn:A; cbn [andb]; [|apply pr_escaped]; destruct e end; cbn [negb]; [apply pr_escaped|].
      rewrite <- (app_nil_r (firstn n (x :: s))). eapply pr_wide; [exact D|apply W; reflexivity|constructor].
    - cbn [andb]. apply pr_app; [apply pr_escaped|]. apply IH. cbn [skipn]. apply (tidy_bad x); assumption.
  Qed.

  Lemma tidy_ascii s : ~ In x00 s -> tidy l s -> printable l (firstn (print_ascii l false (asciinlen s) s) s) /\ tidy l (skipn (print_ascii l false (asciinlen s) s) s).
  Proof.
    induction s as [|b s IH]; intros Z T; [split; [constructor|exact T]|]. cbn [asciinlen]. destruct (N.ltb_spec (Byte.to_N b) 128) as [A|A]; [|split; [constructor|exact T]].
    cbn [print_ascii]. destruct (wesc_isprint l false b) eqn:W; [|split; [constructor|exact T]].
    destruct (sn_ascii _ _ S b (mb_init l) s) as (c & mb & D & E1 & E2 & E3); [intros ->; apply Z; left; reflexivity|exact A|].
    destruct (tidy_skip _ _ _ _ T ltac:(discriminate) D) as (T' & W'). cbn [skipn] in T'.
    destruct (IH (fun I => Z (or_intror I)) T') as (P & Q). cbn [firstn skipn]. split; [|exact Q]. apply pr_byte; [|exact P].
    rewrite <- E1. apply W'. unfold wesc_iswprint. rewrite E1, E2. exact W.
  Qed.
  Lemma tidy_wide fuel : forall s mb, tidy l s -> List.length s <= print_wide l false fuel s mb -> printable l s.
  Proof.
    induction fuel as [|fuel IH]; intros s mb T L; cbn [print_wide] in L; [destruct s; [constructor|cbn in L; lia]|].
    destruct s as [|x s]; [constructor|]. unfold xmbrtowc in L. rewrite (sn_state _ _ S) in L. destruct (decode l (mb_init l) (x :: s)) as [[[n c] mb']|] eqn:D; [|cbn in L; lia].
    destruct (tidy_skip _ _ _ _ T ltac:(discriminate) D) as (T' & W). destruct (wesc_iswprint l false c) eqn:E; [|cbn in L; lia].
    rewrite <- (firstn_skipn n (x :: s)). eapply pr_wide; [exact D|apply W; reflexivity|]. apply (IH _ mb'); [exact T'|]. rewrite skipn_length. lia.
  Qed.

  Lemma tidy_quoted s : ~ In x00 s -> tidy l s -> printable l (quoted l false s).
  Proof.
    intros Z T. assert (H : printable l (quoted0 l false s)).
    { unfold quoted0. destruct (Nat.ltb_spec (printable_len l false s) (List.length s)) as [P|P].
      { apply pr_app; [apply pr_all; reflexivity|]. apply pr_app; [apply tidy_dollar; exact T|apply pr_all; reflexivity]. }
      cbn [negb orb]. unfold printable_len in P. destruct (tidy_ascii s Z T) as (A & B). set (a := print_ascii l false (asciinlen s) s) in *.
      destruct (Nat.ltb_spec a (asciinlen s)).
      - rewrite <- (firstn_all2 (n := a) s) by lia. exact A.
      - rewrite <- (firstn_skipn a s). apply pr_app; [exact A|]. apply (tidy_wide (List.length s) _ (mb_init l) B). rewrite skipn_length. lia. }
    unfold quoted. destruct (quoted0 l false s); [apply pr_all; reflexivity|exact H].
  Qed.

  (** ** Widths *)
  Lemma wide_width_eq fuel : forall s cs mb, List.length s <= fuel -> shows s cs -> pr cs -> wide_width l wcwidth fuel s mb = columns cs.
  Proof.
    induction fuel as [|fuel IH]; intros s cs mb L SH P.
    - destruct SH as [|s n c mb' cs D SH]; [reflexivity|]. inversion_clear P as [|? ? P1 P2]. apply (sn_print _ _ S) in D; [|exact P1]. lia.
    - destruct SH as [|s n c mb' cs D SH]; [reflexivity|]. inversion_clear P as [|? ? P1 P2]. pose proof (sn_print _ _ S _ _ _ _ _ D P1) as B.
      destruct s as [|x s]; [cbn in B; lia|]. cbn [wide_width]. unfold xmbrtowc. rewrite (sn_state _ _ S), D. unfold BarSpec.columns. cbn [fold_right].
      f_equal; [|apply IH; [rewrite skipn_length; lia|exact SH|exact P2]]. destruct (Z.ltb_spec 0 (wcwidth c)); lia.
  Qed.
  Lemma xstrwidth_eq s : forall cs, shows s cs -> pr cs -> xstrwidth l wcwidth s = columns cs.
  Proof.
    unfold xstrwidth. intros cs SH P.
    assert (G : forall k, List.length s <= k -> List.length (filter (isprint l) (firstn (asciinlen s) s)) + wide_width l wcwidth k (skipn (asciinlen s) s) (mb_init l) = columns cs); [|apply G; lia].
    revert cs SH P. induction s as [|b s IH]; intros cs SH P k L.
    - cbn [asciinlen firstn filter List.length skipn Nat.add]. apply wide_width_eq; assumption.
    - cbn [asciinlen]. destruct (N.ltb_spec (Byte.to_N b) 128) as [A|A].
      + assert (NZ : b <> x00).
        { intros ->. inversion SH as [|s' n' c' mb' cs' D' SH' E]; subst. inversion_clear P as [|? ? P1 P2]. apply (sn_nul _ _ S) in D'. congruence. }
        destruct (sn_ascii _ _ S b (mb_init l) s NZ A) as (c & mb & D & E1 & E2 & E3).
        inversion SH as [|s' n' c' mb' cs' D' SH' E]; subst. rewrite D in D'. injection D' as <- <- <-. inversion_clear P as [|? ? P1 P2].
        cbn [firstn filter skipn]. rewrite <- E1, P1. cbn [List.length Nat.add]. cbn [skipn] in SH'. cbn [List.length] in L.
        unfold BarSpec.columns. cbn [fold_right]. rewrite E3 by congruence. rewrite (IH cs' SH' P2 k) by lia. reflexivity.
      + cbn [firstn filter List.length skipn Nat.add]. apply wide_width_eq; assumption.
  Qed.

  Lemma fit_eq fuel : forall s cs mb lhslen pathwidth pathmax, List.length s <= fuel -> shows s cs -> pr cs -> pathwidth <= pathmax ->
    exists k cs1 cs2, fit_loop l wcwidth fuel s mb lhslen pathwidth pathmax = (lhslen + k, pathwidth + columns cs1) /\ cs = cs1 ++ cs2 /\ k <= List.length s /\
      shows (firstn k s) cs1 /\ shows (skipn k s) cs2 /\ pathwidth + columns cs1 <= pathmax /\
      (forall c, hd_error cs2 = Some c -> pathmax < pathwidth + columns (cs1 ++ [c])).
  Proof.
    induction fuel as [|fuel IH]; intros s cs mb lhslen pathwidth pathmax L SH P W.
    - destruct s as [|x s]; [|cbn in L; lia]. inversion SH as [|s' n c mb' cs' D SH' E]; subst.
      + exists 0, [], []. cbn [fit_loop]. rewrite !Nat.add_0_r. repeat split; auto; try constructor. discriminate.
      + inversion_clear P as [|? ? P1 P2]. apply (sn_print _ _ S) in D; [|exact P1]. cbn in D. lia.
    - destruct SH as [|s n c mb' cs D SH].
      { exists 0, [], []. cbn [fit_loop]. rewrite !Nat.add_0_r. repeat split; auto; try constructor. discriminate. }
      pose proof P as P0. inversion_clear P as [|? ? P1 P2]. pose proof (sn_print _ _ S _ _ _ _ _ D P1) as B. destruct s as [|x s]; [cbn in B; lia|].
      cbn [fit_loop]. unfold xmbrtowc. rewrite (sn_state _ _ S), D. set (w := if (wcwidth c <? 0)%Z then 0 else Z.to_nat (wcwidth c)).
      assert (WE : w = Z.to_nat (wcwidth c)) by (unfold w; destruct (Z.ltb_spec (wcwidth c) 0); lia).
      destruct (Nat.ltb_spec pathmax (pathwidth + w)) as [F|F].
      + exists 0, [], (c :: cs). rewrite !Nat.add_0_r. repeat split; auto; try constructor; try lia.
        * eapply sh_cons; eassumption.
        * intros c' E. injection E as <-. unfold BarSpec.columns. cbn [app fold_right]. lia.
      + destruct (IH (skipn n (x :: s)) cs mb' (lhslen + n) (pathwidth + w) pathmax) as (k & cs1 & cs2 & E1 & E2 & E3 & E4 & E5 & E6 & E7); auto.
        { rewrite skipn_length. lia. }
        exists (n + k), (c :: cs1), cs2. rewrite E1. rewrite skipn_length in E3.
        assert (C : forall ds, columns (c :: ds) = w + columns ds) by (intros ds; rewrite WE; reflexivity).
        split; [rewrite C; f_equal; lia|]. split; [rewrite E2; reflexivity|]. split; [lia|].
        assert (FN : firstn (n + k) (x :: s) = firstn n (x :: s) ++ firstn k (skipn n (x :: s))).
        { rewrite <- (firstn_skipn n (x :: s)) at 1. rewrite firstn_app, firstn_firstn, firstn_length_le by lia. rewrite Nat.min_r by lia. f_equal. f_equal. lia. }
        split. { rewrite FN. apply (sh_cons l _ n c mb'); [apply (sn_prefix _ _ S); [exact D|lia]|]. rewrite skipn_app_le by (rewrite firstn_length; lia). rewrite skipn_firstn_comm, Nat.sub_diag. exact E4. }
        split. { assert (SK : skipn (n + k) (x :: s) = skipn k (skipn n (x :: s))) by (clear; revert k; generalize (x :: s); induction n as [|n IH]; intros s0 k; [reflexivity|]; destruct s0; [rewrite !skipn_nil; reflexivity|]; apply IH). rewrite SK. exact E5. }
        split; [rewrite C; lia|]. intros c' H. cbn [app]. rewrite C. specialize (E7 c' H). lia.
  Qed.

  Lemma shows_ascii s : forallb is_ascii s = true -> exists cs, shows s cs /\ pr cs /\ columns cs = List.length s.
  Proof.
    induction s as [|b s IH]; intros H; [exists []; repeat split; constructor|]. cbn [forallb] in H. apply andb_true_iff in H. destruct H as (H1 & H2).
    destruct (IH H2) as (cs & A & B & C). unfold is_ascii in H1. assert (V : isprint l b = true) by (apply (sn_visible _ _ S); lia).
    destruct (sn_ascii _ _ S b (mb_init l) s) as (c & mb & D & E1 & E2 & E3); [intros ->; discriminate H1|lia|].
    exists (c :: cs). split; [apply (sh_cons l _ 1 c mb); assumption|]. split; [constructor; [congruence|exact B]|].
    unfold BarSpec.columns in *. cbn [fold_right List.length]. rewrite E3 by exact V. rewrite C. reflexivity.
  Qed.
  Lemma fills_app s m t n : fills l wcwidth s m -> fills l wcwidth t n -> fills l wcwidth (s ++ t) (m + n).
  Proof.
    intros (cs & A & B & C) (ds & D & E & F). exists (cs ++ ds). split; [apply shows_app; assumption|]. split; [apply Forall_app; auto|]. rewrite columns_app. lia.
  Qed.
  Lemma spaces_ascii n : forallb is_ascii (repeat x20 n) = true.
  Proof. induction n; auto. Qed.

  Lemma not_nul s t : ~ In x00 (s ++ t) -> ~ In x00 s.
  Proof. intros H I. apply H. apply in_app_iff. auto. Qed.

  Lemma status_eq width rhs path nameoff depth ds : 3 <= width -> shows rhs ds -> pr ds ->
    let shown := firstn (if depth =? 0 then List.length path else nameoff) path in
    let esc := quoted l false shown in
    forall cs, shows esc cs -> pr cs ->
    exists k cs1 cs2 r rn, cs = cs1 ++ cs2 /\ k <= List.length esc /\ shows (firstn k esc) cs1 /\ shows (skipn k esc) cs2 /\ fills l wcwidth r rn /\ columns cs1 + 3 + rn <= width /\
      (r = rhs /\ rn = columns ds \/ r = [] /\ rn = 0 /\ width < 3 + columns ds) /\
      (forall c, hd_error cs2 = Some c -> width < columns (cs1 ++ [c]) + 3 + rn) /\
      eval_status l wcwidth width rhs path nameoff depth = Some (firstn k esc ++ str "..." ++ repeat x20 (width - rn - 3 - columns cs1) ++ r).
  Proof.
    intros W SH P shown esc cs SC PC. unfold eval_status. destruct (Nat.ltb_spec width 3); [lia|].
    rewrite (xstrwidth_eq rhs ds SH P). fold shown.
    assert (WE : fst (wordnesc l false ([], 4 * List.length shown + 4) shown) = esc).
    { rewrite wordnesc_eq by lia. pose proof (quoted_length l false shown). rewrite put_fits by lia. reflexivity. }
    rewrite WE.
    set (rr := if width <? 3 + columns ds then ([], 0) else (rhs, columns ds)).
    assert (R : exists r rn, rr = (r, rn) /\ fills l wcwidth r rn /\ 3 + rn <= width /\ (r = rhs /\ rn = columns ds \/ r = [] /\ rn = 0 /\ width < 3 + columns ds)).
    { unfold rr. destruct (Nat.ltb_spec width (3 + columns ds)).
      - exists [], 0. split; [reflexivity|]. split; [exists []; repeat split; constructor|]. split; [lia|]. right. auto.
      - exists rhs, (columns ds). split; [reflexivity|]. split; [exists ds; auto|]. split; [lia|]. left. auto. }
    destruct R as (r & rn & RE & RF & RL & RC). rewrite RE.
    destruct (fit_eq (List.length esc) esc cs (mb_init l) 0 0 (width - rn - 3) (le_n _) SC PC ltac:(lia)) as (k & cs1 & cs2 & E1 & E2 & E3 & E4 & E5 & E6 & E7).
    rewrite E1. exists k, cs1, cs2, r, rn. split; [exact E2|]. split; [exact E3|]. split; [exact E4|]. split; [exact E5|]. split; [exact RF|]. split; [lia|]. split; [exact RC|].
    split; [intros c H'; specialize (E7 c H'); lia|]. unfold padding. cbn [Nat.add]. rewrite <- !app_assoc. reflexivity.
  Qed.

  Lemma status_fits width rhs path nameoff depth rn : 3 <= width -> ~ In x00 path -> fills l wcwidth rhs rn ->
    tidy l (firstn (if depth =? 0 then List.length path else nameoff) path) ->
    exists text, eval_status l wcwidth width rhs path nameoff depth = Some text /\ fills l wcwidth text width.
  Proof.
    intros W ZP (ds & SH & P & _) T. set (shown := firstn (if depth =? 0 then List.length path else nameoff) path) in *.
    assert (Z : ~ In x00 shown) by (apply (not_nul _ (skipn (if depth =? 0 then List.length path else nameoff) path)); unfold shown; rewrite firstn_skipn; exact ZP).
    destruct (printable_shows _ (tidy_quoted shown Z T)) as (cs & SC & PC).
    destruct (status_eq width rhs path nameoff depth ds W SH P cs SC PC) as (k & cs1 & cs2 & r & n & E2 & E3 & E4 & E5 & RF & RL & RC & NX & ST). fold shown in E3, E4, E5, ST.
    eexists. split; [exact ST|].
    replace width with (columns cs1 + (3 + (width - n - 3 - columns cs1 + n))) at 2 by lia.
    apply fills_app. { exists cs1. split; [exact E4|]. split; [|reflexivity]. rewrite E2 in PC. apply Forall_app in PC. apply PC. }
    apply fills_app; [destruct (shows_ascii (str "...") eq_refl) as (a & A1 & A2 & A3); exists a; auto|].
    apply fills_app; [|exact RF]. destruct (shows_ascii (repeat x20 (width - n - 3 - columns cs1)) (spaces_ascii _)) as (a & A1 & A2 & A3). exists a. rewrite repeat_length in A3. auto.
  Qed.

  (** A printable path is not changed. *)
  Lemma shows_dec_ascii b s cs : b <> x00 -> (Byte.to_N b < 128)%N -> shows (b :: s) cs -> pr cs -> isprint l b = true /\ exists ds, shows s ds /\ pr ds.
  Proof.
    intros NZ A SH P. destruct (sn_ascii _ _ S b (mb_init l) s NZ A) as (c & mb & D & E1 & E2 & E3).
    inversion SH as [|s' n' c' mb' cs' D' SH' E]; subst. rewrite D in D'. injection D' as <- <- <-. inversion_clear P as [|? ? P1 P2]. split; [congruence|]. exists cs'. auto.
  Qed.
  Lemma pr_ascii_all s : forall cs, ~ In x00 s -> shows s cs -> pr cs -> print_ascii l false (asciinlen s) s = asciinlen s /\ exists ds, shows (skipn (asciinlen s) s) ds /\ pr ds.
  Proof.
    induction s as [|b s IH]; intros cs Z SH P; [split; [reflexivity|]; exists cs; auto|]. cbn [asciinlen]. destruct (N.ltb_spec (Byte.to_N b) 128) as [A|A]; [|split; [reflexivity|]; exists cs; auto].
    destruct (shows_dec_ascii b s cs) as (I & ds & D1 & D2); auto; [intros ->; apply Z; left; reflexivity|].
    destruct (IH ds (fun J => Z (or_intror J)) D1 D2) as (X & Y). cbn [print_ascii skipn]. unfold wesc_isprint. rewrite I. cbn [orb]. rewrite X. auto.
  Qed.
  Lemma pr_wide_all fuel : forall s cs mb, List.length s <= fuel -> shows s cs -> pr cs -> print_wide l false fuel s mb = List.length s.
  Proof.
    induction fuel as [|fuel IH]; intros s cs mb L SH P; [destruct s; [reflexivity|cbn in L; lia]|].
    destruct SH as [|s n c mb' cs D SH]; [reflexivity|]. inversion_clear P as [|? ? P1 P2]. pose proof (sn_print _ _ S _ _ _ _ _ D P1) as B.
    destruct s as [|x s]; [cbn in B; lia|]. cbn [print_wide]. unfold xmbrtowc. rewrite (sn_state _ _ S), D. unfold wesc_iswprint. rewrite P1. cbn [orb].
    rewrite (IH _ cs); [rewrite skipn_length; lia|rewrite skipn_length; lia|exact SH|exact P2].
  Qed.
  Lemma plain_quoted s cs : s <> [] -> ~ In x00 s -> shows s cs -> pr cs -> quoted l false s = s.
  Proof.
    intros NE Z SH P. destruct (pr_ascii_all s cs Z SH P) as (A & ds & D1 & D2). unfold quoted, quoted0, printable_len. rewrite A, Nat.ltb_irrefl.
    rewrite (pr_wide_all _ _ ds) by (auto; rewrite skipn_length; lia). rewrite skipn_length.
    replace (asciinlen s + (List.length s - asciinlen s) <? List.length s) with false by (symmetry; apply Nat.ltb_ge; lia).
    cbn [negb orb]. destruct s; [congruence|reflexivity].
  Qed.

  Lemma status_shows width rhs path nameoff depth rn : 3 <= width -> ~ In x00 path -> fills l wcwidth rhs rn ->
    let shown := firstn (if depth =? 0 then List.length path else nameoff) path in
    forall n, shown <> [] -> fills l wcwidth shown n ->
    let r := if width <? 3 + rn then [] else rhs in
    exists lhs rest pad k, eval_status l wcwidth width rhs path nameoff depth = Some (lhs ++ str "..." ++ repeat x20 pad ++ r) /\ lhs ++ rest = shown /\
      fills l wcwidth lhs k /\ (rest = [] \/ exists c t w, rest = c ++ t /\ one_char l wcwidth c w /\ width < k + w + 3 + (if width <? 3 + rn then 0 else rn)).
  Proof.
    intros W ZP (ds & SH & P & CR) shown n NE (cs & SC & PC & CC) rr.
    assert (Z : ~ In x00 shown) by (apply (not_nul _ (skipn (if depth =? 0 then List.length path else nameoff) path)); unfold shown; rewrite firstn_skipn; exact ZP).
    pose proof (plain_quoted shown cs NE Z SC PC) as Q. 
    destruct (status_eq width rhs path nameoff depth ds W SH P cs) as (k & cs1 & cs2 & r & m & E2 & E3 & E4 & E5 & RF & RL & RC & NX & ST); [fold shown; rewrite Q; exact SC|exact PC|].
    fold shown in E3, E4, E5, ST. rewrite Q in *. exists (firstn k shown), (skipn k shown), (width - m - 3 - columns cs1), (columns cs1).
    assert (R : r = rr /\ m = if width <? 3 + rn then 0 else rn).
    { unfold rr. destruct (Nat.ltb_spec width (3 + rn)); destruct RC as [(RC1 & RC2)|(RC1 & RC2 & RC3)]; subst; split; auto; lia. }
    destruct R as (-> & RM). split; [exact ST|]. split; [apply firstn_skipn|].
    rewrite E2 in PC. apply Forall_app in PC. destruct PC as (PC1 & PC2). split; [exists cs1; auto|].
    inversion E5 as [HS HC|s' n' c mb' cs' D SH' HS HC].
    - left. reflexivity.
    - right. subst cs2. inversion_clear PC2 as [|? ? P1 P2]. pose proof (sn_print _ _ S _ _ _ _ _ D P1) as B.
      exists (firstn n' (skipn k shown)), (skipn n' (skipn k shown)), (Z.to_nat (wcwidth c)). split; [symmetry; apply firstn_skipn|]. split.
      + exists c. split; [|auto]. apply (sh_cons l _ n' c mb').
        * pose proof (sn_prefix _ _ S _ _ _ _ _ [] D (proj1 B)) as D2. rewrite app_nil_r in D2. exact D2.
        * rewrite skipn_all2 by (rewrite firstn_length; lia). constructor.
      + specialize (NX c eq_refl). rewrite columns_app in NX. unfold BarSpec.columns in NX at 2. cbn [fold_right] in NX. rewrite RM in NX. lia.
  Qed.
End Text.

(** ** The scrolling region *)
Lemma digit_ok n : (n < 10)%N -> digit_value (digit n) = Some n.
Proof.
  intros H. assert (n = 0 \/ n = 1 \/ n = 2 \/ n = 3 \/ n = 4 \/ n = 5 \/ n = 6 \/ n = 7 \/ n = 8 \/ n = 9)%N as K by lia.
  repeat (destruct K as [K|K]; [subst n; reflexivity|]). subst n. reflexivity.
Qed.
Lemma itoa_ok pos : forall n w, (n < 10 ^ N.of_nat pos)%N -> 0 < pos -> exists ds, itoa_loop pos n w = Some (ds ++ w) /\ List.length ds <= pos /\ ds <> [] /\
  (forall acc, decimal acc ds = Some (acc * 10 ^ N.of_nat (List.length ds) + n)%N) /\ (hd x00 ds = "0"%byte -> n = 0%N /\ List.length ds = 1).
Proof.
  induction pos as [|pos IH]; intros n w L P; [lia|]. cbn [itoa_loop].
  assert (M : (n mod 10 < 10)%N) by (apply N.mod_lt; discriminate). pose proof (N.div_mod n 10 ltac:(discriminate)) as DM.
  destruct (N.eqb_spec (n / 10) 0) as [Z|Z].
  - exists [digit (n mod 10)]. split; [reflexivity|]. split; [cbn; lia|]. split; [discriminate|]. split.
    + intros acc. cbn [decimal]. rewrite digit_ok by exact M. cbn [List.length]. f_equal. change (10 ^ N.of_nat 1)%N with 10%N. lia.
    + cbn [hd List.length]. intros H. split; [|reflexivity]. pose proof (digit_ok _ M) as V. rewrite H in V. change (digit_value "0"%byte) with (Some 0%N) in V. assert (0 = n mod 10)%N by congruence. lia.
  - assert (B : (n / 10 < 10 ^ N.of_nat pos)%N).
    { apply N.div_lt_upper_bound; [discriminate|]. replace (10 * 10 ^ N.of_nat pos)%N with (10 ^ N.of_nat (S pos))%N; [exact L|]. rewrite Nat2N.inj_succ, N.pow_succ_r'. reflexivity. }
    destruct pos as [|pos]; [cbn in B; lia|]. destruct (IH (n / 10)%N (digit (n mod 10) :: w) B ltac:(lia)) as (ds & E & LE & NE & D & H).
    exists (ds ++ [digit (n mod 10)]). split; [rewrite E, <- app_assoc; reflexivity|]. rewrite app_length. cbn [List.length]. split; [lia|]. split; [destruct ds; discriminate|]. split.
    + intros acc. assert (G : forall s a t, decimal a (s ++ t) = match decimal a s with Some v => decimal v t | None => None end).
      { induction s as [|c s IHs]; intros a t; [reflexivity|]. cbn [app decimal]. destruct (digit_value c); auto. }
      rewrite G, D. cbn [decimal]. rewrite digit_ok by exact M. f_equal. rewrite Nat.add_1_r, Nat2N.inj_succ, N.pow_succ_r'. lia.
    + destruct ds as [|c ds]; [congruence|]. cbn [hd app]. intros HH. destruct (H HH) as (H0 & _). lia.
Qed.

Lemma resize_ok height : (height <= 65535)%N ->
  (height < 3 -> bfs_bar_resize height = Some reset_seq)%N /\
  (3 <= height -> exists ds, bfs_bar_resize height = Some (PREFIX ++ ds ++ SUFFIX) /\ decimal 0 ds = Some (height - 1) /\ ds <> [] /\ hd x00 ds <> "0"%byte)%N.
Proof.
  intros H. unfold bfs_bar_resize, BFS_BAR_MIN_HEIGHT. split; intros L.
  - rewrite (proj2 (N.ltb_lt height 3) L). reflexivity.
  - rewrite (proj2 (N.ltb_ge height 3) L). change (S (List.length PREFIX) + ITOA_DIGITS + S (List.length SUFFIX) <=? List.length PREFIX + ITOA_DIGITS) with false. cbv iota.
    unfold ass_itoa. destruct (itoa_ok ITOA_DIGITS (height - 1) []) as (ds & E & LE & NE & D & Z); [change (10 ^ N.of_nat ITOA_DIGITS)%N with 1000000%N; lia|cbv; lia|].
    rewrite E, app_nil_r. exists ds. specialize (D 0%N). rewrite N.mul_0_l, N.add_0_l in D. split; [|split; [exact D|split; [exact NE|intros HH; apply Z in HH; lia]]].
    destruct (Nat.leb_spec (S (List.length PREFIX) + ITOA_DIGITS + S (List.length SUFFIX)) (List.length (PREFIX ++ ds ++ SUFFIX))) as [X|X]; [|reflexivity].
    exfalso. rewrite !app_length in X. change ITOA_DIGITS with 6 in *. lia.
Qed.

(** ** A locale with wide characters *)
Lemma three A B C (a a' : A) (b b' : B) (c c' : C) : Some (a, b, c) = Some (a', b', c') -> a = a' /\ b = b'.
Proof. intros E. inversion E. auto. Qed.
Definition demo_decode (mb : unit) (s : list byte) : option (nat * N * unit) :=
  match s with
  | [] => None
  | b :: s =>
      if Byte.eqb b x00 then Some (0, 0%N, tt)
      else if (Byte.to_N b <? 128)%N then Some (1, Byte.to_N b, tt)
      else if Byte.eqb b xe3 then match s with x :: y :: _ => if (Byte.eqb x x81 && (128 <=? Byte.to_N y)%N)%bool then Some (3, (65536 + 128 + Byte.to_N y)%N, tt) else None | _ => None end
      else None
  end.
Definition demo_print (c : N) : bool := ((32 <=? c) && (c <=? 126) || (65536 <=? c))%N.
Definition demo_space (c : N) : bool := ((9 <=? c) && (c <=? 13) || (c =? 32))%N.
Definition demo : locale := mkLocale N unit tt demo_decode (fun b => demo_print (Byte.to_N b)) (fun b => demo_space (Byte.to_N b)) demo_print demo_space.
Definition demo_width (c : wc demo) : Z := if demo_print c then if (65536 <=? c)%N then 2%Z else 1%Z else (-1)%Z.

Lemma demo_cases mb s n c mb' : demo_decode mb s = Some (n, c, mb') ->
  (exists s', s = x00 :: s' /\ n = 0 /\ c = 0%N) \/
  (exists b s', s = b :: s' /\ b <> x00 /\ (Byte.to_N b < 128)%N /\ n = 1 /\ c = Byte.to_N b) \/
  (exists y s', s = xe3 :: x81 :: y :: s' /\ (128 <= Byte.to_N y)%N /\ n = 3 /\ c = (65536 + 128 + Byte.to_N y)%N).
Proof.
  destruct s as [|b s]; [discriminate|]. cbn [demo_decode]. destruct (Byte.eqb b x00) eqn:E0.
  { apply Byte.byte_dec_bl in E0. subst b. intros H. injection H as <- <- <-. left. eauto. }
  destruct (N.ltb_spec (Byte.to_N b) 128).
  { intros G. injection G as <- <- <-. right. left. exists b, s. split; [reflexivity|]. split; [intros ->; discriminate E0|auto]. }
  destruct (Byte.eqb b xe3) eqn:E1; [|discriminate]. apply Byte.byte_dec_bl in E1. subst b.
  destruct s as [|x [|y s]]; [discriminate|discriminate|]. destruct (Byte.eqb x x81) eqn:E2; [|discriminate]. apply Byte.byte_dec_bl in E2. subst x.
  destruct (N.leb_spec 128 (Byte.to_N y)); [|discriminate]. intros G. apply three in G. destruct G as (<- & <-). right. right. exists y, s.
  split; [reflexivity|]. split; [assumption|]. split; reflexivity.
Qed.
Lemma demo_is_sane : sane demo demo_width.
Proof.
  constructor.
  - intros [] s. reflexivity.
  - intros mb s n c mb' Z NE D. apply demo_cases in D. destruct D as [(s' & -> & -> & ->)|[(b & s' & -> & _ & L & -> & ->)|(y & s' & -> & Y & -> & ->)]]; cbn [List.length]; [exfalso; apply Z; left; reflexivity|lia|lia].
  - intros mb s n c mb' D P. apply demo_cases in D. destruct D as [(s' & -> & -> & ->)|[(b & s' & -> & _ & L & -> & ->)|(y & s' & -> & Y & -> & ->)]]; cbn [List.length]; [discriminate P|lia|lia].
  - intros mb s n c mb' t D L. pose proof D as D0. apply demo_cases in D. destruct mb, mb'. destruct D as [(s' & -> & -> & ->)|[(b & s' & -> & NZ & L' & -> & ->)|(y & s' & -> & Y & -> & ->)]]; [lia| |apply N.leb_le in Y; cbn [firstn app decode demo]; unfold demo_decode; change (Byte.eqb xe3 x00) with false; change (Byte.to_N xe3 <? 128)%N with false; change (Byte.eqb xe3 xe3) with true; change (Byte.eqb x81 x81) with true; cbn iota; rewrite Y; reflexivity].
    cbn [firstn app decode demo demo_decode] in *. destruct (Byte.eqb b x00); [discriminate D0|]. destruct (N.ltb_spec (Byte.to_N b) 128); [reflexivity|lia].
  - intros b [] s NZ L. exists (Byte.to_N b), tt. cbn [decode demo demo_decode]. destruct (Byte.eqb b x00) eqn:E; [apply Byte.byte_dec_bl in E; congruence|].
    destruct (N.ltb_spec (Byte.to_N b) 128); [|lia]. split; [reflexivity|]. split; [reflexivity|]. split; [reflexivity|]. intros P. unfold demo_width. cbn [isprint demo] in P. rewrite P.
    destruct (N.leb_spec 65536 (Byte.to_N b)); [lia|reflexivity].
  - intros b [] s P. cbn [isprint demo] in P. unfold demo_print in P. pose proof (Byte.to_N_bounded b). assert (B : (32 <= Byte.to_N b <= 126)%N) by lia.
    exists (Byte.to_N b), tt. cbn [decode demo demo_decode]. destruct (Byte.eqb b x00) eqn:E; [apply Byte.byte_dec_bl in E; subst b; cbn in B; lia|].
    destruct (N.ltb_spec (Byte.to_N b) 128); [|lia]. split; [reflexivity|]. exact P.
  - intros b B. cbn [isprint demo]. unfold demo_print. lia.
  - intros mb s n c mb' D. apply demo_cases in D. destruct D as [(s' & _ & _ & ->)|[(b & s' & E & NZ & _)|(y & s' & E & _)]]; [reflexivity|congruence|discriminate E].
  - intros c P. unfold demo_width. cbn [iswprint demo] in P. rewrite P. destruct (65536 <=? c)%N; lia.
Qed.

Lemma newline_shown : exists l wcwidth width rhs path nameoff depth, sane l wcwidth /\
  3 <= width /\ ~ In x00 path /\ (exists rn, fills l wcwidth rhs rn) /\
  exists text, eval_status l wcwidth width rhs path nameoff depth = Some text /\ In x0a text /\ ~ exists n, fills l wcwidth text n.
Proof.
  exists demo, demo_width, 10, [], (["a"; x0a; "b"; "/"]%byte), 4, 1. split; [exact demo_is_sane|]. split; [lia|].
  split. { intros I. cbn in I. repeat (destruct I as [I|I]; [discriminate I|]). exact I. }
  split; [exists 0, []; repeat split; constructor|].
  exists (["a"; x0a; "b"; "/"]%byte ++ str "..." ++ repeat x20 4). split; [vm_compute; reflexivity|]. split; [cbn; auto|].
  intros (n & cs & SH & P & _). inversion SH as [|s' n' c mb' cs' D SH' E]; subst. cbn in D. injection D as <- <- <-. inversion_clear P as [|? ? P1 P2].
  cbn [skipn] in SH'. inversion SH' as [|s2 n2 c2 mb2 cs2 D2 SH2 E2]; subst. cbn in D2. injection D2 as <- <- <-. inversion_clear P2 as [|? ? P3 P4]. discriminate P3.
Qed.
