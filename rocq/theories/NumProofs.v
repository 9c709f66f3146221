(** Proofs about numeric arguments *)
From Coq Require Import List ZArith NArith Bool Lia ZifyBool.
From Coq Require Import Init.Byte Strings.Byte.
From Verif Require Import NumModel NumSpec.
Import ListNotations.
Local Open Scope Z_scope.

Lemma digit_some base c d : digit base c = Some d <-> is_digit_of base c /\ d = digit_value c.
Proof.
  unfold digit, is_digit_of, digit_value. destruct ((_ <=? _) && _) eqn:E.
  - split; [intros [= <-]; lia|intros (_ & ->); reflexivity].
  - split; [discriminate|]. intros (H & _). lia.
Qed.
Lemma digit_none base c : digit base c = None <-> ~ is_digit_of base c.
Proof.
  unfold digit, is_digit_of. destruct ((_ <=? _) && _) eqn:E.
  - split; [discriminate|]. intros H. lia.
  - split; [intros _; lia|reflexivity].
Qed.

Definition stops (base : Z) (rest : list byte) : Prop :=
  match rest with [] => True | c :: _ => ~ is_digit_of base c end.

Lemma digits_split base ds : forall acc rest, Forall (is_digit_of base) ds -> stops base rest ->
  digits base acc (ds ++ rest) = (acc * base ^ Z.of_nat (length ds) + value base ds, rest).
Proof.
  induction ds as [|c ds IH]; intros acc rest F S; cbn [app].
  - cbn [length value]. change (Z.of_nat 0) with 0. rewrite Z.pow_0_r. replace (acc * 1 + 0) with acc by lia.
    destruct rest as [|c rest]; [reflexivity|]. cbn [digits]. apply digit_none in S. rewrite S. reflexivity.
  - inversion_clear F. cbn [digits].
    assert (E : digit base c = Some (digit_value c)) by (apply digit_some; auto). rewrite E.
    rewrite IH by assumption. cbn [length value]. rewrite Nat2Z.inj_succ, Z.pow_succ_r by lia. f_equal. lia.
Qed.

Lemma digits_exists base s : exists ds rest, s = ds ++ rest /\ Forall (is_digit_of base) ds /\ stops base rest.
Proof.
  induction s as [|c s (ds & rest & -> & F & S)]; [exists [], []; repeat split; auto|].
  destruct (digit base c) as [d|] eqn:E.
  - apply digit_some in E. exists (c :: ds), rest. repeat split; auto. constructor; tauto.
  - apply digit_none in E. exists [], (c :: ds ++ rest). repeat split; auto.
Qed.

(** The numeral at the front of a string *)
Definition lex (base : Z) (s : list byte) : option (Z * list byte) :=
  let '(neg, s1) := sign s in
  match s1 with
  | c :: _ => match digit base c with
              | Some _ => let '(n, rest) := digits base 0 s1 in Some ((if neg : bool then - n else n), rest)
              | None => None
              end
  | [] => None
  end.

Lemma not_sign base c : base <= 10 -> is_digit_of base c -> c <> "-"%byte /\ c <> "+"%byte.
Proof. intros B H. split; intros ->; unfold is_digit_of in H; cbn in H; lia. Qed.

Lemma sign_plain c s : c <> "-"%byte -> c <> "+"%byte -> sign (c :: s) = (false, c :: s).
Proof. intros H1 H2. destruct c; try reflexivity; contradiction. Qed.

Lemma lex_numeral base s v rest : base <= 10 -> numeral base s v rest -> lex base s = Some (v, rest).
Proof.
  intros B (sgn & ds & -> & NE & F & S & H). fold (stops base rest) in S.
  assert (D : forall neg : bool,
    match ds ++ rest with
    | c :: _ => match digit base c with
                | Some _ => let '(n, rest') := digits base 0 (ds ++ rest) in Some (if neg then - n else n, rest')
                | None => None
                end
    | [] => None
    end = Some (if neg then - value base ds else value base ds, rest)).
  { intros neg. rewrite digits_split by assumption. destruct ds as [|c ds]; [contradiction|]. cbn [app].
    inversion_clear F. assert (E : digit base c = Some (digit_value c)) by (apply digit_some; auto). rewrite E. reflexivity. }
  destruct H as [(-> & ->)|[(-> & ->)|(-> & ->)]]; cbn [app]; unfold lex.
  - assert (E : sign (ds ++ rest) = (false, ds ++ rest)).
    { destruct ds as [|c ds]; [contradiction|]. cbn [app]. inversion_clear F.
      apply sign_plain; eapply not_sign; eauto. }
    rewrite E. apply (D false).
  - cbn [sign]. apply (D false).
  - cbn [sign]. apply (D true).
Qed.

Lemma sign_cases s : exists sgn, s = sgn ++ snd (sign s) /\
  (fst (sign s) = false /\ (sgn = [] \/ sgn = ["+"%byte]) \/ fst (sign s) = true /\ sgn = ["-"%byte]).
Proof.
  destruct s as [|c s]; [exists []; cbn; auto|].
  destruct c; cbn [sign fst snd]; first [ (exists []; cbn [app]; now auto) | (eexists [_]; cbn [app]; split; [reflexivity|now auto]) ].
Qed.

Lemma lex_sound base s v rest : lex base s = Some (v, rest) -> numeral base s v rest.
Proof.
  unfold lex. destruct (sign_cases s) as (sgn & E & H). destruct (sign s) as [neg s1]. cbn [fst snd] in *.
  destruct (digits_exists base s1) as (ds & r & -> & F & S). rewrite digits_split by assumption.
  destruct ds as [|c ds].
  - cbn [app]. destruct r as [|c r]; [discriminate|]. apply digit_none in S. rewrite S. discriminate.
  - cbn [app]. destruct (digit base c); [|discriminate]. rewrite Z.mul_0_l, Z.add_0_l. intros [= <- <-].
    exists sgn, (c :: ds). split; [exact E|]. split; [discriminate|]. split; [exact F|]. split; [exact S|].
    destruct H as [(-> & [->| ->])|(-> & ->)]; auto.
Qed.

Lemma lex_none base s : base <= 10 -> lex base s = None -> forall v rest, ~ numeral base s v rest.
Proof. intros B E v rest H. rewrite (lex_numeral base s v rest B H) in E. discriminate. Qed.

Lemma numeral_unique base s v rest v' rest' : base <= 10 ->
  numeral base s v rest -> numeral base s v' rest' -> v = v' /\ rest = rest'.
Proof.
  intros B H H'. apply lex_numeral in H; [|exact B]. apply lex_numeral in H'; [|exact B].
  rewrite H in H'. injection H' as -> ->. auto.
Qed.

Section Sane.
  Variable isspace : byte -> bool.
  Hypothesis S : sane isspace.

  Lemma numeral_no_space base s v rest : base <= 10 -> numeral base s v rest -> starts_with_space isspace s = false.
  Proof.
    intros B (sgn & ds & -> & NE & F & _ & H).
    assert (D : starts_with_space isspace (ds ++ rest) = false).
    { destruct ds as [|c ds]; [contradiction|]. inversion_clear F. cbn. destruct (isspace c) eqn:E; [|reflexivity].
      apply S in E. destruct E as (_ & _ & E). exfalso. apply E. unfold is_digit_of in *. lia. }
    destruct H as [(-> & ->)|[(-> & ->)|(-> & ->)]]; [exact D| |]; cbn; (destruct (isspace _) eqn:E; [|reflexivity]);
      apply S in E; destruct E as (E1 & E2 & _); contradiction.
  Qed.

  Lemma no_space s : starts_with_space isspace s = false -> skip_space isspace s = s.
  Proof. destruct s as [|c s]; [reflexivity|]. cbn. intros ->. reflexivity. Qed.

  Lemma numeral_shorter base s v rest : numeral base s v rest -> (length rest < length s)%nat.
  Proof. intros (sgn & ds & -> & NE & _). rewrite !app_length. destruct ds; [contradiction|]. cbn [length]. lia. Qed.

  Lemma strtoll_lex base s : starts_with_space isspace s = false ->
    strtoll isspace base s =
    match lex base s with
    | Some (v, rest) => if v <? LLONG_MIN then (LLONG_MIN, rest, true)
                        else if LLONG_MAX <? v then (LLONG_MAX, rest, true) else (v, rest, false)
    | None => (0, s, false)
    end.
  Proof.
    intros N. unfold strtoll, lex. rewrite (no_space s N). destruct (sign s) as [neg s1].
    destruct s1 as [|c s1]; [reflexivity|]. destruct (digit base c); [|reflexivity].
    destruct (digits base 0 (c :: s1)). reflexivity.
  Qed.

  (** What xstrtoll computes *)
  Lemma xstrtoll_lex base partial s : starts_with_space isspace s = false ->
    xstrtoll isspace partial base s =
    match lex base s with
    | Some (v, rest) =>
        if (v <? LLONG_MIN) || (LLONG_MAX <? v) then inr ERANGE
        else if negb partial && negb (match rest with [] => true | _ => false end) then inr EINVAL
        else inl (v, rest)
    | None => inr EINVAL
    end.
  Proof.
    intros N. unfold xstrtoll. rewrite N, strtoll_lex by exact N. destruct (lex base s) as [[v rest]|] eqn:E.
    - apply lex_sound, numeral_shorter in E. destruct (v <? LLONG_MIN) eqn:E1; [reflexivity|].
      destruct (LLONG_MAX <? v) eqn:E2; [reflexivity|]. unfold xstrtox_epilogue, same_position. cbn [orb].
      replace (Nat.eqb _ _) with false by lia. reflexivity.
    - unfold xstrtox_epilogue, same_position. rewrite Nat.eqb_refl. reflexivity.
  Qed.

  Lemma xstrtoll_ok base partial s v rest : base <= 10 ->
    xstrtoll isspace partial base s = inl (v, rest) <->
    numeral base s v rest /\ (partial = true \/ rest = []) /\ LLONG_MIN <= v <= LLONG_MAX.
  Proof.
    intros B. destruct (starts_with_space isspace s) eqn:N.
    - unfold xstrtoll. rewrite N. split; [discriminate|]. intros (H & _).
      apply numeral_no_space in H; [congruence|exact B].
    - rewrite xstrtoll_lex by exact N. split.
      + destruct (lex base s) as [[v' rest']|] eqn:E; [|discriminate].
        destruct (_ || _) eqn:R; [discriminate|]. destruct (_ && _) eqn:P; [discriminate|]. intros [= -> ->].
        split; [apply lex_sound; exact E|]. split; [|lia].
        destruct partial; [left; reflexivity|]. destruct rest; [right; reflexivity|discriminate].
      + intros (H & P & R). rewrite (lex_numeral base s v rest B H).
        replace (_ || _) with false by lia.
        replace (_ && _) with false by (destruct P as [-> | ->]; [reflexivity|destruct partial; reflexivity]). reflexivity.
  Qed.

  Lemma xstrto_narrow_ok lo hi base partial s v rest : base <= 10 -> LLONG_MIN <= lo -> hi <= LLONG_MAX ->
    xstrto_narrow isspace lo hi partial base s = inl (v, rest) <->
    numeral base s v rest /\ (partial = true \/ rest = []) /\ lo <= v <= hi.
  Proof.
    intros B L U. unfold xstrto_narrow. pose proof (xstrtoll_ok base partial s v rest B) as X.
    destruct (xstrtoll isspace partial base s) as [[n endp]|e] eqn:E.
    - destruct ((n <? lo) || (hi <? n)) eqn:R; split.
      + discriminate.
      + intros (H1 & H2 & H3). destruct X as [_ X]. specialize (X ltac:(repeat split; assumption || lia)). injection X as -> ->. lia.
      + intros [= -> ->]. destruct X as [X _]. specialize (X eq_refl). intuition lia.
      + intros (H1 & H2 & H3). apply X. repeat split; assumption || lia.
    - split; [discriminate|]. intros (H1 & H2 & H3). apply X. repeat split; assumption || lia.
  Qed.

  Lemma parse_int_ok base z unsigned partial s v rest : base <= 10 ->
    parse_int isspace base z unsigned partial s = inl (v, rest) <->
    numeral base s v rest /\ (partial = true \/ rest = []) /\ (unsigned = true -> 0 <= v) /\ size_min z <= v <= size_max z.
  Proof.
    intros B. unfold parse_int. pose proof (xstrtoll_ok base true s v rest B) as X.
    assert (Z1 : LLONG_MIN <= size_min z) by (unfold LLONG_MIN, size_min; destruct z; unfold LLONG_MIN; lia).
    assert (Z2 : size_max z <= LLONG_MAX) by (unfold LLONG_MAX, size_max; destruct z; unfold LLONG_MAX; lia).
    destruct (xstrtoll isspace true base s) as [[n endp]|e] eqn:E.
    - split.
      + destruct (_ && negb _) eqn:P; [discriminate|]. destruct (unsigned && _) eqn:G; [discriminate|].
        destruct (_ || _) eqn:R; [discriminate|]. intros [= -> ->]. destruct X as [X _]. specialize (X eq_refl).
        split; [tauto|]. split; [|split; [intros ->; lia|lia]].
        destruct partial; [left; reflexivity|]. destruct rest; [right; reflexivity|discriminate].
      + intros (H1 & H2 & H3 & H4). destruct X as [_ X]. specialize (X ltac:(repeat split; auto; lia)).
        injection X as -> ->. replace (_ && negb _) with false by (destruct H2 as [-> | ->]; [reflexivity|destruct partial; reflexivity]).
        replace (unsigned && _) with false by (destruct unsigned; [specialize (H3 eq_refl); lia|reflexivity]).
        replace (_ || _) with false by lia. reflexivity.
    - split; [destruct e; discriminate|]. intros (H1 & H2 & H3 & H4). destruct X as [_ X].
      specialize (X ltac:(repeat split; auto; lia)). discriminate.
  Qed.

  Lemma parse_icmp_ok partial s cmp n rest :
    parse_icmp isspace partial s = inl (cmp, n, rest) <->
    exists t, prefixed s cmp t /\ numeral 10 t n rest /\ (partial = true \/ rest = []) /\ 0 <= n <= LLONG_MAX.
  Proof.
    unfold parse_icmp.
    set (p := match s with "-"%byte :: t => (BFS_INT_LESS, t) | "+"%byte :: t => (BFS_INT_GREATER, t) | _ => (BFS_INT_EQUAL, s) end).
    assert (P1 : prefixed s (fst p) (snd p)).
    { unfold p. destruct s as [|c s]; [cbn; auto|]. destruct c; cbn; auto. }
    assert (P2 : forall c t, prefixed s c t -> p = (c, t)).
    { intros c t. unfold p, prefixed. destruct c.
      - intros (<- & H). destruct s as [|c s]; [reflexivity|]. destruct c; reflexivity || contradiction.
      - intros ->. reflexivity.
      - intros ->. reflexivity. }
    clearbody p. destruct p as [c t]. cbn [fst snd] in P1.
    pose proof (fun v r => parse_int_ok 10 IF_LONG_LONG true partial t v r ltac:(lia)) as Q.
    assert (M : forall v, size_min IF_LONG_LONG <= v <= size_max IF_LONG_LONG <-> LLONG_MIN <= v <= LLONG_MAX) by reflexivity.
    destruct (parse_int isspace 10 IF_LONG_LONG true partial t) as [[v r]|e].
    - split.
      + intros [= -> -> ->]. exists t. destruct (Q n rest) as [H _]. specialize (H eq_refl).
        destruct H as (H1 & H2 & H3 & H4). specialize (H3 eq_refl). cbn [size_max] in H4.
        repeat (split; [assumption|]). lia.
      + intros (t' & H1 & H2 & H3 & H4). apply P2 in H1. injection H1 as <- <-.
        destruct (Q n rest) as [_ H]. rewrite M in H. specialize (H ltac:(repeat split; auto; try lia; unfold LLONG_MIN; lia)).
        injection H as -> ->. reflexivity.
    - split; [discriminate|]. intros (t' & H1 & H2 & H3 & H4). apply P2 in H1. injection H1 as <- <-.
      destruct (Q n rest) as [_ H]. rewrite M in H. specialize (H ltac:(repeat split; auto; try lia; unfold LLONG_MIN; lia)). discriminate.
  Qed.

  (** ** Unsigned conversions *)
  Definition unsigned_numeral (base : Z) (s : list byte) (v : Z) (rest : list byte) : Prop :=
    numeral base s v rest /\ match s with "-"%byte :: _ => False | _ => True end.

  Lemma value_nonneg base ds : 0 <= base -> Forall (is_digit_of base) ds -> 0 <= value base ds.
  Proof.
    intros B. induction 1 as [|c ds H _ IH]; cbn [value]; [lia|].
    assert (0 <= digit_value c) by (unfold digit_value, is_digit_of in *; lia).
    pose proof (Z.pow_nonneg base (Z.of_nat (length ds)) B). nia.
  Qed.

  Lemma sign_minus s : fst (sign s) = match s with "-"%byte :: _ => true | _ => false end.
  Proof. destruct s as [|c s]; [reflexivity|]. destruct c; reflexivity. Qed.

  Lemma xstrtoull_ok base partial s v rest : 0 <= base <= 10 ->
    xstrtoull isspace partial base s = inl (v, rest) <->
    unsigned_numeral base s v rest /\ (partial = true \/ rest = []) /\ v <= ULLONG_MAX.
  Proof.
    intros B. unfold unsigned_numeral. destruct (starts_with_space isspace s) eqn:N.
    - unfold xstrtoull. rewrite N. split; [discriminate|]. intros ((H & _) & _).
      apply numeral_no_space in H; [congruence|lia].
    - assert (E : xstrtoull isspace partial base s =
        match lex base s with
        | Some (w, r) =>
            if ULLONG_MAX <? Z.abs w then inr ERANGE
            else if negb partial && negb (match r with [] => true | _ => false end) then inr EINVAL
            else match s with "-"%byte :: _ => inr ERANGE | _ => inl (w, r) end
        | None => inr EINVAL
        end).
      { unfold xstrtoull. rewrite N. unfold strtoull. rewrite (no_space s N).
        destruct (lex base s) as [[w r]|] eqn:L.
        - pose proof (numeral_shorter _ _ _ _ (lex_sound _ _ _ _ L)) as SH. unfold lex in L.
          pose proof (sign_minus s) as SM. destruct (sign s) as [neg s1]. cbn [fst] in SM.
          destruct s1 as [|c s1]; [discriminate|]. destruct (digit base c); [|discriminate].
          destruct (digits_exists base (c :: s1)) as (ds & r' & E1 & F & St). rewrite E1 in *.
          rewrite digits_split in * by assumption. rewrite Z.mul_0_l, Z.add_0_l in *.
          pose proof (value_nonneg base ds ltac:(lia) F) as NN. injection L as <- <-.
          replace (Z.abs (if neg then - value base ds else value base ds)) with (value base ds) by (destruct neg; lia).
          destruct (ULLONG_MAX <? value base ds) eqn:R; [reflexivity|].
          unfold xstrtox_epilogue, same_position. replace (Nat.eqb _ _) with false by lia. cbn [orb].
          destruct (_ && negb _); [reflexivity|]. destruct neg.
          + destruct s as [|d s]; [discriminate|]. destruct d; try discriminate. reflexivity.
          + rewrite Z.mod_small by (unfold ULLONG_MAX in R; lia).
            destruct s as [|d s]; [reflexivity|]. destruct d; try reflexivity; discriminate.
        - unfold lex in L. destruct (sign s) as [neg s1]. unfold xstrtox_epilogue, same_position.
          destruct s1 as [|c s1]; [rewrite Nat.eqb_refl; reflexivity|].
          destruct (digit base c); [destruct (digits base 0 (c :: s1)); discriminate|].
          rewrite Nat.eqb_refl. reflexivity. }
      rewrite E. clear E. split.
      + destruct (lex base s) as [[w r]|] eqn:L; [|discriminate]. destruct (ULLONG_MAX <? Z.abs w) eqn:R; [discriminate|].
        destruct (_ && _) eqn:P; [discriminate|].
        assert (M : match s with "-"%byte :: _ => inr ERANGE | _ => inl (w, r) end = inl (v, rest) ->
                    (w, r) = (v, rest) /\ match s with "-"%byte :: _ => False | _ => True end).
        { destruct s as [|d s]; [intros [= -> ->]; auto|]. destruct d; intros [= -> ->]; auto. }
        intros H. apply M in H. destruct H as ([= -> ->] & H). split; [split; [apply lex_sound; exact L|exact H]|].
        split; [|lia]. destruct partial; [left; reflexivity|]. destruct rest; [right; reflexivity|discriminate].
      + intros ((H & M) & P & R). pose proof H as H'. destruct H' as (sgn & ds & -> & _ & F & _ & V).
        assert (0 <= v).
        { pose proof (value_nonneg base ds ltac:(lia) F). destruct V as [(-> & ->)|[(-> & ->)|(-> & ->)]]; [lia|lia|]. destruct M. }
        rewrite (lex_numeral base _ v rest ltac:(lia) H). replace (ULLONG_MAX <? Z.abs v) with false by lia.
        replace (_ && _) with false by (destruct P as [-> | ->]; [reflexivity|destruct partial; reflexivity]).
        destruct (sgn ++ ds ++ rest) as [|d x]; [reflexivity|]. destruct d; reflexivity || contradiction.
  Qed.

  (** ** -size *)
  Lemma parse_size_ok s cmp n k :
    parse_size isspace s = Some (cmp, n, k) <->
    exists t unit, prefixed s cmp t /\ numeral 10 t n unit /\ 0 <= n <= LLONG_MAX /\ unit_bytes unit k.
  Proof.
    unfold parse_size. split.
    - destruct (parse_icmp isspace true s) as [[[c m] unit]|e] eqn:E; [|discriminate].
      apply parse_icmp_ok in E. destruct E as (t & H1 & H2 & _ & H3).
      intros H. exists t, unit.
      assert ((c, m) = (cmp, n) /\ unit_bytes unit k) as [[= -> ->] U]; [|auto].
      destruct unit as [|u [|u' unit]]; [injection H as -> -> <-; split; [reflexivity|left; reflexivity]| |discriminate].
      destruct (scale_of u) as [k'|] eqn:Sc; [|discriminate]. injection H as -> -> <-. split; [reflexivity|].
      unfold unit_bytes. destruct u; cbn in Sc; try discriminate; injection Sc as <-; cbn [In]; tauto.
    - intros (t & unit & H1 & H2 & H3 & U).
      assert (E : parse_icmp isspace true s = inl (cmp, n, unit)) by (apply parse_icmp_ok; exists t; auto).
      rewrite E. unfold unit_bytes in U. cbn [In] in U.
      repeat (destruct U as [[= <- <-]|U]; [reflexivity|]). contradiction.
  Qed.
End Sane.

Lemma bfs_expr_cmp_ok cmp num n : bfs_expr_cmp cmp num n = true <-> comparison cmp n num.
Proof. destruct cmp; cbn; lia. Qed.

Lemma eval_size_ok cmp num k size : 0 < k -> 0 <= size -> size + k <= LLONG_MAX ->
  exists b, eval_size cmp num k size = Some b /\
    (b = true <-> exists u, rounded_up size k u /\ comparison cmp u num).
Proof.
  intros K S L. unfold eval_size. replace (LLONG_MAX <? size + k) with false by lia. eexists. split; [reflexivity|].
  rewrite bfs_expr_cmp_ok. set (q := Z.quot (size + k - 1) k).
  assert (R : rounded_up size k q).
  { unfold rounded_up, q. rewrite Z.quot_div_nonneg by lia.
    pose proof (Z.div_mod (size + k - 1) k ltac:(lia)). pose proof (Z.mod_pos_bound (size + k - 1) k K). nia. }
  split; [eauto|]. intros (u & U & C). assert (u = q) by (unfold rounded_up in *; nia). congruence.
Qed.

Lemma eval_size_overflow cmp num k size : LLONG_MAX < size + k -> eval_size cmp num k size = None.
Proof. intros L. unfold eval_size. replace (LLONG_MAX <? size + k) with true by lia. reflexivity. Qed.

Lemma looks_like_icmp_ok s : looks_like_icmp s = true <->
  exists signs c rest, s = signs ++ c :: rest /\ (length signs <= 2)%nat /\
    Forall (fun x => x = "+"%byte \/ x = "-"%byte) signs /\ is_digit_of 10 c.
Proof.
  assert (PM : forall c, plus_minus c = true <-> (c = "+"%byte \/ c = "-"%byte)).
  { intros c. split; [destruct c; vm_compute; intros; try discriminate; auto|intros [->| ->]; reflexivity]. }
  assert (DG : forall s, is_digit s = true <-> exists c rest, s = c :: rest /\ is_digit_of 10 c).
  { intros [|c t]; cbn [is_digit]; [split; [discriminate|intros (? & ? & ? & _); discriminate]|].
    unfold is_digit_of. split; [intros H; exists c, t; split; [reflexivity|lia]|].
    intros (c' & r & [= <- <-] & H). lia. }
  assert (NS : forall c, is_digit_of 10 c -> plus_minus c = false).
  { intros c H. destruct (plus_minus c) eqn:E; [|reflexivity]. apply PM in E.
    destruct E as [-> | ->]; unfold is_digit_of in H; cbn in H; lia. }
  split.
  - destruct s as [|a s1]; cbn [looks_like_icmp]; [discriminate|].
    destruct (plus_minus a) eqn:A.
    + destruct s1 as [|b s2]; [discriminate|]. destruct (plus_minus b) eqn:B; intros H; apply DG in H; destruct H as (c & r & E & D).
      * exists [a; b], c, r. rewrite E. split; [reflexivity|]. split; [cbn; lia|]. split; [|exact D]. repeat (apply Forall_cons; [apply PM; assumption|]). apply Forall_nil.
      * exists [a], c, r. rewrite E. split; [reflexivity|]. split; [cbn; lia|]. split; [|exact D]. repeat (apply Forall_cons; [apply PM; assumption|]). apply Forall_nil.
    + intros H. apply DG in H. destruct H as (c & r & E & D). exists [], c, r. rewrite E. split; [reflexivity|]. split; [cbn; lia|]. split; [constructor|exact D].
  - intros (signs & c & rest & -> & L & F & D). assert (is_digit (c :: rest) = true) by (apply DG; eauto).
    pose proof (NS c D) as NC.
    destruct signs as [|a [|b [|]]]; cbn [app looks_like_icmp length] in *; [| | |lia].
    + rewrite NC. assumption.
    + inversion_clear F. apply PM in H0. rewrite H0, NC. assumption.
    + inversion_clear F. inversion_clear H1. apply PM in H0, H2. rewrite H0, H2. assumption.
Qed.
