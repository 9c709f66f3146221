(** * Proofs about shell quoting *)
From Coq Require Import String List Arith NArith Bool Lia.
From Coq Require Import Init.Byte Strings.Byte.
From Verif Require Import PathProofs QuoteModel QuoteSpec.
Import ListNotations.

(** ** Writing to the buffer *)
Lemma put_put b s t : put (put b s) t = put b (s ++ t).
Proof.
  destruct b as [out sp]. unfold put. rewrite app_length.
  destruct (Nat.ltb_spec (length s) sp) as [H|H].
  - destruct (Nat.ltb_spec (length t) (sp - length s)), (Nat.ltb_spec (length s + length t) sp); try lia.
    + rewrite app_assoc. f_equal. lia.
    + rewrite <- app_assoc. f_equal. f_equal. rewrite firstn_app. rewrite (firstn_all2 (n := sp - 1) s) by lia.
      f_equal. f_equal. lia.
  - destruct (Nat.ltb_spec (length t) 0); [lia|]. destruct (Nat.ltb_spec (length s + length t) sp); [lia|].
    cbn [Nat.sub firstn]. rewrite app_nil_r. f_equal. f_equal. rewrite firstn_app.
    replace (sp - 1 - length s) with 0 by lia. cbn [firstn]. rewrite app_nil_r. reflexivity.
Qed.
Lemma put_nil out sp : 0 < sp -> put (out, sp) [] = (out, sp).
Proof. intros H. unfold put. destruct (Nat.ltb_spec (@length byte []) sp); cbn in *; [|lia]. rewrite app_nil_r, Nat.sub_0_r. reflexivity. Qed.
Lemma put_nil' b s : put (put b s) [] = put b s.
Proof. rewrite put_put, app_nil_r. reflexivity. Qed.
Lemma put_fits out sp s : length s < sp -> put (out, sp) s = (out ++ s, sp - length s).
Proof. intros H. unfold put. destruct (Nat.ltb_spec (length s) sp); [reflexivity|lia]. Qed.

Section Quote.
  Variables (l : locale) (shell : bool).

  (** ** What is written, without the buffer *)
  Definition esc1 (c : byte) : list byte :=
    match dollar_esc c with
    | Some e => e
    | None => str "\x" ++ hex (Byte.to_N c / 16) ++ hex (Byte.to_N c mod 16)
    end.
  Definition escaped (s : list byte) : list byte := flat_map esc1 s.

  Lemma put_escaped_eq s : forall b t, put_escaped (put b t) s = put b (t ++ escaped s).
  Proof.
    induction s as [|c s IH]; intros b t; cbn [put_escaped escaped flat_map]; [rewrite app_nil_r; reflexivity|].
    unfold esc1 at 1. destruct (dollar_esc c).
    - rewrite put_put, IH, <- app_assoc. reflexivity.
    - rewrite !put_put, IH, <- !app_assoc. reflexivity.
  Qed.

  Fixpoint dollar_str (fuel : nat) (s : list byte) (mb : mbstate l) : list byte :=
    match fuel, s with
    | S fuel', _ :: _ =>
        let '(c, n, mb') := xmbrtowc l s mb in
        let safe := match c with Some c => wesc_iswprint l shell c | None => false end in
        let chunk := firstn n s in
        let safe := safe && negb (existsb (fun c => Byte.eqb c x27 || Byte.eqb c x5c) chunk) in
        (if safe then chunk else escaped chunk) ++ dollar_str fuel' (skipn n s) mb'
    | _, _ => []
    end.

  Lemma dollar_loop_eq fuel : forall b t s mb,
    dollar_loop l shell fuel (put b t) s mb = put b (t ++ dollar_str fuel s mb).
  Proof.
    induction fuel as [|fuel IH]; intros b t s mb; cbn [dollar_loop dollar_str]; [rewrite app_nil_r; reflexivity|].
    destruct s as [|x s]; [rewrite app_nil_r; reflexivity|].
    destruct (xmbrtowc l (x :: s) mb) as [[c n] mb'].
    match goal with |- context [if ?g then put _ _ else _] => destruct g end.
    - rewrite put_put, IH, <- app_assoc. reflexivity.
    - rewrite put_escaped_eq, IH, <- app_assoc. reflexivity.
  Qed.

  Fixpoint quotes_str (open : bool) (s : list byte) : list byte * bool * list byte :=
    match s with
    | x27 :: s' =>
        let '(t, o, r) := quotes_str false s' in
        ((if open then str "'" else []) ++ str "\'" ++ t, o, r)
    | _ => ([], open, s)
    end.
  Lemma quote_run_eq s : forall b t open,
    quote_run (put b t) open s = let '(u, o, r) := quotes_str open s in (put b (t ++ u), o, r).
  Proof.
    induction s as [|c s IH]; intros b t open; [cbn; rewrite app_nil_r; reflexivity|].
    destruct c; try (cbn [quote_run quotes_str]; rewrite app_nil_r; reflexivity).
    cbn [quote_run quotes_str]. replace (if open then put (put b t) (str "'") else put b t)
      with (put b (t ++ if open then str "'" else [])) by (destruct open; rewrite ?put_put, ?app_nil_r; reflexivity).
    rewrite put_put, IH. destruct (quotes_str false s) as [[u o] r]. rewrite <- !app_assoc. reflexivity.
  Qed.

  Fixpoint single_str (fuel : nat) (open : bool) (s : list byte) : list byte * bool :=
    match fuel, s with
    | S fuel', _ :: _ =>
        let chunk := cspn (str "'") s in
        let '(t, open, s) :=
          if 0 <? chunk then ((if open then [] else str "'") ++ firstn chunk s, true, skipn chunk s)
          else ([], open, s) in
        let '(u, open, s) := quotes_str open s in
        let '(v, open) := single_str fuel' open s in
        (t ++ u ++ v, open)
    | _, _ => ([], open)
    end.
  Lemma single_loop_eq fuel : forall b t open s,
    single_loop fuel (put b t) open s = let '(u, o) := single_str fuel open s in (put b (t ++ u), o).
  Proof.
    induction fuel as [|fuel IH]; intros b t open s; cbn [single_loop single_str]; [rewrite app_nil_r; reflexivity|].
    destruct s as [|x s]; [rewrite app_nil_r; reflexivity|].
    destruct (0 <? cspn (str "'") (x :: s)).
    - replace (if open then put b t else put (put b t) (str "'"))
        with (put b (t ++ if open then [] else str "'")) by (destruct open; rewrite ?put_put, ?app_nil_r; reflexivity).
      rewrite put_put, quote_run_eq. destruct (quotes_str true (skipn (cspn (str "'") (x :: s)) (x :: s))) as [[u o] r].
      rewrite IH. destruct (single_str fuel o r) as [v o']. rewrite <- !app_assoc. reflexivity.
    - rewrite quote_run_eq. destruct (quotes_str open (x :: s)) as [[u o] r].
      rewrite IH. destruct (single_str fuel o r) as [v o']. rewrite <- !app_assoc. reflexivity.
  Qed.

  Definition quoted0 (s : list byte) : list byte :=
    if printable_len l shell s <? length s then str "$'" ++ dollar_str (length s) s (mb_init l) ++ str "'"
    else if negb shell || (bare_len s =? length s) then s
    else if quotable_len s =? length s then str """" ++ s ++ str """"
    else let '(t, open) := single_str (length s) false s in t ++ if open then str "'" else [].
  Definition nonempty (s : list byte) : list byte := match s with [] => str """""" | _ => s end.
  Definition quoted (s : list byte) : list byte := nonempty (quoted0 s).

  Lemma wordnesc_eq out sp s : 0 < sp -> wordnesc l shell (out, sp) s = put (out, sp) (quoted s).
  Proof.
    intros H. unfold wordnesc. cbn [snd].
    assert (E : forall t, (if snd (put (out, sp) t) =? sp then put (put (out, sp) t) (str """""") else put (out, sp) t)
      = put (out, sp) (nonempty t)).
    { intros [|c t].
      - rewrite put_nil by exact H. cbn [snd]. rewrite Nat.eqb_refl. reflexivity.
      - destruct (Nat.eqb_spec (snd (put (out, sp) (c :: t))) sp) as [E|]; [|reflexivity]. exfalso. revert E.
        unfold put. cbn [length]. destruct (Nat.ltb_spec (S (length t)) sp); cbn [snd]; lia. }
    unfold quoted. rewrite <- E. clear E.
    match goal with |- (if snd ?b =? sp then _ else _) = _ => replace b with (put (out, sp) (quoted0 s)); [reflexivity|] end.
    unfold quoted0. destruct (printable_len l shell s <? length s).
    { unfold dollar_quote. rewrite dollar_loop_eq, put_put. rewrite <- app_assoc. reflexivity. }
    destruct (negb shell || (bare_len s =? length s)); [reflexivity|].
    destruct (quotable_len s =? length s).
    { unfold double_quote. rewrite !put_put. reflexivity. }
    unfold single_quote. rewrite <- (put_nil out sp H) at 2. rewrite single_loop_eq.
    destruct (single_str (length s) false s) as [u o]. cbn [app]. destruct o; rewrite ?put_put, ?app_nil_r; reflexivity.
  Qed.
End Quote.

(** ** Length *)
Lemma esc1_length c : List.length (esc1 c) <= 4.
Proof. destruct c; vm_compute; lia. Qed.
Lemma escaped_length s : List.length (escaped s) <= 4 * List.length s.
Proof.
  induction s as [|c s IH]; [cbn; lia|]. cbn [escaped flat_map List.length]. rewrite app_length.
  fold (escaped s). pose proof (esc1_length c). lia.
Qed.

Section Length.
  Variables (l : locale) (shell : bool).
  Lemma dollar_length fuel : forall s mb, List.length (dollar_str l shell fuel s mb) <= 4 * List.length s.
  Proof.
    induction fuel as [|fuel IH]; intros s mb; cbn [dollar_str]; [cbn; lia|].
    destruct s as [|x s]; [cbn; lia|]. destruct (xmbrtowc l (x :: s) mb) as [[c n] mb'].
    rewrite app_length. specialize (IH (skipn n (x :: s)) mb').
    pose proof (escaped_length (firstn n (x :: s))) as E.
    assert (L : List.length (firstn n (x :: s)) + List.length (skipn n (x :: s)) = List.length (x :: s))
      by (rewrite <- app_length, firstn_skipn; reflexivity).
    match goal with |- context [if ?g then firstn _ _ else _] => destruct g end; lia.
  Qed.

  Definition bit (b : bool) : nat := if b then 1 else 0.
  Lemma quotes_length s : forall open, let '(u, o, r) := quotes_str open s in
    List.length u + 4 * List.length r + bit o <= 4 * List.length s + bit open.
  Proof.
    induction s as [|c s IH]; intros open; [cbn; lia|].
    destruct c; try (cbn [quotes_str List.length]; lia).
    cbn [quotes_str]. specialize (IH false). destruct (quotes_str false s) as [[u o] r].
    rewrite !app_length. cbn [List.length bit] in *. destruct open; cbn [List.length str bit]; cbn; lia.
  Qed.
  Lemma cspn_le r s : cspn r s <= List.length s.
  Proof. induction s as [|c s IH]; cbn [cspn List.length]; [lia|]. destruct (mem c r); lia. Qed.
  Lemma single_length fuel : forall open s, let '(u, o) := single_str fuel open s in
    List.length u + bit o <= 4 * List.length s + bit open.
  Proof.
    induction fuel as [|fuel IH]; intros open s; cbn [single_str]; [cbn; lia|].
    destruct s as [|x s]; [cbn; lia|]. pose proof (cspn_le (str "'") (x :: s)) as L.
    set (k := cspn (str "'") (x :: s)) in *. destruct (Nat.ltb_spec 0 k).
    - pose proof (quotes_length (skipn k (x :: s)) true) as Q. destruct (quotes_str true (skipn k (x :: s))) as [[u o] r].
      specialize (IH o r). destruct (single_str fuel o r) as [v o']. rewrite skipn_length in Q.
      rewrite !app_length, firstn_length. cbn [bit] in Q.
      assert (List.length (if open then [] else str "'") <= 1) by (destruct open; cbn; lia). lia.
    - pose proof (quotes_length (x :: s) open) as Q. destruct (quotes_str open (x :: s)) as [[u o] r].
      specialize (IH o r). destruct (single_str fuel o r) as [v o']. rewrite !app_length. cbn [List.length] in *. lia.
  Qed.

  Lemma quoted_length s : List.length (quoted l shell s) <= 4 * List.length s + 3.
  Proof.
    unfold quoted. assert (H : List.length (quoted0 l shell s) <= 4 * List.length s + 3).
    { unfold quoted0. destruct (printable_len l shell s <? List.length s).
      { rewrite !app_length. pose proof (dollar_length (List.length s) s (mb_init l)). cbn [List.length str]. cbn. lia. }
      destruct (negb shell || (bare_len s =? List.length s)); [lia|].
      destruct (quotable_len s =? List.length s); [rewrite !app_length; cbn; lia|].
      pose proof (single_length (List.length s) false s) as Q.
      destruct (single_str (List.length s) false s) as [u o]. rewrite app_length. destruct o; cbn in *; lia. }
    destruct (quoted0 l shell s); [cbn; lia|exact H].
  Qed.
End Length.

Lemma wordnesc_fits : forall l shell out sp s, 4 * List.length s + 3 < sp ->
  exists q, wordnesc l shell (out, sp) s = (out ++ q, sp - List.length q) /\ List.length q <= 4 * List.length s + 3.
Proof.
  intros l shell out sp s H. exists (quoted l shell s). pose proof (quoted_length l shell s).
  rewrite wordnesc_eq by lia. rewrite put_fits by lia. split; [reflexivity|assumption].
Qed.

(** ** Reading back *)
Definition appo (s : list byte) (o : option (list byte)) : option (list byte) := option_map (app s) o.
Lemma appo_nil o : appo [] o = o.
Proof. destruct o; reflexivity. Qed.
Lemma appo_cons c s o : option_map (cons c) (appo s o) = appo (c :: s) o.
Proof. destruct o; reflexivity. Qed.
Lemma appo_appo s t o : appo s (appo t o) = appo (s ++ t) o.
Proof. destruct o; cbn; [rewrite app_assoc|]; reflexivity. Qed.

Lemma read_esc1 c r : read Ansi (esc1 c ++ r) = option_map (cons c) (read Ansi r).
Proof. destruct c; reflexivity. Qed.
Lemma read_escaped s r : read Ansi (escaped s ++ r) = appo s (read Ansi r).
Proof.
  induction s as [|c s IH]; [symmetry; apply appo_nil|]. cbn [escaped flat_map]. fold (escaped s).
  rewrite <- app_assoc, read_esc1, IH, appo_cons. reflexivity.
Qed.
Lemma read_safe s r : existsb (fun c => Byte.eqb c x27 || Byte.eqb c x5c) s = false ->
  read Ansi (s ++ r) = appo s (read Ansi r).
Proof.
  induction s as [|c s IH]; intros H; [symmetry; apply appo_nil|]. cbn [existsb] in H.
  apply orb_false_iff in H. destruct H as [H1 H2]. cbn [app]. rewrite <- appo_cons, <- IH by exact H2.
  destruct c; first [discriminate|reflexivity].
Qed.

Lemma nul_skipn n s : ~ In x00 s -> ~ In x00 (skipn n s).
Proof. intros H I. apply H. rewrite <- (firstn_skipn n s). apply in_or_app. right. exact I. Qed.

Section Read.
  Variable l : locale.
  Hypothesis G : good_locale l.

  Lemma xmb_len s mb c n mb' : ~ In x00 s -> s <> [] -> xmbrtowc l s mb = (c, n, mb') -> 1 <= n <= List.length s.
  Proof.
    unfold xmbrtowc. intros N S E. destruct (decode l mb s) as [[[m d] mb2]|] eqn:D.
    - injection E as <- <- <-. apply (proj1 G _ _ _ _ _ N D).
    - injection E as <- <- <-. destruct s; [contradiction|cbn; lia].
  Qed.

  Lemma read_dollar shell fuel : forall s mb r, List.length s <= fuel -> ~ In x00 s ->
    read Ansi (dollar_str l shell fuel s mb ++ r) = appo s (read Ansi r).
  Proof.
    induction fuel as [|fuel IH]; intros s mb r L N.
    - destruct s; [|cbn in L; lia]. cbn. symmetry. apply appo_nil.
    - destruct s as [|x s]; [cbn; symmetry; apply appo_nil|]. cbn [dollar_str].
      destruct (xmbrtowc l (x :: s) mb) as [[c n] mb'] eqn:E.
      pose proof (xmb_len (x :: s) mb c n mb' N ltac:(discriminate) E) as Hn.
      transitivity (appo (firstn n (x :: s) ++ skipn n (x :: s)) (read Ansi r)); [|rewrite firstn_skipn; reflexivity].
      rewrite <- app_assoc.
      rewrite <- appo_appo, <- (IH (skipn n (x :: s)) mb'); [| |apply nul_skipn, N].
      + match goal with |- context [?a && negb ?e] => destruct a; cbn [andb]; [|apply read_escaped]; destruct e eqn:Ex end;
          cbn [negb]; [apply read_escaped|apply read_safe, Ex].
      + rewrite skipn_length. cbn [List.length] in *. lia.
  Qed.

  (** Printable strings have no tabs or newlines. *)
  Definition no_ws (s : list byte) : Prop := ~ In x09 s /\ ~ In x0a s.
  Lemma no_ws_app s t : no_ws s -> no_ws t -> no_ws (s ++ t).
  Proof. unfold no_ws. rewrite !in_app_iff. tauto. Qed.

  Lemma ascii_ws n : forall s, no_ws (firstn (print_ascii l true n s) s).
  Proof.
    induction n as [|n IH]; intros s; [split; intros []|]. cbn [print_ascii].
    destruct s as [|c s]; [split; intros []|]. destruct (wesc_isprint l true c) eqn:E; [|split; intros []].
    cbn [firstn]. apply (no_ws_app [c]); [|apply IH].
    unfold wesc_isprint in E. cbn [negb andb] in E. rewrite orb_false_r in E.
    destruct G as (_ & _ & G1 & G2). split; intros [->|[]]; congruence.
  Qed.
  Lemma wide_ws fuel : forall s mb, no_ws (firstn (print_wide l true fuel s mb) s).
  Proof.
    induction fuel as [|fuel IH]; intros s mb; [split; intros []|]. cbn [print_wide].
    destruct s as [|x s]; [split; intros []|].
    destruct (xmbrtowc l (x :: s) mb) as [[[c|] n] mb'] eqn:E; [|split; intros []].
    destruct (wesc_iswprint l true c) eqn:P; [|split; intros []].
    replace (firstn (n + print_wide l true fuel (skipn n (x :: s)) mb') (x :: s))
      with (firstn n (x :: s) ++ firstn (print_wide l true fuel (skipn n (x :: s)) mb') (skipn n (x :: s))).
    - apply no_ws_app; [|apply IH]. unfold xmbrtowc in E.
      destruct (decode l mb (x :: s)) as [[[m d] mb2]|] eqn:D; [|discriminate]. injection E as <- <- <-.
      unfold wesc_iswprint in P. cbn [negb andb] in P. rewrite orb_false_r in P. apply (proj1 (proj2 G) _ _ _ _ _ D P).
    - set (k := print_wide _ _ _ _ _). rewrite <- (firstn_skipn n (x :: s)) at 3. rewrite firstn_app, firstn_firstn.
      rewrite Nat.min_r by lia. f_equal.
      destruct (Nat.le_gt_cases n (List.length (x :: s))).
      + rewrite firstn_length_le by assumption. f_equal. lia.
      + rewrite !skipn_all2 by lia. rewrite !firstn_nil. reflexivity.
  Qed.

  Lemma ascii_le s : print_ascii l true (asciinlen s) s <= asciinlen s.
  Proof.
    generalize (asciinlen s) as n. intros n. revert s. induction n as [|n IH]; intros s; cbn [print_ascii]; [lia|].
    destruct s as [|c s]; [lia|]. destruct (wesc_isprint l true c); [specialize (IH s); lia|lia].
  Qed.

  Lemma printable_ws s : List.length s <= printable_len l true s -> no_ws s.
  Proof.
    unfold printable_len. set (a := print_ascii l true (asciinlen s) s). intros H.
    destruct (Nat.ltb_spec a (asciinlen s)).
    - rewrite <- (firstn_all2 (n := a) s) by lia. apply ascii_ws.
    - rewrite <- (firstn_skipn a s). apply no_ws_app; [apply ascii_ws|].
      rewrite <- (firstn_all2 (n := print_wide l true (List.length s) (skipn a s) (mb_init l)) (skipn a s)).
      + apply wide_ws.
      + rewrite skipn_length. lia.
  Qed.

  Lemma cspn_all r s : cspn r s = List.length s -> forall c, In c s -> mem c r = false.
  Proof.
    induction s as [|x s IH]; cbn [cspn List.length]; intros H c; [intros []|].
    destruct (mem x r) eqn:E; [discriminate|]. intros [<-|I]; [exact E|]. apply IH; [lia|exact I].
  Qed.

  Lemma read_bare s : (forall c, In c s -> mem c special = false) -> read Bare s = Some s.
  Proof.
    induction s as [|c s IH]; intros H; [reflexivity|].
    assert (Hc := H c (or_introl eq_refl)). specialize (IH (fun d I => H d (or_intror I))).
    cbn [read]. rewrite Hc, IH. destruct c; first [reflexivity|discriminate Hc].
  Qed.
  Lemma read_double s : (forall c, In c s -> mem c special_in_double = false) -> read Double (s ++ str """") = Some s.
  Proof.
    induction s as [|c s IH]; intros H; [reflexivity|].
    assert (Hc := H c (or_introl eq_refl)). specialize (IH (fun d I => H d (or_intror I))).
    cbn [app read]. rewrite Hc, IH. destruct c; first [reflexivity|discriminate Hc].
  Qed.

  Definition m (open : bool) : mode := if open then Single else Bare.
  Lemma read_quotes s : forall open r, let '(u, o, rest) := quotes_str open s in
    exists k, s = repeat x27 k ++ rest /\ (match rest with x27 :: _ => False | _ => True end) /\
      read (m open) (u ++ r) = appo (repeat x27 k) (read (m o) r).
  Proof.
    induction s as [|c s IH]; intros open r.
    - exists 0. cbn. rewrite appo_nil. auto.
    - destruct c; try (cbn [quotes_str]; exists 0; cbn [repeat app]; rewrite appo_nil; split; [reflexivity|split; [exact I|reflexivity]]).
      cbn [quotes_str]. specialize (IH false r). destruct (quotes_str false s) as [[u o] rest].
      destruct IH as (k & -> & H & R). exists (S k). split; [reflexivity|]. split; [exact H|].
      cbn [repeat]. rewrite <- appo_cons, <- R. destruct open; reflexivity.
  Qed.

  Lemma read_single_chunk s r : ~ In x27 s -> read Single (s ++ r) = appo s (read Single r).
  Proof.
    induction s as [|c s IH]; intros N; [symmetry; apply appo_nil|]. cbn [app read].
    destruct (PathProofs.eqb_spec c x27) as [->|_]; [exfalso; apply N; left; reflexivity|].
    rewrite IH by (intros I; apply N; right; exact I). apply appo_cons.
  Qed.

  Lemma cspn_quote s : ~ In x27 (firstn (cspn (str "'") s) s) /\
    (cspn (str "'") s = 0 -> s <> [] -> exists s', s = x27 :: s').
  Proof.
    induction s as [|c s [IH1 _]]; [split; [intros []|congruence]|].
    cbn [cspn]. unfold mem. cbn [existsb]. change (str "'") with [x27]. cbn [existsb]. rewrite orb_false_r.
    destruct (PathProofs.eqb_spec c x27) as [->|N]; [split; [intros []|eauto]|].
    split; [|discriminate]. cbn [firstn]. intros [E|I]; [congruence|]. apply IH1. exact I.
  Qed.

  Lemma read_single fuel : forall open s r, List.length s <= fuel ->
    let '(u, o) := single_str fuel open s in read (m open) (u ++ r) = appo s (read (m o) r).
  Proof.
    induction fuel as [|fuel IH]; intros open s r L; cbn [single_str].
    - destruct s; [|cbn in L; lia]. symmetry. apply appo_nil.
    - destruct s as [|x s]; [symmetry; apply appo_nil|].
      destruct (cspn_quote (x :: s)) as [C1 C2]. set (k := cspn (str "'") (x :: s)) in *.
      destruct (Nat.ltb_spec 0 k) as [K|K].
      + destruct (quotes_str true (skipn k (x :: s))) as [[u o] rest] eqn:Q.
        assert (Lr : List.length rest <= fuel).
        { pose proof (read_quotes (skipn k (x :: s)) true []) as R. rewrite Q in R. destruct R as (j & E & _).
          apply (f_equal (@List.length byte)) in E. rewrite skipn_length, app_length in E. cbn [List.length] in *. lia. }
        specialize (IH o rest r Lr). destruct (single_str fuel o rest) as [v o'].
        pose proof (read_quotes (skipn k (x :: s)) true (v ++ r)) as R. rewrite Q in R. destruct R as (j & E & _ & R).
        rewrite <- !app_assoc.
        assert (R1 : forall t, read (m open) ((if open then [] else str "'") ++ firstn k (x :: s) ++ t) = appo (firstn k (x :: s)) (read Single t)).
        { intros t. rewrite <- read_single_chunk by exact C1. destruct open; reflexivity. }
        rewrite R1. change Single with (m true). rewrite R, IH, !appo_appo. f_equal.
        rewrite <- app_assoc, <- E. apply firstn_skipn.
      + destruct C2 as (s' & ES); [lia|discriminate|].
        destruct (quotes_str open (x :: s)) as [[u o] rest] eqn:Q.
        assert (Lr : List.length rest <= fuel).
        { pose proof (read_quotes (x :: s) open []) as R. rewrite Q in R. destruct R as (j & E & N & _).
          destruct j as [|j]; [cbn in E; rewrite <- E in N; injection ES as -> _; destruct N|].
          apply (f_equal (@List.length byte)) in E. rewrite app_length, repeat_length in E. cbn [List.length] in *. lia. }
        specialize (IH o rest r Lr). destruct (single_str fuel o rest) as [v o'].
        pose proof (read_quotes (x :: s) open (v ++ r)) as R. rewrite Q in R. destruct R as (j & E & _ & R).
        cbn [app]. rewrite <- app_assoc, R, IH, appo_appo, <- E. reflexivity.
  Qed.

  Lemma mem_app c s t : mem c (s ++ t) = mem c s || mem c t.
  Proof. apply existsb_app. Qed.

  Lemma quoted_reads s : ~ In x00 s -> shell_word (quoted l true s) = Some s.
  Proof.
    intros N. unfold quoted, quoted0.
    destruct (Nat.ltb_spec (printable_len l true s) (List.length s)) as [P|P].
    { change (shell_word (str "$'" ++ dollar_str l true (List.length s) s (mb_init l) ++ str "'") = Some s).
      change (read Ansi (dollar_str l true (List.length s) s (mb_init l) ++ str "'") = Some s).
      rewrite read_dollar by (auto; lia). cbn. rewrite app_nil_r. reflexivity. }
    cbn [negb orb]. apply printable_ws in P. destruct P as [T1 T2].
    destruct (Nat.eqb_spec (bare_len s) (List.length s)) as [B|B].
    { destruct s as [|c s]; [reflexivity|]. unfold nonempty, shell_word. apply read_bare.
      intros d I. unfold special. rewrite mem_app. rewrite (cspn_all _ _ B d I). cbn [orb mem existsb].
      destruct (PathProofs.eqb_spec d x09) as [->|_]; [contradiction|].
      destruct (PathProofs.eqb_spec d x0a) as [->|_]; [contradiction|]. reflexivity. }
    destruct (Nat.eqb_spec (quotable_len s) (List.length s)) as [Q|Q].
    { change (read Double (s ++ str """") = Some s). apply read_double. intros d I.
      pose proof (cspn_all _ _ Q d I) as M. revert M. unfold special_in_double, mem. destruct d; intros M; first [discriminate M|reflexivity]. }
    pose proof (read_single (List.length s) false s) as R.
    destruct (single_str (List.length s) false s) as [u o].
    assert (E : read Bare (u ++ (if o then str "'" else [])) = Some s).
    { change Bare with (m false). rewrite (R (if o then str "'" else [])) by lia. destruct o; cbn; rewrite app_nil_r; reflexivity. }
    destruct (u ++ (if o then str "'" else [])) as [|c t] eqn:U; [|exact E].
    exfalso. apply B. cbn in E. injection E as <-. reflexivity.
  Qed.
End Read.

Lemma wordnesc_roundtrip : forall l, good_locale l -> forall out sp s, ~ In x00 s -> 4 * List.length s + 3 < sp ->
  exists q, wordnesc l true (out, sp) s = (out ++ q, sp - List.length q) /\ shell_word q = Some s.
Proof.
  intros l G out sp s N H. exists (quoted l true s). pose proof (quoted_length l true s).
  rewrite wordnesc_eq by lia. rewrite put_fits by lia. split; [reflexivity|]. apply quoted_reads; assumption.
Qed.

(** ** Printable output *)
Section Printable.
  Variable l : locale.
  Hypothesis G : good_locale l.
  Hypothesis Q : quote_alone l.

  Lemma pr_app s t : printable l s -> printable l t -> printable l (s ++ t).
  Proof.
    induction 1; intros T; cbn [app]; [exact T|..].
    - apply pr_ascii; auto.
    - apply pr_byte; auto.
    - rewrite <- app_assoc. eapply pr_wide; eauto.
  Qed.

  Definition is_ascii (c : byte) : bool := (32 <=? Byte.to_N c)%N && (Byte.to_N c <=? 126)%N.
  Lemma pr_all s : forallb is_ascii s = true -> printable l s.
  Proof.
    induction s as [|c s IH]; intros H; [constructor|]. cbn [forallb] in H. apply andb_true_iff in H. destruct H as [H1 H2].
    apply pr_ascii; [|auto]. unfold is_ascii in H1. apply andb_true_iff in H1. rewrite !N.leb_le in H1. exact H1.
  Qed.

  Lemma pr_escaped s : printable l (escaped s).
  Proof.
    induction s as [|c s IH]; [constructor|]. cbn [escaped flat_map]. apply pr_app; [|exact IH].
    apply pr_all. destruct c; reflexivity.
  Qed.

  Lemma pr_dollar fuel : forall s mb, printable l (dollar_str l true fuel s mb).
  Proof.
    induction fuel as [|fuel IH]; intros s mb; cbn [dollar_str]; [constructor|].
    destruct s as [|x s]; [constructor|]. destruct (xmbrtowc l (x :: s) mb) as [[c n] mb'] eqn:E.
    apply pr_app; [|apply IH].
    match goal with |- context [?a && negb ?e] => destruct a eqn:A; cbn [andb]; [|apply pr_escaped]; destruct e end;
      cbn [negb]; [apply pr_escaped|].
    unfold xmbrtowc in E. destruct (decode l mb (x :: s)) as [[[k d] mb2]|] eqn:D; injection E as <- <- <-; [|discriminate].
    unfold wesc_iswprint in A. cbn [negb andb] in A. rewrite orb_false_r in A.
    rewrite <- (app_nil_r (firstn k (x :: s))). eapply pr_wide; [exact D|exact A|constructor].
  Qed.

  Lemma pr_ascii_part n : forall s, printable l (firstn (print_ascii l true n s) s).
  Proof.
    induction n as [|n IH]; intros s; [constructor|]. cbn [print_ascii].
    destruct s as [|c s]; [constructor|]. destruct (wesc_isprint l true c) eqn:E; [|constructor].
    cbn [firstn]. apply pr_byte; [|apply IH].
    unfold wesc_isprint in E. cbn [negb andb] in E. rewrite orb_false_r in E. exact E.
  Qed.
  Lemma pr_wide_part fuel : forall s mb, printable l (firstn (print_wide l true fuel s mb) s).
  Proof.
    induction fuel as [|fuel IH]; intros s mb; [constructor|]. cbn [print_wide].
    destruct s as [|x s]; [constructor|].
    destruct (xmbrtowc l (x :: s) mb) as [[[c|] n] mb'] eqn:E; [|constructor].
    destruct (wesc_iswprint l true c) eqn:P; [|constructor].
    replace (firstn (n + print_wide l true fuel (skipn n (x :: s)) mb') (x :: s))
      with (firstn n (x :: s) ++ firstn (print_wide l true fuel (skipn n (x :: s)) mb') (skipn n (x :: s))).
    - unfold xmbrtowc in E.
      destruct (decode l mb (x :: s)) as [[[k d] mb2]|] eqn:D; [|discriminate]. injection E as <- <- <-.
      unfold wesc_iswprint in P. cbn [negb andb] in P. rewrite orb_false_r in P.
      eapply pr_wide; [exact D|exact P|apply IH].
    - set (k := print_wide _ _ _ _ _). rewrite <- (firstn_skipn n (x :: s)) at 3. rewrite firstn_app, firstn_firstn.
      rewrite Nat.min_r by lia. f_equal.
      destruct (Nat.le_gt_cases n (List.length (x :: s))).
      + rewrite firstn_length_le by assumption. f_equal. lia.
      + rewrite !skipn_all2 by lia. rewrite !firstn_nil. reflexivity.
  Qed.

  Lemma pr_whole s : List.length s <= printable_len l true s -> printable l s.
  Proof.
    unfold printable_len. set (a := print_ascii l true (asciinlen s) s). intros H.
    destruct (Nat.ltb_spec a (asciinlen s)).
    - rewrite <- (firstn_all2 (n := a) s) by lia. apply pr_ascii_part.
    - rewrite <- (firstn_skipn a s). apply pr_app; [apply pr_ascii_part|].
      rewrite <- (firstn_all2 (n := print_wide l true (List.length s) (skipn a s) (mb_init l)) (skipn a s)).
      + apply pr_wide_part.
      + rewrite skipn_length. lia.
  Qed.

  (** Splitting at apostrophes *)
  Lemma cspn_app s t : ~ In x27 s -> cspn (str "'") (s ++ t) = List.length s + cspn (str "'") t.
  Proof.
    induction s as [|c s IH]; intros N; [reflexivity|]. cbn [app cspn List.length].
    unfold mem. change (str "'") with [x27]. cbn [existsb]. rewrite orb_false_r.
    destruct (PathProofs.eqb_spec c x27) as [->|_]; [exfalso; apply N; left; reflexivity|].
    cbn [Nat.add]. f_equal. apply IH. intros I; apply N; right; exact I.
  Qed.

  Lemma pr_split s : printable l s ->
    printable l (firstn (cspn (str "'") s) s) /\ printable l (skipn (cspn (str "'") s) s).
  Proof.
    induction 1 as [|c s A P [IH1 IH2]|c s A P [IH1 IH2]|mb t n c mb' s D A P [IH1 IH2]].
    - split; constructor.
    - cbn [cspn]. destruct (mem c (str "'")); cbn [firstn skipn]; split; first [exact (pr_nil l)|exact IH2|apply pr_ascii; assumption].
    - cbn [cspn]. destruct (mem c (str "'")); cbn [firstn skipn]; split; first [exact (pr_nil l)|exact IH2|apply pr_byte; assumption].
    - destruct (in_dec Byte.byte_eq_dec x27 (firstn n t)) as [I|I].
      + pose proof (Q _ _ _ _ _ D I) as ->. destruct t as [|y t]; [destruct I|]. cbn [firstn] in *.
        destruct I as [->|[]]. cbn. split; [constructor|]. apply pr_ascii; [cbn; lia|exact P].
      + rewrite cspn_app by exact I. set (k := cspn (str "'") s) in *.
        rewrite firstn_app, skipn_app. rewrite firstn_all2 by lia. rewrite (skipn_all2 (firstn n t)) by lia.
        replace (List.length (firstn n t) + k - List.length (firstn n t)) with k by lia.
        split; [eapply pr_wide; eauto|exact IH2].
  Qed.

  Lemma pr_tail s : printable l s -> forall s', s = x27 :: s' -> printable l s'.
  Proof.
    induction 1 as [|c s A P IH|c s A P IH|mb t n c mb' s D A P IH]; intros s' E; try discriminate.
    - injection E as _ <-. exact P.
    - injection E as _ <-. exact P.
    - destruct (firstn n t) as [|y p] eqn:F; [apply IH; exact E|]. cbn [app] in E. injection E as -> E.
      assert (n = 1) as -> by (apply (Q _ _ _ _ _ D); rewrite F; left; reflexivity).
      destruct t as [|z t]; [discriminate|]. cbn [firstn] in F. injection F as _ <-. cbn in E. subst s'. exact P.
  Qed.

  Lemma pr_quotes s : forall open, printable l s -> let '(u, o, r) := quotes_str open s in
    printable l u /\ printable l r.
  Proof.
    induction s as [|c s IH]; intros open P; [split; constructor|].
    destruct c; try (cbn [quotes_str]; split; [constructor|exact P]).
    cbn [quotes_str]. specialize (IH false (pr_tail _ P _ eq_refl)). destruct (quotes_str false s) as [[u o] r].
    destruct IH as [IH1 IH2]. split; [|exact IH2]. apply pr_app; [destruct open; apply pr_all; reflexivity|].
    apply pr_app; [apply pr_all; reflexivity|exact IH1].
  Qed.

  Lemma pr_single fuel : forall open s, printable l s -> printable l (fst (single_str fuel open s)).
  Proof.
    induction fuel as [|fuel IH]; intros open s P; cbn [single_str]; [constructor|].
    destruct s as [|x s]; [constructor|]. destruct (pr_split _ P) as [P1 P2].
    set (k := cspn (str "'") (x :: s)) in *. destruct (0 <? k).
    - pose proof (pr_quotes (skipn k (x :: s)) true P2) as R. destruct (quotes_str true (skipn k (x :: s))) as [[u o] r].
      destruct R as [R1 R2]. specialize (IH o r R2). destruct (single_str fuel o r) as [v o']. cbn [fst] in *.
      apply pr_app; [apply pr_app; [destruct open; apply pr_all; reflexivity|exact P1]|]. apply pr_app; assumption.
    - pose proof (pr_quotes (x :: s) open P) as R. destruct (quotes_str open (x :: s)) as [[u o] r].
      destruct R as [R1 R2]. specialize (IH o r R2). destruct (single_str fuel o r) as [v o']. cbn [fst] in *.
      cbn [app]. apply pr_app; assumption.
  Qed.

  Lemma quoted_printable s : printable l (quoted l true s).
  Proof.
    assert (H : printable l (quoted0 l true s)).
    { unfold quoted0. destruct (Nat.ltb_spec (printable_len l true s) (List.length s)) as [P|P].
      { apply pr_app; [apply pr_all; reflexivity|]. apply pr_app; [apply pr_dollar|apply pr_all; reflexivity]. }
      apply pr_whole in P. cbn [negb orb]. destruct (bare_len s =? List.length s); [exact P|].
      destruct (quotable_len s =? List.length s).
      { apply pr_app; [apply pr_all; reflexivity|]. apply pr_app; [exact P|apply pr_all; reflexivity]. }
      pose proof (pr_single (List.length s) false s P) as R. destruct (single_str (List.length s) false s) as [u o].
      apply pr_app; [exact R|]. destruct o; apply pr_all; reflexivity. }
    unfold quoted. destruct (quoted0 l true s); [apply pr_all; reflexivity|exact H].
  Qed.
End Printable.

Lemma wordnesc_printable : forall l, quote_alone l -> forall out sp s, 4 * List.length s + 3 < sp ->
  exists q, wordnesc l true (out, sp) s = (out ++ q, sp - List.length q) /\ printable l q.
Proof.
  intros l Q out sp s H. exists (quoted l true s). pose proof (quoted_length l true s).
  rewrite wordnesc_eq by lia. rewrite put_fits by lia. split; [reflexivity|]. apply quoted_printable; assumption.
Qed.
