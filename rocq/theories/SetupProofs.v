(** * Settings: proofs *)
From Coq Require Import String List Bool Arith ZArith NArith Lia Permutation.
From Coq Require Import Init.Byte Strings.Byte.
From Verif Require Import NumModel NumSpec NumProofs GramModel SetupModel SetupSpec SetupSteps SetupCalls.
Import ListNotations.
Local Open Scope string_scope.
Local Open Scope list_scope.

(** ** The whole command line *)

Lemma all_ok w ds : forall cs, forallb (accept w) ds = true -> parse_all w ds (want w cs) = Ok (want w (cs ++ ds)).
Proof.
  induction ds as [|c ds IH]; intros cs H; cbn [parse_all]; [rewrite app_nil_r; reflexivity|].
  cbn [forallb] in H. apply andb_true_iff in H. destruct H as [A H].
  rewrite step by exact A. rewrite IH by exact H. rewrite <- app_assoc. reflexivity.
Qed.
Lemma all_accepted w ds : forall cs p, parse_all w ds (want w cs) = Ok p -> forallb (accept w) ds = true.
Proof.
  induction ds as [|c ds IH]; intros cs p H; [reflexivity|]. cbn [parse_all] in H. cbn [forallb].
  destruct (accept w c) eqn:A.
  - rewrite step in H by exact A. apply IH in H. exact H.
  - pose proof (refused w cs c) as R. destruct (parse w c (want w cs)) as [q| |]; [|discriminate H..].
    destruct (R q A). reflexivity.
Qed.

Definition cycles (w : env) (cs : list call) : bool :=
  match asked_links cs with Always => negb (given ["-unique"] cs) | _ => false end.
Definition final (w : env) (cs : list call) : parser :=
  set_log (rev (concluding w cs) ++ rev (eventsf w [] cs))
    (if cycles w cs then add_flag BFTW_DETECT_CYCLES (want w cs) else want w cs).

Lemma set_log_twice l l' p : set_log l (set_log l' p) = set_log l p.
Proof. reflexivity. Qed.
Lemma set_log_self p l : log p = l -> set_log l p = p.
Proof. intros <-. destruct p. reflexivity. Qed.
Lemma flags_all l p s r t : negb (N.land (flagsN l p s r t) BFTW_FOLLOW_ALL =? 0)%N = match l with Always => true | _ => false end.
Proof. destruct l, p, s, r, t; reflexivity. Qed.

Lemma concluded w cs :
  conflicts w (want w cs) =
  if asks w cs && negb (answer w) then Rejected
  else Ok (set_log (rev ((if given ["-mount"] cs && given ["-x"; "-xdev"] cs then warns w cs "-xdev" else []) ++
                         (if doubtful w cs then [Warned (b "-prune")] else [])) ++ rev (eventsf w [] cs)) (want w cs)).
Proof.
  assert (M : (if (mount_expr (want w cs) && xdev_expr (want w cs))%bool then warning (b "-xdev") (want w cs) else want w cs) =
    set_log (rev (if given ["-mount"] cs && given ["-x"; "-xdev"] cs then warns w cs "-xdev" else [])%bool ++ rev (eventsf w [] cs)) (want w cs)).
  { cbn [want mount_expr xdev_expr].
    destruct (given ["-mount"] cs && given ["-x"; "-xdev"] cs)%bool.
    - apply warned. reflexivity.
    - symmetry. apply set_log_self. reflexivity. }
  unfold conflicts. rewrite M. clear M. set (l := if (given ["-mount"] cs && given ["-x"; "-xdev"] cs)%bool then warns w cs "-xdev" else []).
  change (warn (context (set_log (rev l ++ rev (eventsf w [] cs)) (want w cs)))) with (asked_warn w cs).
  change (depth_expr (set_log (rev l ++ rev (eventsf w [] cs)) (want w cs))) with (post_order cs).
  change (prune_expr (set_log (rev l ++ rev (eventsf w [] cs)) (want w cs))) with (given ["-prune"] cs).
  rewrite rev_app_distr. unfold asks.
  destruct (doubtful w cs) eqn:D; unfold doubtful in D; rewrite D.
  - rewrite (warned w cs) by reflexivity.
    replace (warns w cs "-prune") with [Warned (b "-prune")]
      by (unfold warns; destruct (asked_warn w cs); [reflexivity|discriminate D]).
    cbn [set_log context want interactive andb]. destruct (stdin_tty w && stderr_tty w && negb (answer w))%bool; reflexivity.
  - reflexivity.
Qed.

Lemma finished w cs l :
  finish w (set_log l (want w cs)) =
  set_log (rev (if negb (colors w) && negb (no_color_set w) && match said colors_of cs with None => true | _ => false end
                then warns w cs "LS_COLORS" else [])%bool ++ l)
    (if cycles w cs then add_flag BFTW_DETECT_CYCLES (want w cs) else want w cs).
Proof.
  set (n := if (negb (colors w) && negb (no_color_set w) && match said colors_of cs with None => true | _ => false end)%bool then warns w cs "LS_COLORS" else []).
  assert (U : match use (set_log l (want w cs)) with
              | COLOR_AUTO => if colors w then set_log l (want w cs) else warning (b "LS_COLORS") (set_log l (want w cs))
              | _ => set_log l (want w cs)
              end = set_log (rev n ++ l) (want w cs)).
  { cbn [set_log use want]. unfold want_use. subst n.
    destruct (said colors_of cs) as [[|]|]; [rewrite !andb_false_r; reflexivity..|].
    destruct (no_color_set w), (colors w); cbn [negb andb]; try reflexivity.
    rewrite (warned w cs) by reflexivity. reflexivity. }
  unfold finish. rewrite U. clear U. clearbody n.
  change (flags (context (set_log (rev n ++ l) (want w cs)))) with
    (flagsN (asked_links cs) (post_order cs) (given ["-mount"] cs) (given ["-x"; "-xdev"] cs) (given ["-s"] cs)).
  change (unique (context (set_log (rev n ++ l) (want w cs)))) with (given ["-unique"] cs).
  rewrite flags_all. unfold cycles.
  destruct (asked_links cs); [reflexivity..|]. destruct (given ["-unique"] cs); reflexivity.
Qed.

Lemma setup_is w cs :
  forallb (accept w) cs = true -> (asks w cs && negb (answer w))%bool = false -> setup w cs = Ok (final w cs).
Proof.
  intros A Q. unfold setup. rewrite want_nil, all_ok by exact A. cbn [app].
  rewrite concluded, Q, finished. unfold final, concluding. rewrite !rev_app_distr, <- !app_assoc. reflexivity.
Qed.
Lemma setup_only w cs p :
  setup w cs = Ok p -> forallb (accept w) cs = true /\ (asks w cs && negb (answer w))%bool = false /\ p = final w cs.
Proof.
  intros H. assert (A : forallb (accept w) cs = true).
  { unfold setup in H. rewrite want_nil in H. destruct (parse_all w cs (want w [])) as [q| |] eqn:E; [|discriminate H..].
    apply all_accepted in E. exact E. }
  split; [exact A|]. destruct (asks w cs && negb (answer w))%bool eqn:Q.
  - unfold setup in H. rewrite want_nil, all_ok in H by exact A. cbn [app] in H. rewrite concluded, Q in H. discriminate.
  - split; [reflexivity|]. rewrite setup_is in H by assumption. injection H as <-. reflexivity.
Qed.

(** ** Numbers *)

Lemma num_number w v n : sane (isspace w) -> num w v = Some n <-> number v n.
Proof.
  intros S1. unfold num, number. split.
  - destruct (parse_int _ _ _ _ _ _) as [[k r]|] eqn:E; [|discriminate]. intros [= ->].
    apply parse_int_ok in E; [|exact S1|lia]. destruct E as [N1 [[E| ->] [P [L R]]]]; [discriminate E|].
    split; [exact N1|]. specialize (P eq_refl). cbn [size_max] in R. lia.
  - intros [N1 R].
    assert (E : parse_int (isspace w) 10 IF_INT true false v = inl (n, [])).
    { apply parse_int_ok; [exact S1|lia|]. split; [exact N1|]. split; [right; reflexivity|]. cbn [size_min size_max]. split; [intros _; lia|].
      split; lia. }
    rewrite E. reflexivity.
Qed.
Lemma fast_number n : ~ number (b "fast") n.
Proof.
  intros [[sgn [ds [E [D [F [_ G]]]]]] _]. rewrite app_nil_r in E.
  destruct G as [[-> _] | [[-> _] | [-> _]]]; cbn [app] in E.
  - destruct ds as [|d ds]; [destruct D; reflexivity|]. inversion E. subst. inversion F as [|? ? K _]. subst.
    unfold is_digit_of in K. vm_compute in K. firstorder discriminate.
  - discriminate E.
  - discriminate E.
Qed.

(** ** What is accepted *)

Lemma existsb_same v ws : existsb (fun x => same x v) ws = true <-> In v ws.
Proof.
  rewrite existsb_exists. split.
  - intros [x [I E]]. apply same_eq in E. subst. exact I.
  - intros I. exists v. split; [exact I|]. apply same_eq. reflexivity.
Qed.

Lemma some_is {A} (o : option A) : match o with Some _ => true | None => false end = true <-> o <> None.
Proof. destruct o; split; congruence. Qed.

Lemma accept_iff w c : sane (isspace w) -> accept w c = true <-> acceptable w c.
Proof.
  intros S1. destruct (as_b c) as [m E]. rewrite E. set (args := snd c). clearbody args. clear c E.
  unfold accept, acceptable. rewrite !named_b.
  destruct (String.eqb_spec m "-D") as [-> |_].
  { cbn [String.eqb Ascii.eqb Bool.eqb orb]. rewrite negb_true_iff, <- not_true_iff_false, existsb_same.
    split; [intros H; repeat split; try discriminate; intros _; exact H|intros [H _]; apply H; reflexivity]. }
  destruct (String.eqb_spec m "-O") as [-> |_].
  { cbn [String.eqb Ascii.eqb Bool.eqb orb]. rewrite orb_true_iff, same_eq, some_is.
    split.
    - intros H. repeat split; try discriminate. intros _. destruct H as [H|H]; [left; exact H|right].
      destruct (num w _) as [n|] eqn:N1; [|destruct H; reflexivity]. exists n. apply num_number in N1; assumption.
    - intros [_ [H _]]. destruct (H eq_refl) as [K|[n K]]; [left; exact K|right].
      apply (num_number w) in K; [|exact S1]. rewrite K. discriminate. }
  destruct (String.eqb_spec m "-S") as [-> |_].
  { cbn [String.eqb Ascii.eqb Bool.eqb orb]. rewrite some_is.
    split; [intros H; repeat split; try discriminate; intros _; exact H|intros [_ [_ [H _]]]; apply H; reflexivity]. }
  destruct (String.eqb_spec m "-j") as [-> |_].
  { cbn [String.eqb Ascii.eqb Bool.eqb orb]. split.
    - intros H. repeat split; try discriminate. intros _. destruct (num w _) as [n|] eqn:N1; [|discriminate].
      apply num_number in N1; [|exact S1]. exists n. split; [exact N1|]. destruct N1 as [_ N1].
      apply negb_true_iff, Z.eqb_neq in H. lia.
    - intros [_ [_ [_ [H _]]]]. destruct (H eq_refl) as [n [K L]]. apply (num_number w) in K; [|exact S1]. rewrite K.
      apply negb_true_iff, Z.eqb_neq. lia. }
  destruct (String.eqb m "-mindepth" || String.eqb m "-maxdepth")%bool eqn:D.
  { assert (M : m = "-mindepth" \/ m = "-maxdepth") by (apply orb_true_iff in D; rewrite !String.eqb_eq in D; exact D).
    replace (String.eqb m "-regextype") with false by (destruct M as [-> | ->]; reflexivity).
    replace (String.eqb m "-color") with false by (destruct M as [-> | ->]; reflexivity).
    rewrite some_is. split.
    - intros H. repeat split; try discriminate. intros _. destruct (num w _) as [n|] eqn:N1; [|destruct H; reflexivity].
      exists n. apply num_number in N1; assumption.
    - intros [_ [_ [_ [_ [H _]]]]]. destruct (H eq_refl) as [n K]. apply (num_number w) in K; [|exact S1]. rewrite K. discriminate. }
  destruct (String.eqb_spec m "-regextype") as [-> |_].
  { cbn [String.eqb Ascii.eqb Bool.eqb orb]. rewrite some_is.
    split; [intros H; repeat split; try discriminate; intros _; exact H|intros [_ [_ [_ [_ [_ [H _]]]]]]; apply H; reflexivity]. }
  destruct (String.eqb_spec m "-color") as [-> |_].
  { split; [intros H; repeat split; try discriminate; intros _; exact H|intros [_ [_ [_ [_ [_ [_ H]]]]]]; apply H; reflexivity]. }
  split; [intros _; repeat split; discriminate|reflexivity].
Qed.

(** ** What depends on the position *)

Lemma given_one ns c : given ns [c] = is_one ns c.
Proof. unfold given, is_one. cbn [existsb]. apply orb_false_r. Qed.
Lemma fwrap w cs tty :
  cfwrap_colors w (want_use w cs) tty = (colors w && tty && default (negb (no_color_set w)) (said colors_of cs))%bool.
Proof.
  unfold cfwrap_colors, want_use. destruct (said colors_of cs) as [[|]|]; cbn [default];
    destruct (no_color_set w), (colors w), tty; reflexivity.
Qed.

Lemma seen_is w before c : sane (isspace w) -> seen w before c (seenf w before c).
Proof.
  intros S1. unfold seenf.
  destruct (is_one ["-fls"; "-fprint"; "-fprint0"; "-fprintf"] c) eqn:A1.
  { rewrite fwrap. apply s_open. rewrite given_one. exact A1. }
  destruct (is_one ["-regex"; "-iregex"] c) eqn:A2.
  { apply s_regex. rewrite given_one. exact A2. }
  destruct (is_one ["-samefile"; "-anewer"; "-Bnewer"; "-cnewer"; "-mnewer"] c) eqn:A3.
  { cbn [orb]. apply s_file. left. rewrite given_one. exact A3. }
  cbn [orb].
  destruct (named "-newer" c && _)%bool eqn:A4.
  { apply s_file. right. apply andb_true_iff in A4. destruct A4 as [A4 A5]. split; [exact A4|].
    apply orb_true_iff in A5. rewrite same_eq, negb_true_iff in A5. destruct A5 as [A5|A5]; [left; exact A5|right].
    intros K. rewrite K in A5. discriminate A5. }
  destruct (named "-noleaf" c) eqn:A5; [apply s_noleaf; exact A5|].
  destruct (named "-D" c) eqn:A6; [apply s_debug; exact A6|].
  assert (NO : given ["-fls"; "-fprint"; "-fprint0"; "-fprintf"; "-regex"; "-iregex"; "-samefile"; "-anewer"; "-Bnewer"; "-cnewer";
           "-mnewer"; "-noleaf"; "-D"] [c] = false).
  { rewrite given_one.
    change (is_one (["-fls"; "-fprint"; "-fprint0"; "-fprintf"] ++ ["-regex"; "-iregex"] ++
                    ["-samefile"; "-anewer"; "-Bnewer"; "-cnewer"; "-mnewer"] ++ ["-noleaf"; "-D"]) c = false).
    unfold is_one in *. rewrite !existsb_app, A1, A2, A3. cbn [existsb]. rewrite A5, A6. reflexivity. }
  assert (NE : named "-newer" c = true -> hd [] (snd c) <> b "-newer" /\ nth 7 (hd [] (snd c)) x00 = "t"%byte).
  { intros K. rewrite K in A4. cbn [andb] in A4. apply orb_false_iff in A4. destruct A4 as [B1 B2]. split.
    - intros E. rewrite E in B1. discriminate B1.
    - apply negb_false_iff in B2. apply Byte.byte_dec_bl in B2. exact B2. }
  destruct (named "-O" c) eqn:A7.
  - destruct (same (flag_value "O" c) (b "fast")) eqn:F.
    { apply s_nothing; try assumption. intros _ [n [K _]]. apply same_eq in F. rewrite F in K. exact (fast_number n K). }
    destruct (num w (flag_value "O" c)) as [n|] eqn:N1.
    + destruct (Z.ltb_spec 4 n) as [L|L].
      * apply s_level; [exact A7|]. exists n. split; [apply (num_number w); assumption|exact L].
      * apply s_nothing; try assumption. intros _ [k [K L2]]. apply (num_number w) in K; [|exact S1].
        rewrite N1 in K. injection K as K. rewrite K in L. exact (proj1 (Z.le_ngt _ _) L L2).
    + apply s_nothing; try assumption. intros _ [k [K _]]. apply (num_number w) in K; [|exact S1]. congruence.
  - apply s_nothing; try assumption. intros K. congruence.
Qed.
Lemma all_seen_is w cs : sane (isspace w) -> forall before, all_seen w before cs (eventsf w before cs).
Proof.
  intros S1. induction cs as [|c cs IH]; intros before; cbn [eventsf]; constructor; [apply seen_is; exact S1|apply IH].
Qed.

(** ** The settings *)

Lemma flags_cycles l p s r t :
  N.lor (flagsN l p s r t) BFTW_DETECT_CYCLES = (flagsN l p s r t + BFTW_DETECT_CYCLES)%N.
Proof. destruct l, p, s, r, t; reflexivity. Qed.

Lemma said_in {A} (f : call -> option A) cs x : said f cs = Some x -> exists c, In c cs /\ f c = Some x.
Proof.
  induction cs as [|c cs IH]; cbn [said]; [discriminate|].
  destruct (said f cs) as [y|].
  - intros H. destruct (IH H) as [d [I E]]. exists d. split; [right; exact I|exact E].
  - intros H. exists c. split; [left; reflexivity|exact H].
Qed.

Lemma final_asked w cs :
  sane (isspace w) -> forallb (accept w) cs = true -> as_asked w cs (context (final w cs)).
Proof.
  intros S1 A. rewrite forallb_forall in A.
  assert (AC : forall c, In c cs -> acceptable w c) by (intros c I; apply accept_iff; [exact S1|apply A; exact I]).
  assert (FL : flags (context (final w cs)) = if cycles w cs then (flags (context (want w cs)) + BFTW_DETECT_CYCLES)%N else flags (context (want w cs))).
  { unfold final. destruct (cycles w cs); [|reflexivity]. apply flags_cycles. }
  assert (SAME : forall {B} (f : ctx -> B), (forall x c, f (set_flags x c) = f c) -> f (context (final w cs)) = f (context (want w cs))).
  { intros B f K. unfold final. destruct (cycles w cs); [|reflexivity]. apply K. }
  split; try (rewrite SAME by reflexivity; reflexivity).
  - rewrite FL. cbn [want context flags]. unfold cycles, flagsN.
    destruct (asked_links cs), (given ["-unique"] cs), (post_order cs), (given ["-mount"] cs), (given ["-x"; "-xdev"] cs), (given ["-s"] cs); reflexivity.
  - rewrite SAME by reflexivity. cbn [want context mindepth].
    destruct (said (option_value "-mindepth") cs) as [v|] eqn:E; [|reflexivity].
    apply said_in in E. destruct E as [c [I E]]. specialize (AC c I). unfold option_value in E.
    destruct (named "-mindepth" c) eqn:M; [|discriminate]. injection E as E.
    destruct AC as [_ [_ [_ [_ [D _]]]]]. rewrite M in D. destruct (D eq_refl) as [n K]. rewrite E in K.
    cbn [numd]. apply (num_number w) in K; [|exact S1]. rewrite K. apply (num_number w); [exact S1|exact K].
  - rewrite SAME by reflexivity. cbn [want context maxdepth].
    destruct (said (option_value "-maxdepth") cs) as [v|] eqn:E; [|reflexivity].
    apply said_in in E. destruct E as [c [I E]]. specialize (AC c I). unfold option_value in E.
    destruct (named "-maxdepth" c) eqn:M; [|discriminate]. injection E as E.
    destruct AC as [_ [_ [_ [_ [D _]]]]]. rewrite M, orb_true_r in D. destruct (D eq_refl) as [n K]. rewrite E in K.
    cbn [numd]. apply (num_number w) in K; [|exact S1]. rewrite K. apply (num_number w); [exact S1|exact K].
  - rewrite SAME by reflexivity. cbn [want context optlevel].
    destruct (said (value_of_flag "-O" "O") cs) as [v|] eqn:E; [|reflexivity].
    apply said_in in E. destruct E as [c [I E]]. specialize (AC c I). unfold value_of_flag in E.
    destruct (named "-O" c) eqn:M; [|discriminate]. injection E as E.
    destruct AC as [_ [D _]]. rewrite E in D. unfold level. destruct (same v (b "fast")) eqn:F.
    + left. apply same_eq in F. split; [exact F|reflexivity].
    + right. assert (F' : v <> b "fast") by (intros K; apply same_eq in K; congruence). split; [exact F'|].
      destruct (D M) as [K|[n K]]; [destruct (F' K)|].
      apply (num_number w) in K; [|exact S1]. rewrite K. apply (num_number w); [exact S1|exact K].
  - rewrite SAME by reflexivity. cbn [want context threads].
    destruct (said (value_of_flag "-j" "j") cs) as [v|] eqn:E; [|reflexivity].
    apply said_in in E. destruct E as [c [I E]]. specialize (AC c I). unfold value_of_flag in E.
    destruct (named "-j" c) eqn:M; [|discriminate]. injection E as E.
    destruct AC as [_ [_ [_ [D _]]]]. rewrite E in D. destruct (D M) as [n [K _]].
    cbn [numd]. apply (num_number w) in K; [|exact S1]. rewrite K. apply (num_number w); [exact S1|exact K].
Qed.

Lemma settings w : sane (isspace w) -> forall cs p, setup w cs = Ok p ->
  as_asked w cs (context p) /\ exists es, all_seen w [] cs es /\ rev (log p) = es ++ concluding w cs.
Proof.
  intros S1 cs p H. apply setup_only in H. destruct H as [A [_ ->]]. split; [apply final_asked; assumption|].
  exists (eventsf w [] cs). split; [apply all_seen_is; exact S1|].
  change (log (final w cs)) with (rev (concluding w cs) ++ rev (eventsf w [] cs)).
  rewrite rev_app_distr, !rev_involutive. reflexivity.
Qed.

Lemma accepted w : sane (isspace w) -> forall cs,
  (exists p, setup w cs = Ok p) <-> Forall (acceptable w) cs /\ ~ (asks w cs = true /\ answer w = false).
Proof.
  intros S1 cs. split.
  - intros [p H]. apply setup_only in H. destruct H as [A [Q _]]. split.
    + apply Forall_forall. intros c I. apply accept_iff; [exact S1|]. rewrite forallb_forall in A. apply A. exact I.
    + intros [K L]. rewrite K, L in Q. discriminate Q.
  - intros [A Q]. exists (final w cs). apply setup_is.
    + apply forallb_forall. intros c I. apply accept_iff; [exact S1|]. rewrite Forall_forall in A. apply A. exact I.
    + destruct (asks w cs); [|reflexivity]. destruct (answer w); [reflexivity|]. destruct Q. split; reflexivity.
Qed.

(** ** Order *)

Lemma existsb_perm {A} (f : A -> bool) l l' : Permutation l l' -> existsb f l = existsb f l'.
Proof.
  intros P. apply eq_true_iff_eq. rewrite !existsb_exists. split; intros [x [I E]]; exists x; (split; [|exact E]).
  - eapply Permutation_in; eassumption.
  - eapply Permutation_in; [apply Permutation_sym; eassumption|exact I].
Qed.
Lemma said_filter {A} (f : call -> option A) t cs :
  (forall c, f c <> None -> about_topic t c = true) -> said f cs = said f (filter (about_topic t) cs).
Proof.
  intros H. induction cs as [|c cs IH]; [reflexivity|]. cbn [said filter].
  destruct (about_topic t c) eqn:T.
  - cbn [said]. rewrite IH. reflexivity.
  - rewrite <- IH. destruct (f c) eqn:E; [|destruct (said f cs); reflexivity].
    rewrite H in T by congruence. discriminate.
Qed.

Lemma rearranged_context w cs ds : rearranged cs ds -> context (final w ds) = context (final w cs) /\
  asks w ds = asks w cs /\ forallb (accept w) ds = forallb (accept w) cs.
Proof.
  intros [P F].
  assert (G : forall ns, given ns ds = given ns cs) by (intros ns; apply existsb_perm, Permutation_sym, P).
  assert (PO : post_order ds = post_order cs).
  { unfold post_order. rewrite G. f_equal. apply existsb_perm, Permutation_sym, P. }
  assert (DB : forall n, debugs n ds = debugs n cs) by (intros n; apply existsb_perm, Permutation_sym, P).
  assert (SA : forall {A} (f : call -> option A) t, (forall c, f c <> None -> about_topic t c = true) -> said f ds = said f cs).
  { intros A f t H. rewrite (said_filter f t ds H), (said_filter f t cs H), F. reflexivity. }
  assert (NM : forall n (A : Type) (f : call -> option A) t, (forall c, f c <> None -> named n c = true) ->
     (forall a, about_topic t (b n, a) = true) -> forall c, f c <> None -> about_topic t c = true).
  { intros n A f t K T c H. specialize (K c H). unfold named in K. apply same_eq in K. destruct c as [x a]. cbn [fst] in K. subst x. apply T. }
  assert (BY : forall (A : Type) (f : call -> option A) t, (forall m a, f (b m, a) <> None -> about_topic t (b m, a) = true) ->
     forall c, f c <> None -> about_topic t c = true).
  { intros A f t K c. destruct (as_b c) as [m E]. rewrite E. apply K. }
  assert (L : said links_of ds = said links_of cs).
  { apply (SA _ _ "links"). apply BY. intros m a. unfold about_topic, topic, links_of. rewrite !choose_choice. cbn [choose].
    destruct (String.eqb_spec m "-P") as [-> |_]; [reflexivity|].
    destruct (String.eqb_spec m "-H") as [-> |_]; [reflexivity|].
    destruct (String.eqb_spec m "-L") as [-> |_]; [reflexivity|].
    destruct (String.eqb_spec m "-follow") as [-> |_]; [reflexivity|].
    intros H. destruct H. reflexivity. }
  assert (C : said colors_of ds = said colors_of cs).
  { apply (SA _ _ "colors"). apply BY. intros m a. unfold about_topic, topic, colors_of. rewrite !choose_choice. cbn [choose].
    destruct (String.eqb_spec m "-color") as [-> |_]; [reflexivity|].
    destruct (String.eqb_spec m "-nocolor") as [-> |_]; [reflexivity|].
    intros H. destruct H. reflexivity. }
  assert (WA : said warn_of ds = said warn_of cs).
  { apply (SA _ _ "warnings"). apply BY. intros m a. unfold about_topic, topic, warn_of. rewrite !choose_choice. cbn [choose].
    destruct (String.eqb_spec m "-warn") as [-> |_]; [reflexivity|].
    destruct (String.eqb_spec m "-nowarn") as [-> |_]; [reflexivity|].
    intros H. destruct H. reflexivity. }
  assert (R : said races_of ds = said races_of cs).
  { apply (SA _ _ "races"). apply BY. intros m a. unfold about_topic, topic, races_of. rewrite !choose_choice. cbn [choose].
    destruct (String.eqb_spec m "-ignore_readdir_race") as [-> |_]; [reflexivity|].
    destruct (String.eqb_spec m "-noignore_readdir_race") as [-> |_]; [reflexivity|].
    intros H. destruct H. reflexivity. }
  assert (ST : said strategy_of ds = said strategy_of cs).
  { apply (SA _ _ "strategy"). apply (NM "-S"); [|reflexivity]. intros c. unfold strategy_of. destruct (named "-S" c); congruence. }
  assert (OV : said (value_of_flag "-O" "O") ds = said (value_of_flag "-O" "O") cs).
  { apply (SA _ _ "level"). apply (NM "-O"); [|reflexivity]. intros c. unfold value_of_flag. destruct (named "-O" c); congruence. }
  assert (JV : said (value_of_flag "-j" "j") ds = said (value_of_flag "-j" "j") cs).
  { apply (SA _ _ "threads"). apply (NM "-j"); [|reflexivity]. intros c. unfold value_of_flag. destruct (named "-j" c); congruence. }
  assert (MI : said (option_value "-mindepth") ds = said (option_value "-mindepth") cs).
  { apply (SA _ _ "mindepth"). apply (NM "-mindepth"); [|reflexivity]. intros c. unfold option_value. destruct (named "-mindepth" c); congruence. }
  assert (MA : said (option_value "-maxdepth") ds = said (option_value "-maxdepth") cs).
  { apply (SA _ _ "maxdepth"). apply (NM "-maxdepth"); [|reflexivity]. intros c. unfold option_value. destruct (named "-maxdepth" c); congruence. }
  assert (CT : context (want w ds) = context (want w cs)).
  { cbn [want context]. unfold asked_links, asked_warn, asked_colors. rewrite !G, PO, !DB, L, C, WA, R, ST, OV, JV, MI, MA. reflexivity. }
  split; [|split].
  - unfold final, cycles. unfold asked_links. rewrite L, G. destruct (default Never (said links_of cs)); [exact CT..|].
    destruct (negb (given ["-unique"] cs)); [|exact CT].
    change (set_flags (N.lor (flags (context (want w ds))) BFTW_DETECT_CYCLES) (context (want w ds)) =
            set_flags (N.lor (flags (context (want w cs))) BFTW_DETECT_CYCLES) (context (want w cs))).
    rewrite CT. reflexivity.
  - unfold asks, doubtful, asked_warn. rewrite WA, PO, G. reflexivity.
  - apply eq_true_iff_eq. rewrite !forallb_forall. split; intros H c I; apply H.
    + eapply Permutation_in; eassumption.
    + eapply Permutation_in; [apply Permutation_sym; eassumption|exact I].
Qed.

Lemma order w cs ds p : rearranged cs ds -> setup w cs = Ok p -> exists q, setup w ds = Ok q /\ context q = context p.
Proof.
  intros R H. apply setup_only in H. destruct H as [A [Q ->]]. destruct (rearranged_context w cs ds R) as [C [K B]].
  exists (final w ds). split; [|exact C]. apply setup_is; congruence.
Qed.

Lemma position :
  exists w, sane (isspace w) /\
  (exists f p, setup w [(b "-fprint", [b "-fprint"; f]); (b "-nocolor", [b "-nocolor"])] = Ok p /\ In (Opened f true) (log p)) /\
  (exists f p, setup w [(b "-samefile", [b "-samefile"; f]); (b "-L", [b "-L"])] = Ok p /\ In (Examined f false) (log p)) /\
  (exists x p, setup w [(b "-regex", [b "-regex"; x]); (b "-E", [b "-E"])] = Ok p /\ In (Compiled x BFS_REGEX_POSIX_BASIC) (log p)).
Proof.
  exact (ex_intro _
    {| no_color := None; posix_env := false; colors := true; stdin_tty := true; stdout_tty := true; stderr_tty := true;
       isatty := fun _ => true; nproc := 4; oniguruma := false; answer := true; isspace := fun _ => false |}
    (conj (fun c H => False_ind _ (diff_false_true H))
      (conj (ex_intro _ (b "/dev/tty") (ex_intro _ _ (conj eq_refl (or_introl eq_refl))))
        (conj (ex_intro _ (b "link") (ex_intro _ _ (conj eq_refl (or_introl eq_refl))))
              (ex_intro _ (b "a+") (ex_intro _ _ (conj eq_refl (or_introl eq_refl)))))))).
Qed.
