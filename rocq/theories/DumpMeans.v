(** * The line of the dump: what it means *)
From Coq Require Import String List Arith NArith ZArith Bool Lia.
From Coq Require Import Init.Byte Strings.Byte.
From Coq Require Import ZifyBool ZifyNat ZifyN.
From Verif Require Import QuoteModel QuoteSpec QuoteProofs PathModel ColModel FmtModel FmtSpec FmtProofs DumpModel DumpSpec DumpProofs DumpLine DumpRead.
From Verif Require NumSpec.
From Verif Require Import GramModel GramSpec SetupModel SetupSpec SetupSteps SetupProofs.
Import ListNotations.
Local Open Scope list_scope.

(** ** Settings *)
Lemma number_only w v n m : NumSpec.sane (isspace w) -> number v n -> number v m -> n = m.
Proof. intros S H K. apply (num_number w) in H; [|exact S]. apply (num_number w) in K; [|exact S]. congruence. Qed.

Lemma land_bit x i : N.land x (2 ^ i) = if N.testbit x i then (2 ^ i)%N else 0%N.
Proof.
  apply N.bits_inj. intros k. rewrite N.land_spec, N.pow2_bits_eqb. destruct (N.eqb_spec i k) as [->|Ne].
  - rewrite andb_true_r. destruct (N.testbit x k) eqn:E; [rewrite N.pow2_bits_true; reflexivity|rewrite N.bits_0; reflexivity].
  - rewrite andb_false_r. destruct (N.testbit x i); [rewrite N.pow2_bits_false by exact Ne; reflexivity|rewrite N.bits_0; reflexivity].
Qed.
Lemma has_bit x i : DumpModel.has x (2 ^ i) = N.testbit x i.
Proof.
  unfold DumpModel.has. rewrite land_bit. destruct (N.testbit x i); [|reflexivity]. assert (2 ^ i <> 0)%N by (apply N.pow_nonzero; lia).
  destruct (N.eqb_spec (2 ^ i) 0); [contradiction|reflexivity].
Qed.
Lemma xdev_bit x : (N.land x (N.lor BFTW_SKIP_MOUNTS BFTW_PRUNE_MOUNTS) =? BFTW_PRUNE_MOUNTS)%N = (negb (N.testbit x 6) && N.testbit x 7)%bool.
Proof.
  rewrite N.land_lor_distr_r. change BFTW_SKIP_MOUNTS with (2 ^ 6)%N. change BFTW_PRUNE_MOUNTS with (2 ^ 7)%N. rewrite !land_bit.
  destruct (N.testbit x 6), (N.testbit x 7); reflexivity.
Qed.

Lemma h_post x : DumpModel.has x BFTW_POST_ORDER = N.testbit x 2.
Proof. exact (has_bit x 2). Qed.
Lemma h_roots x : DumpModel.has x BFTW_FOLLOW_ROOTS = N.testbit x 3.
Proof. exact (has_bit x 3). Qed.
Lemma h_all x : DumpModel.has x BFTW_FOLLOW_ALL = N.testbit x 4.
Proof. exact (has_bit x 4). Qed.
Lemma h_skip x : DumpModel.has x BFTW_SKIP_MOUNTS = N.testbit x 6.
Proof. exact (has_bit x 6). Qed.
Lemma h_sort x : DumpModel.has x BFTW_SORT = N.testbit x 8.
Proof. exact (has_bit x 8). Qed.

Section Means.
  Variables (w : SetupModel.env) (s : SetupModel.ctx) (ps : list arg).
  Hypothesis Sane : NumSpec.sane (isspace w).
  Hypothesis P : possible w s.
  Let ds := all_calls s ps.

  Ltac easy := unfold acceptable; repeat split; let H := fresh in intros H; discriminate H.
  Ltac at_ := unfold acceptable; repeat (split; [try (let H := fresh in intros H; discriminate H)|]); try (let H := fresh in intros H; discriminate H).
  Lemma pre_acceptable : Forall (acceptable w) (sel (pre_calls s)).
  Proof.
    apply sel_Forall. unfold pre_calls. destruct P.
    repeat first [apply Forall_cons | apply Forall_nil]; cbn [fst snd]; try (intros _; easy).
    - intros _. at_. intros _. exists (threads s). rewrite j_value by lia. split; [apply d_number; lia|lia].
    - intros _. at_. intros _. right. exists (optlevel s). rewrite O_value by lia. apply d_number; lia.
    - intros _. at_. intros _. destruct (search s); discriminate.
    - intros _. at_. intros _. change (flag_value "D" (b "-D", [b "-D"; dvalue (debug s)])) with (dvalue (debug s)). apply mentioned_ok. assumption.
  Qed.
  Lemma post_acceptable : Forall (acceptable w) (sel (post_calls s)).
  Proof.
    apply sel_Forall. unfold post_calls. destruct P.
    repeat first [apply Forall_cons | apply Forall_nil]; cbn [fst snd]; try (intros _; easy).
    - intros H. at_. intros _. auto.
    - intros _. at_. intros _. exists (mindepth s). apply d_number; lia.
    - intros _. at_. intros _. exists (maxdepth s). apply d_number; lia.
  Qed.
  Lemma f_acceptable p : acceptable w (b "-f", [b "-f"; p]).
  Proof. easy. Qed.
  Lemma all_acceptable : Forall (acceptable w) ds.
  Proof.
    unfold ds, all_calls. apply Forall_app. split; [exact pre_acceptable|]. apply Forall_app. split; [|exact post_acceptable].
    clear. induction ps as [|p qs IH]; [constructor|]. cbn [map concat]. apply Forall_app. split; [|exact IH].
    unfold path_calls. destruct (dashed p); [constructor; [easy|constructor]|constructor].
  Qed.
  Lemma sets : exists q, setup w ds = SetupModel.Ok q.
  Proof.
    apply (accepted w Sane). split; [exact all_acceptable|]. intros [A _]. unfold asks, doubtful, ds in A. rewrite is_prune in A.
    rewrite !andb_false_r in A. discriminate A.
  Qed.

  Lemma agrees q : setup w ds = SetupModel.Ok q -> agree s (context q).
  Proof.
    intros H. apply (settings w Sane) in H. destruct H as [A _]. destruct A. destruct P.
    unfold ds in *. rewrite is_links, is_post, is_unique, is_mount, is_xdev, is_sort, xdev_bit in a_flags.
    unfold all_, roots_ in a_flags. rewrite h_post, h_roots, h_all, h_skip, h_sort in a_flags.
    constructor.
    - intros i I. rewrite a_flags. clear a_flags. cbn [In] in I. generalize dependent (flags s). intros f p_links.
      destruct (N.testbit f 2) eqn:E2, (N.testbit f 3) eqn:E3, (N.testbit f 4) eqn:E4, (N.testbit f 6) eqn:E6; try discriminate p_links;
        destruct (N.testbit f 7), (N.testbit f 8) eqn:E8, (unique s); repeat destruct I as [<-|I]; try destruct I; try (rewrite ?E2, ?E3, ?E4, ?E6, ?E8; reflexivity).
    - intros N6. rewrite a_flags. clear a_flags. rewrite N6. generalize dependent (flags s). intros f p_links N6.
      destruct (N.testbit f 2) eqn:E2, (N.testbit f 3) eqn:E3, (N.testbit f 4) eqn:E4; try discriminate p_links;
        destruct (N.testbit f 7), (N.testbit f 8) eqn:E8, (unique s); reflexivity.
    - rewrite a_search. apply is_search.
    - rewrite is_min in a_mindepth. destruct (Z.eqb_spec (mindepth s) 0) as [E|E]; [congruence|]. apply (number_only w _ _ _ Sane a_mindepth). apply d_number. lia.
    - rewrite is_max in a_maxdepth. destruct (Z.eqb_spec (maxdepth s) INT_MAX) as [E|E]; [rewrite a_maxdepth, E; reflexivity|]. apply (number_only w _ _ _ Sane a_maxdepth). apply d_number. lia.
    - rewrite (is_O w) in a_optlevel by assumption. destruct (Z.eqb_spec (optlevel s) 3) as [E|E]; [congruence|].
      assert (K : number (d (optlevel s)) (optlevel s)) by (apply d_number; lia).
      destruct a_optlevel as [[F _]|[_ F]]; [rewrite F in K; apply fast_number in K; destruct K|]. apply (number_only w _ _ _ Sane F K).
    - rewrite (is_j w) in a_threads by assumption. apply (number_only w _ _ _ Sane a_threads). apply d_number. lia.
    - rewrite a_debug, !is_debug. apply mentioned_ok. assumption.
    - rewrite a_xargs. apply is_X.
    - rewrite a_races. apply is_races.
    - rewrite a_unique. apply is_unique.
    - rewrite a_status. apply is_status.
    - congruence.
    - congruence.
    - rewrite a_cout. apply is_colors.
  Qed.
  Lemma forgets q : setup w ds = SetupModel.Ok q -> forgotten w s (context q).
  Proof.
    intros H. apply (settings w Sane) in H. destruct H as [A _]. destruct A. unfold ds in *. constructor.
    - rewrite a_errors. apply is_noerror.
    - rewrite a_warn. apply is_warn.
    - rewrite a_cerr. apply is_colors.
    - rewrite a_dangerous. apply is_dangerous.
  Qed.

  (** ** The grammar *)
  Variable wg : GramModel.env.
  Hypothesis Takes : takes_settings w wg.
  Definition tok (cl : call) : token := TPrim [fst cl] (snd cl).
  Definition path_toks (p : arg) : list token := if dashed p then [tok (b "-f", [b "-f"; p])] else [TPath p].

  Definition good_flag (cl : call) : Prop :=
    (forall after, primary wg after [fst cl] (snd cl)) /\ pure_flag (fst cl) /\ (forall before, valid wg before (fst cl) (snd cl) = true).
  Lemma read_flags L : Forall good_flag L -> forall before rest ts, reads wg (before ++ words_of L) false rest ts ->
    reads wg before false (words_of L ++ rest) (map tok L ++ ts).
  Proof.
    induction 1 as [|cl L [H1 [H2 H3]] _ IH]; intros before rest ts R.
    - unfold words_of in *. cbn [map concat app] in *. rewrite app_nil_r in R. exact R.
    - unfold words_of in *. cbn [map concat app] in *. rewrite <- app_assoc. apply r_flags.
      + apply H1.
      + cbn [GramSpec.accepted]. apply H3.
      + constructor; [exact H2|constructor].
      + apply IH. rewrite <- app_assoc. exact R.
  Qed.
  Lemma valid_ok (cl : call) : about_settings (fst cl) -> acceptable w cl -> forall before, valid wg before (fst cl) (snd cl) = true.
  Proof. intros A B before. apply Takes; [exact A|]. destruct cl; exact B. Qed.

  Ltac inlist := unfold one_of, about_settings, pure_flag; apply in_map; cbn [In app flags0 options0 options1 tests0 tests1 actions0 actions1]; repeat first [left; reflexivity | right].
  Lemma pre_good : Forall good_flag (sel (pre_calls s)).
  Proof.
    assert (A := pre_acceptable). rewrite Forall_forall in A. apply Forall_forall. intros cl I. specialize (A cl I).
    assert (K : about_settings (fst cl) /\ pure_flag (fst cl) /\ forall after, primary wg after [fst cl] (snd cl)).
    { clear A. revert cl I. apply Forall_forall. apply sel_Forall. unfold pre_calls, word1.
      repeat first [apply Forall_cons | apply Forall_nil]; cbn [fst snd]; intros _; (split; [inlist|]); (split; [inlist|]); intros after; unfold word1; cbn [fst snd].
      all: try (apply p_nullary; inlist).
      - apply p_value; [inlist|]. destruct P. apply d_some. lia.
      - apply p_value; [inlist|]. destruct P. apply d_some. lia.
      - apply p_separate. inlist.
      - apply p_separate. inlist. }
    destruct K as [K1 [K2 K3]]. split; [exact K3|]. split; [exact K2|]. apply valid_ok; assumption.
  Qed.

  Lemma dashed_no p : dashed p = false -> path_like false p.
  Proof.
    unfold dashed. intros H. split; [|split; [|discriminate]].
    - right. destruct p as [|x p]; [discriminate|]. cbn [hd hd_error] in *. intros [= ->]. discriminate H.
    - intros [E|[E|[]]]; subst p; discriminate H.
  Qed.
  Lemma read_paths qs : forall before rest ts, reads wg (before ++ concat (map path_words qs)) false rest ts ->
    reads wg before false (concat (map path_words qs) ++ rest) (concat (map path_toks qs) ++ ts).
  Proof.
    induction qs as [|p qs IH]; intros before rest ts R; cbn [map concat] in *; [rewrite app_nil_r in R; exact R|].
    unfold path_words at 1, path_toks at 1. destruct (dashed p) eqn:D.
    - rewrite <- !app_assoc. cbn [app]. apply (r_flags wg before false [b "-f"] [b "-f"; p]).
      + apply p_unary. inlist.
      + cbn [GramSpec.accepted]. apply Takes; [inlist|apply f_acceptable].
      + constructor; [inlist|constructor].
      + apply IH. rewrite <- app_assoc. unfold path_words at 1 in R. rewrite D in R. exact R.
    - rewrite <- !app_assoc. cbn [app]. apply r_path; [apply dashed_no; exact D|]. apply IH. rewrite <- app_assoc.
      unfold path_words at 1 in R. rewrite D in R. exact R.
  Qed.

  Definition no_number (after : list arg) : Prop := forall n : arg, hd_error after = Some n -> ~ number_like n.
  Definition good_option (cl : call) : Prop :=
    (forall after, no_number after -> primary wg after [fst cl] (snd cl)) /\ ~ pure_flag (fst cl) /\
    (forall before, valid wg before (fst cl) (snd cl) = true) /\ exists t, snd cl = fst cl :: t /\ ~ number_like (fst cl).
  Lemma read_options L : Forall good_option L -> forall before st, reads wg before st (words_of L) (map tok L).
  Proof.
    induction 1 as [|cl L [H1 [H2 [H3 _]]] HL IH]; intros before st.
    - constructor.
    - unfold words_of in *. cbn [map concat]. apply r_primary.
      + apply H1. intros n E. destruct L as [|cl' L]; [discriminate E|]. inversion HL as [|? ? [_ [_ [_ [t [T N]]]]] _]; subst.
        cbn [map concat] in E. rewrite T in E. cbn [app hd_error] in E. injection E as <-. exact N.
      + cbn [GramSpec.accepted]. apply H3.
      + intros F. inversion F; subst. contradiction.
      + apply IH.
  Qed.
  Lemma letter_not_number y t : (97 <=? Byte.to_N y)%N = true -> ~ number_like ("-"%byte :: y :: t).
  Proof.
    intros L [pre [dg [t' [E [Le [F D]]]]]]. unfold NumSpec.is_digit_of in D.
    destruct pre as [|p1 pre]; cbn [app] in E.
    - injection E as <- _. vm_compute in D. intuition discriminate.
    - injection E as <- E. destruct pre as [|p2 pre]; cbn [app] in E.
      + injection E as <- _. lia.
      + injection E as <- E. inversion F as [|? ? _ F']; subst. inversion F' as [|? ? C _]; subst. destruct C as [-> | ->]; discriminate L.
  Qed.
  Lemma post_good : Forall good_option (sel (post_calls s)).
  Proof.
    assert (A := post_acceptable). rewrite Forall_forall in A. apply Forall_forall. intros cl I. specialize (A cl I).
    assert (K : about_settings (fst cl) /\ ~ pure_flag (fst cl) /\ (forall after, no_number after -> primary wg after [fst cl] (snd cl)) /\
                exists t, snd cl = fst cl :: t /\ ~ number_like (fst cl)).
    { clear A. revert cl I. apply Forall_forall. apply sel_Forall. unfold post_calls, word1.
      repeat first [apply Forall_cons | apply Forall_nil]; cbn [fst snd]; intros _; unfold word1; cbn [fst snd];
        (split; [inlist|]); (split; [intros X; vm_compute in X; intuition discriminate|]);
        (split; [|eexists; (split; [reflexivity|apply letter_not_number; reflexivity])]); intros after No.
      3: apply p_depth; exact No.
      all: try (apply p_nullary; inlist).
      - apply p_unary. inlist.
      - apply p_unary. inlist. }
    destruct K as [K1 [K2 [K3 K4]]]. split; [exact K3|]. split; [exact K2|]. split; [|exact K4]. apply valid_ok; assumption.
  Qed.

  Definition toks : list token := map tok (sel (pre_calls s)) ++ concat (map path_toks ps) ++ map tok (sel (post_calls s)).
  Lemma all_read : reads wg [] false (all_words s ps) toks.
  Proof.
    unfold all_words, toks. apply read_flags; [exact pre_good|]. cbn [app]. apply read_paths. apply read_options. exact post_good.
  Qed.

  (** *** The expression *)
  Definition plain_name (n : arg) : Prop :=
    excludes [n] = [] /\ n <> b "-files0-from" /\ ~ is_action n /\ n <> b "-limit".
  Lemma plain_about n : about_settings n -> plain_name n.
  Proof.
    intros H. unfold about_settings, one_of in H. apply in_map_iff in H. destruct H as [m [<- I]]. cbn [In] in I.
    repeat (destruct I as [<-|I]; [split; [reflexivity|split; [discriminate|split; [intros X; vm_compute in X; intuition discriminate|discriminate]]]|]). destruct I.
  Qed.
  Lemma about_calls : Forall (fun cl => about_settings (fst cl)) ds.
  Proof.
    unfold ds, all_calls. apply Forall_app. split; [|apply Forall_app; split].
    - apply sel_Forall. unfold pre_calls, word1. repeat first [apply Forall_cons | apply Forall_nil]; cbn [fst snd]; intros _; inlist.
    - clear. induction ps as [|p qs IH]; [constructor|]. cbn [map concat]. apply Forall_app. split; [|exact IH].
      unfold path_calls. destruct (dashed p); [constructor; [cbn [fst]; inlist|constructor]|constructor].
    - apply sel_Forall. unfold post_calls, word1. repeat first [apply Forall_cons | apply Forall_nil]; cbn [fst snd]; intros _; inlist.
  Qed.
  Lemma syntax_toks : filter syntax toks = map tok ds.
  Proof.
    unfold toks, ds, all_calls. rewrite !map_app, !filter_app.
    assert (K : forall L, filter syntax (map tok L) = map tok L) by (induction L as [|x L IH]; [reflexivity|]; cbn [map filter tok syntax]; rewrite IH; reflexivity).
    rewrite !K. f_equal. f_equal. clear. induction ps as [|p qs IH]; [reflexivity|]. cbn [map concat]. rewrite filter_app, map_app, IH. f_equal.
    unfold path_toks, path_calls. destruct (dashed p); reflexivity.
  Qed.
  Lemma expr_of L : Forall (fun cl => about_settings (fst cl)) L -> L <> [] -> exists e, term false (map tok L) e [] /\ calls_in e = L.
  Proof.
    induction L as [|cl L IH] using rev_ind; [contradiction|]. intros F _. apply Forall_app in F. destruct F as [F1 F2].
    assert (Ex : factor false [tok cl] (Prim (fst cl) (snd cl)) []).
    { inversion F2 as [|? ? A _]; subst. apply plain_about in A. destruct A as [A _]. rewrite <- A.
      apply (f_primary false [fst cl] (snd cl)). discriminate. }
    destruct L as [|x L].
    - exists (Prim (fst cl) (snd cl)). split; [apply t_factor; exact Ex|]. destruct cl; reflexivity.
    - destruct (IH F1) as [e [T C]]; [discriminate|]. exists (And e (Prim (fst cl) (snd cl))). split.
      + rewrite map_app. apply (t_implicit false _ e [] _ _ []); assumption.
      + cbn [calls_in]. rewrite C. destruct cl; reflexivity.
  Qed.
  Lemma some_calls : ds <> [].
  Proof.
    unfold ds, all_calls. intros E. apply app_eq_nil in E. destruct E as [E _].
    assert (I : In (b "-j", [b "-j" ++ d (threads s)]) (sel (pre_calls s))).
    { unfold sel, pre_calls. apply in_map_iff. exists (true, (b "-j", [b "-j" ++ d (threads s)])). split; [reflexivity|]. apply filter_In. split; [|reflexivity].
      do 5 right. left. reflexivity. }
    rewrite E in I. destruct I.
  Qed.
  Lemma no_paths L : Forall (fun cl : call => fst cl <> b "-f") L -> flat_map paths_of (map tok L) = [].
  Proof.
    induction 1 as [|cl L H _ IH]; [reflexivity|]. cbn [map flat_map]. rewrite IH, app_nil_r. cbn [tok paths_of last].
    destruct (list_eq_dec _ _ _); [contradiction|reflexivity].
  Qed.
  Lemma roots_toks : flat_map paths_of toks = ps.
  Proof.
    unfold toks. rewrite !flat_map_app, !no_paths.
    - cbn [app]. rewrite app_nil_r. clear. induction ps as [|p qs IH]; [reflexivity|]. cbn [map concat]. rewrite flat_map_app, IH.
      unfold path_toks. destruct (dashed p); reflexivity.
    - apply sel_Forall. unfold post_calls, word1. repeat first [apply Forall_cons | apply Forall_nil]; cbn [fst snd]; intros _; discriminate.
    - apply sel_Forall. unfold pre_calls, word1. repeat first [apply Forall_cons | apply Forall_nil]; cbn [fst snd]; intros _; discriminate.
  Qed.
  Lemma toks_in t : In t toks -> (exists p, t = TPath p) \/ exists cl, In cl ds /\ t = tok cl.
  Proof.
    intros I. destruct (syntax t) eqn:E.
    - right. assert (K : In t (filter syntax toks)) by (apply filter_In; split; assumption). rewrite syntax_toks in K. apply in_map_iff in K.
      destruct K as [cl [<- K]]. exists cl. split; [exact K|reflexivity].
    - left. unfold toks in I. rewrite !in_app_iff in I. destruct I as [I|[I|I]].
      + apply in_map_iff in I. destruct I as [cl [<- _]]. discriminate E.
      + clear - I E. induction ps as [|p qs IH]; [destruct I|]. cbn [map concat] in I. apply in_app_iff in I. destruct I as [I|I]; [|apply IH; exact I].
        unfold path_toks in I. destruct (dashed p); destruct I as [<-|[]]; [discriminate E|exists p; reflexivity].
      + apply in_map_iff in I. destruct I as [cl [<- _]]. discriminate E.
  Qed.
  Lemma no_lists : flat_map lists_of toks = [].
  Proof.
    assert (K : forall t, In t toks -> lists_of t = []).
    { intros t I. apply toks_in in I. destruct I as [[p ->]|[cl [I ->]]]; [reflexivity|]. assert (A := about_calls). rewrite Forall_forall in A.
      specialize (A cl I). apply plain_about in A. destruct A as [_ [A _]]. cbn [tok lists_of]. destruct (list_eq_dec _ _ _); [contradiction|reflexivity]. }
    induction toks as [|t ts IH]; [reflexivity|]. cbn [flat_map]. rewrite (K t (or_introl eq_refl)), IH; [reflexivity|]. intros u I. apply K. right. exact I.
  Qed.
  Lemma no_actions Q : (forall n, about_settings n -> ~ Q n) -> ~ GramSpec.has Q toks.
  Proof.
    intros N [names [args [n [I [J K]]]]]. apply toks_in in I. destruct I as [[p I]|[cl [I E]]]; [discriminate I|]. injection E as -> ->.
    destruct J as [<-|[]]. assert (A := about_calls). rewrite Forall_forall in A. exact (N _ (A cl I) K).
  Qed.

  Lemma means_that : ps <> [] -> exists cmd, means wg (all_words s ps) cmd /\ c_roots cmd = ps /\ c_exclude cmd = [] /\ calls_in (c_expr cmd) = ds.
  Proof.
    intros Ne. destruct (expr_of ds about_calls some_calls) as [e [T C]].
    exists {| c_expr := And e Print; c_exclude := []; c_roots := ps |}. split; [|split; [reflexivity|split; [reflexivity|cbn [c_expr calls_in]; rewrite app_nil_r; exact C]]].
    exists toks, e. split; [exact all_read|]. split; [|split].
    - right. rewrite syntax_toks. cbn [c_exclude]. apply e_clause, c_term. exact T.
    - rewrite no_lists. cbn [rev]. rewrite roots_toks. cbn [c_roots]. destruct ps; [contradiction|reflexivity].
    - right. split; [|split; [|reflexivity]]; apply no_actions; intros n A; apply plain_about in A; destruct A as [_ [_ [A B]]]; [intros [X _]|intros X]; contradiction.
  Qed.
End Means.

(** ** The whole *)
Lemma flag_name n f : In (n, f) debug_table -> debug_flag_name f = str n /\ (f =? 8)%N = String.eqb n "rates".
Proof. cbn [In debug_table]. intros I. repeat (destruct I as [[= <- <-]|I]; [split; reflexivity|]). destruct I. Qed.

Lemma dump_ok : forall l w wg c n f on,
  good_locale l -> NumSpec.sane (isspace w) -> takes_settings w wg ->
  possible w (DumpModel.settings c) -> shell_word (argv0 c) = Some (argv0 c) -> paths c <> [] -> Forall (fun p => ~ In x00 p) (paths c) ->
  sound_node (DumpModel.exclude c) -> sound_node (DumpModel.expression c) ->
  In (n, f) debug_table -> N.land (debug (DumpModel.settings c)) f <> 0%N ->
  exists out line q, bfs_ctx_dump l None c f (mkCfile [] on) = Printed (mkCfile out on) /\
    dumped l c n line out /\ rereads w wg c line q /\ agree (DumpModel.settings c) q /\ forgotten w (DumpModel.settings c) q.
Proof.
  intros l w wg c n f on G Sn Tk P A Ne Np Sx Se I On.
  assert (O : DumpModel.has (debug (DumpModel.settings c)) f = true) by (unfold DumpModel.has; destruct (N.eqb_spec (N.land (debug (DumpModel.settings c)) f) 0); [contradiction|reflexivity]).
  apply flag_name in I. destruct I as [Nm R].
  destruct (tree_lines l c f O Sx Se) as [rest [D L]].
  assert (Pre : pre c f = prefix c n) by (unfold pre, prefix, bfs_cmd, command_name; rewrite Nm; reflexivity).
  set (line := argv0 c ++ out (words_of (sel (pre_calls (DumpModel.settings c)))) ++ concat (map (path_out l) (paths c)) ++ out (words_of (sel (post_calls (DumpModel.settings c))))).
  destruct (sets w (DumpModel.settings c) (paths c) Sn P) as [q Q].
  destruct (means_that w (DumpModel.settings c) (paths c) P wg Tk Ne) as [cmd [M [M1 [M2 M3]]]].
  exists (prefix c n ++ line ++ [x0a] ++ rest), line, (context q).
  split; [|split; [|split]].
  - unfold bfs_ctx_dump. cbv zeta. rewrite O.
    assert (K : does (DumpModel.seq (bfs_debug_prefix l None c f) (DumpModel.seq (dump_line l None c) (DumpModel.seq (puts "
") (DumpModel.seq (bfs_debug_prefix l None c f) (DumpModel.seq (print l None "(${red}-exclude${rs}
" []) (DumpModel.seq (dump_expr_multiline l None c f (DumpModel.exclude c) 1 1) (dump_expr_multiline l None c f (DumpModel.expression c) 0 0)))))))
       (prefix c n ++ line ++ [x0a] ++ rest)).
    { apply does_seq; [rewrite <- Pre; apply does_pre; exact O|]. apply does_seq; [apply does_line|]. apply does_seq; [apply does_puts|]. exact D. }
    rewrite K. reflexivity.
  - exists rest. split; [reflexivity|]. rewrite <- Pre, <- R. exact L.
  - exists (all_words (DumpModel.settings c) (paths c)), cmd, q. split; [apply (line_reads l w); assumption|].
    split; [exact M|]. split; [exact M1|]. split; [exact M2|]. split; [rewrite M3; exact Q|reflexivity].
  - split; [apply (agrees w _ (paths c) Sn P); exact Q|apply (forgets w _ (paths c) Sn); exact Q].
Qed.

Lemma silent_ok : forall l t c f o, N.land (debug (DumpModel.settings c)) f = 0%N -> bfs_ctx_dump l t c f o = Printed o.
Proof. intros l t c f o H. unfold bfs_ctx_dump, DumpModel.has. cbv zeta. rewrite H. reflexivity. Qed.

Lemma possible_ok : forall w cs p, NumSpec.sane (isspace w) -> (1 <= nproc w)%Z -> setup w cs = SetupModel.Ok p -> possible w (context p).
Proof.
  intros w cs p Sn Np H. assert (H' := H). assert (Acc : Forall (acceptable w) cs) by (apply (accepted w Sn); exists p; exact H).
  apply (SetupProofs.settings w Sn) in H. destruct H as [A _]. destruct A.
  rewrite Forall_forall in Acc. constructor.
  - rewrite a_flags. destruct (asked_links cs), (post_order cs), (given ["-unique"] cs), (given ["-mount"] cs), (given ["-x"; "-xdev"] cs), (given ["-s"] cs); reflexivity.
  - destruct (said (option_value "-mindepth") cs); [apply a_mindepth|]. rewrite a_mindepth. lia.
  - destruct (said (option_value "-maxdepth") cs); [apply a_maxdepth|]. rewrite a_maxdepth. lia.
  - destruct (said (value_of_flag "-O" "O") cs); [destruct a_optlevel as [[_ E]|[_ [_ E]]]; lia|]. rewrite a_optlevel. lia.
  - destruct (said (value_of_flag "-j" "j") cs) as [v|] eqn:E; [|rewrite a_threads; lia].
    apply said_in in E. destruct E as [cl [I E]]. specialize (Acc cl I). unfold value_of_flag in E. destruct (named "-j" cl) eqn:M; [|discriminate E].
    injection E as E. destruct Acc as [_ [_ [_ [D _]]]]. destruct (D M) as [m [K L]]. rewrite E in K.
    rewrite (number_only w v (threads (context p)) m Sn a_threads K). destruct K as [_ K]. lia.
  - rewrite a_debug. destruct (debugs "cost" cs), (debugs "exec" cs), (debugs "opt" cs), (debugs "rates" cs), (debugs "search" cs), (debugs "stat" cs), (debugs "tree" cs); reflexivity.
  - rewrite a_cout. unfold asked_colors. destruct (said colors_of cs) as [x|] eqn:E; cbn [default].
    + intros ->. apply said_in in E. destruct E as [cl [I E]]. specialize (Acc cl I). destruct Acc as [_ [_ [_ [_ [_ [_ C]]]]]]. apply C.
      unfold colors_of in E. cbn [choice] in E. destruct (named "-color" cl); [reflexivity|]. destruct (named "-nocolor" cl); discriminate E.
    + destruct (stdout_tty w), (colors w); try reflexivity; discriminate.
  - exact a_posix.
  - exact a_interactive.
Qed.
