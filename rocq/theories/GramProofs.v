(** * What the parser does with a whole command line *)
From Coq Require Import String List Bool Arith ZArith Lia.
From Coq Require Import Init.Byte Strings.Byte.
From Verif Require Import NumSpec GramModel GramSpec GramPrims GramFlags GramSound GramComplete.
Import ListNotations.
Local Close Scope string_scope.
Local Open Scope list_scope.
Local Open Scope nat_scope.

(** ** Paths and other words *)

Lemma dash_match a : match a with x2d :: _ => true | _ => false end = true <-> hd_error a = Some x2d.
Proof. destruct a as [|c a]; [split; discriminate|]. cbn [hd_error]. destruct c; split; intros H; try reflexivity; discriminate H. Qed.
Lemma stopb_iff st a : stopb st a = true <->
  (hd_error a = Some x2d /\ a <> b "--" /\ a <> b "-") \/ a = b "(" \/ a = b "!" \/ (st = true /\ (a = b ")" \/ a = b ",")).
Proof.
  unfold stopb. rewrite !orb_true_iff, andb_true_iff, orb_true_iff, !aeq_iff.
  assert (X : match a with x2d :: _ => negb (aeq a (b "--")) && negb (aeq a (b "-")) | _ => false end = true <->
              hd_error a = Some x2d /\ a <> b "--" /\ a <> b "-").
  { rewrite <- (aeq_iff a (b "--")), <- (aeq_iff a (b "-")), !not_true_iff_false, <- !negb_true_iff, <- andb_true_iff.
    destruct a as [|c a]; [split; [discriminate|intros [H _]; discriminate H]|]. cbn [hd_error].
    destruct c; split; try (intros H; discriminate H); try (intros [H _]; discriminate H); tauto. }
  rewrite X. tauto.
Qed.
Lemma path_like_stopb st a : path_like st a <-> stopb st a = false /\ a <> b "--".
Proof.
  rewrite <- not_true_iff_false, stopb_iff. unfold path_like, one_of. cbn [map In]. split.
  - intros (H1 & H2 & H3). split.
    + intros [(D & N1 & N2)|[E|[E|[S [E|E]]]]]; try (apply H2; rewrite E; tauto); try (apply (H3 S); rewrite E; tauto). tauto.
    + intros ->. destruct H1 as [H1|H1]; [discriminate|]. apply H1. reflexivity.
  - intros (H1 & H2). split; [|split].
    + destruct (aeq_spec a (b "-")) as [E|E]; [now left|]. right. intros D. apply H1. tauto.
    + intros [E|[E|[]]]; apply H1; rewrite E; tauto.
    + intros S [E|[E|[]]]; apply H1; rewrite E; tauto.
Qed.
Lemma operator_stops st a t : operator st a t -> stopb st a = true.
Proof.
  intros O. apply stopb_iff.
  destruct O as [|E|a I|a I|a I|E|]; try (unfold one_of in I; cbn [map In] in I; destruct I as [<-|[<-|[]]]); try tauto;
    left; split; try reflexivity; split; discriminate.
Qed.
Lemma operator_syntax st a t : operator st a t -> syntax t = true.
Proof. destruct 1; reflexivity. Qed.

Section Whole.
  Variable w : env.
  Hypothesis SN : sane (isspace w).

  (** ** Reading all the tokens, paths too *)

  Inductive full : parser -> list token -> parser -> Prop :=
  | full_nil p : full p [] p
  | full_path p a r ts q : rest p = a :: r -> path_like (expr_started p) a -> full (step_path a p) ts q -> full p (TPath a :: ts) q
  | full_dashes p r ts q : rest p = b "--" :: r -> full (step_dashes p) ts q -> full p (TDashes :: ts) q
  | full_tok p t p' ts q : tok w p t p' -> full p' ts q -> full p (t :: ts) q.

  Lemma full_app p ts1 q ts2 r : full p ts1 q -> full q ts2 r -> full p (ts1 ++ ts2) r.
  Proof.
    induction 1 as [p|p a rr ts q R P F IH|p rr ts q R F IH|p t p' ts q T F IH]; intros H; cbn [app]; [exact H| | |].
    - eapply full_path; eauto.
    - eapply full_dashes; eauto.
    - eapply full_tok; eauto.
  Qed.
  Lemma tok_syntax p t q : tok w p t q -> syntax t = true.
  Proof. destruct 1; [eapply operator_syntax; eassumption|reflexivity]. Qed.

  Lemma skip_full p q : skip_paths p = Ok q -> exists ts, full p ts q /\ filter syntax ts = [].
  Proof.
    destruct (skip_ind (fun p q => exists ts, full p ts q /\ filter syntax ts = [])) with (p := p) as (q' & E & H).
    - intros p0 _. exists []. split; [constructor|reflexivity].
    - intros p0 a r _ _. exists []. split; [constructor|reflexivity].
    - intros p0 r q0 R _ (ts & F & S). exists (TDashes :: ts). split; [eapply full_dashes; eassumption|exact S].
    - intros p0 a r q0 R SB N _ (ts & F & S). exists (TPath a :: ts). split; [|exact S].
      eapply full_path; [exact R| |exact F]. now apply path_like_stopb.
    - rewrite E. intros [= <-]. exact H.
  Qed.
  Lemma lexed_full p ts q : lexed w p ts q -> exists ts', full p ts' q /\ filter syntax ts' = ts.
  Proof.
    induction 1 as [p|p p' ts q S L (ts' & F & E)|p t p' ts q T L (ts' & F & E)].
    - exists []. split; [constructor|reflexivity].
    - destruct (skip_full _ _ S) as (ts0 & F0 & E0). exists (ts0 ++ ts'). split; [eapply full_app; eassumption|].
      now rewrite filter_app, E0, E.
    - exists (t :: ts'). split; [eapply full_tok; eassumption|]. cbn [filter]. rewrite (tok_syntax _ _ _ T). now rewrite E.
  Qed.

  Lemma chain_skip p p' ts q : skip_paths p = skip_paths p' -> chain w p' ts q -> chain w p ts q.
  Proof.
    intros E C. destruct C as [p' q S|p' p1 t p2 ts q S T C].
    - constructor. now rewrite E.
    - eapply chain_cons; [rewrite E; exact S|exact T|exact C].
  Qed.
  Lemma tok_stopped p t q : tok w p t q -> stopped p.
  Proof.
    unfold stopped. destruct 1 as [p a r t R O|p names args after R P A].
    - rewrite R. eapply operator_stops; exact O.
    - destruct (primary_word w _ _ _ SN P) as (a & more & -> & D & N & O). rewrite R. cbn [app]. apply stopb_iff. left.
      split; [exact D|]. split; [|exact N]. intros ->. apply O. unfold one_of. cbn. tauto.
  Qed.
  Lemma full_chain p ts q : full p ts q -> rest q = [] -> chain w p (filter syntax ts) q.
  Proof.
    induction 1 as [p|p a r ts q R P F IH|p r ts q R F IH|p t p' ts q T F IH]; intros Z.
    - constructor. apply skip_stopped. unfold stopped. now rewrite Z.
    - cbn [filter syntax]. apply path_like_stopb in P. destruct P as [SB N]. apply (chain_skip _ (step_path a p)); [|now apply IH].
      unfold skip_paths at 1. rewrite R, (skip_cons a r p R), SB.
      assert (E : aeq a (b "--") = false) by (apply not_true_iff_false; now rewrite aeq_iff).
      rewrite E. unfold skip_paths. cbn [step_path rest]. now rewrite R.
    - cbn [filter syntax]. apply (chain_skip _ (step_dashes p)); [|now apply IH].
      unfold skip_paths at 1. rewrite R, (skip_cons _ r p R).
      assert (SB : stopb (expr_started p) (b "--") = false) by (unfold stopb; now destruct (expr_started p)).
      rewrite SB. unfold skip_paths. cbn [step_dashes rest]. now rewrite R.
    - cbn [filter]. rewrite (tok_syntax _ _ _ T). eapply chain_cons; [|exact T|now apply IH].
      apply skip_stopped. eapply tok_stopped; exact T.
  Qed.

  (** ** The state at the end *)

  Definition shows (t : token) : bool := match t with TPrim names _ => existsb showsb names | _ => false end.
  Definition limits (t : token) : bool := match t with TPrim names _ => existsb (aeq (b "-limit")) names | _ => false end.

  Lemma latest_app o l1 l2 : latest (latest o l1) l2 = latest o (l1 ++ l2).
  Proof.
    unfold latest. rewrite rev_app_distr. destruct (rev l2) as [|x l]; [reflexivity|]. reflexivity.
  Qed.
  Lemma op_fields st a t : operator st a t -> paths_of t = [] /\ lists_of t = [] /\ shows t = false /\ limits t = false.
  Proof. destruct 1; repeat split; reflexivity. Qed.
  Lemma full_fields p ts q : full p ts q ->
    roots q = roots p ++ flat_map paths_of ts /\ implicit_print q = implicit_print p && negb (existsb shows ts) /\
    limit q = limit p || existsb limits ts /\ files0 q = latest (files0 p) (flat_map lists_of ts) /\
    excluding q = excluding p /\ exclude q = exclude p.
  Proof.
    induction 1 as [p|p a r ts q R P F IH|p r ts q R F IH|p t p' ts q T F IH].
    - cbn [flat_map existsb negb]. rewrite app_nil_r, andb_true_r, orb_false_r. repeat split; reflexivity.
    - cbn [step_path roots implicit_print limit files0 excluding exclude] in IH. destruct IH as (-> & H). cbn [flat_map paths_of lists_of app].
      split; [now rewrite <- app_assoc|exact H].
    - cbn [step_dashes roots implicit_print limit files0 excluding exclude] in IH. exact IH.
    - destruct T as [p a r t R O|p names args after R P A].
      + destruct (op_fields _ _ _ O) as (E1 & E2 & E3 & E4). cbn [flat_map existsb]. rewrite E1, E2, E3, E4. exact IH.
      + cbn [lexmoved setx moved roots implicit_print limit files0 excluding exclude] in IH. destruct IH as (-> & -> & -> & -> & H).
        cbn [flat_map existsb shows limits]. split; [now rewrite <- app_assoc|]. split; [now rewrite negb_orb, andb_assoc|].
        split; [now rewrite orb_assoc|]. split; [apply latest_app|exact H].
  Qed.

  Lemma has_exists (P : arg -> Prop) (f : arg -> bool) ts : (forall n, f n = true <-> P n) ->
    (has P ts <-> existsb (fun t => match t with TPrim names _ => existsb f names | _ => false end) ts = true).
  Proof.
    intros S. rewrite existsb_exists. split.
    - intros (names & args & n & I & J & H). exists (TPrim names args). split; [exact I|]. rewrite existsb_exists. exists n. split; [exact J|]. now apply S.
    - intros (t & I & H). destruct t as [| | | | | | | | |names args]; try discriminate H. apply existsb_exists in H. destruct H as (n & J & H).
      exists names, args, n. split; [exact I|]. split; [exact J|]. now apply S.
  Qed.
  Lemma has_shows ts : has (fun n => is_action n /\ ~ shows_nothing n) ts <-> existsb shows ts = true.
  Proof. apply has_exists. apply showsb_iff. Qed.
  Lemma has_limit ts : has (fun n => n = b "-limit") ts <-> existsb limits ts = true.
  Proof. apply has_exists. intros n. rewrite aeq_iff. split; congruence. Qed.

  (** ** The words that are read *)

  Lemma full_reads p ts q : full p ts q -> rest q = [] -> reads w (done p) (expr_started p) (rest p) ts.
  Proof.
    induction 1 as [p|p a r ts q R P F IH|p r ts q R F IH|p t p' ts q T F IH]; intros Z; try specialize (IH Z).
    - rewrite Z. constructor.
    - cbn [step_path done expr_started rest] in IH. rewrite R in *. apply r_path; assumption.
    - cbn [step_dashes done expr_started rest] in IH. rewrite R in *. apply r_dashes; assumption.
    - destruct T as [p a r t R O|p names args after R P A].
      + cbn [adv1 done expr_started rest] in IH. rewrite R in *. eapply r_operator; [exact O|exact IH].
      + cbn [lexmoved setx moved done expr_started rest] in IH. rewrite R in *.
        rewrite skipn_app, skipn_all, Nat.sub_diag in IH. cbn [skipn app] in IH.
        destruct (forallb pureb names) eqn:PU.
        * rewrite orb_false_r in IH. apply r_flags; try assumption. now apply pure_all.
        * rewrite orb_true_r in IH. apply r_primary; try assumption. rewrite pure_all, PU. discriminate.
  Qed.
  Lemma reads_full before st argv ts : reads w before st argv ts ->
    forall p, done p = before -> expr_started p = st -> rest p = argv -> exists q, full p ts q /\ rest q = [].
  Proof.
    induction 1 as [before st|before st a argv ts PL H IH|before st argv ts H IH|before st a t argv ts O H IH
                   |before st names args argv ts P A PF H IH|before st names args argv ts P A PF H IH]; intros p D ST R.
    - exists p. split; [constructor|exact R].
    - destruct (IH (step_path a p)) as (q & F & Z); [cbn; congruence|exact ST|cbn [step_path rest]; now rewrite R|].
      exists q. split; [|exact Z]. eapply full_path; [exact R|now rewrite ST|exact F].
    - destruct (IH (step_dashes p)) as (q & F & Z); [cbn; congruence|exact ST|cbn [step_dashes rest]; now rewrite R|].
      exists q. split; [|exact Z]. eapply full_dashes; [exact R|exact F].
    - destruct (IH (adv1 p)) as (q & F & Z); [cbn [adv1 done]; rewrite R, D; reflexivity|reflexivity|cbn [adv1 rest]; now rewrite R|].
      exists q. split; [|exact Z]. eapply full_tok; [|exact F]. eapply tok_op; [exact R|now rewrite ST].
    - destruct (IH (lexmoved names args p)) as (q & F & Z).
      { cbn [lexmoved setx moved done]. now rewrite D. }
      { cbn [lexmoved setx moved expr_started]. apply pure_all in PF. now rewrite PF, orb_false_r. }
      { cbn [lexmoved setx moved rest]. rewrite R, skipn_app, skipn_all, Nat.sub_diag. reflexivity. }
      exists q. split; [|exact Z]. eapply full_tok; [|exact F]. eapply tok_prim; [exact R|exact P|now rewrite D].
    - destruct (IH (lexmoved names args p)) as (q & F & Z).
      { cbn [lexmoved setx moved done]. now rewrite D. }
      { cbn [lexmoved setx moved expr_started]. rewrite pure_all in PF. apply not_true_is_false in PF. now rewrite PF, orb_true_r. }
      { cbn [lexmoved setx moved rest]. rewrite R, skipn_app, skipn_all, Nat.sub_diag. reflexivity. }
      exists q. split; [|exact Z]. eapply full_tok; [|exact F]. eapply tok_prim; [exact R|exact P|now rewrite D].
  Qed.

  (** ** The command line *)

  (** What becomes of the expression when all has been read *)
  Definition finished (e : expr) (p : parser) (c : cmdline) : Prop :=
    match files0 p with
    | None => c_roots c = match roots p with [] => [b "."] | ps => ps end
    | Some f => roots p = [] /\ files0_list w f = Some (c_roots c)
    end /\
    c_exclude c = exclude p /\
    (implicit_print p = false /\ c_expr c = e \/ implicit_print p = true /\ limit p = false /\ c_expr c = And e Print).
  Definition conclude (e : expr) (p : parser) : result cmdline :=
    bind (match files0 p with
          | Some f =>
              match roots p with
              | _ :: _ => Rejected
              | [] => match files0_list w f with Some l => Ok l | None => Rejected end
              end
          | None => Ok (match roots p with [] => [b "."] | _ => roots p end)
          end) (fun roots =>
    if implicit_print p then
      if limit p then Rejected
      else Ok {| c_expr := And e Print; c_exclude := exclude p; c_roots := roots |}
    else Ok {| c_expr := e; c_exclude := exclude p; c_roots := roots |}).
  Lemma conclude_iff e p c : conclude e p = Ok c <-> finished e p c.
  Proof.
    unfold conclude, finished. destruct c as [ce cx cr]. cbn [c_expr c_exclude c_roots].
    assert (X : forall l, (if implicit_print p then if limit p then Rejected
        else Ok {| c_expr := And e Print; c_exclude := exclude p; c_roots := l |}
      else Ok {| c_expr := e; c_exclude := exclude p; c_roots := l |}) = Ok {| c_expr := ce; c_exclude := cx; c_roots := cr |} <->
      cr = l /\ cx = exclude p /\ (implicit_print p = false /\ ce = e \/ implicit_print p = true /\ limit p = false /\ ce = And e Print)).
    { intros l. destruct (implicit_print p), (limit p); split.
      1: discriminate. 1: intros (_ & _ & [[H _]|[_ [H _]]]); discriminate.
      1: intros [= <- <- <-]; tauto. 1: intros (-> & -> & [[H _]|[_ [_ ->]]]); [discriminate|reflexivity].
      1: intros [= <- <- <-]; tauto. 1: intros (-> & -> & [[_ ->]|[H _]]); [reflexivity|discriminate].
      1: intros [= <- <- <-]; tauto. 1: intros (-> & -> & [[_ ->]|[H _]]); [reflexivity|discriminate]. }
    destruct (files0 p) as [f|].
    - destruct (roots p) as [|r0 rs]; [|cbn [bind]; split; [discriminate|intros [[H _] _]; discriminate]].
      destruct (files0_list w f) as [l|]; cbn [bind]; [|split; [discriminate|intros [[_ H] _]; discriminate]].
      rewrite X. split; [intros (-> & K); tauto|intros ((_ & K) & K'); injection K as ->; tauto].
    - cbn [bind]. rewrite X. destruct (roots p); tauto.
  Qed.
  Lemma conclude_total e p : conclude e p <> Stuck.
  Proof.
    unfold conclude. destruct (files0 p) as [f|].
    - destruct (roots p); [|discriminate]. destruct (files0_list w f); [|discriminate]. cbn [bind]. destruct (implicit_print p), (limit p); discriminate.
    - cbn [bind]. destruct (implicit_print p), (limit p); discriminate.
  Qed.

  Lemma parse_unfold argv p1 : skip_paths (init argv) = Ok p1 ->
    parse_cmdline w argv =
    bind (match rest p1 with [] => Ok (True_, p1) | _ :: _ => parse_expr w (8 * S (length argv)) p1 end)
      (fun '(e, p) => match rest p with _ :: _ => Rejected | [] => conclude e p end).
  Proof. intros E. unfold parse_cmdline. rewrite E. reflexivity. Qed.

  Lemma total argv : parse_cmdline w argv <> Stuck.
  Proof.
    destruct (skip_facts (init argv)) as (p1 & E & _ & L & _). rewrite (parse_unfold argv p1 E). cbn [init rest] in L.
    destruct (rest p1) as [|a r] eqn:R.
    - cbn [bind]. rewrite R. apply conclude_total.
    - assert (F : fine (length (rest p1)) (parse_expr w (8 * S (length argv)) p1)) by (apply finishes; [exact SN|]; rewrite R; unfold arg in *; lia).
      destruct (parse_expr w (8 * S (length argv)) p1) as [[e q]| |]; [|discriminate|destruct F]. cbn [bind].
      destruct (rest q); [apply conclude_total|discriminate].
  Qed.

  (** The end of the state says what the tokens say *)
  Lemma finished_iff argv ts q0 e ex x c : full (init argv) ts q0 -> c_exclude c = ex ->
    (finished e (setx x ex q0) c <->
     match rev (flat_map lists_of ts) with
     | [] => c_roots c = match flat_map paths_of ts with [] => [b "."] | ps => ps end
     | f :: _ => flat_map paths_of ts = [] /\ files0_list w f = Some (c_roots c)
     end /\
     (has (fun n => is_action n /\ ~ shows_nothing n) ts /\ c_expr c = e \/
      ~ has (fun n => is_action n /\ ~ shows_nothing n) ts /\ ~ has (fun n => n = b "-limit") ts /\ c_expr c = And e Print)).
  Proof.
    intros F EX. apply full_fields in F. destruct F as (F1 & F2 & F3 & F4 & _ & _).
    cbn [init roots implicit_print limit files0] in F1, F2, F3, F4. cbn [app andb orb] in F1, F2, F3.
    unfold finished. cbn [setx files0 roots exclude implicit_print limit]. rewrite F1, F2, F3, F4, has_shows, has_limit. unfold latest.
    assert (N1 : negb (existsb shows ts) = false <-> existsb shows ts = true) by apply negb_false_iff.
    assert (N2 : negb (existsb shows ts) = true <-> ~ existsb shows ts = true) by (rewrite negb_true_iff; apply not_true_iff_false || (symmetry; apply not_true_iff_false)).
    assert (N3 : existsb limits ts = false <-> ~ existsb limits ts = true) by (symmetry; apply not_true_iff_false).
    rewrite N1, N2, N3, EX. destruct (rev (flat_map lists_of ts)); tauto.
  Qed.

  Lemma expression_nonempty :
    (forall x ts e ex, factor x ts e ex -> ts <> []) /\ (forall x ts e ex, term x ts e ex -> ts <> []) /\
    (forall x ts e ex, clause x ts e ex -> ts <> []) /\ (forall x ts e ex, expression x ts e ex -> ts <> []).
  Proof.
    apply grammar_ind; intros; try discriminate; try assumption;
      match goal with |- ?l ++ _ <> [] => intros Z; apply app_eq_nil in Z; destruct Z; contradiction end.
  Qed.

  Lemma grammar argv c : parse_cmdline w argv = Ok c <-> means w argv c.
  Proof.
    destruct (skip_facts (init argv)) as (p1 & E & ST & L & X1 & X2 & _). rewrite (parse_unfold argv p1 E). cbn [init rest excluding exclude] in L, X1, X2.
    split.
    - intros H. destruct (rest p1) as [|a r] eqn:R.
      + cbn [bind] in H. rewrite R in H. apply conclude_iff in H.
        destruct (skip_full _ _ E) as (ts & F & Z). exists ts, True_. split; [exact (full_reads _ _ _ F R)|].
        assert (CX : c_exclude c = []) by (destruct H as (_ & -> & _); exact X2).
        split; [left; tauto|]. rewrite <- finished_iff with (x := excluding p1) (ex := exclude p1) (argv := argv); [|exact F|now rewrite X2].
        now rewrite setx_id.
      + destruct (parse_expr w (8 * S (length argv)) p1) as [[e q]| |] eqn:PE; try discriminate H. cbn [bind] in H.
        destruct (rest q) as [|a' r'] eqn:RQ; [|discriminate H]. apply conclude_iff in H.
        destruct (sound w SN (8 * S (length argv))) as (_ & _ & _ & _ & _ & G & _). apply G in PE. clear G.
        destruct PE as (ts0 & ex & q0 & LX & HE & ->). rewrite X1, X2 in *. cbn [app] in *. cbn [setx rest] in RQ.
        destruct (lexed_full _ _ _ LX) as (ts2 & F2 & Z2). destruct (skip_full _ _ E) as (ts1 & F1 & Z1).
        pose proof (full_app _ _ _ _ _ F1 F2) as F. exists (ts1 ++ ts2), e. split; [exact (full_reads _ _ _ F RQ)|].
        assert (CX : c_exclude c = ex) by (destruct H as (_ & -> & _); reflexivity).
        split; [right; rewrite filter_app, Z1, Z2, CX; exact HE|]. now apply (finished_iff argv _ q0 e ex false).
    - intros (ts & e & RD & HE & FIN). destruct (reads_full _ _ _ _ RD (init argv) eq_refl eq_refl eq_refl) as (q & F & Z).
      pose proof (full_chain _ _ _ F Z) as CH. pose proof (full_fields _ _ _ F) as (_ & _ & _ & _ & Y1 & Y2). cbn [init excluding exclude] in Y1, Y2.
      destruct HE as [(N & -> & CX)|HE].
      + rewrite N in CH. inversion CH as [? ? S|]; subst. rewrite E in S. injection S as <-. rewrite Z. cbn [bind]. rewrite Z.
        apply conclude_iff. apply (finished_iff argv ts p1 True_ [] false c F CX) in FIN.
        assert (SE : setx false [] p1 = p1) by (rewrite <- Y1, <- Y2; apply setx_id). rewrite SE in FIN. exact FIN.
      + destruct (complete w SN) as (_ & _ & _ & C). 
        assert (CH1 : chain w p1 (filter syntax ts) q).
        { apply (chain_skip p1 (init argv)); [|exact CH]. rewrite E. now apply skip_stopped. }
        destruct (C _ _ _ _ HE p1 q CH1 X1 (or_introl Z)) as (N & k & q1 & HP & RE).
        specialize (HP (S N) ltac:(lia)). rewrite (expr_stops w p1 (c_exclude c) q1 q) in HP; [|exact RE|now left]. rewrite X1, X2 in HP. cbn [app] in HP.
        assert (R : exists a r, rest p1 = a :: r).
        { destruct (rest p1) as [|a r] eqn:R; [|eauto]. exfalso. 
          destruct expression_nonempty as (_ & _ & _ & NE). apply NE in HE.
          inversion CH1 as [? ? S EQ|? p2 t p3 ts' ? S T C' EQ]; subst; [congruence|].
          rewrite (skip_stopped _ ST) in S. injection S as <-.
          inversion T as [? ? ? ? R' _|? ? ? ? R' P _]; subst; [congruence|].
          destruct (primary_word w _ _ _ SN P) as (? & ? & -> & _). rewrite R in R'. discriminate. }
        destruct R as (a & r & R). rewrite R.
        assert (PE : parse_expr w (8 * S (length argv)) p1 = Ok (e, setx false (c_exclude c) q)).
        { assert (F1 : fine (length (rest p1)) (parse_expr w (8 * S (length argv)) p1)) by (apply finishes; [exact SN|]; rewrite R in *; unfold arg in *; lia).
          destruct (more_fuel w (8 * S (length argv)) (8 * S (length argv) + (S N + k)) ltac:(lia)) as (_ & _ & _ & _ & _ & M1 & _).
          destruct (more_fuel w (S N + k) (8 * S (length argv) + (S N + k)) ltac:(lia)) as (_ & _ & _ & _ & _ & M2 & _).
          destruct (M1 p1) as [Q|Q]; [rewrite Q in F1; destruct F1|]. rewrite Q.
          destruct (M2 p1) as [Q'|Q']; [rewrite HP in Q'; discriminate|]. rewrite <- Q'. exact HP. }
        rewrite PE. cbn [bind setx rest]. rewrite Z. change ({|
          done := done q; rest := rest q; roots := roots q; exclude := c_exclude c; implicit_print := implicit_print q;
          expr_started := expr_started q; excluding := false; limit := limit q; files0 := files0 q |}) with (setx false (c_exclude c) q).
        apply conclude_iff. now apply (finished_iff argv ts q e (c_exclude c) false).
  Qed.
  Lemma decides argv :
    (exists c, parse_cmdline w argv = Ok c /\ means w argv c) \/
    (parse_cmdline w argv = Rejected /\ forall c, ~ means w argv c).
  Proof.
    pose proof (grammar argv) as G. pose proof (total argv) as T.
    destruct (parse_cmdline w argv) as [c| |]; [left|right|congruence].
    - exists c. split; [reflexivity|]. now apply G.
    - split; [reflexivity|]. intros c H. apply G in H. discriminate.
  Qed.
  Lemma unambiguous argv c d : means w argv c -> means w argv d -> c = d.
  Proof. intros H1 H2. apply grammar in H1. apply grammar in H2. congruence. Qed.
End Whole.
