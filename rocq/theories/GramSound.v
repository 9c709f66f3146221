(** * What the parser accepts is an expression *)
From Coq Require Import String List Bool Arith ZArith Lia.
From Coq Require Import Init.Byte Strings.Byte.
From Verif Require Import NumSpec GramModel GramSpec GramPrims GramFlags.
Import ListNotations.
Local Close Scope string_scope.
Local Open Scope list_scope.
Local Open Scope nat_scope.

Definition setx (x : bool) (ex : list expr) (p : parser) : parser :=
  {| done := done p; rest := rest p; roots := roots p; exclude := ex; implicit_print := implicit_print p;
     expr_started := expr_started p; excluding := x; limit := limit p; files0 := files0 p |}.
Lemma setx_setx x ex y ey p : setx x ex (setx y ey p) = setx x ex p.
Proof. reflexivity. Qed.
Lemma setx_id p : setx (excluding p) (exclude p) p = p.
Proof. destruct p. reflexivity. Qed.
Lemma setx_back x ex p : setx (excluding p) (exclude p) (setx x ex p) = p.
Proof. rewrite setx_setx. apply setx_id. Qed.

(** ** Skipping paths *)

Definition step_path (a : arg) (p : parser) : parser :=
  {| done := done p ++ [a]; rest := tl (rest p); roots := roots p ++ [a]; exclude := exclude p; implicit_print := implicit_print p;
     expr_started := expr_started p; excluding := excluding p; limit := limit p; files0 := files0 p |}.
Definition step_dashes (p : parser) : parser :=
  {| done := done p ++ [b "--"]; rest := tl (rest p); roots := roots p; exclude := exclude p; implicit_print := implicit_print p;
     expr_started := expr_started p; excluding := excluding p; limit := limit p; files0 := files0 p |}.

Definition stopb (st : bool) (a : arg) : bool :=
  match a with x2d :: _ => negb (aeq a (b "--")) && negb (aeq a (b "-")) | _ => false end ||
  aeq a (b "(") || aeq a (b "!") || st && (aeq a (b ")") || aeq a (b ",")).

Lemma skip_cons a r p : rest p = a :: r ->
  skip_loop (a :: r) p =
  if stopb (expr_started p) a then Ok p
  else if aeq a (b "--") then skip_loop r (step_dashes p)
  else skip_loop r (step_path a p).
Proof.
  intros R. cbn [skip_loop].
  assert (P : (if aeq a (b "(") || aeq a (b "!") then Ok p
     else if expr_started p && (aeq a (b ")") || aeq a (b ",")) then Ok p
     else match advance BFS_PATH 1 (parse_root a p) with Some p' => skip_loop r p' | None => Stuck end) =
     if aeq a (b "(") || aeq a (b "!") || expr_started p && (aeq a (b ")") || aeq a (b ",")) then Ok p else skip_loop r (step_path a p)).
  { destruct (aeq a (b "(") || aeq a (b "!")); [reflexivity|]. cbn [orb]. destruct (expr_started p && _); [reflexivity|].
    unfold advance, parse_root, step_path. cbn [rest]. rewrite R. reflexivity. }
  rewrite P. unfold stopb.
  assert (ND : hd_error a <> Some x2d -> aeq a (b "--") = false).
  { intros H. destruct (aeq_spec a (b "--")) as [->|]; [|reflexivity]. now destruct H. }
  destruct a as [|c a].
  { reflexivity. }
  assert (CASE : c = x2d \/ (hd_error (c :: a) <> Some x2d /\ forall X (u v : X), match c with x2d => u | _ => v end = v)).
  { destruct (Byte.byte_eq_dec c x2d) as [->|N]; [now left|]. right. split; [cbn; congruence|]. intros X u v. destruct c; try reflexivity; congruence. }
  destruct CASE as [->|[HN CM]].
  - destruct (aeq (x2d :: a) (b "--")) eqn:D.
    + apply aeq_iff in D. rewrite D. cbn [negb andb orb].
      replace (aeq (b "--") (b "(")) with false by reflexivity. replace (aeq (b "--") (b "!")) with false by reflexivity.
      replace (aeq (b "--") (b ")")) with false by reflexivity. replace (aeq (b "--") (b ",")) with false by reflexivity.
      cbn [orb]. rewrite andb_false_r. unfold advance, step_dashes. rewrite R, D. reflexivity.
    + cbn [negb andb]. destruct (aeq (x2d :: a) (b "-")); cbn [negb orb]; reflexivity.
  - rewrite !CM, (ND HN). cbn [orb]. reflexivity.
Qed.

Lemma skip_ind (P : parser -> parser -> Prop) :
  (forall p, rest p = [] -> P p p) ->
  (forall p a r, rest p = a :: r -> stopb (expr_started p) a = true -> P p p) ->
  (forall p r q, rest p = b "--" :: r -> skip_paths (step_dashes p) = Ok q -> P (step_dashes p) q -> P p q) ->
  (forall p a r q, rest p = a :: r -> stopb (expr_started p) a = false -> a <> b "--" -> skip_paths (step_path a p) = Ok q -> P (step_path a p) q -> P p q) ->
  forall p, exists q, skip_paths p = Ok q /\ P p q.
Proof.
  intros H0 H1 H2 H3 p. remember (rest p) as r eqn:E. symmetry in E. revert p E.
  induction r as [|a r IH]; intros p E; unfold skip_paths; rewrite E.
  - exists p. split; [reflexivity|]. now apply H0.
  - rewrite (skip_cons a r p E). destruct (stopb (expr_started p) a) eqn:S.
    + exists p. split; [reflexivity|]. eapply H1; eassumption.
    + destruct (aeq_spec a (b "--")) as [->|N].
      * destruct (IH (step_dashes p)) as (q & Q & HP); [cbn [rest step_dashes]; now rewrite E|].
        unfold skip_paths in Q. cbn [rest step_dashes] in Q. rewrite E in Q. cbn [tl] in Q. exists q. split; [exact Q|].
        eapply H2; [exact E| |exact HP]. unfold skip_paths. cbn [rest step_dashes]. rewrite E. exact Q.
      * destruct (IH (step_path a p)) as (q & Q & HP); [cbn [rest step_path]; now rewrite E|].
        unfold skip_paths in Q. cbn [rest step_path] in Q. rewrite E in Q. cbn [tl] in Q. exists q. split; [exact Q|].
        eapply H3; [exact E|exact S|exact N| |exact HP]. unfold skip_paths. cbn [rest step_path]. rewrite E. exact Q.
Qed.

Definition stopped (p : parser) : Prop :=
  match rest p with [] => True | a :: _ => stopb (expr_started p) a = true end.
Lemma skip_stopped p : stopped p -> skip_paths p = Ok p.
Proof.
  unfold stopped, skip_paths. destruct (rest p) as [|a r] eqn:R; [reflexivity|]. intros H. rewrite (skip_cons a r p R), H. reflexivity.
Qed.

Lemma skip_facts p : exists q, skip_paths p = Ok q /\ stopped q /\ length (rest q) <= length (rest p) /\
  excluding q = excluding p /\ exclude q = exclude p /\ expr_started q = expr_started p /\
  implicit_print q = implicit_print p /\ limit q = limit p /\ files0 q = files0 p.
Proof.
  apply (skip_ind (fun p q => stopped q /\ length (rest q) <= length (rest p) /\
    excluding q = excluding p /\ exclude q = exclude p /\ expr_started q = expr_started p /\
    implicit_print q = implicit_print p /\ limit q = limit p /\ files0 q = files0 p)); clear p.
  - intros p E. unfold stopped. rewrite E. repeat split; auto.
  - intros p a r E S. unfold stopped. rewrite E. repeat split; auto.
  - intros p r q E _ (S & L & H). split; [assumption|]. cbn [step_dashes rest] in L. rewrite E in *. cbn [tl length] in *. split; [lia|]. exact H.
  - intros p a r q E _ _ _ (S & L & H). split; [assumption|]. cbn [step_path rest] in L. rewrite E in *. cbn [tl length] in *. split; [lia|]. exact H.
Qed.

Lemma skip_loop_setx r : forall p q x ex, rest p = r -> skip_loop r p = Ok q -> skip_loop r (setx x ex p) = Ok (setx x ex q).
Proof.
  induction r as [|a r IH]; intros p q x ex R H.
  - injection H as <-. reflexivity.
  - rewrite (skip_cons a r p R) in H. rewrite (skip_cons a r (setx x ex p) R). cbn [expr_started setx].
    destruct (stopb (expr_started p) a); [injection H as <-; reflexivity|].
    destruct (aeq a (b "--")).
    + change (step_dashes (setx x ex p)) with (setx x ex (step_dashes p)). apply IH; [cbn; now rewrite R|assumption].
    + change (step_path a (setx x ex p)) with (setx x ex (step_path a p)). apply IH; [cbn; now rewrite R|assumption].
Qed.
Lemma skip_setx p q x ex : skip_paths p = Ok q -> skip_paths (setx x ex p) = Ok (setx x ex q).
Proof. apply skip_loop_setx. reflexivity. Qed.

(** ** Reading tokens *)

Definition adv1 (p : parser) : parser :=
  {| done := done p ++ firstn 1 (rest p); rest := tl (rest p); roots := roots p; exclude := exclude p; implicit_print := implicit_print p;
     expr_started := true; excluding := excluding p; limit := limit p; files0 := files0 p |}.
Lemma adv_adv1 p a r : rest p = a :: r -> adv BFS_OPERATOR 1 p = Ok (adv1 p).
Proof. intros R. unfold adv, advance, adv1. rewrite R. reflexivity. Qed.

Definition lexmoved (names args : list arg) (p : parser) : parser := setx (excluding p) (exclude p) (moved names args p).
Lemma moved_lex names args p : moved names args p = setx (excluding p) (exclude p ++ excludes names) (lexmoved names args p).
Proof. reflexivity. Qed.

Section Lex.
  Variable w : env.
  Hypothesis SN : sane (isspace w).

  Inductive tok : parser -> token -> parser -> Prop :=
  | tok_op p a r t : rest p = a :: r -> operator (expr_started p) a t -> tok p t (adv1 p)
  | tok_prim p names args after : rest p = args ++ after -> primary w after names args -> accepted w (done p) names args ->
      tok p (TPrim names args) (lexmoved names args p).

  Inductive lexed : parser -> list token -> parser -> Prop :=
  | lexed_nil p : lexed p [] p
  | lexed_skip p p' ts q : skip_paths p = Ok p' -> lexed p' ts q -> lexed p ts q
  | lexed_tok p t p' ts q : tok p t p' -> lexed p' ts q -> lexed p (t :: ts) q.

  Lemma lexed_app p ts1 q ts2 r : lexed p ts1 q -> lexed q ts2 r -> lexed p (ts1 ++ ts2) r.
  Proof.
    induction 1 as [p|p p' ts q S L IH|p t p' ts q T L IH]; intros H; cbn [app].
    - assumption.
    - eapply lexed_skip; eauto.
    - eapply lexed_tok; eauto.
  Qed.
  Lemma lexed_one p t q : tok p t q -> lexed p [t] q.
  Proof. intros T. eapply lexed_tok; [exact T|constructor]. Qed.

  Lemma tok_setx p t q x ex : tok p t q -> tok (setx x ex p) t (setx x ex q).
  Proof.
    destruct 1 as [p a r t R O|p names args after R P A].
    - change (setx x ex (adv1 p)) with (adv1 (setx x ex p)). eapply tok_op; [exact R|exact O].
    - change (setx x ex (lexmoved names args p)) with (lexmoved names args (setx x ex p)). eapply tok_prim; [exact R|exact P|exact A].
  Qed.
  Lemma lexed_setx p ts q x ex : lexed p ts q -> lexed (setx x ex p) ts (setx x ex q).
  Proof.
    induction 1 as [p|p p' ts q S L IH|p t p' ts q T L IH].
    - constructor.
    - eapply lexed_skip; [|exact IH]. now apply skip_setx.
    - eapply lexed_tok; [|exact IH]. now apply tok_setx.
  Qed.
  Lemma tok_same p t q : tok p t q -> excluding q = excluding p /\ exclude q = exclude p.
  Proof. destruct 1; split; reflexivity. Qed.
  Lemma skip_same p q : skip_paths p = Ok q -> excluding q = excluding p /\ exclude q = exclude p.
  Proof. intros H. destruct (skip_facts p) as (q' & Q & F). rewrite H in Q. injection Q as <-. tauto. Qed.
  Lemma lexed_same p ts q : lexed p ts q -> excluding q = excluding p /\ exclude q = exclude p.
  Proof.
    induction 1 as [p|p p' ts q S L [IH1 IH2]|p t p' ts q T L [IH1 IH2]]; [auto| |].
    - apply skip_same in S. destruct S. split; congruence.
    - apply tok_same in T. destruct T. split; congruence.
  Qed.

  (** [good G p e q]: between the states [p] and [q] an expression of the class [G] was read *)
  Definition good (G : bool -> list token -> expr -> list expr -> Prop) (p : parser) (e : expr) (q : parser) : Prop :=
    exists ts ex q0, lexed p ts q0 /\ G (excluding p) ts e ex /\ q = setx (excluding p) (exclude p ++ ex) q0.

  Lemma good_skip_r G p e q q' : good G p e q -> skip_paths q = Ok q' -> good G p e q'.
  Proof.
    intros (ts & ex & q0 & L & H & ->) S. exists ts, ex, (setx (excluding q0) (exclude q0) q').
    split; [|split; [exact H|]].
    - rewrite <- (app_nil_r ts). eapply lexed_app; [exact L|]. eapply lexed_skip; [|constructor].
      apply skip_setx with (x := excluding q0) (ex := exclude q0) in S. rewrite setx_back in S. exact S.
    - rewrite setx_setx. apply skip_same in S. cbn [setx excluding exclude] in S. destruct S as [<- <-]. now rewrite setx_id.
  Qed.
  Lemma good_skip_l G p p' e q : skip_paths p = Ok p' -> good G p' e q -> good G p e q.
  Proof.
    intros S (ts & ex & q0 & L & H & ->). pose proof (skip_same _ _ S) as [E1 E2]. rewrite E1, E2 in *.
    exists ts, ex, q0. split; [eapply lexed_skip; eauto|]. split; [exact H|reflexivity].
  Qed.
  Lemma good_weaken (G G' : bool -> list token -> expr -> list expr -> Prop) p e e' q : good G p e q -> (forall x ts ex, G x ts e ex -> G' x ts e' ex) -> good G' p e' q.
  Proof. intros (ts & ex & q0 & L & H & E) W. exists ts, ex, q0. split; [exact L|]. split; [now apply W|exact E]. Qed.
  Lemma good_tok_l (G G' : bool -> list token -> expr -> list expr -> Prop) p t p' e e' q : tok p t p' -> good G p' e q -> (forall x ts ex, G x ts e ex -> G' x (t :: ts) e' ex) -> good G' p e' q.
  Proof.
    intros T (ts & ex & q0 & L & H & ->) W. apply tok_same in T as TS. destruct TS as [E1 E2]. rewrite E1, E2 in *.
    exists (t :: ts), ex, q0. split; [eapply lexed_tok; eauto|]. split; [now apply W|reflexivity].
  Qed.
  Lemma good_tok_r (G G' : bool -> list token -> expr -> list expr -> Prop) p t e e' q q' : good G p e q -> tok q t q' -> (forall x ts ex, G x ts e ex -> G' x (ts ++ [t]) e' ex) -> good G' p e' q'.
  Proof.
    intros (ts & ex & q0 & L & H & ->) T W. exists (ts ++ [t]), ex, (setx (excluding q0) (exclude q0) q').
    split; [|split; [now apply W|]].
    - eapply lexed_app; [exact L|]. apply lexed_one. apply tok_setx with (x := excluding q0) (ex := exclude q0) in T. rewrite setx_back in T. exact T.
    - rewrite setx_setx. apply tok_same in T. cbn [setx excluding exclude] in T. destruct T as [<- <-]. now rewrite setx_id.
  Qed.
  Lemma good_seq (G1 G2 G : bool -> list token -> expr -> list expr -> Prop) p l q r q' e : good G1 p l q -> good G2 q r q' ->
    (forall x ts1 ex1 ts2 ex2, G1 x ts1 l ex1 -> G2 x ts2 r ex2 -> G x (ts1 ++ ts2) e (ex1 ++ ex2)) -> good G p e q'.
  Proof.
    intros (ts1 & ex1 & q1 & L1 & H1 & ->) (ts2 & ex2 & q2 & L2 & H2 & ->) W. cbn [setx excluding exclude] in *.
    exists (ts1 ++ ts2), (ex1 ++ ex2), (setx (excluding q1) (exclude q1) q2).
    split; [|split; [now apply W|]].
    - eapply lexed_app; [exact L1|]. apply lexed_setx with (x := excluding q1) (ex := exclude q1) in L2. rewrite setx_back in L2. exact L2.
    - now rewrite setx_setx, app_assoc.
  Qed.

  Lemma one_of_2 x y a : aeq a (b x) || aeq a (b y) = true -> one_of [x; y] a.
  Proof. rewrite orb_true_iff, !aeq_iff. unfold one_of. cbn. intuition. Qed.

  Lemma good_prim p e q : parse_primary w p = Ok (e, q) -> good factor p e q.
  Proof.
    intros H. destruct (rest p) as [|a r] eqn:R; [unfold parse_primary in H; rewrite R in H; discriminate|].
    destruct (prim_cases w p a r SN R) as [C|(names & args & after & RA & P & A & X & C)]; rewrite C in H; [discriminate|].
    injection H as <- <-. exists [TPrim names args], (excludes names), (lexmoved names args p).
    split; [apply lexed_one; eapply tok_prim; eassumption|]. split; [now constructor|]. apply moved_lex.
  Qed.

  Ltac inv H := unfold bind in H; match type of H with
    | match ?X with _ => _ end = _ => let E := fresh "E" in destruct X as [?|  | ] eqn:E; [|discriminate|discriminate] end.

  Lemma close_op st a : st = true -> aeq a (b ")") = true -> operator st a TClose.
  Proof. intros -> H. apply aeq_iff in H. subst. now constructor. Qed.

  Lemma started_of_stop p a r : stopped p -> rest p = a :: r -> a = b ")" \/ a = b "," -> expr_started p = true.
  Proof.
    unfold stopped. intros S R C. rewrite R in S. destruct (expr_started p); [reflexivity|].
    destruct C; subst a; discriminate.
  Qed.
  Lemma skip_ok_stopped p q : skip_paths p = Ok q -> stopped q.
  Proof. intros H. destruct (skip_facts p) as (q' & Q & F). rewrite H in Q. injection Q as <-. tauto. Qed.

  Lemma sound : forall n,
    (forall p e q, parse_factor w n p = Ok (e, q) -> good factor p e q) /\
    (forall p e q, parse_term w n p = Ok (e, q) -> good term p e q) /\
    (forall p0 e0 p e q, good term p0 e0 p -> term_loop w n e0 p = Ok (e, q) -> good term p0 e q) /\
    (forall p e q, parse_clause w n p = Ok (e, q) -> good clause p e q) /\
    (forall p0 e0 p e q, good clause p0 e0 p -> clause_loop w n e0 p = Ok (e, q) -> good clause p0 e q) /\
    (forall p e q, parse_expr w n p = Ok (e, q) -> good expression p e q) /\
    (forall p0 e0 p e q, good expression p0 e0 p -> expr_loop w n e0 p = Ok (e, q) -> good expression p0 e q).
  Proof.
    induction n as [|n (IHf & IHt & IHtl & IHc & IHcl & IHe & IHel)]; [repeat split; intros; discriminate|].
    split; [|split; [|split; [|split; [|split; [|split]]]]].
    - intros p e q H. cbn [parse_factor] in H. inv H. rename a into p1. apply (good_skip_l _ _ _ _ _ E). apply skip_ok_stopped in E. clear p.
      destruct (rest p1) as [|a r] eqn:R; [discriminate|].
      destruct (aeq_spec a (b "(")) as [->|N1].
      { rewrite (adv_adv1 _ _ _ R) in H. cbn [bind] in H. inv H. destruct a as [e1 p2]. inv H. rename a into p3.
        destruct (rest p3) as [|c r'] eqn:R3; [discriminate|]. destruct (aeq c (b ")")) eqn:CL; [|discriminate].
        rewrite (adv_adv1 _ _ _ R3) in H. cbn [bind] in H. injection H as <- <-.
        apply IHe in E0.
        pose proof (good_skip_r _ _ _ _ _ E0 E1) as G. apply skip_ok_stopped in E1.
        assert (T1 : tok p1 TOpen (adv1 p1)) by (eapply tok_op; [exact R|constructor]).
        assert (T2 : tok p3 TClose (adv1 p3)).
        { eapply tok_op; [exact R3|]. apply close_op; [|exact CL]. apply aeq_iff in CL. eapply started_of_stop; eauto. }
        eapply (good_tok_l (fun x ts e ex => exists ts0, ts = ts0 ++ [TClose] /\ expression x ts0 e ex)); [exact T1| |].
        - eapply good_tok_r; [exact G|exact T2|]. cbv beta. eauto.
        - cbv beta. intros x ts ex (ts0 & -> & X). now constructor. }
      destruct (aeq_spec a (b "-exclude")) as [->|N2].
      { destruct (excluding p1) eqn:X; [discriminate|]. rewrite (adv_adv1 _ _ _ R) in H. cbn [bind] in H. inv H. destruct a as [e1 p2].
        injection H as <- <-. apply IHf in E0. destruct E0 as (ts & ex & q0 & L & F & ->). cbn [set_excluding excluding exclude adv1] in *.
        exists (TExclude :: ts), (ex ++ [e1]), (setx (excluding p1) (exclude p1) q0). rewrite X.
        split; [|split].
        - assert (T : tok p1 TExclude (adv1 p1)) by (eapply tok_op; [exact R|constructor]).
          eapply lexed_tok; [exact T|]. apply lexed_setx with (x := false) (ex := exclude p1) in L.
          assert (SX : setx false (exclude p1) (set_excluding true (adv1 p1)) = adv1 p1) by (unfold setx, set_excluding, adv1; cbn; now rewrite X).
          rewrite SX in L. exact L.
        - now constructor.
        - rewrite setx_setx. unfold add_exclude, set_excluding, setx. cbn. now rewrite app_assoc. }
      destruct (is_not a) eqn:N3.
      { rewrite (adv_adv1 _ _ _ R) in H. cbn [bind] in H. inv H. destruct a0 as [e1 p2]. injection H as <- <-.
        apply IHf in E0. eapply good_tok_l; [|exact E0|].
        - eapply tok_op; [exact R|]. apply o_not. now apply one_of_2.
        - intros. now constructor. }
      now apply good_prim.
    - intros p e q H. cbn [parse_term] in H. inv H. destruct a as [e1 p1]. apply IHf in E.
      eapply IHtl; [|exact H]. eapply good_weaken; [exact E|]. intros. now constructor.
    - intros p0 e0 p e q G H. cbn [term_loop] in H. inv H. rename a into p1. pose proof (good_skip_r _ _ _ _ _ G E) as G1.
      destruct (rest p1) as [|a r] eqn:R; [injection H as <- <-; exact G1|].
      destruct (is_or a || aeq a (b ",") || aeq a (b ")")); [injection H as <- <-; exact G1|].
      destruct (is_and a) eqn:A.
      + rewrite (adv_adv1 _ _ _ R) in H. cbn [bind] in H. inv H. destruct a0 as [e1 p2]. apply IHf in E0.
        eapply IHtl; [|exact H].
        assert (T : tok p1 TAnd (adv1 p1)) by (eapply tok_op; [exact R|apply o_and; now apply one_of_2]).
        eapply (good_seq _ (fun x ts e ex => exists ts0, ts = TAnd :: ts0 /\ factor x ts0 e ex)); [exact G1| |].
        * eapply good_tok_l; [exact T|exact E0|]. cbv beta. eauto.
        * cbv beta. intros x ts1 ex1 ts2 ex2 H1 (ts0 & -> & H2). now constructor.
      + cbn [bind] in H. inv H. destruct a0 as [e1 p2]. apply IHf in E0. eapply IHtl; [|exact H].
        eapply good_seq; [exact G1|exact E0|]. intros. now constructor.
    - intros p e q H. cbn [parse_clause] in H. inv H. destruct a as [e1 p1]. apply IHt in E.
      eapply IHcl; [|exact H]. eapply good_weaken; [exact E|]. intros. now constructor.
    - intros p0 e0 p e q G H. cbn [clause_loop] in H. inv H. rename a into p1. pose proof (good_skip_r _ _ _ _ _ G E) as G1.
      destruct (rest p1) as [|a r] eqn:R; [injection H as <- <-; exact G1|].
      destruct (is_or a) eqn:A; [|injection H as <- <-; exact G1].
      rewrite (adv_adv1 _ _ _ R) in H. cbn [bind] in H. inv H. destruct a0 as [e1 p2]. apply IHt in E0.
      eapply IHcl; [|exact H].
      assert (T : tok p1 TOr (adv1 p1)) by (eapply tok_op; [exact R|apply o_or; now apply one_of_2]).
      eapply (good_seq _ (fun x ts e ex => exists ts0, ts = TOr :: ts0 /\ term x ts0 e ex)); [exact G1| |].
      + eapply good_tok_l; [exact T|exact E0|]. cbv beta. eauto.
      + cbv beta. intros x ts1 ex1 ts2 ex2 H1 (ts0 & -> & H2). now constructor.
    - intros p e q H. cbn [parse_expr] in H. inv H. destruct a as [e1 p1]. apply IHc in E.
      eapply IHel; [|exact H]. eapply good_weaken; [exact E|]. intros. now constructor.
    - intros p0 e0 p e q G H. cbn [expr_loop] in H. inv H. rename a into p1. pose proof (good_skip_r _ _ _ _ _ G E) as G1.
      apply skip_ok_stopped in E.
      destruct (rest p1) as [|a r] eqn:R; [injection H as <- <-; exact G1|].
      destruct (aeq_spec a (b ",")) as [->|N]; [|injection H as <- <-; exact G1].
      rewrite (adv_adv1 _ _ _ R) in H. cbn [bind] in H. inv H. destruct a as [e1 p2]. apply IHc in E0.
      eapply IHel; [|exact H].
      assert (T : tok p1 TComma (adv1 p1)).
      { eapply tok_op; [exact R|]. apply o_comma. eapply started_of_stop; eauto. }
      eapply (good_seq _ (fun x ts e ex => exists ts0, ts = TComma :: ts0 /\ clause x ts0 e ex)); [exact G1| |].
      + eapply good_tok_l; [exact T|exact E0|]. cbv beta. eauto.
      + cbv beta. intros x ts1 ex1 ts2 ex2 H1 (ts0 & -> & H2). now constructor.
  Qed.
End Lex.
