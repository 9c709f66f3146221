(** * The parser accepts every expression, and always finishes *)
From Coq Require Import String List Bool Arith ZArith Lia.
From Coq Require Import Init.Byte Strings.Byte.
From Verif Require Import NumSpec GramModel GramSpec GramPrims GramFlags GramSound.
Import ListNotations.
Local Close Scope string_scope.
Local Open Scope list_scope.
Local Open Scope nat_scope.

Section Complete.
  Variable w : env.
  Hypothesis SN : sane (isspace w).

  (** ** The equations of the parser *)

  Lemma parse_factor_S fuel p : parse_factor w (S fuel) p =
    bind (skip_paths p) (fun p =>
        match rest p with
        | [] => Rejected
        | a :: _ =>
            if aeq a (b "(") then
              bind (adv BFS_OPERATOR 1 p) (fun p =>
              bind (parse_expr w fuel p) (fun '(e, p) =>
              bind (skip_paths p) (fun p =>
              match rest p with
              | [] => Rejected
              | a :: _ => if aeq a (b ")") then bind (adv BFS_OPERATOR 1 p) (fun p => Ok (e, p)) else Rejected
              end)))
            else if aeq a (b "-exclude") then
              if excluding p then Rejected
              else
                bind (adv BFS_OPERATOR 1 p) (fun p =>
                bind (parse_factor w fuel (set_excluding true p)) (fun '(e, p) =>
                Ok (Excluded, add_exclude e (set_excluding false p))))
            else if is_not a then
              bind (adv BFS_OPERATOR 1 p) (fun p =>
              bind (parse_factor w fuel p) (fun '(e, p) => Ok (Not e, p)))
            else parse_primary w p
        end).
  Proof. reflexivity. Qed.
  Lemma parse_term_S fuel p : parse_term w (S fuel) p =
    bind (parse_factor w fuel p) (fun '(e, p) => term_loop w fuel e p).
  Proof. reflexivity. Qed.
  Lemma term_loop_S fuel e p : term_loop w (S fuel) e p =
    bind (skip_paths p) (fun p =>
        match rest p with
        | [] => Ok (e, p)
        | a :: _ =>
            if is_or a || aeq a (b ",") || aeq a (b ")") then Ok (e, p)
            else
              bind (if is_and a then adv BFS_OPERATOR 1 p else Ok p) (fun p =>
              bind (parse_factor w fuel p) (fun '(r, p) => term_loop w fuel (And e r) p))
        end).
  Proof. reflexivity. Qed.
  Lemma parse_clause_S fuel p : parse_clause w (S fuel) p =
    bind (parse_term w fuel p) (fun '(e, p) => clause_loop w fuel e p).
  Proof. reflexivity. Qed.
  Lemma clause_loop_S fuel e p : clause_loop w (S fuel) e p =
    bind (skip_paths p) (fun p =>
        match rest p with
        | [] => Ok (e, p)
        | a :: _ =>
            if is_or a then
              bind (adv BFS_OPERATOR 1 p) (fun p =>
              bind (parse_term w fuel p) (fun '(r, p) => clause_loop w fuel (Or e r) p))
            else Ok (e, p)
        end).
  Proof. reflexivity. Qed.
  Lemma parse_expr_S fuel p : parse_expr w (S fuel) p =
    bind (parse_clause w fuel p) (fun '(e, p) => expr_loop w fuel e p).
  Proof. reflexivity. Qed.
  Lemma expr_loop_S fuel e p : expr_loop w (S fuel) e p =
    bind (skip_paths p) (fun p =>
        match rest p with
        | [] => Ok (e, p)
        | a :: _ =>
            if aeq a (b ",") then
              bind (adv BFS_OPERATOR 1 p) (fun p =>
              bind (parse_clause w fuel p) (fun '(r, p) => expr_loop w fuel (Comma e r) p))
            else Ok (e, p)
        end).
  Proof. reflexivity. Qed.

  (** ** Fuel *)

  Definition le_res {A} (x y : result A) : Prop := x = Stuck \/ x = y.
  Lemma le_refl {A} (x : result A) : le_res x x.
  Proof. now right. Qed.
  Lemma le_bind {A B} (x y : result A) (f g : A -> result B) :
    le_res x y -> (forall a, le_res (f a) (g a)) -> le_res (bind x f) (bind y g).
  Proof.
    intros [-> | ->] H; [now left|]. destruct y as [a| |]; cbn [bind]; [apply H|now right|now right].
  Qed.
  Lemma le_bind2 {A B C} (x y : result (A * B)) (f g : A -> B -> result C) :
    le_res x y -> (forall a c, le_res (f a c) (g a c)) ->
    le_res (bind x (fun '(a, c) => f a c)) (bind y (fun '(a, c) => g a c)).
  Proof. intros X H. apply le_bind; [exact X|]. intros [a c]. apply H. Qed.

  Ltac mono := repeat first
    [ apply le_refl | assumption | solve [auto]
    | apply le_bind2; [|intros]
    | apply le_bind; [|intros]
    | match goal with |- le_res (match ?x with _ => _ end) (match ?x with _ => _ end) => destruct x end
    | match goal with |- le_res (if ?x then _ else _) (if ?x then _ else _) => destruct x end ].

  Definition all_le (n m : nat) : Prop :=
    (forall p, le_res (parse_factor w n p) (parse_factor w m p)) /\
    (forall p, le_res (parse_term w n p) (parse_term w m p)) /\
    (forall e p, le_res (term_loop w n e p) (term_loop w m e p)) /\
    (forall p, le_res (parse_clause w n p) (parse_clause w m p)) /\
    (forall e p, le_res (clause_loop w n e p) (clause_loop w m e p)) /\
    (forall p, le_res (parse_expr w n p) (parse_expr w m p)) /\
    (forall e p, le_res (expr_loop w n e p) (expr_loop w m e p)).
  Lemma more_fuel n : forall m, n <= m -> all_le n m.
  Proof.
    induction n as [|n IH]; intros m L; [repeat split; intros; now left|].
    destruct m as [|m]; [lia|]. destruct (IH m ltac:(lia)) as (F & T & TL & C & CL & E & EL). clear IH L.
    split; [|split; [|split; [|split; [|split; [|split]]]]].
    - intros p. rewrite ?parse_factor_S. mono.
    - intros p. rewrite ?parse_term_S. mono.
    - intros e p. rewrite ?term_loop_S. mono.
    - intros p. rewrite ?parse_clause_S. mono.
    - intros e p. rewrite ?clause_loop_S. mono.
    - intros p. rewrite ?parse_expr_S. mono.
    - intros e p. rewrite ?expr_loop_S. mono.
  Qed.

  (** ** The parser finishes *)

  Definition fine (l : nat) (r : result (expr * parser)) : Prop :=
    match r with Ok (_, q) => length (rest q) < l | Rejected => True | Stuck => False end.

  Lemma fine_prim p a r : rest p = a :: r -> fine (length (rest p)) (parse_primary w p).
  Proof.
    intros R. destruct (prim_cases w p a r SN R) as [C|(names & args & after & RA & P & A & X & C)]; rewrite C; [exact I|].
    cbn [fine moved rest]. destruct (primary_word w _ _ _ SN P) as (a' & more & -> & _). rewrite RA, skipn_length, app_length. cbn [length]. lia.
  Qed.

  Lemma finishes n :
    (forall p, 8 * length (rest p) + 1 <= n -> fine (length (rest p)) (parse_factor w n p)) /\
    (forall p, 8 * length (rest p) + 2 <= n -> fine (length (rest p)) (parse_term w n p)) /\
    (forall e p, 8 * length (rest p) + 2 <= n -> fine (S (length (rest p))) (term_loop w n e p)) /\
    (forall p, 8 * length (rest p) + 3 <= n -> fine (length (rest p)) (parse_clause w n p)) /\
    (forall e p, 8 * length (rest p) + 1 <= n -> fine (S (length (rest p))) (clause_loop w n e p)) /\
    (forall p, 8 * length (rest p) + 4 <= n -> fine (length (rest p)) (parse_expr w n p)) /\
    (forall e p, 8 * length (rest p) + 1 <= n -> fine (S (length (rest p))) (expr_loop w n e p)).
  Proof.
    assert (AD : forall p a r, rest p = a :: r -> length (rest (adv1 p)) = length r) by (intros p a r R; cbn [adv1 rest]; now rewrite R).
    induction n as [|n (F & T & TL & C & CL & E & EL)]; [repeat split; intros; lia|].
    split; [|split; [|split; [|split; [|split; [|split]]]]].
    - intros p L. rewrite ?parse_factor_S. destruct (skip_facts p) as (p1 & -> & _ & LE & _). cbn [bind].
      destruct (rest p1) as [|a r] eqn:R; [exact I|]. cbn [length] in LE.
      assert (FA : fine (length r) (parse_factor w n (adv1 p1))) by (rewrite <- (AD _ _ _ R); apply F; rewrite (AD _ _ _ R); lia).
      destruct (aeq a (b "(")).
      { rewrite (adv_adv1 _ _ _ R). cbn [bind]. specialize (E (adv1 p1)). rewrite (AD _ _ _ R) in E. specialize (E ltac:(lia)).
        destruct (parse_expr w n (adv1 p1)) as [[e q]| |]; [|exact I|exact E]. cbn [fine bind] in *.
        destruct (skip_facts q) as (q1 & -> & _ & LQ & _). cbn [bind]. destruct (rest q1) as [|c r'] eqn:R1; [exact I|].
        destruct (aeq c (b ")")); [|exact I]. rewrite (adv_adv1 _ _ _ R1). cbn [bind fine]. rewrite (AD _ _ _ R1). cbn [length] in LQ. lia. }
      destruct (aeq a (b "-exclude")).
      { destruct (excluding p1); [exact I|]. rewrite (adv_adv1 _ _ _ R). cbn [bind].
        specialize (F (set_excluding true (adv1 p1))). change (rest (set_excluding true (adv1 p1))) with (rest (adv1 p1)) in F. rewrite (AD _ _ _ R) in F. specialize (F ltac:(lia)).
        destruct (parse_factor w n (set_excluding true (adv1 p1))) as [[e q]| |]; [|exact I|exact F]. cbn [fine bind] in *. cbn [add_exclude set_excluding rest]. lia. }
      destruct (is_not a).
      { rewrite (adv_adv1 _ _ _ R). cbn [bind]. destruct (parse_factor w n (adv1 p1)) as [[e q]| |]; [|exact I|exact FA]. cbn [fine bind] in *. lia. }
      pose proof (fine_prim p1 a r R) as FP. rewrite R in FP. cbn [length] in FP. destruct (parse_primary w p1) as [[e q]| |]; [|exact I|exact FP]. cbn [fine] in *. lia.
    - intros p L. rewrite ?parse_term_S. specialize (F p ltac:(lia)). destruct (parse_factor w n p) as [[e q]| |]; [|exact I|exact F]. cbn [bind fine] in *.
      specialize (TL e q ltac:(lia)). destruct (term_loop w n e q) as [[e' q']| |]; [|exact I|exact TL]. cbn [fine] in *. lia.
    - intros e p L. rewrite ?term_loop_S. destruct (skip_facts p) as (p1 & -> & _ & LE & _). cbn [bind].
      destruct (rest p1) as [|a r] eqn:R; [cbn [fine]; rewrite R; cbn [length]; lia|]. cbn [length] in LE.
      destruct (is_or a || aeq a (b ",") || aeq a (b ")")); [cbn [fine]; rewrite R; cbn [length]; lia|].
      assert (X : exists p2, (if is_and a then adv BFS_OPERATOR 1 p1 else Ok p1) = Ok p2 /\ length (rest p2) <= length (rest p)).
      { destruct (is_and a).
        - exists (adv1 p1). rewrite (adv_adv1 _ _ _ R), (AD _ _ _ R). split; [reflexivity|lia].
        - exists p1. rewrite R. split; [reflexivity|exact LE]. }
      destruct X as (p2 & -> & L2). cbn [bind]. specialize (F p2 ltac:(lia)).
      destruct (parse_factor w n p2) as [[r1 q]| |]; [|exact I|exact F]. cbn [bind fine] in *.
      specialize (TL (And e r1) q ltac:(lia)). destruct (term_loop w n (And e r1) q) as [[e' q']| |]; [|exact I|exact TL]. cbn [fine] in *. lia.
    - intros p L. rewrite ?parse_clause_S. specialize (T p ltac:(lia)). destruct (parse_term w n p) as [[e q]| |]; [|exact I|exact T]. cbn [bind fine] in *.
      specialize (CL e q ltac:(lia)). destruct (clause_loop w n e q) as [[e' q']| |]; [|exact I|exact CL]. cbn [fine] in *. lia.
    - intros e p L. rewrite ?clause_loop_S. destruct (skip_facts p) as (p1 & -> & _ & LE & _). cbn [bind].
      destruct (rest p1) as [|a r] eqn:R; [cbn [fine]; rewrite R; cbn [length]; lia|]. cbn [length] in LE.
      destruct (is_or a); [|cbn [fine]; rewrite R; cbn [length]; lia].
      rewrite (adv_adv1 _ _ _ R). cbn [bind]. specialize (T (adv1 p1)). rewrite (AD _ _ _ R) in T. specialize (T ltac:(lia)).
      destruct (parse_term w n (adv1 p1)) as [[r1 q]| |]; [|exact I|exact T]. cbn [bind fine] in *.
      specialize (CL (Or e r1) q ltac:(lia)). destruct (clause_loop w n (Or e r1) q) as [[e' q']| |]; [|exact I|exact CL]. cbn [fine] in *. lia.
    - intros p L. rewrite ?parse_expr_S. specialize (C p ltac:(lia)). destruct (parse_clause w n p) as [[e q]| |]; [|exact I|exact C]. cbn [bind fine] in *.
      specialize (EL e q ltac:(lia)). destruct (expr_loop w n e q) as [[e' q']| |]; [|exact I|exact EL]. cbn [fine] in *. lia.
    - intros e p L. rewrite ?expr_loop_S. destruct (skip_facts p) as (p1 & -> & _ & LE & _). cbn [bind].
      destruct (rest p1) as [|a r] eqn:R; [cbn [fine]; rewrite R; cbn [length]; lia|]. cbn [length] in LE.
      destruct (aeq a (b ",")); [|cbn [fine]; rewrite R; cbn [length]; lia].
      rewrite (adv_adv1 _ _ _ R). cbn [bind]. specialize (C (adv1 p1)). rewrite (AD _ _ _ R) in C. specialize (C ltac:(lia)).
      destruct (parse_clause w n (adv1 p1)) as [[r1 q]| |]; [|exact I|exact C]. cbn [bind fine] in *.
      specialize (EL (Comma e r1) q ltac:(lia)). destruct (expr_loop w n (Comma e r1) q) as [[e' q']| |]; [|exact I|exact EL]. cbn [fine] in *. lia.
  Qed.

  (** ** Expressions are accepted *)

  Inductive chain : parser -> list token -> parser -> Prop :=
  | chain_nil p q : skip_paths p = Ok q -> chain p [] q
  | chain_cons p p1 t p2 ts q : skip_paths p = Ok p1 -> tok w p1 t p2 -> chain p2 ts q -> chain p (t :: ts) q.

  Lemma chain_stopped p ts q : chain p ts q -> stopped q.
  Proof. induction 1; [eapply skip_ok_stopped; eassumption|assumption]. Qed.
  Lemma chain_app ts1 : forall p ts2 q, chain p (ts1 ++ ts2) q -> exists m, chain p ts1 m /\ chain m ts2 q /\ stopped m.
  Proof.
    induction ts1 as [|t ts1 IH]; intros p ts2 q H; cbn [app] in H.
    - destruct (skip_facts p) as (m & S & ST & _). exists m. split; [now constructor|]. split; [|exact ST].
      destruct H as [p q S'|p p1 t p2 ts q S' T H].
      + constructor. rewrite S in S'. injection S' as <-. now apply skip_stopped.
      + rewrite S in S'. injection S' as <-. eapply chain_cons; [now apply skip_stopped|exact T|exact H].
    - inversion H as [|? p1 ? p2 ? ? S T C]; subst. apply IH in C. destruct C as (m & C1 & C2 & ST). exists m.
      split; [|split; assumption]. eapply chain_cons; eassumption.
  Qed.
  Lemma chain_setx p ts q x ex : chain p ts q -> chain (setx x ex p) ts (setx x ex q).
  Proof.
    induction 1 as [p q S|p p1 t p2 ts q S T H IH].
    - constructor. now apply skip_setx.
    - eapply chain_cons; [apply skip_setx; exact S|apply tok_setx; exact T|exact IH].
  Qed.
  Lemma chain_same p ts q : chain p ts q -> excluding q = excluding p /\ exclude q = exclude p.
  Proof.
    induction 1 as [p q S|p p1 t p2 ts q S T H [IH1 IH2]].
    - now apply skip_same.
    - apply skip_same in S. apply tok_same in T. destruct S, T. split; congruence.
  Qed.

  Definition head (P : arg -> Prop) (p : parser) : Prop := exists a r, rest p = a :: r /\ P a.
  Definition ends (a : arg) : Prop := a = b "," \/ a = b ")".
  Definition follow_t (p : parser) : Prop := rest p = [] \/ head (fun a => is_or a = true \/ ends a) p.
  Definition follow_c (p : parser) : Prop := rest p = [] \/ head ends p.
  Lemma follow_ct p : follow_c p -> follow_t p.
  Proof. intros [H|(a & r & R & H)]; [now left|]. right. exists a, r. tauto. Qed.

  Lemma tok_op_inv p t q : tok w p t q -> (forall names args, t <> TPrim names args) ->
    exists a r, rest p = a :: r /\ operator (expr_started p) a t /\ q = adv1 p.
  Proof. intros T N. inversion T as [? a r ? R O|]; subst; [eauto|]. now destruct (N names args). Qed.

  (** The words that a factor can begin with *)
  Definition starter (a : arg) : Prop :=
    is_or a = false /\ is_and a = false /\ aeq a (b ",") = false /\ aeq a (b ")") = false.
  Lemma not_2 x y a : a <> b x -> a <> b y -> aeq a (b x) || aeq a (b y) = false.
  Proof. intros H1 H2. rewrite orb_false_iff. split; apply Bool.not_true_iff_false; now rewrite aeq_iff. Qed.
  Lemma prim_starter a more names args after : primary w after names args -> args = a :: more ->
    starter a /\ a <> b "(" /\ a <> b "-exclude" /\ is_not a = false.
  Proof.
    intros P E. destruct (primary_word w _ _ _ SN P) as (a' & more' & E' & H & N & O). rewrite E in E'. injection E' as <- <-.
    assert (O' : forall s, In s operators -> a <> b s) by (intros s I ->; apply O; unfold one_of; now apply in_map).
    assert (D : forall s, hd_error (b s) <> Some x2d -> a <> b s) by (intros s X ->; congruence).
    unfold starter, is_or, is_and, is_not.
    split; [split; [|split; [|split]]|split; [|split]].
    - apply not_2; apply O'; cbn; tauto.
    - apply not_2; apply O'; cbn; tauto.
    - apply Bool.not_true_iff_false. rewrite aeq_iff. apply D. discriminate.
    - apply Bool.not_true_iff_false. rewrite aeq_iff. apply D. discriminate.
    - apply D. discriminate.
    - apply O'. cbn. tauto.
    - apply not_2; [apply D; discriminate|apply O'; cbn; tauto].
  Qed.
  Lemma op_starter st a t : operator st a t -> t = TOpen \/ t = TNot \/ t = TExclude -> starter a.
  Proof.
    intros O [-> | [-> | ->]]; inversion O as [|?|a' I|?|?|?|]; subst; try (repeat split; reflexivity).
    unfold one_of in I. cbn [map In] in I. destruct I as [<-|[<-|[]]]; repeat split; reflexivity.
  Qed.
  Definition begins_factor (ts : list token) : Prop :=
    match ts with TPrim _ _ :: _ | TOpen :: _ | TNot :: _ | TExclude :: _ => True | _ => False end.
  Lemma factor_begins x ts e ex : factor x ts e ex -> begins_factor ts.
  Proof. destruct 1; exact I. Qed.
  Lemma chain_starter p ts q : chain p ts q -> begins_factor ts -> forall p1, skip_paths p = Ok p1 -> head starter p1.
  Proof.
    intros C B p1 S. destruct C as [|p p1' t p2 ts q S' T C]; [destruct B|]. rewrite S in S'. injection S' as <-.
    destruct T as [p0 a r t R O|p0 names args after R P A].
    - exists a, r. split; [exact R|]. eapply op_starter; [exact O|]. cbn in B. destruct t; try tauto. inversion O.
    - destruct (primary_word w _ _ _ SN P) as (a & more & -> & _). exists a, (more ++ after). split; [exact R|].
      eapply prim_starter; [exact P|reflexivity].
  Qed.

  Scheme factor_mut := Minimality for factor Sort Prop
    with term_mut := Minimality for term Sort Prop
    with clause_mut := Minimality for clause Sort Prop
    with expression_mut := Minimality for expression Sort Prop.
  Combined Scheme grammar_ind from factor_mut, term_mut, clause_mut, expression_mut.

  Definition reached (p : parser) (ex : list expr) (q m : parser) : Prop :=
    skip_paths q = Ok (setx (excluding p) (exclude p ++ ex) m).

  Lemma reached_stopped p ex q m : stopped (setx (excluding p) (exclude p ++ ex) m) -> q = setx (excluding p) (exclude p ++ ex) m -> reached p ex q m.
  Proof. intros S ->. now apply skip_stopped. Qed.

  (** The loops end where they should. *)
  Lemma term_stops p ex q m e n : reached p ex q m -> follow_t m -> term_loop w (S n) e q = Ok (e, setx (excluding p) (exclude p ++ ex) m).
  Proof.
    intros R F. rewrite ?term_loop_S. rewrite R. cbn [bind setx rest]. destruct F as [F|(a & r & E & F)].
    - now rewrite F.
    - rewrite E. assert (X : is_or a || aeq a (b ",") || aeq a (b ")") = true).
      { rewrite !orb_true_iff, !aeq_iff. unfold ends in F. tauto. }
      now rewrite X.
  Qed.
  Lemma clause_stops p ex q m e n : reached p ex q m -> follow_c m -> clause_loop w (S n) e q = Ok (e, setx (excluding p) (exclude p ++ ex) m).
  Proof.
    intros R F. rewrite ?clause_loop_S. rewrite R. cbn [bind setx rest]. destruct F as [F|(a & r & E & F)].
    - now rewrite F.
    - rewrite E. destruct F as [-> | ->]; reflexivity.
  Qed.
  Definition follow_e (p : parser) : Prop := rest p = [] \/ head (fun a => a = b ")") p.
  Lemma expr_stops p ex q m e n : reached p ex q m -> follow_e m -> expr_loop w (S n) e q = Ok (e, setx (excluding p) (exclude p ++ ex) m).
  Proof.
    intros R F. rewrite ?expr_loop_S. rewrite R. cbn [bind setx rest]. destruct F as [F|(a & r & E & ->)].
    - now rewrite F.
    - rewrite E. reflexivity.
  Qed.

  Lemma complete :
    (forall x ts e ex, factor x ts e ex -> forall p m, chain p ts m -> excluding p = x ->
       exists N q, (forall n, N <= n -> parse_factor w n p = Ok (e, q)) /\ reached p ex q m) /\
    (forall x ts e ex, term x ts e ex -> forall p m, chain p ts m -> excluding p = x ->
       exists N k q, (forall n, N <= n -> parse_term w (n + k) p = term_loop w n e q) /\ reached p ex q m) /\
    (forall x ts e ex, clause x ts e ex -> forall p m, chain p ts m -> excluding p = x -> follow_t m ->
       exists N k q, (forall n, N <= n -> parse_clause w (n + k) p = clause_loop w n e q) /\ reached p ex q m) /\
    (forall x ts e ex, expression x ts e ex -> forall p m, chain p ts m -> excluding p = x -> follow_c m ->
       exists N k q, (forall n, N <= n -> parse_expr w (n + k) p = expr_loop w n e q) /\ reached p ex q m).
  Proof.
    apply grammar_ind.
    - (* primary *)
      intros x names args HA p m C X. inversion C as [|? p1 ? p2 ? ? SK T C']; subst. inversion C' as [? ? S2|]; subst.
      inversion T as [? ? ? ? ? O|? ? ? after R P A]; subst; [inversion O|].
      pose proof (skip_same _ _ SK) as [X1 X2].
      destruct (primary_word w _ _ _ SN P) as (a & more & -> & _).
      destruct (prim_starter a more _ _ _ P eq_refl) as (ST & N1 & N2 & N3).
      exists 1, (moved names (a :: more) p1). split.
      + intros n L. destruct n as [|n]; [lia|]. rewrite ?parse_factor_S. rewrite SK. cbn [bind]. rewrite R. cbn [app].
        assert (F1 : aeq a (b "(") = false) by (apply Bool.not_true_iff_false; now rewrite aeq_iff).
        assert (F2 : aeq a (b "-exclude") = false) by (apply Bool.not_true_iff_false; now rewrite aeq_iff).
        rewrite F1, F2, N3. apply prim_complete with after; try assumption. now rewrite X1.
      + unfold reached. rewrite <- X1, <- X2, moved_lex. apply skip_setx. exact S2.
    - (* parentheses *)
      intros x ts e ex HE IH p m C X. inversion C as [|? p1 ? p2 ? ? SK T C']; subst.
      apply tok_op_inv in T; [|discriminate]. destruct T as (a & r & R & O & ->). inversion O; subst.
      pose proof (skip_same _ _ SK) as [X1 X2].
      apply chain_app in C'. destruct C' as (m1 & C1 & C2 & ST).
      inversion C2 as [|? m1' ? m2 ? ? S2 T2 C3]; subst. rewrite (skip_stopped _ ST) in S2. injection S2 as <-.
      apply tok_op_inv in T2; [|discriminate]. destruct T2 as (a & r2 & R2 & O2 & ->). inversion O2; subst.
      inversion C3 as [? ? S3|]; subst.
      destruct (IH (adv1 p1) m1 C1 X1) as (N & k & q & HP & RE).
      { right. exists (b ")"), r2. split; [exact R2|now right]. }
      unfold reached in RE. change (excluding (adv1 p1)) with (excluding p1) in RE. change (exclude (adv1 p1)) with (exclude p1) in RE.
      set (m1x := setx (excluding p1) (exclude p1 ++ ex) m1) in *.
      exists (S (S N + k)), (adv1 m1x). split.
      + intros n L. destruct n as [|n]; [lia|]. rewrite ?parse_factor_S. rewrite SK. cbn [bind]. rewrite R.
        replace (aeq (b "(") (b "(")) with true by reflexivity. rewrite (adv_adv1 _ _ _ R). cbn [bind].
        replace n with (S (n - k - 1) + k) by lia. rewrite HP by lia.
        rewrite (expr_stops (adv1 p1) ex q m1); [|exact RE|right; exists (b ")"), r2; split; [exact R2|reflexivity]].
        change (setx (excluding (adv1 p1)) (exclude (adv1 p1) ++ ex) m1) with m1x. cbn [bind].
        rewrite (skip_stopped m1x) by exact ST. cbn [bind]. change (rest m1x) with (rest m1). rewrite R2.
        replace (aeq (b ")") (b ")")) with true by reflexivity. rewrite (adv_adv1 m1x _ _ R2). reflexivity.
      + unfold reached. rewrite <- X1, <- X2. unfold m1x.
        change (adv1 (setx (excluding p1) (exclude p1 ++ ex) m1)) with (setx (excluding p1) (exclude p1 ++ ex) (adv1 m1)). apply skip_setx. exact S3.
    - (* not *)
      intros x ts e ex HF IH p m C X. inversion C as [|? p1 ? p2 ? ? SK T C']; subst.
      apply tok_op_inv in T; [|discriminate]. destruct T as (a & r & R & O & ->).
      pose proof (skip_same _ _ SK) as [X1 X2].
      assert (NA : aeq a (b "(") = false /\ aeq a (b "-exclude") = false /\ is_not a = true).
      { inversion O as [| |a' I| | | |]; subst. unfold one_of in I. cbn [map In] in I. destruct I as [<-|[<-|[]]]; repeat split; reflexivity. }
      destruct NA as (F1 & F2 & F3). destruct (IH (adv1 p1) m C' X1) as (N & q & HP & RE).
      exists (S N), q. split.
      + intros n L. destruct n as [|n]; [lia|]. rewrite ?parse_factor_S. rewrite SK. cbn [bind]. rewrite R, F1, F2, F3, (adv_adv1 _ _ _ R). cbn [bind].
        rewrite HP by lia. reflexivity.
      + unfold reached in *. rewrite <- X1, <- X2. exact RE.
    - (* exclude *)
      intros ts e ex HF IH p m C X. inversion C as [|? p1 ? p2 ? ? SK T C']; subst.
      apply tok_op_inv in T; [|discriminate]. destruct T as (a & r & R & O & ->). inversion O; subst.
      pose proof (skip_same _ _ SK) as [X1 X2].
      destruct (IH (set_excluding true (adv1 p1)) (setx true (exclude p1) m)) as (N & q & HP & RE).
      { change (set_excluding true (adv1 p1)) with (setx true (exclude p1) (adv1 p1)). now apply chain_setx. }
      { reflexivity. }
      unfold reached in RE. cbn [set_excluding excluding exclude adv1] in RE. rewrite setx_setx in RE.
      exists (S N), (setx false (exclude q ++ [e]) q). split.
      + intros n L. destruct n as [|n]; [lia|]. rewrite ?parse_factor_S. rewrite SK. cbn [bind]. rewrite R.
        replace (aeq (b "-exclude") (b "(")) with false by reflexivity. replace (aeq (b "-exclude") (b "-exclude")) with true by reflexivity.
        rewrite X1, X, (adv_adv1 _ _ _ R). cbn [bind]. rewrite HP by lia. reflexivity.
      + unfold reached. rewrite X, <- X2. pose proof (skip_same _ _ RE) as [_ E2]. cbn [setx exclude] in E2. rewrite app_assoc, E2.
        apply skip_setx with (x := false) (ex := exclude q ++ [e]) in RE. rewrite setx_setx in RE. exact RE.
    - (* a factor is a term *)
      intros x ts e ex HF IH p m C X. destruct (IH p m C X) as (N & q & HP & RE). exists N, 1, q. split; [|exact RE].
      intros n L. rewrite Nat.add_1_r. rewrite ?parse_term_S. rewrite HP by exact L. reflexivity.
    - (* implicit and *)
      intros x ts1 l ex1 ts2 r ex2 HT IH1 HF IH2 p m C X. apply chain_app in C. destruct C as (m1 & C1 & C2 & ST).
      destruct (IH1 p m1 C1 X) as (N1 & k & q1 & HP1 & RE1). pose proof (chain_same _ _ _ C1) as [X1 X2].
      pose proof (chain_starter _ _ _ C2 (factor_begins _ _ _ _ HF) m1 (skip_stopped _ ST)) as (a & rr & R & (S1 & S2 & S3 & S4)).
      unfold reached in RE1. set (m1x := setx (excluding p) (exclude p ++ ex1) m1) in *.
      destruct (IH2 m1x (setx (excluding p) (exclude p ++ ex1) m)) as (N2 & q2 & HP2 & RE2).
      { now apply chain_setx. }
      { exact X. }
      exists (max N1 N2), (S k), q2. split.
      + intros n L. replace (n + S k) with (S n + k) by lia. rewrite HP1 by lia. rewrite ?term_loop_S. rewrite RE1. cbn [bind].
        change (rest m1x) with (rest m1). rewrite R, S1, S2, S3, S4. cbn [orb bind]. rewrite HP2 by lia. reflexivity.
      + unfold reached in *. rewrite RE2. cbn [m1x setx excluding exclude]. now rewrite setx_setx, app_assoc.
    - (* and *)
      intros x ts1 l ex1 ts2 r ex2 HT IH1 HF IH2 p m C X. apply chain_app in C. destruct C as (m1 & C1 & C2 & ST).
      destruct (IH1 p m1 C1 X) as (N1 & k & q1 & HP1 & RE1). pose proof (chain_same _ _ _ C1) as [X1 X2].
      inversion C2 as [|? m1' ? m2 ? ? S2 T2 C3]; subst. rewrite (skip_stopped _ ST) in S2. injection S2 as <-.
      apply tok_op_inv in T2; [|discriminate]. destruct T2 as (a & rr & R & O & ->).
      assert (NA : is_or a = false /\ aeq a (b ",") = false /\ aeq a (b ")") = false /\ is_and a = true).
      { inversion O as [| | |a' I| | |]; subst. unfold one_of in I. cbn [map In] in I. destruct I as [<-|[<-|[]]]; repeat split; reflexivity. }
      destruct NA as (F1 & F2 & F3 & F4).
      unfold reached in RE1. set (m1x := setx (excluding p) (exclude p ++ ex1) m1) in *.
      destruct (IH2 (adv1 m1x) (setx (excluding p) (exclude p ++ ex1) m)) as (N2 & q2 & HP2 & RE2).
      { unfold m1x. change (adv1 (setx (excluding p) (exclude p ++ ex1) m1)) with (setx (excluding p) (exclude p ++ ex1) (adv1 m1)). now apply chain_setx. }
      { reflexivity. }
      exists (max N1 N2), (S k), q2. split.
      + intros n L. replace (n + S k) with (S n + k) by lia. rewrite HP1 by lia. rewrite ?term_loop_S. rewrite RE1. cbn [bind].
        change (rest m1x) with (rest m1). rewrite R, F1, F2, F3, F4. cbn [orb bind]. rewrite (adv_adv1 m1x _ _ R). cbn [bind]. rewrite HP2 by lia. reflexivity.
      + unfold reached in *. rewrite RE2. cbn [m1x setx excluding exclude adv1]. now rewrite setx_setx, app_assoc.
    - (* a term is a clause *)
      intros x ts e ex HT IH p m C X F. destruct (IH p m C X) as (N & k & q & HP & RE).
      exists (S N + k), 1, (setx (excluding p) (exclude p ++ ex) m). split.
      + intros n L. rewrite Nat.add_1_r. rewrite ?parse_clause_S. replace n with (S (n - k - 1) + k) at 1 by lia. rewrite HP by lia.
        rewrite (term_stops p ex q m) by assumption. reflexivity.
      + apply skip_stopped. exact (chain_stopped _ _ _ C).
    - (* or *)
      intros x ts1 l ex1 ts2 r ex2 HC IH1 HT IH2 p m C X F. apply chain_app in C. destruct C as (m1 & C1 & C2 & ST).
      inversion C2 as [|? m1' ? m2 ? ? S2 T2 C3]; subst. rewrite (skip_stopped _ ST) in S2. injection S2 as <-.
      apply tok_op_inv in T2; [|discriminate]. destruct T2 as (a & rr & R & O & ->).
      assert (NA : is_or a = true).
      { inversion O as [| | | |a' I| |]; subst. unfold one_of in I. cbn [map In] in I. destruct I as [<-|[<-|[]]]; reflexivity. }
      destruct (IH1 p m1 C1 eq_refl) as (N1 & k & q1 & HP1 & RE1).
      { right. exists a, rr. split; [exact R|now left]. }
      unfold reached in RE1. set (m1x := setx (excluding p) (exclude p ++ ex1) m1) in *.
      destruct (IH2 (adv1 m1x) (setx (excluding p) (exclude p ++ ex1) m)) as (N2 & k2 & q2 & HP2 & RE2).
      { unfold m1x. change (adv1 (setx (excluding p) (exclude p ++ ex1) m1)) with (setx (excluding p) (exclude p ++ ex1) (adv1 m1)). now apply chain_setx. }
      { reflexivity. }
      exists (S (N1 + N2 + k2)), (S k), (setx (excluding p) (exclude p ++ ex1 ++ ex2) m). split.
      + intros n L. replace (n + S k) with (S n + k) by lia. rewrite HP1 by lia. rewrite ?clause_loop_S. rewrite RE1. cbn [bind].
        change (rest m1x) with (rest m1). rewrite R, NA, (adv_adv1 m1x _ _ R). cbn [bind].
        replace (parse_term w n (adv1 m1x)) with (parse_term w (S (n - k2 - 1) + k2) (adv1 m1x)) by (f_equal; lia). rewrite HP2 by lia.
        rewrite (term_stops (adv1 m1x) ex2 q2 (setx (excluding p) (exclude p ++ ex1) m)) by assumption.
        cbn [bind m1x setx excluding exclude adv1]. now rewrite setx_setx, <- app_assoc.
      + apply skip_stopped. exact (chain_stopped _ _ _ C3).
    - (* a clause is an expression *)
      intros x ts e ex HT IH p m C X F. destruct (IH p m C X (follow_ct _ F)) as (N & k & q & HP & RE).
      exists (S N + k), 1, (setx (excluding p) (exclude p ++ ex) m). split.
      + intros n L. rewrite Nat.add_1_r. rewrite ?parse_expr_S. replace n with (S (n - k - 1) + k) at 1 by lia. rewrite HP by lia.
        rewrite (clause_stops p ex q m) by assumption. reflexivity.
      + apply skip_stopped. exact (chain_stopped _ _ _ C).
    - (* comma *)
      intros x ts1 l ex1 ts2 r ex2 HC IH1 HT IH2 p m C X F. apply chain_app in C. destruct C as (m1 & C1 & C2 & ST).
      inversion C2 as [|? m1' ? m2 ? ? S2 T2 C3]; subst. rewrite (skip_stopped _ ST) in S2. injection S2 as <-.
      apply tok_op_inv in T2; [|discriminate]. destruct T2 as (a & rr & R & O & ->). inversion O; subst.
      destruct (IH1 p m1 C1 eq_refl) as (N1 & k & q1 & HP1 & RE1).
      { right. exists (b ","), rr. split; [exact R|now left]. }
      unfold reached in RE1. set (m1x := setx (excluding p) (exclude p ++ ex1) m1) in *.
      destruct (IH2 (adv1 m1x) (setx (excluding p) (exclude p ++ ex1) m)) as (N2 & k2 & q2 & HP2 & RE2).
      { unfold m1x. change (adv1 (setx (excluding p) (exclude p ++ ex1) m1)) with (setx (excluding p) (exclude p ++ ex1) (adv1 m1)). now apply chain_setx. }
      { reflexivity. }
      { now apply follow_ct. }
      exists (S (N1 + N2 + k2)), (S k), (setx (excluding p) (exclude p ++ ex1 ++ ex2) m). split.
      + intros n L. replace (n + S k) with (S n + k) by lia. rewrite HP1 by lia. rewrite ?expr_loop_S. rewrite RE1. cbn [bind].
        change (rest m1x) with (rest m1). rewrite R. replace (aeq (b ",") (b ",")) with true by reflexivity. rewrite (adv_adv1 m1x _ _ R). cbn [bind].
        replace (parse_clause w n (adv1 m1x)) with (parse_clause w (S (n - k2 - 1) + k2) (adv1 m1x)) by (f_equal; lia). rewrite HP2 by lia.
        rewrite (clause_stops (adv1 m1x) ex2 q2 (setx (excluding p) (exclude p ++ ex1) m)) by assumption.
        cbn [bind m1x setx excluding exclude adv1]. now rewrite setx_setx, <- app_assoc.
      + apply skip_stopped. exact (chain_stopped _ _ _ C3).
  Qed.
End Complete.
