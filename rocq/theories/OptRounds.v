(** * Soundness of the optimizer at -O2 and above *)
From Coq Require Import List ZArith QArith Bool Lia.
From Verif Require Import ExprModel ExprSpec ExprProofs OptModel OptSpec OptEval OptSim OptPasses OptSimplify
  OptDomain OptTidy OptFlow.
Import ListNotations.
Local Open Scope nat_scope.

Section OptRounds.
  Context {F : Type}.
  Variable fo : float_ops F.
  Variable level : nat.
  Hypothesis level2 : 2 <= level.
  Variable udb gdb : Z -> option bool.
  Variable f : file.
  Variable u : size_unit.
  Variable b : behaviour.
  Hypothesis f_wf : wf_file f.
  Hypothesis b_about : about f b.
  Notation expr := (expr F).
  Notation tame := (tame level udb gdb f u).
  Notation sat := (sat f u).
  Notation ok := (@ok F level).
  Notation neat := (@neat F tame).
  Notation sv := (@sv F level b false).
  Notation evalc := (@evalc F level b).
  Notation data_flow := (data_flow fo level udb gdb).
  Notation dl := (dl fo level udb gdb).
  Notation flow_outcome := (flow_outcome fo level udb gdb f u b).

  (** ** Where effects can happen *)
  Definition no_depth (imp : df_domain) : Prop := (rmax (ranges imp DEPTH) < 0)%Z.
  Lemma no_depth_leb D E : leb D E -> no_depth E -> no_depth D.
  Proof. intros (_ & H & _) N. specialize (H DEPTH). unfold no_depth, sub_range in *. lia. Qed.

  Lemma pure_false (e : expr) : ok e -> is_false e = true -> pure e = true.
  Proof. intros O I. destruct (const_pure level e false O I) as (a & -> & Pa & _). exact Pa. Qed.

  Lemma finish_pure ign before (e : expr) s e' s' : ok e -> pure e = true ->
    df_finish fo level udb gdb ign before e s = (e', s') -> pure e' = true.
  Proof.
    intros O P E. destruct (bot before) eqn:B.
    { eapply finish_dead in E; [apply E|auto]. }
    destruct ign.
    { eapply finish_dead in E; [apply E|auto]. }
    rewrite finish_live in E; [|exact B|discriminate].
    assert (G : forall e0 s0, ok e0 -> pure e0 = true -> df_leave fo level e0 s0 = (e', s') -> pure e' = true).
    { clear. intros e0 s0 O P E. apply leave_spec in E; [|exact O]. destruct E as [_ E].
      inversion E as [v c Pe Oc Ic B1 B2 Ec|a' Pe B1 Sa Ec|a' Pe Pa Fa Ec]; subst; [| |congruence].
      - destruct (const_pure level e' v Oc Ic) as (a & -> & Pa & _). exact Pa.
      - unfold pure. rewrite ann_set. destruct Sa as [-> _]. exact Pe. }
    destruct e as [a l|a o cs]; [|exact (G _ _ O P E)].
    match type of E with df_leave _ _ (Leaf (transfer_annot _ _ ?s0 _) _) _ = _ => set (s1 := s0) in * end.
    assert (Ta : same_ann a (transfer_annot fo l s1 a))
      by (destruct l; split; try reflexivity; intros []; reflexivity).
    eapply G; [|  |exact E].
    - apply (same_ann_ok level (Leaf a l)); [exact Ta|exact O].
    - unfold pure in *. cbn [ann] in *. destruct Ta as [-> _]. exact P.
  Qed.

  Definition imp_spec (e : expr) : Prop := forall ign before imp e' s imp',
    ok e -> neat e -> bounded before -> bounded imp -> data_flow ign before imp e = (e', s, imp') ->
    bounded imp' /\ (no_depth imp' -> pure e' = true).

  Lemma imp_loop ign d cs : Forall imp_spec cs -> Forall ok cs -> Forall neat cs ->
    forall bef acc imp cs' p ac imp', bounded bef -> bounded imp -> bounded acc ->
    dl ign d cs bef acc imp = (cs', p, ac, imp') ->
    bounded imp' /\ (no_depth imp' -> forallb pure cs' = true).
  Proof.
    intros IH. induction IH as [|c cs Hc IH IHcs]; intros O N bef acc imp cs' p ac imp' HB HI HA E; cbn [OptFlow.dl] in E.
    - inversion E; subst. auto.
    - inversion O as [|? ? Oc O']; inversion N as [|? ? Nc N']; subst.
      destruct (data_flow _ bef imp c) as [[c' s] imp1] eqn:Ec.
      destruct (dl ign d cs _ _ imp1) as [[[cs1 p1] a1] imp2] eqn:El. inversion E; subst. clear E.
      destruct (Hc _ _ _ _ _ _ Oc Nc HB HI Ec) as [H1 H2].
      pose proof (flow_outcome c _ _ _ _ _ _ Oc Nc HB Ec) as (C1 & C2 & C3 & _).
      destruct (below_pick _ _ d C3) as [B1 B2]. destruct (below_pick _ _ (negb d) C3) as [B3 B4].
      pose proof (bounded_join _ _ HA B3) as HJ.
      destruct (IHcs O' N' _ _ _ _ _ _ _ B1 H1 HJ El) as [H3 H4].
      assert (L : loop_ok level udb gdb f u b ign d (pick d s) (df_join acc (pick (negb d) s)) imp1 cs cs1 p ac imp').
      { apply (loop_flow fo); try assumption. apply Forall_forall. intros; apply flow_outcome. }
      destruct L as (_ & _ & _ & _ & _ & _ & _ & _ & _ & L).
      split; [exact H3|]. intros Nd. cbn [forallb]. rewrite H4 by exact Nd. rewrite H2; [reflexivity|].
      eapply no_depth_leb; eassumption.
  Qed.

  Lemma flow_imp : forall e, imp_spec e.
  Proof.
    induction e as [a l|a o cs IH] using expr_ind'; intros ign before imp e' s imp' O N HB HI E;
      pose proof (flow_outcome _ _ _ _ _ _ _ O N HB E) as (O' & P' & _ & D' & _).
    - cbn [OptModel.data_flow] in E.
      destruct (df_finish fo level udb gdb ign before (Leaf a l) (before, before)) as [e1 s1] eqn:Ef. inversion E; subst. clear E.
      destruct (a_pure a) eqn:Pa.
      + split; [exact HI|]. intros _. apply P'. exact Pa.
      + split; [apply bounded_join; assumption|]. intros Nd. apply pure_false; [exact O'|]. apply D'.
        apply bot_spec. left. exists DEPTH. pose proof (bounded_range before DEPTH HB) as [R1 _].
        assert (no_depth before) by (eapply no_depth_leb; [apply leb_join_r|exact Nd]). unfold no_depth in *. lia.
    - pose proof O as O1. apply ok_node in O1. destruct O1 as (S & Pa & Oc).
      apply neat_node in N. destruct N as [D Nc].
      assert (G : forall d, o = opn d -> bounded imp' /\ (no_depth imp' -> pure e' = true)).
      { intros d ->. rewrite data_flow_opn in E.
        destruct (dl ign d cs before df_bottom imp) as [[[cs' p] ac] imp1] eqn:El.
        destruct (df_finish fo level udb gdb ign before (rebuild a (opn d) cs') (mk d p ac)) as [e1 s1] eqn:Ef.
        inversion E; subst. clear E.
        assert (FO : Forall (flow_ok fo level udb gdb f u b) cs) by (apply Forall_forall; intros; apply flow_outcome).
        pose proof (loop_flow fo level udb gdb f u b ign d cs FO Oc Nc _ _ _ _ _ _ _ HB bounded_bottom El) as (L1 & _).
        destruct (imp_loop ign d cs IH Oc Nc _ _ _ _ _ _ _ HB HI bounded_bottom El) as [H1 H2].
        split; [exact H1|]. intros Nd. eapply finish_pure; [|rewrite pure_rebuild; apply H2; exact Nd|exact Ef].
        apply ok_rebuild; [apply shape_opn|eapply kept_ok; exact L1]. }
      destruct o; [|apply (G true); reflexivity|apply (G false); reflexivity|destruct D].
      clear G. cbn [derived] in D. destruct cs as [|c [|]]; try contradiction.
      inversion IH as [|? ? IHc _]; inversion Oc as [|? ? Oc1 _]; inversion Nc as [|? ? Nc1 _]; subst.
      cbn [OptModel.data_flow] in E.
      destruct (data_flow ign before imp c) as [[c' [t g]] imp1] eqn:Ec.
      destruct (df_finish fo level udb gdb ign before (rebuild a ONot [c']) (g, t)) as [e1 s1] eqn:Ef. inversion E; subst. clear E.
      destruct (IHc _ _ _ _ _ _ Oc1 Nc1 HB HI Ec) as [H1 H2].
      pose proof (flow_outcome c _ _ _ _ _ _ Oc1 Nc1 HB Ec) as (C1 & _).
      split; [exact H1|]. intros Nd. eapply finish_pure; [| |exact Ef].
      + apply ok_rebuild; [eexists; reflexivity|auto].
      + rewrite pure_rebuild. cbn [forallb]. rewrite H2 by exact Nd. reflexivity.
  Qed.

  (** ** One round *)

  (** [e'], [s] and [imp'] are a correct replacement for [e] where [before] holds. *)
  Definition replaces (ign : bool) (e e' : expr) (s : after) (imp' : df_domain) : Prop :=
    forall h r h1 q, evalc ign e h = Done r h1 q -> exists r', evalc ign e' h = Done r' h1 q /\
      (ign = false -> q = false -> r' = r /\ sat (pick r s)) /\ ((h1 = h /\ q = false) \/ sat imp').

  Definition inv (ign : bool) (e : expr) : Prop := ok e /\ neat e /\ sv ign e.

  Lemma round_sound i ign before imp e : inv ign e -> bounded before -> bounded imp ->
    exists e' s imp', round fo level udb gdb i ign before imp e = (e', Some s, imp') /\
      inv ign e' /\ below s before /\ bounded imp' /\ (no_depth imp' -> pure e' = true) /\
      (sat before -> replaces ign e e' s imp').
  Proof.
    intros (O & N & V) HB HI. unfold round.
    replace (Nat.leb 1 level) with true by (symmetry; apply Nat.leb_le; lia).
    replace (Nat.leb 2 level) with true by (symmetry; apply Nat.leb_le; lia).
    set (e1 := canonicalize fo level ign e).
    set (e2 := if Nat.leb 3 level && negb (Nat.eqb i 0) then reorder fo level ign e1 else e1).
    assert (G1 : inv ign e1 /\ sim level b ign e e1).
    { destruct (canonicalize_pass fo level b false) as (A & _ & B). destruct (A ign e O) as [O1 _].
      destruct (B ign e O V) as [V1 S1]. destruct (canonicalize_neat fo level tame I I b ign e O N) as [N1 _].
      split; [exact (conj O1 (conj N1 V1))|exact S1]. }
    destruct G1 as [(O1 & N1 & V1) S1].
    assert (G2 : inv ign e2 /\ sim level b ign e1 e2).
    { subst e2. destruct (_ && _); [|split; [exact (conj O1 (conj N1 V1))|apply sim_refl]].
      destruct (reorder_pass fo level b false) as (A & _ & B). destruct (A ign e1 O1) as [O2 _].
      destruct (B ign e1 O1 V1) as [V2 S2]. destruct (reorder_neat fo level tame b ign e1 O1 N1) as [N2 _].
      split; [exact (conj O2 (conj N2 V2))|exact S2]. }
    destruct G2 as [(O2 & N2 & V2) S2]. clearbody e1 e2.
    destruct (data_flow ign before imp e2) as [[e3 s] imp'] eqn:E3.
    pose proof (flow_outcome e2 _ _ _ _ _ _ O2 N2 HB E3) as
      (O3 & P3 & B3 & _ & _ & _ & _ & V3 & T3 & _).
    destruct (flow_imp e2 _ _ _ _ _ _ O2 N2 HB HI E3) as [HI' Nd].
    destruct (simplify_ok fo level ign e3 O3) as [O4 P4].
    destruct (simplify_tidy fo level tame I I e3 ign O3 T3) as [N4 _].
    destruct (simplify_sound fo level tame I I b e3 ign O3 T3 V3) as [V4 S4].
    exists (simplify fo level ign e3), s, imp'. split; [reflexivity|].
    split; [exact (conj O4 (conj N4 V4))|]. split; [exact B3|]. split; [exact HI'|]. split; [auto|].
    intros HS h r h1 q E.
    destruct (S1 _ _ _ _ E) as (r1 & E1 & R1). destruct (S2 _ _ _ _ E1) as (r2 & E2 & R2).
    destruct (flow_result fo level udb gdb f u b f_wf b_about e2 _ _ _ _ _ _ O2 N2 HB HS E3 _ _ _ _ E2)
      as (r3 & E3' & R3 & I3).
    destruct (S4 _ _ _ _ E3') as (r4 & E4 & R4). exists r4. split; [exact E4|]. split; [|exact I3].
    intros Hi Hq. specialize (R1 Hi Hq). specialize (R2 Hi Hq). destruct (R3 Hi Hq) as [R5 R6].
    specialize (R4 Hi Hq). rewrite xorb_false_l in *. subst. auto.
  Qed.

  Lemma rounds_sound n : forall i ign before imp0 e s0 imp1, inv ign e -> bounded before -> bounded imp0 ->
    exists e' s imp', rounds fo level udb gdb (S n) i ign before imp0 e s0 imp1 = (e', s, imp') /\
      inv ign e' /\ below s before /\ bounded imp' /\ (no_depth imp' -> pure e' = true) /\
      (sat before -> replaces ign e e' s imp').
  Proof.
    induction n as [|n IH]; intros i ign before imp0 e s0 imp1 Hv HB HI;
      destruct (round_sound i ign before imp0 e Hv HB HI) as (e1 & s1 & i1 & E & Hv1 & B1 & H1 & Nd & R1);
      cbn [rounds]; rewrite E.
    - exists e1, s1, i1. split; [destruct (is_parent e1); reflexivity|]. auto.
    - destruct (is_parent e1); [|exists e1, s1, i1; split; [reflexivity|]; auto].
      destruct (IH (S i) ign before imp0 e1 s1 i1 Hv1 HB HI) as (e2 & s2 & i2 & E2 & Hv2 & B2 & H2 & Nd2 & R2).
      cbn [rounds] in E2 |- *. exists e2, s2, i2. split; [exact E2|]. split; [exact Hv2|]. split; [exact B2|].
      split; [exact H2|]. split; [exact Nd2|]. intros HS h r h1 q Ev.
      destruct (R1 HS _ _ _ _ Ev) as (r1 & Ev1 & A1 & A2).
      destruct (R2 HS _ _ _ _ Ev1) as (r2 & Ev2 & A3 & A4). exists r2. split; [exact Ev2|]. split; [|exact A4].
      intros Hi Hq. destruct (A1 Hi Hq) as [-> _]. auto.
  Qed.

  Lemma sv_weaken : forall (e : expr) ign, OptEval.sv level b true ign e -> sv ign e.
  Proof.
    induction e as [a l|a o cs IH] using expr_ind'; intros ign V; [intros X; discriminate X|].
    apply sv_node. intros Sk. apply sv_node in V; [|exact Sk]. destruct V as [V1 V2].
    split; [intros [H|[? _]]; [auto|discriminate]|].
    assert (G : svl (OptEval.sv level b true) ign cs -> svl sv ign cs).
    { clear - IH. induction cs as [|c cs IHcs]; [auto|]. cbn [svl]. inversion IH; subst.
      destruct (ign && _); [auto|]. intros [A B]. auto. }
    destruct o; cbn [svbody] in *; auto.
    - destruct cs; [auto|]. inversion IH; subst. auto.
    - clear - IH V2. induction cs as [|c cs IHcs]; [auto|]. cbn [svcomma] in *. inversion IH; subst. destruct V2. auto.
  Qed.

  Lemma optimize_sound ign before imp e : wf e -> made_of tame e -> bounded before -> bounded imp ->
    exists e' s imp', optimize fo level udb gdb ign before imp e = (e', s, imp') /\
      below s before /\ bounded imp' /\
      (no_depth imp' -> forall h, exists r, eval level b e' h = (r, h, false)) /\
      (sat before -> forall h r h1 q, eval level b e h = (r, h1, q) ->
         exists r', eval level b e' h = (r', h1, q) /\
           (ign = false -> q = false -> r' = r /\ sat (if r then fst s else snd s)) /\
           ((h1 = h /\ q = false) \/ sat imp')).
  Proof.
    intros W M HB HI. destruct (annotate_spec fo level b e W ign) as (O & V & Ea).
    pose proof (annotate_neat fo level tame e W M ign) as N.
    assert (V' : OptEval.sv level b true ign (annotate fo level ign e)) by (apply sv_mono; exact V).
    assert (Hv : inv ign (annotate fo level ign e)) by (split; [exact O|split; [exact N|apply sv_weaken; exact V']]).
    destruct (rounds_sound 2 0 ign before imp _ (df_top, df_top) imp Hv HB HI)
      as (e' & s & imp' & E & (O' & N' & V2) & B & H & Nd & R).
    exists e', s, imp'. split; [exact E|]. split; [exact B|]. split; [exact H|]. split.
    { intros X h. exists (value level b e' h). apply pure_eval; auto. }
    intros HS h r h1 q Ev. rewrite <- Ea in Ev.
    destruct (evalc_total level b true eq_refl _ O ign V' h) as (r0 & h0 & q0 & E0).
    pose proof (evalc_eval _ _ _ O _ _ _ _ _ E0) as E1. rewrite Ev in E1. inversion E1; subst.
    destruct (R HS _ _ _ _ E0) as (r' & E' & R' & I'). exists r'.
    split; [eapply evalc_eval; eassumption|]. split; [exact R'|exact I'].
  Qed.

  (** ** The whole optimizer *)
  Local Open Scope Z_scope.

  Lemma sat_top : sat df_top.
  Proof.
    destruct f_wf as (_ & _ & _ & _ & _ & _ & T1 & T2).
    split; [intros p; cbn; destruct (pv f p); reflexivity|]. split.
    - intros r. cbn [df_top ranges range_top rmin rmax]. pose proof (rv_int64 udb gdb f u f_wf r) as I.
      assert (0 <= rv f u r).
      { destruct f_wf as (A1 & A2 & A3 & A4 & A5 & A6 & _). destruct r; cbn [rv]; try lia.
        unfold size_in. apply Z.div_pos; [|destruct u; reflexivity]. assert (0 < scale u) by (destruct u; reflexivity). lia. }
      unfold int64 in I. unfold LLONG_MAX. lia.
    - cbn [df_top types xtypes]. rewrite !N.ones_spec_low by assumption. auto.
  Qed.

  Lemma visit_sound c h : wf (c_exclude c) -> made_of tame (c_exclude c) -> wf (c_expr c) -> made_of tame (c_expr c) ->
    (forall h r h1 q, eval level b (c_exclude c) h = (r, h1, q) -> q = false) ->
    0 <= c_mindepth c <= INT_MAX -> 0 <= c_maxdepth c <= INT_MAX ->
    visit_file level b (bfs_optimize fo level udb gdb c) (f_depth f) h = visit_file level b c (f_depth f) h.
  Proof.
    intros Wx Mx We Me Q Hmin Hmax. unfold bfs_optimize.
    destruct (optimize_sound false df_top df_bottom (c_exclude c) Wx Mx bounded_top bounded_bottom)
      as (x' & [xt xf] & imp & Ex & Bx & HI & _ & Sx).
    rewrite Ex. cbn [fst snd] in *.
    set (d0 := ranges xf DEPTH).
    set (d1 := if 0 <? c_mindepth c then constrain_min d0 (c_mindepth c) else d0).
    set (d2 := if c_maxdepth c <? INT_MAX then constrain_max d1 (c_maxdepth c) else d1).
    set (before := set_range xf DEPTH d2).
    assert (Bxf : bounded xf) by apply Bx.
    assert (HB : bounded before).
    { assert (W0 : within d0 d0) by (apply within_refl; exact Bxf).
      assert (I1 : int64 (c_mindepth c)) by (unfold int64; unfold INT_MAX in *; lia).
      assert (I2 : int64 (c_maxdepth c)) by (unfold int64; unfold INT_MAX in *; lia).
      assert (W1 : within d1 d0) by (unfold d1; case (0 <? c_mindepth c); [apply within_min; assumption|exact W0]).
      assert (W2 : within d2 d1).
      { unfold d2. apply within_self in W1. case (c_maxdepth c <? INT_MAX); [apply within_max; assumption|exact W1]. }
      apply (within_below xf xf DEPTH d2 Bxf (leb_refl _)). eapply within_trans; eassumption. }
    destruct (optimize_sound true before imp (c_expr c) We Me HB HI)
      as (e' & s & imp' & Ee & _ & HI' & Nd & Se).
    rewrite Ee. destruct s as [st sf].
    set (mind := rmin (ranges imp' DEPTH)). set (maxd := rmax (ranges imp' DEPTH)).
    destruct (bounded_range imp' DEPTH HI') as [R1 R2]. fold mind in R1. fold maxd in R2.
    unfold visit_file. cbn [c_exclude c_expr c_mindepth c_maxdepth].
    destruct (eval level b (c_exclude c) h) as [[r h1] q] eqn:E1.
    pose proof (Q _ _ _ _ E1) as Hq. subst q.
    destruct (Sx sat_top _ _ _ _ E1) as (r' & E1' & R & _). rewrite E1'.
    destruct (R eq_refl eq_refl) as [-> Sr]. destruct r; [reflexivity|].
    assert (Dp : 0 <= f_depth f < 2 ^ 31) by apply f_wf.
    set (mn := if Nat.leb 2 level && (c_mindepth c <? mind) then Z.min mind INT_MAX else c_mindepth c).
    set (mx := if Nat.leb 4 level && (maxd <? c_maxdepth c) then Z.max maxd INT_MIN else c_maxdepth c).
    assert (Hmn : c_mindepth c <= mn <= INT_MAX /\ mn <= Z.max (c_mindepth c) mind).
    { subst mn. destruct (Nat.leb 2 level && (c_mindepth c <? mind)) eqn:X; [|lia].
      apply andb_true_iff in X. destruct X as [_ X]. apply Z.ltb_lt in X. lia. }
    assert (Hmx : (mx < 0 /\ maxd < 0) \/ (0 <= mx <= c_maxdepth c /\ Z.min maxd (c_maxdepth c) <= mx)).
    { subst mx. destruct (Nat.leb 4 level && (maxd <? c_maxdepth c)) eqn:X; [|lia].
      apply andb_true_iff in X. destruct X as [_ X]. apply Z.ltb_lt in X. unfold INT_MIN in *. lia. }
    clearbody mn mx.
    (* what the expression does where it is evaluated *)
    assert (Ev : c_mindepth c <= f_depth f <= c_maxdepth c ->
              exists r0 r2 h2 q2, eval level b (c_expr c) h1 = (r0, h2, q2) /\ eval level b e' h1 = (r2, h2, q2) /\
                ((h2 = h1 /\ q2 = false) \/ mind <= f_depth f <= maxd)).
    { intros Hd.
      assert (HS : sat before).
      { apply sat_set_range; [exact Sr|]. cbn [rv]. destruct Sr as (_ & Sr & _). specialize (Sr DEPTH). cbn [rv] in Sr.
        fold d0 in Sr. subst d2 d1. unfold constrain_max, constrain_min.
        destruct (0 <? c_mindepth c), (c_maxdepth c <? INT_MAX); cbn [rmin rmax]; lia. }
      destruct (eval level b (c_expr c) h1) as [[r2 h2] q2] eqn:E2.
      destruct (Se HS _ _ _ _ E2) as (r3 & E3 & _ & I3). exists r2, r3, h2, q2.
      split; [reflexivity|]. split; [exact E3|]. destruct I3 as [I3|I3]; [auto|right].
      destruct I3 as (_ & I3 & _). specialize (I3 DEPTH). exact I3. }
    unfold INT_MAX in *.
    rewrite (Z.mod_small (c_mindepth c)), (Z.mod_small (c_maxdepth c)), (Z.mod_small mn) by lia.
    destruct ((c_mindepth c <=? f_depth f) && (f_depth f <=? c_maxdepth c)) eqn:C.
    - apply andb_true_iff in C. destruct C as [C1 C2]. apply Z.leb_le in C1, C2.
      destruct (Ev (conj C1 C2)) as (r0 & r2 & h2 & q2 & E2 & E3 & I3). rewrite E2.
      destruct ((mn <=? f_depth f) && (f_depth f <=? mx mod 2 ^ 64)) eqn:C'; [rewrite E3; reflexivity|].
      destruct I3 as [[-> ->]|I3]; [reflexivity|]. exfalso.
      apply andb_false_iff in C'. destruct C' as [C'|C']; apply Z.leb_gt in C'; [lia|].
      destruct Hmx as [Hmx|Hmx]; [lia|]. rewrite Z.mod_small in C' by lia. lia.
    - destruct ((mn <=? f_depth f) && (f_depth f <=? mx mod 2 ^ 64)) eqn:C'; [|reflexivity].
      apply andb_true_iff in C'. destruct C' as [C1 C2]. apply Z.leb_le in C1, C2.
      apply andb_false_iff in C. destruct Hmx as [[_ Hmx]|Hmx].
      + destruct (Nd Hmx h1) as [r2 E2]. rewrite E2. reflexivity.
      + rewrite Z.mod_small in C2 by lia. destruct C as [C|C]; apply Z.leb_gt in C; lia.
  Qed.
End OptRounds.

(** ** In terms of [OptFacts] *)
From Verif Require Import OptFacts.
Section Statements.
  Local Open Scope Z_scope.
  Lemma describes_sat f u D : describes f u D <-> sat f u D.
  Proof. split; exact (fun H => H). Qed.

  Lemma proper_bounded D : proper D -> bounded D.
  Proof.
    intros (R & T & X). split; unfold leb, sub_pred, sub_range, sub_bits.
    - split; [intros p; split; discriminate|]. split; [intros r; specialize (R r); cbn; unfold LLONG_MAX, LLONG_MIN in *; lia|].
      cbn [df_bottom types xtypes]. split; intros i; rewrite N.bits_0; discriminate.
    - split; [intros p; split; reflexivity|]. split; [intros r; specialize (R r); cbn; unfold LLONG_MAX, LLONG_MIN in *; lia|].
      cbn [df_top types xtypes]. split; intros i H; rewrite N.ones_spec_low; auto.
  Qed.

  Lemma data_flow_partial (F : Type) (fo : float_ops F) level udb gdb f u b : wf_file f -> about f b ->
    forall ign before impure e e' s' impure', wf e -> made_of (tame level udb gdb f u) e ->
    proper before -> describes f u before ->
    data_flow fo level udb gdb ign before impure (annotate fo level ign e) = (e', s', impure') ->
    forall h r h1 q, eval level b e h = (r, h1, q) ->
    exists r', eval level b e' h = (r', h1, q) /\
      (ign = false -> q = false -> r' = r /\ describes f u (if r then fst s' else snd s')) /\
      ((h1 = h /\ q = false) \/ describes f u impure').
  Proof.
    intros Wf Ab ign before impure e e' s' impure' W M HB HS E h r h1 q Ev. apply proper_bounded in HB.
    destruct (annotate_spec fo level b e W ign) as (O & V & Ea).
    pose proof (annotate_neat fo level (tame level udb gdb f u) e W M ign) as N.
    assert (V' : OptEval.sv level b true ign (annotate fo level ign e)) by (apply sv_mono; exact V).
    rewrite <- Ea in Ev.
    destruct (evalc_total level b true eq_refl _ O ign V' h) as (r0 & h0 & q0 & E0).
    pose proof (evalc_eval _ _ _ O _ _ _ _ _ E0) as E1. rewrite Ev in E1. inversion E1; subst.
    pose proof (flow_outcome fo level udb gdb f u b _ _ _ _ _ _ _ O N HB E) as (O' & _).
    destruct (flow_result fo level udb gdb f u b Wf Ab _ _ _ _ _ _ _ O N HB HS E _ _ _ _ E0) as (r' & E' & R' & I').
    exists r'. split; [eapply evalc_eval; eassumption|]. split; [exact R'|exact I'].
  Qed.

  Lemma optimize_partial (F : Type) (fo : float_ops F) level udb gdb f u b : (2 <= level)%nat ->
    wf_file f -> about f b ->
    forall ign before impure e e' s' impure', wf e -> made_of (tame level udb gdb f u) e ->
    proper before -> proper impure -> describes f u before ->
    optimize fo level udb gdb ign before impure e = (e', s', impure') ->
    forall h r h1 q, eval level b e h = (r, h1, q) ->
    exists r', eval level b e' h = (r', h1, q) /\
      (ign = false -> q = false -> r' = r /\ describes f u (if r then fst s' else snd s')) /\
      ((h1 = h /\ q = false) \/ describes f u impure').
  Proof.
    intros L Wf Ab ign before impure e e' s' impure' W M HB HI HS E.
    apply proper_bounded in HB, HI.
    destruct (optimize_sound fo level L udb gdb f u b Wf Ab ign before impure e W M HB HI)
      as (e1 & s1 & i1 & E1 & _ & _ & _ & R).
    rewrite E in E1. inversion E1; subst. exact (R HS).
  Qed.

  Lemma visit_partial (F : Type) (fo : float_ops F) level udb gdb f u b : wf_file f -> about f b ->
    forall c h, wf (c_exclude c) -> wf (c_expr c) ->
    made_of (tame level udb gdb f u) (c_exclude c) -> made_of (tame level udb gdb f u) (c_expr c) ->
    (forall h r h1 q, eval level b (c_exclude c) h = (r, h1, q) -> q = false) ->
    0 <= c_mindepth c <= INT_MAX -> 0 <= c_maxdepth c <= INT_MAX ->
    visit_file level b (bfs_optimize fo level udb gdb c) (f_depth f) h = visit_file level b c (f_depth f) h.
  Proof.
    intros Wf Ab c h Wx We Mx Me Q Hn Hx. destruct (le_lt_dec level 1) as [L|L].
    - apply bfs_optimize_O1; assumption.
    - eapply visit_sound; eassumption.
  Qed.
End Statements.
