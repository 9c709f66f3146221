(** * Annotations derived from those of the operands

    Between the passes, the annotations of every operator follow from those of
    its operands ([neat]); after the data flow analysis they do so under a
    weaker condition ([tidy]), where the result of the operator is used. *)
From Coq Require Import List ZArith Bool Lia Permutation.
From Verif Require Import ExprModel ExprSpec ExprProofs OptModel OptSpec OptEval OptSim OptPasses OptSimplify.
Import ListNotations.
Local Open Scope nat_scope.

Section OptTidy.
  Context {F : Type}.
  Variable fo : float_ops F.
  Variable level : nat.
  Variable P : leaf -> Prop.
  Hypothesis P_true : P LTrue.
  Hypothesis P_false : P LFalse.
  Notation expr := (expr F).
  Notation ok := (@ok F level).
  Notation annotate1 := (annotate1 fo level).
  Notation annotate_node := (annotate_node fo).
  Notation opt_const := (opt_const fo level).
  Notation negate_expr := (negate_expr fo level).
  Notation fl k c := (flag k (ann c)).

  Definition le_flags (a a' : annot F) : Prop := forall k, flag k a = true -> flag k a' = true.

  Lemma le_flags_refl a : le_flags a a. Proof. unfold le_flags; auto. Qed.
  Lemma le_flags_trans a1 a2 a3 : le_flags a1 a2 -> le_flags a2 a3 -> le_flags a1 a3.
  Proof. unfold le_flags; auto. Qed.

  (** ** The invariant between passes *)
  Definition derived (a : annot F) (o : op) (cs : list expr) : Prop :=
    match o with
    | ONot => match cs with [c] => forall k, flag k a = true -> fl (negb k) c = true | _ => False end
    | OAnd | OOr =>
        let d := match o with OAnd => true | _ => false end in
        (flag d a = true -> forallb (fun c => fl d c) cs = true) /\
        (flag (negb d) a = true -> existsb (fun c => fl (negb d) c) cs = true)
    | OComma => False
    end.

  Fixpoint neat (e : expr) : Prop :=
    match e with
    | Leaf _ l => P l
    | Node a o cs =>
        derived a o cs /\
        (fix all l := match l with [] => True | c :: l' => neat c /\ all l' end) cs
    end.

  Lemma neat_node a o cs : neat (Node a o cs) <-> derived a o cs /\ Forall neat cs.
  Proof.
    cbn [neat]. apply and_iff_compat_l.
    induction cs as [|c cs IH]; [split; [constructor|exact (fun _ => I)]|].
    rewrite Forall_cons_iff, IH. reflexivity.
  Qed.

  Lemma derived_opn d a cs : derived a (opn d) cs <->
    (flag d a = true -> forallb (fun c => fl d c) cs = true) /\
    (flag (negb d) a = true -> existsb (fun c => fl (negb d) c) cs = true).
  Proof. destruct d; reflexivity. Qed.

  Lemma forallb_le k cs cs' : Forall2 (fun c c' => le_flags (ann c) (ann c')) cs cs' ->
    forallb (fun c => fl k c) cs = true -> forallb (fun c => fl k c) cs' = true.
  Proof.
    induction 1 as [|c c' cs cs' H _ IH]; [auto|]. cbn. rewrite !andb_true_iff. intros [A B]. split; auto.
  Qed.
  Lemma existsb_le k cs cs' : Forall2 (fun c c' => le_flags (ann c) (ann c')) cs cs' ->
    existsb (fun c => fl k c) cs = true -> existsb (fun c => fl k c) cs' = true.
  Proof.
    induction 1 as [|c c' cs cs' H _ IH]; [auto|]. cbn. rewrite !orb_true_iff. intros [A|B]; auto.
  Qed.

  Lemma derived_le a o cs cs' : Forall2 (fun c c' => le_flags (ann c) (ann c')) cs cs' ->
    derived a o cs -> derived a o cs'.
  Proof.
    intros H D. destruct o; cbn [derived] in *.
    - destruct H as [|c c' cs cs' H1 H2]; [contradiction|]. destruct H2; [|contradiction].
      intros k Hk. apply H1. auto.
    - destruct D as [D1 D2]. split; intros G; [eapply forallb_le|eapply existsb_le]; eauto.
    - destruct D as [D1 D2]. split; intros G; [eapply forallb_le|eapply existsb_le]; eauto.
    - contradiction.
  Qed.

  Lemma flag_set_pure k p (a : annot F) : flag k (set_pure p a) = flag k a.
  Proof. destruct k; reflexivity. Qed.
  Lemma derived_set_pure p a o cs : derived a o cs -> derived (set_pure p a) o cs.
  Proof.
    destruct o; cbn [derived].
    - destruct cs as [|c [|]]; try contradiction. intros H k. rewrite flag_set_pure. auto.
    - rewrite !flag_set_pure. auto.
    - rewrite !flag_set_pure. auto.
    - contradiction.
  Qed.

  Lemma annotate_derived o cs : shape o cs -> o <> OComma -> derived (annotate_node o cs) o cs.
  Proof.
    intros S N. destruct o; cbn [derived].
    - destruct S as [c ->]. intros k. destruct k; cbn; auto.
    - pose proof (annotate_flags fo true cs) as [E1 E2]. cbn [opn] in *. rewrite E1, E2. auto.
    - pose proof (annotate_flags fo false cs) as [E1 E2]. cbn [opn] in *. rewrite E1, E2. auto.
    - congruence.
  Qed.

  Lemma annotate1_neat a o cs : shape o cs -> o <> OComma -> Forall neat cs ->
    neat (annotate1 (Node a o cs)).
  Proof. intros S N H. apply neat_node. split; [apply annotate_derived; assumption|exact H]. Qed.

  Lemma const_neat v : neat (opt_const v).
  Proof. destruct v; assumption. Qed.

  Lemma const_flags v k : fl k (opt_const v) = Bool.eqb k v.
  Proof. destruct v, k; reflexivity. Qed.

  (** The flags of a constant *)
  Lemma ok_const_flags a l v : ok (Leaf a l) -> l = (if (v : bool) then LTrue else LFalse) ->
    forall k, flag k a = Bool.eqb k v.
  Proof.
    intros [O1 O2] -> k.
    assert (Pa : a_pure a = true) by (rewrite O1; destruct v; reflexivity).
    destruct (O2 Pa) as [H1 H2]. destruct k, v; cbn; [rewrite H1|rewrite H1|rewrite H2|rewrite H2]; reflexivity.
  Qed.

  Lemma negate_neat e : ok e -> neat e ->
    neat (negate_expr e) /\ forall k, fl k e = true -> fl (negb k) (negate_expr e) = true.
  Proof.
    intros O N.
    assert (D : forall a, neat (annotate1 (Node a ONot [e])) /\
                forall k, fl k e = true -> fl (negb k) (annotate1 (Node a ONot [e])) = true).
    { intros a. split; [apply annotate1_neat; [eexists; reflexivity|discriminate|auto]|].
      intros [] H; exact H. }
    destruct e as [a l|a o cs].
    - destruct l; try apply D; cbn [OptModel.negate_expr]; (split; [apply const_neat|]); intros k;
        rewrite const_flags; cbn [ann].
      + rewrite (ok_const_flags a LTrue true O eq_refl). destruct k; cbn; congruence.
      + rewrite (ok_const_flags a LFalse false O eq_refl). destruct k; cbn; congruence.
    - destruct o; try apply D. apply neat_node in N. destruct N as [N1 N2]. cbn [derived] in N1.
      destruct cs as [|c [|]]; try contradiction. cbn [OptModel.negate_expr]. inversion N2; subst. auto.
  Qed.

  (** ** Canonicalization and reordering *)
  Definition step_neat (f : bool -> expr -> expr) : Prop :=
    forall ign e, ok e -> neat e -> neat (f ign e) /\ le_flags (ann e) (ann (f ign e)).

  Lemma walk_neat f : pass_ok level f -> step_neat f -> step_neat (walk f).
  Proof.
    intros Hk Hf ign e. pose proof (walk_ok level f Hk) as Hw. revert ign.
    induction e as [a l|a o cs IH] using expr_ind'; intros ign O N.
    - cbn [walk]. apply Hf; assumption.
    - cbn [walk]. apply ok_node in O. destruct O as (S & Pa & Oc).
      apply neat_node in N. destruct N as [N1 N2].
      set (cs' := walk_children (walk f) o ign cs).
      assert (K : Forall2 (kept level) cs cs').
      { apply walk_children_kept. rewrite Forall_forall in *. intros c Hc i. apply Hw. auto. }
      assert (O' : ok (rebuild a o cs')).
      { apply ok_rebuild; [|eapply kept_ok; exact K].
        eapply shape_len; [exact S|apply walk_children_length]. }
      assert (G : Forall neat cs' /\ Forall2 (fun c c' => le_flags (ann c) (ann c')) cs cs').
      { subst cs'. clear - IH Oc N2. induction cs as [|c cs IHcs]; [split; constructor|].
        inversion IH as [|? ? IHc IH']; inversion Oc; inversion N2; subst. cbn [walk_children].
        destruct (IHcs IH' ltac:(assumption) ltac:(assumption)) as [A B].
        destruct (IHc (child_ign o ign (is_nil cs)) ltac:(assumption) ltac:(assumption)) as [C D].
        split; constructor; assumption. }
      destruct G as [G1 G2].
      assert (N' : neat (rebuild a o cs')).
      { apply neat_node. split; [|exact G1]. apply derived_set_pure. eapply derived_le; eassumption. }
      destruct (Hf ign _ O' N') as [H1 H2]. split; [exact H1|].
      intros k Hk'. apply H2. cbn [rebuild ann]. rewrite flag_set_pure. exact Hk'.
  Qed.

  Lemma negate_list d cs : Forall ok cs -> Forall neat cs ->
    Forall neat (map negate_expr cs) /\
    (forallb (fun c => fl d c) cs = true -> forallb (fun c => fl (negb d) c) (map negate_expr cs) = true) /\
    (existsb (fun c => fl d c) cs = true -> existsb (fun c => fl (negb d) c) (map negate_expr cs) = true).
  Proof.
    intros O N. induction cs as [|c cs IH]; [cbn; auto|]. inversion O; inversion N; subst. cbn.
    destruct (IH ltac:(assumption) ltac:(assumption)) as (A & B & C).
    destruct (negate_neat c ltac:(assumption) ltac:(assumption)) as [D E].
    split; [constructor; assumption|]. rewrite !andb_true_iff, !orb_true_iff. split.
    - intros [G H]. auto.
    - intros [G|H]; auto.
  Qed.

  Lemma demorgan_neat d a a' cs : Forall ok cs -> neat (Node a (opn d) cs) ->
    let e' := annotate1 (Node a' (opn (negb d)) (map negate_expr cs)) in
    neat e' /\ forall k, flag k a = true -> fl (negb k) e' = true.
  Proof.
    intros O N. apply neat_node in N. destruct N as [N1 N2]. apply derived_opn in N1. destruct N1 as [D1 D2].
    destruct (negate_list d cs O N2) as (A & B & _). destruct (negate_list (negb d) cs O N2) as (_ & _ & C).
    split; [apply annotate1_neat; [apply shape_opn|destruct d; discriminate|exact A]|].
    pose proof (annotate_flags fo (negb d) (map negate_expr cs)) as [E1 E2].
    intros k Hk. cbn [OptModel.annotate1 ann].
    destruct (Bool.bool_dec k d) as [->|Nk].
    - rewrite E1. auto.
    - assert (k = negb d) by (destruct k, d; cbn; congruence). subst k. rewrite E2. auto.
  Qed.

  Lemma canonicalize1_neat : step_neat (canonicalize1 fo level).
  Proof.
    intros ign e O N. destruct e as [a l|a o cs]; [split; [exact N|apply le_flags_refl]|].
    pose proof O as O2. apply ok_node in O2. destruct O2 as (S & Pa & Oc).
    pose proof N as N2. apply neat_node in N2. destruct N2 as [D N2].
    assert (FA : forall d, derived a (opn d) cs ->
              neat (annotate1 (Node a (opn d) (flatten (opn d) cs))) /\
              le_flags a (ann (annotate1 (Node a (opn d) (flatten (opn d) cs))))).
    { intros d Dd. apply derived_opn in Dd. destruct Dd as [D1 D2].
      assert (G : Forall neat (flatten (opn d) cs) /\
               (forallb (fun c => fl d c) cs = true -> forallb (fun c => fl d c) (flatten (opn d) cs) = true) /\
               (existsb (fun c => fl (negb d) c) cs = true ->
                existsb (fun c => fl (negb d) c) (flatten (opn d) cs) = true)).
      { clear - N2. induction N2 as [|c cs Nc N IH]; [cbn; auto|]. rewrite flatten_cons.
        destruct IH as (A & B & C).
        assert (Sp : Forall neat (splice (opn d) c) /\
               (fl d c = true -> forallb (fun c => fl d c) (splice (opn d) c) = true) /\
               (fl (negb d) c = true -> existsb (fun c => fl (negb d) c) (splice (opn d) c) = true)).
        { destruct (splice_cases (opn d) c) as [(a & ds & -> & ->)| ->].
          - apply neat_node in Nc. destruct Nc as [Dc Nc]. apply derived_opn in Dc. destruct Dc. auto.
          - cbn. rewrite andb_true_r, orb_false_r. auto. }
        destruct Sp as (Sp1 & Sp2 & Sp3). split; [apply Forall_app; auto|].
        cbn [forallb existsb]. rewrite forallb_app, existsb_app, !andb_true_iff, !orb_true_iff. intuition. }
      destruct G as (G1 & G2 & G3).
      split; [apply annotate1_neat; [apply shape_opn|destruct d; discriminate|exact G1]|].
      pose proof (annotate_flags fo d (flatten (opn d) cs)) as [E1 E2].
      intros k Hk. cbn [OptModel.annotate1 ann]. destruct (Bool.bool_dec k d) as [->|Nk].
      - rewrite E1. auto.
      - assert (k = negb d) by (destruct k, d; cbn; congruence). subst k. rewrite E2. auto. }
    destruct o; cbn [canonicalize1].
    - destruct S as [rhs ->]. cbn [derived] in D. inversion Oc as [|? ? Or _]; inversion N2 as [|? ? Nr _]; subst.
      assert (T : forall e', (neat e' /\ forall k, fl k rhs = true -> fl (negb k) e' = true) ->
                neat e' /\ le_flags a (ann e')).
      { intros e' [T1 T2]. split; [exact T1|]. intros k Hk. specialize (T2 _ (D k Hk)).
        rewrite negb_involutive in T2. exact T2. }
      assert (R : neat (Node a ONot [rhs]) /\ le_flags a (ann (Node a ONot [rhs])))
        by (split; [exact N|apply le_flags_refl]).
      destruct rhs as [a' l|a' o cs].
      + destruct l; cbn [canonicalize_not]; try exact R; apply T.
        * apply (negate_neat (Leaf a' LTrue)); assumption.
        * apply (negate_neat (Leaf a' LFalse)); assumption.
      + pose proof Or as Or2. apply ok_node in Or2. destruct Or2 as (_ & _ & Oc2).
        destruct o; cbn [canonicalize_not].
        * apply T. pose proof Nr as Nr2. apply neat_node in Nr2. destruct Nr2 as [Dr _]. cbn [derived] in Dr.
          destruct cs as [|c [|]]; try contradiction. apply (negate_neat (Node a' ONot [c])); assumption.
        * apply T. apply (demorgan_neat true a' a' cs); assumption.
        * apply T. apply (demorgan_neat false a' a' cs); assumption.
        * apply neat_node in Nr. destruct Nr as [[] _].
    - apply (FA true). exact D.
    - apply (FA false). exact D.
    - destruct D.
  Qed.

  Lemma forallb_perm' (p : expr -> bool) l l' : Permutation l l' -> forallb p l = true -> forallb p l' = true.
  Proof. intros Pm H. rewrite <- (forallb_perm p l l' Pm). exact H. Qed.
  Lemma existsb_perm (p : expr -> bool) l l' : Permutation l l' -> existsb p l = true -> existsb p l' = true.
  Proof.
    intros Pm H. apply existsb_exists in H. destruct H as (x & Hx & Hp). apply existsb_exists.
    exists x. split; [eapply Permutation_in; eassumption|exact Hp].
  Qed.

  Lemma reorder1_neat : step_neat (reorder1 fo level).
  Proof.
    intros ign e O N. destruct e as [a l|a o cs]; [split; [exact N|apply le_flags_refl]|].
    pose proof N as N2. apply neat_node in N2. destruct N2 as [D N2].
    assert (G : forall d, derived a (opn d) cs ->
              neat (annotate1 (Node a (opn d) (reorder_blocks fo (opn d) [] cs))) /\
              le_flags a (ann (annotate1 (Node a (opn d) (reorder_blocks fo (opn d) [] cs))))).
    { intros d Dd. apply derived_opn in Dd. destruct Dd as [D1 D2].
      pose proof (Permutation_sym (reorder_perm fo (opn d) cs [])) as Pm. cbn [app] in Pm.
      split; [apply annotate1_neat; [apply shape_opn|destruct d; discriminate|]|].
      - eapply Permutation_Forall; [exact Pm|exact N2].
      - pose proof (annotate_flags fo d (reorder_blocks fo (opn d) [] cs)) as [E1 E2].
        intros k Hk. cbn [OptModel.annotate1 ann]. destruct (Bool.bool_dec k d) as [->|Nk].
        + rewrite E1. eapply forallb_perm'; [exact Pm|auto].
        + assert (k = negb d) by (destruct k, d; cbn; congruence). subst k. rewrite E2.
          eapply existsb_perm; [exact Pm|auto]. }
    destruct o; cbn [reorder1]; try (split; [exact N|apply le_flags_refl]).
    - apply (G true). exact D.
    - apply (G false). exact D.
  Qed.

  Lemma canonicalize_neat (b : behaviour) : step_neat (canonicalize fo level).
  Proof.
    apply walk_neat; [|apply canonicalize1_neat].
    intros ign e O. destruct (canonicalize1_good fo level b false ign e O) as (A & B & _).
    split; [exact A|congruence].
  Qed.
  Lemma reorder_neat (b : behaviour) : step_neat (reorder fo level).
  Proof.
    apply walk_neat; [|apply reorder1_neat].
    intros ign e O. destruct e as [a l|a o cs]; [split; auto|].
    destruct o; cbn [reorder1]; try (split; auto).
    - destruct (reorder_good fo level b false ign true a cs O) as (A & B & _). exact A.
    - destruct (reorder_good fo level b false ign true a cs O) as (A & B & _). cbn [opn] in B. congruence.
    - destruct (reorder_good fo level b false ign false a cs O) as (A & B & _). exact A.
    - destruct (reorder_good fo level b false ign false a cs O) as (A & B & _). cbn [opn] in B. congruence.
  Qed.

  (** The first annotation *)
  Lemma annotate_neat : forall e, wf e -> made_of P e -> forall ign, neat (annotate fo level ign e).
  Proof.
    induction e as [a l|a o cs IH] using expr_ind'; intros W M ign; [exact M|].
    unfold annotate in *. cbn [walk]. apply wf_node in W. destruct W as [S W].
    cbn [made_of] in M. destruct M as [M1 M2].
    cbn [rebuild]. apply annotate1_neat; [|exact M1|].
    - eapply shape_len; [|apply walk_children_length]. destruct o; exact S.
    - clear S M1. induction cs as [|c cs IHcs]; [constructor|].
      inversion IH; inversion W; subst. destruct M2. cbn [walk_children]. constructor; auto.
  Qed.

  (** ** After the data flow analysis *)

  (** Some operand that is reached is always [d], and then so are the ones before it. *)
  Fixpoint nt (d : bool) (cs : list expr) : bool :=
    match cs with
    | [] => true
    | c :: cs' => fl d c && (fl (negb d) c || nt d cs')
    end.

  Definition derived' (a : annot F) (o : op) (cs : list expr) : Prop :=
    match o with
    | ONot => match cs with [c] => forall k, flag k a = true -> fl (negb k) c = true | _ => False end
    | OAnd | OOr =>
        let d := match o with OAnd => true | _ => false end in
        (flag d a = true -> nt d cs = true) /\
        (flag (negb d) a = true -> existsb (fun c => fl (negb d) c) cs = true)
    | OComma => False
    end.

  Section TidyList.
    Variable tidy : bool -> expr -> Prop.
    Variable ign : bool.
    Fixpoint tidyl (cs : list expr) : Prop :=
      match cs with
      | [] => True
      | c :: cs' => tidy (if is_nil cs' then ign else false) c /\ tidyl cs'
      end.
  End TidyList.

  Fixpoint tidy (ign : bool) (e : expr) {struct e} : Prop :=
    match e with
    | Leaf _ l => P l
    | Node a o cs =>
        (ign = false -> derived' a o cs) /\
        match o with
        | ONot => match cs with [c] => tidy ign c | _ => False end
        | OAnd | OOr => tidyl tidy ign cs
        | OComma => False
        end
    end.

  Lemma tidy_opn ign d a cs : tidy ign (Node a (opn d) cs) <->
    (ign = false -> derived' a (opn d) cs) /\ tidyl tidy ign cs.
  Proof. destruct d; reflexivity. Qed.
  Lemma derived'_opn d a cs : derived' a (opn d) cs <->
    (flag d a = true -> nt d cs = true) /\
    (flag (negb d) a = true -> existsb (fun c => fl (negb d) c) cs = true).
  Proof. destruct d; reflexivity. Qed.

  Lemma nt_le d cs cs' : Forall2 (fun c c' => le_flags (ann c) (ann c')) cs cs' ->
    nt d cs = true -> nt d cs' = true.
  Proof.
    induction 1 as [|c c' cs cs' H _ IH]; [auto|]. cbn. rewrite !andb_true_iff, !orb_true_iff.
    intros [A [B|B]]; auto.
  Qed.

  (** *** Simplification *)
  Lemma neutral_flags d c : neutral d c = true -> ok c -> fl d c = true /\ fl (negb d) c = false.
  Proof.
    intros N O. destruct c as [a l|]; [|destruct d; discriminate].
    assert (E : l = if d then LTrue else LFalse) by (destruct d, l; cbn in N; congruence).
    cbn [ann]. rewrite !(ok_const_flags a l d O E). destruct d; auto.
  Qed.

  Lemma sloop_nt d cs : Forall ok cs -> nt d cs = true ->
    forallb (fun c => fl d c) (sloop d cs) = true.
  Proof.
    induction 1 as [|c cs Oc O IH]; [reflexivity|]. cbn [nt sloop].
    rewrite andb_true_iff, orb_true_iff. intros [A B].
    destruct (neutral d c) eqn:N.
    - destruct (neutral_flags d c N Oc) as [_ E]. destruct B as [B|B]; [congruence|auto].
    - cbn [forallb]. rewrite A. destruct (fl (negb d) c) eqn:E; [reflexivity|].
      destruct B as [B|B]; [congruence|auto].
  Qed.
  Lemma sloop_exists d cs : Forall ok cs -> existsb (fun c => fl (negb d) c) cs = true ->
    existsb (fun c => fl (negb d) c) (sloop d cs) = true.
  Proof.
    induction 1 as [|c cs Oc O IH]; [auto|]. cbn [existsb sloop]. rewrite orb_true_iff. intros B.
    destruct (neutral d c) eqn:N.
    - destruct (neutral_flags d c N Oc) as [_ E]. destruct B as [B|B]; [congruence|auto].
    - cbn [existsb]. destruct (fl (negb d) c) eqn:E; [reflexivity|].
      destruct B as [B|B]; [congruence|auto].
  Qed.
  Lemma sloop_neat d cs : Forall neat cs -> Forall neat (sloop d cs).
  Proof.
    induction 1; cbn [sloop]; [constructor|]. destruct (neutral d x); [assumption|].
    constructor; [assumption|]. destruct (flag _ _); [constructor|assumption].
  Qed.
  Lemma strip_neat ign cs : Forall neat cs -> Forall neat (strip_ignorable level ign cs).
  Proof.
    intros N. unfold strip_ignorable. destruct (_ || _); [exact N|].
    induction N; cbn [before_ignorable]; [constructor|]. destruct (forallb _ _); constructor; assumption.
  Qed.

  (** The annotations of the simplified operator follow from its operands'. *)
  Definition andor (d : bool) (a : annot F) (cs : list expr) : expr :=
    match cs with
    | [] => opt_const d
    | [c] => c
    | _ => lift_andor_not fo level a (opn d) cs
    end.

  Lemma andor_neat d a cs : Forall ok cs -> Forall neat cs -> neat (andor d a cs) /\
    (forallb (fun c => fl d c) cs = true -> fl d (andor d a cs) = true) /\
    (existsb (fun c => fl (negb d) c) cs = true -> fl (negb d) (andor d a cs) = true).
  Proof.
    intros O N. unfold andor. destruct cs as [|c [|c2 cs]].
    - split; [apply const_neat|]. rewrite const_flags. destruct d; cbn; intuition discriminate.
    - inversion N; subst. cbn. rewrite andb_true_r, orb_false_r. auto.
    - set (l := c :: c2 :: cs) in *. clearbody l. unfold lift_andor_not. destruct (Nat.leb _ _).
      + split; [apply annotate1_neat; [apply shape_opn|destruct d; discriminate|exact N]|].
        pose proof (annotate_flags fo d l) as [E1 E2]. cbn [OptModel.annotate1 ann]. rewrite E1, E2. auto.
      + replace (dual (opn d)) with (opn (negb d)) by (destruct d; reflexivity).
        destruct (negate_list d l O N) as (A & B & _). destruct (negate_list (negb d) l O N) as (_ & _ & C).
        set (e1 := annotate1 (Node a (opn (negb d)) (map negate_expr l))).
        assert (N1 : neat e1) by (apply annotate1_neat; [apply shape_opn|destruct d; discriminate|exact A]).
        assert (O1 : ok e1).
        { apply ok_annotate1; [apply shape_opn|]. clear - O.
          induction O as [|c cs Oc O IH]; constructor; [|exact IH].
          destruct (negate_good fo level (mkBehaviour (fun _ _ => false) (fun _ _ => false)) false false c Oc) as (G & _).
          exact G. }
        destruct (negate_neat e1 O1 N1) as [N2 F2]. split; [exact N2|].
        pose proof (annotate_flags fo (negb d) (map negate_expr l)) as [E1 E2].
        split; intros H.
        * specialize (F2 (negb d)). rewrite negb_involutive in F2. apply F2. unfold e1.
          cbn [OptModel.annotate1 ann]. rewrite E1. auto.
        * specialize (F2 d). apply F2. unfold e1.
          cbn [OptModel.annotate1 ann]. specialize (C H). rewrite negb_involutive in *. rewrite E2. exact C.
  Qed.

  Lemma simplify1_opn ign d a cs :
    simplify1 fo level ign (Node a (opn d) cs) = andor d a (sloop d (strip_ignorable level ign cs)).
  Proof.
    unfold andor. destruct d; cbn [opn simplify1]; [rewrite sloop_and|rewrite sloop_or];
      destruct (sloop _ _) as [|c [|]]; reflexivity.
  Qed.

  Lemma simplify_opn ign d a cs : simplify fo level ign (Node a (opn d) cs) =
    andor d (set_pure (forallb pure (walk_children (simplify fo level) (opn d) ign cs)) a)
      (sloop d (strip_ignorable level ign (walk_children (simplify fo level) (opn d) ign cs))).
  Proof. unfold simplify at 1. cbn [walk]. unfold rebuild. apply simplify1_opn. Qed.

  Lemma child_ign_opn d ign l : child_ign (opn d) ign l = if l : bool then ign else false.
  Proof. destruct d; reflexivity. Qed.

  Lemma simplify_ok ign e : ok e -> ok (simplify fo level ign e) /\
    (pure e = true -> pure (simplify fo level ign e) = true).
  Proof.
    apply (proj1 (simplify_pass fo level (mkBehaviour (fun _ _ => false) (fun _ _ => false)) false)).
  Qed.

  Lemma simplify_kept d ign cs : Forall ok cs ->
    Forall2 (kept level) cs (walk_children (simplify fo level) (opn d) ign cs).
  Proof.
    intros O. apply walk_children_kept. rewrite Forall_forall in *. intros c Hc i. apply simplify_ok. auto.
  Qed.

  Lemma simplify_tidy : forall e ign, ok e -> tidy ign e ->
    neat (simplify fo level ign e) /\ (ign = false -> le_flags (ann e) (ann (simplify fo level ign e))).
  Proof.
    induction e as [a l|a o cs IH] using expr_ind'; intros ign O T.
    { split; [exact T|]. intros _. apply le_flags_refl. }
    assert (G : forall d, o = opn d -> neat (simplify fo level ign (Node a o cs)) /\
              (ign = false -> le_flags (ann (Node a o cs)) (ann (simplify fo level ign (Node a o cs))))).
    { intros d ->. apply ok_node in O. destruct O as (_ & _ & Oc).
      apply tidy_opn in T. destruct T as [D T]. rewrite simplify_opn.
      set (cs' := walk_children (simplify fo level) (opn d) ign cs).
      pose proof (kept_ok _ _ _ (simplify_kept d ign cs Oc)) as O'. fold cs' in O'.
      assert (G : Forall neat cs' /\ (ign = false -> Forall2 (fun c c' => le_flags (ann c) (ann c')) cs cs')).
      { subst cs'. clear - IH Oc T. induction cs as [|c cs IHcs]; [split; constructor|].
        inversion IH as [|? ? IHc IH']; inversion Oc; subst. cbn [walk_children tidyl] in *. destruct T as [T1 T2].
        rewrite child_ign_opn. destruct (IHcs IH' T2 ltac:(assumption)) as [A B].
        destruct (IHc _ ltac:(assumption) T1) as [C E].
        split; [constructor; assumption|]. intros ->. constructor; [|auto]. apply E. destruct (is_nil cs); reflexivity. }
      destruct G as [N' L'].
      assert (Os : Forall ok (strip_ignorable level ign cs')).
      { unfold strip_ignorable. destruct (_ || _); [exact O'|]. clear - O'.
        induction O'; cbn [before_ignorable]; [constructor|]. destruct (forallb _ _); constructor; assumption. }
      pose proof (sloop_ok level d _ Os) as O2.
      pose proof (sloop_neat d _ (strip_neat ign _ N')) as N2.
      destruct (andor_neat d (set_pure (forallb pure cs') a) _ O2 N2) as (A & B & C).
      split; [exact A|]. intros ->. specialize (L' eq_refl). specialize (D eq_refl).
      apply derived'_opn in D. destruct D as [D1 D2].
      assert (Es : strip_ignorable level false cs' = cs')
        by (unfold strip_ignorable; rewrite orb_true_r; reflexivity).
      rewrite Es in *. intros k Hk. cbn [ann] in Hk. destruct (Bool.bool_dec k d) as [->|Nk].
      - apply B. apply sloop_nt; [exact O'|]. eapply nt_le; [exact L'|auto].
      - assert (k = negb d) by (destruct k, d; cbn; congruence). subst k. apply C.
        apply sloop_exists; [exact O'|]. eapply existsb_le; [exact L'|auto]. }
    destruct o; [|apply (G true); reflexivity|apply (G false); reflexivity|destruct T as [_ []]].
    clear G. cbn [tidy] in T. destruct T as [D T]. destruct cs as [|c [|]]; try contradiction.
    inversion IH as [|? ? IHc _]; subst. apply ok_node in O. destruct O as (_ & _ & Oc). inversion Oc; subst.
    destruct (IHc ign ltac:(assumption) T) as [A B].
    unfold simplify in *. cbn [walk walk_children child_ign is_nil rebuild simplify1].
    destruct ign; [split; [exact A|discriminate]|]. specialize (D eq_refl). cbn [derived'] in D.
    split.
    - apply neat_node. split; [|auto]. apply derived_set_pure. intros k Hk. apply (B eq_refl). auto.
    - intros _ k Hk. cbn [rebuild ann] in *. rewrite flag_set_pure. exact Hk.
  Qed.

  Section Sound.
    Variable b : behaviour.
    Notation sv := (@sv F level b false).
    Notation sim := (@sim F level b).
    Notation own := (@own F level b).
    Notation evalc := (@evalc F level b).

    Lemma own_le a a' e : le_flags a a' -> own a' e -> own a e.
    Proof.
      intros L H h r h1 q E. specialize (H h r h1 q E). apply (holds_flag true) in H.
      apply (holds_flag true). destruct H as [H1 H2].
      pose proof (L true) as L1. pose proof (L false) as L2. cbn [negb] in *.
      split; [auto|]. intros Q. destruct (H2 Q). auto.
    Qed.

    Lemma simplify_sound : forall e ign, ok e -> tidy ign e -> sv ign e ->
      sv ign (simplify fo level ign e) /\ sim ign e (simplify fo level ign e).
    Proof.
      induction e as [a l|a o cs IH] using expr_ind'; intros ign O T V.
      { split; [exact V|apply sim_refl]. }
      destruct (simplify_ok ign _ O) as [Os Ps].
      destruct (ign && a_pure a) eqn:Skip.
      { apply andb_true_iff in Skip. destruct Skip as [-> Pa].
        specialize (Ps Pa). split; [apply sv_pure_ign; assumption|].
        intros h r h1 q E. rewrite pure_evalc in E by assumption. inversion E; subst.
        eexists. rewrite pure_evalc by assumption. split; [reflexivity|discriminate]. }
      pose proof O as O2. apply ok_node in O2. destruct O2 as (S & Pa & Oc).
      assert (G : forall d, o = opn d -> sv ign (simplify fo level ign (Node a o cs)) /\
                sim ign (Node a o cs) (simplify fo level ign (Node a o cs))).
      { intros d ->. apply tidy_opn in T. destruct T as [_ T].
        pose proof (svl_of level b false ign a d cs O V) as Vl. rewrite simplify_opn in *.
        set (cs' := walk_children (simplify fo level) (opn d) ign cs) in *.
        pose proof (simplify_kept d ign cs Oc) as K. fold cs' in K.
        assert (L : lrel (fun i c c' => sim i c c' /\ sv i c') ign cs cs').
        { subst cs'. clear - IH Oc T Vl. induction cs as [|c cs IHcs]; [exact I|].
          inversion IH as [|? ? IHc IH']; inversion Oc; subst.
          cbn [lrel walk_children svl tidyl] in *.
          destruct (ign && forallb pure (c :: cs)); [exact I|]. destruct Vl as [V1 V2]. destruct T as [T1 T2].
          rewrite child_ign_opn. split; [apply and_comm; apply IHc; assumption|]. apply IHcs; assumption. }
        assert (L0 : lgood level b false ign d cs cs').
        { split; [eapply kept_ok; exact K|]. split; [apply (kept_pure _ _ _ K)|]. intros _. split.
          - rewrite <- (svbody_opn level b false ign d).
            eapply (svbody_cong level b false ign (opn d) cs cs' K); [rewrite svbody_opn; exact Vl|].
            assert (G : lrel (fun i c c' => sv i c') ign cs cs').
            { revert L. generalize cs'. clear. induction cs as [|c cs IH]; intros [|c' cs'] L; cbn [lrel] in *; auto.
              destruct (ign && _); [exact I|]. destruct L as [[_ L1] L2]. auto. }
            destruct d; exact G.
          - assert (G : lrel sim ign cs cs').
            { revert L. generalize cs'. clear. induction cs as [|c cs IH]; intros [|c' cs'] L; cbn [lrel] in *; auto.
              destruct (ign && _); [exact I|]. destruct L as [[L1 _] L2]. auto. }
            intros h r h1 q E.
            destruct (cloop_cong level b false ign d cs cs' Oc K G _ _ _ _ E) as (r2 & E2 & R2).
            exists r2. rewrite !xorb_false_l in *. auto. }
        pose proof (strip_lgood' level b false ign d cs' (proj1 L0)) as L1.
        pose proof (sloop_lgood level b false ign d _ (proj1 L1)) as L2.
        pose proof (lgood_trans _ _ _ _ _ _ _ _ L0 (lgood_trans _ _ _ _ _ _ _ _ L1 L2)) as L3.
        clear L0 L1 L2 L Vl.
        assert (Fr : fair level b false ign (Node a (opn d) cs)
                  (andor d (set_pure (forallb pure cs') a) (sloop d (strip_ignorable level ign cs')))).
        { destruct (sloop d (strip_ignorable level ign cs')) as [|c [|c2 l]]; unfold andor.
          - apply empty_fair; assumption.
          - eapply single_fair; eassumption.
          - apply lift_fair; assumption. }
        apply Fr. exact V. }
      destruct o; [|apply (G true); reflexivity|apply (G false); reflexivity|destruct T as [_ []]].
      clear G. pose proof T as T0. cbn [tidy] in T. destruct T as [D T]. destruct cs as [|c [|]]; try contradiction.
      inversion IH as [|? ? IHc _]; subst. inversion Oc as [|? ? Oc1 _]; subst.
      pose proof (sv_not level b false ign a c O V) as Vc.
      destruct (IHc ign Oc1 T Vc) as [A B]. destruct (simplify_ok ign c Oc1) as [Os1 Ps1].
      destruct (simplify_tidy (Node a ONot [c]) ign O T0) as [Nt _].
      unfold simplify in *. cbn [walk walk_children child_ign is_nil simplify1 rebuild] in *.
      destruct ign.
      - split; [exact A|]. destruct (not_fair level b false a c O) as (_ & _ & G). destruct (G V) as [_ G2].
        eapply sim_trans; eassumption.
      - split.
        + apply sv_node. cbn [set_pure a_pure]. intros _. split; [|exact A].
          intros [Pc|[? _]]; [|discriminate].
          apply own_le with (a' := annotate_node ONot [walk (simplify1 fo level) false c]).
          * apply neat_node in Nt. destruct Nt as [Nt _]. cbn [derived] in Nt. intros k Hk.
            specialize (Nt k Hk). destruct k; exact Nt.
          * apply (annotate_own fo level b false); [eexists; reflexivity|auto|exact A|auto].
        + apply (sim_rebuild level b); [exact O|exact Os| |].
          * apply body_cong; [eexists; reflexivity|exact Oc| |exact B].
            constructor; [split; assumption|constructor].
          * intros Pc. left. cbn in *. rewrite andb_true_r in *.
            destruct (pure c) eqn:E; [|reflexivity]. rewrite (Ps1 eq_refl) in Pc. discriminate.
    Qed.
  End Sound.
End OptTidy.
