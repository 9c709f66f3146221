(** * What the facts of the data flow analysis say about a file *)
From Coq Require Import List ZArith NArith Bool Lia ZifyBool ZifyN.
From Verif Require Import ExprModel OptModel OptSpec.
Import ListNotations.
Local Open Scope Z_scope.

Notation bot := df_is_bottom.

(** ** The order of the domain *)
Definition sub_range (r s : df_range) : Prop := rmin s <= rmin r /\ rmax r <= rmax s.
Definition sub_pred (p q : df_pred) : Prop :=
  (may_false p = true -> may_false q = true) /\ (may_true p = true -> may_true q = true).
Definition sub_bits (m n : N) : Prop := forall i, N.testbit m i = true -> N.testbit n i = true.

Definition leb (D B : df_domain) : Prop :=
  (forall p, sub_pred (preds D p) (preds B p)) /\
  (forall r, sub_range (ranges D r) (ranges B r)) /\
  sub_bits (types D) (types B) /\ sub_bits (xtypes D) (xtypes B).

(** The bounds of the ranges fit long long. *)
Definition bounded (B : df_domain) : Prop := leb df_bottom B /\ leb B df_top.

Lemma leb_refl D : leb D D.
Proof. unfold leb, sub_pred, sub_range, sub_bits. intuition lia. Qed.
Lemma leb_trans D E B : leb D E -> leb E B -> leb D B.
Proof.
  unfold leb, sub_pred, sub_range, sub_bits. intros (A1 & A2 & A3 & A4) (B1 & B2 & B3 & B4).
  split; [intros p; specialize (A1 p); specialize (B1 p); intuition|].
  split; [intros r; specialize (A2 r); specialize (B2 r); lia|]. auto.
Qed.

Lemma bot_bottom : bot df_bottom = true.
Proof. reflexivity. Qed.

Lemma bot_spec D : bot D = true <->
  (exists r, rmax (ranges D r) < rmin (ranges D r)) \/
  (exists p, may_false (preds D p) = false /\ may_true (preds D p) = false) \/
  types D = 0%N \/ xtypes D = 0%N.
Proof.
  unfold df_is_bottom. rewrite !orb_true_iff, !existsb_exists, !N.eqb_eq.
  unfold range_is_bottom, pred_is_bottom. split.
  - intros [[[(r & _ & H)|(p & _ & H)]|H]|H]; [left; exists r; lia|right; left; exists p|auto|auto].
    rewrite andb_true_iff, !negb_true_iff in H. exact H.
  - intros [(r & H)|[(p & H)|[H|H]]].
    + left. left. left. exists r. split; [destruct r; cbn; tauto|lia].
    + left. left. right. exists p. split; [destruct p; cbn; tauto|].
      destruct H as [-> ->]. reflexivity.
    + left. right. exact H.
    + right. exact H.
Qed.

Lemma bits_zero m : (forall i, N.testbit m i = false) -> m = 0%N.
Proof. intros H. apply N.bits_inj. intros i. rewrite H, N.bits_0. reflexivity. Qed.

Lemma leb_bot D B : leb D B -> bot B = true -> bot D = true.
Proof.
  intros (A1 & A2 & A3 & A4) H. apply bot_spec in H. apply bot_spec.
  destruct H as [(r & H)|[(p & H)|[H|H]]].
  - left. exists r. specialize (A2 r). unfold sub_range in A2. lia.
  - right. left. exists p. specialize (A1 p). unfold sub_pred in A1.
    destruct (may_false (preds D p)), (may_true (preds D p)); intuition congruence.
  - right. right. left. apply bits_zero. intros i. specialize (A3 i). rewrite H, N.bits_0 in A3.
    destruct (N.testbit (types D) i); intuition.
  - right. right. right. apply bits_zero. intros i. specialize (A4 i). rewrite H, N.bits_0 in A4.
    destruct (N.testbit (xtypes D) i); intuition.
Qed.

Lemma leb_join_l D E : leb D (df_join D E).
Proof.
  unfold leb, df_join, sub_pred, sub_range, sub_bits, pred_join, range_join; cbn.
  split; [intros p; split; intros ->; reflexivity|]. split; [intros r; lia|].
  split; intros i H; rewrite N.lor_spec, H; reflexivity.
Qed.
Lemma leb_join_r D E : leb E (df_join D E).
Proof.
  unfold leb, df_join, sub_pred, sub_range, sub_bits, pred_join, range_join; cbn.
  split; [intros p; split; intros ->; apply orb_true_r|]. split; [intros r; lia|].
  split; intros i H; rewrite N.lor_spec, H; apply orb_true_r.
Qed.
Lemma join_leb D E B : leb D B -> leb E B -> leb (df_join D E) B.
Proof.
  unfold leb, df_join, sub_pred, sub_range, sub_bits, pred_join, range_join; cbn.
  intros (A1 & A2 & A3 & A4) (B1 & B2 & B3 & B4).
  split; [intros p; specialize (A1 p); specialize (B1 p); rewrite !orb_true_iff; intuition|].
  split; [intros r; specialize (A2 r); specialize (B2 r); lia|].
  split; intros i H; rewrite N.lor_spec, orb_true_iff in H; destruct H; auto.
Qed.
Lemma bot_join D E : bot (df_join D E) = true -> bot D = true /\ bot E = true.
Proof. intros H. split; eapply leb_bot; [apply leb_join_l|exact H|apply leb_join_r|exact H]. Qed.
Lemma bottom_top : leb df_bottom df_top.
Proof.
  unfold leb, sub_pred, sub_range, sub_bits.
  split; [intros p; split; reflexivity|]. split; [intros r; cbn; unfold LLONG_MAX, LLONG_MIN; lia|].
  split; intros i H; cbn [types xtypes df_bottom] in H; rewrite N.bits_0 in H; discriminate.
Qed.
Lemma bounded_join D E : bounded D -> bounded E -> bounded (df_join D E).
Proof.
  intros [H1 H2] [H3 H4]. split; [eapply leb_trans; [exact H1|apply leb_join_l]|].
  apply join_leb; assumption.
Qed.
Lemma bounded_bottom : bounded df_bottom.
Proof. split; [apply leb_refl|apply bottom_top]. Qed.
Lemma bounded_top : bounded df_top.
Proof. split; [apply bottom_top|apply leb_refl]. Qed.
Lemma bounded_range B r : bounded B ->
  0 <= rmin (ranges B r) <= LLONG_MAX /\ LLONG_MIN <= rmax (ranges B r) <= LLONG_MAX.
Proof.
  intros [(_ & H1 & _) (_ & H2 & _)]. specialize (H1 r). specialize (H2 r).
  unfold sub_range in *. cbn in H1, H2. unfold LLONG_MAX, LLONG_MIN in *. lia.
Qed.

(** ** Transfer functions *)
Section Transfer.
  Variable level : nat.
  Variable udb gdb : Z -> option bool.
  Variable f : file.
  Variable u : size_unit.

  Notation transfer := (transfer udb gdb).
  Notation tame := (tame level udb gdb f u).

  Definition pv (p : pred_type) : bool :=
    match p with
    | READABLE => f_access f AccR | WRITABLE => f_access f AccW | EXECUTABLE => f_access f AccX
    | ACL => f_acl f | CAPABLE => f_capable f | EMPTY => file_empty f | HIDDEN => f_hidden f
    | NOGROUP => f_nogroup f | NOUSER => f_nouser f | SPARSE => f_sparse f | XATTR => f_xattr f
    end.
  Definition rv (r : range_type) : Z :=
    match r with
    | DEPTH => f_depth f | GID => f_gid f | INUM => f_ino f | LINKS => f_nlink f
    | SIZE => size_in u (f_size f) | UID => f_uid f
    end.

  (** The facts [D] are true of the file. *)
  Definition sat (D : df_domain) : Prop :=
    (forall p, if pv p then may_true (preds D p) = true else may_false (preds D p) = true) /\
    (forall r, rmin (ranges D r) <= rv r <= rmax (ranges D r)) /\
    N.testbit (types D) (f_type f) = true /\ N.testbit (xtypes D) (f_xtype f) = true.

  Lemma sat_leb D B : leb D B -> sat D -> sat B.
  Proof.
    intros (A1 & A2 & A3 & A4) (S1 & S2 & S3 & S4).
    split; [intros p; specialize (A1 p); specialize (S1 p); unfold sub_pred in A1; destruct (pv p); intuition|].
    split; [intros r; specialize (A2 r); specialize (S2 r); unfold sub_range in A2; lia|]. auto.
  Qed.
  Lemma sat_bot D : sat D -> bot D = true -> False.
  Proof.
    intros (S1 & S2 & S3 & S4) H. apply bot_spec in H. destruct H as [(r & H)|[(p & H)|[H|H]]].
    - specialize (S2 r). lia.
    - specialize (S1 p). destruct H as [H1 H2]. destruct (pv p); congruence.
    - rewrite H, N.bits_0 in S3. discriminate.
    - rewrite H, N.bits_0 in S4. discriminate.
  Qed.
  Lemma sat_join_l D E : sat D -> sat (df_join D E).
  Proof. apply sat_leb. apply leb_join_l. Qed.
  Lemma sat_join_r D E : sat E -> sat (df_join D E).
  Proof. apply sat_leb. apply leb_join_r. Qed.

  Lemma pred_beq p q : pred_type_beq p q = true <-> p = q.
  Proof. split; [apply internal_pred_type_dec_bl|intros ->; apply internal_pred_type_dec_lb; reflexivity]. Qed.
  Lemma range_beq r s : range_type_beq r s = true <-> r = s.
  Proof. split; [apply internal_range_type_dec_bl|intros ->; apply internal_range_type_dec_lb; reflexivity]. Qed.

  Lemma sat_set_pred D p v : sat D -> pv p = v ->
    sat (set_pred D p (constrain_pred (preds D p) v)).
  Proof.
    intros (S1 & S2 & S3 & S4) Hv. split; [|cbn; auto].
    intros q. cbn. destruct (pred_type_beq p q) eqn:E; [|apply S1].
    apply pred_beq in E. subst q v. specialize (S1 p). destruct (pv p); exact S1.
  Qed.
  Lemma sat_set_range D r s : sat D -> rmin s <= rv r <= rmax s -> sat (set_range D r s).
  Proof.
    intros (S1 & S2 & S3 & S4) H. split; [exact S1|]. split; [|cbn; auto].
    intros q. cbn. destruct (range_type_beq r q) eqn:E; [|apply S2].
    apply range_beq in E. subst q. exact H.
  Qed.

  Lemma remove_in r v x : rmin r <= x <= rmax r -> int64 x -> x <> v ->
    rmin (range_remove r v) <= x <= rmax (range_remove r v).
  Proof.
    unfold range_remove, int64, LLONG_MAX, LLONG_MIN. intros H I N.
    destruct (rmin r =? v) eqn:E1.
    - destruct (rmin r =? 2 ^ 63 - 1) eqn:E2; cbn [rmin rmax].
      + exfalso. lia.
      + destruct (rmax r =? v) eqn:E3; cbn [rmin rmax]; [exfalso; lia|lia].
    - destruct (rmax r =? v) eqn:E3; [|lia].
      destruct (rmax r =? - 2 ^ 63) eqn:E4; cbn [rmin rmax]; [exfalso; lia|lia].
  Qed.

  Lemma remove_sub r v : rmin r <= LLONG_MAX -> LLONG_MIN <= rmax r -> int64 v ->
    sub_range (range_remove r v) r /\
    rmin (range_remove r v) <= LLONG_MAX /\ LLONG_MIN <= rmax (range_remove r v).
  Proof.
    unfold range_remove, int64, LLONG_MAX, LLONG_MIN, sub_range. intros H1 H2 I.
    destruct (rmin r =? v) eqn:E1.
    - destruct (rmin r =? 2 ^ 63 - 1) eqn:E2; cbn [rmin rmax].
      + destruct (- 2 ^ 63 =? v) eqn:E3; cbn [rmin rmax]; lia.
      + destruct (rmax r =? v) eqn:E3; cbn [rmin rmax].
        * destruct (rmax r =? - 2 ^ 63) eqn:E4; cbn [rmin rmax]; lia.
        * lia.
    - destruct (rmax r =? v) eqn:E3; [|lia].
      destruct (rmax r =? - 2 ^ 63) eqn:E4; cbn [rmin rmax]; lia.
  Qed.

  (** Removing a value only empties a range that contains nothing else. *)
  Lemma remove_bot r v : LLONG_MIN <= rmin r -> rmax r <= LLONG_MAX -> rmin r <= rmax r ->
    rmax (range_remove r v) < rmin (range_remove r v) -> rmin r = v /\ rmax r = v.
  Proof.
    unfold range_remove, LLONG_MAX, LLONG_MIN. intros HL HM H.
    destruct (rmin r =? v) eqn:E1.
    - destruct (rmin r =? 2 ^ 63 - 1) eqn:E2; cbn [rmin rmax].
      + destruct (- 2 ^ 63 =? v) eqn:E3; cbn [rmin rmax]; lia.
      + destruct (rmax r =? v) eqn:E3; cbn [rmin rmax].
        * destruct (rmax r =? - 2 ^ 63) eqn:E4; cbn [rmin rmax]; lia.
        * lia.
    - destruct (rmax r =? v) eqn:E3; [|lia].
      destruct (rmax r =? - 2 ^ 63) eqn:E4; cbn [rmin rmax]; lia.
  Qed.

  (** *** The transfer functions are decreasing. *)
  Definition below (s : after) (B : df_domain) : Prop :=
    (bounded (fst s) /\ leb (fst s) B) /\ (bounded (snd s) /\ leb (snd s) B).

  Lemma set_pred_below D B p v : bounded D -> leb D B ->
    bounded (set_pred D p (constrain_pred (preds D p) v)) /\
    leb (set_pred D p (constrain_pred (preds D p) v)) B.
  Proof.
    intros [H1 H2] H3.
    assert (G : leb (set_pred D p (constrain_pred (preds D p) v)) D).
    { split; [|split; [|split]]; cbn; [|intros r; unfold sub_range; lia|intros i; auto..].
      intros q. destruct (pred_type_beq p q) eqn:E; [|unfold sub_pred; auto].
      apply pred_beq in E. subst q. unfold sub_pred. destruct v; cbn; intuition discriminate. }
    split; [split|]; [|eapply leb_trans; eassumption..].
    destruct H1 as (A1 & A2 & A3 & A4).
    split; [intros q; split; cbn; discriminate|]. cbn. auto.
  Qed.

  Lemma set_range_below D B r s : bounded D -> leb D B -> sub_range s (ranges D r) ->
    rmin s <= LLONG_MAX -> LLONG_MIN <= rmax s ->
    bounded (set_range D r s) /\ leb (set_range D r s) B.
  Proof.
    intros [H1 H2] H3 H4 H5 H6.
    assert (G : leb (set_range D r s) D).
    { split; [|split; [|split]]; cbn; [unfold sub_pred; auto| |intros i; auto..].
      intros q. destruct (range_type_beq r q) eqn:E; [|unfold sub_range; lia].
      apply range_beq in E. subst q. exact H4. }
    split; [split|]; [|eapply leb_trans; eassumption..].
    destruct H1 as (A1 & A2 & A3 & A4).
    split; [exact A1|]. split; [|cbn; auto].
    intros q. cbn. destruct (range_type_beq r q); [unfold sub_range; cbn; unfold LLONG_MAX, LLONG_MIN in *; lia|apply A2].
  Qed.

  Lemma bits_below D B m : bounded D -> leb D B ->
    (sub_bits m (types D) -> bounded (set_types D m) /\ leb (set_types D m) B) /\
    (sub_bits m (xtypes D) -> bounded (set_xtypes D m) /\ leb (set_xtypes D m) B).
  Proof.
    intros [(A1 & A2 & A3 & A4) H2] H3. split; intros Hm.
    - assert (G : leb (set_types D m) D).
      { split; [|split; [|split]]; cbn; [unfold sub_pred; auto|unfold sub_range; intros; lia|exact Hm|intros i; auto]. }
      split; [split|]; [|eapply leb_trans; eassumption..].
      split; [exact A1|]. split; [exact A2|]. split; [|exact A4].
      intros i H. cbn [types df_bottom] in H. rewrite N.bits_0 in H. discriminate.
    - assert (G : leb (set_xtypes D m) D).
      { split; [|split; [|split]]; cbn; [unfold sub_pred; auto|unfold sub_range; intros; lia|intros i; auto|exact Hm]. }
      split; [split|]; [|eapply leb_trans; eassumption..].
      split; [exact A1|]. split; [exact A2|]. split; [exact A3|].
      intros i H. cbn [xtypes df_bottom] in H. rewrite N.bits_0 in H. discriminate.
  Qed.

  Lemma pred_below s B p v : below s B -> below (data_flow_pred p v s) B.
  Proof.
    destruct s as [t g]. intros [[H1 H2] [H3 H4]]. cbn in *.
    split; cbn; apply set_pred_below; assumption.
  Qed.

  (** [s] is part of [r], with bounds that fit long long. *)
  Definition within (s r : df_range) : Prop :=
    sub_range s r /\ rmin s <= LLONG_MAX /\ LLONG_MIN <= rmax s.
  Lemma within_trans r s t : within r s -> within s t -> within r t.
  Proof. unfold within, sub_range. lia. Qed.
  Lemma within_refl B r : bounded B -> within (ranges B r) (ranges B r).
  Proof. intros H. apply (bounded_range B r) in H. unfold within, sub_range. lia. Qed.
  Lemma within_min r n : within r r -> int64 n -> within (constrain_min r n) r.
  Proof.
    unfold within, sub_range, constrain_min, int64, LLONG_MAX, LLONG_MIN. cbn [rmin rmax]. lia.
  Qed.
  Lemma within_max r n : within r r -> int64 n -> within (constrain_max r n) r.
  Proof.
    unfold within, sub_range, constrain_max, int64, LLONG_MAX, LLONG_MIN. cbn [rmin rmax]. lia.
  Qed.
  Lemma within_self r s : within r s -> within r r.
  Proof. unfold within, sub_range. lia. Qed.
  Lemma within_range r n : within r r -> int64 n -> within (constrain_range r n) r.
  Proof.
    intros H I. pose proof (within_min r n H I) as G. eapply within_trans; [|exact G].
    apply within_max; [eapply within_self; exact G|exact I].
  Qed.
  Lemma within_remove r n : within r r -> int64 n -> within (range_remove r n) r.
  Proof. intros (H1 & H2 & H3) I. apply remove_sub; assumption. Qed.

  Lemma within_below D B r s : bounded D -> leb D B -> within s (ranges D r) ->
    bounded (set_range D r s) /\ leb (set_range D r s) B.
  Proof. intros H1 H2 (H3 & H4 & H5). apply set_range_below; assumption. Qed.

  Lemma icmp_below s B c n r : below s B -> int64 n -> below (data_flow_icmp c n r s) B.
  Proof.
    destruct s as [t g]. intros [[H1 H2] [H3 H4]] I. cbn [fst snd] in *.
    pose proof (within_refl t r H1) as Wt. pose proof (within_refl g r H3) as Wg.
    pose proof (within_min _ n Wt I) as W1. pose proof (within_max _ n Wt I) as W2.
    destruct c; cbn [data_flow_icmp]; split; cbn [fst snd]; apply within_below; try assumption.
    - apply within_range; assumption.
    - apply within_remove; assumption.
    - eapply within_trans; [apply within_remove; [eapply within_self; exact W2|exact I]|exact W2].
    - apply within_min; assumption.
    - eapply within_trans; [apply within_remove; [eapply within_self; exact W1|exact I]|exact W1].
    - apply within_max; assumption.
  Qed.

  Lemma id_below s B r p db : below s B -> below (data_flow_id r p db s) B.
  Proof.
    intros H. unfold data_flow_id. destruct (_ =? _); [|exact H].
    destruct (db _); [apply pred_below|]; exact H.
  Qed.

  Lemma land_sub m n : sub_bits (N.land m n) m.
  Proof. intros i H. rewrite N.land_spec, andb_true_iff in H. apply H. Qed.
  Lemma ldiff_sub m n : sub_bits (N.ldiff m n) m.
  Proof. intros i H. rewrite N.ldiff_spec, andb_true_iff in H. apply H. Qed.

  Lemma transfer_below B l : bounded B -> tame l -> below (transfer B l (B, B)) B.
  Proof.
    intros HB T. assert (H0 : below (B, B) B) by (split; split; try assumption; apply leb_refl).
    destruct l; cbn [OptModel.transfer OptSpec.tame] in *; try exact H0; try (apply pred_below; exact H0);
      try (apply icmp_below; [exact H0|tauto]); try (apply id_below, icmp_below; [exact H0|tauto]).
    - destruct m; apply pred_below; exact H0.
    - pose proof (pred_below _ _ EMPTY true H0) as [[H1 H2] [H3 H4]].
      destruct (data_flow_pred EMPTY true (B, B)) as [t g]. cbn [fst snd] in *.
      unfold data_flow_empty.
      destruct (proj1 (bits_below t B (N.land (types t) (N.lor (pow2 BFS_REG) (pow2 BFS_DIR))) H1 H2)) as [H5 H6];
        [apply land_sub|].
      destruct (_ =? _)%N; [|split; split; assumption].
      assert (I0 : int64 0) by (unfold int64; lia).
      split; cbn [fst snd]; apply within_below; try assumption;
        [apply within_range|apply within_remove]; try exact I0; apply within_refl; assumption.
    - destruct H0 as [[H1 H2] [H3 H4]]. split; cbn [fst snd]; [|split; assumption].
      apply bits_below; [assumption..|apply land_sub].
    - destruct T as [T _].
      split; cbn [fst snd]; apply within_below; try assumption; try apply leb_refl;
        [apply within_range|apply within_remove]; try exact T; apply within_refl; assumption.
    - split; cbn [fst snd]; apply bits_below; try assumption; try apply leb_refl; [apply land_sub|apply ldiff_sub].
    - split; cbn [fst snd]; apply bits_below; try assumption; try apply leb_refl; [apply land_sub|apply ldiff_sub].
  Qed.

  (** *** A pure test is possible one way or the other. *)
  Lemma bot_set_range B r s : bot B = false -> bot (set_range B r s) = true -> rmax s < rmin s.
  Proof.
    intros H G. apply bot_spec in G.
    assert (H' : ~ bot B = true) by congruence. rewrite bot_spec in H'.
    destruct G as [(q & G)|[G|G]]; [|exfalso; apply H'; right; left; exact G|exfalso; apply H'; right; right; exact G].
    cbn in G. destruct (range_type_beq r q); [exact G|]. exfalso. apply H'. left. exists q. exact G.
  Qed.
  Lemma bot_set_pred B p s : bot B = false -> bot (set_pred B p s) = true ->
    may_false s = false /\ may_true s = false.
  Proof.
    intros H G. apply bot_spec in G.
    assert (H' : ~ bot B = true) by congruence. rewrite bot_spec in H'.
    destruct G as [G|[(q & G)|G]]; [exfalso; apply H'; left; exact G| |exfalso; apply H'; right; right; exact G].
    cbn in G. destruct (pred_type_beq p q); [exact G|]. exfalso. apply H'. right. left. exists q. exact G.
  Qed.
  Lemma bot_set_types B m : bot B = false -> bot (set_types B m) = true -> m = 0%N.
  Proof.
    intros H G. apply bot_spec in G.
    assert (H' : ~ bot B = true) by congruence. rewrite bot_spec in H'.
    destruct G as [G|[G|[G|G]]]; [exfalso; apply H'; left; exact G|exfalso; apply H'; right; left; exact G|exact G|].
    exfalso. apply H'. right. right. right. exact G.
  Qed.
  Lemma bot_set_xtypes B m : bot B = false -> bot (set_xtypes B m) = true -> m = 0%N.
  Proof.
    intros H G. apply bot_spec in G.
    assert (H' : ~ bot B = true) by congruence. rewrite bot_spec in H'.
    destruct G as [G|[G|[G|G]]]; [exfalso; apply H'; left; exact G|exfalso; apply H'; right; left; exact G| |exact G].
    exfalso. apply H'. right. right. left. exact G.
  Qed.
  Lemma not_bot_range B r : bot B = false -> rmin (ranges B r) <= rmax (ranges B r).
  Proof.
    intros H. assert (H' : ~ bot B = true) by congruence. rewrite bot_spec in H'.
    destruct (Z_lt_le_dec (rmax (ranges B r)) (rmin (ranges B r))); [|assumption].
    exfalso. apply H'. left. exists r. assumption.
  Qed.
  Lemma not_bot_pred B p : bot B = false -> may_false (preds B p) = true \/ may_true (preds B p) = true.
  Proof.
    intros H. assert (H' : ~ bot B = true) by congruence. rewrite bot_spec in H'.
    destruct (may_false (preds B p)) eqn:E1, (may_true (preds B p)) eqn:E2; auto.
    exfalso. apply H'. right. left. exists p. auto.
  Qed.
  Lemma bits_split m n : N.land m n = 0%N -> N.ldiff m n = 0%N -> m = 0%N.
  Proof.
    intros H1 H2. apply bits_zero. intros i.
    assert (A : N.testbit (N.land m n) i = false) by (rewrite H1; apply N.bits_0).
    assert (B : N.testbit (N.ldiff m n) i = false) by (rewrite H2; apply N.bits_0).
    rewrite N.land_spec in A. rewrite N.ldiff_spec in B.
    destruct (N.testbit m i), (N.testbit n i); cbn in *; congruence.
  Qed.

  Lemma pred_not_both B p : bot B = false ->
    bot (fst (data_flow_pred p true (B, B))) = true -> bot (snd (data_flow_pred p true (B, B))) = true -> False.
  Proof.
    intros H H1 H2. cbn [data_flow_pred fst snd] in *. apply bot_set_pred in H1; [|exact H].
    apply bot_set_pred in H2; [|exact H]. cbn in *. destruct (not_bot_pred B p H); intuition congruence.
  Qed.

  Lemma equal_not_both B r n : bounded B -> bot B = false ->
    bot (set_range B r (constrain_range (ranges B r) n)) = true ->
    bot (set_range B r (range_remove (ranges B r) n)) = true -> False.
  Proof.
    intros HB H H1 H2. apply bot_set_range in H1; [|exact H]. apply bot_set_range in H2; [|exact H].
    pose proof (not_bot_range B r H) as R. destruct (bounded_range B r HB) as [R1 R2].
    apply remove_bot in H2; [|unfold LLONG_MIN in *; lia|lia|lia].
    unfold constrain_range, constrain_min, constrain_max in H1. cbn [rmin rmax] in H1. lia.
  Qed.

  Lemma icmp_not_both B c n r : bounded B -> bot B = false ->
    bot (fst (data_flow_icmp c n r (B, B))) = true -> bot (snd (data_flow_icmp c n r (B, B))) = true -> False.
  Proof.
    intros HB H H1 H2. destruct c; cbn [data_flow_icmp fst snd] in *.
    - exact (equal_not_both B r n HB H H1 H2).
    - apply bot_set_range in H1; [|exact H]. apply bot_set_range in H2; [|exact H].
      pose proof (not_bot_range B r H) as R. destruct (bounded_range B r HB) as [R1 R2].
      unfold constrain_min, constrain_max in *. cbn [rmin rmax] in *.
      apply remove_bot in H1; cbn [rmin rmax] in *; unfold LLONG_MIN in *; lia.
    - apply bot_set_range in H1; [|exact H]. apply bot_set_range in H2; [|exact H].
      pose proof (not_bot_range B r H) as R. destruct (bounded_range B r HB) as [R1 R2].
      unfold constrain_min, constrain_max in *. cbn [rmin rmax] in *.
      apply remove_bot in H1; cbn [rmin rmax] in *; unfold LLONG_MIN in *; lia.
  Qed.

  Lemma id_none r p db s : (forall id, db id = None) -> data_flow_id r p db s = s.
  Proof. intros H. unfold data_flow_id. rewrite H. destruct (_ =? _); reflexivity. Qed.

  Lemma transfer_not_both B l : bounded B -> bot B = false -> tame l -> leaf_pure level l = true ->
    bot (fst (transfer B l (B, B))) = true -> bot (snd (transfer B l (B, B))) = true -> False.
  Proof.
    intros HB H T P H1 H2.
    destruct l; cbn [OptModel.transfer OptSpec.tame leaf_pure] in *; try (cbn [fst snd] in *; congruence);
      try (eapply pred_not_both; eassumption); try (eapply icmp_not_both; eassumption).
    - destruct m; eapply pred_not_both; eassumption.
    - apply Nat.leb_le in P. lia.
    - rewrite id_none in * by apply T. eapply icmp_not_both; eassumption.
    - rewrite id_none in * by apply T. eapply icmp_not_both; eassumption.
    - exact (equal_not_both B INUM ino HB H H1 H2).
    - cbn [fst snd] in *. apply bot_set_types in H1; [|exact H]. apply bot_set_types in H2; [|exact H].
      pose proof (bits_split _ _ H1 H2) as E. assert (G : bot B = true) by (apply bot_spec; auto). congruence.
    - cbn [fst snd] in *. apply bot_set_xtypes in H1; [|exact H]. apply bot_set_xtypes in H2; [|exact H].
      pose proof (bits_split _ _ H1 H2) as E. assert (G : bot B = true) by (apply bot_spec; auto). congruence.
  Qed.

  (** *** They are sound. *)
  Hypothesis f_wf : wf_file f.

  Lemma rv_int64 r : int64 (rv r).
  Proof.
    destruct f_wf as (H1 & H2 & H3 & H4 & H5 & H6 & _). unfold int64.
    destruct r; cbn [rv]; try lia.
    unfold size_in.
    assert (Hs : 1 <= scale u <= 2 ^ 50) by (destruct u; cbn; lia).
    assert (G : 0 <= (f_size f + scale u - 1) / scale u <= f_size f + scale u - 1).
    { split; [apply Z.div_pos; lia|]. apply Z.div_le_upper_bound; [lia|]. nia. }
    lia.
  Qed.

  Lemma pred_sat D p v : sat D -> pv p = v ->
    sat (let s := data_flow_pred p true (D, D) in if v then fst s else snd s).
  Proof. intros S H. destruct v; [apply (sat_set_pred D p true)|apply (sat_set_pred D p false)]; assumption. Qed.

  Lemma icmp_sat D c n r : sat D -> int64 n ->
    sat (let s := data_flow_icmp c n r (D, D) in if expr_cmp c n (rv r) then fst s else snd s).
  Proof.
    intros S I. pose proof (rv_int64 r) as IR. pose proof (proj1 (proj2 S) r) as R.
    unfold int64 in I. destruct c; cbn [data_flow_icmp expr_cmp fst snd].
    - destruct (rv r =? n) eqn:E; apply sat_set_range; try assumption.
      + unfold constrain_range, constrain_min, constrain_max; cbn. lia.
      + apply remove_in; [assumption..|lia].
    - destruct (rv r <? n) eqn:E; apply sat_set_range; try assumption.
      + apply remove_in; [unfold constrain_max; cbn; lia|assumption|lia].
      + unfold constrain_min; cbn. lia.
    - destruct (n <? rv r) eqn:E; apply sat_set_range; try assumption.
      + apply remove_in; [unfold constrain_min; cbn; lia|assumption|lia].
      + unfold constrain_max; cbn. lia.
  Qed.

  Lemma sat_types D m : sat D -> N.testbit m (f_type f) = true -> sat (set_types D m).
  Proof. intros (S1 & S2 & S3 & S4) H. repeat split; cbn; auto; apply S2. Qed.
  Lemma sat_xtypes D m : sat D -> N.testbit m (f_xtype f) = true -> sat (set_xtypes D m).
  Proof. intros (S1 & S2 & S3 & S4) H. repeat split; cbn; auto; apply S2. Qed.

  Lemma transfer_sat D l v : sat D -> tame l -> file_val f l = Some v ->
    sat (if v then fst (transfer D l (D, D)) else snd (transfer D l (D, D))).
  Proof.
    intros S T V.
    assert (P : forall p, pv p = v -> sat (if v then fst (data_flow_pred p true (D, D))
                                           else snd (data_flow_pred p true (D, D))))
      by (intros p Hp; apply (pred_sat D p v S Hp)).
    assert (R : forall c n r, int64 n -> expr_cmp c n (rv r) = v ->
              sat (if v then fst (data_flow_icmp c n r (D, D)) else snd (data_flow_icmp c n r (D, D))))
      by (intros c n r I <-; apply (icmp_sat D c n r S I)).
    destruct l; cbn [file_val OptSpec.tame OptModel.transfer] in *; try discriminate;
      injection V as Ev; try (apply P; exact Ev); try (destruct v; exact S).
    - destruct m; apply P; exact Ev.
    - (* -empty *)
      pose proof (P EMPTY Ev) as PE. destruct S as (S1 & S2 & S3 & S4).
      cbn [data_flow_pred] in *.
      set (t := set_pred D EMPTY _) in *. set (g := set_pred D EMPTY (constrain_pred (preds D EMPTY) (negb true))) in *.
      cbn [data_flow_empty]. cbn [fst snd] in PE.
      assert (TS : types D = pow2 BFS_REG -> f_type f = 8%N).
      { intros E. rewrite E in S3. unfold pow2, BFS_REG in S3. rewrite N.shiftl_1_l, N.pow2_bits_eqb in S3.
        apply N.eqb_eq in S3. auto. }
      assert (TV : v = true -> N.testbit (N.land (types t) (N.lor (pow2 BFS_REG) (pow2 BFS_DIR))) (f_type f) = true).
      { intros ->. cbn [types set_pred t]. subst t. cbn [types set_pred]. rewrite N.land_spec, S3.
        unfold file_empty in Ev. cbn [andb].
        destruct (f_type f) as [|p]; [discriminate|].
        repeat (destruct p as [p|p|]; try discriminate; try reflexivity). }
      assert (SZ : types D = pow2 BFS_REG -> (rv SIZE = 0 <-> v = true)).
      { intros E. unfold file_empty in Ev. rewrite (TS E) in Ev. cbn [rv].
        destruct f_wf as (_ & _ & _ & _ & H5 & _).
        assert (Hs : 1 <= scale u) by (destruct u; cbn; lia).
        unfold size_in. rewrite <- Ev. split.
        - intros Z0. apply Z.eqb_eq. destruct (Z.eq_dec (f_size f) 0) as [Y|Y]; [exact Y|exfalso].
          assert (1 <= (f_size f + scale u - 1) / scale u) by (apply Z.div_le_lower_bound; lia). lia.
        - intros Y. apply Z.eqb_eq in Y. rewrite Y. apply Z.div_small. lia. }
      destruct (types D =? pow2 BFS_REG)%N eqn:E.
      + apply N.eqb_eq in E. pose proof (rv_int64 SIZE) as I. pose proof (S2 SIZE) as R2.
        destruct v; cbn [fst snd].
        * apply sat_set_range; [apply sat_types; [exact PE|apply TV; reflexivity]|].
          pose proof (proj2 (SZ E) eq_refl) as Z0. cbn [ranges set_types]. unfold t. cbn [ranges set_pred].
          unfold constrain_range, constrain_min, constrain_max; cbn [rmin rmax]. lia.
        * apply sat_set_range; [exact PE|]. unfold g. cbn [ranges set_pred]. apply remove_in; [assumption..|].
          intros Z0. apply (SZ E) in Z0. discriminate.
      + destruct v; cbn [fst snd]; [apply sat_types; [exact PE|apply TV; reflexivity]|exact PE].
    - apply R; assumption.
    - rewrite id_none by apply T. apply R; [apply T|assumption].
    - apply R; assumption.
    - apply R; assumption.
    - destruct T as [-> T]. apply R; assumption.
    - rewrite id_none by apply T. apply R; [apply T|assumption].
    - destruct v; cbn [fst snd]; [|exact S]. apply sat_types; [exact S|].
      apply andb_true_iff in Ev. destruct Ev as [Ev _]. apply N.eqb_eq in Ev.
      rewrite N.land_spec. destruct S as (_ & _ & S3 & _). rewrite S3, Ev. reflexivity.
    - pose proof (rv_int64 INUM) as I. pose proof (proj1 (proj2 S) INUM) as R2. cbn [rv] in *. destruct T as [T1 T2].
      destruct v; cbn [fst snd]; apply sat_set_range; try exact S.
      + unfold constrain_range, constrain_min, constrain_max; cbn [rmin rmax rv]. lia.
      + apply remove_in; [cbn [rv]; lia|exact I|]. cbn [rv]. lia.
    - pose proof (proj1 (proj2 (proj2 S))) as S3.
      destruct v; cbn [fst snd]; apply sat_types; try exact S.
      + rewrite N.land_spec, S3, Ev. reflexivity.
      + rewrite N.ldiff_spec, S3, Ev. reflexivity.
    - pose proof (proj2 (proj2 (proj2 S))) as S3.
      destruct v; cbn [fst snd]; apply sat_xtypes; try exact S.
      + rewrite N.land_spec, S3, Ev. reflexivity.
      + rewrite N.ldiff_spec, S3, Ev. reflexivity.
  Qed.

  Lemma transfer_unknown D l s : file_val f l = None -> transfer D l s = s.
  Proof. destruct l; cbn; intros H; try discriminate; reflexivity. Qed.
End Transfer.
