From Coq Require Import List Arith Bool Lia.
From Verif Require Import ListModel ListSpec.
Import ListNotations.

Lemma ceqb_spec a b : reflect (a = b) (cursor_eqb a b).
Proof.
  destruct a, b; cbn; try (constructor; congruence);
    destruct (Nat.eqb_spec l l0) || destruct (Nat.eqb_spec i i0); constructor; congruence.
Qed.

Lemma link_set h c v x : link (set_link h c v) x = if cursor_eqb x c then v else link h x.
Proof. reflexivity. Qed.
Lemma link_same h c v : link (set_link h c v) c = v.
Proof. rewrite link_set. destruct (ceqb_spec c c); congruence. Qed.
Lemma link_other h c v x : x <> c -> link (set_link h c v) x = link h x.
Proof. rewrite link_set. destruct (ceqb_spec x c); congruence. Qed.
Lemma link_tail h l c x : link (set_tail h l c) x = link h x.
Proof. reflexivity. Qed.
Lemma tail_same h l c : tail (set_tail h l c) l = c.
Proof. cbn. now rewrite Nat.eqb_refl. Qed.
Lemma tail_other h l c m : m <> l -> tail (set_tail h l c) m = tail h m.
Proof. intros. cbn. destruct (Nat.eqb_spec m l); congruence. Qed.
Lemma tail_link h c v m : tail (set_link h c v) m = tail h m.
Proof. reflexivity. Qed.

Fixpoint seg (h : heap) (c : cursor) (a : list nat) (d : cursor) : Prop :=
  match a with
  | [] => c = d
  | x :: r => link h c = Some x /\ seg h (Next x) r d
  end.
Fixpoint endl (c : cursor) (a : list nat) : cursor :=
  match a with [] => c | x :: r => endl (Next x) r end.
Fixpoint srcs (c : cursor) (a : list nat) : list cursor :=
  match a with [] => [] | x :: r => c :: srcs (Next x) r end.
Definition cursors (c : cursor) (a : list nat) : list cursor := c :: map Next a.

Lemma seg_end h a : forall c d, seg h c a d -> d = endl c a.
Proof. induction a as [|x r IH]; cbn; intros c d H; [auto|]. apply IH, H. Qed.
Lemma seg_app h a : forall b c d, seg h c (a ++ b) d <-> seg h c a (endl c a) /\ seg h (endl c a) b d.
Proof.
  induction a as [|x r IH]; cbn; intros b c d; [tauto|].
  rewrite IH. tauto.
Qed.
Lemma endl_app a b : forall c, endl c (a ++ b) = endl (endl c a) b.
Proof. induction a as [|x r IH]; cbn; auto. Qed.
Lemma cursors_srcs a : forall c, cursors c a = srcs c a ++ [endl c a].
Proof. induction a as [|x r IH]; intros c; [reflexivity|]. cbn. rewrite <- IH. reflexivity. Qed.
Lemma srcs_app a b : forall c, srcs c (a ++ b) = srcs c a ++ srcs (endl c a) b.
Proof. induction a as [|x r IH]; cbn; intros; auto. now rewrite IH. Qed.
Lemma cursors_app a b c : cursors c (a ++ b) = srcs c a ++ cursors (endl c a) b.
Proof. rewrite !cursors_srcs, srcs_app, endl_app, app_assoc. reflexivity. Qed.
Lemma in_end c a : In (endl c a) (cursors c a).
Proof. rewrite cursors_srcs. apply in_or_app. right. now left. Qed.

Lemma seg_frame h h' a : forall c d,
  (forall x, In x (srcs c a) -> link h' x = link h x) -> seg h c a d -> seg h' c a d.
Proof.
  induction a as [|x r IH]; cbn; intros c d F S; [auto|].
  destruct S as (L & S). split; [rewrite F; auto|]. apply IH; auto.
Qed.

Lemma cursor_at_end xs : forall l k, k <= length xs -> cursor_at l xs k = endl (Head l) (firstn k xs).
Proof.
  intros l k K. destruct k as [|k]; [reflexivity|]. cbn [cursor_at].
  destruct (nth_error xs k) as [i|] eqn:E; [|apply nth_error_None in E; lia].
  assert (F : firstn (S k) xs = firstn k xs ++ [i]).
  { clear K. revert xs E. induction k as [|k IH]; intros [|y r] E; cbn in *; try discriminate.
    - now injection E as ->.
    - f_equal. now apply IH. }
  rewrite F, endl_app. reflexivity.
Qed.

Lemma in_cursors l xs c : In c (cursors (Head l) xs) <-> c = Head l \/ exists i, c = Next i /\ In i xs.
Proof.
  unfold cursors. cbn. rewrite in_map_iff. split.
  - intros [<-|(i & <- & I)]; eauto.
  - intros [->|(i & -> & I)]; eauto.
Qed.
Lemma nodup_cursors l xs : NoDup xs <-> NoDup (cursors (Head l) xs).
Proof.
  unfold cursors. split.
  - intros N. constructor.
    + rewrite in_map_iff. intros (? & ? & ?). discriminate.
    + induction N as [|x r I N IH]; cbn; constructor; auto.
      rewrite in_map_iff. intros (y & E & I'). congruence.
  - intros N. inversion N as [|? ? _ M]; subst. now apply NoDup_map_inv in M.
Qed.

Definition own (h : heap) (l : nat) (xs : list nat) : Prop :=
  NoDup xs /\ seg h (Head l) xs (tail h l) /\ link h (tail h l) = None.

Lemma seg_links h xs : forall c d, seg h c xs d -> link h d = None ->
  forall k, k <= length xs -> link h (endl c (firstn k xs)) = nth_error xs k.
Proof.
  induction xs as [|x r IH]; cbn; intros c d SG N k K.
  - destruct k; cbn; [congruence|lia].
  - destruct SG as (L & SG). destruct k as [|k]; cbn; [auto|]. apply IH with d; auto. lia.
Qed.
Lemma links_seg h xs : forall c,
  (forall k, k <= length xs -> link h (endl c (firstn k xs)) = nth_error xs k) ->
  seg h c xs (endl c xs) /\ link h (endl c xs) = None.
Proof.
  induction xs as [|x r IH]; cbn; intros c H.
  - split; auto. apply (H 0). lia.
  - split; [split|].
    + apply (H 0). lia.
    + apply IH. intros k K. apply (H (S k)). lia.
    + apply IH. intros k K. apply (H (S k)). lia.
Qed.

Lemma own_represents h l xs : own h l xs <-> represents h l xs.
Proof.
  unfold own, represents. split; intros (N & A & B); (split; [exact N|]).
  - split.
    + intros k K. rewrite cursor_at_end by auto. eapply seg_links; eauto.
    + rewrite cursor_at_end, firstn_all by auto. eapply seg_end, A.
  - rewrite cursor_at_end, firstn_all in B by auto. rewrite B. apply links_seg.
    intros k K. rewrite <- A by auto. now rewrite cursor_at_end.
Qed.

Lemma own_frame h h' l xs :
  (forall c, In c (cursors (Head l) xs) -> link h' c = link h c) -> tail h' l = tail h l ->
  own h l xs -> own h' l xs.
Proof.
  intros F T (N & SG & E). rewrite <- T in *. split; [auto|]. split.
  - eapply seg_frame; [|exact SG]. intros x I. apply F. rewrite cursors_srcs. apply in_or_app. now left.
  - rewrite F; auto. rewrite (seg_end _ _ _ _ SG). apply in_end.
Qed.

(** ** Worlds *)
Definition owned (f : nat -> list nat) (l : nat) (c : cursor) : Prop := In c (cursors (Head l) (f l)).

Lemma owned_one h f l m c : world h f -> owned f l c -> owned f m c -> l = m.
Proof.
  intros (_ & D & _) A B. apply in_cursors in A, B.
  destruct A as [->|(i & -> & I)], B as [E|(j & E & J)]; try discriminate.
  - congruence.
  - injection E as <-. eauto.
Qed.
Lemma not_owned f l i : detached f i -> ~ owned f l (Next i).
Proof.
  intros D I. apply in_cursors in I. destruct I as [E|(j & E & J)]; [discriminate|].
  injection E as <-. now apply (D l).
Qed.
Lemma world_own h f l : world h f -> own h l (f l).
Proof. intros (R & _). apply own_represents, R. Qed.
Lemma owned_end f l k : k <= length (f l) -> owned f l (endl (Head l) (firstn k (f l))).
Proof.
  intros K. unfold owned. replace (f l) with (firstn k (f l) ++ skipn k (f l)) at 2 by apply firstn_skipn.
  rewrite cursors_app. apply in_or_app. right. now left.
Qed.
Lemma owned_tail h f l : world h f -> owned f l (tail h l).
Proof.
  intros W. destruct (world_own _ _ l W) as (_ & SG & _). rewrite (seg_end _ _ _ _ SG). apply in_end.
Qed.
Lemma owned_head f l : owned f l (Head l).
Proof. left. reflexivity. Qed.

Lemma put_same f l xs : put f l xs l = xs.
Proof. unfold put. now rewrite Nat.eqb_refl. Qed.
Lemma put_other f l xs m : m <> l -> put f l xs m = f m.
Proof. unfold put. intros. destruct (Nat.eqb_spec m l); congruence. Qed.

Lemma split_own h l a b : own h l (a ++ b) ->
  let e := endl (Head l) a in
  NoDup (srcs (Head l) a ++ cursors e b) /\ seg h (Head l) a e /\ seg h e b (tail h l).
Proof.
  intros (N & SG & T). cbn. apply seg_app in SG. destruct SG as (A & B).
  split; [|auto]. rewrite <- cursors_app. now apply nodup_cursors.
Qed.

Lemma nodup_disj {A} (a b : list A) x : NoDup (a ++ b) -> In x a -> In x b -> False.
Proof.
  induction a as [|y r IH]; cbn; intros N I J; [auto|].
  inversion N as [|? ? M N']; subst. destruct I as [->|I]; [apply M, in_or_app; auto|eauto].
Qed.
Lemma nodup_right {A} (a b : list A) : NoDup (a ++ b) -> NoDup b.
Proof. induction a; cbn; intros N; [auto|]. inversion N; auto. Qed.

Lemma nodup_insert {A} (a b ys : list A) :
  NoDup (a ++ b) -> NoDup ys -> (forall y, In y ys -> ~ In y (a ++ b)) -> NoDup (a ++ ys ++ b).
Proof.
  induction a as [|x r IH]; cbn; intros N M D.
  - induction ys as [|y ys IHy]; cbn; auto. inversion M; subst. constructor.
    + rewrite in_app_iff. intros [I|I]; [auto|]. apply (D y); auto. now left.
    + apply IHy; auto. intros z I. apply D. now right.
  - inversion N as [|? ? I N']; subst. constructor.
    + rewrite !in_app_iff in *. intros [J|[J|J]]; try tauto. apply (D x); auto.
    + apply IH; auto. intros y J K. apply (D y); auto.
Qed.
Lemma nodup_delete {A} (a b ys : list A) : NoDup (a ++ ys ++ b) -> NoDup (a ++ b).
Proof.
  induction a as [|x r IH]; cbn; intros N; [now apply nodup_right in N|].
  inversion N as [|? ? I N']; subst. constructor; [|auto].
  rewrite !in_app_iff in *. tauto.
Qed.

(** ** Insertion *)
Lemma insert_ok h f l k i : world h f -> detached f i -> k <= length (f l) ->
  exists h', slist_insert h l (cursor_at l (f l) k) i = Some (h', Next i) /\
             world h' (put f l (insert_at k [i] (f l))).
Proof.
  intros W D K. rewrite cursor_at_end by auto. unfold insert_at.
  set (a := firstn k (f l)). set (b := skipn k (f l)). set (e := endl (Head l) a).
  assert (AB : f l = a ++ b) by (symmetry; apply firstn_skipn).
  assert (OE : owned f l e) by now apply owned_end.
  assert (EI : e <> Next i) by (intros E; rewrite E in OE; eapply not_owned; eauto).
  assert (TI : tail h l <> Next i).
  { intros E. apply (not_owned f l i D). rewrite <- E. now apply (owned_tail h). }
  unfold slist_insert, slist_attached.
  assert (LI : link h (Next i) = None) by (apply W, D). rewrite LI.
  destruct (ceqb_spec (tail h l) (Next i)); [contradiction|].
  eexists. split; [reflexivity|].
  set (h1 := set_link _ e _). set (h' := set_tail h1 l _).
  assert (LN : link h1 (Next i) = link h e).
  { unfold h1. rewrite link_other by auto. now rewrite link_same. }
  assert (LE : link h1 e = Some i) by (unfold h1; apply link_same).
  assert (LO : forall c, c <> e -> c <> Next i -> link h1 c = link h c).
  { intros c NE NI. unfold h1. now rewrite !link_other. }
  split; [|split].
  - intros m. apply own_represents. destruct (Nat.eq_dec m l) as [->|NM].
    + rewrite put_same. pose proof (world_own _ _ l W) as O.
      pose proof O as (N & SG0 & T0). rewrite AB in O, N. apply split_own in O. destruct O as (NC & SA & SB).
      fold e in NC, SA, SB.
      assert (NIa : forall c, In c (srcs (Head l) a ++ cursors e b) -> c <> Next i).
      { intros c I ->. apply (not_owned f l i D). unfold owned. now rewrite AB, cursors_app. }
      split; [|].
      * apply nodup_insert; auto.
        -- constructor; [easy|constructor].
        -- intros y [<-|[]]. rewrite <- AB. apply D.
      * assert (SA' : seg h' (Head l) a e).
        { eapply seg_frame; [|exact SA]. intros c I. apply LO.
          - intros ->. eapply nodup_disj; [exact NC|exact I|now left].
          - apply NIa, in_or_app. now left. }
        assert (TL : tail h' l = match link h e with Some _ => tail h1 l | None => Next i end).
        { unfold h'. rewrite tail_same, LN. reflexivity. }
        rewrite TL.
        destruct b as [|x r].
        -- cbn in SB. rewrite <- SB in T0. rewrite T0. split.
           ++ apply seg_app. split; [auto|]. cbn. split; auto.
           ++ unfold h'. rewrite link_tail, LN. exact T0.
        -- destruct SB as (LX & SR). rewrite LX.
           change (tail h1 l) with (tail h l). split.
           ++ apply seg_app. split; [auto|]. cbn [app seg]. split; [auto|].
              split; [unfold h'; rewrite link_tail; congruence|].
              eapply seg_frame; [|exact SR]. intros c I.
              assert (J : In c (cursors e (x :: r))).
              { rewrite cursors_srcs. apply in_or_app. left. now right. }
              apply LO; [|apply NIa, in_or_app; auto].
              intros ->. apply nodup_right in NC. rewrite cursors_srcs in NC. cbn in NC.
              inversion NC as [|? ? M _]; subst. apply M, in_or_app. auto.
           ++ unfold h'. rewrite link_tail, LO; auto. intros E.
              rewrite E in T0. congruence.
    + rewrite put_other by auto. eapply own_frame; [| |apply world_own, W].
      * intros c I. apply LO; [|intros ->; eapply not_owned; eauto].
        intros ->. apply NM. exact (owned_one h f m l e W I OE).
      * unfold h'. now rewrite tail_other.
  - assert (IN : forall m j, In j (put f l (a ++ [i] ++ b) m) -> (j = i /\ m = l) \/ In j (f m)).
    { intros m j. unfold put. destruct (Nat.eqb_spec m l) as [->|]; [|auto].
      rewrite AB, !in_app_iff. cbn. intuition (subst; auto). }
    intros m1 m2 j I1 I2. destruct W as (_ & DJ & _).
    destruct (IN _ _ I1) as [(-> & ->)|J1], (IN _ _ I2) as [(E & ->)|J2]; auto.
    + exfalso. now apply (D m2).
    + subst. exfalso. now apply (D m1).
    + eauto.
  - intros j NJ.
    assert (J : detached f j).
    { intros m I. apply (NJ m). unfold put. destruct (Nat.eqb_spec m l) as [->|]; [|auto].
      rewrite AB in I. rewrite !in_app_iff in *. tauto. }
    assert (JI : j <> i).
    { intros ->. apply (NJ l). rewrite put_same. apply in_or_app. right. now left. }
    unfold h'. rewrite link_tail, LO.
    + apply W, J.
    + intros E. rewrite <- E in OE. eapply not_owned; eauto.
    + congruence.
Qed.

(** ** Removal *)
Lemma remove_ok h f l k : world h f -> k < length (f l) ->
  exists h' i, slist_remove h l (cursor_at l (f l) k) = Some (h', i) /\ nth_error (f l) k = Some i /\
             world h' (put f l (firstn k (f l) ++ skipn (S k) (f l))).
Proof.
  intros W K. rewrite cursor_at_end by lia.
  set (a := firstn k (f l)). set (b := skipn (S k) (f l)). set (e := endl (Head l) a).
  destruct (nth_error (f l) k) as [i|] eqn:NK; [|apply nth_error_None in NK; lia].
  assert (AB : f l = a ++ i :: b).
  { unfold a, b. clear -NK. revert NK. generalize (f l) as xs. induction k as [|k IH]; intros [|y r] E; cbn in *; try discriminate.
    - now injection E as ->.
    - f_equal. now apply IH. }
  assert (OE : owned f l e) by (apply owned_end; lia).
  pose proof (world_own _ _ l W) as O. pose proof O as (N & SG0 & T0).
  rewrite AB in O, N. apply split_own in O. destruct O as (NC & SA & LE & SB). fold e in NC, SA, LE, SB.
  assert (OI : owned f l (Next i)).
  { apply in_cursors. right. exists i. split; auto. rewrite AB. apply in_or_app. right. now left. }
  assert (EI : e <> Next i).
  { intros E. apply nodup_right in NC. inversion NC as [|? ? M _]; subst. apply M. left. auto. }
  exists (set_link (set_link (set_tail h l (match link h (Next i) with Some _ => tail h l | None => e end)) e
            (link h (Next i))) (Next i) None), i.
  split; [unfold slist_remove; now rewrite LE|]. split; [reflexivity|].
  set (h' := set_link _ _ _).
  assert (LI : link h' (Next i) = None) by apply link_same.
  assert (LE' : link h' e = link h (Next i)) by (unfold h'; rewrite link_other by auto; apply link_same).
  assert (LO : forall c, c <> e -> c <> Next i -> link h' c = link h c).
  { intros c NE NI. unfold h'. now rewrite !link_other. }
  split; [|split].
  - intros m. apply own_represents. destruct (Nat.eq_dec m l) as [->|NM].
    + rewrite put_same. split; [now apply (nodup_delete a b [i])|].
      assert (NCa : forall c, In c (srcs (Head l) a) -> ~ In c (cursors e (i :: b))) by (intros c I J; exact (nodup_disj _ _ c NC I J)).
      assert (SA' : seg h' (Head l) a e).
      { eapply seg_frame; [|exact SA]. intros c I. apply LO; intros ->; apply (NCa _ I); [now left|right; now left]. }
      assert (TL : tail h' l = match link h (Next i) with Some _ => tail h l | None => e end).
      { unfold h'. rewrite !tail_link. apply tail_same. }
      rewrite TL. destruct b as [|x r].
      * cbn in SB. rewrite <- SB in T0. rewrite T0. split.
        -- rewrite app_nil_r. exact SA'.
        -- rewrite LE'. exact T0.
      * destruct SB as (LX & SR). rewrite LX. split.
        -- apply seg_app. split; [auto|]. cbn [seg]. fold e. split; [congruence|].
           apply nodup_right in NC. unfold cursors in NC. cbn [map] in NC.
           inversion NC as [|? ? M1 NC1]; subst. inversion NC1 as [|? ? M2 NC2]; subst.
           eapply seg_frame; [|exact SR]. intros c I.
           assert (J : In c (map Next (x :: r))).
           { change (map Next (x :: r)) with (cursors (Next x) r). rewrite cursors_srcs. apply in_or_app. now left. }
           apply LO.
           ++ intros ->. apply M1. right. exact J.
           ++ intros ->. apply M2. exact J.
        -- rewrite LO; [exact T0|intros E; rewrite E in T0; congruence|intros E; rewrite E in T0; congruence].
    + rewrite put_other by auto. eapply own_frame; [| |apply world_own, W].
      * intros c I. apply LO; intros ->; apply NM.
        -- exact (owned_one h f m l e W I OE).
        -- exact (owned_one h f m l _ W I OI).
      * unfold h'. rewrite !tail_link. now rewrite tail_other.
  - assert (IN : forall m j, In j (put f l (a ++ b) m) -> In j (f m)).
    { intros m j. unfold put. destruct (Nat.eqb_spec m l) as [->|]; [|auto].
      rewrite AB, !in_app_iff. cbn. tauto. }
    intros m1 m2 j I1 I2. apply (proj1 (proj2 W)) with j; auto.
  - intros j NJ. destruct (Nat.eq_dec j i) as [->|JI]; [exact LI|].
    assert (J : detached f j).
    { intros m I. apply (NJ m). unfold put. destruct (Nat.eqb_spec m l) as [->|]; [|auto].
      rewrite AB in I. rewrite !in_app_iff in *. cbn in I. intuition congruence. }
    rewrite LO.
    + apply W, J.
    + intros E. rewrite <- E in OE. eapply not_owned; eauto.
    + congruence.
Qed.

(** ** Splicing *)
Lemma splice_ok h f d k s : world h f -> d <> s -> k <= length (f d) ->
  world (slist_splice h d (cursor_at d (f d) k) s) (put (put f d (insert_at k (f s) (f d))) s []).
Proof.
  intros W DS K. rewrite cursor_at_end by auto. unfold insert_at.
  set (a := firstn k (f d)). set (b := skipn k (f d)). set (e := endl (Head d) a).
  assert (AB : f d = a ++ b) by (symmetry; apply firstn_skipn).
  assert (OE : owned f d e) by now apply owned_end.
  pose proof (world_own _ _ d W) as O. pose proof O as (N & SG0 & T0).
  rewrite AB in O, N. apply split_own in O. destruct O as (NC & SA & SB). fold e in NC, SA, SB.
  pose proof (world_own _ _ s W) as (NS & SS & TS).
  assert (OT : owned f s (tail h s)) by now apply owned_tail.
  assert (DISJ : forall c, owned f d c -> owned f s c -> False).
  { intros c A B. apply DS. eapply owned_one; eauto. }
  assert (ET : e <> tail h s) by (intros E; apply (DISJ e); [auto|now rewrite E]).
  assert (OS : owned f s (Head s)) by apply owned_head.
  assert (EH : e <> Head s) by (intros E; apply (DISJ e); [auto|now rewrite E]).
  assert (OD : owned f d (tail h d)) by now apply owned_tail.
  unfold slist_splice. set (h1 := set_link h (tail h s) (link h e)).
  change (tail (set_link h1 e (link h1 (Head s))) s) with (tail h s).
  change (tail (set_link h1 e (link h1 (Head s))) d) with (tail h d).
  set (h2 := set_link h1 e (link h1 (Head s))).
  assert (L2E : link h2 e = link h1 (Head s)) by apply link_same.
  assert (L2T : link h2 (tail h s) = link h e).
  { unfold h2, h1. rewrite link_other by auto. apply link_same. }
  assert (L2O : forall c, c <> e -> c <> tail h s -> link h2 c = link h c).
  { intros c A B. unfold h2, h1. now rewrite !link_other. }
  set (td := match link h2 (tail h d) with Some _ => tail h s | None => tail h d end).
  unfold slist_init. set (h' := set_tail (set_link _ _ _) s (Head s)).
  assert (LO : forall c, c <> Head s -> link h' c = link h2 c).
  { intros c A. unfold h'. rewrite link_tail, link_other by auto. reflexivity. }
  assert (LS : link h' (Head s) = None) by (unfold h'; rewrite link_tail; apply link_same).
  assert (TD : tail h' d = td).
  { unfold h'. rewrite tail_other by auto. rewrite tail_link. apply tail_same. }
  assert (TSs : tail h' s = Head s) by (unfold h'; apply tail_same).
  assert (TO : forall m, m <> d -> m <> s -> tail h' m = tail h m).
  { intros m A B. unfold h'. rewrite tail_other by auto. rewrite tail_link. now rewrite tail_other. }
  assert (INC : forall c, In c (srcs (Head d) a ++ cursors e b) -> owned f d c).
  { intros c I. unfold owned. now rewrite AB, cursors_app. }
  split; [|split].
  - intros m. apply own_represents. destruct (Nat.eq_dec m s) as [->|NMs].
    + rewrite put_same. split; [constructor|]. rewrite TSs. split; [reflexivity|exact LS].
    + rewrite put_other by auto. destruct (Nat.eq_dec m d) as [->|NMd].
      * rewrite put_same. split.
        { apply nodup_insert; auto. intros y I J. rewrite <- AB in J. apply DS. apply (proj1 (proj2 W)) with y; auto. }
        assert (SA' : seg h' (Head d) a e).
        { eapply seg_frame; [|exact SA]. intros c I.
          assert (OC : owned f d c) by (apply INC, in_or_app; auto).
          rewrite LO by (intros ->; apply (DISJ _ OC OS)).
          apply L2O; [|intros ->; apply (DISJ _ OC OT)].
          intros ->. eapply nodup_disj; [exact NC|exact I|now left]. }
        assert (SB' : forall x r, b = x :: r -> seg h' (Next x) r (tail h d) /\ link h' (tail h d) = None /\ link h2 (tail h d) = None /\ link h e = Some x).
        { intros x r ->. destruct SB as (LX & SR).
          apply nodup_right in NC. unfold cursors in NC. cbn [map] in NC. inversion NC as [|? ? M1 NC1]; subst.
          assert (CC : forall c, In c (cursors (Next x) r) -> link h' c = link h c /\ link h2 c = link h c).
          { intros c I. assert (OC : owned f d c) by (apply INC, in_or_app; right; right; exact I).
            assert (E2 : link h2 c = link h c).
            { apply L2O; [intros ->; apply M1; exact I|intros ->; apply (DISJ _ OC OT)]. }
            split; [|exact E2]. rewrite LO; [exact E2|]. intros ->; apply (DISJ _ OC OS). }
          assert (IT : In (tail h d) (cursors (Next x) r)).
          { rewrite (seg_end _ _ _ _ SR). apply in_end. }
          split; [|split; [|split]].
          - eapply seg_frame; [|exact SR]. intros c I. apply CC. rewrite cursors_srcs. apply in_or_app. now left.
          - destruct (CC _ IT) as (-> & _). exact T0.
          - destruct (CC _ IT) as (_ & ->). exact T0.
          - exact LX. }
        destruct (f s) as [|y ys] eqn:FS.
        -- (* nothing to splice *)
           cbn in SS. assert (L1 : link h1 (Head s) = link h e) by (unfold h1; rewrite SS; apply link_same).
           rewrite L1 in L2E. cbn [app]. rewrite TD. unfold td. destruct b as [|x r].
           ++ cbn in SB. rewrite <- SB in *. rewrite L2E, T0. split.
              ** rewrite app_nil_r. exact SA'.
              ** rewrite LO, L2E by auto. exact T0.
           ++ destruct (SB' x r eq_refl) as (A1 & A2 & A3 & A4). rewrite A3. split.
              ** apply seg_app. split; [exact SA'|]. fold e. cbn [seg]. split; [|exact A1].
                 rewrite LO, L2E by auto. exact A4.
              ** exact A2.
        -- cbn [seg] in SS. destruct SS as (LH & SY).
           assert (HT : tail h s <> Head s) by (intros E; rewrite E in TS; congruence).
           assert (L1 : link h1 (Head s) = Some y) by (unfold h1; rewrite link_other; auto).
           rewrite L1 in L2E.
           pose proof (proj1 (nodup_cursors s _) NS) as NCS.
           unfold cursors in NCS. cbn [map] in NCS. inversion NCS as [|? ? M1 NC1]; subst.
           assert (ETs : tail h s = endl (Next y) ys) by (eapply seg_end, SY).
           change (Next y :: map Next ys) with (cursors (Next y) ys) in NC1, M1.
           assert (SY' : seg h' (Next y) ys (tail h s)).
           { eapply seg_frame; [|exact SY]. intros c I.
             assert (IC : In c (cursors (Next y) ys)) by (rewrite cursors_srcs; apply in_or_app; now left).
             assert (OC : owned f s c) by (unfold owned; rewrite FS; right; exact IC).
             rewrite LO by (intros ->; exact (M1 IC)).
             apply L2O.
             - intros ->. apply (DISJ e); auto.
             - rewrite ETs. intros ->. rewrite cursors_srcs in NC1. eapply nodup_disj; [exact NC1|exact I|now left]. }
           rewrite TD. unfold td. destruct b as [|x r].
           ++ cbn in SB. rewrite <- SB in *. rewrite L2E. split.
              ** apply seg_app. split; [exact SA'|]. fold e. rewrite app_nil_r. cbn [seg]. split; [|exact SY'].
                 rewrite LO by auto. exact L2E.
              ** rewrite LO by auto. congruence.
           ++ destruct (SB' x r eq_refl) as (A1 & A2 & A3 & A4). rewrite A3. split; [|exact A2].
              apply seg_app. split; [exact SA'|]. fold e. cbn [app seg].
              split; [rewrite LO by auto; exact L2E|].
              apply seg_app. rewrite <- ETs. split; [exact SY'|]. cbn [seg]. split; [|exact A1].
              rewrite LO by auto. congruence.
      * rewrite put_other by auto. eapply own_frame; [| |apply world_own, W].
        -- intros c I. fold (owned f m c) in I.
           rewrite LO by (intros ->; apply NMs; exact (owned_one h f m s _ W I OS)).
           apply L2O; intros ->.
           ++ apply NMd. exact (owned_one h f m d e W I OE).
           ++ apply NMs. exact (owned_one h f m s _ W I OT).
        -- auto.
  - assert (IN : forall m j, In j (put (put f d (a ++ f s ++ b)) s [] m) ->
                   m <> s /\ (In j (f m) \/ m = d /\ In j (f s))).
    { intros m j. unfold put. destruct (Nat.eqb_spec m s) as [->|NE]; [easy|]. split; [auto|].
      destruct (Nat.eqb_spec m d) as [->|]; [|auto]. rewrite AB. rewrite !in_app_iff in *. tauto. }
    intros m1 m2 j I1 I2. destruct W as (_ & DJ & _).
    destruct (IN _ _ I1) as (A1 & [J1|(E1 & J1)]), (IN _ _ I2) as (A2 & [J2|(E2 & J2)]); try congruence.
    + eauto.
    + exfalso. eauto.
    + exfalso. eauto.
  - intros j NJ.
    assert (J : detached f j).
    { intros m I. destruct (Nat.eq_dec m s) as [->|NM].
      - apply (NJ d). rewrite put_other, put_same by auto. rewrite !in_app_iff. tauto.
      - apply (NJ m). rewrite put_other by auto. destruct (Nat.eq_dec m d) as [->|].
        + rewrite put_same. rewrite AB in I. rewrite !in_app_iff in *. tauto.
        + now rewrite put_other. }
    rewrite LO by discriminate. rewrite L2O.
    + apply W, J.
    + intros E. rewrite <- E in OE. eapply not_owned; eauto.
    + intros E. rewrite <- E in OT. eapply not_owned; eauto.
Qed.

(** ** All the operations *)
Lemma insert_at_end {A} (ys xs : list A) : insert_at (length xs) ys xs = xs ++ ys.
Proof. unfold insert_at. now rewrite firstn_all, skipn_all, app_nil_r. Qed.
Lemma world_tail h f l : world h f -> tail h l = cursor_at l (f l) (length (f l)).
Proof. intros (R & _). apply R. Qed.

Lemma step_ok h f o : world h f -> allowed o f ->
  exists h', run o h f = Some (h', returned o f) /\ world h' (after o f).
Proof.
  intros W A. destruct o as [l k i|l i|l i|l k|l|d k s|d s]; cbn in *.
  - destruct (insert_ok h f l k i W) as (h' & E & W'); [tauto|tauto|]. rewrite E. eauto.
  - destruct (insert_ok h f l (length (f l)) i W A) as (h' & E & W'); [auto|].
    unfold slist_append. rewrite (world_tail h f l W), E. rewrite insert_at_end in W'. eauto.
  - destruct (insert_ok h f l 0 i W A) as (h' & E & W'); [lia|].
    unfold slist_prepend. change (Head l) with (cursor_at l (f l) 0). rewrite E. eauto.
  - destruct (remove_ok h f l k W A) as (h' & i & E & N & W'). rewrite E, N. eauto.
  - unfold slist_pop. pose proof (world_own _ _ l W) as (N & SG & T). destruct (f l) as [|x r] eqn:FL.
    + cbn in SG. rewrite <- SG in T. rewrite T. exists h. split; [reflexivity|].
      destruct W as (R & DJ & DT).
      assert (E : forall m, put f l [] m = f m).
      { intros m. destruct (Nat.eq_dec m l) as [->|]; [now rewrite put_same|now apply put_other]. }
      split; [|split].
      * intros m. cbn. rewrite E. apply R.
      * intros m1 m2 j. cbn. rewrite !E. apply DJ.
      * intros j J. apply DT. intros m. rewrite <- E. apply J.
    + destruct SG as (L & _). rewrite L.
      destruct (remove_ok h f l 0 W) as (h' & i & E & N' & W'); [rewrite FL; cbn; lia|].
      change (Head l) with (cursor_at l (f l) 0). rewrite E. rewrite FL in *. cbn in N', W'. injection N' as <-. eauto.
  - eexists. split; [reflexivity|]. apply splice_ok; tauto.
  - eexists. split; [reflexivity|]. unfold slist_extend. rewrite (world_tail h f d W).
    rewrite <- insert_at_end. apply splice_ok; auto.
Qed.

Lemma walk_seg h xs : forall c d n, seg h c xs d -> link h d = None -> length xs <= n -> slist_walk n h c = Some xs.
Proof.
  induction xs as [|x r IH]; intros c d n SG L K.
  - cbn in SG. subst. destruct n; cbn; now rewrite L.
  - destruct SG as (LX & SR). destruct n as [|n]; cbn in *; [lia|]. rewrite LX.
    rewrite (IH (Next x) d n SR L) by lia. reflexivity.
Qed.

Lemma observe h f l : world h f ->
  (forall n, length (f l) <= n -> slist_walk n h (Head l) = Some (f l)) /\
  slist_head h l = nth_error (f l) 0 /\
  slist_tail h l = nth_error (rev (f l)) 0 /\
  (slist_empty h l = true <-> f l = []) /\
  (forall i, (forall m, m <> l -> ~ In i (f m)) -> (slist_attached h l i = true <-> In i (f l))).
Proof.
  intros W. pose proof (world_own _ _ l W) as (N & SG & T).
  assert (HD : slist_head h l = nth_error (f l) 0).
  { unfold slist_head. destruct (f l); cbn in *; [congruence|tauto]. }
  split; [intros n; now apply walk_seg with (tail h l)|]. split; [exact HD|]. split; [|split].
  - unfold slist_tail. fold (slist_head h l). rewrite HD.
    destruct (f l) as [|x r] eqn:FL; [reflexivity|]. cbn [nth_error].
    rewrite (seg_end _ _ _ _ SG).
    destruct (@exists_last _ (x :: r)) as (ys & y & E); [discriminate|]. rewrite E, rev_app_distr, endl_app. reflexivity.
  - unfold slist_empty. rewrite HD. destruct (f l); cbn; split; congruence.
  - intros i OTH. unfold slist_attached. split.
    + destruct (in_dec Nat.eq_dec i (f l)) as [I|NI]; [auto|]. intros H. exfalso.
      assert (D : detached f i).
      { intros m. destruct (Nat.eq_dec m l) as [->|]; auto. }
      rewrite (proj2 (proj2 W) i D) in H. destruct (ceqb_spec (tail h l) (Next i)) as [E|]; [|discriminate].
      apply (not_owned f l i D). rewrite <- E. now apply (owned_tail h).
    + intros I. apply in_split in I. destruct I as (a & b & E). rewrite E in SG.
      apply seg_app in SG. destruct SG as (_ & _ & SB). destruct b as [|x r].
      * cbn in SB. rewrite SB, T. destruct (ceqb_spec (tail h l) (tail h l)); congruence.
      * destruct SB as (-> & _). reflexivity.
Qed.

Lemma init_ok h : (forall l, link h (Head l) = None /\ tail h l = Head l) -> (forall i, link h (Next i) = None) ->
  world h (fun _ => []).
Proof.
  intros L I. split; [|split].
  - intros l. split; [constructor|]. split; [|apply L]. intros k K. cbn in K. destruct k; [cbn; apply L|lia].
  - easy.
  - auto.
Qed.

Lemma fresh_ok h : fresh h -> world h (fun _ => []).
Proof.
  intros (A & B). apply init_ok.
  - intros l. destruct (A l) as (h0 & -> & ->). unfold slist_init. split; [rewrite link_tail; apply link_same|apply tail_same].
  - intros i. destruct (B i) as (h0 & ->). apply link_same.
Qed.
Lemma run_all_ok os : forall h f, world h f -> allowed_all os f ->
  exists h', run_all os h f = Some (h', returned_all os f) /\ world h' (after_all os f).
Proof.
  induction os as [|o os IH]; cbn; intros h f W A; [eauto|].
  destruct A as (A & B). destruct (step_ok h f o W A) as (h1 & -> & W1).
  destruct (IH h1 _ W1 B) as (h2 & -> & W2). eauto.
Qed.
Lemma fresh_run_all os h : fresh h -> allowed_all os (fun _ => []) ->
  exists h', run_all os h (fun _ => []) = Some (h', returned_all os (fun _ => [])) /\ world h' (after_all os (fun _ => [])).
Proof. intros F A. apply run_all_ok; [now apply fresh_ok|exact A]. Qed.
