From Coq Require Import List Arith Bool Lia.
From Verif Require Import ListModel ListSpec ListProofs.
Import ListNotations.

Definition hd (xs : list nat) : option nat := nth_error xs 0.
Definition lst (xs : list nat) : option nat := nth_error (rev xs) 0.

Lemma lst_snoc a x : lst (a ++ [x]) = Some x.
Proof. unfold lst. now rewrite rev_app_distr. Qed.
Lemma lst_app a x r : lst (a ++ x :: r) = lst (x :: r).
Proof.
  destruct (@exists_last _ (x :: r)) as (ys & y & E); [discriminate|].
  rewrite E, app_assoc, !lst_snoc. reflexivity.
Qed.
Lemma lst_in a j : lst a = Some j -> exists r, a = r ++ [j].
Proof.
  destruct a as [|x r] using rev_ind; [discriminate|]. rewrite lst_snoc. intros E. injection E as <-. eauto.
Qed.
Lemma hd_in b j : hd b = Some j -> exists r, b = j :: r.
Proof. destruct b; cbn; [discriminate|]. intros E. injection E as <-. eauto. Qed.
Lemma hd_none b : hd b = None -> b = [].
Proof. destruct b; cbn; easy. Qed.
Lemma lst_none b : lst b = None -> b = [].
Proof. destruct b as [|x r] using rev_ind; [auto|]. now rewrite lst_snoc. Qed.

Lemma split_cons (a b a' b' : list nat) i j : a ++ i :: b = a' ++ j :: b' ->
  (exists m, a = a' ++ j :: m /\ b' = m ++ i :: b) \/
  (a = a' /\ i = j /\ b = b') \/
  (exists m, a' = a ++ i :: m /\ b = m ++ j :: b').
Proof.
  revert a'. induction a as [|x r IH]; intros [|y s] E; cbn in *; injection E as E1 E2; subst.
  - auto.
  - right. right. eauto.
  - left. eauto.
  - destruct (IH _ E2) as [(m & -> & ->)|[(-> & -> & ->)|(m & -> & ->)]]; eauto 6.
Qed.

Lemma upd_same f i v : upd f i v i = v.
Proof. unfold upd. now rewrite Nat.eqb_refl. Qed.
Lemma upd_other f i v x : x <> i -> upd f i v x = f x.
Proof. unfold upd. destruct (Nat.eqb_spec x i); congruence. Qed.

(** Inserting [i] between [a] and [b] *)
Lemma dinsert_ok h f l k i : dworld h f -> detached f i -> k <= length (f l) ->
  exists h', list_insert h l (lst (firstn k (f l))) i = Some h' /\ dworld h' (put f l (insert_at k [i] (f l))).
Proof.
  intros W D K. unfold insert_at. set (a := firstn k (f l)). set (b := skipn k (f l)).
  assert (AB : f l = a ++ b) by (symmetry; apply firstn_skipn).
  destruct W as (R & DJ & DT).
  assert (NI : ~ In i (a ++ b)) by (rewrite <- AB; apply D).
  destruct (R l) as (N & FI & LA & PN). rewrite AB in *.
  destruct (DT i D) as (PI & NX).
  unfold list_insert, list_attached. rewrite PI, NX. cbn [some orb].
  assert (F1 : is i (first h l) = false).
  { rewrite FI. destruct (nth_error (a ++ b) 0) as [j|] eqn:E; [|reflexivity]. cbn.
    apply Nat.eqb_neq. intros <-. apply NI. eapply nth_error_In, E. }
  assert (L1 : is i (last h l) = false).
  { rewrite LA. destruct (nth_error (rev (a ++ b)) 0) as [j|] eqn:E; [|reflexivity]. cbn.
    apply Nat.eqb_neq. intros <-. apply NI. apply in_rev. eapply nth_error_In, E. }
  rewrite F1, L1. cbn [orb].
  eexists. split; [reflexivity|].
  (* the old link forward from a leads to b *)
  assert (OLD : match lst a with Some j => next h j | None => first h l end = hd b).
  { destruct (lst a) as [j|] eqn:E.
    - destruct (lst_in _ _ E) as (r & EA). destruct (PN r j b) as (_ & X); [rewrite EA, <- app_assoc; reflexivity|exact X].
    - apply lst_none in E. rewrite FI, E. reflexivity. }
  cbn zeta. change (prev (set_prev h i (lst a))) with (upd (prev h) i (lst a)).
  set (h2 := set_next (set_prev h i (lst a)) i _).
  assert (P2 : prev h2 i = lst a) by apply upd_same.
  assert (N2 : next h2 i = hd b) by (unfold h2; cbn; rewrite upd_same; exact OLD).
  rewrite P2. set (h3 := set_from h2 l (lst a) (Some i)).
  assert (LAI : forall j, lst a = Some j -> j <> i).
  { intros j E ->. apply NI. destruct (lst_in _ _ E) as (r & ->). rewrite !in_app_iff. cbn. tauto. }
  assert (HBI : forall j, hd b = Some j -> j <> i).
  { intros j E ->. apply NI. destruct (hd_in _ _ E) as (r & ->). rewrite !in_app_iff. cbn. tauto. }
  assert (N3 : next h3 i = hd b).
  { unfold h3, set_from. destruct (lst a) as [j|] eqn:E; [|exact N2]. cbn. rewrite upd_other; [exact N2|].
    apply not_eq_sym, LAI. reflexivity. }
  rewrite N3. set (h' := set_to h3 l (hd b) (Some i)).
  (* the final fields *)
  assert (Pi : prev h' i = lst a).
  { unfold h', h3, set_to, set_from. destruct (hd b) as [j|] eqn:E; destruct (lst a); cbn; try (rewrite upd_other by (apply not_eq_sym, HBI; reflexivity));
      apply upd_same. }
  assert (Ni : next h' i = hd b) by (unfold h', set_to; destruct (hd b); exact N3).
  assert (Pj : forall j, j <> i -> prev h' j = if is j (hd b) then Some i else prev h j).
  { intros j NE. unfold h', h3, set_to, set_from. destruct (hd b) as [x|] eqn:E; destruct (lst a); cbn; unfold upd; cbn;
      destruct (Nat.eqb_spec j i); try congruence; destruct (Nat.eqb_spec j x); congruence. }
  assert (Nj : forall j, j <> i -> next h' j = if is j (lst a) then Some i else next h j).
  { intros j NE. unfold h', h3, set_to, set_from. destruct (lst a) as [x|] eqn:E; destruct (hd b); cbn; unfold upd; cbn;
      destruct (Nat.eqb_spec j i); try congruence; destruct (Nat.eqb_spec j x); congruence. }
  assert (Fl : first h' l = match lst a with None => Some i | Some _ => first h l end).
  { unfold h', h3, set_to, set_from. destruct (lst a); destruct (hd b); cbn; try rewrite upd_same; reflexivity. }
  assert (Ll : last h' l = match hd b with None => Some i | Some _ => last h l end).
  { unfold h', h3, set_to, set_from. destruct (lst a); destruct (hd b); cbn; try rewrite upd_same; reflexivity. }
  assert (Fm : forall m, m <> l -> first h' m = first h m /\ last h' m = last h m).
  { intros m NE. unfold h', h3, set_to, set_from. destruct (lst a); destruct (hd b); cbn; rewrite ?upd_other by auto; auto. }
  clearbody h'. clear N3 h3 P2 N2 h2.
  split; [|split].
  - intros m. destruct (Nat.eq_dec m l) as [->|NM].
    + rewrite put_same. split.
      { apply nodup_insert; auto; [constructor; [easy|constructor]|]. intros y [<-|[]]. exact NI. }
      split; [|split].
      * rewrite Fl. destruct (lst a) as [j|] eqn:E.
        -- rewrite FI. destruct (lst_in _ _ E) as (r & ->). destruct r; reflexivity.
        -- apply lst_none in E. now rewrite E.
      * rewrite Ll. destruct (hd b) as [j|] eqn:E.
        -- rewrite LA. destruct (hd_in _ _ E) as (r & EB). rewrite EB. fold (lst (a ++ j :: r)) (lst (a ++ [i] ++ j :: r)).
           cbn [app]. rewrite !lst_app. change (i :: j :: r) with ([i] ++ j :: r). now rewrite lst_app.
        -- apply hd_none in E. rewrite E. fold (lst (a ++ [i] ++ [])). cbn [app]. now rewrite lst_snoc.
      * intros a' j b' E. cbn [app] in E. destruct (split_cons _ _ _ _ _ _ E) as [(m & EA & EB)|[(EA & EI & EB)|(m & EA & EB)]].
        -- (* before *)
           assert (NE : j <> i).
           { intros ->. apply NI. rewrite EA, !in_app_iff. cbn. tauto. }
           destruct (PN a' j (m ++ b)) as (P & X); [rewrite EA, <- app_assoc; reflexivity|].
           assert (NHB : is j (hd b) = false).
           { destruct (hd b) as [x|] eqn:HB; [|reflexivity]. cbn. apply Nat.eqb_neq. intros <-.
             destruct (hd_in _ _ HB) as (r & HBr). apply (nodup_disj a b j N); [rewrite EA, in_app_iff; cbn; tauto|rewrite HBr; now left]. }
           rewrite (Pj j NE), NHB, (Nj j NE). split; [exact P|]. rewrite EB.
           destruct m as [|x m].
           ++ rewrite EA. rewrite lst_snoc. cbn. now rewrite Nat.eqb_refl.
           ++ assert (NL : is j (lst a) = false).
              { rewrite EA. rewrite (lst_app a' j (x :: m)). change (j :: x :: m) with ([j] ++ x :: m). rewrite lst_app.
                destruct (lst (x :: m)) as [z|] eqn:LZ; [|reflexivity]. cbn. apply Nat.eqb_neq. intros <-.
                destruct (lst_in _ _ LZ) as (r & ER).
                apply (nodup_disj (a' ++ [j]) (x :: m) j).
                - rewrite <- app_assoc. cbn. rewrite <- EA. clear -N. induction a; cbn in *; [constructor|].
                  inversion N as [|? ? M N']; subst. constructor; [rewrite in_app_iff in M; tauto|auto].
                - rewrite in_app_iff. cbn. tauto.
                - rewrite ER, in_app_iff. cbn. tauto. }
              rewrite NL. exact X.
        -- subst a' j b'. split; [exact Pi|exact Ni].
        -- (* after *)
           assert (NE : j <> i).
           { intros ->. apply NI. rewrite EB, !in_app_iff. cbn. tauto. }
           destruct (PN (a ++ m) j b') as (P & X); [rewrite EB, <- app_assoc; reflexivity|].
           assert (NLA : is j (lst a) = false).
           { destruct (lst a) as [x|] eqn:HB; [|reflexivity]. cbn. apply Nat.eqb_neq. intros <-.
             destruct (lst_in _ _ HB) as (r & HBr). apply (nodup_disj a b j N); [rewrite HBr, in_app_iff; cbn; tauto|rewrite EB, in_app_iff; cbn; tauto]. }
           rewrite (Pj j NE), (Nj j NE), NLA. split; [|exact X]. fold (lst a'). rewrite EA.
           destruct m as [|x m].
           ++ rewrite EB. cbn [is hd nth_error app]. rewrite Nat.eqb_refl. now rewrite lst_snoc.
           ++ assert (NH : is j (hd b) = false).
              { rewrite EB. cbn. apply Nat.eqb_neq. intros ->. apply nodup_right in N. rewrite EB in N. cbn in N.
                inversion N as [|? ? M _]; subst. apply M. rewrite in_app_iff. cbn. tauto. }
              rewrite NH. rewrite P. fold (lst (a ++ x :: m)). rewrite !lst_app.
              change (i :: x :: m) with ([i] ++ x :: m). now rewrite lst_app.
    + rewrite put_other by auto. destruct (R m) as (N' & FI' & LA' & PN'). destruct (Fm m NM) as (E1 & E2).
      split; [exact N'|]. split; [congruence|]. split; [congruence|].
      intros a' j b' E. specialize (PN' a' j b' E).
      assert (IJ : In j (f m)) by (rewrite E, in_app_iff; cbn; tauto).
      assert (NE : j <> i) by (intros ->; exact (D m IJ)).
      assert (NL : ~ In j (a ++ b)).
      { rewrite <- AB. intros J. apply NM. eauto. }
      rewrite (Pj j NE), (Nj j NE).
      assert (N1 : is j (hd b) = false).
      { destruct (hd b) as [x|] eqn:HB; [|reflexivity]. cbn. apply Nat.eqb_neq. intros <-.
        apply NL. destruct (hd_in _ _ HB) as (r & ->). rewrite in_app_iff. cbn. tauto. }
      assert (N2 : is j (lst a) = false).
      { destruct (lst a) as [x|] eqn:HB; [|reflexivity]. cbn. apply Nat.eqb_neq. intros <-.
        apply NL. destruct (lst_in _ _ HB) as (r & ->). rewrite !in_app_iff. cbn. tauto. }
      now rewrite N1, N2.
  - assert (IN : forall m j, In j (put f l (a ++ [i] ++ b) m) -> (j = i /\ m = l) \/ In j (f m)).
    { intros m j. unfold put. destruct (Nat.eqb_spec m l) as [->|]; [|auto].
      rewrite AB, !in_app_iff. cbn. intuition (subst; auto). }
    intros m1 m2 j I1 I2.
    destruct (IN _ _ I1) as [(-> & ->)|J1], (IN _ _ I2) as [(E & ->)|J2]; auto.
    + exfalso. now apply (D m2).
    + subst. exfalso. now apply (D m1).
    + eauto.
  - intros j NJ.
    assert (J : detached f j).
    { intros m I. apply (NJ m). unfold put. destruct (Nat.eqb_spec m l) as [->|]; [|auto].
      rewrite AB in I. rewrite !in_app_iff in *. tauto. }
    assert (JI : j <> i).
    { intros ->. apply (NJ l). rewrite put_same. apply in_or_app. right. now left. }
    assert (NL : ~ In j (a ++ b)) by (rewrite <- AB; apply J).
    rewrite (Pj j JI), (Nj j JI).
    assert (N1 : is j (hd b) = false).
    { destruct (hd b) as [x|] eqn:HB; [|reflexivity]. cbn. apply Nat.eqb_neq. intros <-.
      apply NL. destruct (hd_in _ _ HB) as (r & ->). rewrite in_app_iff. cbn. tauto. }
    assert (N2 : is j (lst a) = false).
    { destruct (lst a) as [x|] eqn:HB; [|reflexivity]. cbn. apply Nat.eqb_neq. intros <-.
      apply NL. destruct (lst_in _ _ HB) as (r & ->). rewrite !in_app_iff. cbn. tauto. }
    rewrite N1, N2. now apply DT.
Qed.

Lemma filter_out i xs : ~ In i xs -> filter (fun j => negb (Nat.eqb i j)) xs = xs.
Proof.
  induction xs as [|x r IH]; cbn; intros N; [auto|]. destruct (Nat.eqb_spec i x); cbn; [exfalso; auto|].
  f_equal. auto.
Qed.

(** Removing [i] from between [a] and [b] *)
Lemma dremove_ok h f l i : dworld h f -> In i (f l) ->
  dworld (list_remove h l i) (put f l (filter (fun j => negb (Nat.eqb i j)) (f l))).
Proof.
  intros (R & DJ & DT) I. destruct (in_split _ _ I) as (a & b & AB).
  destruct (R l) as (N & FI & LA & PN). rewrite AB in *.
  assert (NIb : ~ In i b).
  { intros J. apply nodup_right in N. inversion N; auto. }
  assert (NIa : ~ In i a).
  { intros J. apply (nodup_disj a (i :: b) i N J). now left. }
  assert (FE : filter (fun j => negb (Nat.eqb i j)) (a ++ i :: b) = a ++ b).
  { rewrite filter_app. cbn. rewrite Nat.eqb_refl. cbn. now rewrite !filter_out. }
  rewrite FE. assert (NAB : NoDup (a ++ b)) by now apply (nodup_delete a b [i]).
  destruct (PN a i b eq_refl) as (PI & NX). fold (lst a) in PI. fold (hd b) in NX.
  unfold list_remove. rewrite PI, NX. set (h1 := set_from h l (lst a) (hd b)).
  assert (LAI : forall j, lst a = Some j -> j <> i).
  { intros j E ->. apply NIa. destruct (lst_in _ _ E) as (r & ->). rewrite !in_app_iff. cbn. tauto. }
  assert (HBI : forall j, hd b = Some j -> j <> i).
  { intros j E ->. apply NIb. destruct (hd_in _ _ E) as (r & ->). now left. }
  assert (N1 : next h1 i = hd b).
  { unfold h1, set_from. destruct (lst a) as [j|] eqn:E; [|exact NX]. cbn. rewrite upd_other; [exact NX|].
    apply not_eq_sym, LAI. reflexivity. }
  assert (P1 : prev h1 i = lst a).
  { unfold h1, set_from. destruct (lst a) as [j|] eqn:E; exact PI. }
  rewrite N1, P1. set (h2 := set_to h1 l (hd b) (lst a)). cbn zeta.
  set (h' := set_prev _ i None).
  assert (Pi : prev h' i = None) by apply upd_same.
  assert (Ni : next h' i = None) by (unfold h'; cbn; apply upd_same).
  assert (Pj : forall j, j <> i -> prev h' j = if is j (hd b) then lst a else prev h j).
  { intros j NE. unfold h', h2, h1, set_to, set_from. destruct (hd b) as [x|] eqn:E; destruct (lst a); cbn; unfold upd; cbn;
      destruct (Nat.eqb_spec j i); try congruence; destruct (Nat.eqb_spec j x); congruence. }
  assert (Nj : forall j, j <> i -> next h' j = if is j (lst a) then hd b else next h j).
  { intros j NE. unfold h', h2, h1, set_to, set_from. destruct (lst a) as [x|] eqn:E; destruct (hd b); cbn; unfold upd; cbn;
      destruct (Nat.eqb_spec j i); try congruence; destruct (Nat.eqb_spec j x); congruence. }
  assert (Fl : first h' l = match lst a with None => hd b | Some _ => first h l end).
  { unfold h', h2, h1, set_to, set_from. destruct (lst a); destruct (hd b); cbn; try rewrite upd_same; reflexivity. }
  assert (Ll : last h' l = match hd b with None => lst a | Some _ => last h l end).
  { unfold h', h2, h1, set_to, set_from. destruct (lst a); destruct (hd b); cbn; try rewrite upd_same; reflexivity. }
  assert (Fm : forall m, m <> l -> first h' m = first h m /\ last h' m = last h m).
  { intros m NE. unfold h', h2, h1, set_to, set_from. destruct (lst a); destruct (hd b); cbn; rewrite ?upd_other by auto; auto. }
  clearbody h'. clear N1 P1 h2 h1.
  assert (OUT : forall j, ~ In j (a ++ b) -> is j (hd b) = false /\ is j (lst a) = false).
  { intros j NL. split.
    - destruct (hd b) as [x|] eqn:HB; [|reflexivity]. cbn. apply Nat.eqb_neq. intros <-.
      apply NL. destruct (hd_in _ _ HB) as (r & ->). rewrite in_app_iff. cbn. tauto.
    - destruct (lst a) as [x|] eqn:HB; [|reflexivity]. cbn. apply Nat.eqb_neq. intros <-.
      apply NL. destruct (lst_in _ _ HB) as (r & ->). rewrite !in_app_iff. cbn. tauto. }
  split; [|split].
  - intros m. destruct (Nat.eq_dec m l) as [->|NM].
    + rewrite put_same. split; [exact NAB|]. split; [|split].
      * rewrite Fl. destruct (lst a) as [j|] eqn:E.
        -- rewrite FI. destruct (lst_in _ _ E) as (r & ->). destruct r; reflexivity.
        -- apply lst_none in E. now rewrite E.
      * rewrite Ll. destruct (hd b) as [j|] eqn:E.
        -- rewrite LA. destruct (hd_in _ _ E) as (r & EB). rewrite EB. fold (lst (a ++ j :: r)) (lst (a ++ i :: j :: r)).
           rewrite !lst_app. change (i :: j :: r) with ([i] ++ j :: r). now rewrite lst_app.
        -- apply hd_none in E. rewrite E, app_nil_r. reflexivity.
      * intros a' j b' E.
        assert (NE : j <> i).
        { intros ->. assert (J : In i (a ++ b)) by (rewrite E, in_app_iff; cbn; tauto). apply in_app_or in J. tauto. }
        rewrite (Pj j NE), (Nj j NE).
        assert (CASES : (exists m, a = a' ++ j :: m /\ b' = m ++ b) \/ (exists m, a' = a ++ m /\ b = m ++ j :: b')).
        { clear -E. revert a' E. induction a as [|x r IH]; intros [|y s] E; cbn in *.
          - right. exists []. auto.
          - right. exists (y :: s). auto.
          - injection E as -> E. left. exists r. auto.
          - injection E as -> E. destruct (IH _ E) as [(m & -> & ->)|(m & -> & ->)]; eauto. }
        destruct CASES as [(m & EA & EB)|(m & EA & EB)].
        -- destruct (PN a' j (m ++ i :: b)) as (P & X); [rewrite EA, <- app_assoc; reflexivity|].
           assert (NHB : is j (hd b) = false).
           { destruct (hd b) as [x|] eqn:HB; [|reflexivity]. cbn. apply Nat.eqb_neq. intros <-.
             destruct (hd_in _ _ HB) as (r & HBr). apply (nodup_disj a b j NAB); [rewrite EA, in_app_iff; cbn; tauto|rewrite HBr; now left]. }
           rewrite NHB. split; [exact P|]. rewrite EB. destruct m as [|x m].
           ++ rewrite EA, lst_snoc. cbn. rewrite Nat.eqb_refl. reflexivity.
           ++ assert (NL : is j (lst a) = false).
              { rewrite EA. rewrite (lst_app a' j (x :: m)). change (j :: x :: m) with ([j] ++ x :: m). rewrite lst_app.
                destruct (lst (x :: m)) as [z|] eqn:LZ; [|reflexivity]. cbn. apply Nat.eqb_neq. intros <-.
                destruct (lst_in _ _ LZ) as (r & ER).
                apply (nodup_disj (a' ++ [j]) (x :: m) j).
                - rewrite <- app_assoc. cbn. rewrite <- EA. clear -NAB. induction a; cbn in *; [constructor|].
                  inversion NAB as [|? ? M N']; subst. constructor; [rewrite in_app_iff in M; tauto|auto].
                - rewrite in_app_iff. cbn. tauto.
                - rewrite ER, in_app_iff. cbn. tauto. }
              rewrite NL. exact X.
        -- destruct (PN (a ++ i :: m) j b') as (P & X); [rewrite EB, <- app_assoc; reflexivity|].
           assert (NLA : is j (lst a) = false).
           { destruct (lst a) as [x|] eqn:HB; [|reflexivity]. cbn. apply Nat.eqb_neq. intros <-.
             destruct (lst_in _ _ HB) as (r & HBr). apply (nodup_disj a b j NAB); [rewrite HBr, in_app_iff; cbn; tauto|rewrite EB, in_app_iff; cbn; tauto]. }
           rewrite NLA. split; [|exact X]. fold (lst a'). rewrite EA. destruct m as [|x m].
           ++ rewrite EB, app_nil_r. cbn. rewrite Nat.eqb_refl. reflexivity.
           ++ assert (NH : is j (hd b) = false).
              { rewrite EB. cbn. apply Nat.eqb_neq. intros ->. apply nodup_right in NAB. rewrite EB in NAB. cbn in NAB.
                inversion NAB as [|? ? M _]; subst. apply M. rewrite in_app_iff. cbn. tauto. }
              rewrite NH, P. fold (lst (a ++ i :: x :: m)). rewrite !lst_app.
              change (i :: x :: m) with ([i] ++ x :: m). now rewrite lst_app.
    + rewrite put_other by auto. destruct (R m) as (N' & FI' & LA' & PN'). destruct (Fm m NM) as (E1 & E2).
      split; [exact N'|]. split; [congruence|]. split; [congruence|].
      intros a' j b' E. specialize (PN' a' j b' E).
      assert (IJ : In j (f m)) by (rewrite E, in_app_iff; cbn; tauto).
      assert (NE : j <> i) by (intros ->; apply NM; apply DJ with i; auto; rewrite AB; auto).
      assert (NL : ~ In j (a ++ b)).
      { intros J. apply NM. apply DJ with j; auto. rewrite AB. rewrite in_app_iff in *. cbn. tauto. }
      rewrite (Pj j NE), (Nj j NE). destruct (OUT j NL) as (-> & ->). exact PN'.
  - assert (IN : forall m j, In j (put f l (a ++ b) m) -> In j (f m)).
    { intros m j. unfold put. destruct (Nat.eqb_spec m l) as [->|]; [|auto].
      rewrite AB, !in_app_iff. cbn. tauto. }
    intros m1 m2 j I1 I2. eauto.
  - intros j NJ. destruct (Nat.eq_dec j i) as [->|NE]; [auto|].
    assert (NL : ~ In j (a ++ b)) by (rewrite <- (put_same f l (a ++ b)); apply NJ).
    rewrite (Pj j NE), (Nj j NE). destruct (OUT j NL) as (-> & ->). apply DT. intros m J.
    destruct (Nat.eq_dec m l) as [->|NM].
    + rewrite AB in J. rewrite in_app_iff in *. cbn in J. intuition congruence.
    + apply (NJ m). now rewrite put_other.
Qed.

Lemma dstep_ok h f o : dworld h f -> dallowed o f ->
  exists h', drun o h f = Some h' /\ dworld h' (dafter o f).
Proof.
  intros W A. destruct o as [l k i|l i|l i|l i]; cbn in *.
  - apply dinsert_ok; tauto.
  - destruct (dinsert_ok h f l (length (f l)) i W A) as (h' & E & W'); [auto|].
    rewrite insert_at_end, firstn_all in *. unfold list_append.
    destruct (proj1 W l) as (_ & _ & -> & _). eauto.
  - destruct (dinsert_ok h f l 0 i W A) as (h' & E & W'); [lia|]. eauto.
  - eexists. split; [reflexivity|]. now apply dremove_ok.
Qed.

Lemma dattached h f l i : dworld h f -> (forall m, m <> l -> ~ In i (f m)) ->
  (list_attached h l i = true <-> In i (f l)).
Proof.
  intros W OTH. destruct (proj1 W l) as (N & FI & LA & PN). unfold list_attached. split.
  - intros H. destruct (in_dec Nat.eq_dec i (f l)) as [|NI]; [auto|]. exfalso.
    destruct (proj2 (proj2 W) i) as (A & B).
    { intros m. destruct (Nat.eq_dec m l) as [->|]; auto. }
    rewrite A, B, FI, LA in H. cbn [some orb] in H. apply orb_true_iff in H. destruct H as [H|H].
    + destruct (nth_error (f l) 0) as [j|] eqn:E; [|discriminate]. cbn in H. apply Nat.eqb_eq in H. subst.
      apply NI. eapply nth_error_In, E.
    + destruct (nth_error (rev (f l)) 0) as [j|] eqn:E; [|discriminate]. cbn in H. apply Nat.eqb_eq in H. subst.
      apply NI, in_rev. eapply nth_error_In, E.
  - intros I. destruct (in_split _ _ I) as (a & b & AB). destruct (PN a i b AB) as (P & X).
    rewrite FI, LA, P, X, AB. destruct b as [|y r]; [|cbn; now rewrite orb_true_r].
    fold (lst (a ++ [i])). rewrite lst_snoc. cbn. now rewrite Nat.eqb_refl, !orb_true_r.
Qed.

Lemma dfresh_ok h : dfresh h -> dworld h (fun _ => []).
Proof.
  intros (A & B). split; [|split].
  - intros l. destruct (A l) as (h0 & E1 & E2). split; [constructor|]. rewrite E1, E2. unfold list_init. cbn.
    rewrite !upd_same. split; [auto|]. split; [auto|]. intros [|? ?] i b E; discriminate.
  - easy.
  - intros i _. destruct (B i) as (h0 & -> & ->). unfold list_item_init. cbn. now rewrite !upd_same.
Qed.
Lemma drun_all_ok os : forall h f, dworld h f -> dallowed_all os f ->
  exists h', drun_all os h f = Some h' /\ dworld h' (dafter_all os f).
Proof.
  induction os as [|o os IH]; cbn; intros h f W A; [eauto|].
  destruct A as (A & B). destruct (dstep_ok h f o W A) as (h1 & -> & W1).
  destruct (IH h1 _ W1 B) as (h2 & -> & W2). eauto.
Qed.
Lemma dfresh_run_all os h : dfresh h -> dallowed_all os (fun _ => []) ->
  exists h', drun_all os h (fun _ => []) = Some h' /\ dworld h' (dafter_all os (fun _ => [])).
Proof. intros F A. apply drun_all_ok; [now apply dfresh_ok|exact A]. Qed.
