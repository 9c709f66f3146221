(** * Proofs about looking at files *)
From Coq Require Import List ZArith NArith Bool Lia.
From Verif Require Import ModeModel StatModel StatSpec.
Import ListNotations.
Local Open Scope Z_scope.

Lemma like_missing e : error_is_like e ENOENT = true <-> missing e.
Proof. unfold error_is_like, missing. cbn. rewrite orb_true_iff, !Z.eqb_eq. tauto. Qed.
Lemma like_missing_false e : error_is_like e ENOENT = false <-> ~ missing e.
Proof. rewrite <- like_missing. destruct (error_is_like e ENOENT); split; congruence || intuition discriminate. Qed.
Lemma like_enosys e : error_is_like e ENOSYS = true <-> e = ENOSYS \/ e = EPERM.
Proof. unfold error_is_like. cbn. rewrite orb_true_iff, !Z.eqb_eq. tauto. Qed.
Lemma link_kind s : S_ISLNK (st_mode s) = true <-> kind (Good s) = BFS_LNK.
Proof.
  unfold S_ISLNK, kind, bfs_mode_to_type.
  set (t := N.land (st_mode s) S_IFMT). clearbody t.
  destruct (N.eqb t S_IFLNK) eqn:E.
  - apply N.eqb_eq in E. subst t. split; reflexivity.
  - split; [discriminate|]. repeat match goal with |- context [if ?b then _ else _] => destruct b end; discriminate.
Qed.

Lemma eqb_lnk t : ftype_eqb t BFS_LNK = true <-> t = BFS_LNK.
Proof. destruct t; split; cbn; intros; congruence. Qed.

Section Facts.
  Variables (fs sx : bool -> result) (w : facts).
  Hypothesis C : consistent w.
  Hypothesis T : tells fs sx w.

  Lemma explicit_ok has b : exists has', bfs_stat_explicit fs sx has b = (fs b, has').
  Proof.
    unfold bfs_stat_explicit. destruct T as (_ & _ & X). destruct has; [|eauto].
    destruct (X b) as [-> |[-> | ->]].
    - destruct (fs b) as [s|e]; [eauto|]. destruct (error_is_like e ENOSYS); eauto.
    - cbn. eauto.
    - cbn. eauto.
  Qed.
  Lemma stat_ok has fl : exists r has', bfs_stat fs sx has fl = (r, has') /\ meant w fl r.
  Proof.
    unfold bfs_stat. destruct T as (L & R & _). destruct fl.
    - destruct (explicit_ok has false) as (h & ->). rewrite R. destruct (at_target w) eqn:E; eexists; eexists; (split; [reflexivity|]); cbn; auto.
    - destruct (explicit_ok has true) as (h & ->). rewrite L. destruct (at_link w) eqn:E; eexists; eexists; (split; [reflexivity|]); cbn; auto.
    - destruct (explicit_ok has false) as (h & ->). rewrite R. destruct (at_target w) as [s|e] eqn:E.
      + eexists; eexists; (split; [reflexivity|]); cbn. left. exists s. auto.
      + destruct (error_is_like e ENOENT) eqn:X.
        * destruct (explicit_ok h true) as (h' & ->). eexists; eexists; (split; [reflexivity|]); cbn. right. left.
          exists e. apply like_missing in X. rewrite L. auto.
        * eexists; eexists; (split; [reflexivity|]); cbn. right. right. apply like_missing_false in X. eauto.
  Qed.

  (** ** The cache *)

  Definition same_error (e e' : Z) : Prop := e = e' \/ missing e /\ missing e'.
  Record inv (f : BFTW) : Prop := {
    i_stat_ok : stat_err (b_bufs f) = 0 -> exists p, stat_buf (b_bufs f) = Some p /\ at_target w = Good (b_mem f p);
    i_stat_bad : stat_err (b_bufs f) > 0 -> exists e, at_target w = Bad e /\ same_error (stat_err (b_bufs f)) e;
    i_stat_no : stat_err (b_bufs f) < 0 -> stat_buf (b_bufs f) = Some StatBuf /\
                  ~ (lstat_err (b_bufs f) = 0 /\ lstat_buf (b_bufs f) = Some StatBuf);
    i_lstat_ok : lstat_err (b_bufs f) = 0 -> exists p, lstat_buf (b_bufs f) = Some p /\ at_link w = Good (b_mem f p);
    i_lstat_bad : lstat_err (b_bufs f) > 0 -> at_link w = Bad (lstat_err (b_bufs f));
    i_lstat_no : lstat_err (b_bufs f) < 0 -> lstat_buf (b_bufs f) = Some LstatBuf /\
                  ~ (stat_err (b_bufs f) = 0 /\ stat_buf (b_bufs f) = Some LstatBuf) }.

  (** Buffers that will not be written to any more *)
  Definition done (f : BFTW) (p : buffer) : Prop :=
    (p = StatBuf -> stat_err (b_bufs f) >= 0) /\ (p = LstatBuf -> lstat_err (b_bufs f) >= 0).
  Definition after (f f' : BFTW) : Prop :=
    inv f' /\ forall p, done f p -> done f' p /\ b_mem f' p = b_mem f p.
  Lemma after_refl f : inv f -> after f f.
  Proof. intros I. split; auto. Qed.
  Lemma after_trans f g h : after f g -> after g h -> after f h.
  Proof.
    intros (_ & A) (I & B). split; [exact I|]. intros p D. destruct (A p D) as (D' & E). destruct (B p D') as (D2 & E2).
    split; [exact D2|congruence].
  Qed.

  Lemma impl_nofollow f : inv f -> exists r f', bftw_stat_impl fs sx f BFS_STAT_NOFOLLOW = Some (r, f') /\ after f f' /\
    shows f' r = at_link w /\ (forall p, r = Found p -> done f' p) /\
    (lstat_err (b_bufs f') >= 0).
  Proof.
    intros I. unfold bftw_stat_impl. destruct (lstat_err (b_bufs f) =? 0) eqn:E0.
    { apply Z.eqb_eq in E0. destruct (i_lstat_ok f I E0) as (p & B & L). rewrite B. exists (Found p), f. split; [reflexivity|].
      split; [apply after_refl; exact I|]. split; [cbn; auto|]. split; [|lia]. intros q X. injection X as <-.
      split; intros ->; [|lia]. destruct (Z_lt_ge_dec (stat_err (b_bufs f)) 0) as [N|N]; [|exact N].
      exfalso. apply (i_stat_no f I N). auto. }
    apply Z.eqb_neq in E0. destruct (lstat_err (b_bufs f) >? 0) eqn:E1.
    { rewrite Z.gtb_ltb in E1. apply Z.ltb_lt in E1. exists (Failed (lstat_err (b_bufs f))), f. split; [reflexivity|].
      split; [apply after_refl; exact I|]. split; [|split; [discriminate|lia]]. cbn. symmetry. apply (i_lstat_bad f I). lia. }
    rewrite Z.gtb_ltb in E1. apply Z.ltb_ge in E1. assert (E : lstat_err (b_bufs f) < 0) by lia.
    destruct (i_lstat_no f I E) as (B & N). rewrite B.
    destruct (stat_ok (b_has_statx f) BFS_STAT_NOFOLLOW) as (r & has & R & M). rewrite R. cbn in M. subst r.
    destruct C as (C1 & C2 & C3 & C4).
    destruct (at_link w) as [s|e] eqn:L.
    - unfold bftw_stat_cache. cbn [Z.eqb negb].
      change (store (b_mem f) LstatBuf s LstatBuf) with s.
      destruct (S_ISLNK (st_mode s)) eqn:K; cbn [option_map]; eexists; eexists; (split; [reflexivity|]); unfold after, done;
        cbn [b_bufs b_mem stat_err stat_buf lstat_err lstat_buf shows].
      + split; [split|split; [reflexivity|split; [|lia]]].
        * split; cbn [b_bufs b_mem stat_err stat_buf lstat_err lstat_buf]; try lia.
          -- intros X. destruct (i_stat_ok f I X) as (p & Bp & Tp). exists p. split; [exact Bp|].
             unfold store. destruct p; cbn [buffer_eqb]; try exact Tp; exfalso; apply N; auto.
          -- apply (i_stat_bad f I).
          -- intros X. split; [apply (i_stat_no f I X)|]. intros (_ & Y). discriminate.
          -- intros _. exists LstatBuf. split; [reflexivity|]. exact L.
        * intros p (D1 & D2). split; [split; [exact D1|lia]|]. unfold store. destruct p; cbn [buffer_eqb]; auto.
          specialize (D2 eq_refl). lia.
        * intros p X. injection X as <-. split; [discriminate|lia].
      + assert (TS : at_target w = Good s).
        { apply C1; [reflexivity|]. intros X. apply link_kind in X. congruence. }
        split; [split|split; [reflexivity|split; [|lia]]].
        * split; cbn [b_bufs b_mem stat_err stat_buf lstat_err lstat_buf]; try lia; intros _; exists LstatBuf; (split; [reflexivity|]).
          -- exact TS.
          -- exact L.
        * intros p (D1 & D2). split; [split; lia|]. unfold store. destruct p; cbn [buffer_eqb]; auto.
          specialize (D2 eq_refl). lia.
        * intros p X. split; lia.
    - assert (P : e > 0) by (apply C4; auto). pose proof (C2 _ eq_refl) as TB.
      unfold bftw_stat_cache. replace (e =? 0) with false by (symmetry; apply Z.eqb_neq; lia). cbn [negb option_map].
      eexists; eexists. split; [reflexivity|]. unfold after, done. cbn [b_bufs b_mem stat_err stat_buf lstat_err lstat_buf shows].
      split; [split|split; [reflexivity|split; [discriminate|lia]]].
      + split; cbn [b_bufs b_mem stat_err stat_buf lstat_err lstat_buf]; try lia.
        * intros _. exists e. split; [exact TB|]. left. reflexivity.
        * intros _. exact L.
      + intros p _. split; [split; lia|reflexivity].
  Qed.

  Lemma impl_follow f : inv f -> exists r f', bftw_stat_impl fs sx f BFS_STAT_FOLLOW = Some (r, f') /\ after f f' /\
    (shows f' r = at_target w \/ exists e e', r = Failed e /\ at_target w = Bad e' /\ missing e /\ missing e') /\
    (forall p, r = Found p -> done f' p) /\
    (stat_err (b_bufs f') >= 0).
  Proof.
    intros I. unfold bftw_stat_impl. destruct (stat_err (b_bufs f) =? 0) eqn:E0.
    { apply Z.eqb_eq in E0. destruct (i_stat_ok f I E0) as (p & B & L). rewrite B. exists (Found p), f. split; [reflexivity|].
      split; [apply after_refl; exact I|]. split; [cbn; auto|]. split; [|lia]. intros q X. injection X as <-.
      split; intros ->; [lia|]. destruct (Z_lt_ge_dec (lstat_err (b_bufs f)) 0) as [N|N]; [|exact N].
      exfalso. apply (i_lstat_no f I N). auto. }
    apply Z.eqb_neq in E0. destruct (stat_err (b_bufs f) >? 0) eqn:E1.
    { rewrite Z.gtb_ltb in E1. apply Z.ltb_lt in E1. exists (Failed (stat_err (b_bufs f))), f. split; [reflexivity|].
      split; [apply after_refl; exact I|]. split; [|split; [discriminate|lia]]. cbn.
      destruct (i_stat_bad f I ltac:(lia)) as (e & TB & [X|(X & Y)]); [left; congruence|]. right. eauto 10. }
    rewrite Z.gtb_ltb in E1. apply Z.ltb_ge in E1. assert (E : stat_err (b_bufs f) < 0) by lia.
    destruct (i_stat_no f I E) as (B & N). rewrite B.
    destruct (stat_ok (b_has_statx f) BFS_STAT_FOLLOW) as (r & has & R & M). rewrite R. cbn in M. subst r.
    destruct C as (C1 & C2 & C3 & C4).
    destruct (at_target w) as [s|e] eqn:L.
    - unfold bftw_stat_cache. cbn [option_map]. eexists; eexists. split; [reflexivity|]. unfold after, done.
      cbn [b_bufs b_mem stat_err stat_buf lstat_err lstat_buf shows].
      split; [split|split; [left; reflexivity|split; [|lia]]].
      + split; cbn [b_bufs b_mem stat_err stat_buf lstat_err lstat_buf]; try lia.
        * intros _. exists StatBuf. split; [reflexivity|]. exact L.
        * intros X. destruct (i_lstat_ok f I X) as (p & Bp & Tp). exists p. split; [exact Bp|].
          unfold store. destruct p; cbn [buffer_eqb]; auto. exfalso. apply N. auto.
        * apply (i_lstat_bad f I).
        * intros X. split; [apply (i_lstat_no f I X)|]. intros (_ & Y). discriminate.
      + intros p (D1 & D2). split; [split; [lia|exact D2]|]. unfold store. destruct p; cbn [buffer_eqb]; auto.
        specialize (D1 eq_refl). lia.
      + intros p X. injection X as <-. split; [lia|discriminate].
    - assert (P : e > 0) by (apply C4; auto).
      unfold bftw_stat_cache. cbn [option_map].
      eexists; eexists. split; [reflexivity|]. unfold after, done. cbn [b_bufs b_mem stat_err stat_buf lstat_err lstat_buf shows].
      split; [split|split; [left; reflexivity|split; [discriminate|lia]]].
      + split; cbn [b_bufs b_mem stat_err stat_buf lstat_err lstat_buf]; try lia.
        * intros _. exists e. split; [exact L|]. left. reflexivity.
        * apply (i_lstat_ok f I).
        * apply (i_lstat_bad f I).
        * intros X. split; [apply (i_lstat_no f I X)|]. intros (_ & Y). discriminate.
      + intros p (D1 & D2). split; [split; [lia|exact D2]|reflexivity].
  Qed.

  Lemma after_shows f f' r : after f f' -> (forall p, r = Found p -> done f p) -> shows f' r = shows f r.
  Proof. intros (_ & A) D. destruct r as [p|e]; [|reflexivity]. cbn. f_equal. apply A. auto. Qed.

  Lemma bftw_stat_ok f fl : inv f -> exists r f', bftw_stat fs sx f fl = Some (r, f') /\ after f f' /\
    (meant_like w fl (shows f' r) /\ (fl <> BFS_STAT_FOLLOW -> meant w fl (shows f' r))) /\ (forall p, r = Found p -> done f' p).
  Proof.
    intros I. unfold bftw_stat. destruct fl.
    - destruct (impl_follow f I) as (r & f' & E & A & S & D & _). exists r, f'. split; [exact E|]. split; [exact A|].
      split; [split; [|congruence]|exact D]. destruct S as [S|(e & e' & -> & S & M1 & M2)]; [left; exact S|].
      right. exists e, e'. cbn. auto.
    - destruct (impl_nofollow f I) as (r & f' & E & A & S & D & _). exists r, f'. split; [exact E|]. split; [exact A|].
      split; [split; [left; exact S|intros _; exact S]|exact D].
    - destruct (impl_follow f I) as (r & f' & E & A & S & D & _). rewrite E.
      assert (G : exists r0 f0, match r with
        | Found _ => Some (r, f')
        | Failed e => if error_is_like e ENOENT then bftw_stat_impl fs sx f' BFS_STAT_NOFOLLOW else Some (Failed e, f')
        end = Some (r0, f0) /\ after f f0 /\ meant w BFS_STAT_TRYFOLLOW (shows f0 r0) /\ (forall p, r0 = Found p -> done f0 p)).
      { destruct r as [p|e].
        - exists (Found p), f'. split; [reflexivity|]. split; [exact A|]. split; [|exact D]. left.
          destruct S as [S|(e & e' & X & _)]; [|discriminate]. cbn in *. eauto.
        - destruct (error_is_like e ENOENT) eqn:X.
          + destruct (impl_nofollow f' (proj1 A)) as (r2 & f2 & E2 & A2 & S2 & D2 & _). exists r2, f2. split; [exact E2|].
            split; [eapply after_trans; eassumption|]. split; [|exact D2]. right. left. apply like_missing in X.
            destruct S as [S|(e1 & e2 & Y & S & M1 & M2)].
            * exists e. cbn in S. auto.
            * exists e2. auto.
          + exists (Failed e), f'. split; [reflexivity|]. split; [exact A|]. split; [|discriminate]. right. right.
            apply like_missing_false in X. destruct S as [S|(e1 & e2 & Y & S & M1 & M2)].
            * exists e. cbn in *. auto.
            * exfalso. injection Y as <-. auto. }
      destruct G as (r0 & f0 & E0 & A0 & M0 & D0). exists r0, f0. split; [destruct r; exact E0|]. split; [exact A0|].
      split; [split; [left; exact M0|intros _; exact M0]|exact D0].
  Qed.

  Lemma fresh_inv f : fresh w f -> inv f.
  Proof.
    intros F. destruct C as (C1 & C2 & C3 & C4).
    inversion F as [m has|m has fl s b An Ms Nf Ca|m has fl e b An Nf Ca]; subst.
    - split; cbn; try lia; intros _; split; auto; intros (X & _); lia.
    - destruct fl; [congruence| |].
      + destruct An as [An|(X & _)]; [|discriminate]. cbn in An.
        cbn in Ca. destruct (S_ISLNK (st_mode (m AsyncBuf))) eqn:K; injection Ca as <-; cbn.
        * split; cbn; try lia; eauto; try (intros _; split; auto; intros (_ & X); discriminate).
        * assert (TS : at_target w = Good (m AsyncBuf)).
          { apply C1; [auto|]. intros X. apply link_kind in X. congruence. }
          split; cbn; try lia; eauto.
      + cbn in Ca. destruct (S_ISLNK (st_mode (m AsyncBuf))) eqn:K; injection Ca as <-; cbn.
        * assert (KL : kind (Good (m AsyncBuf)) = BFS_LNK) by (apply link_kind; exact K).
          destruct An as [[(s & TS & X)|[(e & TB & M & X)|(e & TB & M & X)]]|(_ & TS)].
          -- injection X as <-. exfalso. eapply C3; eassumption.
          -- split; cbn; unfold ENOENT; try lia; try (intros _; exists AsyncBuf; auto; fail).
             intros _. exists e. split; [exact TB|]. right. split; [left; reflexivity|exact M].
          -- discriminate.
          -- exfalso. symmetry in TS. eapply C3; eassumption.
        * assert (TS : at_target w = Good (m AsyncBuf)).
          { assert (KL : kind (Good (m AsyncBuf)) <> BFS_LNK) by (intros X; apply link_kind in X; congruence).
            destruct An as [[(s & TS & X)|[(e & TB & M & X)|(e & TB & M & X)]]|(_ & TS)]; try congruence.
            symmetry in X. specialize (C1 _ X KL). congruence. }
          split; cbn; try lia; eauto. intros _. split; [reflexivity|]. intros (_ & X). discriminate.
    - assert (P : e > 0).
      { destruct fl; [congruence| |].
        - destruct An as [An|(X & _)]; [|discriminate]. cbn in An. apply C4. auto.
        - destruct An as [[(s & TS & X)|[(e' & TB & M & X)|(e' & TB & M & X)]]|(_ & TS)]; try discriminate; apply C4; auto.
          injection X as ->. auto. }
      assert (E0 : (e =? 0) = false) by (apply Z.eqb_neq; lia).
      assert (Eg : (e >=? 0) = true) by (apply Z.geb_le; lia).
      destruct fl; [congruence| |].
      + destruct An as [An|(X & _)]; [|discriminate]. cbn in An. cbn in Ca. rewrite E0 in Ca. cbn in Ca. injection Ca as <-.
        unfold bftw_stat_fill, bftw_stat_init. cbn. rewrite !Eg. cbn.
        split; cbn; try lia; auto. intros _. exists e. split; [apply C2; auto|]. left. reflexivity.
      + cbn in Ca. rewrite E0 in Ca. cbn in Ca. injection Ca as <-.
        unfold bftw_stat_fill, bftw_stat_init. cbn. rewrite Eg. cbn.
        assert (TB : at_target w = Bad e).
        { destruct An as [[(s & TS & X)|[(e' & TB & M & X)|(e' & TB & M & X)]]|(_ & TS)]; try discriminate; auto.
          injection X as ->. exact TB. }
        split; cbn; try lia; eauto.
        * intros _. exists e. split; [exact TB|]. left. reflexivity.
        * intros _. split; [reflexivity|]. intros (X & _). lia.
  Qed.

  Lemma calls_inv l : forall f, inv f -> exists rs f', calls fs sx f l = Some (rs, f') /\ after f f' /\
    Forall2 (fun fl r => meant_like w fl (shows f' r) /\ (fl <> BFS_STAT_FOLLOW -> meant w fl (shows f' r))) l rs.
  Proof.
    induction l as [|fl l IH]; intros f I.
    - exists [], f. split; [reflexivity|]. split; [apply after_refl; exact I|constructor].
    - cbn [calls]. destruct (bftw_stat_ok f fl I) as (r & f1 & E & A & M & D). rewrite E.
      destruct (IH f1 (proj1 A)) as (rs & f2 & E2 & A2 & M2). rewrite E2. cbn [option_map].
      exists (r :: rs), f2. split; [reflexivity|]. split; [eapply after_trans; eassumption|]. constructor; [|exact M2].
      rewrite (after_shows _ _ _ A2 D). exact M.
  Qed.

  Lemma calls_ok l f : fresh w f -> exists rs f', calls fs sx f l = Some (rs, f') /\
    Forall2 (fun fl r => meant_like w fl (shows f' r) /\ (fl <> BFS_STAT_FOLLOW -> meant w fl (shows f' r))) l rs.
  Proof.
    intros F. destruct (calls_inv l f (fresh_inv f F)) as (rs & f' & E & _ & M). eauto.
  Qed.

  (** ** Types *)

  Lemma meant_kind fl r r' : meant w fl r -> meant_like w fl r' -> kind r = kind r'.
  Proof.
    intros M [M'|(e & e' & -> & _ & _ & M')]; (assert (Q : forall a b, meant w fl a -> meant w fl b -> a = b); [|]).
    1,3: intros a b; destruct fl; cbn; [congruence|congruence|];
      intros [(s & A & ->)|[(x & A & A1 & ->)|(x & A & A1 & ->)]] [(s' & B & ->)|[(y & B & B1 & ->)|(y & B & B1 & ->)]]; try congruence;
      assert (x = y) by congruence; subst; contradiction.
    - f_equal. eauto.
    - rewrite (Q _ _ M M'). reflexivity.
  Qed.
  Lemma meant_unique fl a b : meant w fl a -> meant w fl b -> a = b.
  Proof.
    destruct fl; cbn; [congruence|congruence|];
      intros [(s & A & ->)|[(x & A & A1 & ->)|(x & A & A1 & ->)]] [(s' & B & ->)|[(y & B & B1 & ->)|(y & B & B1 & ->)]]; try congruence;
      assert (x = y) by congruence; subst; contradiction.
  Qed.
  Lemma meant_total fl : exists r, meant w fl r.
  Proof.
    destruct fl; cbn; eauto. destruct (at_target w) as [s|e]; [eauto 6|].
    destruct (error_is_like e ENOENT) eqn:X; [apply like_missing in X|apply like_missing_false in X]; eauto 10.
  Qed.

  (** A file that is not a link is seen in the same way. *)
  Lemma plain fl r : kind (at_link w) <> BFS_LNK -> meant w fl r -> kind r = kind (at_link w).
  Proof.
    intros K M. destruct C as (C1 & C2 & C3 & C4). destruct (at_link w) as [s|e] eqn:L.
    - specialize (C1 s eq_refl K). destruct fl; cbn in M; [congruence|congruence|].
      destruct M as [(s' & A & ->)|[(x & A & _)|(x & A & _)]]; congruence.
    - specialize (C2 e eq_refl). destruct fl; cbn in M; [congruence|congruence|].
      destruct M as [(s' & A & ->)|[(x & A & A1 & ->)|(x & A & A1 & ->)]]; try congruence; reflexivity.
  Qed.

  Lemma kind_not_error s : kind (Good s) <> BFS_ERROR.
  Proof.
    unfold kind, bfs_mode_to_type. repeat match goal with |- context [if ?b then _ else _] => destruct b end; discriminate.
  Qed.

  Lemma init_type_inv always dirs mount sf type f : inv f -> hint w mount type -> sf <> BFS_STAT_FOLLOW -> type <> BFS_ERROR ->
    exists t e f' r, init_type fs sx (bftw_must_stat always dirs mount sf type) sf type f = Some (t, e, f') /\ after f f' /\
      meant w sf r /\ t = kind r /\ (t = BFS_ERROR -> r = Bad e).
  Proof.
    intros I H Sf Ty. unfold init_type. destruct (bftw_must_stat always dirs mount sf type) eqn:M.
    - destruct (bftw_stat_ok f sf I) as (r & f' & E & A & (_ & Mr) & D). rewrite E. specialize (Mr Sf). destruct r as [p|e].
      + do 3 eexists. exists (Good (b_mem f' p)). split; [reflexivity|]. split; [exact A|]. split; [exact Mr|]. split; [reflexivity|].
        intros X. exfalso. eapply kind_not_error. exact X.
      + do 3 eexists. exists (Bad e). split; [reflexivity|]. split; [exact A|]. split; [exact Mr|]. split; [reflexivity|auto].
    - destruct (meant_total sf) as (r & Mr). do 3 eexists. exists r. split; [reflexivity|]. split; [apply after_refl; exact I|].
      split; [exact Mr|]. split; [|contradiction].
      unfold bftw_must_stat in M. apply orb_false_iff in M. destruct M as [_ M].
      destruct H as [-> |[-> |(-> & H)]]; [discriminate| |].
      + destruct (ftype_eqb (kind (at_link w)) BFS_LNK) eqn:K.
        * assert (K' : kind (at_link w) = BFS_LNK) by (destruct (kind (at_link w)); congruence || discriminate).
          rewrite K' in M. destruct sf; try discriminate. cbn in Mr. congruence.
        * symmetry. apply (plain sf); [|exact Mr]. intros X. rewrite X in K. discriminate.
      + destruct type; try discriminate; try contradiction. destruct sf; discriminate.
  Qed.

  Lemma bftw_type_inv sf type f fl r0 r : inv f -> meant w sf r0 -> sf <> BFS_STAT_FOLLOW -> type = kind r0 -> meant w fl r ->
    exists e f', bftw_type fs sx sf type f fl = Some (kind r, e, f') /\ after f f' /\
      (kind r = BFS_ERROR -> type <> BFS_ERROR -> (fl <> BFS_STAT_FOLLOW) -> exists x, e = Some x /\ r = Bad x).
  Proof.
    intros I M0 Sf -> M.
    assert (Look : exists e f', match bftw_stat fs sx f fl with
      | None => None
      | Some (Found p, f) => Some (bfs_mode_to_type (st_mode (b_mem f p)), None, f)
      | Some (Failed e, f) => Some (BFS_ERROR, Some e, f)
      end = Some (kind r, e, f') /\ after f f' /\
      (kind r = BFS_ERROR -> kind r0 <> BFS_ERROR -> (fl <> BFS_STAT_FOLLOW) -> exists x, e = Some x /\ r = Bad x)).
    { destruct (bftw_stat_ok f fl I) as (x & f' & E & A & (Ml & Mx) & D). rewrite E.
      pose proof (meant_kind _ _ _ M Ml) as K. destruct x as [p|e].
      - do 2 eexists. split; [rewrite K; reflexivity|]. split; [exact A|]. intros X. exfalso. rewrite K in X.
        eapply kind_not_error. exact X.
      - do 2 eexists. split; [rewrite K; reflexivity|]. split; [exact A|]. intros _ _ F. exists e. split; [reflexivity|].
        eapply meant_unique; [exact M|]. apply Mx. exact F. }
    assert (Direct : kind r0 = kind r -> exists e f', Some (kind r0, @None Z, f) = Some (kind r, e, f') /\ after f f' /\
      (kind r = BFS_ERROR -> kind r0 <> BFS_ERROR -> (fl <> BFS_STAT_FOLLOW) -> exists x, e = Some x /\ r = Bad x)).
    { intros X. do 2 eexists. split; [rewrite X; reflexivity|]. split; [apply after_refl; exact I|]. congruence. }
    assert (NL : forall a, kind (at_link w) <> BFS_LNK -> meant w sf a -> kind a = kind r).
    { intros a K Ma. rewrite (plain _ _ K Ma), (plain _ _ K M). reflexivity. }
    (* a link, if followed, is not seen as a link unless it is broken *)
    assert (LK : kind r0 = BFS_LNK -> kind (at_link w) = BFS_LNK).
    { intros K. destruct (ftype_eqb (kind (at_link w)) BFS_LNK) eqn:X.
      - destruct (kind (at_link w)); congruence || discriminate.
      - rewrite (plain sf r0) in K; [exact K| |exact M0]. intros Y. rewrite Y in X. discriminate. }
    assert (Dec : kind r0 = BFS_LNK \/ kind r0 <> BFS_LNK) by (destruct (kind r0); auto; right; discriminate).
    unfold bftw_type. destruct fl.
    - (* follow *) destruct Dec as [K|K].
      + apply eqb_lnk in K as K'. rewrite K'. cbn [negb]. destruct sf; [congruence| |].
        * exact Look.
        * cbn in M, M0. destruct C as (C1 & C2 & C3 & C4). do 2 eexists. split; [|split; [apply after_refl; exact I|congruence]].
          subst r. destruct M0 as [(s & A & ->)|[(x & A & A1 & ->)|(x & A & A1 & ->)]].
          -- exfalso. eapply C3; eassumption.
          -- rewrite A. reflexivity.
          -- discriminate.
      + destruct (ftype_eqb (kind r0) BFS_LNK) eqn:X; [apply eqb_lnk in X; contradiction|]. cbn [negb]. apply Direct.
        destruct sf; [congruence| |].
        * cbn in M0. subst r0. apply NL; [exact K|]. reflexivity.
        * destruct C as (C1 & C2 & C3 & C4). cbn in M, M0. subst r. destruct M0 as [(s & A & ->)|[(x & A & A1 & ->)|(x & A & A1 & ->)]].
          -- rewrite A. reflexivity.
          -- destruct (at_link w) as [s|e] eqn:L; [|rewrite A; reflexivity]. specialize (C1 s eq_refl K). congruence.
          -- rewrite A. reflexivity.
    - (* nofollow *) destruct Dec as [K|K].
      + apply eqb_lnk in K as K'. rewrite K'. cbn [orb]. apply Direct. cbn in M. subst r. rewrite K. symmetry. auto.
      + destruct (ftype_eqb (kind r0) BFS_LNK) eqn:X; [apply eqb_lnk in X; contradiction|]. cbn [orb]. destruct sf; [congruence| |exact Look].
        apply Direct. cbn in *. congruence.
    - (* tryfollow *) destruct Dec as [K|K].
      + apply eqb_lnk in K as K'. rewrite K'. cbn [negb orb]. destruct sf; [congruence|exact Look|].
        apply Direct. f_equal. eapply meant_unique; eassumption.
      + destruct (ftype_eqb (kind r0) BFS_LNK) eqn:X; [apply eqb_lnk in X; contradiction|]. cbn [negb orb]. apply Direct.
        destruct sf; [congruence| |f_equal; eapply meant_unique; eassumption].
        cbn in M0. subst r0. apply NL; [exact K|]. reflexivity.
  Qed.

  Lemma cached_inv f fl p : inv f -> bftw_cached_stat f fl = Some p -> meant w fl (Good (b_mem f p)).
  Proof.
    intros I. unfold bftw_cached_stat.
    assert (Ls : (if lstat_err (b_bufs f) =? 0 then lstat_buf (b_bufs f) else None) = Some p -> at_link w = Good (b_mem f p)).
    { destruct (lstat_err (b_bufs f) =? 0) eqn:X; [|discriminate]. apply Z.eqb_eq in X. intros Y.
      destruct (i_lstat_ok f I X) as (q & Z & L). congruence. }
    assert (Ss : stat_err (b_bufs f) = 0 -> stat_buf (b_bufs f) = Some p -> at_target w = Good (b_mem f p)).
    { intros X Y. destruct (i_stat_ok f I X) as (q & Z & L). congruence. }
    destruct fl.
    - destruct (stat_err (b_bufs f) =? 0) eqn:X; [|discriminate]. apply Z.eqb_eq in X. intros Y. cbn. symmetry. auto.
    - intros Y. cbn. symmetry. auto.
    - destruct (stat_err (b_bufs f) =? 0) eqn:X.
      + apply Z.eqb_eq in X. intros Y. cbn. left. exists (b_mem f p). auto.
      + destruct (error_is_like (stat_err (b_bufs f)) ENOENT) eqn:Y; [|discriminate]. intros Z. cbn. right. left.
        apply like_missing in Y. destruct (i_stat_bad f I) as (e & TB & Se).
        { destruct Y as [-> | ->]; reflexivity. }
        exists e. split; [exact TB|]. split; [|symmetry; auto]. destruct Se as [<- |(_ & M)]; assumption.
  Qed.

  Lemma xtype_inv types sf type f errno r0 r : inv f -> meant w sf r0 -> sf <> BFS_STAT_FOLLOW -> type = kind r0 -> type <> BFS_ERROR ->
    meant w (other sf) r -> exists f', eval_xtype fs sx types sf type f errno = Some (xtype_answer types sf r, f') /\ after f f'.
  Proof.
    intros I M0 Sf Ty Ne M. unfold eval_xtype. change (match sf with BFS_STAT_NOFOLLOW => BFS_STAT_TRYFOLLOW | _ => BFS_STAT_NOFOLLOW end) with (other sf).
    destruct (bftw_type_inv sf type f (other sf) r0 r I M0 Sf Ty M) as (e & f' & E & A & Er). rewrite E. exists f'. split; [|exact A].
    f_equal. f_equal. assert (Of : other sf <> BFS_STAT_FOLLOW) by (destruct sf; discriminate).
    destruct r as [s|x].
    - assert (N : ftype_eqb (kind (Good s)) BFS_ERROR = false).
      { pose proof (kind_not_error s) as K. destruct (kind (Good s)); congruence || reflexivity. }
      rewrite N, andb_false_r. cbn [andb]. rewrite N. reflexivity.
    - destruct (Er eq_refl Ne Of) as (y & -> & X). injection X as <-. cbn [kind ftype_eqb xtype_answer].
      destruct sf; [congruence| |reflexivity]. cbn [other andb]. destruct (x =? ELOOP); reflexivity.
  Qed.

  (** ** A whole visit *)

  Lemma visit_ok always dirs mount sf type f l : fresh w f -> hint w mount type -> sf <> BFS_STAT_FOLLOW -> type <> BFS_ERROR ->
    exists t e f1 rs f2 r, init_type fs sx (bftw_must_stat always dirs mount sf type) sf type f = Some (t, e, f1) /\
      meant w sf r /\ t = kind r /\ (t = BFS_ERROR -> r = Bad e) /\
      calls fs sx f1 l = Some (rs, f2) /\
      Forall2 (fun fl r => meant_like w fl (shows f2 r) /\ (fl <> BFS_STAT_FOLLOW -> meant w fl (shows f2 r))) l rs /\
      (forall fl p, bftw_cached_stat f2 fl = Some p -> meant w fl (Good (b_mem f2 p))) /\
      (forall fl r', meant w fl r' -> exists e' f3, bftw_type fs sx sf t f2 fl = Some (kind r', e', f3)) /\
      (forall types errno r', t <> BFS_ERROR -> meant w (other sf) r' ->
         exists f3, eval_xtype fs sx types sf t f2 errno = Some (xtype_answer types sf r', f3)).
  Proof.
    intros F H Sf Ty. pose proof (fresh_inv f F) as I.
    destruct (init_type_inv always dirs mount sf type f I H Sf Ty) as (t & e & f1 & r & E & (I1 & _) & M & Tk & Er).
    destruct (calls_inv l f1 I1) as (rs & f2 & E2 & (I2 & _) & G).
    exists t, e, f1, rs, f2, r. split; [exact E|]. split; [exact M|]. split; [exact Tk|]. split; [exact Er|]. split; [exact E2|].
    split; [exact G|]. split; [intros fl p; apply cached_inv; exact I2|]. split.
    - intros fl r' M'. destruct (bftw_type_inv sf t f2 fl r r' I2 M Sf Tk M') as (e' & f3 & X & _). eauto.
    - intros types errno r' Nt M'. destruct (xtype_inv types sf t f2 errno r r' I2 M Sf Tk Nt M') as (f3 & X & _). eauto.
  Qed.
End Facts.

Lemma flags_ok follow_roots follow_all depth :
  (bftw_stat_flags follow_roots follow_all depth = BFS_STAT_TRYFOLLOW <-> follow_all = true \/ follow_roots = true /\ depth = O) /\
  (bftw_stat_flags follow_roots follow_all depth = BFS_STAT_NOFOLLOW <-> follow_all = false /\ (follow_roots = false \/ depth <> O)).
Proof.
  unfold bftw_stat_flags. destruct follow_all, follow_roots, depth; cbn; intuition (try discriminate; auto).
Qed.
