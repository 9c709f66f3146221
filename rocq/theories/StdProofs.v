(** * Proofs about standard streams *)
From Coq Require Import List Bool Arith Lia.
From Verif Require Import StdModel StdSpec.
Import ListNotations.

Lemma get_nil fd : get [] fd = None.
Proof. unfold get. destruct fd; reflexivity. Qed.
Lemma get_set fd : forall t f fd', get (set t fd f) fd' = if Nat.eqb fd fd' then f else get t fd'.
Proof.
  induction fd as [|fd IH]; intros [|x t] f [|fd']; cbn [set Nat.eqb]; try reflexivity.
  - unfold get. cbn [nth]. destruct fd'; reflexivity.
  - change (get (None :: set [] fd f) (S fd')) with (get (set [] fd f) fd'). rewrite IH, !get_nil. reflexivity.
  - change (get (x :: set t fd f) (S fd')) with (get (set t fd f) fd'). rewrite IH. reflexivity.
Qed.
Lemma lowest_free t : get t (lowest t) = None.
Proof. induction t as [|[f|] t IH]; [reflexivity|exact IH|reflexivity]. Qed.
Lemma lowest_least t : forall fd, get t fd = None -> lowest t <= fd.
Proof.
  induction t as [|[f|] t IH]; intros fd H; cbn [lowest]; [lia| |lia].
  destruct fd as [|fd]; [discriminate H|]. apply le_n_S, IH, H.
Qed.

Section Program.
  Variable fails : nat -> bool.
  Variable has_path : bool.

  (** What a redirection leaves behind *)
  Lemma ensure_ok fd flags s ok s' : ensure fails fd flags s = (ok, s') ->
    (forall x, x <> fd -> get (fds s') x = get (fds s) x) /\
    (forall f, get (fds s) fd = Some f -> get (fds s') fd = Some f /\ ok = true) /\
    (get (fds s) fd = None -> if ok then get (fds s') fd = Some (DevNull flags) else get (fds s') fd = None) /\
    (ok = false -> exists n, fails n = true).
  Proof.
    unfold ensure, isopen. destruct (get (fds s) fd) as [f|] eqn:G.
    - intros [= <- <-]. split; [auto|]. split; [intros f' [= <-]; auto|]. split; [discriminate|discriminate].
    - unfold redirect, sys_open. destruct (fails (calls s)) eqn:F.
      + intros [= <- <-]. cbn [fds]. split; [auto|]. split; [discriminate|]. split; [auto|]. intros _. eauto.
      + cbn [fds]. pose proof (lowest_free (fds s)) as LF. destruct (Nat.eqb (lowest (fds s)) fd) eqn:E.
        * apply Nat.eqb_eq in E. intros [= <- <-]. cbn [fds]. rewrite E.
          split; [intros x N; rewrite get_set; apply Nat.eqb_neq in N; rewrite Nat.eqb_sym in N; rewrite N; reflexivity|].
          split; [discriminate|]. split; [intros _; rewrite get_set, Nat.eqb_refl; reflexivity|discriminate].
        * apply Nat.eqb_neq in E. unfold sys_dup2, sys_close. cbn [calls fds].
          destruct (fails (S (calls s))) eqn:F'; intros [= <- <-]; cbn [fds].
          -- split; [|split; [discriminate|split; [intros _|eauto]]].
             ++ intros x _. rewrite !get_set. destruct (Nat.eqb (lowest (fds s)) x) eqn:X; [|reflexivity].
                apply Nat.eqb_eq in X. subst x. congruence.
             ++ rewrite !get_set. apply Nat.eqb_neq in E. rewrite E. exact G.
          -- split; [|split; [discriminate|split; [intros _|discriminate]]].
             ++ intros x N. rewrite !get_set. destruct (Nat.eqb (lowest (fds s)) x) eqn:X.
                ** apply Nat.eqb_eq in X. subst x. congruence.
                ** assert (Nat.eqb fd x = false) as -> by (apply Nat.eqb_neq; congruence). reflexivity.
             ++ rewrite !get_set, !Nat.eqb_refl. apply Nat.eqb_neq in E. rewrite E. reflexivity.
  Qed.

  Lemma open_std_ok s ok s' : open_std_streams fails has_path s = (ok, s') ->
    safe (fds s) (fds s') /\
    (ok = true -> forall fd, fd < 3 -> get (fds s') fd <> None) /\
    (ok = false -> exists n, fails n = true).
  Proof.
    unfold open_std_streams.
    destruct (ensure fails STDERR_FILENO (outflags has_path) s) as [ok2 s2] eqn:E2.
    destruct (ensure_ok _ _ _ _ _ E2) as (K2 & G2 & N2 & F2).
    unfold STDERR_FILENO, STDOUT_FILENO, STDIN_FILENO in *.
    assert (W : writable (DevNull (outflags has_path)) = false) by (unfold outflags; destruct has_path; reflexivity).
    assert (R : readable (DevNull (inflags has_path)) = false) by (unfold inflags; destruct has_path; reflexivity).
    destruct ok2; cbn [negb].
    2: { intros [= <- <-]. split; [|split; [discriminate|auto]]. constructor.
      - intros fd f H. destruct (Nat.eq_dec fd 2) as [->|N]; [apply G2 in H; tauto|rewrite K2; auto].
      - intros fd H L. rewrite K2; [exact H|lia].
      - intros fd H L. left. destruct (Nat.eq_dec fd 2) as [->|N]; [apply N2, H|rewrite K2; auto]. }
    destruct (ensure fails 1 (outflags has_path) s2) as [ok1 s1] eqn:E1.
    destruct (ensure_ok _ _ _ _ _ E1) as (K1 & G1 & N1 & F1).
    assert (T2 : get (fds s) 2 = get (fds s1) 2 \/ get (fds s) 2 = None /\ get (fds s1) 2 = Some (DevNull (outflags has_path))).
    { rewrite (K1 2) by lia. destruct (get (fds s) 2) as [f|] eqn:H; [left; symmetry; apply (G2 f eq_refl)|right; auto]. }
    destruct ok1; cbn [negb].
    2: { intros [= <- <-]. split; [|split; [discriminate|auto]]. constructor.
      - intros fd f H. destruct (Nat.eq_dec fd 2) as [->|N]; [destruct T2 as [T2|[T2 _]]; congruence|].
        destruct (Nat.eq_dec fd 1) as [->|N']; [rewrite <- K2 in H by lia; apply G1 in H; tauto|rewrite K1, K2; auto].
      - intros fd H L. rewrite K1, K2; [exact H|lia|lia].
      - intros fd H L. destruct (Nat.eq_dec fd 2) as [->|N].
        + destruct T2 as [T2|[_ T2]]; [left; congruence|right; eexists; split; [exact T2|]; split; [lia|auto]].
        + left. destruct (Nat.eq_dec fd 1) as [->|N']; [rewrite <- K2 in H by lia; apply N1, H|rewrite K1, K2; auto]. }
    intros E0. destruct (ensure_ok _ _ _ _ _ E0) as (K0 & G0 & N0 & F0).
    assert (T2' : get (fds s) 2 = get (fds s') 2 \/ get (fds s) 2 = None /\ get (fds s') 2 = Some (DevNull (outflags has_path)))
      by (rewrite (K0 2) by lia; exact T2).
    assert (T1 : get (fds s) 1 = get (fds s') 1 /\ get (fds s) 1 <> None \/ get (fds s) 1 = None /\ get (fds s') 1 = Some (DevNull (outflags has_path))).
    { rewrite (K0 1) by lia. rewrite <- (K2 1) by lia.
      destruct (get (fds s2) 1) as [f|] eqn:H; [left; split; [symmetry; apply (G1 f eq_refl)|discriminate]|right; auto]. }
    assert (Z0 : get (fds s1) 0 = get (fds s) 0) by (rewrite K1, K2 by lia; reflexivity).
    split; [|split; [|auto]].
    - constructor.
      + intros fd f H. destruct (Nat.eq_dec fd 2) as [->|N]; [destruct T2' as [T|[T _]]; congruence|].
        destruct (Nat.eq_dec fd 1) as [->|N']; [destruct T1 as [[T _]|[T _]]; congruence|].
        destruct (Nat.eq_dec fd 0) as [->|N'']; [rewrite <- Z0 in H; apply G0 in H; tauto|].
        rewrite K0, K1, K2; auto.
      + intros fd H L. rewrite K0, K1, K2; [exact H|lia|lia|lia].
      + intros fd H L. destruct (Nat.eq_dec fd 2) as [->|N].
        { destruct T2' as [T|[_ T]]; [left; congruence|right; eexists; split; [exact T|]; split; [lia|auto]]. }
        destruct (Nat.eq_dec fd 1) as [->|N'].
        { destruct T1 as [[T _]|[_ T]]; [left; congruence|right; eexists; split; [exact T|]; split; [lia|auto]]. }
        assert (fd = 0) by lia. subst fd. rewrite <- Z0 in H. specialize (N0 H). destruct ok; [right|left; exact N0].
        eexists. split; [exact N0|]. split; [intros _; exact R|lia].
    - intros -> fd L. destruct (Nat.eq_dec fd 2) as [->|N].
      { rewrite (K0 2), (K1 2) by lia. destruct (get (fds s) 2) as [f|] eqn:H; [destruct (G2 f eq_refl) as [-> _]; discriminate|rewrite (N2 eq_refl); discriminate]. }
      destruct (Nat.eq_dec fd 1) as [->|N'].
      { destruct T1 as [[T T']|[_ T]]; [rewrite <- T; exact T'|rewrite T; discriminate]. }
      assert (fd = 0) by lia. subst fd. destruct (get (fds s1) 0) as [f|] eqn:H.
      + destruct (G0 f eq_refl) as [-> _]; discriminate.
      + rewrite (N0 eq_refl). discriminate.
  Qed.

  (** A file that is opened afterwards *)
  Lemma later_files s s' : open_std_streams fails has_path s = (true, s') ->
    forall t, (forall fd, fd < 3 -> get t fd = get (fds s') fd) -> 3 <= lowest t.
  Proof.
    intros H t Q. destruct (open_std_ok _ _ _ H) as (_ & O & _).
    destruct (le_lt_dec 3 (lowest t)) as [L|L]; [exact L|]. exfalso.
    apply (O eq_refl _ L). rewrite <- Q by exact L. apply lowest_free.
  Qed.
End Program.
