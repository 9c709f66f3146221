(** * Where a walk is, and what the callback was told so far *)
From Coq Require Import List Bool Arith Lia Permutation Init.Byte.
From Coq Require Import ZifyBool ZifyNat.
From Verif Require Import PathModel PathSpec WalkSpec BftwModel BftwIo BftwQueue BftwPop BftwSpec BftwPath BftwHeap BftwFiles BftwGc.
Import ListNotations.

(** What happened to a file *)
Inductive phase :=
| Unborn            (* not seen *)
| Todo              (* in the file queue *)
| Visiting          (* taken from it *)
| Fresh             (* in the directory queue *)
| Reading (k : nat) (* taken from it, and [k] entries were read *)
| Held              (* the current file, after reading it *)
| Read              (* after reading it, but with children *)
| Leaving           (* the current file, a file or a directory not to be read *)
| Closed            (* a directory without further visits *)
| Left.             (* any other file without further visits *)

Definition alive (ph : phase) : bool := match ph with Unborn | Closed | Left => false | _ => true end.
Definition through (ph : phase) : bool := match ph with Reading _ | Held | Read | Closed => true | _ => false end.
Definition rank (ph : phase) : nat := match ph with Unborn | Todo => 2 | Visiting | Fresh => 1 | _ => 0 end.

Section Hist.
  Context {U : Type}.
  Variable w : env U.
  Notation state := (state U).
  Notation IO := (IO w None).
  Notation contents := (contents w).
  Notation in_queue := (in_queue w None).
  Notation heap := (heap w).
  Notation kept := (kept w).
  Notation counted := (counted w).
  Notation calm := (calm w).
  Notation enters := (enters w).
  Notation skipped := (skipped w).

  (** The calls before the walk, and the state of the callback *)
  Variable base : list (event * action).
  Variable u0 : U.

  (** The visits of a file, the first one first; [tr] is the other way around. *)
  Definition evs (p : pos) (tr : list (event * action)) : list (event * action) := visits_of p (rev tr).

  Lemma same_pos_iff p q : same_pos p q = true <-> p = q.
  Proof. unfold same_pos. destruct (list_eq_dec Nat.eq_dec p q); split; congruence. Qed.
  Lemma same_pos_refl p : same_pos p p = true.
  Proof. apply same_pos_iff. reflexivity. Qed.
  Lemma same_pos_false p q : same_pos p q = false <-> p <> q.
  Proof. rewrite <- same_pos_iff. destruct (same_pos p q); split; congruence. Qed.

  Lemma evs_cons p x tr : evs p (x :: tr) = evs p tr ++ if same_pos (e_pos (fst x)) p then [x] else [].
  Proof. unfold evs, visits_of. cbn [rev]. rewrite filter_app. cbn [filter]. destruct (same_pos _ _); reflexivity. Qed.
  Lemma evs_here p x tr : e_pos (fst x) = p -> evs p (x :: tr) = evs p tr ++ [x].
  Proof. intros <-. rewrite evs_cons, same_pos_refl. reflexivity. Qed.
  Lemma evs_there p x tr : e_pos (fst x) <> p -> evs p (x :: tr) = evs p tr.
  Proof. intros D. rewrite evs_cons. replace (same_pos _ _) with false by (symmetry; apply same_pos_false, D). apply app_nil_r. Qed.
  Lemma evs_rev p tr : visits_of p tr = rev (evs p tr).
  Proof.
    induction tr as [|x tr IH]; [reflexivity|]. rewrite evs_cons, rev_app_distr, <- IH. unfold visits_of. cbn [filter]. destruct (same_pos _ _); reflexivity.
  Qed.
  Lemma evs_in p tr x : In x (evs p tr) <-> In x tr /\ e_pos (fst x) = p.
  Proof. unfold evs, visits_of. rewrite filter_In, <- in_rev, same_pos_iff. reflexivity. Qed.

  (** ** Histories *)

  Record hist (tr : list (event * action)) (s : state) : Prop := {
    hi_trace : trace s = tr ++ base;
    hi_plays : plays w u0 tr (user s);
    hi_ok : Forall (fun x => event_ok w (fst x)) tr;
    hi_order : in_order w tr }.
  Lemma hist_eq tr s s' : hist tr s -> trace s' = trace s -> user s' = user s -> hist tr s'.
  Proof. intros [] A B. constructor; congruence. Qed.

  Definition stopped (tr : list (event * action)) (s : state) : Prop := failed s = true /\ fl_recover w = false \/ exists x, In x tr /\ snd x = BFTW_STOP.

  (** ** Phases *)

  Definition errors_ok (p : pos) (l : list (event * action)) : Prop :=
    if broken_at w p then exists e a, l = [(e, a)] /\ e_visit e = BFTW_PRE /\ e_type e = BFS_ERROR else l = [].
  Definition posts_ok (l : list (event * action)) : Prop :=
    if fl_post_order w then exists e a, l = [(e, a)] /\ e_visit e = BFTW_POST else l = [].

  Definition shape (p : pos) (ph : phase) (l : list (event * action)) : Prop :=
    match ph with
    | Unborn | Todo | Visiting => l = []
    | Fresh | Reading _ => skipped p = false /\ exists x, l = [x] /\ enters x
    | Held | Read => skipped p = false /\ exists x errs, l = x :: errs /\ enters x /\ errors_ok p errs
    | Closed => skipped p = false /\ exists x errs posts, l = x :: errs ++ posts /\ enters x /\ errors_ok p errs /\ posts_ok posts
    | Leaving | Left => (skipped p = true /\ l = []) \/ (skipped p = false /\ exists x, l = [x] /\ e_visit (fst x) = BFTW_PRE /\ ~ enters x)
    end.

  (** Where a file is *)
  Definition place (f : file) (s : state) (ph : phase) : Prop :=
    match ph with
    | Todo => In (f_id f) (contents FileQ s)
    | Fresh => In (f_id f) (contents DirQ s)
    | Visiting | Reading _ | Held | Leaving => cur s = Some (f_id f)
    | Read => ~ in_queue (f_id f) s /\ cur s <> Some (f_id f)
    | _ => False
    end.

  (** How many entries of a directory were seen *)
  Definition born (ph : phase) (p : pos) : nat :=
    match ph with
    | Reading k => k
    | Held | Read | Closed => length (kids_at w p)
    | _ => 0
    end.

  Record at_phase (G : pos -> phase) (tr : list (event * action)) (s : state) : Prop := {
    t_failed : failed s = false;
    t_stop : forall x, In x tr -> snd x <> BFTW_STOP;
    t_live : forall p, (exists f, In f (files s) /\ f_pos f = p) <-> p <> [] /\ alive (G p) = true;
    t_place : forall f, In f (files s) -> place f s (G (f_pos f));
    t_born : forall k p, G (k :: p) <> Unborn <-> k < born (G p) p;
    t_read : forall p k, G p = Reading k -> k <= length (kids_at w p);
    t_evs : forall p, p <> [] -> shape p (G p) (evs p tr);
    t_root : through (G []) = true }.

  Definition upd (G : pos -> phase) (p : pos) (v : phase) : pos -> phase := fun q => if same_pos q p then v else G q.
  Lemma upd_same G p v : upd G p v p = v.
  Proof. unfold upd. rewrite same_pos_refl. reflexivity. Qed.
  Lemma upd_other G p v q : q <> p -> upd G p v q = G q.
  Proof. intros D. unfold upd. replace (same_pos q p) with false by (symmetry; apply same_pos_false, D). reflexivity. Qed.
  Lemma pos_dec (p q : pos) : {p = q} + {p <> q}.
  Proof. exact (list_eq_dec Nat.eq_dec p q). Qed.

  Definition forward (G G' : pos -> phase) : Prop := forall p, rank (G' p) <= rank (G p).
  Lemma forward_id G : forward G G.
  Proof. intros p. lia. Qed.
  Lemma forward_trans a b c : forward a b -> forward b c -> forward a c.
  Proof. intros A B p. specialize (A p). specialize (B p). lia. Qed.
  Lemma forward_upd G p v : rank v <= rank (G p) -> forward G (upd G p v).
  Proof. intros R q. destruct (pos_dec q p) as [-> | D]; [rewrite upd_same; exact R|rewrite upd_other by exact D; lia]. Qed.

  (** ** Facts about phases *)

  Lemma entered_shape p ph tr : through ph = true -> p <> [] -> shape p ph (evs p tr) -> entered w p tr.
  Proof.
    intros T N S. assert (K : exists x, In x (evs p tr) /\ enters x).
    { destruct ph; try discriminate T; cbn [shape] in S.
      - destruct S as (_ & x & -> & E). exists x. split; [left; reflexivity|exact E].
      - destruct S as (_ & x & errs & -> & E & _). exists x. split; [left; reflexivity|exact E].
      - destruct S as (_ & x & errs & -> & E & _). exists x. split; [left; reflexivity|exact E].
      - destruct S as (_ & x & errs & posts & -> & E & _). exists x. split; [left; reflexivity|exact E]. }
    destruct K as (x & I & E). apply evs_in in I as (I & P). exists x. auto.
  Qed.
  Lemma through_born G tr s k p : at_phase G tr s -> G (k :: p) <> Unborn -> through (G p) = true.
  Proof. intros T N. apply (t_born _ _ _ T) in N. destruct (G p); cbn [born] in N; lia || reflexivity. Qed.

  (** No last visits *)
  Lemma alive_pre p ph l : (alive ph = true \/ ph = Unborn) -> shape p ph l -> forall x, In x l -> e_visit (fst x) = BFTW_PRE.
  Proof.
    intros A S x I. assert (EN : forall y, enters y -> e_visit (fst y) = BFTW_PRE) by (intros (e & a) (E & _); exact E).
    assert (ER : forall l, errors_ok p l -> In x l -> e_visit (fst x) = BFTW_PRE).
    { intros l' E J. unfold errors_ok in E. destruct (broken_at w p); [|subst; destruct J]. destruct E as (e & a & -> & V & _). destruct J as [<- | []]. exact V. }
    destruct ph; cbn [shape] in S; try (subst l; destruct I); try (destruct A; discriminate).
    - destruct S as (_ & y & -> & E). destruct I as [<- | []]. apply EN, E.
    - destruct S as (_ & y & -> & E). destruct I as [<- | []]. apply EN, E.
    - destruct S as (_ & y & errs & -> & E & R). destruct I as [<- | I]; [apply EN, E|exact (ER _ R I)].
    - destruct S as (_ & y & errs & -> & E & R). destruct I as [<- | I]; [apply EN, E|exact (ER _ R I)].
    - destruct S as [(_ & ->) | (_ & y & -> & E & _)]; [destruct I|]. destruct I as [<- | []]. exact E.
  Qed.

  Lemma ancestors_live s f q : heap s -> In f (files s) -> suffix q (f_pos f) -> q <> [] -> exists g, In g (files s) /\ f_pos g = q.
  Proof.
    intros H. remember (length (f_pos f)) as n eqn:L. revert f L. induction n as [|n IH]; intros f L I S N.
    - pose proof (ok_pos _ _ _ (h_ok _ _ H f I)). destruct (f_pos f); [congruence|discriminate].
    - destruct S as (r & E). destruct r as [|k r]; [exists f; auto|]. pose proof (ok_parent _ _ _ (h_ok _ _ H f I)) as P. destruct (f_parent f) as [y|].
      + destruct P as (g & j & G & EP & _). destruct (find_in _ _ _ G) as (GI & _). rewrite EP in L, E. cbn [length] in L. cbn [app] in E.
        apply (IH g); [lia|exact GI|exists r; congruence|exact N].
      + destruct P as (j & EP). rewrite EP in E. cbn [app] in E. injection E as _ E. symmetry in E. apply app_eq_nil in E as (_ & ->). congruence.
  Qed.

  (** The callback is called. *)
  Lemma hist_call G tr s s' e a k q : heap s -> at_phase G tr s -> hist tr s -> e_pos e = k :: q ->
    through (G q) = true -> (q = [] \/ exists f, In f (files s) /\ f_pos f = q) ->
    (alive (G (k :: q)) = true \/ G (k :: q) = Unborn) ->
    (e_visit e = BFTW_PRE -> evs (k :: q) tr = [] \/ e_type e = BFS_ERROR /\ exists x, evs (k :: q) tr = [x] /\ enters x) ->
    ((exists n, e_type e = look w n (k :: q)) \/ e_type e = BFS_ERROR /\ broken_at w (k :: q) = true /\ e_visit e = BFTW_PRE /\ evs (k :: q) tr <> []) ->
    (e_visit e = BFTW_POST -> fl_post_order w = true /\ through (G (k :: q)) = true) -> skipped (k :: q) = false ->
    event_ok w e -> callback w (user s) e = (a, user s') -> trace s' = (e, a) :: trace s ->
    hist ((e, a) :: tr) s'.
  Proof.
    intros H T [HT HP HO OR] E TH PL AL V TY PV SK EO CB TR. constructor; [rewrite TR, HT; reflexivity| |constructor; [exact EO|exact HO]|constructor; [exact OR| | | | | | |rewrite E; exact SK]].
    - replace a with (fst (callback w (user s) e)) by (rewrite CB; reflexivity). replace (user s') with (snd (callback w (user s) e)) by (rewrite CB; reflexivity).
      constructor. exact HP.
    - intros k' q' E' N. rewrite E in E'. injection E' as <- <-. apply (entered_shape q (G q)); [exact TH|exact N|]. apply (t_evs _ _ _ T q N).
    - intros x r c I PO E' EX. rewrite E in E'. assert (N : c <> []).
      { rewrite <- EX. rewrite Forall_forall in HO. destruct (HO x I) as (ND & _). intros Z. rewrite Z in ND. apply ND. reflexivity. }
      assert (A : alive (G c) = true \/ G c = Unborn).
      { destruct r as [|j r]; [cbn [app] in E'; rewrite <- E'; exact AL|]. cbn [app] in E'. injection E' as _ E'. left.
        destruct PL as [-> | (f & F & FP)]; [symmetry in E'; apply app_eq_nil in E' as (_ & ->); congruence|].
        apply (t_live _ _ _ T). apply (ancestors_live s f c H F); [exists r; congruence|exact N]. }
      assert (J : In x (evs c tr)) by (apply evs_in; auto).
      pose proof (alive_pre c (G c) (evs c tr) A (t_evs _ _ _ T c N) x J) as K. congruence.
    - intros x I. apply (t_stop _ _ _ T x I).
    - rewrite E. intros P. rewrite evs_rev. destruct (V P) as [-> | (ER & x & -> & EN)]; [left; reflexivity|]. right. split; [exact ER|]. exists x. auto.
    - rewrite E. destruct TY as [TY | (A & B & C & D)]; [left; exact TY|right]. rewrite evs_rev. split; [exact A|]. split; [exact B|]. split; [exact C|]. intros Z. apply D. destruct (evs (k :: q) tr) as [|y m]; [reflexivity|]. apply (f_equal (@length _)) in Z. rewrite rev_length in Z. discriminate.
    - intros P. destruct (PV P) as (P1 & P2). split; [exact P1|]. rewrite E. apply (entered_shape (k :: q) (G (k :: q))); [exact P2|discriminate|]. apply (t_evs _ _ _ T). discriminate.
  Qed.

  (** ** Changes of phases *)

  Lemma t_calm G tr s s' : at_phase G tr s -> failed s' = failed s -> files s' = files s -> cur s' = cur s -> calm s s' -> at_phase G tr s'.
  Proof.
    intros [] F FI C CA. constructor; auto.
    - congruence.
    - rewrite FI. assumption.
    - intros f. rewrite FI. intros I. specialize (t_place0 f I). destruct (G (f_pos f)); cbn [place] in *; rewrite ?C; auto.
      + eapply Permutation_in; [apply Permutation_sym, (calm_contents _ _ _ CA)|exact t_place0].
      + eapply Permutation_in; [apply Permutation_sym, (calm_contents _ _ _ CA)|exact t_place0].
      + rewrite (calm_in_queue _ _ _ _ CA). exact t_place0.
  Qed.

  Lemma born_keep G p v : (forall k q, G (k :: q) <> Unborn <-> k < born (G q) q) -> (v <> Unborn <-> G p <> Unborn) -> born v p = born (G p) p ->
    forall k q, upd G p v (k :: q) <> Unborn <-> k < born (upd G p v q) q.
  Proof.
    intros B N E k q. assert (L : upd G p v (k :: q) <> Unborn <-> G (k :: q) <> Unborn).
    { destruct (pos_dec (k :: q) p) as [<- | D]; [rewrite upd_same; exact N|rewrite upd_other by exact D; reflexivity]. }
    rewrite L, B. destruct (pos_dec q p) as [-> | D]; [rewrite upd_same, E; reflexivity|rewrite upd_other by exact D; reflexivity].
  Qed.

  Lemma evs_upd G p v tr x : (forall q, q <> [] -> shape q (G q) (evs q tr)) -> e_pos (fst x) = p -> shape p v (evs p tr ++ [x]) ->
    forall q, q <> [] -> shape q (upd G p v q) (evs q (x :: tr)).
  Proof.
    intros S E V q N. destruct (pos_dec q p) as [-> | D].
    - rewrite upd_same, evs_here by exact E. exact V.
    - rewrite upd_other, evs_there by congruence. apply S, N.
  Qed.
  Lemma evs_upd_none G p v tr : (forall q, q <> [] -> shape q (G q) (evs q tr)) -> shape p v (evs p tr) ->
    forall q, q <> [] -> shape q (upd G p v q) (evs q tr).
  Proof. intros S V q N. destruct (pos_dec q p) as [-> | D]; [rewrite upd_same; exact V|rewrite upd_other by exact D; apply S, N]. Qed.

  (** The phase of the current file changes. *)
  Lemma t_cur G tr tr' s s' x f v : heap s -> at_phase G tr s -> cur s = Some x -> find_file x s = Some f ->
    (match v with Visiting | Reading _ | Held | Leaving => True | _ => False end) ->
    born v (f_pos f) = born (G (f_pos f)) (f_pos f) -> (forall k, v = Reading k -> k <= length (kids_at w (f_pos f))) ->
    failed s' = failed s -> files s' = files s -> cur s' = cur s -> calm s s' ->
    (forall y, In y tr' -> snd y <> BFTW_STOP) ->
    (forall q, q <> [] -> shape q (upd G (f_pos f) v q) (evs q tr')) ->
    at_phase (upd G (f_pos f) v) tr' s'.
  Proof.
    intros H T CU F V B R FA FI C CA ST EV. destruct (find_in _ _ _ F) as (I & X). pose proof (ok_pos _ _ _ (h_ok _ _ H f I)) as N.
    assert (T' : at_phase G tr s') by (apply (t_calm G tr s); assumption).
    assert (AL : alive (G (f_pos f)) = true) by (apply (t_live _ _ _ T); eauto).
    assert (AV : alive v = true) by (destruct v; destruct V; reflexivity). constructor.
    - apply (t_failed _ _ _ T').
    - exact ST.
    - intros p. rewrite (t_live _ _ _ T'). destruct (pos_dec p (f_pos f)) as [-> | D]; [rewrite upd_same, AL, AV; reflexivity|rewrite upd_other by exact D; reflexivity].
    - intros g J. destruct (pos_dec (f_pos g) (f_pos f)) as [E | D].
      + rewrite E, upd_same. rewrite FI in J. rewrite (h_pos _ _ H g f J I E). destruct v; destruct V; cbn [place]; congruence.
      + rewrite upd_other by exact D. apply (t_place _ _ _ T' g J).
    - apply born_keep; [apply (t_born _ _ _ T)| |exact B]. split; intros _ E; [rewrite E in AL; discriminate|rewrite E in AV; discriminate].
    - intros p k. destruct (pos_dec p (f_pos f)) as [-> | D]; [rewrite upd_same; apply R|rewrite upd_other by exact D; apply (t_read _ _ _ T)].
    - exact EV.
    - rewrite upd_other by congruence. apply (t_root _ _ _ T).
  Qed.
End Hist.
