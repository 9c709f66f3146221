(** * Proofs about -delete *)
From Coq Require Import List Bool Arith Lia Init.Byte Strings.Byte.
From Verif Require Import WalkSpec PathModel PathSpec BftwModel BftwSpec BftwProofs BftwFacts DelModel DelSpec.
Import ListNotations.

Lemma gone_in l p : gone l p = true <-> In p l.
Proof.
  unfold gone. rewrite existsb_exists. split.
  - intros (q & I & E). destruct (list_eq_dec Nat.eq_dec q p); [subst; exact I|discriminate].
  - intros I. exists p. split; [exact I|]. destruct (list_eq_dec Nat.eq_dec p p); congruence.
Qed.

Section Acts.
  Variables (d : disk) (c : command).

  (** When the callback removes a file *)
  Definition acts (l : list pos) (e : event) : Prop :=
    e_type e <> BFS_ERROR /\ excluded c (e_pos e) = false /\
    (e_visit e = if is_dir (e_type e) && (e_depth e <? maxdepth c) then BFTW_POST else BFTW_PRE) /\
    mindepth c <= e_depth e /\ e_depth e <= maxdepth c /\ wants c l (e_pos e) = true /\ e_path e <> ["."%byte] /\
    ~ In (e_pos e) l /\ permitted d (e_pos e) = true /\
    (real_dir d (e_pos e) = true -> forall k, k < entries d (e_pos e) -> In (k :: e_pos e) l).

  Lemma entries_gone l p n : forallb (fun k => gone l (k :: p)) (seq 0 n) = true <-> forall k, k < n -> In (k :: p) l.
  Proof.
    rewrite forallb_forall. split.
    - intros H k K. apply gone_in, H, in_seq. lia.
    - intros H k K. apply gone_in, H. apply in_seq in K. lia.
  Qed.

  Lemma unlink_ok l p l' : unlinkat d l p (real_dir d p) = Some l' <->
    l' = p :: l /\ ~ In p l /\ permitted d p = true /\ (real_dir d p = true -> forall k, k < entries d p -> In (k :: p) l).
  Proof.
    unfold unlinkat. pose proof (gone_in l p) as G. destruct (gone l p); cbn [orb].
    { split; [discriminate|]. intros (_ & N & _). exfalso. apply N, G. reflexivity. }
    assert (NI : ~ In p l) by (intros I; apply G in I; discriminate).
    destruct (permitted d p); cbn [negb]; [|split; [discriminate|intros (_ & _ & Z & _); discriminate]].
    destruct (real_dir d p); cbn [andb].
    - pose proof (entries_gone l p (entries d p)) as E. destruct (forallb _ _).
      + split; [intros [= <-]; repeat split; auto; intros _; apply E; reflexivity|intros (-> & _); reflexivity].
      + split; [discriminate|]. intros (_ & _ & _ & Z). assert (false = true) by (apply E, Z; reflexivity). discriminate.
    - split; [intros [= <-]; repeat split; auto; discriminate|intros (-> & _); reflexivity].
  Qed.

  Lemma callback_does l e : (acts l e /\ snd (del_callback d c l e) = e_pos e :: l) \/ (~ acts l e /\ snd (del_callback d c l e) = l).
  Proof.
    unfold del_callback, acts. destruct (e_type e) eqn:T; [right; split; [intros (Z & _); congruence|reflexivity]| |].
    all: destruct (excluded c (e_pos e)) eqn:X; [right; split; [intros (_ & Z & _); congruence|reflexivity]|].
    all: cbn [is_dir andb].
    all: match goal with |- context [if ?v && _ && _ && _ then _ else _] => set (vis := v) end.
    all: match goal with |- context [e_visit ?x = ?v] => assert (V : vis = true <-> e_visit x = v) by (unfold vis; destruct (e_visit x), (e_depth e <? maxdepth c); split; congruence) end.
    all: destruct vis; cbn [andb]; [|right; split; [intros (_ & _ & Z & _); apply V in Z; discriminate|reflexivity]].
    all: destruct (mindepth c <=? e_depth e) eqn:MI; cbn [andb]; [apply Nat.leb_le in MI|apply Nat.leb_gt in MI; right; split; [intros (_ & _ & _ & Z & _); lia|reflexivity]].
    all: destruct (e_depth e <=? maxdepth c) eqn:MA; cbn [andb]; [apply Nat.leb_le in MA|apply Nat.leb_gt in MA; right; split; [intros (_ & _ & _ & _ & Z & _); lia|reflexivity]].
    all: destruct (wants c l (e_pos e)) eqn:W; [|right; split; [intros (_ & _ & _ & _ & _ & Z & _); congruence|reflexivity]].
    all: cbn [snd]; unfold eval_delete; destruct (list_eq_dec byte_eq_dec (e_path e) ["."%byte]) as [P|P]; [right; split; [intros (_ & _ & _ & _ & _ & _ & Z & _); congruence|reflexivity]|].
    all: replace (if real_dir d (e_pos e) then true else false) with (real_dir d (e_pos e)) by (destruct (real_dir d (e_pos e)); reflexivity).
    all: pose proof (unlink_ok l (e_pos e)) as UO.
    all: destruct (unlinkat d l (e_pos e) (real_dir d (e_pos e))) as [l'|]; cbn [snd].
    all: try (destruct (proj1 (UO l') eq_refl) as (-> & A & B & C); left; split; [|reflexivity]; repeat split; auto; try congruence; apply V; reflexivity).
    all: right; split; [|reflexivity]; intros (_ & _ & _ & _ & _ & _ & _ & A & B & C); assert (Z : None = Some (e_pos e :: l)) by (apply UO; auto); discriminate.
  Qed.

  Lemma callback_action l e : e_type e <> BFS_ERROR ->
    fst (del_callback d c l e) = if negb (excluded c (e_pos e)) && (e_depth e <? maxdepth c) then BFTW_CONTINUE else BFTW_PRUNE.
  Proof.
    intros T. unfold del_callback. destruct (e_type e); try congruence; destruct (excluded c (e_pos e)); try reflexivity; cbn [negb andb].
    all: rewrite (Nat.leb_antisym (e_depth e) (maxdepth c)); destruct (e_depth e <? maxdepth c); cbn [negb]; match goal with |- context [if ?b then _ else _] => destruct b end; reflexivity.
  Qed.
  Lemma callback_goes_on l e : fst (del_callback d c l e) <> BFTW_STOP.
  Proof.
    destruct (e_type e) eqn:T; [unfold del_callback; rewrite T; discriminate| |].
    all: rewrite callback_action by congruence; destruct (_ && _); discriminate.
  Qed.
End Acts.

Section Walk.
  Variables (w : env (list pos)) (kind : pos -> ftype) (d : disk) (c : command).
  Hypothesis CB : callback w = del_callback d c.

  Lemma plays_split l1 l2 v : plays w [] (l2 ++ l1) v -> exists v1, plays w [] l1 v1.
  Proof. revert v. induction l2 as [|x l2 IH]; intros v P; [eauto|]. inversion P; subst. eauto. Qed.

  Lemma removed_in l v : plays w [] l v -> forall p, In p v <-> exists e a l2 l1 v1, l = l2 ++ (e, a) :: l1 /\ plays w [] l1 v1 /\ e_pos e = p /\ acts d c v1 e.
  Proof.
    induction 1 as [|e l v P IH]; intros p.
    - split; [intros []|]. intros (e & a & l2 & l1 & v1 & E & _). destruct l2; discriminate.
    - rewrite CB. split.
      + intros I. destruct (callback_does d c v e) as [(A & E) | (A & E)]; rewrite E in I.
        * destruct I as [<- | I]; [exists e, (fst (del_callback d c v e)), [], l, v; auto|].
          apply IH in I as (e' & a & l2 & l1 & v1 & -> & K). eexists e', a, (_ :: l2), l1, v1. split; [reflexivity|exact K].
        * apply IH in I as (e' & a & l2 & l1 & v1 & -> & K). eexists e', a, (_ :: l2), l1, v1. split; [reflexivity|exact K].
      + intros (e' & a & l2 & l1 & v1 & E & P1 & Q & A).
        assert (M : incl v (snd (del_callback d c v e))). { destruct (callback_does d c v e) as [(_ & ->) | (_ & ->)]; intros x I; [right|]; exact I. }
        destruct l2 as [|x l2]; cbn [app] in E; injection E as E1 E2.
        * subst e' l1. assert (v1 = v) as ->.
          { clear - P P1. revert v1 P1. induction P as [|e l v P IH]; intros v1 P1; inversion P1; subst; [reflexivity|].
            match goal with H : plays w [] l ?x |- _ => apply IH in H end. subst. reflexivity. }
          destruct (callback_does d c v e) as [(_ & ->) | (N & _)]; [left; exact Q|destruct (N A)].
        * apply M, IH. exists e', a, l2, l1, v1. auto.
  Qed.

  Lemma removed_once l v : plays w [] l v -> NoDup v.
  Proof.
    induction 1 as [|e l v P IH]; [constructor|]. rewrite CB. destruct (callback_does d c v e) as [(A & ->) | (_ & ->)]; [|exact IH].
    constructor; [apply A|exact IH].
  Qed.

  Lemma removed_more l1 : forall l2 v v1, plays w [] (l2 ++ l1) v -> plays w [] l1 v1 -> incl v1 v.
  Proof.
    intros l2 v v1 P P1 x I. rewrite (removed_in _ _ P). rewrite (removed_in _ _ P1) in I. destruct I as (e & a & l3 & l4 & v' & -> & K).
    exists e, a, (l2 ++ l3), l4, v'. rewrite <- app_assoc. auto.
  Qed.

  Hypothesis NM : named w.
  Hypothesis LOOK : forall n p, look w n p = kind p.
  Hypothesis KIND : forall p, kind p <> BFS_ERROR.
  Hypothesis PO : fl_post_order w = true.
  Hypothesis RC : fl_recover w = true.
  Hypothesis SM : fl_skip_mounts w = false.
  Hypothesis PM : fl_prune_mounts w = false.
  Hypothesis LOC : local c.

  Variable s : BftwModel.state (list pos).
  Hypothesis RUN : bftw_walk w [] = Some (true, s).

  Let K := walk_facts w [] true s NM RUN.

  Lemma told e a : In (e, a) (trace s) -> event_ok w e.
  Proof. intros I. pose proof (wk_ok _ _ _ _ K) as Z. rewrite Forall_forall in Z. exact (Z _ I). Qed.

  Lemma shown e a : In (e, a) (trace s) -> e_type e <> BFS_ERROR -> e_type e = kind (e_pos e).
  Proof.
    intros I T. apply in_split in I as (l2 & l1 & E). pose proof (wk_order _ _ _ _ K) as O. rewrite E in O. apply order_tail in O.
    inversion O as [|? ? ? _ _ _ _ _ TY _ _]; subst. destruct TY as [(n & ->) | (Z & _)]; [apply LOOK|congruence].
  Qed.

  Lemma answered e a : In (e, a) (trace s) -> e_type e <> BFS_ERROR -> a = if negb (excluded c (e_pos e)) && (depth (e_pos e) <? maxdepth c) then BFTW_CONTINUE else BFTW_PRUNE.
  Proof.
    intros I T. destruct (plays_in w _ _ _ _ (wk_plays _ _ _ _ K) I) as (v & E). cbn [fst snd] in E. rewrite CB in E. rewrite E, callback_action by exact T.
    destruct (told e a I) as (_ & -> & _). reflexivity.
  Qed.

  Lemma entered_searched q : entered w q (trace s) -> searched kind c q.
  Proof.
    intros ((e & a) & I & P & V & T & A & _). cbn [fst] in P. assert (TE : e_type e <> BFS_ERROR) by congruence.
    pose proof (shown e a I TE) as Z. pose proof (answered e a I TE) as Y. rewrite P in *. subst a. unfold searched. split; [congruence|].
    destruct (excluded c q); [discriminate|]. cbn [negb andb] in Y. split; [reflexivity|]. apply Nat.ltb_lt. destruct (depth q <? maxdepth c); [reflexivity|discriminate].
  Qed.

  Lemma visited_found e a : In (e, a) (trace s) -> found w kind c (e_pos e).
  Proof.
    intros I. split; [apply (told e a I)|]. intros r q P NR NQ. apply entered_searched. apply in_split in I as (l2 & l1 & E).
    pose proof (wk_order _ _ _ _ K) as O. rewrite E in O. pose proof (parents_first w r q l1 e a l2 O P NR NQ) as (x & A & B). exists x. split; [rewrite E; apply in_or_app; right; right; exact A|exact B].
  Qed.

  Lemma skip_none p : skipped w p = false.
  Proof. unfold skipped. rewrite SM. reflexivity. Qed.

  Lemma first_visit p : reached w p (rev (trace s)) -> exists e a rest, visits_of p (rev (trace s)) = (e, a) :: rest /\ e_visit e = BFTW_PRE /\ In (e, a) (trace s) /\ e_pos e = p /\ e_type e = kind p /\
     (enters w (e, a) <-> searched kind c p) /\ (searched kind c p -> later_visits w p rest).
  Proof.
    intros R. destruct (proj2 (wk_result _ _ _ _ K) p) as (A & _). destruct (A (conj R (skip_none p))) as (e & a & rest & E & V & L & _).
    assert (I : In (e, a) (visits_of p (rev (trace s)))) by (rewrite E; left; reflexivity). apply in_visits in I as (I & P). cbn [fst] in P. apply in_rev in I.
    destruct (first_type w p (trace s) e a rest (wk_order _ _ _ _ K) E) as (n & T). rewrite LOOK in T.
    assert (TE : e_type e <> BFS_ERROR) by (rewrite T; apply KIND).
    pose proof (answered e a I TE) as Y. rewrite P in Y.
    assert (EN : enters w (e, a) <-> searched kind c p).
    { unfold enters, searched. rewrite PM. cbn [andb]. rewrite T. split.
      - intros (_ & Z & -> & _). split; [exact Z|]. destruct (excluded c p); [discriminate|]. cbn [negb andb] in Y. split; [reflexivity|]. apply Nat.ltb_lt. destruct (_ <? _); [reflexivity|discriminate].
      - intros (Z & X & D). rewrite X in Y. apply Nat.ltb_lt in D. rewrite D in Y. cbn in Y. auto. }
    exists e, a, rest. repeat split; auto; try apply EN; auto. intros S. apply L, EN, S.
  Qed.

  Lemma found_reached p : found w kind c p -> reached w p (rev (trace s)).
  Proof.
    induction p as [|k q IH]; intros (N & S); [exact (N eq_refl)|]. cbn [reached]. split; [exact N|]. destruct q as [|j q]; [auto|]. right.
    assert (F : found w kind c (j :: q)).
    { split.
      - intros Z. apply N. cbn [node_at] in Z |- *. cbn [kids_at]. rewrite Z. destruct k; reflexivity.
      - intros r q' P NR NQ. apply (S (k :: r) q'); [rewrite P; reflexivity|discriminate|exact NQ]. }
    destruct (first_visit _ (IH F)) as (e & a & rest & _ & _ & I & P & _ & EN & _). exists (e, a). split; [apply -> in_rev; exact I|]. split; [exact P|].
    apply EN. apply (S [k]); [reflexivity|discriminate|discriminate].
  Qed.

  (** The visit on which a file is evaluated *)
  Lemma deciding p : found w kind c p -> excluded c p = false -> exists e a, In (e, a) (trace s) /\ e_pos e = p /\ e_type e = kind p /\
    e_visit e = if BftwModel.is_dir (e_type e) && (e_depth e <? maxdepth c) then BFTW_POST else BFTW_PRE.
  Proof.
    intros F X. destruct (first_visit p (found_reached p F)) as (e & a & rest & E & V & I & P & T & EN & LV).
    destruct (BftwModel.is_dir (kind p) && (depth p <? maxdepth c)) eqn:B.
    - apply andb_true_iff in B as (B1 & B2). apply Nat.ltb_lt in B2. assert (D : kind p = BFS_DIR) by (destruct (kind p); try discriminate; reflexivity).
      destruct (LV (conj D (conj X B2))) as (errors & posts & -> & _ & PS). rewrite PO in PS. destruct PS as (e' & a' & -> & V').
      assert (J : In (e', a') (visits_of p (rev (trace s)))) by (rewrite E; right; apply in_or_app; right; left; reflexivity).
      apply in_visits in J as (J & P'). cbn [fst] in P'. apply in_rev in J. exists e', a'. split; [exact J|]. split; [exact P'|].
      assert (T' : e_type e' = kind p).
      { apply in_split in J as (l2 & l1 & EQ). pose proof (wk_order _ _ _ _ K) as O. rewrite EQ in O. apply order_tail in O. inversion O as [|? ? ? _ _ _ _ _ TY _ _]; subst.
        destruct TY as [(n & ->) | (_ & _ & Z & _)]; [rewrite LOOK; f_equal; assumption|congruence]. }
      split; [exact T'|]. rewrite T', D. destruct (told _ _ J) as (_ & -> & _). rewrite P'. unfold depth in B2. apply Nat.ltb_lt in B2. rewrite B2. exact V'.
    - exists e, a. split; [exact I|]. split; [exact P|]. split; [exact T|]. rewrite T. destruct (told _ _ I) as (_ & -> & _). rewrite P. unfold depth in B. rewrite B. exact V.
  Qed.

  (** What is removed below a file does not change after it was evaluated. *)
  Lemma below_same e a l2 l1 v1 : trace s = l2 ++ (e, a) :: l1 -> plays w [] l1 v1 -> e_type e <> BFS_ERROR -> excluded c (e_pos e) = false ->
    e_visit e = (if BftwModel.is_dir (e_type e) && (e_depth e <? maxdepth c) then BFTW_POST else BFTW_PRE) ->
    forall r, r <> [] -> (In (r ++ e_pos e) v1 <-> In (r ++ e_pos e) (user s)).
  Proof.
    intros E P1 TE X V r NR. pose proof (wk_plays _ _ _ _ K) as PL. pose proof (wk_order _ _ _ _ K) as O.
    assert (I : In (e, a) (trace s)) by (rewrite E; apply in_or_app; right; left; reflexivity).
    split.
    - apply (removed_more l1 (l2 ++ [(e, a)])); [rewrite <- app_assoc; cbn [app]; rewrite <- E; exact PL|exact P1].
    - intros J. apply (removed_in _ _ PL) in J as (e' & a' & l4 & l3 & v' & E' & P' & Q & A).
      assert (J : In (e', a') (trace s)) by (rewrite E'; apply in_or_app; right; left; reflexivity).
      destruct (BftwModel.is_dir (e_type e) && (e_depth e <? maxdepth c)) eqn:B.
      + (* a last visit: the other one was earlier *)
        assert (L : exists l5, l1 = l5 ++ (e', a') :: l3).
        { rewrite E in E'. clear - E' O E V Q NR. assert (PL : forall x r, In x l2 -> e_pos (fst x) <> r ++ e_pos e) by (apply (post_last w l1 e a l2); [rewrite <- E; exact O|exact V]). clear O E V.
          revert l4 E' PL. induction l2 as [|x l2 IH]; intros l4 E' PL; cbn [app] in E'.
          - destruct l4 as [|y l4]; cbn [app] in E'; injection E' as E1 E2; [|exists l4; exact E2].
            exfalso. apply (f_equal (@length nat)) in Q. rewrite app_length in Q. destruct r; [congruence|]. cbn [length] in Q. subst e'. lia.
          - destruct l4 as [|y l4]; cbn [app] in E'; injection E' as E1 E2.
            + exfalso. apply (PL x r); [left; reflexivity|]. rewrite E1. exact Q.
            + apply (IH l4 E2). intros z r' Z. apply PL. right. exact Z. }
        destruct L as (l5 & ->). apply (removed_in _ _ P1). exists e', a', l5, l3, v'. auto.
      + (* the only visit: nothing is visited below *)
        exfalso. refine (prune_below w (trace s) e a (e', a') r O I V TE _ _ J NR Q).
        * intros (_ & T & -> & _). pose proof (answered _ _ I TE) as Y. rewrite X in Y. destruct (told _ _ I) as (_ & DE & _). rewrite T, DE in B. unfold depth in Y. cbn [BftwModel.is_dir andb] in B. rewrite B in Y. discriminate.
        * destruct (told _ _ I) as (N & _). intros Z. rewrite Z in N. exact (N eq_refl).
  Qed.

  Lemma walk_settles : settled w kind d c (fun p => In p (user s)) (fun p => wants c (user s) p = true).
  Proof.
    intros p. pose proof (wk_plays _ _ _ _ K) as PL. split.
    - intros I. apply (removed_in _ _ PL) in I as (e & a & l2 & l1 & v1 & E & P1 & <- & (T & X & V & MI & MA & W & NP & NI & PE & RD)).
      assert (I : In (e, a) (trace s)) by (rewrite E; apply in_or_app; right; left; reflexivity).
      pose proof (below_same e a l2 l1 v1 E P1 T X V) as BS. destruct (told _ _ I) as (_ & DE & PA & _).
      split; [exact (visited_found e a I)|]. unfold depth. rewrite <- DE, <- PA. repeat split; auto.
      + rewrite <- W. symmetry. apply LOC. exact BS.
      + intros R k L. apply (BS [k]); [discriminate|]. apply RD; auto.
    - intros (F & MI & X & W & NP & PE & RD).
      destruct (deciding p F X) as (e & a & I & <- & T & V). destruct (told _ _ I) as (_ & DE & PA & _).
      assert (TE : e_type e <> BFS_ERROR) by (rewrite T; apply KIND).
      apply in_split in I as (l2 & l1 & E). pose proof PL as P1. rewrite E in P1. apply (plays_split ((e, a) :: l1) l2) in P1 as (v0 & P1). inversion P1 as [|? ? v1 P2]; subst.
      pose proof (below_same e _ l2 l1 v1 E P2 TE X V) as BS.
      destruct (in_dec (list_eq_dec Nat.eq_dec) (e_pos e) v1) as [Y|Y].
      { refine (removed_more l1 (l2 ++ [(e, fst (callback w v1 e))]) _ v1 _ P2 _ Y). rewrite <- app_assoc. cbn [app]. rewrite <- E. exact PL. }
      apply (removed_in _ _ PL). exists e, (fst (callback w v1 e)), l2, l1, v1. repeat split; auto.
      + rewrite DE. exact MI.
      + (* within -maxdepth, being found *)
        rewrite DE. destruct F as (_ & F). destruct (e_pos e) as [|k q]; [cbn; lia|]. destruct q as [|j q]; [cbn; lia|].
        destruct (F [k] (j :: q) eq_refl) as (_ & _ & D); [discriminate|discriminate|]. unfold depth in D. cbn [length] in *. lia.
      + rewrite <- W. apply LOC. exact BS.
      + rewrite PA. exact NP.
      + intros R k L. apply (BS [k]); [discriminate|]. apply RD; auto.
  Qed.
End Walk.

Lemma delete_runs w kind d c : set_up w kind d c -> local c ->
  exists s, bftw_walk w [] = Some (true, s) /\ NoDup (user s) /\ settled w kind d c (fun p => In p (user s)) (fun p => wants c (user s) p = true).
Proof.
  intros [CB NM LO KI PO RC (SM & PM)] LOC. destruct (walk_runs w [] NM) as (ok & s & E & _ & PL & _ & ST). exists s.
  assert (ok = true) as ->.
  { destruct ok; [reflexivity|]. exfalso. destruct (ST RC eq_refl) as (x & I & Z). destruct (plays_in w _ _ _ x PL I) as (v & Y). rewrite CB, Z in Y. symmetry in Y. exact (callback_goes_on d c v (fst x) Y). }
  split; [exact E|]. split; [exact (removed_once w d c CB _ _ PL)|]. apply (walk_settles w kind d c CB NM LO KI PO RC SM PM LOC s E).
Qed.

(** ** Trees are finite *)
Section Finite.
  Context {U : Type}.
  Variable w : env U.

  Lemma tree_height : forall t : tree info, exists h, forall p, length p >= h -> forall q, kids_at w q = (let 'Node _ kids := t in kids) -> node_at w (p ++ q) = None.
  Proof.
    assert (EMP : forall p q, kids_at w q = [] -> p <> [] -> node_at w (p ++ q) = None /\ kids_at w (p ++ q) = []).
    { induction p as [|k p IH]; intros q E N; [congruence|]. cbn [app node_at kids_at]. destruct p as [|j p].
      - cbn [app]. rewrite E. destruct k; auto.
      - destruct (IH q E) as (_ & ->); [discriminate|]. destruct k; auto. }
    apply tree_induction. intros i kids IH.
    assert (H : exists h, forall t, In t kids -> forall p, length p >= h -> forall q, kids_at w q = (let 'Node _ kids := t in kids) -> node_at w (p ++ q) = None).
    { clear i. induction kids as [|t kids IHk]; [exists 0; intros t []|]. inversion IH as [|? ? A B]; subst. destruct (IHk B) as (h1 & H1). destruct A as (h2 & H2).
      exists (h1 + h2). intros t' [<- | I] p L q E; [apply H2|apply (H1 t' I)]; auto; lia. }
    destruct H as (h & H). exists (S h + 1). intros p L q E.
    destruct (exists_last (l := p)) as (p' & k & ->); [intros ->; cbn in L; lia|]. rewrite <- app_assoc. cbn [app]. rewrite app_length in L. cbn [length] in L.
    destruct (nth_error kids k) as [t|] eqn:T.
    - apply (H t (nth_error_In _ _ T)); [lia|]. cbn [kids_at]. rewrite E, T. reflexivity.
    - apply EMP; [|intros ->; cbn in L; lia]. cbn [kids_at]. rewrite E, T. reflexivity.
  Qed.

  Lemma finite : exists h, forall p, node_at w p <> None -> length p < h.
  Proof.
    destruct (tree_height (Node {| name := []; broken := false |} (roots w))) as (h & H). exists h. intros p N. destruct (le_lt_dec h (length p)) as [L|L]; [|exact L].
    exfalso. apply N. specialize (H p L [] eq_refl). rewrite app_nil_r in H. exact H.
  Qed.

  (** Induction from the bottom *)
  Lemma bottom_up (P : pos -> Prop) : (forall p, node_at w p = None -> P p) -> (forall p, (forall r, r <> [] -> P (r ++ p)) -> P p) -> forall p, P p.
  Proof.
    intros NO ST. destruct finite as (h & H). assert (Z : forall n p, h - length p <= n -> P p).
    { induction n as [|n IH]; intros p L.
      - apply NO. destruct (node_at w p) eqn:E; [|reflexivity]. assert (length p < h) by (apply H; congruence). lia.
      - destruct (le_lt_dec h (length p)) as [G|G]; [apply NO; destruct (node_at w p) eqn:E; [|reflexivity]; assert (length p < h) by (apply H; congruence); lia|].
        apply ST. intros r N. apply IH. rewrite app_length. destruct r; [congruence|]. cbn [length]. lia. }
    intros p. apply (Z (h - length p) p). lia.
  Qed.
End Finite.

Lemma kids_same {U U'} (w : env U) (w' : env U') : roots w = roots w' -> forall p, kids_at w p = kids_at w' p.
Proof. intros E. induction p as [|k p IH]; [exact E|]. cbn [kids_at]. rewrite IH. reflexivity. Qed.
Lemma node_same {U U'} (w : env U) (w' : env U') : roots w = roots w' -> forall p, node_at w p = node_at w' p.
Proof. intros E [|k p]; [reflexivity|]. cbn [node_at]. rewrite (kids_same w w' E). reflexivity. Qed.
Lemma path_same {U U'} (w : env U) (w' : env U') : roots w = roots w' -> forall p, path_at w p = path_at w' p.
Proof.
  intros E. assert (N : forall p, name_at w p = name_at w' p) by (intros p; unfold name_at; rewrite (node_same w w' E); reflexivity).
  induction p as [|k [|j p] IH]; [reflexivity|apply N|]. change (join (path_at w (j :: p)) (name_at w (k :: j :: p)) = join (path_at w' (j :: p)) (name_at w' (k :: j :: p))). rewrite IH, N. reflexivity.
Qed.

Lemma settled_unique {U U'} (w : env U) (w' : env U') kind d c l l' : roots w = roots w' -> local c ->
  settled w kind d c (fun p => In p l) (fun p => wants c l p = true) -> settled w' kind d c (fun p => In p l') (fun p => wants c l' p = true) ->
  forall p, In p l <-> In p l'.
Proof.
  intros RO LOC S S'. apply (bottom_up w).
  - intros p N. split; intros I; [apply S in I as ((Z & _) & _)|apply S' in I as ((Z & _) & _); rewrite <- (node_same w w' RO) in Z]; congruence.
  - intros p IH. assert (W : wants c l p = wants c l' p) by (apply LOC; exact IH).
    rewrite (S p), (S' p). unfold found. rewrite (node_same w w' RO), (path_same w w' RO), W.
    split; intros (A & B & C & D & E & F & G); (split; [exact A|]; split; [exact B|]; split; [exact C|]; split; [exact D|]; split; [exact E|]; split; [exact F|]); intros R k L; specialize (G R k L); assert (NK : [k] <> []) by discriminate; specialize (IH [k] NK); cbn [app] in IH; apply IH; exact G.
Qed.

Lemma delete_same w w' kind d c s s' : set_up w kind d c -> set_up w' kind d c -> local c -> roots w = roots w' ->
  bftw_walk w [] = Some (true, s) -> bftw_walk w' [] = Some (true, s') -> forall p, In p (user s) <-> In p (user s').
Proof.
  intros SU SU' LOC RO E E'. destruct (delete_runs w kind d c SU LOC) as (s1 & E1 & _ & S1). destruct (delete_runs w' kind d c SU' LOC) as (s2 & E2 & _ & S2).
  rewrite E in E1. rewrite E' in E2. injection E1 as <-. injection E2 as <-. exact (settled_unique w w' kind d c _ _ RO LOC S1 S2).
Qed.

(** ** Plain searches *)
Section Plain.
  Variables (w : env (list pos)) (kind : pos -> ftype) (d : disk) (c : command).
  Hypothesis PL : plain w kind d c.

  Lemma node_parent k p : node_at w (k :: p) <> None -> p <> [] -> node_at w p <> None.
  Proof. intros N NP Z. apply N. destruct p as [|j p]; [congruence|]. cbn [node_at] in Z |- *. cbn [kids_at]. rewrite Z. destruct k; reflexivity. Qed.
  Lemma node_above r p : node_at w (r ++ p) <> None -> p <> [] -> node_at w p <> None.
  Proof. induction r as [|k r IH]; intros N NP; [exact N|]. apply IH; [|exact NP]. apply (node_parent k); [exact N|]. destruct r; [exact NP|discriminate]. Qed.
  Lemma node_kid k p : node_at w (k :: p) <> None <-> k < length (kids_at w p).
  Proof. cbn [node_at]. apply nth_error_Some. Qed.

  Lemma plain_found p : found w kind c p <-> node_at w p <> None.
  Proof.
    split; [intros (N & _); exact N|]. intros N. split; [exact N|]. intros r q -> NR NQ. pose proof (node_above r q N NQ) as Nq.
    destruct (exists_last NR) as (r' & k & ->). rewrite <- app_assoc in N. cbn [app] in N.
    assert (Nk : node_at w (k :: q) <> None) by (apply (node_above r'); [exact N|discriminate]).
    split; [|split; [apply PL|apply PL; exact Nq]]. apply (pl_kind _ _ _ _ PL), (pl_kids _ _ _ _ PL); [exact NQ|]. apply node_kid in Nk. intros Z. rewrite Z in Nk. cbn in Nk. lia.
  Qed.

  Lemma plain_settled l : settled w kind d c (fun p => In p l) (fun p => wants c l p = true) -> forall p, In p l <->
    node_at w p <> None /\ wants c l p = true /\ forall k, node_at w (k :: p) <> None -> In (k :: p) l.
  Proof.
    intros S p. rewrite (S p), plain_found, (pl_min _ _ _ _ PL), (pl_excluded _ _ _ _ PL), (pl_permitted _ _ _ _ PL), (pl_entries _ _ _ _ PL). split.
    - intros (N & _ & _ & W & _ & _ & A). split; [exact N|]. split; [exact W|]. intros k Nk. apply node_kid in Nk. apply A; [|exact Nk].
      apply (pl_kids _ _ _ _ PL); [intros ->; exact (N eq_refl)|]. intros Z. rewrite Z in Nk. cbn in Nk. lia.
    - intros (N & W & A). repeat split; auto; [lia|apply PL; exact N|]. intros _ k L. apply A, node_kid, L.
  Qed.

  (** If the tests say [good] of files and of directories that are empty by then *)
  Lemma plain_good l good : settled w kind d c (fun p => In p l) (fun p => wants c l p = true) ->
    (forall p, node_at w p <> None -> (forall k, node_at w (k :: p) <> None -> In (k :: p) l) -> (wants c l p = true <-> good p)) ->
    forall p, In p l <-> node_at w p <> None /\ all_below w p good.
  Proof.
    intros S G. apply (bottom_up w).
    - intros p N. rewrite (plain_settled l S). rewrite N. split; intros (Z & _); congruence.
    - intros p IH. rewrite (plain_settled l S). split.
      + intros (N & W & A). split; [exact N|]. intros r Nr. destruct r as [|j r0]; [apply (G p N A); exact W|].
        destruct (exists_last (l := j :: r0)) as (r & k & E); [discriminate|]. rewrite E in Nr |- *. rewrite <- app_assoc in Nr |- *. cbn [app] in Nr |- *.
        assert (Nk : node_at w (k :: p) <> None) by (apply (node_above r); [exact Nr|discriminate]).
        apply (IH [k]); [discriminate|apply A; exact Nk|exact Nr].
      + intros (N & B). assert (A : forall k, node_at w (k :: p) <> None -> In (k :: p) l).
        { intros k Nk. apply (IH [k]); [discriminate|]. split; [exact Nk|]. intros r. specialize (B (r ++ [k])). rewrite <- app_assoc in B. exact B. }
        split; [exact N|]. split; [apply (G p N A), (B []); exact N|exact A].
  Qed.
End Plain.

Lemma delete_plain w kind d c s test : set_up w kind d c -> plain w kind d c -> (forall l p, wants c l p = test p) -> bftw_walk w [] = Some (true, s) ->
  forall p, In p (user s) <-> node_at w p <> None /\ all_below w p (fun q => test q = true).
Proof.
  intros SU PL T E. destruct (delete_runs w kind d c SU) as (s1 & E1 & _ & S1); [intros l l' p _; rewrite !T; reflexivity|].
  rewrite E in E1. injection E1 as <-. apply (plain_good w kind d c PL _ _ S1). intros p _ _. rewrite T. reflexivity.
Qed.

Lemma empty_local d void l l' p : (forall r, r <> [] -> (In (r ++ p) l <-> In (r ++ p) l')) -> empty d void l p = empty d void l' p.
Proof.
  intros H. unfold empty. destruct (real_dir d p); [|reflexivity]. induction (seq 0 (entries d p)) as [|k ks IH]; [reflexivity|]. cbn [forallb]. rewrite IH. f_equal.
  fold (gone l (k :: p)). fold (gone l' (k :: p)). assert (Z : gone l (k :: p) = true <-> gone l' (k :: p) = true) by (rewrite !gone_in; apply (H [k]); discriminate).
  destruct (gone l (k :: p)), (gone l' (k :: p)); try reflexivity; [symmetry|]; apply Z; reflexivity.
Qed.

Lemma delete_empty w kind d c s void : set_up w kind d c -> plain w kind d c -> wants c = empty d void -> bftw_walk w [] = Some (true, s) ->
  forall p, In p (user s) <-> node_at w p <> None /\ all_below w p (fun q => real_dir d q = true \/ void q = true).
Proof.
  intros SU PL T E. destruct (delete_runs w kind d c SU) as (s1 & E1 & _ & S1); [intros l l' p; rewrite T; apply empty_local|].
  rewrite E in E1. injection E1 as <-. apply (plain_good w kind d c PL _ _ S1). intros p N A. rewrite T. unfold empty. destruct (real_dir d p).
  - split; [auto|]. intros _. apply (proj2 (entries_gone (user s) p (entries d p))). intros k L. apply A, node_kid. rewrite <- (pl_entries _ _ _ _ PL). exact L.
  - split; [auto|]. intros [Z | Z]; [discriminate|exact Z].
Qed.
