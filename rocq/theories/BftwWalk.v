(** * Whole walks *)
From Coq Require Import List Bool Arith Lia Permutation Sorted Init.Byte.
From Coq Require Import ZifyBool ZifyNat.
From Verif Require Import PathModel PathSpec WalkSpec SortModel SortSpec SortProofs BftwModel BftwIo BftwQueue BftwPop BftwSpec BftwPath BftwHeap BftwFiles BftwGc BftwHist BftwSteps BftwEntry BftwMain BftwLoop BftwOrder.
Import ListNotations.

Section Walk.
  Context {U : Type}.
  Variable w : env U.
  Notation state := (state U).
  Notation IO := (IO w None).
  Notation heap := (heap w).
  Notation counted := (counted w).
  Notation contents := (contents w).
  Notation in_queue := (in_queue w None).
  Notation at_phase := (at_phase w).
  Notation born := (born w).
  Notation shape := (shape w).
  Notation enters := (enters w).
  Notation skipped := (skipped w).
  Notation aside := (aside w).
  Notation dfs_before := (dfs_before w).
  Notation bfs_before := (bfs_before w).
  Notation sorted_before := (sorted_before w).
  Notation kids_sorted := (kids_sorted w).

  (** ** The queues of sorted walks, by positions *)

  Lemma aside_kid_l x y k : aside x y -> aside (k :: x) y.
  Proof. intros (q & i & j & r & r' & -> & -> & S). exists q, i, j, (k :: r), r'. auto. Qed.
  Lemma aside_kid_r x y k : aside x y -> aside x (k :: y).
  Proof. intros (q & i & j & r & r' & -> & -> & S). exists q, i, j, r, (k :: r'). auto. Qed.
  Lemma kids_aside q l : kids_sorted q l -> StronglySorted aside l.
  Proof. intros (_ & B). apply ss_before. intros a b X. destruct (B a b X) as (j & k & -> & -> & S). exists q, j, k, [], []. auto. Qed.
  Lemma ss_impl {A} (R R' : A -> A -> Prop) l : (forall x y, In x l -> In y l -> R x y -> R' x y) -> StronglySorted R l -> StronglySorted R' l.
  Proof. intros I S. apply ss_before. intros x y B. destruct (before_in _ _ _ B). apply I; auto. apply (proj1 (ss_before _ _) S), B. Qed.

  Definition dfs_inv (L F D : list pos) : Prop :=
    StronglySorted dfs_before (L ++ F) /\ StronglySorted aside F /\
    (D = [] \/ exists x L0, D = [x] /\ L = L0 ++ [x] /\ forall f, In f F -> aside x f).
  Definition bfs_inv (L F D : list pos) : Prop :=
    StronglySorted bfs_before (L ++ F) /\ StronglySorted bfs_before (D ++ F) /\
    (forall l d k, In l (L ++ F) -> In d D -> bfs_before l (k :: d)) /\ (forall a b, In a F -> In b F -> length a = length b) /\ incl D L.

  Lemma dfs_visit L x F : dfs_inv L (x :: F) [] -> dfs_inv L F [] /\ dfs_inv (L ++ [x]) F [] /\ dfs_inv (L ++ [x]) F [x].
  Proof.
    intros (S & AS & _). pose proof S as S'. change (x :: F) with ([x] ++ F) in S'. rewrite app_assoc in S'. apply StronglySorted_inv in AS as (AS & AF). rewrite Forall_forall in AF.
    split; [|split].
    - split; [|split; [exact AS|left; reflexivity]]. apply ss_app in S as (S1 & S2 & S3). apply StronglySorted_inv in S2 as (S2 & _). apply ss_app. split; [exact S1|]. split; [exact S2|]. intros a b I J. apply S3; [exact I|right; exact J].
    - split; [exact S'|]. split; [exact AS|left; reflexivity].
    - split; [exact S'|]. split; [exact AS|right]. exists x, L. auto.
  Qed.
  Lemma dfs_read L F x D K : dfs_inv L F (x :: D) -> kids_sorted x K -> dfs_inv L (K ++ F) D.
  Proof.
    intros (S & AS & [Z | (y & L0 & E & -> & AX)]) KS; [discriminate|]. injection E as <- ->. pose proof (kids_aside _ _ KS) as KA. destruct KS as (KI & KB).
    assert (KF : forall a b, In a K -> In b F -> aside a b) by (intros a b I J; destruct (KI a I) as (j & ->); apply aside_kid_l, AX, J).
    apply ss_app in S as (S1 & S2 & S3). split; [|split; [|left; reflexivity]].
    - apply ss_app. split; [exact S1|]. split.
      + apply ss_app. split; [eapply ss_impl; [|exact KA]; intros a b _ _ Z; right; exact Z|]. split; [exact S2|]. intros a b I J. right. apply KF; assumption.
      + intros a b I J. apply in_app_iff in J as [J | J]; [|apply S3; assumption]. destruct (KI b J) as (j & ->). apply in_app_iff in I as [I | [<- | []]].
        * apply ss_app in S1 as (_ & _ & S1). destruct (S1 a x I (or_introl eq_refl)) as [(r & N & ->) | Z]; [left; exists (j :: r); split; [discriminate|reflexivity]|right; apply aside_kid_r, Z].
        * left. exists [j]. split; [discriminate|reflexivity].
    - apply ss_app. split; [exact KA|]. split; [exact AS|exact KF].
  Qed.

  Lemma bfs_visit L x F D : bfs_inv L (x :: F) D -> bfs_inv L F D /\ bfs_inv (L ++ [x]) F D /\ bfs_inv (L ++ [x]) F (D ++ [x]).
  Proof.
    intros (S & SD & BK & LN & IC). pose proof S as S'. change (x :: F) with ([x] ++ F) in S'. rewrite app_assoc in S'.
    assert (DROP : forall l, StronglySorted bfs_before (l ++ x :: F) -> StronglySorted bfs_before (l ++ F)).
    { intros l Z. apply ss_app in Z as (Z1 & Z2 & Z3). apply StronglySorted_inv in Z2 as (Z2 & _). apply ss_app. split; [exact Z1|]. split; [exact Z2|]. intros a b I J. apply Z3; [exact I|right; exact J]. }
    split; [|split].
    - split; [apply DROP, S|]. split; [apply DROP, SD|]. split; [|split; [intros a b I J; apply LN; right; assumption|exact IC]]. intros l d k I. apply BK. apply in_app_iff in I as [I | I]; apply in_app_iff; [left; exact I|right; right; exact I].
    - split; [exact S'|]. split; [apply DROP, SD|]. split; [|split; [intros a b I J; apply LN; right; assumption|]]. 
      + intros l d k I. apply BK. rewrite <- app_assoc in I. exact I.
      + intros d I. apply in_app_iff. left. apply IC, I.
    - split; [exact S'|]. split; [rewrite <- app_assoc; exact SD|]. split; [|split; [intros a b I J; apply LN; right; assumption|]].
      + intros l d k I J. rewrite <- app_assoc in I. apply in_app_iff in J as [J | [<- | []]]; [apply BK; assumption|]. left. cbn [length].
        apply in_app_iff in I as [I | I].
        * apply ss_app in S as (_ & _ & S). destruct (S l x I (or_introl eq_refl)) as [Z | (Z & _)]; lia.
        * rewrite (LN l x I (or_introl eq_refl)). lia.
      + intros d I. apply in_app_iff in I as [I | I]; apply in_app_iff; [left; apply IC, I|right; exact I].
  Qed.
  Lemma bfs_read L x D K : bfs_inv L [] (x :: D) -> kids_sorted x K -> bfs_inv L K D.
  Proof.
    intros (S & SD & BK & _ & IC) KS. pose proof (kids_aside _ _ KS) as KA. destruct KS as (KI & KB). rewrite !app_nil_r in *. apply StronglySorted_inv in SD as (SD & SX). rewrite Forall_forall in SX.
    assert (KS' : StronglySorted bfs_before K).
    { eapply ss_impl; [|exact KA]. intros a b I J Z. right. split; [|exact Z]. destruct (KI a I) as (i & ->), (KI b J) as (j & ->). reflexivity. }
    split; [|split; [|split; [|split]]].
    - apply ss_app. split; [exact S|]. split; [exact KS'|]. intros a b I J. destruct (KI b J) as (j & ->). apply BK; [exact I|left; reflexivity].
    - apply ss_app. split; [exact SD|]. split; [exact KS'|]. intros a b I J. destruct (KI b J) as (j & ->). apply BK; [apply IC; right; exact I|left; reflexivity].
    - intros l d k I J. apply in_app_iff in I as [I | I]; [apply BK; [exact I|right; exact J]|]. destruct (KI l I) as (i & ->).
      destruct (SX d J) as [Z | (Z & A)]; [left; cbn [length]; lia|right]. split; [cbn [length]; lia|apply aside_kid_l, aside_kid_r, A].
    - intros a b I J. destruct (KI a I) as (i & ->), (KI b J) as (j & ->). reflexivity.
    - intros d I. apply IC. right. exact I.
  Qed.

  Definition walk_before : pos -> pos -> Prop := if not_bfs w then dfs_before else bfs_before.
  Definition queue_inv (L F D : list pos) : Prop := if not_bfs w then dfs_inv L F D else bfs_inv L F D.
  Lemma q_sorted L F D : queue_inv L F D -> StronglySorted walk_before L.
  Proof. unfold queue_inv, walk_before. destruct (not_bfs w); intros (S & _); apply ss_app in S; tauto. Qed.
  Lemma q_visit L x F D : (not_bfs w = true -> D = []) -> queue_inv L (x :: F) D -> queue_inv L F D /\ queue_inv (L ++ [x]) F D /\ queue_inv (L ++ [x]) F (D ++ [x]).
  Proof. unfold queue_inv. destruct (not_bfs w); [intros Z; rewrite Z by reflexivity; apply dfs_visit|intros _; apply bfs_visit]. Qed.
  Lemma q_read L F x D K : (not_bfs w = false -> F = []) -> queue_inv L F (x :: D) -> kids_sorted x K -> queue_inv L (if not_bfs w then K ++ F else F ++ K) D.
  Proof. unfold queue_inv. destruct (not_bfs w); [intros _; apply dfs_read|intros Z; rewrite Z by reflexivity; apply bfs_read]. Qed.
  Lemma q_init K : kids_sorted [] K -> queue_inv [] K [].
  Proof.
    intros KS. pose proof (kids_aside _ _ KS) as KA. destruct KS as (KI & _). unfold queue_inv. destruct (not_bfs w).
    - split; [|split; [exact KA|left; reflexivity]]. cbn [app]. eapply ss_impl; [|exact KA]. intros a b _ _ Z. right. exact Z.
    - assert (S : StronglySorted bfs_before K). { eapply ss_impl; [|exact KA]. intros a b I J Z. right. split; [|exact Z]. destruct (KI a I) as (i & ->), (KI b J) as (j & ->). reflexivity. }
      split; [exact S|]. split; [exact S|]. split; [intros l d k _ []|]. split; [|intros d []]. intros a b I J. destruct (KI a I) as (i & ->), (KI b J) as (j & ->). reflexivity.
  Qed.

  (** ** How long a walk takes *)

  Fixpoint tree_pos (p : pos) (t : tree info) : list pos :=
    let 'Node _ kids := t in
    p :: (fix go (k : nat) (l : list (tree info)) : list pos := match l with [] => [] | t :: l => tree_pos (k :: p) t ++ go (S k) l end) 0 kids.
  Fixpoint forest_pos (q : pos) (k : nat) (l : list (tree info)) : list pos :=
    match l with [] => [] | t :: l => tree_pos (k :: q) t ++ forest_pos q (S k) l end.
  Lemma tree_pos_eq p i kids : tree_pos p (Node i kids) = p :: forest_pos p 0 kids.
  Proof. cbn [tree_pos]. f_equal. generalize 0. induction kids as [|t l IH]; intros n; [reflexivity|]. cbn [forest_pos]. rewrite <- IH. reflexivity. Qed.
  Lemma tree_pos_length t : forall p, length (tree_pos p t) = tree_size t.
  Proof.
    induction t as [i kids IH] using tree_induction. intros p. rewrite tree_pos_eq. cbn [tree_size length]. f_equal. generalize 0.
    induction kids as [|t l IHl]; intros n; [reflexivity|]. cbn [forest_pos map list_sum fold_right]. apply Forall_cons_iff in IH as (IH & IH'). rewrite app_length, IH, IHl by assumption. reflexivity.
  Qed.
  Definition all_pos : list pos := forest_pos [] 0 (roots w).
  Lemma all_pos_length : length all_pos = forest_size (roots w).
  Proof.
    unfold all_pos, forest_size. generalize 0. induction (roots w) as [|t l IH]; intros n; [reflexivity|]. cbn [forest_pos map list_sum fold_right]. rewrite app_length, tree_pos_length, IH. reflexivity.
  Qed.
  Lemma forest_pos_in q k l j t : nth_error l j = Some t -> incl (tree_pos (k + j :: q) t) (forest_pos q k l).
  Proof.
    revert k j. induction l as [|u l IH]; intros k j; [destruct j; discriminate|]. cbn [forest_pos]. destruct j as [|j]; cbn [nth_error].
    - intros [= ->]. rewrite Nat.add_0_r. apply incl_appl, incl_refl.
    - intros N. apply incl_appr. replace (k + S j) with (S k + j) by lia. apply IH, N.
  Qed.
  Lemma all_pos_tree p t : node_at w p = Some t -> incl (tree_pos p t) all_pos.
  Proof.
    revert t. induction p as [|k q IH]; intros t N; [discriminate|]. cbn [node_at] in N. destruct q as [|j q].
    - cbn [kids_at] in N. apply (forest_pos_in [] 0 (roots w) k t N).
    - destruct (node_at w (j :: q)) as [(i & kids)|] eqn:E.
      + cbn [kids_at] in N. cbn [node_at] in E. rewrite E in N. eapply incl_tran; [|apply (IH _ eq_refl)]. rewrite tree_pos_eq. apply incl_tl. apply (forest_pos_in (j :: q) 0 kids k t N).
      + cbn [kids_at] in N. cbn [node_at] in E. rewrite E in N. destruct k; discriminate.
  Qed.
  Lemma all_pos_in p : node_at w p <> None -> In p all_pos.
  Proof.
    destruct (node_at w p) as [(i & kids)|] eqn:E; [|congruence]. intros _. apply (all_pos_tree p _ E). rewrite tree_pos_eq. left. reflexivity.
  Qed.

  Definition measure (G : pos -> phase) : nat := list_sum (map (fun p => rank (G p)) all_pos).
  Lemma measure_forward G G' : forward G G' -> measure G' <= measure G.
  Proof.
    intros F. unfold measure. induction all_pos as [|p l IH]; [apply Nat.le_refl|]. cbn [map list_sum fold_right]. specialize (F p). unfold list_sum in IH. lia.
  Qed.
  Lemma measure_upd G p v : In p all_pos -> rank v < rank (G p) -> measure (upd G p v) < measure G.
  Proof.
    intros I R. assert (F : forward G (upd G p v)) by (apply forward_upd; lia). unfold measure. induction all_pos as [|q l IH]; [destruct I|]. cbn [map list_sum fold_right]. unfold list_sum in *.
    assert (L : fold_right Nat.add 0 (map (fun p0 => rank (upd G p v p0)) l) <= fold_right Nat.add 0 (map (fun p => rank (G p)) l)).
    { clear IH I. induction l as [|r l IH]; [apply Nat.le_refl|]. cbn [map fold_right]. specialize (F r). lia. }
    destruct I as [-> | I]; [rewrite upd_same; lia|]. specialize (IH I). specialize (F q). lia.
  Qed.
  Lemma measure_max G : measure G <= 2 * forest_size (roots w).
  Proof.
    rewrite <- all_pos_length. unfold measure. induction all_pos as [|p l IH]; [apply Nat.le_refl|]. cbn [map list_sum fold_right length]. unfold list_sum in IH.
    assert (rank (G p) <= 2) by (destruct (G p); cbn [rank]; lia). lia.
  Qed.
End Walk.
