(** * The order of sorted walks *)
From Coq Require Import List Bool Arith Lia Permutation Sorted Init.Byte.
From Coq Require Import ZifyBool ZifyNat.
From Verif Require Import PathModel PathSpec WalkSpec SortModel SortSpec SortProofs BftwModel BftwIo BftwQueue BftwPop BftwSpec BftwPath BftwHeap BftwFiles BftwGc BftwHist BftwSteps BftwEntry BftwMain BftwLoop.
Import ListNotations.

(** ** Lists *)
Section Lists.
  Context {A : Type}.

  Lemma ss_app (R : A -> A -> Prop) a b : StronglySorted R (a ++ b) <-> StronglySorted R a /\ StronglySorted R b /\ (forall x y, In x a -> In y b -> R x y).
  Proof.
    induction a as [|z a IH]; cbn [app].
    - split; [intros H; split; [constructor|]; split; [exact H|intros x y []]|intros (_ & H & _); exact H].
    - split.
      + intros H. apply StronglySorted_inv in H as (H & F). apply IH in H as (H1 & H2 & H3). rewrite Forall_app in F. destruct F as (F1 & F2). split; [constructor; assumption|]. split; [exact H2|].
        intros x y [<- | I] J; [rewrite Forall_forall in F2; apply F2, J|apply H3; assumption].
      + intros (H1 & H2 & H3). apply StronglySorted_inv in H1 as (H1 & F). constructor.
        * apply IH. split; [exact H1|]. split; [exact H2|]. intros x y I J. apply H3; [right; exact I|exact J].
        * apply Forall_app. split; [exact F|]. rewrite Forall_forall. intros y J. apply H3; [left; reflexivity|exact J].
  Qed.
  Lemma ss_one (R : A -> A -> Prop) x : StronglySorted R [x].
  Proof. constructor; constructor. Qed.

  Definition before (x y : A) (l : list A) : Prop := exists a b c, l = a ++ x :: b ++ y :: c.
  Lemma before_cons x y z l : before x y (z :: l) <-> (z = x /\ In y l) \/ before x y l.
  Proof.
    split.
    - intros (a & b & c & E). destruct a as [|z' a]; cbn [app] in E; injection E as -> ->; [left; split; [reflexivity|apply in_app_iff; right; left; reflexivity]|right; exists a, b, c; reflexivity].
    - intros [(-> & I) | (a & b & c & ->)]; [|exists (z :: a), b, c; reflexivity]. apply in_split in I as (b & c & ->). exists [], b, c. reflexivity.
  Qed.
  Lemma before_nil x y : ~ before x y [].
  Proof. intros (a & b & c & E). destruct a; discriminate. Qed.
  Lemma before_in x y l : before x y l -> In x l /\ In y l.
  Proof. intros (a & b & c & ->). split; apply in_app_iff; right; [left; reflexivity|right; apply in_app_iff; right; left; reflexivity]. Qed.
  Lemma ss_before (R : A -> A -> Prop) l : StronglySorted R l <-> forall x y, before x y l -> R x y.
  Proof.
    induction l as [|z l IH].
    - split; [intros _ x y B; destruct (before_nil x y B)|constructor].
    - split.
      + intros H x y B. apply StronglySorted_inv in H as (H & F). apply before_cons in B as [(-> & I) | B]; [rewrite Forall_forall in F; apply F, I|]. apply (proj1 IH H x y B).
      + intros H. constructor; [apply IH; intros x y B; apply H, before_cons; right; exact B|]. rewrite Forall_forall. intros y I. apply H, before_cons. left. auto.
  Qed.
  Lemma before_filter f x y l : before x y l -> f x = true -> f y = true -> before x y (filter f l).
  Proof.
    intros (a & b & c & ->) X Y. exists (filter f a), (filter f b), (filter f c). rewrite filter_app. cbn [filter]. rewrite X, filter_app. cbn [filter]. rewrite Y. reflexivity.
  Qed.
  Lemma filter_before f x y l : before x y (filter f l) -> before x y l.
  Proof.
    induction l as [|z l IH]; cbn [filter]; [auto|]. destruct (f z).
    - intros B. apply before_cons in B as [(-> & I) | B]; apply before_cons; [left; split; [reflexivity|apply filter_In in I; tauto]|right; apply IH, B].
    - intros B. apply before_cons. right. apply IH, B.
  Qed.
End Lists.

Lemma before_map {A B} (g : A -> B) x y l : before x y (map g l) -> exists a b, before a b l /\ g a = x /\ g b = y.
Proof.
  intros (a & b & c & E). apply map_eq_app in E as (l1 & l2 & -> & E1 & E2). apply map_eq_cons in E2 as (x' & l3 & -> & X & E2). apply map_eq_app in E2 as (l4 & l5 & -> & E3 & E4).
  apply map_eq_cons in E4 as (y' & l6 & -> & Y & E5). exists x', y'. split; [exists l1, l4, l6; reflexivity|auto].
Qed.
Lemma map_before {A B} (g : A -> B) x y l : before x y l -> before (g x) (g y) (map g l).
Proof. intros (a & b & c & ->). exists (map g a), (map g b), (map g c). rewrite map_app. cbn [map]. rewrite map_app. reflexivity. Qed.
Lemma seq_before k n j i : before j i (seq k n) -> j < i.
Proof.
  revert k. induction n as [|n IH]; intros k; cbn [seq]; [intros B; destruct (before_nil _ _ B)|]. intros B. apply before_cons in B as [(-> & I) | B]; [apply in_seq in I; lia|apply (IH _ B)].
Qed.

Section Order.
  Context {U : Type}.
  Variable w : env U.
  Notation state := (state U).
  Notation heap := (heap w).
  Notation contents := (contents w).
  Notation in_queue := (in_queue w None).
  Notation aside := (aside w).
  Notation dfs_before := (dfs_before w).
  Notation bfs_before := (bfs_before w).
  Notation sorted_before := (sorted_before w).

  (** ** First visits *)

  Lemma first_in p (tr : list (event * action)) : existsb (fun x => same_pos (e_pos (fst x)) p) tr = true <-> exists y, In y tr /\ e_pos (fst y) = p.
  Proof. rewrite existsb_exists. split; intros (y & I & E); exists y; (split; [exact I|]); apply same_pos_iff; assumption. Qed.
  Lemma first_old (y : event * action) tr : (exists z, In z tr /\ e_pos (fst z) = e_pos (fst y)) -> first_visits (y :: tr) = first_visits tr.
  Proof. intros X. destruct y as (e & a). cbn [first_visits]. apply first_in in X. cbn [fst] in X. rewrite X. reflexivity. Qed.
  Lemma first_new (y : event * action) tr : evs (e_pos (fst y)) tr = [] -> first_visits (y :: tr) = first_visits tr ++ [e_pos (fst y)].
  Proof.
    intros X. destruct y as (e & a). cbn [first_visits fst] in *. destruct (existsb _ tr) eqn:E; [|reflexivity]. apply first_in in E as (z & I & Z).
    assert (J : In z (evs (e_pos e) tr)) by (apply evs_in; auto). rewrite X in J. destruct J.
  Qed.
  Lemma first_or (y : event * action) tr : first_visits (y :: tr) = first_visits tr \/ first_visits (y :: tr) = first_visits tr ++ [e_pos (fst y)].
  Proof. destruct y as (e & a). cbn [first_visits fst]. destruct (existsb _ tr); auto. Qed.
  Lemma first_later tr tr' : later tr tr' -> first_visits tr' = first_visits tr.
  Proof.
    intros (l & -> & F). induction l as [|y l IH]; [reflexivity|]. apply Forall_cons_iff in F as ((z & I & E) & F). cbn [app]. rewrite first_old; [apply IH, F|].
    exists z. split; [apply in_app_iff; right; exact I|exact E].
  Qed.

  (** ** Siblings *)

  Definition pos_of (s : state) (x : nat) : pos := match find_file x s with Some f => f_pos f | None => [] end.
  Definition kids_sorted (q : pos) (l : list pos) : Prop :=
    (forall p, In p l -> exists j, p = j :: q) /\ (forall a b, before a b l -> exists j k, a = j :: q /\ b = k :: q /\ sorted_before q j k).

  Lemma pos_keep (X : list file) (s s' : state) x : NoDup (map f_id X) -> incl (files s) X -> incl (files s') X -> live x s -> live x s' -> pos_of s' x = pos_of s x.
  Proof.
    intros N A B (f & F) (g & G). unfold pos_of. rewrite F, G. f_equal. destruct (find_in _ _ _ F) as (FI & FX). destruct (find_in _ _ _ G) as (GI & GX).
    apply A in FI. apply B in GI. revert N FI GI FX GX. clear. induction X as [|h X IH]; [intros _ []|]. cbn [map In]. intros N FI GI FX GX.
    apply NoDup_cons_iff in N as (N & N'). destruct FI as [-> | FI], GI as [-> | GI]; auto.
    - exfalso. apply N. apply in_map_iff. exists g. split; [congruence|exact GI].
    - exfalso. apply N. apply in_map_iff. exists f. split; [congruence|exact FI].
  Qed.

  Lemma sort_kids s' (X fs : list file) l q n : total_preorder (collate w) -> NoDup (map f_id (X ++ fs)) -> incl (files s') (X ++ fs) -> heap s' ->
    map f_pos fs = map (fun j => j :: q) (seq 0 n) -> SortModel.list_sort (name_le w s') (length fs) (map f_id fs) = Some l -> (forall x, In x l -> live x s') ->
    kids_sorted q (map (pos_of s') l).
  Proof.
    intros (TO & TR) N IC H FP E LV.
    assert (TP : total_preorder (name_le w s')). { split; [intros x y; apply TO|intros x y z; apply TR]. }
    destruct (sort_correct (name_le w s') TP (map f_id fs)) as (l' & E' & P & O & K). rewrite map_length, E in E'. injection E' as <-.
    assert (PO : forall f, In f fs -> In (f_id f) l -> pos_of s' (f_id f) = f_pos f /\ name_of s' (f_id f) = name_at w (f_pos f)).
    { intros f I J. destruct (LV _ J) as (g & G). unfold pos_of, name_of. rewrite G. destruct (find_in _ _ _ G) as (GI & GX).
      assert (g = f); [|subst g; split; [reflexivity|symmetry; apply (ok_name w s'), (h_ok _ _ H), GI]]. apply IC in GI.
      assert (FI : In f (X ++ fs)) by (apply in_app_iff; right; exact I). revert N GI FI GX. clear. generalize (X ++ fs). intros L. induction L as [|h L IH]; [intros _ []|]. cbn [map In]. intros N GI FI GX.
      apply NoDup_cons_iff in N as (N & N'). destruct FI as [-> | FI], GI as [-> | GI]; auto; exfalso; apply N; apply in_map_iff; [exists g|exists f]; auto. }
    assert (IL : forall x, In x l -> exists f j, In f fs /\ f_id f = x /\ f_pos f = j :: q).
    { intros x I. apply (Permutation_in _ (Permutation_sym P)) in I. apply in_map_iff in I as (f & FX & I). apply (in_map f_pos) in I as J. rewrite FP in J. apply in_map_iff in J as (j & J & _). exists f, j. auto. }
    split.
    - intros p I. apply in_map_iff in I as (x & <- & I). destruct (IL x I) as (f & j & FI & FX & FJ). exists j. subst x. rewrite (proj1 (PO f FI I)). exact FJ.
    - intros a b B. apply before_map in B as (x & y & B & <- & <-). destruct (before_in x y l B) as (IX & IY). destruct (IL x IX) as (f & j & FI & FX & FJ). destruct (IL y IY) as (g & k & GI & GY & GK).
      subst x y. destruct (PO f FI IX) as (-> & NF). destruct (PO g GI IY) as (-> & NG). exists j, k. split; [exact FJ|]. split; [exact GK|].
      assert (LE : name_le w s' (f_id f) (f_id g) = true) by (apply (proj1 (ss_before _ l) O _ _ B)). rewrite FJ in NF. rewrite GK in NG. unfold name_le in LE. rewrite NF, NG in LE.
      split; [exact LE|]. intros GE.
      assert (BF : before (f_id f) (f_id g) (filter (equal_to (name_le w s') (f_id f)) l)).
      { apply before_filter; [exact B| |]; unfold equal_to, name_le; rewrite ?NF, ?NG, ?LE, ?GE; [|reflexivity]. rewrite andb_diag. destruct (TO (name_at w (j :: q)) (name_at w (j :: q))) as [Z | Z]; exact Z. }
      rewrite (K (f_id f)) in BF. apply filter_before in BF. apply before_map in BF as (f1 & g1 & BF & F1 & G1).
      destruct (before_in _ _ _ BF) as (I1 & I2). 
      assert (UN : forall a b, In a fs -> In b fs -> f_id a = f_id b -> a = b).
      { rewrite map_app in N. apply (proj1 (nodup_app _ _)) in N. destruct N as (_ & N & _). revert N. clear. induction fs as [|h L IH]; [intros _ a b []|]. cbn [map In]. intros N a b A B E.
        apply NoDup_cons_iff in N as (N & N'). destruct A as [-> | A], B as [-> | B]; auto; exfalso; apply N; apply in_map_iff; [exists b|exists a]; auto. }
      rewrite (UN f1 f I1 FI F1), (UN g1 g I2 GI G1) in BF. apply (map_before f_pos) in BF. rewrite FP, FJ, GK in BF. apply before_map in BF as (j' & k' & BF & [= ->] & [= ->]). apply (seq_before 0 n _ _ BF).
  Qed.
End Order.
