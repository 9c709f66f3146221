(** * Lists of files *)

From Coq Require Import List Arith ZArith Bool Lia.
Import ListNotations.
From Verif Require Import CacheModel CacheSpec.

Lemma filter_rev_comm {A} (p : A -> bool) l : filter p (rev l) = rev (filter p l).
Proof.
  induction l as [|x l IH]; [reflexivity|].
  cbn [rev filter]. rewrite filter_app, IH. cbn [filter].
  destruct (p x); cbn [rev]; [reflexivity|]. apply app_nil_r.
Qed.

Lemma filter_swap {A} (p q : A -> bool) l : filter p (filter q l) = filter q (filter p l).
Proof.
  induction l as [|x l IH]; [reflexivity|]. cbn [filter].
  destruct (q x) eqn:Q, (p x) eqn:P; cbn [filter]; rewrite ?P, ?Q, IH; reflexivity.
Qed.

Lemma filter_ext_In {A} (p q : A -> bool) l : (forall x, In x l -> p x = q x) -> filter p l = filter q l.
Proof. apply filter_ext_in. Qed.

Lemma filter_nodup {A} (p : A -> bool) l : NoDup l -> NoDup (filter p l).
Proof. apply NoDup_filter. Qed.

(** ** [without] *)

Lemma without_in x y l : In y (without x l) <-> In y l /\ y <> x.
Proof.
  unfold without. rewrite filter_In, negb_true_iff, Nat.eqb_neq. tauto.
Qed.

Lemma without_notin x l : ~ In x l -> without x l = l.
Proof.
  induction l as [|y l IH]; intros N; [reflexivity|].
  cbn [without filter]. destruct (Nat.eqb_spec y x) as [->|NE].
  - destruct N. left; reflexivity.
  - cbn [negb]. f_equal. apply IH. intros I. apply N. right; exact I.
Qed.

Lemma without_nodup x l : NoDup l -> NoDup (without x l).
Proof. apply NoDup_filter. Qed.

Lemma without_length x l : NoDup l -> In x l -> S (length (without x l)) = length l.
Proof.
  induction l as [|y l IH]; intros ND I; [destruct I|].
  apply NoDup_cons_iff in ND. destruct ND as [NI ND].
  cbn [without filter]. destruct (Nat.eqb_spec y x) as [->|NE].
  - cbn [negb length]. fold (without x l). rewrite without_notin; auto.
  - cbn [negb length]. destruct I as [E|I]; [congruence|].
    fold (without x l). rewrite IH; auto.
Qed.

Lemma without_app x a b : without x (a ++ b) = without x a ++ without x b.
Proof. apply filter_app. Qed.

Lemma without_rev x l : without x (rev l) = rev (without x l).
Proof. apply filter_rev_comm. Qed.

Lemma without_filter x p l : without x (filter p l) = filter p (without x l).
Proof. apply filter_swap. Qed.

(** ** The list operations *)

Lemma unlink_without f l : NoDup l -> unlink f l = without f l.
Proof.
  induction l as [|x l IH]; intros ND; [reflexivity|].
  apply NoDup_cons_iff in ND. destruct ND as [NI ND].
  cbn [unlink without filter]. destruct (Nat.eqb_spec x f) as [->|NE].
  - cbn [negb]. fold (without f l). rewrite without_notin; auto.
  - cbn [negb]. f_equal. apply IH, ND.
Qed.

Lemma remove1_without f l : NoDup l -> remove1 f l = without f l.
Proof. exact (unlink_without f l). Qed.

Definition last_or (a : option nat) (l : list nat) : option nat :=
  match rev l with [] => a | x :: _ => Some x end.

Lemma last_or_cons a x l : last_or a (x :: l) = last_or (Some x) l.
Proof.
  unfold last_or. cbn [rev]. destruct (rev l); reflexivity.
Qed.

Lemma prev_spec f : forall l a b, ~ In f l -> prev f a (l ++ f :: b) = last_or a l.
Proof.
  induction l as [|x l IH]; intros a b N; cbn [prev app].
  - rewrite Nat.eqb_refl. reflexivity.
  - destruct (Nat.eqb_spec x f) as [->|NE].
    + destruct N. left; reflexivity.
    + rewrite IH, last_or_cons; [reflexivity|]. intros I. apply N. right; exact I.
Qed.

Lemma insert_after_spec t f : forall l b, ~ In t l -> insert_after t f (l ++ t :: b) = Some (l ++ t :: f :: b).
Proof.
  induction l as [|x l IH]; intros b N; cbn [insert_after app].
  - rewrite Nat.eqb_refl. reflexivity.
  - destruct (Nat.eqb_spec x t) as [->|NE].
    + destruct N. left; reflexivity.
    + rewrite IH; [reflexivity|]. intros I. apply N. right; exact I.
Qed.

(** ** The order of the LRU list

    [rt] are the roots, [l] the idle files, the latest one first. *)

Definition order (rt : nat -> bool) (l : list nat) : list nat :=
  rev (filter rt l) ++ filter (fun f => negb (rt f)) l.

Definition top (rt : nat -> bool) (l : list nat) : option nat := hd_error (filter rt l).

Lemma order_rev rt l : rev (order rt l) = rev (filter (fun f => negb (rt f)) l) ++ filter rt l.
Proof. unfold order. rewrite rev_app_distr, rev_involutive. reflexivity. Qed.

Lemma order_in rt l f : In f (order rt l) <-> In f l.
Proof.
  unfold order. rewrite in_app_iff, <- in_rev, !filter_In.
  destruct (rt f); cbn [negb]; intuition congruence.
Qed.

Lemma order_nodup rt l : NoDup l -> NoDup (order rt l).
Proof.
  intros ND. unfold order.
  assert (D : forall a b : list nat, NoDup a -> NoDup b -> (forall x, In x a -> ~ In x b) -> NoDup (a ++ b)).
  { induction a as [|x a IH]; intros b Na Nb NI; [exact Nb|].
    apply NoDup_cons_iff in Na. destruct Na as [X Na].
    cbn [app]. constructor.
    - rewrite in_app_iff. intros [I|I]; [exact (X I)|]. apply (NI x); [left; reflexivity|exact I].
    - apply IH; auto. intros y Y. apply NI. right; exact Y. }
  apply D.
  - apply NoDup_rev, NoDup_filter, ND.
  - apply NoDup_filter, ND.
  - intros x I J. rewrite <- in_rev in I. apply filter_In in I, J.
    destruct (rt x); cbn [negb] in J; intuition congruence.
Qed.

Lemma order_without rt f l : order rt (without f l) = without f (order rt l).
Proof.
  unfold order. rewrite without_app, without_rev, !without_filter. reflexivity.
Qed.

Lemma order_ext rt rt' l : (forall f, In f l -> rt f = rt' f) -> order rt l = order rt' l.
Proof.
  intros E. unfold order. f_equal.
  - f_equal. apply filter_ext_in. exact E.
  - apply filter_ext_in. intros x I. f_equal. apply E, I.
Qed.

Lemma top_ext rt rt' l : (forall f, In f l -> rt f = rt' f) -> top rt l = top rt' l.
Proof. intros E. unfold top. f_equal. apply filter_ext_in. exact E. Qed.

Lemma order_add_root rt f l : rt f = true -> order rt (f :: l) = rev (filter rt l) ++ f :: filter (fun f => negb (rt f)) l.
Proof.
  intros R. unfold order. cbn [filter]. rewrite R. cbn [negb rev]. rewrite <- app_assoc. reflexivity.
Qed.

Lemma order_add rt f l : rt f = false -> order rt (f :: l) = rev (filter rt l) ++ f :: filter (fun f => negb (rt f)) l.
Proof.
  intros R. unfold order. cbn [filter]. rewrite R. cbn [negb]. reflexivity.
Qed.

Lemma insert_order rt f l :
  NoDup l ->
  match top rt l with
  | None => Some (f :: order rt l)
  | Some t => insert_after t f (order rt l)
  end = Some (order rt (f :: l)).
Proof.
  intros ND.
  assert (E : order rt (f :: l) = rev (filter rt l) ++ f :: filter (fun f => negb (rt f)) l).
  { destruct (rt f) eqn:R; [apply order_add_root|apply order_add]; exact R. }
  rewrite E. unfold top, order. pose proof (NoDup_filter rt ND) as NF.
  destruct (filter rt l) as [|t r]; cbn [hd_error rev app]; [reflexivity|].
  rewrite <- !app_assoc. cbn [app]. apply insert_after_spec.
  rewrite <- in_rev. apply NoDup_cons_iff in NF. tauto.
Qed.

Lemma top_add rt f l : top rt (f :: l) = if rt f then Some f else top rt l.
Proof. unfold top. cbn [filter]. destruct (rt f); reflexivity. Qed.

Lemma top_without rt f l :
  NoDup l -> In f l ->
  match top rt l with
  | Some t => if t =? f then prev f None (order rt l) else Some t
  | None => None
  end = top rt (without f l).
Proof.
  intros ND I. unfold top. rewrite <- without_filter.
  pose proof (NoDup_filter rt ND) as NF. unfold order.
  destruct (filter rt l) as [|t r]; cbn [hd_error without filter]; [reflexivity|].
  apply NoDup_cons_iff in NF. destruct NF as [NI NF].
  destruct (Nat.eqb_spec t f) as [->|NE]; cbn [negb]; [|reflexivity].
  cbn [rev]. rewrite <- app_assoc. cbn [app].
  rewrite prev_spec by (rewrite <- in_rev; exact NI).
  unfold last_or. rewrite rev_involutive. fold (without f r). rewrite without_notin by exact NI.
  destruct r; reflexivity.
Qed.

Lemma tail_order rt l : tail (order rt l) = hd_error (rev (filter (fun f => negb (rt f)) l) ++ filter rt l).
Proof. unfold tail. rewrite order_rev. reflexivity. Qed.

Lemma existsb_in f l : existsb (Nat.eqb f) l = true <-> In f l.
Proof.
  rewrite existsb_exists. split.
  - intros (x & I & E). apply Nat.eqb_eq in E. subst. exact I.
  - intros I. exists f. split; [exact I|apply Nat.eqb_refl].
Qed.

(** ** Counting the files of a kind *)

Definition counted (p : nat -> bool) (n : nat) : nat := length (filter p (seq 0 n)).

Lemma counted_S p n : counted p (S n) = counted p n + (if p n then 1 else 0).
Proof.
  unfold counted. rewrite seq_S, filter_app, app_length. cbn [filter plus].
  destruct (p n); reflexivity.
Qed.

Lemma counted_ext p q n : (forall f, f < n -> p f = q f) -> counted p n = counted q n.
Proof.
  intros E. unfold counted. f_equal. apply filter_ext_in. intros x I.
  apply in_seq in I. apply E. lia.
Qed.

Lemma counted_change p q f n :
  (forall g, g <> f -> p g = q g) -> f < n ->
  counted p n + (if q f then 1 else 0) = counted q n + (if p f then 1 else 0).
Proof.
  intros E. induction n as [|n IH]; intros L; [lia|].
  rewrite !counted_S. destruct (Nat.eq_dec f n) as [->|NE].
  - rewrite (counted_ext p q n) by (intros; apply E; lia). lia.
  - rewrite (E n) by auto. specialize (IH ltac:(lia)). lia.
Qed.

Lemma counted_pos p f n : f < n -> p f = true -> 0 < counted p n.
Proof.
  induction n as [|n IH]; intros L T; [lia|]. rewrite counted_S.
  destruct (Nat.eq_dec f n) as [->|NE]; [rewrite T; lia|].
  specialize (IH ltac:(lia) T). lia.
Qed.

Lemma counted_ex p n : 0 < counted p n -> exists f, f < n /\ p f = true.
Proof.
  induction n as [|n IH]; intros L; [cbn in L; lia|]. rewrite counted_S in L.
  destruct (p n) eqn:E; [exists n; split; [lia|exact E]|].
  destruct IH as (f & F & P); [lia|]. exists f. split; [lia|exact P].
Qed.

Lemma counted_zero p n : (forall f, f < n -> p f = false) -> counted p n = 0.
Proof.
  intros Z. destruct (counted p n) eqn:E; [reflexivity|].
  destruct (counted_ex p n) as (f & F & P); [lia|]. rewrite Z in P; congruence.
Qed.
