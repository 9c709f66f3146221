(** * Proofs about the typo distance *)
From Coq Require Import List ZArith Bool Lia.
From Coq Require Import Init.Byte Strings.Byte.
From Verif Require Import TrieBits TypoModel TypoSpec.
Import ListNotations.
Local Open Scope Z_scope.

Lemma cd_nonneg a b : 0 <= char_distance a b.
Proof. unfold char_distance. destruct (key_coords a) as [[? ?] ?], (key_coords b) as [[? ?] ?]. lia. Qed.
Lemma cd_refl a : char_distance a a = 0.
Proof. unfold char_distance. destruct (key_coords a) as [[? ?] ?]. lia. Qed.
Lemma cd_sym a b : char_distance a b = char_distance b a.
Proof. unfold char_distance. destruct (key_coords a) as [[? ?] ?], (key_coords b) as [[? ?] ?]. lia. Qed.
Lemma cd_tri a b c : char_distance a c <= char_distance a b + char_distance b c.
Proof. unfold char_distance. destruct (key_coords a) as [[? ?] ?], (key_coords b) as [[? ?] ?], (key_coords c) as [[? ?] ?]. lia. Qed.
Lemma coords_bound a : let '(x, y, z) := key_coords a in 0 <= x <= 40 /\ 0 <= y <= 12 /\ 0 <= z <= 1.
Proof. destruct a; vm_compute; intuition congruence. Qed.
Lemma cd_bound a b : char_distance a b <= 53.
Proof.
  unfold char_distance. pose proof (coords_bound a). pose proof (coords_bound b).
  destruct (key_coords a) as [[? ?] ?], (key_coords b) as [[? ?] ?]. lia.
Qed.

(** The table has no two keys in the same place. *)
Lemma lookup_in t c : In c (map fst t) -> In (c, lookup c t) t.
Proof.
  induction t as [|[k v] t IH]; cbn [map fst In lookup]; [tauto|].
  intros [->|H]; [rewrite N.eqb_refl; left; reflexivity|].
  destruct (N.eqb_spec k c) as [->|_]; [left; reflexivity|right; auto].
Qed.

Definition same_place (p q : N * (Z * Z * Z)) : bool :=
  let '(_, (x, y, z)) := p in let '(_, (x', y', z')) := q in (x =? x') && (y =? y') && (z =? z').
Definition table_inj : bool :=
  forallb (fun p => forallb (fun q => negb (same_place p q) || N.eqb (fst p) (fst q)) key_table) key_table.
Lemma table_inj_true : table_inj = true.
Proof. vm_compute. reflexivity. Qed.

Lemma cd_zero a b : on_keyboard a -> on_keyboard b -> char_distance a b = 0 -> a = b.
Proof.
  intros Ha Hb H. apply lookup_in in Ha, Hb.
  pose proof table_inj_true as T. unfold table_inj in T. rewrite forallb_forall in T.
  specialize (T _ Ha). rewrite forallb_forall in T. specialize (T _ Hb).
  unfold char_distance, key_coords in H. unfold same_place in T. cbn [fst] in T.
  destruct (lookup (Byte.to_N a) key_table) as [[x y] z], (lookup (Byte.to_N b) key_table) as [[x' y'] z'].
  replace (x =? x') with true in T by (symmetry; apply Z.eqb_eq; lia).
  replace (y =? y') with true in T by (symmetry; apply Z.eqb_eq; lia).
  replace (z =? z') with true in T by (symmetry; apply Z.eqb_eq; lia).
  cbn in T. apply N.eqb_eq in T. apply to_N_inj, T.
Qed.

(** Alignments: edits from left to right, each character once *)
Inductive align : list byte -> list byte -> Z -> Prop :=
| al_nil : align [] [] 0
| al_ins s t b c : align s t c -> align s (b :: t) (12 + c)
| al_del s t a c : align s t c -> align (a :: s) t (12 + c)
| al_sub s t a b c : align s t c -> align (a :: s) (b :: t) (char_distance a b + c).

Lemma align_nonneg s t c : align s t c -> 0 <= c.
Proof. induction 1; try lia. pose proof (cd_nonneg a b). lia. Qed.

Lemma align_refl s : align s s 0.
Proof.
  induction s as [|a s IH]; [constructor|].
  replace 0 with (char_distance a a + 0) by (rewrite cd_refl; lia). constructor. exact IH.
Qed.

Lemma align_sym s t c : align s t c -> align t s c.
Proof. induction 1; try (constructor; assumption). rewrite cd_sym. constructor. assumption. Qed.

(** An edit after an alignment *)
Lemma align_edit s t u c d : align s t c -> edit t u d -> exists c', align s u c' /\ c' <= c + d.
Proof.
  intros A E. revert s c A. destruct E as [p q x|p q x|p q x y]; induction p as [|z p IH]; cbn [app]; intros s c A.
  - exists (12 + c). split; [constructor; exact A|lia].
  - remember (z :: p ++ q) as t eqn:Et. revert z p q IH Et.
    induction A; intros z p' q' IH Et; try discriminate.
    + injection Et as -> ->. destruct (IH _ _ A) as (c' & A' & L). exists (12 + c'). split; [constructor; exact A'|lia].
    + destruct (IHA _ _ _ IH Et) as (c' & A' & L). exists (12 + c'). split; [constructor; exact A'|lia].
    + injection Et as -> ->. destruct (IH _ _ A) as (c' & A' & L). eexists. split; [apply al_sub; exact A'|lia].
  - remember (x :: q) as t eqn:Et. revert q Et. induction A; intros q Et; try discriminate.
    + injection Et as -> ->. exists c. split; [exact A|lia].
    + destruct (IHA _ Et) as (c' & A' & L). exists (12 + c'). split; [constructor; exact A'|lia].
    + injection Et as -> ->. exists (12 + c). split; [constructor; exact A|]. pose proof (cd_nonneg a x). lia.
  - remember (z :: p ++ x :: q) as t eqn:Et. revert z p q IH Et.
    induction A; intros z p' q' IH Et; try discriminate.
    + injection Et as -> ->. destruct (IH _ _ A) as (c' & A' & L). exists (12 + c'). split; [constructor; exact A'|lia].
    + destruct (IHA _ _ _ IH Et) as (c' & A' & L). exists (12 + c'). split; [constructor; exact A'|lia].
    + injection Et as -> ->. destruct (IH _ _ A) as (c' & A' & L). eexists. split; [apply al_sub; exact A'|lia].
  - remember (x :: q) as t eqn:Et. revert q Et. induction A; intros q Et; try discriminate.
    + injection Et as -> ->. exists (12 + c). split; [constructor; exact A|]. pose proof (cd_nonneg x y). lia.
    + destruct (IHA _ Et) as (c' & A' & L). exists (12 + c'). split; [constructor; exact A'|lia].
    + injection Et as -> ->. eexists. split; [apply al_sub; exact A|]. pose proof (cd_tri a x y). lia.
  - remember (z :: p ++ x :: q) as t eqn:Et. revert z p q IH Et.
    induction A; intros z p' q' IH Et; try discriminate.
    + injection Et as -> ->. destruct (IH _ _ A) as (c' & A' & L). exists (12 + c'). split; [constructor; exact A'|lia].
    + destruct (IHA _ _ _ IH Et) as (c' & A' & L). exists (12 + c'). split; [constructor; exact A'|lia].
    + injection Et as -> ->. destruct (IH _ _ A) as (c' & A' & L). eexists. split; [apply al_sub; exact A'|lia].
Qed.

Lemma edits_align s t c : edits s t c -> exists c', align s t c' /\ c' <= c.
Proof.
  induction 1 as [s|s t u c d E (c' & A & L) D]; [exists 0; split; [apply align_refl|lia]|].
  destruct (align_edit _ _ _ _ _ A D) as (c'' & A' & L'). exists c''. split; [exact A'|lia].
Qed.

Lemma edits_trans s t u c d : edits s t c -> edits t u d -> edits s u (c + d).
Proof.
  intros E D. induction D as [t|t v u d e D IH X]; [rewrite Z.add_0_r; exact E|].
  rewrite Z.add_assoc. econstructor; [apply IH; exact E|exact X].
Qed.

Lemma edits_one s t d : edit s t d -> edits s t d.
Proof. intros E. change d with (0 + d). econstructor; [constructor|exact E]. Qed.

Lemma edits_cons x s t c : edits s t c -> edits (x :: s) (x :: t) c.
Proof.
  induction 1 as [s|s t u c d E IH D]; [constructor|]. econstructor; [exact IH|].
  destruct D as [p q y|p q y|p q y z]; [apply (edit_insert (x :: p))|apply (edit_delete (x :: p))|apply (edit_replace (x :: p))].
Qed.

Lemma align_edits s t c : align s t c -> edits s t c.
Proof.
  induction 1.
  - constructor.
  - rewrite Z.add_comm. econstructor; [exact IHalign|apply (edit_insert [])].
  - eapply edits_trans; [apply edits_one, (edit_delete [])|exact IHalign].
  - eapply edits_trans; [apply edits_one, (edit_replace [])|apply edits_cons; exact IHalign].
Qed.

(** The same from the right, as the rows are filled *)
Lemma edit_rev s t d : edit s t d -> edit (rev s) (rev t) d.
Proof.
  intros [p q x|p q x|p q x y]; rewrite !rev_app_distr; cbn [rev]; rewrite <- !app_assoc; cbn [app]; constructor.
Qed.
Lemma edits_rev s t d : edits s t d -> edits (rev s) (rev t) d.
Proof. induction 1; [constructor|]. econstructor; [eassumption|]. apply edit_rev; assumption. Qed.

(** The recurrence *)
Fixpoint L (a : list byte) : list byte -> Z :=
  fix inner (b : list byte) : Z :=
    match a, b with
    | [], _ => 12 * Z.of_nat (length b)
    | _, [] => 12 * Z.of_nat (length a)
    | x :: a', y :: b' =>
        Z.min (Z.min (L a' b' + char_distance x y) (L a' b + 12)) (inner b' + 12)
    end.

Lemma L_nil_l b : L [] b = 12 * Z.of_nat (length b).
Proof. destruct b; reflexivity. Qed.
Lemma L_nil_r a : L a [] = 12 * Z.of_nat (length a).
Proof. destruct a; reflexivity. Qed.
Lemma L_cons x a y b :
  L (x :: a) (y :: b) = Z.min (Z.min (L a b + char_distance x y) (L a (y :: b) + 12)) (L (x :: a) b + 12).
Proof. reflexivity. Qed.

Lemma L_align a : forall b, align a b (L a b).
Proof.
  induction a as [|x a IH]; intros b.
  - rewrite L_nil_l. induction b as [|y b IHb]; [constructor|].
    replace (12 * Z.of_nat (length (y :: b))) with (12 + 12 * Z.of_nat (length b)) by (cbn [length]; lia).
    constructor. exact IHb.
  - induction b as [|y b IHb].
    + rewrite L_nil_r. specialize (IH []). rewrite L_nil_r in IH.
      replace (12 * Z.of_nat (length (x :: a))) with (12 + 12 * Z.of_nat (length a)) by (cbn [length]; lia).
      constructor. exact IH.
    + rewrite L_cons. destruct (Z.min_spec (Z.min (L a b + char_distance x y) (L a (y :: b) + 12)) (L (x :: a) b + 12)) as [[_ ->]|[_ ->]].
      * destruct (Z.min_spec (L a b + char_distance x y) (L a (y :: b) + 12)) as [[_ ->]|[_ ->]]; rewrite Z.add_comm; constructor; apply IH.
      * rewrite Z.add_comm. constructor. exact IHb.
Qed.

Lemma L_step_r a y b : L a (y :: b) <= L a b + 12.
Proof.
  destruct a as [|x a]; [rewrite !L_nil_l; cbn [length]; lia|]. rewrite L_cons. lia.
Qed.
Lemma L_step_l x a b : L (x :: a) b <= L a b + 12.
Proof.
  destruct b as [|y b]; [rewrite !L_nil_r; cbn [length]; lia|]. rewrite L_cons. lia.
Qed.

Lemma L_least a b c : align a b c -> L a b <= c.
Proof.
  induction 1 as [|s t y c A IH|s t x c A IH|s t x y c A IH].
  - cbn. lia.
  - pose proof (L_step_r s y t). lia.
  - pose proof (L_step_l x s t). lia.
  - rewrite L_cons. lia.
Qed.

Lemma L_nonneg a b : 0 <= L a b.
Proof. apply (align_nonneg a b), L_align. Qed.

Lemma L_bound a : forall b, L a b <= 12 * Z.of_nat (length a) + 12 * Z.of_nat (length b).
Proof.
  induction a as [|x a IH]; intros b; [rewrite L_nil_l; cbn [length]; lia|].
  pose proof (L_step_l x a b). specialize (IH b). cbn [length]. lia.
Qed.

(** Row [ra] of the table from column [rp] on *)
Fixpoint rowspec (ra rp e : list byte) : list Z :=
  L ra rp :: match e with [] => [] | b :: e' => rowspec ra (b :: rp) e' end.

Definition small (n m : nat) : Prop := 12 * Z.of_nat n + 12 * Z.of_nat m + 53 < 2 ^ 31.

Lemma int_ok z : 0 <= z < 2 ^ 31 -> int_ z = Some z.
Proof.
  intros H. unfold int_.
  replace (- 2 ^ 31 <=? z) with true by (symmetry; apply Z.leb_le; lia).
  replace (z <? 2 ^ 31) with true by (symmetry; apply Z.ltb_lt; lia). reflexivity.
Qed.

Lemma first_row_ok e : forall rp, small 0 (length rp + length e) ->
  first_row (Z.of_nat (length rp)) e = Some (rowspec [] rp e).
Proof.
  induction e as [|b e IH]; intros rp S; unfold small in S; cbn [first_row rowspec length] in *;
    rewrite int_ok by (unfold insert_cost; lia); rewrite L_nil_l; unfold insert_cost.
  - reflexivity.
  - specialize (IH (b :: rp)). cbn [length] in IH. rewrite Nat2Z.inj_succ in IH.
    rewrite Z.add_1_r. rewrite IH by (unfold small; lia). reflexivity.
Qed.

Lemma fill_row_ok a e : forall ra rp, small (S (length ra)) (length rp + length e) ->
  fill_row a (L ra rp) (L (a :: ra) rp) (tl (rowspec ra rp e)) e = Some (tl (rowspec (a :: ra) rp e)).
Proof.
  induction e as [|b e IH]; intros ra rp S; [reflexivity|].
  assert (S' := S). unfold small in S. cbn [length] in S.
  cbn [rowspec tl].
  assert (H : exists l, rowspec ra (b :: rp) e = L ra (b :: rp) :: l /\ l = tl (rowspec ra (b :: rp) e))
    by (destruct e; eexists; split; reflexivity).
  destruct H as (l & E & El). rewrite E. cbn [fill_row].
  pose proof (L_bound ra rp). pose proof (L_bound ra (b :: rp)). pose proof (L_bound (a :: ra) rp).
  pose proof (L_nonneg ra rp). pose proof (L_nonneg ra (b :: rp)). pose proof (L_nonneg (a :: ra) rp).
  pose proof (cd_bound a b). pose proof (cd_nonneg a b). cbn [length] in *.
  rewrite !int_ok by (unfold insert_cost; lia).
  set (cost := if L (a :: ra) rp + insert_cost <? _ then _ else _).
  assert (C : cost = L (a :: ra) (b :: rp)).
  { unfold cost. rewrite L_cons. unfold insert_cost.
    destruct (Z.ltb_spec (L ra (b :: rp) + 12) (L ra rp + char_distance a b)).
    - destruct (Z.ltb_spec (L (a :: ra) rp + 12) (L ra (b :: rp) + 12)); lia.
    - destruct (Z.ltb_spec (L (a :: ra) rp + 12) (L ra rp + char_distance a b)); lia. }
  rewrite C, El, IH by (unfold small; cbn [length]; lia). destruct e; reflexivity.
Qed.

Lemma rows_ok e : forall a ra, small (length ra + length a) (length e) ->
  rows a e (rowspec ra [] e) = Some (rowspec (rev a ++ ra) [] e).
Proof.
  induction a as [|x a IH]; intros ra S; [reflexivity|].
  assert (S' := S). unfold small in S. cbn [length] in S. cbn [rows].
  replace (rowspec ra [] e) with (L ra [] :: tl (rowspec ra [] e)) by (destruct e; reflexivity).
  rewrite L_nil_r. rewrite int_ok by (unfold insert_cost; lia).
  replace (12 * Z.of_nat (length ra) + insert_cost) with (L (x :: ra) [])
    by (rewrite L_nil_r; unfold insert_cost; cbn [length]; lia).
  rewrite <- (L_nil_r ra). rewrite fill_row_ok by (unfold small; cbn [length]; lia).
  replace (L (x :: ra) [] :: tl (rowspec (x :: ra) [] e)) with (rowspec (x :: ra) [] e) by (destruct e; reflexivity).
  rewrite IH by (unfold small; cbn [length]; lia).
  cbn [rev]. rewrite <- app_assoc. reflexivity.
Qed.

Lemma last_row e : forall ra rp, last (rowspec ra rp e) 0 = L ra (rev e ++ rp).
Proof.
  induction e as [|b e IH]; intros ra rp; [reflexivity|].
  cbn [rowspec rev]. rewrite <- app_assoc. cbn [app]. rewrite <- IH.
  destruct e; reflexivity.
Qed.

Lemma typo_L a e : small (length a) (length e) -> typo_distance a e = Some (L (rev a) (rev e)).
Proof.
  intros S. unfold typo_distance. change 0 with (Z.of_nat (length (@nil byte))).
  rewrite first_row_ok by (unfold small in *; cbn [length]; lia).
  rewrite rows_ok by exact S. rewrite app_nil_r. f_equal. rewrite <- (app_nil_r (rev e)). apply last_row.
Qed.

Lemma L_distance a e : edit_distance a e (L (rev a) (rev e)).
Proof.
  split.
  - rewrite <- (rev_involutive a) at 1. rewrite <- (rev_involutive e) at 1.
    apply edits_rev, align_edits, L_align.
  - intros c E. apply edits_rev, edits_align in E. destruct E as (c' & A & H).
    pose proof (L_least _ _ _ A). lia.
Qed.

Lemma typo_distance_spec : forall a e, small (length a) (length e) ->
  exists d, typo_distance a e = Some d /\ edit_distance a e d.
Proof. intros a e S. eexists. split; [apply typo_L, S|apply L_distance]. Qed.

Lemma L_sym a b : L a b = L b a.
Proof.
  apply Z.le_antisymm; apply L_least, align_sym, L_align.
Qed.

Lemma typo_sym : forall a e, small (length a) (length e) -> typo_distance a e = typo_distance e a.
Proof.
  intros a e S. rewrite !typo_L; [f_equal; apply L_sym| |exact S]. unfold small in *. lia.
Qed.

Lemma align_zero a b c : align a b c -> c = 0 -> Forall on_keyboard a -> Forall on_keyboard b -> a = b.
Proof.
  induction 1 as [|s t y c A IH|s t x c A IH|s t x y c A IH]; intros Z Ha Hb.
  - reflexivity.
  - pose proof (align_nonneg _ _ _ A). lia.
  - pose proof (align_nonneg _ _ _ A). lia.
  - pose proof (align_nonneg _ _ _ A). pose proof (cd_nonneg x y).
    inversion Ha; subst. inversion Hb; subst. f_equal; [apply cd_zero; auto; lia|apply IH; auto; lia].
Qed.

Lemma typo_zero : forall a e, small (length a) (length e) ->
  Forall on_keyboard a -> Forall on_keyboard e -> (typo_distance a e = Some 0 <-> a = e).
Proof.
  intros a e S Ha He. rewrite (typo_L a e S). split.
  - intros E. injection E as E. pose proof (L_align (rev a) (rev e)) as A. apply align_zero in A; try assumption.
    + rewrite <- (rev_involutive a), A, rev_involutive. reflexivity.
    + apply Forall_rev, Ha.
    + apply Forall_rev, He.
  - intros ->. f_equal. pose proof (L_least _ _ _ (align_refl (rev e))). pose proof (L_nonneg (rev e) (rev e)). lia.
Qed.

Lemma typo_zero_refuted : exists a e, typo_distance a e = Some 0 /\ a <> e.
Proof. exists [x80], [x81]. split; [vm_compute; reflexivity|discriminate]. Qed.
