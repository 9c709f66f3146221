(** * Sums, occurrences and ticket numbers *)

From Coq Require Import List Arith NArith ZArith Bool Lia ZifyBool ZifyNat.
Import ListNotations.

Fixpoint sum (f : nat -> nat) (n : nat) : nat :=
  match n with O => 0 | S n => sum f n + f n end.

Lemma sum_ext f g n : (forall i, i < n -> f i = g i) -> sum f n = sum g n.
Proof. induction n; intros H; cbn [sum]; [reflexivity|]. rewrite IHn by (intros; apply H; lia). rewrite (H n) by lia. reflexivity. Qed.

Lemma sum_le f g n : (forall i, i < n -> f i <= g i) -> sum f n <= sum g n.
Proof. induction n; intros H; cbn [sum]; [lia|]. specialize (IHn ltac:(intros; apply H; lia)). specialize (H n ltac:(lia)). lia. Qed.

Lemma sum_change f g n k : k < n -> (forall i, i < n -> i <> k -> f i = g i) -> sum f n + g k = sum g n + f k.
Proof.
  induction n; intros L H; [lia|]. cbn [sum]. destruct (Nat.eq_dec k n) as [-> | NE].
  - rewrite (sum_ext f g n); [lia|]. intros. apply H; lia.
  - rewrite (H n) by lia. specialize (IHn ltac:(lia) ltac:(intros; apply H; lia)). lia.
Qed.

Lemma sum_get f n k : k < n -> f k <= sum f n.
Proof. induction n; intros L; [lia|]. cbn [sum]. destruct (Nat.eq_dec k n) as [-> | ]; [lia|]. specialize (IHn ltac:(lia)). lia. Qed.

Lemma sum_get2 f n k l : k < n -> l < n -> k <> l -> f k + f l <= sum f n.
Proof.
  induction n; intros K L NE; [lia|]. cbn [sum]. destruct (Nat.eq_dec k n) as [-> | ].
  - pose proof (sum_get f n l ltac:(lia)). lia.
  - destruct (Nat.eq_dec l n) as [-> | ]; [pose proof (sum_get f n k ltac:(lia)); lia|]. specialize (IHn ltac:(lia) ltac:(lia) NE). lia.
Qed.

Lemma sum_pos f n : 0 < sum f n -> exists k, k < n /\ 0 < f k.
Proof. induction n; cbn [sum]; intros H; [lia|]. destruct (Nat.eq_dec (f n) 0); [destruct IHn as [k ?]; [lia|exists k; lia]|exists n; lia]. Qed.

Lemma sum_0 f n : (forall i, i < n -> f i = 0) -> sum f n = 0.
Proof. induction n; intros H; cbn [sum]; [reflexivity|]. rewrite IHn by (intros; apply H; lia). apply H. lia. Qed.

Lemma sum_add f g n : sum (fun i => f i + g i) n = sum f n + sum g n.
Proof. induction n; cbn [sum]; lia. Qed.

Lemma sum_swap (f : nat -> nat -> nat) n m : sum (fun i => sum (f i) m) n = sum (fun j => sum (fun i => f i j) n) m.
Proof. induction n; cbn [sum]; [symmetry; apply sum_0; reflexivity|]. rewrite IHn, <- sum_add. reflexivity. Qed.

(** ** Occurrences *)
Definition occ (p : N) (l : list N) : nat := count_occ N.eq_dec l p.

Lemma occ_app p a b : occ p (a ++ b) = occ p a + occ p b.
Proof. apply count_occ_app. Qed.
Lemma occ_nil p : occ p [] = 0. Proof. reflexivity. Qed.
Lemma occ_cons p e l : occ p (e :: l) = (if N.eqb e p then 1 else 0) + occ p l.
Proof. unfold occ. cbn [count_occ]. destruct (N.eq_dec e p), (N.eqb_spec e p); try congruence; lia. Qed.
Lemma occ_in p l : In p l <-> 0 < occ p l.
Proof. unfold occ. rewrite (count_occ_In N.eq_dec). lia. Qed.

Lemma occ_filter p f l : occ p (filter f l) = if f p then occ p l else 0.
Proof.
  induction l as [|e l IH]; [destruct (f p); reflexivity|]. cbn [filter]. rewrite occ_cons. destruct (N.eqb_spec e p) as [-> | NE].
  - destruct (f p) eqn:F; [rewrite occ_cons, N.eqb_refl, IH; reflexivity|exact IH].
  - destruct (f e); [rewrite occ_cons; destruct (N.eqb_spec e p); [contradiction|]|]; rewrite IH; destruct (f p); reflexivity.
Qed.

Lemma occ_flat_map p (f : nat -> list N) n : occ p (flat_map f (seq 0 n)) = sum (fun i => occ p (f i)) n.
Proof.
  induction n; [reflexivity|]. rewrite seq_S, flat_map_app, occ_app. cbn [flat_map sum Nat.add]. rewrite app_nil_r, IHn. reflexivity.
Qed.
Lemma length_flat_map (f : nat -> list N) n : length (flat_map f (seq 0 n)) = sum (fun i => length (f i)) n.
Proof.
  induction n; [reflexivity|]. rewrite seq_S, flat_map_app, app_length. cbn [flat_map sum Nat.add]. rewrite app_nil_r, IHn. reflexivity.
Qed.

Lemma occ_nodup l : (forall p, occ p l <= 1) -> NoDup l.
Proof. intros H. apply (NoDup_count_occ N.eq_dec). exact H. Qed.
Lemma nodup_occ l p : NoDup l -> occ p l <= 1.
Proof. intros H. apply (proj1 (NoDup_count_occ N.eq_dec l) H). Qed.

(** ** Tickets *)

(** How many of the first [x] tickets are for slot [j] *)
Definition cnt (size x j : nat) : nat := sum (fun k => if k mod size =? j then 1 else 0) x.

Lemma cnt_S size x j : cnt size (S x) j = cnt size x j + (if x mod size =? j then 1 else 0).
Proof. reflexivity. Qed.

Lemma cnt_mono size x y j : x <= y -> cnt size x j <= cnt size y j.
Proof. intros H. induction H; [lia|]. rewrite cnt_S. lia. Qed.

Lemma cnt_grow size x y j : cnt size x j < cnt size y j -> x < y.
Proof. intros H. destruct (le_lt_dec y x) as [L|L]; [|exact L]. pose proof (cnt_mono size y x j L). lia. Qed.

(** A closed form *)
Lemma cnt_div size x j : j < size -> cnt size x j = (x + (size - 1 - j)) / size.
Proof.
  intros J. induction x as [|x IH].
  - symmetry. apply Nat.div_small. lia.
  - rewrite cnt_S, IH. pose proof (Nat.mod_upper_bound x size ltac:(lia)) as B. pose proof (Nat.div_mod x size ltac:(lia)) as E.
    set (d := x / size) in *. set (r := x mod size) in *. clearbody d r.
    destruct (Nat.eqb_spec r j) as [-> | NE].
    + assert (E1 : (x + (size - 1 - j)) / size = d) by (symmetry; apply (Nat.div_unique _ _ d (size - 1)); lia).
      assert (E2 : (S x + (size - 1 - j)) / size = S d) by (symmetry; apply (Nat.div_unique _ _ (S d) 0); lia). lia.
    + destruct (lt_dec r j).
      * assert (E1 : (x + (size - 1 - j)) / size = d) by (symmetry; apply (Nat.div_unique _ _ d (r + (size - 1 - j))); lia).
        assert (E2 : (S x + (size - 1 - j)) / size = d) by (symmetry; apply (Nat.div_unique _ _ d (S r + (size - 1 - j))); lia). lia.
      * assert (E1 : (x + (size - 1 - j)) / size = S d) by (symmetry; apply (Nat.div_unique _ _ (S d) (r - j - 1)); lia).
        assert (E2 : (S x + (size - 1 - j)) / size = S d) by (symmetry; apply (Nat.div_unique _ _ (S d) (r - j)); lia). lia.
Qed.

Lemma cnt_lap size x j : j < size -> cnt size (x + size) j = S (cnt size x j).
Proof. intros J. rewrite !cnt_div by exact J. replace (x + size + (size - 1 - j)) with ((x + (size - 1 - j)) + 1 * size) by lia. rewrite Nat.div_add by lia. lia. Qed.

Lemma cnt_anti size x j j' : j <= j' -> j' < size -> cnt size x j' <= cnt size x j.
Proof. intros L J. rewrite !cnt_div by lia. apply Nat.div_le_mono; lia. Qed.

Lemma cnt_total size x : 0 < size -> sum (cnt size x) size = x.
Proof.
  intros P. induction x as [|x IH]; [apply sum_0; reflexivity|].
  assert (L : x mod size < size) by (apply Nat.mod_upper_bound; lia).
  assert (D : forall i, i < size -> i <> x mod size -> cnt size (S x) i = cnt size x i).
  { intros i _ NE. rewrite cnt_S. destruct (Nat.eqb_spec (x mod size) i); [congruence|lia]. }
  pose proof (sum_change (cnt size (S x)) (cnt size x) size (x mod size) L D) as C.
  rewrite cnt_S, Nat.eqb_refl in C. lia.
Qed.

(** Whole groups of [m] tickets *)
Lemma cnt_group m c k j : 0 < m -> 0 < c -> j < m * c -> cnt (m * c) (m * k) j = cnt (m * c) (m * k) (m * (j / m)).
Proof.
  intros M C J. pose proof (Nat.div_mod j m ltac:(lia)) as E. pose proof (Nat.mod_upper_bound j m ltac:(lia)) as R. set (g := j / m) in *. set (r := j mod m) in *. clearbody g r.
  assert (G : g < c) by nia. rewrite !cnt_div by nia. rewrite <- !Nat.div_div by lia. f_equal.
  transitivity (k + c - g - 1).
  - symmetry. apply (Nat.div_unique _ _ _ (m - 1 - r)); nia.
  - apply (Nat.div_unique _ _ _ (m - 1)); nia.
Qed.

(** The last ticket *)
Lemma cnt_last size h t j : h mod size = j -> cnt size (S h) j <= cnt size t j -> h < t.
Proof. intros E L. destruct (le_lt_dec t h) as [LE|]; [|assumption]. pose proof (cnt_mono size t h j LE). rewrite cnt_S, E, Nat.eqb_refl in L. lia. Qed.

Lemma sum_cnt size a b : 0 < size -> a <= b -> sum (fun j => cnt size b j - cnt size a j) size = b - a.
Proof.
  intros P L. pose proof (cnt_total size a P) as A. pose proof (cnt_total size b P) as B.
  assert (C : sum (fun j => (cnt size b j - cnt size a j) + cnt size a j) size = sum (cnt size b) size) by (apply sum_ext; intros i _; pose proof (cnt_mono size a b i L); lia).
  rewrite sum_add in C. unfold cnt in *. lia.
Qed.
