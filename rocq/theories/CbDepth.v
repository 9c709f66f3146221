From Coq Require Import List ZArith NArith Arith Bool Lia ZifyBool ZifyNat ZifyN Permutation.
From Coq Require Import Init.Byte.
From Verif Require Import TrieModel CbModel CbSpec WalkSpec.
Import ListNotations.

Section Depth.
Context {A : Type}.
Variable dir : A -> bool.
Variable path : A -> list byte.
Variable answers : A -> world.
Variable c : ctx.
Hypothesis L : limits c.
Hypothesis T : forall a, tame (answers a).

Lemma size_t_small z : (0 <= z < 2 ^ 31)%Z -> size_t z = Z.to_N z.
Proof. intros H. unfold size_t. rewrite Z.mod_small; [reflexivity|]. change (2 ^ 64)%Z with (2 ^ 31 * 2 ^ 33)%Z. lia. Qed.

Notation visited := (visited dir path answers c).
Notation walk := (walk dir path answers c).
Notation evaluated := (evaluated dir path answers c).
Notation selected := (selected dir path answers c).
Notation continues := (continues dir path answers c).

Lemma unsafe_special s : existsb unsafe_char s = existsb xargs_special s.
Proof. induction s as [|b s IH]; [reflexivity|]. cbn [existsb]. rewrite IH. f_equal. now destruct b. Qed.

(** What each visit comes to *)
Lemma visited_value v d a : visited v d a =
  if dropped path answers c a then (fst (visited v d a), Prune)
  else
    let act := if Z.leb (maxdepth c) (Z.of_N d) then Prune else Continue in
    let post := post_order c && (ids c || dir a) && Z.ltb (Z.of_N d) (maxdepth c) in
    if (match v with Pre => negb post | Post => post end) && within c d then (Evaluated, expr (answers a) act) else (Skipped, act).
Proof.
  destruct (T a) as (T1 & _ & _). destruct L as (L1 & L2).
  unfold CbSpec.visited, eval_file, dropped. cbn [f_path f_depth is_dir f_visit]. rewrite <- unsafe_special.
  destruct (exclude (answers a) Continue) as [ex act] eqn:E. pose proof (T1 _ _ eq_refl) as ->. cbn [fst].
  destruct ex; [reflexivity|]. cbn [orb]. destruct (xargs_safe c && existsb unsafe_char (path a)); [reflexivity|].
  rewrite !size_t_small by auto. cbn zeta.
  replace ((maxdepth c <? 0)%Z) with false by lia. cbn [orb].
  replace ((Z.to_N (maxdepth c) <=? d)%N) with (Z.leb (maxdepth c) (Z.of_N d)) by lia.
  replace ((d <? Z.to_N (maxdepth c))%N) with (Z.ltb (Z.of_N d) (maxdepth c)) by lia.
  replace ((Z.to_N (mindepth c) <=? d)%N) with (Z.leb (mindepth c) (Z.of_N d)) by lia.
  replace ((d <=? Z.to_N (maxdepth c))%N) with (Z.leb (Z.of_N d) (maxdepth c)) by lia.
  unfold within.
  destruct (post_order c && (ids c || dir a) && (Z.of_N d <? maxdepth c)%Z), v; cbn [negb andb];
  destruct ((mindepth c <=? Z.of_N d)%Z); cbn [andb]; reflexivity.
Qed.
Lemma dropped_skipped v d a : dropped path answers c a = true -> fst (visited v d a) <> Evaluated.
Proof.
  unfold dropped, CbSpec.visited, eval_file. cbn [f_path]. rewrite <- unsafe_special. destruct (exclude (answers a) Continue) as [ex act]. cbn [fst].
  destruct ex; [discriminate|]. cbn [orb]. intros ->. discriminate.
Qed.

Lemma evaluated_app xs ys : evaluated (xs ++ ys) = evaluated xs ++ evaluated ys.
Proof. unfold CbSpec.evaluated. now rewrite filter_app, map_app. Qed.
Lemma evaluated_one v d a : evaluated [(v, d, a)] = match fst (visited v d a) with Evaluated => [(d, a)] | _ => [] end.
Proof. unfold CbSpec.evaluated. cbn. now destruct (fst (visited v d a)). Qed.

Lemma kids_perm (d : N) kids : Forall (fun t => forall d, Permutation (evaluated (walk d t)) (selected d t)) kids ->
  Permutation (evaluated (flat_map (walk d) kids)) (flat_map (selected d) kids).
Proof.
  induction 1 as [|t kids H _ IH]; [constructor|]. cbn [flat_map]. rewrite evaluated_app. now apply Permutation_app.
Qed.
Lemma kids_eq (d : N) kids : Forall (fun t => forall d, evaluated (walk d t) = selected d t) kids ->
  evaluated (flat_map (walk d) kids) = flat_map (selected d) kids.
Proof.
  induction 1 as [|t kids H _ IH]; [constructor|]. cbn [flat_map]. rewrite evaluated_app. now rewrite H, IH.
Qed.

Lemma shape d a kids :
  let post := post_order c && (ids c || dir a) && Z.ltb (Z.of_N d) (maxdepth c) in
  evaluated (walk d (Node a kids)) =
  if dropped path answers c a then []
  else (if negb post && within c d then [(d, a)] else []) ++
    (if dir a && Z.ltb (Z.of_N d) (maxdepth c) && negb (within c d && negb (post_order c) && prunes answers a)
     then evaluated (flat_map (walk (d + 1)) kids) else []) ++
    (if post && within c d then [(d, a)] else []).
Proof.
  destruct (T a) as (_ & T2 & T3).
  cbn [CbSpec.walk]. change ((Pre, d, a) :: ?x) with ([(Pre, d, a)] ++ x). rewrite !evaluated_app, evaluated_one.
  unfold CbSpec.continues.
  destruct (dropped path answers c a) eqn:D.
  { assert (SP : snd (visited Pre d a) = Prune) by (rewrite visited_value, D; reflexivity).
    rewrite SP, !andb_false_r. cbn. pose proof (dropped_skipped Pre d a D). now destruct (fst (visited Pre d a)). }
  rewrite (visited_value Pre), D. cbn zeta.
  assert (PV : evaluated [(Post, d, a)] = if post_order c && (ids c || dir a) && (Z.of_N d <? maxdepth c)%Z && within c d then [(d, a)] else []).
  { rewrite evaluated_one, visited_value, D. cbn zeta. now destruct (post_order c && (ids c || dir a) && (Z.of_N d <? maxdepth c)%Z && within c d). }
  replace (Z.leb (maxdepth c) (Z.of_N d)) with (negb (Z.ltb (Z.of_N d) (maxdepth c))) by lia.
  unfold prunes.
  destruct (Z.ltb (Z.of_N d) (maxdepth c)) eqn:M; cbn [negb andb]; rewrite ?andb_true_r, ?andb_false_r in *.
  - destruct (post_order c) eqn:PO; cbn [andb negb] in *.
    + destruct (ids c) eqn:I; cbn [orb andb negb fst snd] in *.
      * rewrite !andb_true_r, !andb_false_r. cbn [negb]. rewrite !andb_true_r, PV.
        destruct (dir a), (within c d); reflexivity.
      * destruct (dir a); cbn [andb negb fst snd] in *.
        -- rewrite !andb_false_r. cbn [negb]. rewrite PV. destruct (within c d); reflexivity.
        -- destruct (within c d); cbn [fst snd]; reflexivity.
    + destruct (within c d); cbn [fst snd andb negb].
      * destruct T2 as [->| ->]; cbn; destruct (dir a); cbn; rewrite ?app_nil_r; reflexivity.
      * rewrite !andb_true_r. destruct (dir a); cbn; rewrite ?app_nil_r; reflexivity.
  - destruct (within c d); cbn [fst snd]; rewrite ?T3, !andb_false_r; reflexivity.
Qed.

Lemma selected_perm t : forall d, Permutation (evaluated (walk d t)) (selected d t).
Proof.
  induction t as [a kids IH] using tree_induction. intros d. rewrite shape. cbn [CbSpec.selected].
  destruct (dropped path answers c a); [constructor|].
  set (post := post_order c && (ids c || dir a) && Z.ltb (Z.of_N d) (maxdepth c)).
  destruct (dir a && Z.ltb (Z.of_N d) (maxdepth c) && negb (within c d && negb (post_order c) && prunes answers a)).
  - destruct post, (within c d); cbn [negb andb app]; rewrite ?app_nil_r; try (now apply kids_perm).
    + eapply Permutation_trans; [apply Permutation_app_comm|]. cbn. constructor. now apply kids_perm.
    + constructor. now apply kids_perm.
  - destruct post, (within c d); cbn; constructor; constructor.
Qed.

Lemma selected_eq t : post_order c = false -> forall d, evaluated (walk d t) = selected d t.
Proof.
  intros PO. induction t as [a kids IH] using tree_induction. intros d. rewrite shape. cbn [CbSpec.selected].
  destruct (dropped path answers c a); [reflexivity|]. rewrite PO. cbn [andb negb app]. rewrite app_nil_r.
  f_equal. rewrite kids_eq by auto. reflexivity.
Qed.

Lemma continues_shallow d a : continues Pre d a = true -> (Z.of_N d < maxdepth c)%Z.
Proof.
  unfold CbSpec.continues. rewrite visited_value. destruct (dropped path answers c a); [discriminate|]. cbn zeta.
  destruct (Z.leb_spec (maxdepth c) (Z.of_N d)) as [M|M]; [|lia]. destruct (T a) as (_ & _ & T3).
  destruct (_ && within c d); cbn [snd]; [rewrite T3|]; discriminate.
Qed.

Lemma walk_shallow t : forall d, (Z.of_N d <= maxdepth c)%Z -> forall v e a, In (v, e, a) (walk d t) -> (Z.of_N e <= maxdepth c)%Z.
Proof.
  induction t as [b kids IH] using tree_induction. intros d D v e a I. cbn [CbSpec.walk] in I.
  destruct I as [I|I]; [congruence|]. apply in_app_or in I. destruct I as [I|I].
  - destruct (dir b); [|destruct I]. cbn [andb] in I. destruct (continues Pre d b) eqn:CO; [|destruct I].
    apply continues_shallow in CO. apply in_flat_map in I. destruct I as (t & IT & I).
    rewrite Forall_forall in IH. apply (IH t IT (d + 1)%N) with v a; [lia|exact I].
  - destruct (post_order c && (ids c || dir b) && continues Pre d b); [|destruct I]. destruct I as [I|[]]. congruence.
Qed.
End Depth.
