(** * Proofs about dirname and basename *)
From Coq Require Import List Arith Bool Lia.
From Coq Require Import Init.Byte Strings.Byte.
From Verif Require Import PathModel PathSpec.
Import ListNotations.

Lemma eqb_spec (a b : byte) : reflect (a = b) (Byte.eqb a b).
Proof.
  destruct (Byte.eqb a b) eqn:E; constructor.
  - apply Byte.byte_dec_bl, E.
  - intros ->. rewrite (Byte.byte_dec_lb eq_refl) in E. discriminate.
Qed.

Lemma is_slash_spec c : reflect (c = slash) (is_slash c).
Proof. apply eqb_spec. Qed.

Lemma at_app1 p q i : i < length p -> at_ (p ++ q) i = at_ p i.
Proof. intros. unfold at_. apply app_nth1. assumption. Qed.
Lemma at_app2 p q i : at_ (p ++ q) (length p + i) = at_ q i.
Proof. unfold at_. rewrite app_nth2 by lia. f_equal. lia. Qed.
Lemma at_slashes n i : at_ (slashes n) i = if i <? n then slash else x00.
Proof.
  unfold at_, slashes. destruct (Nat.ltb_spec i n).
  - rewrite (nth_indep _ x00 slash) by (rewrite repeat_length; assumption). apply nth_repeat.
  - apply nth_overflow. rewrite repeat_length. assumption.
Qed.
Lemma at_name b i : is_name b -> i < length b -> is_slash (at_ b i) = false.
Proof.
  intros [_ N] L. destruct (is_slash_spec (at_ b i)) as [E|]; [|reflexivity].
  exfalso. apply N. rewrite <- E. apply nth_In. assumption.
Qed.

(** Backwards over a block *)
Lemma skip_back_block f path i n :
  (forall k, k < n -> f (at_ path (i + k)) = true) -> skip_back f path (i + n) = skip_back f path i.
Proof.
  induction n as [|n IH]; intros H; [rewrite Nat.add_0_r; reflexivity|].
  rewrite Nat.add_succ_r. cbn [skip_back]. rewrite H by lia. apply IH. intros k Hk. apply H. lia.
Qed.
Lemma skip_back_stop f path i : f (at_ path i) = false -> skip_back f path (S i) = S i.
Proof. intros H. cbn [skip_back]. rewrite H. reflexivity. Qed.

Lemma skip_leading_stop n path i :
  is_slash (at_ path i) = false \/ at_ path (S i) = x00 -> skip_leading n path i = i.
Proof.
  intros H. destruct n; [reflexivity|]. cbn [skip_leading].
  destruct H as [->|H]; [reflexivity|]. rewrite H. rewrite andb_comm. reflexivity.
Qed.
Lemma skip_leading_block path i m : forall n, m <= n ->
  (forall k, k < m -> at_ path (i + k) = slash /\ at_ path (S (i + k)) <> x00) ->
  (is_slash (at_ path (i + m)) = false \/ at_ path (S (i + m)) = x00) ->
  skip_leading n path i = i + m.
Proof.
  revert i. induction m as [|m IH]; intros i n L H E.
  - rewrite Nat.add_0_r in *. apply skip_leading_stop, E.
  - destruct n as [|n]; [lia|]. cbn [skip_leading].
    destruct (H 0) as [H1 H2]; [lia|]. rewrite Nat.add_0_r in H1, H2. rewrite H1. cbn [is_slash].
    change (is_slash slash) with true. destruct (eqb_spec (at_ path (S i)) x00); [contradiction|]. cbn.
    rewrite IH with (i := S i); [lia|lia| |].
    + intros k Hk. replace (S i + k) with (i + S k) by lia. apply H. lia.
    + replace (S i + m) with (i + S m) by lia. exact E.
Qed.

(** Every path has one of the forms. *)
Lemma trailing p : exists q n, p = q ++ slashes n /\ (q = [] \/ exists q' c, q = q' ++ [c] /\ c <> slash).
Proof.
  induction p as [|c p IH] using rev_ind; [exists [], 0; split; [reflexivity|left; reflexivity]|].
  destruct (is_slash_spec c) as [->|N].
  - destruct IH as (q & n & -> & H). exists q, (S n). split; [|exact H].
    rewrite <- app_assoc. f_equal. unfold slashes. rewrite <- repeat_cons. reflexivity.
  - exists (p ++ [c]), 0. split; [cbn; rewrite app_nil_r; reflexivity|]. right. eauto.
Qed.

Lemma last_name p c : c <> slash -> exists q b, p ++ [c] = q ++ b /\ is_name b /\
  (q = [] \/ exists q', q = q' ++ [slash]).
Proof.
  revert c. induction p as [|d p IH] using rev_ind; intros c N.
  - exists [], [c]. split; [reflexivity|]. split; [|left; reflexivity]. split; [discriminate|].
    intros [E|[]]. congruence.
  - destruct (is_slash_spec d) as [->|Nd].
    + exists (p ++ [slash]), [c]. split; [reflexivity|]. split; [split; [discriminate|intros [E|[]]; congruence]|].
      right. eauto.
    + destruct (IH d Nd) as (q & b & E & [B1 B2] & H). exists q, (b ++ [c]).
      split; [rewrite E, app_assoc; reflexivity|]. split; [|exact H]. split; [destruct b; discriminate|].
      intros I. apply in_app_or in I. destruct I as [I|[I|[]]]; [auto|congruence].
Qed.

Lemma slashes_snoc m : slashes (S m) = slashes m ++ [slash].
Proof. unfold slashes. cbn [repeat]. apply repeat_cons. Qed.

Lemma dir_base_total p : exists d b off, dir_base p d b off.
Proof.
  destruct (trailing p) as (q & n & -> & [->|(q' & c & -> & N)]).
  - destruct n as [|n]; [exists [dot], [dot], 0; constructor|exists [slash], [slash], n; apply (db_root n)].
  - destruct (last_name q' c N) as (q & b & -> & B & H).
    destruct H as [->|(q2 & ->)]; [exists [dot], b, 0; constructor; exact B|].
    destruct (trailing q2) as (q3 & m & -> & [->|(q4 & c' & -> & N')]).
    + exists [slash], b, (S m). cbn [app]. rewrite <- slashes_snoc, <- app_assoc. constructor. exact B.
    + exists (q4 ++ [c']), b, (length (q4 ++ [c']) + S m).
      replace (((((q4 ++ [c']) ++ slashes m) ++ [slash]) ++ b) ++ slashes n)
        with ((q4 ++ [c']) ++ slashes (S m) ++ b ++ slashes n).
      2: { rewrite slashes_snoc. rewrite <- !app_assoc. reflexivity. }
      apply db_path; assumption.
Qed.

Lemma baseoff_name pre b n : is_name b -> (pre = [] \/ exists q, pre = q ++ [slash]) ->
  xbaseoff (pre ++ b ++ slashes n) = length pre.
Proof.
  intros B P. set (path := pre ++ b ++ slashes n). unfold xbaseoff.
  assert (Lb : 0 < length b) by (destruct B as [B _]; destruct b; [contradiction|cbn; lia]).
  assert (Ab : forall k, k < length b -> is_slash (at_ path (length pre + k)) = false).
  { intros k Hk. unfold path. rewrite at_app2, at_app1 by exact Hk. apply at_name; assumption. }
  replace (skip_back is_slash path (length path)) with (length pre + length b).
  2: { unfold path. rewrite !app_length. unfold slashes at 2. rewrite repeat_length, Nat.add_assoc. fold path.
       rewrite skip_back_block.
       - destruct (length b) as [|k] eqn:E; [lia|]. rewrite Nat.add_succ_r, skip_back_stop; [reflexivity|].
         apply Ab. lia.
       - intros k Hk. unfold path. rewrite app_assoc.
         rewrite <- app_length, at_app2, at_slashes. destruct (Nat.ltb_spec k n); [reflexivity|lia]. }
  rewrite skip_back_block by (intros k Hk; rewrite Ab by exact Hk; reflexivity).
  replace (skip_back (fun c => negb (is_slash c)) path (length pre)) with (length pre).
  - apply skip_leading_stop. left. rewrite <- (Nat.add_0_r (length pre)). apply Ab. exact Lb.
  - destruct P as [->|(q & ->)]; [reflexivity|]. rewrite app_length, Nat.add_1_r, skip_back_stop; [reflexivity|].
    unfold path. rewrite <- app_assoc. rewrite <- (Nat.add_0_r (length q)), at_app2. reflexivity.
Qed.

Lemma baseoff_root n : xbaseoff (slashes (S n)) = n.
Proof.
  unfold xbaseoff. replace (length (slashes (S n))) with (0 + S n) at 2 by (unfold slashes; rewrite repeat_length; reflexivity).
  rewrite skip_back_block.
  2: { intros k Hk. rewrite at_slashes. destruct (Nat.ltb_spec (0 + k) (S n)); [reflexivity|lia]. }
  cbn [skip_back]. rewrite skip_leading_block with (m := n); [reflexivity| | |].
  - unfold slashes. rewrite repeat_length. lia.
  - intros k Hk. rewrite !at_slashes. destruct (Nat.ltb_spec (0 + k) (S n)); [|lia].
    destruct (Nat.ltb_spec (S (0 + k)) (S n)); [|lia]. split; [reflexivity|discriminate].
  - right. rewrite at_slashes. destruct (Nat.ltb_spec (S (0 + n)) (S n)); [lia|reflexivity].
Qed.

Lemma cspn_name b rest : ~ In slash b -> cspn_slash (b ++ rest) = length b + cspn_slash rest.
Proof.
  induction b as [|c b IH]; intros N; [reflexivity|]. cbn [app cspn_slash length].
  destruct (is_slash_spec c) as [->|_]; [exfalso; apply N; left; reflexivity|].
  rewrite IH by (intros I; apply N; right; exact I). reflexivity.
Qed.

Lemma basename_name pre b n : is_name b -> (pre = [] \/ exists q, pre = q ++ [slash]) ->
  xbasename (pre ++ b ++ slashes n) = b.
Proof.
  intros B P. unfold xbasename. rewrite baseoff_name by assumption.
  rewrite skipn_app, skipn_all, Nat.sub_diag. cbn [skipn app].
  rewrite cspn_name by apply B. replace (cspn_slash (slashes n)) with 0 by (destruct n; reflexivity).
  rewrite Nat.add_0_r. destruct b as [|c b]; [destruct B as [B _]; contradiction|].
  cbn [length Nat.ltb Nat.leb]. change (0 <? S (length b)) with true. cbv iota.
  rewrite firstn_app, Nat.sub_diag. cbn [firstn]. rewrite app_nil_r. f_equal. apply firstn_all.
Qed.

Lemma dir_base_correct p d b off : dir_base p d b off ->
  xdirname p = d /\ xbasename p = b /\ xbaseoff p = off.
Proof.
  intros H. destruct H as [|n|b n B|b m n B|d c b m n B N].
  - repeat split; reflexivity.
  - split; [|split]; [| |apply baseoff_root].
    + unfold xdirname. rewrite baseoff_root. replace (skip_back is_slash (slashes (S n)) n) with 0.
      * reflexivity.
      * symmetry. rewrite <- (Nat.add_0_l n) at 2. rewrite skip_back_block; [reflexivity|]. intros k Hk. rewrite at_slashes. destruct (Nat.ltb_spec (0 + k) (S n)); [reflexivity|lia].
    + unfold xbasename. rewrite baseoff_root.
      replace (skipn n (slashes (S n))) with [slash].
      2: { rewrite slashes_snoc, skipn_app. unfold slashes. rewrite repeat_length, Nat.sub_diag.
           rewrite skipn_all2 by (rewrite repeat_length; lia). reflexivity. }
      cbn [cspn_slash]. change (is_slash slash) with true. cbv iota. change (0 <? 0) with false. cbv iota.
      rewrite at_slashes. destruct (Nat.ltb_spec n (S n)); [reflexivity|lia].
  - pose proof (baseoff_name [] b n B (or_introl eq_refl)) as O. cbn [app] in O.
    split; [|split]; [|apply (basename_name [] b n B (or_introl eq_refl))|exact O].
    unfold xdirname. rewrite O. cbn [length skip_back Nat.ltb Nat.leb]. change (0 <? 0) with false. cbv iota.
    destruct b as [|c b]; [destruct B as [B _]; contradiction|]. cbn [app at_ nth].
    unfold at_. cbn [nth]. destruct (is_slash_spec c) as [->|]; [|reflexivity].
    destruct B as [_ B]. exfalso. apply B. left. reflexivity.
  - assert (P : slashes (S m) = [] \/ exists q, slashes (S m) = q ++ [slash]) by (right; rewrite slashes_snoc; eauto).
    pose proof (baseoff_name _ b n B P) as O.
    split; [|split]; [|apply (basename_name _ b n B P)|rewrite O; unfold slashes; apply repeat_length].
    unfold xdirname. rewrite O. rewrite <- (Nat.add_0_l (length (slashes (S m)))).
    rewrite skip_back_block.
    + cbn [skip_back Nat.ltb Nat.leb]. change (0 <? 0) with false. reflexivity.
    + intros k Hk. rewrite at_app1 by exact Hk. rewrite at_slashes. unfold slashes in Hk. rewrite repeat_length in Hk.
      destruct (Nat.ltb_spec (0 + k) (S m)); [reflexivity|lia].
  - rewrite app_assoc.
    assert (P : (d ++ [c]) ++ slashes (S m) = [] \/ exists q, (d ++ [c]) ++ slashes (S m) = q ++ [slash])
      by (right; rewrite slashes_snoc, app_assoc; eauto).
    pose proof (baseoff_name _ b n B P) as O.
    split; [|split]; [|apply (basename_name _ b n B P)|rewrite O, app_length; unfold slashes; rewrite repeat_length; reflexivity].
    unfold xdirname. rewrite O. rewrite app_length, skip_back_block.
    + rewrite app_length, Nat.add_1_r, skip_back_stop.
      * change (0 <? S (length d)) with true. cbv iota.
        rewrite <- app_assoc, firstn_app. rewrite app_length, Nat.add_1_r, Nat.sub_diag.
        rewrite firstn_all2 by (rewrite app_length; cbn; lia). cbn [firstn]. apply app_nil_r.
      * rewrite <- !app_assoc. rewrite <- (Nat.add_0_r (length d)), at_app2. cbn [app]. unfold at_. cbn [nth].
        destruct (is_slash_spec c); [contradiction|reflexivity].
    + intros k Hk. rewrite <- app_assoc, at_app2, at_app1 by exact Hk. rewrite at_slashes.
      unfold slashes in Hk. rewrite repeat_length in Hk. destruct (Nat.ltb_spec k (S m)); [reflexivity|lia].
Qed.

Lemma path_functions : forall p, dir_base p (xdirname p) (xbasename p) (xbaseoff p).
Proof.
  intros p. destruct (dir_base_total p) as (d & b & off & H).
  destruct (dir_base_correct _ _ _ _ H) as (-> & -> & ->). exact H.
Qed.

Lemma dir_base_unique : forall p d b off d' b' off',
  dir_base p d b off -> dir_base p d' b' off' -> d = d' /\ b = b' /\ off = off'.
Proof.
  intros p d b off d' b' off' H H'. apply dir_base_correct in H, H'.
  destruct H as (<- & <- & <-), H' as (<- & <- & <-). auto.
Qed.

(** Components *)
Lemma fields_cons s : exists f fs, fields s = f :: fs.
Proof.
  destruct s as [|c s]; cbn [fields]; [eauto|]. destruct (is_slash c); [eauto|].
  destruct (fields s); eauto.
Qed.

Lemma fields_app a b : fields (a ++ slash :: b) = fields a ++ fields b.
Proof.
  induction a as [|c a IH]; cbn [app fields].
  - reflexivity.
  - rewrite IH. destruct (is_slash c); [reflexivity|].
    destruct (fields_cons a) as (f & fs & ->). reflexivity.
Qed.

Definition nt (s : list byte) := filter (fun f => negb (trivial f)) (fields s).
Lemma nt_app a b : nt (a ++ slash :: b) = nt a ++ nt b.
Proof. unfold nt. rewrite fields_app, filter_app. reflexivity. Qed.
Lemma nt_nil : nt [] = [].
Proof. reflexivity. Qed.
Lemma nt_slashes a n : nt (a ++ slashes n) = nt a.
Proof.
  revert a. induction n as [|n IH]; intros a; [cbn; rewrite app_nil_r; reflexivity|].
  rewrite slashes_snoc, app_assoc, nt_app, IH, nt_nil, app_nil_r. reflexivity.
Qed.
Lemma nt_slashes_app a n b : nt (a ++ slashes (S n) ++ b) = nt a ++ nt b.
Proof.
  rewrite slashes_snoc, <- app_assoc, app_assoc. cbn [app]. rewrite nt_app, nt_slashes. reflexivity.
Qed.

Lemma reassemble : forall p, same_path (xdirname p ++ slash :: xbasename p) p.
Proof.
  intros p. unfold same_path. fold (nt p). fold (nt (xdirname p ++ slash :: xbasename p)). rewrite nt_app.
  destruct (path_functions p) as [|n|b n B|b m n B|d c b m n B N].
  - split; reflexivity.
  - split; [reflexivity|]. rewrite <- (app_nil_l (slashes (S n))), nt_slashes. reflexivity.
  - split.
    + cbn [app]. unfold at_. cbn [nth]. destruct b as [|c b]; [destruct B as [B _]; contradiction|].
      cbn [app nth]. destruct (is_slash_spec c) as [->|]; [|reflexivity].
      destruct B as [_ B]. exfalso. apply B. left. reflexivity.
    + rewrite nt_slashes. reflexivity.
  - split; [reflexivity|]. rewrite <- (app_nil_l (slashes (S m) ++ _)), nt_slashes_app, nt_slashes. reflexivity.
  - split; [destruct d; reflexivity|]. rewrite nt_slashes_app, nt_slashes. reflexivity.
Qed.
