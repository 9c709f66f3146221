(** Proofs about full reads and writes *)
From Coq Require Import List Arith Bool Lia.
From Coq Require Import Init.Byte.
From Verif Require Import IoModel IoSpec.
Import ListNotations.

Lemma skipn_skipn {A} (l : list A) a b : skipn a (skipn b l) = skipn (b + a) l.
Proof. revert b. induction l as [|x l IH]; intros [|b]; rewrite ?skipn_nil; try reflexivity. apply IH. Qed.

Lemma store_next buf c s t : c + length s + length t <= length buf ->
  store (store buf c s) (c + length s) t = store buf c (s ++ t).
Proof.
  intros H. unfold store. rewrite firstn_app, firstn_firstn, firstn_length, Nat.min_r by lia.
  rewrite Nat.min_l by lia. replace (c + length s - c) with (length s) by lia.
  rewrite firstn_app, firstn_all, Nat.sub_diag, firstn_O, app_nil_r.
  rewrite skipn_app, firstn_length, Nat.min_l by lia.
  rewrite (skipn_all2 (firstn c buf)) by (rewrite firstn_length; lia). cbn [app].
  rewrite skipn_app. rewrite (skipn_all2 s) by lia. cbn [app].
  rewrite skipn_skipn, app_length, !app_assoc. f_equal. f_equal. lia.
Qed.
Lemma store_nil buf c : store buf c [] = buf.
Proof. unfold store. cbn [app length]. rewrite Nat.add_0_r. apply firstn_skipn. Qed.
Lemma store_length buf c s : c + length s <= length buf -> length (store buf c s) = length buf.
Proof. intros H. unfold store. rewrite !app_length, firstn_length, skipn_length. lia. Qed.

Definition ended_read (nbytes count : nat) (rest : list byte) (e : ending) (answers : list answer) : Prop :=
  match e with
  | Full => count = nbytes
  | Eof => count < nbytes /\ rest = []
  | Error n => count < nbytes /\ In (Failed n) answers
  end.

Lemma xread_ok answers : forall file buf nbytes count c buf' rest e,
  nbytes <= length buf -> count <= nbytes ->
  xread answers file buf nbytes count = Some (c, buf', rest, e) ->
  exists got, file = got ++ rest /\ c = count + length got /\ buf' = store buf count got /\ c <= nbytes /\
    ended_read nbytes c rest e answers.
Proof.
  induction answers as [|a answers IH]; intros file buf nbytes count c buf' rest e L C E; cbn [xread] in E;
    destruct (Nat.ltb_spec count nbytes) as [H|H].
  - discriminate.
  - injection E as <- <- <- <-. exists []. cbn [length app]. rewrite store_nil. repeat split; try lia. cbn. lia.
  - destruct a as [|n|k].
    + destruct (IH _ _ _ _ _ _ _ _ L C E) as (got & H1 & H2 & H3 & H4 & H5). exists got. repeat (split; [assumption|]).
      destruct e; cbn in *; tauto.
    + injection E as <- <- <- <-. exists []. cbn [length app]. rewrite store_nil. repeat split; try lia. left. reflexivity.
    + set (n := read_amount k (nbytes - count) file) in *.
      assert (N : n <= nbytes - count /\ n <= length file /\ (n = 0 -> file = [])).
      { unfold n, read_amount. repeat split; try lia. intros Z. destruct file; [reflexivity|]. cbn [length] in Z. lia. }
      destruct N as (N1 & N2 & N3). destruct (Nat.eqb_spec n 0) as [Z|Z].
      * injection E as <- <- <- <-. exists []. cbn [length app]. rewrite store_nil. repeat split; try lia. tauto.
      * assert (FL : length (firstn n file) = n) by (rewrite firstn_length; lia).
        apply IH in E; [|rewrite store_length; lia|lia].
        destruct E as (got & H1 & H2 & H3 & H4 & H5). exists (firstn n file ++ got).
        rewrite <- app_assoc, <- H1, firstn_skipn. split; [reflexivity|].
        rewrite app_length, FL. split; [lia|]. split.
        { rewrite H3. rewrite <- FL at 2. apply store_next. rewrite FL. lia. }
        split; [exact H4|]. destruct e; cbn in *; tauto.
  - injection E as <- <- <- <-. exists []. cbn [length app]. rewrite store_nil. repeat split; try lia. cbn. lia.
Qed.

Lemma xread_whole answers file buf nbytes c buf' rest e : nbytes <= length buf ->
  xread answers file buf nbytes 0 = Some (c, buf', rest, e) ->
  exists got, file = got ++ rest /\ c = length got /\ buf' = got ++ skipn (length got) buf /\ c <= nbytes /\
    match e with
    | Full => c = nbytes
    | Eof => c < nbytes /\ rest = []
    | Error n => c < nbytes /\ In (Failed n) answers
    end.
Proof. intros L E. apply (xread_ok answers file buf nbytes 0) in E; [exact E|exact L|lia]. Qed.

Lemma xread_progress answers : forall file buf nbytes count,
  nbytes - count <= effective answers -> exists r, xread answers file buf nbytes count = Some r.
Proof.
  induction answers as [|a answers IH]; intros file buf nbytes count L; cbn [xread];
    destruct (Nat.ltb_spec count nbytes) as [H|H]; try (eexists; reflexivity).
  - cbn in L. lia.
  - destruct a as [|n|k]; cbn in L.
    + apply IH. exact L.
    + eexists; reflexivity.
    + destruct (Nat.eqb_spec (read_amount k (nbytes - count) file) 0) as [Z|Z]; [eexists; reflexivity|].
      apply IH. unfold effective. lia.
Qed.

Definition ended_write (nbytes count : nat) (e : ending) (answers : list answer) : Prop :=
  match e with
  | Full => count = nbytes
  | Eof => count < nbytes /\ In (Transfer 0) answers
  | Error n => count < nbytes /\ In (Failed n) answers
  end.

Lemma firstn_app_skipn {A} (l : list A) a b : firstn a l ++ firstn b (skipn a l) = firstn (a + b) l.
Proof.
  revert a. induction l as [|x l IH]; intros a; [rewrite skipn_nil, !firstn_nil; reflexivity|].
  destruct a as [|a]; [reflexivity|]. cbn [firstn skipn app Nat.add]. rewrite IH. reflexivity.
Qed.

Lemma xwrite_ok answers : forall before file buf nbytes count c file' e,
  nbytes <= length buf -> count <= nbytes -> file = before ++ firstn count buf ->
  xwrite answers file buf nbytes count = Some (c, file', e) ->
  file' = before ++ firstn c buf /\ c <= nbytes /\ ended_write nbytes c e answers.
Proof.
  induction answers as [|a answers IH]; intros before file buf nbytes count c file' e L C F E; cbn [xwrite] in E;
    destruct (Nat.ltb_spec count nbytes) as [H|H].
  - discriminate.
  - injection E as <- <- <-. repeat split; auto. cbn. lia.
  - destruct a as [|n|k].
    + destruct (IH _ _ _ _ _ _ _ _ L C F E) as (H1 & H2 & H3). repeat (split; [assumption|]). destruct e; cbn in *; tauto.
    + injection E as <- <- <-. repeat split; auto. left. reflexivity.
    + destruct (Nat.eqb_spec (min k (nbytes - count)) 0) as [Z|Z].
      * injection E as <- <- <-. repeat split; auto. left. f_equal. lia.
      * set (n := min k (nbytes - count)) in *. assert (n <= nbytes - count) by (unfold n; lia).
        apply (IH before) in E; [|lia|lia|rewrite F, <- app_assoc, firstn_app_skipn; reflexivity].
        destruct E as (H1 & H2 & H3). repeat (split; [assumption|]). destruct e; cbn in *; tauto.
  - injection E as <- <- <-. repeat split; auto. cbn. lia.
Qed.

Lemma xwrite_whole answers file buf nbytes c file' e : nbytes <= length buf ->
  xwrite answers file buf nbytes 0 = Some (c, file', e) ->
  file' = file ++ firstn c buf /\ c <= nbytes /\
    match e with
    | Full => c = nbytes
    | Eof => c < nbytes /\ In (Transfer 0) answers
    | Error n => c < nbytes /\ In (Failed n) answers
    end.
Proof.
  intros L E. apply (xwrite_ok answers file file buf nbytes 0) in E; [exact E|exact L|lia|].
  cbn [firstn]. rewrite app_nil_r. reflexivity.
Qed.

Lemma xwrite_progress answers : forall file buf nbytes count,
  nbytes - count <= effective answers -> exists r, xwrite answers file buf nbytes count = Some r.
Proof.
  induction answers as [|a answers IH]; intros file buf nbytes count L; cbn [xwrite];
    destruct (Nat.ltb_spec count nbytes) as [H|H]; try (eexists; reflexivity).
  - cbn in L. lia.
  - destruct a as [|n|k]; cbn in L.
    + apply IH. exact L.
    + eexists; reflexivity.
    + destruct (Nat.eqb_spec (min k (nbytes - count)) 0) as [Z|Z]; [eexists; reflexivity|].
      apply IH. unfold effective. lia.
Qed.
