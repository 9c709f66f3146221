(** * The paths of the files in a walk *)
From Coq Require Import List Bool Arith Lia Permutation Init.Byte.
From Coq Require Import ZifyBool ZifyNat.
From Verif Require Import PathModel PathSpec WalkSpec BftwModel BftwIo BftwSpec.
Import ListNotations.

(** ** Lists with the same elements at the same places *)

Lemma nth_ext_error {A} (a b : list A) : (forall i, nth_error a i = nth_error b i) -> a = b.
Proof.
  revert b. induction a as [|x a IH]; intros [|y b] H; [reflexivity|discriminate (H 0)|discriminate (H 0)|].
  pose proof (H 0) as E. injection E as <-. f_equal. apply IH. intros i. exact (H (S i)).
Qed.

Lemma write_ok off l (p P : list byte) : length p = length P -> (forall i, i < length l -> nth_error P (off + i) = nth_error l i) ->
  off + length l <= length P ->
  exists p', write off l p = Some p' /\ length p' = length P /\
    (forall i, off <= i < off + length l -> nth_error p' i = nth_error P i) /\
    (forall i, nth_error p i = nth_error P i -> nth_error p' i = nth_error P i).
Proof.
  intros L E B. unfold write. replace (off + length l <=? length p) with true by (symmetry; apply Nat.leb_le; lia).
  eexists. split; [reflexivity|].
  assert (F : length (firstn off p) = off) by (rewrite firstn_length; lia).
  assert (M : forall i, off <= i < off + length l -> nth_error (firstn off p ++ l ++ skipn (off + length l) p) i = nth_error P i).
  { intros i I. rewrite nth_error_app2 by lia. rewrite F, nth_error_app1 by lia. rewrite <- E by lia. f_equal. lia. }
  split; [|split; [exact M|]].
  - rewrite !app_length, F, skipn_length. lia.
  - intros i H. destruct (Nat.lt_ge_cases i off) as [I | I].
    + rewrite nth_error_app1 by lia. rewrite <- H. rewrite <- (firstn_skipn off p) at 2. rewrite nth_error_app1 by lia. reflexivity.
    + destruct (Nat.lt_ge_cases i (off + length l)) as [J | J]; [apply M; lia|].
      rewrite nth_error_app2 by lia. rewrite nth_error_app2 by lia. rewrite F, <- H.
      rewrite <- (firstn_skipn (off + length l) p) at 2. rewrite nth_error_app2 by (rewrite firstn_length; lia).
      f_equal. rewrite firstn_length. lia.
Qed.

(** [P] has [nm] at [off], after a slash. *)
Definition has (P : list byte) (off : nat) (nm : list byte) : Prop :=
  exists A B, P = A ++ nm ++ B /\ length A = off /\ (off = 0 \/ exists A', A = A' ++ ["/"%byte]).

Lemma prepend_ok off nm (p P : list byte) : length p = length P -> has P off nm ->
  exists p', prepend_path off nm p = Some p' /\ length p' = length P /\
    (forall i, off - 1 <= i < off + length nm -> nth_error p' i = nth_error P i) /\
    (forall i, nth_error p i = nth_error P i -> nth_error p' i = nth_error P i).
Proof.
  intros L (A & B & -> & LA & SL). unfold prepend_path.
  assert (K : forall p1, length p1 = length (A ++ nm ++ B) ->
    exists p', write off nm p1 = Some p' /\ length p' = length (A ++ nm ++ B) /\
      (forall i, off <= i < off + length nm -> nth_error p' i = nth_error (A ++ nm ++ B) i) /\
      (forall i, nth_error p1 i = nth_error (A ++ nm ++ B) i -> nth_error p' i = nth_error (A ++ nm ++ B) i)).
  { intros p1 L1. apply write_ok; [exact L1| |rewrite !app_length; lia].
    intros i I. rewrite nth_error_app2 by lia. rewrite nth_error_app1 by lia. f_equal. lia. }
  destruct off as [|o].
  - destruct (K p L) as (p' & E1 & E2 & E3 & E4). exists p'. split; [exact E1|]. split; [exact E2|]. split; [|exact E4]. intros i I. apply E3. lia.
  - destruct SL as [SL | (A' & ->)]; [discriminate|]. rewrite app_length in LA. cbn [length] in LA.
    destruct (write_ok o ["/"%byte] p ((A' ++ ["/"%byte]) ++ nm ++ B)) as (p1 & W & L1 & W2 & W3); [exact L| | |].
    + intros i I. cbn [length] in I. replace i with 0 by lia. rewrite <- app_assoc. rewrite nth_error_app2 by lia.
      replace (o + 0 - length A') with 0 by lia. reflexivity.
    + rewrite !app_length. cbn [length]. lia.
    + rewrite W. destruct (K p1 L1) as (p' & E1 & E2 & E3 & E4). exists p'. split; [exact E1|]. split; [exact E2|]. split.
      * intros i I. destruct (Nat.eq_dec i o) as [-> | D]; [|apply E3; lia]. apply E4, W2. cbn [length]. lia.
      * intros i I. apply E4, W3, I.
Qed.

Section Paths.
  Context {U : Type}.
  Variable w : env U.
  Notation state := (state U).
  Notation node_at := (node_at w).
  Notation path_at := (path_at w).
  Notation name_at := (name_at w).

  Lemma path_cons k q : q <> [] -> path_at (k :: q) = join (path_at q) (name_at (k :: q)).
  Proof. destruct q; [congruence|reflexivity]. Qed.

  Lemma join_prefix d n : exists x, join d n = d ++ x.
  Proof.
    unfold join. destruct (rev d) as [|c l] eqn:E; [|destruct (Byte.eqb c "/"); eauto].
    destruct d; [exists n; reflexivity|]. apply (f_equal (@length byte)) in E. rewrite rev_length in E. cbn [length] in E. discriminate.
  Qed.
  Lemma join_suffix d n : exists x, join d n = x ++ n.
  Proof.
    unfold join. destruct (rev d) as [|c l]; [exists []; reflexivity|]. destruct (Byte.eqb c "/"); [eauto|].
    exists (d ++ ["/"%byte]). rewrite <- app_assoc. reflexivity.
  Qed.
  Lemma path_suffix p : exists x, path_at p = x ++ name_at p.
  Proof.
    destruct p as [|k [|j q]]; [exists []; reflexivity|exists []; reflexivity|]. rewrite path_cons by discriminate. apply join_suffix.
  Qed.
  Lemma path_prefix r c : exists x, path_at (r ++ c) = path_at c ++ x.
  Proof.
    destruct c as [|k c]; [exists (path_at (r ++ [])); reflexivity|].
    induction r as [|j r (x & IH)]; [exists []; rewrite app_nil_r; reflexivity|].
    cbn [app]. rewrite path_cons by (destruct r; discriminate). rewrite IH. destruct (join_prefix (path_at (k :: c) ++ x) (name_at (j :: r ++ k :: c))) as (y & ->).
    exists (x ++ y). rewrite app_assoc. reflexivity.
  Qed.

  Definition suffix (c p : pos) : Prop := exists r, p = r ++ c.
  Lemma suffix_nil p : suffix [] p.
  Proof. exists p. rewrite app_nil_r. reflexivity. Qed.
  Lemma suffix_cons c k p : suffix c p -> suffix c (k :: p).
  Proof. intros (r & ->). exists (k :: r). reflexivity. Qed.
  Lemma suffix_refl p : suffix p p.
  Proof. exists []. reflexivity. Qed.
  Lemma suffix_trans a b c : suffix a b -> suffix b c -> suffix a c.
  Proof. intros (r & ->) (t & ->). exists (t ++ r). apply app_assoc. Qed.

  Lemma prefix_nth c p i : suffix c p -> i < length (path_at c) -> nth_error (path_at p) i = nth_error (path_at c) i.
  Proof. intros (r & ->) I. destruct (path_prefix r c) as (x & ->). apply nth_error_app1, I. Qed.
  Lemma prefix_length c p : suffix c p -> length (path_at c) <= length (path_at p).
  Proof. intros (r & ->). destruct (path_prefix r c) as (x & ->). rewrite app_length. lia. Qed.

  (** ** Files *)

  Record file_ok (s : state) (f : file) : Prop := {
    ok_node : node_at (f_pos f) = Some (f_node f);
    ok_off : f_nameoff f + length (f_name f) = length (path_at (f_pos f));
    ok_parent : match f_parent f with
                | None => exists k, f_pos f = [k]
                | Some p => exists g k, find_file p s = Some g /\ f_pos f = k :: f_pos g /\ child_nameoff g = Some (f_nameoff f)
                end }.

  Lemma ok_name s f : file_ok s f -> name_at (f_pos f) = f_name f.
  Proof. intros H. unfold BftwSpec.name_at. rewrite (ok_node _ _ H). unfold f_name, f_info. destruct (f_node f). reflexivity. Qed.

  Lemma ok_pos s f : file_ok s f -> f_pos f <> [].
  Proof. intros H E. pose proof (ok_node _ _ H) as N. rewrite E in N. discriminate. Qed.

  Lemma child_off s g k off : file_ok s g -> child_nameoff g = Some off ->
    exists A, path_at (k :: f_pos g) = (A ++ ["/"%byte]) ++ name_at (k :: f_pos g) /\ length (A ++ ["/"%byte]) = off /\
      off <= S (length (path_at (f_pos g))).
  Proof.
    intros H C. rewrite path_cons by (eapply ok_pos; eassumption). destruct (path_suffix (f_pos g)) as (x & E).
    rewrite (ok_name _ _ H) in E. unfold child_nameoff in C. pose proof (ok_off _ _ H) as O.
    destruct (rev (f_name g)) as [|c l] eqn:R; [discriminate|]. injection C as C.
    unfold join. rewrite E, rev_app_distr, R. cbn [app]. rewrite <- E. destruct (Byte.eqb c "/") eqn:Q.
    - apply Byte.byte_dec_bl in Q. subst c. exists (x ++ rev l).
      assert (F : (x ++ rev l) ++ ["/"%byte] = path_at (f_pos g)).
      { rewrite E, <- app_assoc. f_equal. rewrite <- (rev_involutive (f_name g)), R. reflexivity. }
      rewrite F. split; [reflexivity|]. lia.
    - exists (path_at (f_pos g)). rewrite <- app_assoc. split; [reflexivity|]. rewrite app_length. cbn [length]. lia.
  Qed.

  (** The path of any file that is below [f] has the name of [f] at its offset. *)
  Lemma ok_has s f p : file_ok s f -> (forall g, f_parent f = Some g -> forall h, find_file g s = Some h -> file_ok s h) -> suffix (f_pos f) p -> has (path_at p) (f_nameoff f) (f_name f).
  Proof.
    intros H PH (r & ->). destruct (path_prefix r (f_pos f)) as (B & ->). pose proof (ok_parent _ _ H) as P. pose proof (ok_name _ _ H) as N.
    destruct (f_parent f) as [q|] eqn:FP.
    - destruct P as (g & k & Fg & E & C). pose proof (PH q eq_refl g Fg) as HG. destruct (child_off s g k _ HG C) as (A & EA & LA & _).
      rewrite <- E, N in EA. rewrite EA. exists (A ++ ["/"%byte]), B. rewrite <- !app_assoc. split; [reflexivity|]. split; [exact LA|]. right. exists A. reflexivity.
    - destruct P as (k & E). pose proof (ok_off _ _ H) as O. rewrite E in O, N. cbn [BftwSpec.path_at] in O. rewrite N in O.
      rewrite E. cbn [BftwSpec.path_at]. rewrite N. exists [], B. split; [reflexivity|]. split; [cbn; lia|]. left. lia.
  Qed.

  Definition opos (o : option file) : pos := match o with Some f => f_pos f | None => [] end.

  (** All files are well-formed. *)
  Definition all_ok (s : state) : Prop := forall f, In f (files s) -> file_ok s f.

  Lemma find_in x (s : state) f : find_file x s = Some f -> In f (files s) /\ f_id f = x.
  Proof. intros E. apply find_some in E as (I & E). apply Nat.eqb_eq in E. auto. Qed.
  Lemma find_ok x s f : all_ok s -> find_file x s = Some f -> file_ok s f.
  Proof. intros A E. apply A. apply (find_in _ _ _ E). Qed.

  Lemma parent_ok s f : all_ok s -> file_ok s f -> exists o, get (f_parent f) s = Some o /\ (exists k, f_pos f = k :: opos o) /\
    (forall h, o = Some h -> file_ok s h).
  Proof.
    intros A H. pose proof (ok_parent _ _ H) as P. unfold get. destruct (f_parent f) as [q|].
    - destruct P as (g & k & Fg & E & _). rewrite Fg. exists (Some g). split; [reflexivity|]. split; [exists k; exact E|]. intros h [= <-].
      eapply find_ok; [exact A|exact Fg].
    - exists None. split; [reflexivity|]. destruct P as (k & E). split; [exists k; exact E|]. discriminate.
  Qed.

  Lemma depth_pos s f : file_ok s f -> S (f_depth f) = length (f_pos f).
  Proof. intros H. unfold f_depth. pose proof (ok_pos _ _ H). destruct (f_pos f); [congruence|cbn [length]; lia]. Qed.

  (** ** Building paths *)

  Lemma same_depth_ok fuel s x f d : all_ok s -> find_file x s = Some f -> f_depth f <= fuel ->
    exists o, same_depth fuel (Some x) d s = Some o /\ suffix (opos o) (f_pos f) /\ (forall h, o = Some h -> file_ok s h).
  Proof.
    intros A. revert x f. induction fuel as [|fuel IH]; intros x f F L; cbn [same_depth]; rewrite F; pose proof (find_ok _ _ _ A F) as H.
    - replace (d <? f_depth f) with false by (symmetry; apply Nat.ltb_ge; lia). exists (Some f). split; [reflexivity|].
      split; [apply suffix_refl|]. intros h [= <-]. exact H.
    - destruct (d <? f_depth f) eqn:D.
      + pose proof (ok_parent _ _ H) as P. destruct (f_parent f) as [q|] eqn:FP.
        * destruct P as (g & k & Fg & E & _). pose proof (depth_pos _ _ H). pose proof (depth_pos _ _ (find_ok _ _ _ A Fg)).
          rewrite E in H0. cbn [length] in H0. destruct (IH q g Fg) as (o & -> & S & O); [lia|]. exists o. split; [reflexivity|].
          split; [rewrite E; apply suffix_cons, S|exact O].
        * destruct P as (k & E). pose proof (depth_pos _ _ H) as DP. rewrite E in DP. cbn [length] in DP. apply Nat.ltb_lt in D. lia.
      + exists (Some f). split; [reflexivity|]. split; [apply suffix_refl|]. intros h [= <-]. exact H.
  Qed.

  Lemma id_unique (s : state) f g : NoDup (map f_id (files s)) -> In f (files s) -> In g (files s) -> f_id f = f_id g -> f = g.
  Proof.
    intros N. induction (files s) as [|h l IH]; intros F G E; [destruct F|]. cbn [map] in N. apply NoDup_cons_iff in N as (N1 & N2).
    destruct F as [-> | F], G as [-> | G]; [reflexivity| | |exact (IH N2 F G E)]; exfalso; apply N1.
    - rewrite E. apply in_map, G.
    - rewrite <- E. apply in_map, F.
  Qed.

  Lemma build_loop_ok fuel s x a p t : all_ok s -> NoDup (map f_id (files s)) ->
    (forall f, x = Some f -> In f (files s)) -> (forall f, a = Some f -> In f (files s)) ->
    length (opos x) <= fuel -> suffix (opos x) t -> length p = length (path_at t) ->
    (forall i, length (path_at (opos x)) <= i -> nth_error p i = nth_error (path_at t) i) ->
    (forall c i, suffix c (opos x) -> suffix c (opos a) -> i < length (path_at c) -> nth_error p i = nth_error (path_at t) i) ->
    build_loop fuel x a p s = Some (path_at t).
  Proof.
    intros AO ND. revert x a p. induction fuel as [|fuel IH]; intros x a p HX HA L SX LP AG CO.
    - destruct x as [f|].
      + exfalso. pose proof (ok_pos _ _ (AO f (HX f eq_refl))). cbn [opos] in L. destruct (f_pos f); [congruence|cbn [length] in L; lia].
      + cbn [build_loop]. f_equal. apply nth_ext_error. intros i. apply AG. cbn. lia.
    - destruct x as [f|]; cbn [build_loop]; [|f_equal; apply nth_ext_error; intros i; apply AG; cbn; lia].
      pose proof (HX f eq_refl) as FI. pose proof (AO f FI) as FO.
      destruct (match a with Some g => f_id f =? f_id g | None => false end) eqn:EQ.
      + destruct a as [g|]; [|discriminate]. apply Nat.eqb_eq in EQ. apply (id_unique s f g ND FI (HA g eq_refl)) in EQ. subst g.
        f_equal. apply nth_ext_error. intros i. destruct (Nat.lt_ge_cases i (length (path_at (f_pos f)))).
        * apply (CO (f_pos f)); [apply suffix_refl|apply suffix_refl|assumption].
        * apply AG. cbn [opos]. assumption.
      + clear EQ. cbn [opos] in *.
        assert (PF : forall g, f_parent f = Some g -> forall h, find_file g s = Some h -> file_ok s h) by (intros g _ h Fh; eapply find_ok; eassumption).
        destruct (prepend_ok (f_nameoff f) (f_name f) p (path_at t) LP (ok_has s f t FO PF SX)) as (p' & -> & LP' & W1 & W2).
        assert (GA : exists a', (match a with Some g => if f_depth g =? f_depth f then get (f_parent g) s else Some a | None => Some None end) = Some a' /\
                     suffix (opos a') (opos a) /\ forall h, a' = Some h -> In h (files s)).
        { destruct a as [g|].
          - destruct (f_depth g =? f_depth f).
            + destruct (f_parent g) as [q|] eqn:GP; cbn [get].
              * pose proof (ok_parent _ _ (AO g (HA g eq_refl))) as P. rewrite GP in P. destruct P as (h & k & Fh & E & _). rewrite Fh.
                exists (Some h). split; [reflexivity|]. split; [cbn [opos]; rewrite E; apply suffix_cons, suffix_refl|].
                intros h' [= <-]. apply (find_in _ _ _ Fh).
              * exists None. split; [reflexivity|]. split; [apply suffix_nil|discriminate].
            + exists (Some g). split; [reflexivity|]. split; [apply suffix_refl|exact HA].
          - exists None. split; [reflexivity|]. split; [apply suffix_nil|discriminate]. }
        destruct GA as (a' & -> & SA & HA').
        pose proof (ok_parent _ _ FO) as P. pose proof (ok_off _ _ FO) as OFF.
        assert (GX : exists x', get (f_parent f) s = Some x' /\ (exists k, f_pos f = k :: opos x') /\ (forall h, x' = Some h -> In h (files s)) /\
                       f_nameoff f <= S (length (path_at (opos x')))).
        { destruct (f_parent f) as [q|] eqn:FP; cbn [get].
          - destruct P as (g & k & Fg & E & C). rewrite Fg. exists (Some g). split; [reflexivity|]. split; [exists k; exact E|].
            split; [intros h [= <-]; apply (find_in _ _ _ Fg)|]. destruct (child_off s g k _ (find_ok _ _ _ AO Fg) C) as (A & _ & _ & B). exact B.
          - destruct P as (k & E). exists None. split; [reflexivity|]. split; [exists k; exact E|]. split; [discriminate|].
            rewrite E in OFF. pose proof (ok_name _ _ FO) as N. rewrite E in N. cbn [BftwSpec.path_at] in OFF. rewrite N in OFF. lia. }
        destruct GX as (x' & -> & (k & E) & HX' & OB).
        apply IH; auto.
        * rewrite E in L. cbn [length] in L. lia.
        * eapply suffix_trans; [|exact SX]. rewrite E. apply suffix_cons, suffix_refl.
        * intros i I. destruct (Nat.lt_ge_cases i (length (path_at (f_pos f)))) as [J | J].
          -- apply W1. lia.
          -- apply W2, AG, J.
        * intros c i S1 S2 I. apply W2. apply (CO c); [rewrite E; apply suffix_cons, S1|eapply suffix_trans; eassumption|exact I].
  Qed.

  (** [t], which is entry number [k] of the current directory or the current file, is at [p]. *)
  Definition target_at (t : target) (p : pos) (s : state) : Prop :=
    match t, cur s with
    | Some (k, tr), None => p = [k] /\ node_at p = Some tr /\ previous s = None
    | Some (k, tr), Some x => exists f, find_file x s = Some f /\ p = k :: f_pos f /\ node_at p = Some tr
    | None, Some x => exists f, find_file x s = Some f /\ p = f_pos f
    | None, None => False
    end.

  (** The path is that of the file that was visited last, up to some point. *)
  Definition path_ok (s : state) : Prop :=
    forall x, previous s = Some x -> exists f, find_file x s = Some f /\ exists l, path s = path_at (f_pos f) ++ l.

  Lemma resize_nth n l i : i < n -> i < length l -> nth_error (resize w n l) i = nth_error l i.
  Proof.
    intros I J. unfold resize. rewrite nth_error_app1 by (rewrite firstn_length; lia).
    rewrite <- (firstn_skipn n l) at 2. rewrite nth_error_app1 by (rewrite firstn_length; lia). reflexivity.
  Qed.
  Lemma resize_length n l : length (resize w n l) = n.
  Proof. unfold resize. rewrite app_length, firstn_length, repeat_length. lia. Qed.

  Lemma node_name p t : node_at p = Some t -> name_at p = t_name t.
  Proof. intros E. unfold BftwSpec.name_at. rewrite E. destruct t. reflexivity. Qed.

  (** [named] is used here. *)
  Lemma child_off_ex s g k tr : named w -> file_ok s g -> node_at (k :: f_pos g) = Some tr -> exists off, child_nameoff g = Some off.
  Proof.
    intros NM H N. unfold child_nameoff. destruct (rev (f_name g)) as [|c l] eqn:R; [|eauto].
    exfalso. apply (NM (f_pos g)).
    - rewrite (ok_node _ _ H). discriminate.
    - intros E. cbn [BftwSpec.node_at] in N. rewrite E in N. destruct k; discriminate.
    - rewrite (ok_name _ _ H). apply (f_equal (@rev byte)) in R. rewrite rev_involutive in R. exact R.
  Qed.

  Lemma build_path_ok t p s : named w -> all_ok s -> NoDup (map f_id (files s)) -> path_ok s -> target_at t p s ->
    build_path w t s = Some (set_previous (cur s) (set_path (path_at p) s)).
  Proof.
    intros NM AO ND PO TA. unfold build_path, target_at in *. destruct (cur s) as [x|] eqn:CU; cbn [get].
    - (* there is a current file *)
      assert (K : exists f off len, find_file x s = Some f /\ suffix (f_pos f) p /\ 
          (match t with Some (_, t) => ' off <- child_nameoff f ;; Some (off, length (t_name t)) | None => Some (f_nameoff f, length (f_name f)) end) = Some (off, len) /\
          off + len = length (path_at p) /\ off <= S (length (path_at (f_pos f))) /\
          match t with Some (k, t) => has (path_at p) off (t_name t) | None => p = f_pos f end).
      { destruct t as [(k & tr)|].
        - destruct TA as (f & F & -> & N). pose proof (find_ok _ _ _ AO F) as FO. destruct (child_off_ex s f k tr NM FO N) as (off & C).
          destruct (child_off s f k off FO C) as (A & EA & LA & B). rewrite (node_name _ _ N) in EA.
          exists f, off, (length (t_name tr)). split; [exact F|]. split; [apply suffix_cons, suffix_refl|]. rewrite C. split; [reflexivity|].
          rewrite EA. split; [rewrite app_length; lia|]. split; [exact B|]. exists (A ++ ["/"%byte]), []. rewrite app_nil_r. split; [reflexivity|]. split; [exact LA|]. right. exists A. reflexivity.
        - destruct TA as (f & F & ->). pose proof (find_ok _ _ _ AO F) as FO. exists f, (f_nameoff f), (length (f_name f)).
          pose proof (ok_off _ _ FO) as OFF. split; [exact F|]. split; [apply suffix_refl|]. split; [reflexivity|]. split; [exact OFF|]. split; [lia|reflexivity]. }
      destruct K as (f & off & len & F & SU & E & LE & B & TT). rewrite F. pose proof (find_ok _ _ _ AO F) as FO.
      replace (match t with Some (_, t0) => ' off0 <- child_nameoff f;; Some (off0, length (t_name t0)) | None => Some (f_nameoff f, length (f_name f)) end) with (Some (off, len)).
      set (p0 := resize w (off + len) (path s)).
      assert (L0 : length p0 = length (path_at p)) by (subst p0; rewrite resize_length; exact LE).
      assert (PV : exists prev a, get (previous s) s = Some prev /\ 
                     (match prev with None => Some None | Some g => same_depth (S (f_depth g)) (previous s) (f_depth f) s end) = Some a /\
                     (forall h, a = Some h -> In h (files s)) /\
                     (forall c i, suffix c (f_pos f) -> suffix c (opos a) -> i < length (path_at c) -> nth_error p0 i = nth_error (path_at p) i)).
      { destruct (previous s) as [y|] eqn:PR; cbn [get].
        - destruct (PO y PR) as (g & G & l & PE). rewrite G. destruct (same_depth_ok (S (f_depth g)) s y g (f_depth f) AO G) as (a & EA & SA & _); [lia|].
          exists (Some g), a. split; [reflexivity|]. split; [exact EA|]. split.
          + intros h ->. clear - EA. revert y EA. generalize (S (f_depth g)) as n. induction n as [|n IH]; intros y; cbn [same_depth]; destruct (find_file y s) as [f'|] eqn:F'; try discriminate;
              (destruct (f_depth f <? f_depth f'); [try discriminate|intros [= ->]; apply (find_in _ _ _ F')]).
            destruct (f_parent f'); [apply IH|destruct n; discriminate].
          + intros c i S1 S2 I. assert (SP : suffix c p) by exact (suffix_trans _ _ _ S1 SU). assert (SG : suffix c (f_pos g)) by exact (suffix_trans _ _ _ S2 SA).
            assert (LC : length (path_at c) <= length (path_at p)) by (apply prefix_length; exact SP).
            assert (LG : length (path_at c) <= length (path_at (f_pos g))) by (apply prefix_length; exact SG).
            subst p0. rewrite resize_nth by (rewrite ?PE, ?app_length; lia). rewrite PE, nth_error_app1 by lia.
            rewrite (prefix_nth c (f_pos g)) by assumption.
            symmetry. apply prefix_nth; [exact SP|exact I].
        - exists None, None. split; [reflexivity|]. split; [reflexivity|]. split; [discriminate|].
          intros c i _ (r & EC) I. cbn [opos] in EC. symmetry in EC. apply app_eq_nil in EC as (_ & ->). cbn in I. lia. }
      destruct PV as (prev & a & -> & EA & HA & CO).
      match goal with |- context [match ?e with Some _ => _ | None => None end] =>
        replace e with (Some a) by (rewrite <- EA; destruct prev; reflexivity) end.
      assert (PP : exists p1, (match t with Some (_, t) => prepend_path off (t_name t) p0 | None => Some p0 end) = Some p1 /\ length p1 = length (path_at p) /\
          (forall i, length (path_at (f_pos f)) <= i -> nth_error p1 i = nth_error (path_at p) i) /\
          (forall i, nth_error p0 i = nth_error (path_at p) i -> nth_error p1 i = nth_error (path_at p) i)).
      { destruct t as [(k & tr)|].
        - destruct (prepend_ok off (t_name tr) p0 (path_at p) L0 TT) as (p1 & E1 & L1 & W1 & W2). exists p1. split; [exact E1|]. split; [exact L1|]. split; [|exact W2].
          intros i I. destruct (Nat.lt_ge_cases i (length (path_at p))) as [J | J].
          + apply W1. destruct (child_nameoff f); [|discriminate]. injection E as _ EL. lia.
          + rewrite (proj2 (nth_error_None p1 i)) by lia. symmetry. apply nth_error_None. exact J.
        - exists p0. split; [reflexivity|]. split; [exact L0|]. split; [|auto]. subst p. intros i I.
          rewrite (proj2 (nth_error_None p0 i)) by lia. symmetry. apply nth_error_None. exact I. }
      destruct PP as (p1 & -> & L1 & AG & W2).
      rewrite (build_loop_ok (S (f_depth f)) s (Some f) a p1 p); auto.
      + intros g [= <-]. apply (find_in _ _ _ F).
      + cbn [opos]. rewrite (depth_pos _ _ FO). lia.
      + intros c i S1 S2 I. apply W2, (CO c); assumption.
    - (* a root *)
      destruct t as [(k & tr)|]; [|destruct TA]. destruct TA as (-> & N & PR). rewrite PR. cbn [get].
      assert (NE : path_at [k] = t_name tr) by (cbn [BftwSpec.path_at]; apply node_name, N).
      unfold prepend_path. destruct (write_ok 0 (t_name tr) (resize w (0 + length (t_name tr)) (path s)) (t_name tr)) as (p' & -> & L & W & _);
        [apply resize_length|reflexivity|apply le_n|]. cbn [build_loop]. rewrite NE. f_equal. f_equal. f_equal. apply nth_ext_error. intros i.
      destruct (Nat.lt_ge_cases i (length (t_name tr))) as [J | J]; [apply W; lia|].
      rewrite (proj2 (nth_error_None p' i)) by lia. symmetry. apply nth_error_None. exact J.
  Qed.
End Paths.
