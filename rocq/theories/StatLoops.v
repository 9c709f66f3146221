(** * Proofs about cycles *)
From Coq Require Import List ZArith NArith Bool Lia Init.Byte Arith.
From Verif Require Import ModeModel StatModel StatSpec WalkSpec.
From Verif Require Import PathModel BftwModel BftwSpec BftwProofs BftwPath BftwFacts.
Import ListNotations.
Local Open Scope nat_scope.

Lemma id_eqb_eq i j : id_eqb i j = true <-> i = j.
Proof.
  unfold id_eqb. rewrite andb_true_iff, !Z.eqb_eq. destruct i, j; cbn. split; [intros [-> ->]; reflexivity|].
  intros X. injection X as -> ->. auto.
Qed.
Lemma existsb_in i l : existsb (id_eqb i) l = true <-> In i l.
Proof.
  rewrite existsb_exists. split; [intros (j & H & E); apply id_eqb_eq in E; subst; exact H|]. intros H. exists i.
  split; [exact H|apply id_eqb_eq; reflexivity].
Qed.

Section Loops.
  Variable contents : id -> list (list byte * what).
  Variable rts : list (list byte * what).
  Variable trouble : id -> bool.
  Notation entry := (entry contents rts).
  Notation resolve := (resolve contents rts).
  Notation from := (from contents rts).
  Notation loopoff := (loopoff contents rts).
  Notation grow := (grow contents trouble).

  Lemma entry_cons k q : q <> [] -> entry (k :: q) = match entry q with Some (_, Dir i) => nth_error (contents i) k | _ => None end.
  Proof. destruct q; [contradiction|reflexivity]. Qed.
  Lemma resolve_cons k q : q <> [] -> resolve (k :: q) = match resolve q with
    | Some (_, Dir i, above) => if existsb (id_eqb i) above then None else option_map (fun e => (e, i :: above)) (nth_error (contents i) k)
    | _ => None end.
  Proof. destruct q; [contradiction|reflexivity]. Qed.

  Lemma resolve_entry p e above : resolve p = Some (e, above) -> entry p = Some e /\ above = map snd (from (tl p)).
  Proof.
    revert e above. induction p as [|k q IH]; intros e above; [discriminate|]. destruct q as [|k' q'].
    - cbn. destruct (nth_error rts k); [|discriminate]. intros X. injection X as <- <-. auto.
    - rewrite resolve_cons, entry_cons by discriminate. destruct (resolve (k' :: q')) as [[[nm [i|]] ab]|] eqn:R; try discriminate.
      destruct (existsb (id_eqb i) ab) eqn:X; [discriminate|]. destruct (IH _ _ eq_refl) as (E & A). rewrite E.
      destruct (nth_error (contents i) k) as [e'|]; [|discriminate]. cbn [option_map]. intros Y. injection Y as <- <-.
      split; [reflexivity|]. cbn [tl]. unfold StatSpec.from; fold from. rewrite E. cbn [map snd]. rewrite A. reflexivity.
  Qed.

  Lemma find_loop_none s l : find_loop s (kept l) = None <-> ~ In (st_dev s, st_ino s) (map snd l).
  Proof.
    induction l as [|[nm [d i]] l IH]; [cbn; tauto|]. cbn [kept find_loop a_dev a_ino map snd In].
    destruct ((d =? st_dev s)%Z && (i =? st_ino s)%Z) eqn:X.
    - apply andb_true_iff in X. rewrite !Z.eqb_eq in X. destruct X as [-> ->]. split; [discriminate|]. intros H. exfalso. auto.
    - rewrite IH. apply andb_false_iff in X. rewrite !Z.eqb_neq in X. split; intros H; [|tauto]. intros [Y|Y]; [|tauto].
      injection Y as -> ->. tauto.
  Qed.

  Lemma loopoff_none p nm i above : resolve p = Some (nm, Dir i, above) -> loopoff p = None <-> ~ In i above.
  Proof.
    intros R. destruct (resolve_entry _ _ _ R) as (E & ->). unfold StatSpec.loopoff. rewrite E, find_loop_none. cbn [st_dev st_ino].
    destruct i; reflexivity.
  Qed.

  Section Finite.
    Variable dirs : list id.
    Hypothesis Fin : finite contents rts dirs.
    Lemma resolve_dirs p nm x above : resolve p = Some (nm, x, above) -> NoDup above /\ incl above dirs /\ length p = S (length above) /\
      (forall i, x = Dir i -> In i dirs).
    Proof.
      revert nm x above. induction p as [|k q IH]; intros nm x above; [discriminate|]. destruct q as [|k' q'].
      - cbn. destruct (nth_error rts k) eqn:N; [|discriminate]. intros X. injection X as -> <-.
        split; [constructor|]. split; [intros ? []|]. split; [reflexivity|]. intros i ->. apply nth_error_In in N.
        eapply (proj1 Fin). exact N.
      - rewrite resolve_cons by discriminate. destruct (resolve (k' :: q')) as [[[nm' [i|]] ab]|] eqn:R; try discriminate.
        destruct (existsb (id_eqb i) ab) eqn:X; [discriminate|]. destruct (IH _ _ _ eq_refl) as (D & I & L & M).
        destruct (nth_error (contents i) k) as [e'|] eqn:N; [|discriminate]. cbn [option_map]. intros Y. injection Y as -> <-.
        specialize (M i eq_refl). split; [constructor; [|exact D]; intros Y; apply existsb_in in Y; congruence|].
        split; [intros j [<-|J]; auto|]. split; [cbn [length] in *; lia|]. intros j ->. apply nth_error_In in N.
        eapply (proj2 Fin); eassumption.
    Qed.
    Lemma resolve_short p : resolve p <> None -> length p <= S (length dirs).
    Proof.
      destruct (resolve p) as [[[nm x] above]|] eqn:R; [intros _|congruence]. destruct (resolve_dirs _ _ _ _ R) as (D & I & L & _).
      rewrite L. apply le_n_S. apply NoDup_incl_length; assumption.
    Qed.
  End Finite.

  Context {U : Type}.
  Variable w : env U.
  Variable n : nat.
  Hypothesis Fol : follows contents rts trouble n w.

  Definition below_ (p : pos) : list (list byte * what) :=
    match p with [] => rts | _ => match entry p with Some (_, Dir i) => contents i | _ => [] end end.
  Lemma entry_below k q : entry (k :: q) = nth_error (below_ q) k.
  Proof.
    destruct q as [|k' q']; [reflexivity|]. rewrite entry_cons by discriminate. unfold below_.
    destruct (entry (k' :: q')) as [[nm [i|]]|]; try reflexivity; destruct k; reflexivity.
  Qed.
  Lemma kids_grow p : length p <= n -> kids_at w p = map (grow (n - length p)) (below_ p).
  Proof.
    induction p as [|k q IH]; intros L.
    - cbn [kids_at length]. rewrite Nat.sub_0_r. exact (proj1 Fol).
    - cbn [length] in L. cbn [kids_at]. rewrite IH by lia. rewrite nth_error_map.
      unfold below_ at 2. rewrite entry_below. destruct (nth_error (below_ q) k) as [[nm x]|]; [|reflexivity].
      cbn [option_map length]. replace (n - length q) with (S (n - S (length q))) by lia. cbn [StatSpec.grow]. destruct x; reflexivity.
  Qed.
  Lemma node_grow p : p <> [] -> length p <= S n -> node_at w p = option_map (grow (S n - length p)) (entry p).
  Proof.
    destruct p as [|k q]; [congruence|]. intros _ L. cbn [length] in *. cbn [node_at]. rewrite kids_grow by lia.
    rewrite nth_error_map, entry_below. reflexivity.
  Qed.
  Lemma kids_deep p : kids_at w p <> [] -> length p <= n.
  Proof.
    intros K. destruct (le_lt_dec (length p) n) as [H|H]; [exact H|]. exfalso. apply K. clear K.
    induction p as [|k q IH]; [cbn in H; lia|]. cbn [length] in H. cbn [kids_at].
    destruct (Nat.eq_dec (length q) n) as [X|X].
    - rewrite kids_grow by lia. rewrite nth_error_map. destruct (nth_error (below_ q) k) as [[nm x]|]; [|reflexivity]. cbn [option_map].
      replace (n - length q) with 0 by lia. reflexivity.
    - rewrite IH by lia. destruct k; reflexivity.
  Qed.
  Lemma name_grow p : p <> [] -> length p <= S n -> name_at w p = match entry p with Some (nm, _) => nm | None => [] end.
  Proof.
    intros P L. unfold name_at. rewrite node_grow by assumption. destruct (entry p) as [[nm x]|]; [|reflexivity].
    cbn [option_map]. destruct (S n - length p); reflexivity.
  Qed.
  Lemma proper_named : proper contents rts -> named w.
  Proof.
    intros (P1 & P2) p N K. pose proof (kids_deep p K) as L. destruct p as [|k q]; [exfalso; apply N; reflexivity|].
    rewrite name_grow by (discriminate || lia). rewrite kids_grow in K by exact L. unfold below_ in K. rewrite entry_below in K |- *.
    destruct (nth_error (below_ q) k) as [[nm [i|]]|] eqn:E; try (exfalso; apply K; reflexivity). apply nth_error_In in E.
    unfold below_ in E. destruct q as [|k' q']; [eapply P1; exact E|].
    destruct (entry (k' :: q')) as [[nm' [j|]]|]; try contradiction. eapply P2; exact E.
  Qed.

  Section Walk.
    Variable dirs : list id.
    Hypothesis Fin : finite contents rts dirs.
    Hypothesis Prop_ : proper contents rts.
    Hypothesis Deep : length dirs <= n.
    Let Nm : named w := proper_named Prop_.

    Lemma entered_dir u ok s q l l' : bftw_walk w u = Some (ok, s) -> trace s = l' ++ l -> entered w q l ->
      exists nm i, entry q = Some (nm, Dir i) /\ loopoff q = None.
    Proof.
      intros W TS ([e a] & I & P & (V & T & _)). cbn [fst] in *. subst q.
      pose proof (wk_order _ _ _ _ (walk_facts w u ok s Nm W)) as O. rewrite TS in O.
      apply order_tail in O. apply in_split in I. destruct I as (l1 & l2 & ->). apply order_tail in O.
      inversion O as [|? ? ? _ _ _ _ _ [(t & Ty)|(Ty & _)] _ _]; subst; [|congruence].
      pose proof (proj2 Fol t (e_pos e)) as F. destruct (entry (e_pos e)) as [[nm [i|]]|]; try congruence.
      destruct (loopoff (e_pos e)); [congruence|]. eauto.
    Qed.
    Lemma resolve_step k q : q <> [] -> resolve q <> None -> (exists nm i, entry q = Some (nm, Dir i) /\ loopoff q = None) ->
      length q <= n -> node_at w (k :: q) <> None -> resolve (k :: q) <> None.
    Proof.
      intros Q R (nm & i & E & Lo) L N. destruct (resolve q) as [[e above]|] eqn:Rq; [|congruence].
      destruct (resolve_entry _ _ _ Rq) as (E' & _). assert (e = (nm, Dir i)) by congruence. subst e.
      apply (loopoff_none _ _ _ _ Rq) in Lo. rewrite resolve_cons, Rq by exact Q.
      destruct (existsb (id_eqb i) above) eqn:X; [apply existsb_in in X; contradiction|].
      rewrite node_grow in N by (cbn [length]; discriminate || lia). rewrite entry_cons, E in N by exact Q.
      destruct (nth_error (contents i) k); [discriminate|contradiction].
    Qed.
    Lemma visited_resolves u ok s : bftw_walk w u = Some (ok, s) -> forall e a, In (e, a) (trace s) -> resolve (e_pos e) <> None.
    Proof.
      intros W e a I. destruct (walk_paths w u ok s Nm W e a I) as (N & _).
      apply in_split in I. destruct I as (l1 & l2 & TS).
      assert (G : forall p r, e_pos e = r ++ p -> p <> [] -> resolve p <> None).
      { induction p as [|k q IH]; intros r P X; [congruence|].
        assert (Nq : node_at w (k :: q) <> None).
        { destruct r as [|k' r'].
          - rewrite P in N. exact N.
          - destruct (walk_parents w u ok s Nm W l1 e a l2 (k' :: r') (k :: q) TS P) as ([e' a'] & I' & P' & _); try discriminate.
            cbn [fst] in P'. rewrite <- P'. eapply (walk_paths w u ok s Nm W e' a'). rewrite TS. apply in_or_app. right. right. exact I'. }
        destruct (list_eq_dec Nat.eq_dec q []) as [->|Q].
        - unfold StatSpec.resolve. rewrite node_grow in Nq by (cbn; discriminate || lia). cbn [StatSpec.entry] in Nq.
          destruct (nth_error rts k); [discriminate|contradiction].
        - assert (Rq : resolve q <> None) by (apply (IH (r ++ [k])); [rewrite <- app_assoc; exact P|exact Q]).
          assert (En : exists nm i, entry q = Some (nm, Dir i) /\ loopoff q = None).
          { eapply (entered_dir u ok s q l2 (l1 ++ [(e, a)]) W); [rewrite <- app_assoc; exact TS|].
            eapply (walk_parents w u ok s Nm W l1 e a l2 (r ++ [k]) q TS); [rewrite <- app_assoc; exact P| |exact Q].
            destruct r; discriminate. }
          apply resolve_step; auto. 
          destruct En as (nm & i & E & Lo). destruct (resolve q) as [[e0 above]|] eqn:R0; [|congruence].
          destruct (resolve_entry _ _ _ R0) as (E' & _). assert (e0 = (nm, Dir i)) by congruence. subst e0.
          apply (loopoff_none _ _ _ _ R0) in Lo. destruct (resolve_dirs dirs Fin _ _ _ _ R0) as (D & In0 & L & M).
          rewrite L. assert (X2 : NoDup (i :: above)) by (constructor; assumption).
          assert (X3 : incl (i :: above) dirs) by (intros j [<-|J]; auto). pose proof (NoDup_incl_length X2 X3). cbn [length] in *. lia. }
      apply (G (e_pos e) []); [reflexivity|]. intros X. rewrite X in N. apply N. reflexivity.
    Qed.

    Lemma resolves_visited u s : bftw_walk w u = Some (true, s) -> fl_skip_mounts w = false -> fl_prune_mounts w = false ->
      (forall v e, fst (callback w v e) = BFTW_CONTINUE) ->
      forall p, resolve p <> None -> exists e rest, visits_of p (rev (trace s)) = (e, BFTW_CONTINUE) :: rest /\ e_visit e = BFTW_PRE.
    Proof.
      intros W Sk Pr Cb.
      pose proof (walk_right w u s Nm W) as Right. pose proof (walk_facts w u true s Nm W) as F. pose proof (wk_order _ _ _ _ F) as O.
      assert (All : forall x, In x (trace s) -> snd x = BFTW_CONTINUE).
      { destruct (walk_runs w u Nm) as (ok' & s' & W' & _ & Pl & _). rewrite W in W'. injection W' as <- <-. clear - Pl Cb.
        induction Pl as [|e l v Pl IH]; intros x; [intros []|]. intros [<-|I]; [apply Cb|auto]. }
      induction p as [|k q IH]; intros R; [cbn in R; congruence|].
      pose proof (resolve_short dirs Fin (k :: q) R) as L. cbn [length] in L.
      assert (E : entry (k :: q) <> None).
      { destruct (resolve (k :: q)) as [[e ab]|] eqn:X; [|congruence]. destruct (resolve_entry _ _ _ X) as (-> & _). discriminate. }
      assert (Nn : node_at w (k :: q) <> None).
      { rewrite node_grow by (cbn [length]; discriminate || lia). destruct (entry (k :: q)); [discriminate|contradiction]. }
      assert (Re : reached w (k :: q) (rev (trace s))).
      { split; [exact Nn|]. destruct (list_eq_dec Nat.eq_dec q []) as [->|Q]; [left; reflexivity|right].
        rewrite resolve_cons in R by exact Q. destruct (resolve q) as [[[nm [i|]] above]|] eqn:Rq; try congruence.
        destruct (existsb (id_eqb i) above) eqn:X; [congruence|].
        destruct (IH ltac:(discriminate)) as (e & rest & V & Pre).
        exists (e, BFTW_CONTINUE).
        assert (I : In (e, BFTW_CONTINUE) (visits_of q (rev (trace s)))) by (rewrite V; left; reflexivity).
        unfold visits_of in I. apply filter_In in I. destruct I as (I & P). cbn [fst] in *.
        unfold same_pos in P. destruct (list_eq_dec Nat.eq_dec (e_pos e) q) as [P'|]; [|discriminate].
        split; [exact I|]. split; [exact P'|]. split; [exact Pre|]. split; [|split; [reflexivity|rewrite Pr; reflexivity]].
        destruct (first_type w q _ _ _ _ O V) as (t & Ty). rewrite Ty.
        pose proof (proj2 Fol t q) as Fq. destruct (resolve_entry _ _ _ Rq) as (Eq & _). rewrite Eq in Fq. rewrite Fq.
        assert (Lo : loopoff q = None).
        { apply (loopoff_none _ _ _ _ Rq). intros Y. apply existsb_in in Y. congruence. }
        rewrite Lo. reflexivity. }
      assert (Sp : skipped w (k :: q) = false) by (unfold skipped; rewrite Sk; reflexivity).
      destruct (proj1 (Right (k :: q)) (conj Re Sp)) as (e & a & rest & V & Pre & _). exists e, rest. split; [|exact Pre].
      rewrite V. f_equal. f_equal. apply (All (e, a)). apply in_rev.
      assert (I : In (e, a) (visits_of (k :: q) (rev (trace s)))) by (rewrite V; left; reflexivity).
      unfold visits_of in I. apply filter_In in I. apply I.
    Qed.

    (** What the callback is told of a directory *)
    Lemma told u ok s : bftw_walk w u = Some (ok, s) -> forall e a nm i above, In (e, a) (trace s) ->
      resolve (e_pos e) = Some (nm, Dir i, above) ->
      (In i above -> e_type e = BFS_ERROR) /\ (e_type e = BFS_ERROR -> In i above \/ trouble i = true).
    Proof.
      intros W e a nm i above I R.
      pose proof (wk_order _ _ _ _ (walk_facts w u ok s Nm W)) as O.
      apply in_split in I. destruct I as (l1 & l2 & TS). rewrite TS in O. apply order_tail in O.
      destruct (resolve_entry _ _ _ R) as (E & _).
      assert (Lp : length (e_pos e) <= S n) by (pose proof (resolve_short dirs Fin (e_pos e)); rewrite R in *; specialize (H ltac:(discriminate)); lia).
      inversion O as [|? ? ? _ _ _ _ _ [(t & Ty)|(Ty & Br & _)] _ _]; subst.
      - pose proof (proj2 Fol t (e_pos e)) as F. rewrite E in F. rewrite Ty, F. split.
        + intros In0. destruct (loopoff (e_pos e)) eqn:Lo; [reflexivity|]. apply (loopoff_none _ _ _ _ R) in Lo. contradiction.
        + intros X. left. destruct (in_dec (fun x y => ltac:(destruct (id_eqb x y) eqn:Q; [left; apply id_eqb_eq; exact Q|right; intros Z; apply id_eqb_eq in Z; congruence])) i above) as [Y|Y]; [exact Y|].
          apply (loopoff_none _ _ _ _ R) in Y. rewrite Y in X. discriminate.
      - split; [intros _; exact Ty|]. intros _. right. unfold broken_at in Br.
        destruct (list_eq_dec Nat.eq_dec (e_pos e) []) as [X|X]; [rewrite X in Br; discriminate|].
        rewrite node_grow, E in Br by assumption. cbn [option_map] in Br. destruct (S n - length (e_pos e)); exact Br.
    Qed.

    (** The loop that is reported *)
    Lemma dir_name q nm i : entry q = Some (nm, Dir i) -> nm <> [].
    Proof.
      destruct q as [|k q]; [discriminate|]. rewrite entry_below. intros E. apply nth_error_In in E. destruct Prop_ as (P1 & P2).
      unfold below_ in E. destruct q as [|k' q']; [eapply P1; exact E|].
      destruct (entry (k' :: q')) as [[nm' [j|]]|]; try contradiction. eapply P2; exact E.
    Qed.
    Lemma entry_up k q : q <> [] -> entry (k :: q) <> None -> exists nm i, entry q = Some (nm, Dir i).
    Proof. intros Q E. rewrite entry_cons in E by exact Q. destruct (entry q) as [[nm [i|]]|]; try congruence. eauto. Qed.
    Lemma last_of (a b : list byte) : b <> [] -> rev (a ++ b) = rev b ++ rev a /\ exists c l, rev b = c :: l.
    Proof.
      intros B. split; [apply rev_app_distr|]. destruct (rev b) eqn:E; [|eauto]. exfalso. apply B. rewrite <- (rev_involutive b), E. reflexivity.
    Qed.
    Lemma kept_length q nm i : entry q = Some (nm, Dir i) -> length q <= S n ->
      exists a rest, kept (from q) = a :: rest /\ rest = kept (from (tl q)) /\ a_dev a = fst i /\ a_ino a = snd i /\
        a_nameoff a + a_namelen a = length (path_at w q).
    Proof.
      revert nm i. induction q as [|k q IH]; intros nm i E L; [discriminate|]. cbn [length] in L.
      assert (Fr : from (k :: q) = (nm, i) :: from q) by (unfold StatSpec.from; fold from; rewrite E; reflexivity).
      rewrite Fr. destruct i as [d i]. cbn [kept]. eexists; eexists. split; [reflexivity|]. split; [reflexivity|].
      split; [reflexivity|]. split; [reflexivity|]. cbn [a_nameoff a_namelen].
      destruct (list_eq_dec Nat.eq_dec q []) as [->|Q].
      - cbn [StatSpec.from path_at]. rewrite name_grow by (cbn; discriminate || lia). rewrite E. reflexivity.
      - destruct (entry_up k q Q ltac:(congruence)) as (nm' & i' & E'). destruct (IH nm' i' E' ltac:(lia)) as (a & rest & K & _ & _ & _ & S).
        assert (Fr' : exists t, from q = (nm', i') :: t).
        { destruct q; [congruence|]. unfold StatSpec.from; fold from. rewrite E'. eauto. }
        destruct Fr' as (t & Fr'). rewrite Fr' in K |- *. rewrite K. rewrite path_cons by exact Q. unfold join.
        destruct (path_suffix w q) as (x & P). rewrite name_grow, E' in P by (assumption || lia).
        pose proof (dir_name _ _ _ E') as Nn. destruct (last_of x nm' Nn) as (Rv & c & l & Rc). rewrite P, Rv, Rc. cbn [app].
        rewrite name_grow, E by (cbn; discriminate || lia). rewrite <- P. destruct (Byte.eqb c "/").
        + rewrite app_length. lia.
        + rewrite app_length. cbn [length]. lia.
    Qed.
    Lemma find_loop_path s q off : (forall r p, q = r ++ p -> p <> [] -> exists nm i, entry p = Some (nm, Dir i)) -> length q <= S n ->
      find_loop s (kept (from q)) = Some off ->
      exists r p nm, q = r ++ p /\ p <> [] /\ entry p = Some (nm, Dir (st_dev s, st_ino s)) /\ off = length (path_at w p).
    Proof.
      induction q as [|k q IH]; intros D L F; [discriminate|].
      destruct (D [] (k :: q) eq_refl ltac:(discriminate)) as (nm & i & E).
      destruct (kept_length _ _ _ E L) as (a & rest & K & -> & Da & Ia & Le). rewrite K in F. cbn [find_loop tl] in F.
      destruct ((a_dev a =? st_dev s)%Z && (a_ino a =? st_ino s)%Z) eqn:X.
      - injection F as <-. apply andb_true_iff in X. rewrite !Z.eqb_eq in X. destruct X as (X1 & X2).
        exists [], (k :: q), nm. split; [reflexivity|]. split; [discriminate|]. split; [|exact Le].
        rewrite E, <- X1, <- X2, Da, Ia. destruct i; reflexivity.
      - destruct (IH) as (r & p & nm' & P & Pn & Ep & O); [|cbn [length] in L; lia|exact F|].
        + intros r p ->. apply (D (k :: r)). reflexivity.
        + exists (k :: r), p, nm'. rewrite P. auto.
    Qed.
    Lemma entries_up r p : p <> [] -> r <> [] -> entry (r ++ p) <> None -> exists nm i, entry p = Some (nm, Dir i).
    Proof.
      intros P. induction r as [|k r IH]; intros R E; [congruence|]. destruct r as [|k' r'].
      - apply (entry_up k p P E).
      - apply IH; [discriminate|]. cbn [app] in E.
        assert (Q : k' :: r' ++ p <> []) by discriminate.
        destruct (entry_up k _ Q E) as (nm & i & X). cbn [app]. congruence.
    Qed.
    Lemma loop_path p nm i above : resolve p = Some (nm, Dir i, above) -> In i above ->
      exists off r q nm', loopoff p = Some off /\ p = r ++ q /\ r <> [] /\ q <> [] /\ entry q = Some (nm', Dir i) /\
        firstn off (path_at w p) = path_at w q.
    Proof.
      intros R In0. destruct (loopoff p) as [off|] eqn:Lo; [|exfalso; apply (loopoff_none _ _ _ _ R) in Lo; contradiction].
      pose proof (resolve_short dirs Fin p ltac:(congruence)) as Sh.
      destruct (resolve_entry _ _ _ R) as (E & _). destruct p as [|k p']; [discriminate|]. cbn [length] in Sh.
      unfold StatSpec.loopoff in Lo. rewrite E in Lo. cbn [tl] in Lo.
      assert (L' : length p' <= S n) by lia.
      destruct (fun H => find_loop_path _ p' off H L' Lo) as (r & q & nm' & P & Q & Eq & O).
      { intros r q -> Q. apply (entries_up (k :: r)); [exact Q|discriminate|]. cbn [app]. congruence. }
      cbn [st_dev st_ino] in Eq. exists off, (k :: r), q, nm'. split; [reflexivity|]. split; [rewrite P; reflexivity|].
      split; [discriminate|]. split; [exact Q|]. split; [rewrite Eq; destruct i; reflexivity|].
      rewrite P. change (k :: r ++ q) with ((k :: r) ++ q). destruct (path_prefix w (k :: r) q) as (x & ->). subst off.
      rewrite firstn_app, firstn_all, Nat.sub_diag. cbn. apply app_nil_r.
    Qed.
  End Walk.
End Loops.
