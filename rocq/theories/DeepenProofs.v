(** * All rounds of deepening *)
From Coq Require Import List Bool Arith Lia Sorted Init.Byte.
From Verif Require Import WalkSpec PathModel PathSpec SortModel BftwModel BftwIo BftwHeap BftwFiles BftwGc BftwHist BftwSpec BftwProofs BftwFacts DeepenModel DeepenLog DeepenRound DeepenSpec.
Import ListNotations.

Section Forest.
  Context {U : Type}.
  Variable w : env U.

  Lemma size_nth l k t : nth_error l k = Some t -> tree_size t <= forest_size l.
  Proof. unfold forest_size. revert k. induction l as [|x l IH]; intros [|k]; cbn [nth_error map list_sum]; [discriminate|discriminate|intros [= ->]|intros E; specialize (IH k E)]; cbn [fold_right list_sum] in *; unfold list_sum in *; cbn [fold_right]; lia. Qed.
  Lemma size_at p : length p + forest_size (kids_at w p) <= forest_size (roots w) \/ kids_at w p = [].
  Proof.
    induction p as [|k p IH]; [left; cbn [length kids_at]; lia|]. cbn [kids_at length]. destruct (nth_error (kids_at w p) k) as [[i kids]|] eqn:E; [|auto].
    pose proof (size_nth _ _ _ E) as Z. cbn [tree_size] in Z. fold (forest_size kids) in Z. destruct IH as [IH | IH]; [left; lia|]. rewrite IH in E. destruct k; discriminate.
  Qed.
  Lemma node_size p : node_at w p <> None -> length p <= forest_size (roots w).
  Proof.
    destruct p as [|k p]; [intros; cbn [length]; lia|]. cbn [node_at length]. intros N. destruct (nth_error (kids_at w p) k) as [[i kids]|] eqn:E; [|congruence].
    pose proof (size_nth _ _ _ E) as Z. cbn [tree_size] in Z. destruct (size_at p) as [Q | Q]; [lia|]. rewrite Q in E. destruct k; discriminate.
  Qed.
End Forest.

Section Deepen.
  Context {U : Type}.
  Variable w : env U.
  Notation ids := (ids U).
  Notation state := (state ids).
  Notation wd := (deepen w false).
  Notation we := (deepen w true).
  Implicit Types (tr L l : list (event * action)) (x y : event * action).
  Hypothesis NM : named wd.

  Lemma idle_user (d : ids) (s : state) : idle wd s -> idle wd (set_user d s).
  Proof.
    intros [A B C D E F G H]. constructor; auto. apply (heap_eq wd s); auto.
    - apply (io_eq wd s); auto. apply (h_io _ _ A).
    - intros x. reflexivity.
  Qed.
  Lemma idle_post (s : state) : idle wd s -> idle we s.
  Proof.
    intros [A B C D E F G H]. constructor; auto. destruct A as [A1 A2 A3 A4 A5 A6 A7 A8].
    assert (I : BftwIo.IO we None s).
    { destruct A1 as [K1 K2 K3 K4 K5 K6 K7]. constructor; try assumption. intros q. destruct (K1 q). constructor; assumption. }
    constructor; try assumption. intros f I'. rewrite E in I'. destruct I'.
  Qed.

  Lemma impl_post (s : state) : idle we s -> exists ok s' tr, impl we s = Some (ok, s') /\ heap we s' /\ counted we s' /\ direrror s' = false /\ plays we (user s) tr (user s') /\
    (if ok then idle we s' else failed s' = true /\ fl_recover w = false \/ exists x, In x tr /\ snd x = BFTW_STOP).
  Proof.
    intros I. destruct (impl_ok we (trace s) (user s) NM s I eq_refl eq_refl) as (ok & s' & tr & E & [H C D HI RES SO]). exists ok, s', tr.
    split; [exact E|]. split; [exact H|]. split; [exact C|]. split; [exact D|]. split; [apply (hi_plays _ _ _ _ _ HI)|]. destruct ok; [|exact RES]. destruct RES as (G & OV). apply (over_idle we G tr s'); assumption.
  Qed.

  Lemma impl_pre (s : state) : idle wd s -> exists ok s' tr, impl wd s = Some (ok, s') /\ heap wd s' /\ counted wd s' /\ direrror s' = false /\ plays wd (user s) tr (user s') /\
    in_order wd tr /\ Forall (fun x => event_ok wd (fst x)) tr /\
    (if ok then idle wd s' /\ (forall p, visited_right wd p (rev tr)) /\ (forall x, In x tr -> snd x <> BFTW_STOP)
     else failed s' = true /\ fl_recover w = false \/ exists x, In x tr /\ snd x = BFTW_STOP).
  Proof.
    intros I. destruct (impl_ok wd (trace s) (user s) NM s I eq_refl eq_refl) as (ok & s' & tr & E & [H C D HI RES SO]). exists ok, s', tr.
    split; [exact E|]. split; [exact H|]. split; [exact C|]. split; [exact D|]. split; [apply (hi_plays _ _ _ _ _ HI)|]. split; [apply (hi_order _ _ _ _ _ HI)|]. split; [apply (hi_ok _ _ _ _ _ HI)|].
    destruct ok; [|exact RES]. destruct RES as (G & OV). split; [apply (over_idle wd G tr s'); assumption|].
    split; [apply (over_right wd (trace s) (user s) G tr s'); assumption|]. apply (t_stop _ _ _ _ (ov_phase _ _ _ _ OV)).
  Qed.

  Lemma plays_app {V} (v : env V) u l1 u1 l2 u2 : plays v u l1 u1 -> plays v u1 l2 u2 -> plays v u (l2 ++ l1) u2.
  Proof. intros A B. induction B as [|e l x B IH]; [exact A|]. cbn [app]. constructor. exact IH. Qed.

  (** ** Last visits *)

  Record posted (d0 d1 : ids) tr L1 : Prop := {
    po_visit : d_visit d1 = BFTW_POST; po_force : d_force d1 = d_force d0; po_max : d_max d1 = d_max d0;
    po_log : d_log d1 = L1 ++ d_log d0; po_plays : plays w (d_user d0) L1 (d_user d1);
    po_last : Forall (fun x => e_visit (fst x) = BFTW_POST \/ e_type (fst x) = BFS_ERROR /\ d_force d0 = false) L1;
    po_stop : (exists x, In x tr /\ snd x = BFTW_STOP) -> exists x, In x L1 /\ snd x = BFTW_STOP }.

  Lemma plays_post b (d0 : ids) tr d1 : d_visit d0 = BFTW_POST -> plays (deepen w b) d0 tr d1 -> exists L1, posted d0 d1 tr L1.
  Proof.
    intros V P. induction P as [|e tr v P IH]; [exists []; constructor; [assumption|reflexivity|reflexivity|reflexivity|constructor|constructor|intros (x & [] & _)]|]. destruct IH as (L1 & [A1 A2 A3 A4 A5 A6 A7]).
    cbn [callback deepen]. unfold ids_callback. set (e' := if d_force v then _ else _).
    assert (K : e_visit e' = BFTW_POST \/ d_force d0 = false). { rewrite <- A2. unfold e'. destruct (d_force v); [left; exact A1|right; reflexivity]. }
    assert (SAME : forall a, a <> BFTW_STOP -> posted d0 v ((e, a) :: tr) L1).
    { intros a N. constructor; auto. intros (x & [<- | I] & X); [cbn [snd] in X; congruence|]. apply A7. exists x. auto. }
    assert (MORE : forall a u c (z : list (list byte)) t, callback w (d_user v) e' = (a, u) -> e_visit e' = BFTW_POST \/ e_type e' = BFS_ERROR -> (c = BFTW_STOP -> a = BFTW_STOP) ->
      posted d0 {| d_user := u; d_log := (e', a) :: d_log v; d_visit := d_visit v; d_force := d_force v; d_min := d_min v; d_max := d_max v; d_pruned := z; d_bottom := t |} ((e, c) :: tr) ((e', a) :: L1)).
    { intros a u c z t CB Q CA. constructor; cbn [d_visit d_force d_max d_log d_user]; auto.
      - rewrite A4. reflexivity.
      - eapply plays_more; eassumption.
      - constructor; [|exact A6]. cbn [fst]. destruct Q as [Q | Q]; [left; exact Q|]. destruct K as [K | K]; [left; exact K|right; auto].
      - intros (x & [<- | I] & X); [exists (e', a); split; [left; reflexivity|apply CA, X]|]. destruct A7 as (y & Y1 & Y2); [exists x; auto|]. exists y. split; [right; exact Y1|exact Y2]. }
    destruct (e_type e') eqn:TY.
    - destruct (d_min v <=? e_depth e' + 1); cbn [fst snd].
      + unfold delegate. destruct (callback w (d_user v) e') as (a & u) eqn:CB. cbn [fst snd]. exists ((e', a) :: L1). apply MORE; auto.
      + exists L1. apply SAME. discriminate.
    - destruct (e_depth e' <? d_min v); [cbn [fst snd]; exists L1; apply SAME; destruct (is_pruned v e'); discriminate|].
      destruct (same_visit (d_visit v) BFTW_POST && is_pruned v e'); [cbn [fst snd]; exists L1; apply SAME; discriminate|].
      rewrite A1. destruct (e_visit e') eqn:EV; cbn [same_visit].
      + cbn [is_dir andb]. destruct (d_max v <=? e_depth e' + 1); cbn [fst snd]; exists L1; [|apply SAME; discriminate].
        destruct (SAME BFTW_PRUNE) as [B1 B2 B3 B4 B5 B6 B7]; [discriminate|]. constructor; assumption.
      + unfold delegate. destruct (callback w (d_user v) e') as (a & u) eqn:CB. exists ((e', a) :: L1). cbn [is_dir andb d_max d_pruned d_bottom].
        destruct a; [destruct (d_max v <=? e_depth e' + 1)| |]; cbn [fst snd]; apply MORE; auto; discriminate.
    - destruct (e_depth e' <? d_min v); [cbn [fst snd]; exists L1; apply SAME; destruct (is_pruned v e'); discriminate|].
      destruct (same_visit (d_visit v) BFTW_POST && is_pruned v e'); [cbn [fst snd]; exists L1; apply SAME; discriminate|].
      rewrite A1. destruct (e_visit e') eqn:EV; cbn [same_visit].
      + cbn [is_dir andb fst snd]. exists L1. apply SAME. discriminate.
      + unfold delegate. destruct (callback w (d_user v) e') as (a & u) eqn:CB. exists ((e', a) :: L1). cbn [is_dir andb d_max d_pruned d_bottom].
        destruct a; cbn [fst snd]; apply MORE; auto; discriminate.
  Qed.

  (** ** Looking for new files *)
  Variable T : pos -> ftype.
  Hypothesis steady : forall n p, node_at wd p <> None -> look wd n p = T p /\ T p <> BFS_ERROR.
  Hypothesis distinct : forall p q, node_at wd p <> None -> node_at wd q <> None -> path_at wd p = path_at wd q -> p = q.
  Variable next : nat -> nat -> nat * nat.
  Variable u0 : U.

  (** Depths of the next round *)
  Variable slow : bool.
  Variable band : nat -> nat -> Prop.
  Variable level : nat -> nat.
  Definition goes_on : Prop := forall m M, m < M -> band m M -> fst (next m M) = M /\ M < snd (next m M) /\ band M (snd (next m M)).
  Definition leveled : Prop := (forall m M a b, band m M -> m <= a < M -> m <= b < M -> level a <= level b) /\ forall a b, a <= b -> level a <= level b.

  (** Files are found level by level. *)
  Definition by_level L : Prop := StronglySorted (fun p q => level (depth p) <= level (depth q)) (first_visits L).

  (** Rounds left *)
  Variable enough : nat -> nat -> Prop.
  Definition suffices : Prop := (forall M, ~ enough 0 M) /\ forall fuel m M p, m < M -> band m M -> enough (S fuel) M -> node_at wd p <> None -> M <= S (depth p) -> enough fuel (snd (next m M)).

  (** Before each round *)
  Record ready_ (s : state) : Prop := {
    rd_idle : idle wd s; rd_visit : d_visit (user s) = BFTW_PRE; rd_force : d_force (user s) = false; rd_depths : d_min (user s) < d_max (user s);
    rd_told : told w T (d_min (user s)) (d_log (user s)) (d_pruned (user s));
    rd_plays : plays w u0 (d_log (user s)) (d_user (user s));
    rd_right : d_bottom (user s) = true -> forall p, visited_right wd p (rev (d_log (user s)));
    rd_band : band (d_min (user s)) (d_max (user s)); rd_level : by_level (d_log (user s)) }.

  (** After the last one *)
  Record found (ok : bool) (s : state) : Prop := {
    fd_heap : heap wd s; fd_counted : counted wd s; fd_direrror : direrror s = false;
    fd_plays : plays w u0 (d_log (user s)) (d_user (user s));
    fd_ok : Forall (fun x => event_ok wd (fst x)) (d_log (user s));
    fd_order : in_order wd (d_log (user s));
    fd_result : if ok then idle wd s /\ (forall p, visited_right wd p (rev (d_log (user s)))) /\ (forall x, In x (d_log (user s)) -> snd x <> BFTW_STOP)
                else failed s = true /\ fl_recover w = false \/ exists x, In x (d_log (user s)) /\ snd x = BFTW_STOP;
    fd_level : by_level (d_log (user s)) }.

  Lemma sorted_app {A} (R : A -> A -> Prop) (l1 l2 : list A) : StronglySorted R l1 -> StronglySorted R l2 -> (forall a b, In a l1 -> In b l2 -> R a b) -> StronglySorted R (l1 ++ l2).
  Proof.
    induction l1 as [|a l1 IH]; intros S1 S2 H; [exact S2|]. cbn [app]. inversion S1 as [|? ? S1' F]; subst. constructor.
    - apply IH; auto. intros b c I. apply H. right. exact I.
    - apply Forall_app. split; [exact F|]. apply Forall_forall. intros b I. apply H; [left; reflexivity|exact I].
  Qed.
  Lemma sorted_all {A} (R : A -> A -> Prop) (l : list A) : (forall a b, In a l -> In b l -> R a b) -> StronglySorted R l.
  Proof. induction l as [|a l IH]; intros H; constructor; [apply IH; intros b c I I'; apply H; right; assumption|]. apply Forall_forall. intros b I. apply H; [left; reflexivity|right; exact I]. Qed.
  Lemma first_in p l : In p (first_visits l) -> visits_of p l <> [].
  Proof.
    induction l as [|(e & a) l IH]; [intros []|]. cbn [first_visits]. destruct (existsb _ l).
    - intros I Z. apply (IH I). unfold visits_of in *. cbn [filter] in Z. destruct (same_pos _ _); [discriminate|exact Z].
    - intros I Z. apply in_app_iff in I as [I | [<- | []]].
      + apply (IH I). unfold visits_of in *. cbn [filter] in Z. destruct (same_pos _ _); [discriminate|exact Z].
      + unfold visits_of in Z. cbn [filter fst] in Z. unfold same_pos in Z at 1. destruct (list_eq_dec Nat.eq_dec (e_pos e) (e_pos e)); [discriminate|congruence].
  Qed.

  Lemma rounds_ok fuel : goes_on -> leveled -> suffices -> forall s, ready_ s -> (d_bottom (user s) = false -> enough fuel (d_max (user s))) ->
    exists ok s', rounds w next fuel s = Some (ok, s') /\ found ok s' /\ (ok = true -> ready_ s').
  Proof.
    intros GO (LV1 & LV2) (EN0 & EN). induction fuel as [|fuel IH]; intros s R FU.
    - cbn [rounds]. destruct (d_bottom (user s)) eqn:B; [|destruct (EN0 _ (FU eq_refl))]. exists true, s. split; [reflexivity|]. split; [|auto]. destruct R as [A1 A2 A3 A4 A5 A6 A7 A8 A9]. constructor; auto.
      + apply (id_heap _ _ A1). + apply (id_counted _ _ A1). + apply (id_direrror _ _ A1). + apply (j_ok _ _ _ _ _ A5). + apply (j_order _ _ _ _ _ A5).
      + split; [exact A1|]. split; [apply A7, B|]. apply (j_stop _ _ _ _ _ A5).
    - cbn [rounds]. destruct (d_bottom (user s)) eqn:B.
      { exists true, s. split; [reflexivity|]. split; [|auto]. destruct R as [A1 A2 A3 A4 A5 A6 A7 A8 A9]. constructor; auto.
        + apply (id_heap _ _ A1). + apply (id_counted _ _ A1). + apply (id_direrror _ _ A1). + apply (j_ok _ _ _ _ _ A5). + apply (j_order _ _ _ _ _ A5).
        + split; [exact A1|]. split; [apply A7, B|]. apply (j_stop _ _ _ _ _ A5). }
      pose proof (FU eq_refl) as FS. clear FU. destruct R as [A1 A2 A3 A4 A5 A6 A7 A8 A9].
      set (d0 := set_bottom true (user s)). set (m := d_min (user s)) in *. set (M := d_max (user s)) in *. set (L := d_log (user s)) in *.
      destruct (impl_pre (set_user d0 s) (idle_user d0 s A1)) as (ok & s1 & tr & E & H1 & C1 & D1 & P1 & O1 & K1 & RES). rewrite E. change (user (set_user d0 s)) with d0 in P1.
      destruct (plays_log w d0 tr (user s1) A2 A3 (all_pre w tr O1) P1) as (L1 & LG).
      assert (RO : round w d0 tr L1 (user s1)) by (constructor; assumption).
      destruct (order_more w T steady distinct m M L (d_pruned (user s)) d0 A4 A5 eq_refl eq_refl eq_refl tr (user s1) A2 A3 P1 O1 K1 L1 LG) as (OR & N & FV & FN).
      pose proof (lg_log _ _ _ _ _ LG) as LL. change (d_log d0) with L in LL. pose proof (lg_min _ _ _ _ _ LG) as Lm. pose proof (lg_max _ _ _ _ _ LG) as LM. change (d_min d0) with m in Lm. change (d_max d0) with M in LM.
      assert (PL : plays w u0 (L1 ++ L) (d_user (user s1))) by (apply (plays_app _ _ _ _ _ _ A6 (lg_plays _ _ _ _ _ LG))).
      assert (BD : by_level (L1 ++ L)).
      { unfold by_level. rewrite FV. rewrite Forall_forall in FN. apply sorted_app; [exact A9| |].
        - apply sorted_all. intros a b IA IB. destruct (FN a IA), (FN b IB). apply (LV1 m M); [exact A8|lia|lia].
        - intros a b IA IB. destruct (FN b IB) as (Z & _). destruct (told_visited w T m L _ a A5 (first_in _ _ IA)) as (Z' & _). apply LV2. lia. }
      destruct ok.
      + destruct RES as (I1 & VR & NS).
        assert (TN : told w T M (L1 ++ L) (d_pruned (user s1))) by (apply (told_next w T steady distinct m M L (d_pruned (user s)) d0 A4 A5 eq_refl eq_refl eq_refl tr L1 (user s1) RO VR NS OR)).
        destruct (GO m M A4 A8) as (G1 & G2 & G3). rewrite Lm, LM. destruct (next m M) as (a & b) eqn:NX. cbn [fst snd] in G1, G2, G3. subst a.
        apply IH.
        * constructor; cbn [set_user user set_depths d_visit d_force d_min d_max d_log d_pruned d_user d_bottom].
          -- apply idle_user, I1.
          -- apply (lg_visit _ _ _ _ _ LG).
          -- apply (lg_force _ _ _ _ _ LG).
          -- exact G2.
          -- rewrite LL. exact TN.
          -- rewrite LL. exact PL.
          -- rewrite LL, (lg_bottom _ _ _ _ _ LG). intros Z. apply andb_true_iff in Z as (_ & Z). rewrite forallb_forall in Z.
             apply (told_all w T steady distinct m M L (d_pruned (user s)) d0 A4 A5 eq_refl eq_refl eq_refl tr L1 (user s1) RO VR NS OR). intros x I. specialize (Z x I). change (d_max d0) with M in Z. destruct (cut M x); [discriminate|reflexivity].
          -- exact G3.
          -- rewrite LL. exact BD.
        * cbn [set_user user set_depths d_bottom d_max]. rewrite (lg_bottom _ _ _ _ _ LG). intros Z. apply andb_false_iff in Z as [Z | Z]; [discriminate|].
          assert (X : exists x, In x L1 /\ cut M x = true).
          { change (d_max d0) with M in Z. clear -Z. induction L1 as [|x l IH]; [discriminate|]. cbn [forallb] in Z. destruct (cut M x) eqn:C; [exists x; split; [left; reflexivity|exact C]|]. destruct (IH Z) as (y & I & Y). exists y. split; [right; exact I|exact Y]. }
          destruct X as ((e & a) & I & CU). pose proof (log_ok w m M d0 eq_refl eq_refl tr L1 (user s1) RO) as LO. destruct (ok_depth w _ _ LO I) as (DE & _ & NO). cbn [fst] in *.
          unfold cut in CU. cbn [fst snd] in CU. destruct a; try discriminate. apply andb_true_iff in CU as (_ & CU). apply Nat.leb_le in CU.
          change b with (snd (M, b)). rewrite <- NX. apply (EN fuel m M (e_pos e) A4 A8 FS NO). lia.
      + exists false, s1. split; [reflexivity|]. split; [|discriminate]. constructor; auto; rewrite ?LL.
        * exact PL.
        * apply Forall_app. split; [apply (log_ok w m M d0 eq_refl eq_refl tr L1 (user s1) RO)|apply (j_ok _ _ _ _ _ A5)].
        * exact OR.
        * destruct RES as [RES | (x & I & SX)]; [left; exact RES|right]. destruct x as (e & a). cbn [snd] in SX. subst a.
          destruct (del m (e, BFTW_STOP)) eqn:DL.
          -- destruct (trace_in w m M d0 eq_refl eq_refl tr L1 (user s1) (e, BFTW_STOP) RO I DL) as ((ey & ay) & IY & NY). exists (ey, ay). split; [apply in_or_app; auto|]. unfold nest in NY. cbn [fst snd] in NY. destruct (cut M (ey, ay)); [discriminate|]. injection NY as _ Z. exact Z.
          -- destruct (lg_quiet _ _ _ _ _ LG e BFTW_STOP I) as [(Z & _) | (Z & _)]; [exact DL|discriminate|discriminate].
        * exact BD.
  Qed.

  Lemma ready_init : band 0 1 -> ready_ (ids_init u0).
  Proof.
    intros B. constructor; [apply idle_init|reflexivity|reflexivity| |apply (told_none w T steady distinct)|constructor|discriminate|exact B|constructor].
    cbn [ids_init state_init user d_min d_max]. lia.
  Qed.

  (** ** Whole searches *)

  (** [post] are the calls after the files were found. *)
  Record searched (ok : bool) (s : state) (pre post : list (event * action)) : Prop := {
    se_files : files s = [];
    se_log : d_log (user s) = post ++ pre;
    se_plays : plays w u0 (post ++ pre) (d_user (user s));
    se_ok : Forall (fun x => event_ok wd (fst x)) pre;
    se_order : in_order wd pre;
    se_depth : by_level pre;
    se_right : ok = true \/ post <> [] -> (forall p, visited_right wd p (rev pre)) /\ forall x, In x pre -> snd x <> BFTW_STOP;
    se_post : if fl_post_order w then Forall (fun x => e_visit (fst x) = BFTW_POST \/ e_type (fst x) = BFS_ERROR /\ slow = false) post else post = [];
    se_stop : ok = false -> failed s = true /\ fl_recover w = false \/ exists x, In x (post ++ pre) /\ snd x = BFTW_STOP }.

  (** Last visits *)
  Record last_ (ok : bool) (d0 : ids) (s : state) (post : list (event * action)) : Prop := {
    la_log : d_log (user s) = post ++ d_log d0; la_plays : plays w (d_user d0) post (d_user (user s));
    la_force : d_force (user s) = d_force d0;
    la_last : Forall (fun x => e_visit (fst x) = BFTW_POST \/ e_type (fst x) = BFS_ERROR /\ d_force d0 = false) post;
    la_stop : ok = false -> failed s = true /\ fl_recover w = false \/ exists x, In x post /\ snd x = BFTW_STOP }.

  Lemma ids_posts_ok n : forall s, idle wd s -> d_visit (user s) = BFTW_POST ->
    exists ok s' post, ids_posts w n s = Some (ok, s') /\ heap wd s' /\ counted wd s' /\ direrror s' = false /\ last_ ok (user s) s' post.
  Proof.
    induction n as [|n IH]; intros s I V; cbn [ids_posts].
    - exists true, s, []. split; [reflexivity|]. split; [apply (id_heap _ _ I)|]. split; [apply (id_counted _ _ I)|]. split; [apply (id_direrror _ _ I)|]. constructor; auto; [constructor|discriminate].
    - destruct (impl_pre _ (idle_user (set_depths n (d_max (user s) - 1) (user s)) s I)) as (ok & s1 & tr & E & H1 & C1 & D1 & P1 & _ & _ & RES). rewrite E.
      change (user (set_user (set_depths n (d_max (user s) - 1) (user s)) s)) with (set_depths n (d_max (user s) - 1) (user s)) in P1.
      destruct (plays_post false (set_depths n (d_max (user s) - 1) (user s)) tr (user s1) V P1) as (L1 & [A1 A2 A3 A4 A5 A6 A7]). cbn [set_depths d_log d_force d_user] in *.
      destruct ok.
      + destruct (IH s1 (proj1 RES) A1) as (ok & s' & post & E' & H' & C' & D' & [B1 B2 B3 B4 B5]). exists ok, s', (post ++ L1). split; [exact E'|]. split; [exact H'|]. split; [exact C'|]. split; [exact D'|]. constructor.
        * rewrite B1, A4, app_assoc. reflexivity.
        * apply (plays_app _ _ _ _ _ _ A5 B2).
        * congruence.
        * apply Forall_app. split; [|exact A6]. rewrite A2 in B4. exact B4.
        * intros Z. destruct (B5 Z) as [B | (x & X1 & X2)]; [left; exact B|right; exists x; split; [apply in_or_app; auto|exact X2]].
      + exists false, s1, L1. split; [reflexivity|]. split; [exact H1|]. split; [exact C1|]. split; [exact D1|]. constructor; auto. intros _. destruct RES as [RES | RES]; [left; exact RES|right; apply A7, RES].
  Qed.

  Lemma destroyed v (s : state) : heap v s -> counted v s -> direrror s = false -> exists s', state_destroy v s = Some s' /\ files s' = [] /\ user s' = user s /\ failed s' = failed s.
  Proof.
    intros H C D. destruct (destroy_ok v s H C D) as (s' & E & _ & _ & SI & F). exists s'. split; [exact E|]. split; [exact F|]. split; [apply (silent_user _ _ SI)|apply (silent_failed _ _ SI)].
  Qed.
End Deepen.

Section Whole.
  Context {U : Type}.
  Variable w : env U.
  Notation wd := (deepen w false).
  Notation we := (deepen w true).
  Hypothesis NM : named wd.
  Variable T : pos -> ftype.
  Hypothesis steady : forall n p, node_at wd p <> None -> look wd n p = T p /\ T p <> BFS_ERROR.
  Hypothesis distinct : forall p q, node_at wd p <> None -> node_at wd q <> None -> path_at wd p = path_at wd q -> p = q.
  Variable u0 : U.

  (** One level after the other *)
  Definition one (m M : nat) : Prop := M = S m.
  Lemma ids_goes : goes_on ids_next one.
  Proof. intros m M _ ->. cbn [ids_next fst snd]. unfold one. repeat split; lia. Qed.
  Lemma ids_leveled : leveled one (fun d => d).
  Proof. split; [intros m M a b ->|intros a b]; lia. Qed.
  (** Twice as many each time *)
  Definition twice (m M : nat) : Prop := m = 0 /\ M = 1 \/ exists k, m = 2 ^ k /\ M = 2 ^ S k.
  Lemma eds_goes : goes_on eds_next twice.
  Proof.
    intros m M L B. cbn [eds_next fst snd]. split; [reflexivity|]. split; [lia|]. right. destruct B as [(-> & ->) | (k & -> & ->)]; [exists 0; split; reflexivity|].
    exists (S k). split; [reflexivity|]. cbn [Nat.pow]. lia.
  Qed.
  Lemma eds_leveled : leveled twice doublings.
  Proof.
    split.
    - intros m M a b [(-> & ->) | (k & -> & ->)] A B; [replace a with b by lia; reflexivity|]. assert (2 ^ k <> 0) by (apply Nat.pow_nonzero; lia).
      destruct a as [|a]; [lia|]. destruct b as [|b]; [lia|]. unfold doublings. rewrite (Nat.log2_unique (S a) k), (Nat.log2_unique (S b) k); lia.
    - intros [|a] [|b] L; unfold doublings; try lia. pose proof (Nat.log2_le_mono _ _ L). lia.
  Qed.

  (** Rounds left *)
  Definition few fuel M : Prop := 1 <= fuel /\ forest_size (roots w) + 2 <= fuel + M.
  Lemma few_suffice next band : goes_on next band -> suffices w next band few.
  Proof.
    intros GO. split; [intros M (Z & _); lia|]. intros fuel m M p L B (_ & E) N D. destruct (GO m M L B) as (_ & G & _). pose proof (node_size wd _ N) as NS. change (roots wd) with (roots w) in NS.
    assert (1 <= length p) by (destruct p; [destruct (N eq_refl)|cbn [length]; lia]). unfold depth in D. unfold few. lia.
  Qed.
  Definition halves k fuel M : Prop := exists i, M = 2 ^ i /\ fuel + i = k + 2 /\ i <= k + 1.
  Lemma halves_suffice k : (forall p, node_at w p <> None -> depth p < 2 ^ k) -> suffices w eds_next twice (halves k).
  Proof.
    intros D. split; [intros M (i & _ & A & B); lia|]. intros fuel m M p L B (i & -> & E & I) N DP. exists (S i). cbn [eds_next snd]. split; [cbn [Nat.pow]; lia|]. split; [lia|].
    specialize (D p N). destruct (le_gt_dec i k); [lia|]. exfalso. assert (2 ^ (S k) <= 2 ^ i) by (apply Nat.pow_le_mono_r; lia). cbn [Nat.pow] in *. assert (2 ^ k <> 0) by (apply Nat.pow_nonzero; lia). lia.
  Qed.

  Lemma ids_ok : exists ok s pre post, bftw_ids w u0 = Some (ok, s) /\ searched w u0 true (fun d => d) ok s pre post.
  Proof.
    unfold bftw_ids. destruct (rounds_ok w NM T steady distinct ids_next u0 one (fun d => d) few (S (forest_size (roots w))) ids_goes ids_leveled (few_suffice _ _ ids_goes) (ids_init u0) (ready_init w T steady distinct u0 one (fun d => d) eq_refl)) as (ok & s & E & F & R).
    { intros _. cbn [ids_init state_init user d_max]. unfold few. lia. }
    rewrite E. destruct ok; cbn [andb]; [destruct (fl_post_order w) eqn:PO|].
    - specialize (R eq_refl). destruct (ids_posts_ok w NM (d_min (user s)) (set_user (set_post true (user s)) s)) as (ok & s1 & post & E1 & H1 & C1 & D1 & [B1 B2 B3 B4 B5]).
      { apply idle_user. apply (rd_idle _ _ _ _ _ _ R). }
      { reflexivity. }
      rewrite E1. cbn [set_user user set_post d_log d_force d_user] in *. destruct (destroyed wd s1 H1 C1 D1) as (s2 & E2 & F2 & U2 & FA2). rewrite E2. exists ok, s2, (d_log (user s)), post. split; [reflexivity|].
      destruct F as [G1 G2 G3 G4 G5 G6 (G7 & G7') G8]. constructor; rewrite ?U2, ?FA2; auto.
      + apply (plays_app _ _ _ _ _ _ G4 B2).
      + rewrite PO. eapply Forall_impl; [|exact B4]. intros x [X | (_ & X)]; [left; exact X|discriminate].
      + intros Z. destruct (B5 Z) as [B | (x & X1 & X2)]; [left; exact B|right; exists x; split; [apply in_or_app; auto|exact X2]].
    - destruct F as [G1 G2 G3 G4 G5 G6 (G7 & G7') G8]. destruct (destroyed wd s G1 G2 G3) as (s2 & E2 & F2 & U2 & FA2). rewrite E2. exists true, s2, (d_log (user s)), []. split; [reflexivity|].
      constructor; rewrite ?U2, ?FA2, ?PO; auto; try exact G4; discriminate.
    - destruct F as [G1 G2 G3 G4 G5 G6 G7 G8]. destruct (destroyed wd s G1 G2 G3) as (s2 & E2 & F2 & U2 & FA2). rewrite E2. exists false, s2, (d_log (user s)), []. split; [reflexivity|].
      constructor; rewrite ?U2, ?FA2; auto; try exact G4; try (intros [Z | Z]; congruence); try (destruct (fl_post_order w); [constructor|reflexivity]).
  Qed.

  Lemma eds_ok : exists ok s pre post, bftw_eds w u0 = Some (ok, s) /\ searched w u0 false doublings ok s pre post.
  Proof.
    unfold bftw_eds. destruct (rounds_ok w NM T steady distinct eds_next u0 twice doublings few (S (forest_size (roots w))) eds_goes eds_leveled (few_suffice _ _ eds_goes) (ids_init u0) (ready_init w T steady distinct u0 twice doublings (or_introl (conj eq_refl eq_refl)))) as (ok & s & E & F & R).
    { intros _. cbn [ids_init state_init user d_max]. unfold few. lia. }
    rewrite E. destruct ok; cbn [andb]; [destruct (fl_post_order w) eqn:PO|].
    - specialize (R eq_refl). set (d0 := set_depths 0 (d_max (user s)) (set_post false (user s))).
      destruct (impl_post w NM (set_user d0 s)) as (ok & s1 & tr & E1 & H1 & C1 & D1 & P1 & RES).
      { apply idle_post. apply idle_user. apply (rd_idle _ _ _ _ _ _ R). }
      rewrite E1. change (user (set_user d0 s)) with d0 in P1. destruct (plays_post w true d0 tr (user s1) eq_refl P1) as (post & [B1 B2 B3 B4 B5 B6 B7]). change (d_log d0) with (d_log (user s)) in B4. change (d_user d0) with (d_user (user s)) in B5.
      destruct (destroyed we s1 H1 C1 D1) as (s2 & E2 & F2 & U2 & FA2). rewrite E2. exists ok, s2, (d_log (user s)), post. split; [reflexivity|].
      destruct F as [G1 G2 G3 G4 G5 G6 (G7 & G7') G8]. constructor; rewrite ?U2, ?FA2; auto.
      + apply (plays_app _ _ _ _ _ _ G4 B5).
      + rewrite PO. eapply Forall_impl; [|exact B6]. intros x [X | (X & _)]; [left; exact X|right; auto].
      + intros ->. destruct RES as [B | X]; [left; exact B|right]. destruct (B7 X) as (x & X1 & X2). exists x. split; [apply in_or_app; auto|exact X2].
    - destruct F as [G1 G2 G3 G4 G5 G6 (G7 & G7') G8]. destruct (destroyed wd s G1 G2 G3) as (s2 & E2 & F2 & U2 & FA2). rewrite E2. exists true, s2, (d_log (user s)), []. split; [reflexivity|].
      constructor; rewrite ?U2, ?FA2, ?PO; auto; try exact G4; discriminate.
    - destruct F as [G1 G2 G3 G4 G5 G6 G7 G8]. destruct (destroyed wd s G1 G2 G3) as (s2 & E2 & F2 & U2 & FA2). rewrite E2. exists false, s2, (d_log (user s)), []. split; [reflexivity|].
      constructor; rewrite ?U2, ?FA2; auto; try exact G4; try (intros [Z | Z]; congruence); try (destruct (fl_post_order w); [constructor|reflexivity]).
  Qed.
  (** How many rounds are made *)
  Lemma eds_rounds k : (forall p, node_at w p <> None -> depth p < 2 ^ k) -> rounds w eds_next (k + 2) (ids_init u0) <> None.
  Proof.
    intros D. destruct (rounds_ok w NM T steady distinct eds_next u0 twice doublings (halves k) (k + 2) eds_goes eds_leveled (halves_suffice k D) (ids_init u0) (ready_init w T steady distinct u0 twice doublings (or_introl (conj eq_refl eq_refl)))) as (ok & s & E & _).
    - intros _. exists 0. cbn [ids_init state_init user d_max Nat.pow]. lia.
    - rewrite E. discriminate.
  Qed.
End Whole.
