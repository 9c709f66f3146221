(** * Consequences of the order of a walk *)
From Coq Require Import List Bool Arith Lia Sorted Init.Byte.
From Verif Require Import WalkSpec PathModel PathSpec SortModel SortSpec BftwModel BftwSpec BftwProofs.
Import ListNotations.

Section Facts.
  Context {U : Type}.
  Variable w : env U.
  Notation state := (state U).

  Lemma in_visits p l x : In x (visits_of p l) <-> In x l /\ e_pos (fst x) = p.
  Proof. unfold visits_of, same_pos. rewrite filter_In. destruct (list_eq_dec Nat.eq_dec (e_pos (fst x)) p); intuition congruence. Qed.
  Lemma visits_app p l l' : visits_of p (l ++ l') = visits_of p l ++ visits_of p l'.
  Proof. apply filter_app. Qed.
  Lemma visits_rev p l : visits_of p (rev l) = rev (visits_of p l).
  Proof. unfold visits_of. induction l as [|x l IH]; [reflexivity|]. cbn [rev filter]. rewrite filter_app, IH. cbn [filter]. destruct (same_pos _ _); [reflexivity|apply app_nil_r]. Qed.

  Lemma order_tail l l' : in_order w (l ++ l') -> in_order w l'.
  Proof. induction l as [|x l IH]; [auto|]. cbn [app]. intros O. inversion O; auto. Qed.

  Lemma entered_more p l l' : entered w p l' -> entered w p (l ++ l').
  Proof. intros (x & A & B). exists x. split; [apply in_or_app; auto|exact B]. Qed.

  Lemma parents_first r : forall q l e a l', in_order w (l' ++ (e, a) :: l) -> e_pos e = r ++ q -> r <> [] -> q <> [] -> entered w q l.
  Proof.
    induction r as [|k r IH]; [congruence|]. intros q l e a l' O P _ N. apply order_tail in O. inversion O as [|? ? ? O' EN _ _ _ _ _ _]; subst.
    assert (Z : entered w (r ++ q) l). { apply (EN k); [exact P|]. destruct r; [exact N|discriminate]. }
    destruct r as [|j r]; [exact Z|]. destruct Z as ((e' & a') & I & P' & _). apply in_split in I as (l2 & l1 & ->).
    change (l2 ++ (e', a') :: l1) with (l2 ++ ((e', a') :: l1)). assert (H : entered w q l1) by (apply (IH q l1 e' a' l2 O' P'); [discriminate|exact N]).
    apply entered_more. destruct H as (x & A & B). exists x. split; [right; exact A|exact B].
  Qed.

  Lemma post_last l e a l' : in_order w (l' ++ (e, a) :: l) -> e_visit e = BFTW_POST -> forall x r, In x l' -> e_pos (fst x) <> r ++ e_pos e.
  Proof.
    intros O V (e' & a') r I Z. apply in_split in I as (l2 & l1 & ->). rewrite <- app_assoc in O. apply order_tail in O. cbn [app] in O.
    inversion O as [|? ? ? _ _ PO _ _ _ _ _]; subst. apply (PO (e, a) r (e_pos e)); [apply in_or_app; right; left; reflexivity|exact V|exact Z|reflexivity].
  Qed.

  Lemma stop_last l e l' : in_order w (l' ++ (e, BFTW_STOP) :: l) -> l' = [].
  Proof.
    intros O. destruct l' as [|(e' & a') l']; [reflexivity|]. exfalso. inversion O as [|? ? ? _ _ _ NS _ _ _ _]; subst. apply (NS (e, BFTW_STOP)); [apply in_or_app; right; left; reflexivity|reflexivity].
  Qed.

  Lemma prune_below l e a x r : in_order w l -> In (e, a) l -> e_visit e = BFTW_PRE -> e_type e <> BFS_ERROR -> ~ enters w (e, a) -> e_pos e <> [] ->
    In x l -> r <> [] -> e_pos (fst x) <> r ++ e_pos e.
  Proof.
    intros O I V NT NE NN J NR Z. destruct x as (e2 & a2). cbn [fst] in Z. pose proof J as J'. apply in_split in J' as (l2 & l1 & EQ). subst l.
    pose proof (parents_first r (e_pos e) l1 e2 a2 l2 O Z NR NN) as ((e1 & a1) & I1 & P1 & EN). cbn [fst] in P1.
    assert (I1' : In (e1, a1) (l2 ++ (e2, a2) :: l1)) by (apply in_or_app; right; right; exact I1). clear J Z. revert I1' I O.
    generalize (l2 ++ (e2, a2) :: l1). clear I1 l1 l2. intros l. induction l as [|y l IH]; [intros []|]. intros A B O. pose proof (order_tail [y] l O) as O'.
    inversion O as [|e3 a3 ? _ _ _ _ FR _ _ _]; subst. destruct B as [B | B], A as [A | A].
    - apply NE. congruence.
    - injection B as -> ->. destruct (FR V) as [FR' | (Z & _)]; [|congruence]. assert (K : In (e1, a1) (visits_of (e_pos e) l)) by (apply in_visits; auto). rewrite FR' in K. destruct K.
    - injection A as -> ->. destruct EN as (V1 & T1 & _). assert (K : In (e, a) (visits_of (e_pos e1) l)) by (apply in_visits; split; [exact B|symmetry; exact P1]).
      destruct (FR V1) as [FR' | (Z & _)]; [rewrite FR' in K; destruct K|congruence].
    - auto.
  Qed.

  (** ** Complete walks *)

  Lemma walk_facts u ok s : named w -> bftw_walk w u = Some (ok, s) -> walked w u ok s.
  Proof. intros NM E. destruct (walk_ok w u NM) as (ok' & s' & E' & K). rewrite E in E'. injection E' as -> ->. exact K. Qed.

  Lemma walk_runs u : named w -> exists ok s, bftw_walk w u = Some (ok, s) /\ files s = [] /\ plays w u (trace s) (user s) /\
    (ok = true <-> failed s = false /\ forall x, In x (trace s) -> snd x <> BFTW_STOP) /\
    (fl_recover w = true -> ok = false -> exists x, In x (trace s) /\ snd x = BFTW_STOP).
  Proof.
    intros NM. destruct (walk_ok w u NM) as (ok & s & E & [F P _ _ R _]). exists ok, s. split; [exact E|]. split; [exact F|]. split; [exact P|]. destruct ok.
    - destruct R as (A & _). split; [tauto|discriminate].
    - split.
      + split; [discriminate|]. intros (A & B). exfalso. destruct R as [(Z & _) | (x & X1 & X2)]; [congruence|apply (B x X1 X2)].
      + intros RE _. destruct R as [(_ & Z) | R]; [congruence|exact R].
  Qed.

  Lemma walk_right u s : named w -> bftw_walk w u = Some (true, s) -> forall p, visited_right w p (rev (trace s)).
  Proof. intros NM E. apply (proj2 (wk_result _ _ _ _ (walk_facts u true s NM E))). Qed.

  Lemma entered_rev p l : entered w p (rev l) <-> entered w p l.
  Proof. unfold entered. split; intros (x & A & B); exists x; [apply in_rev in A|rewrite <- in_rev]; auto. Qed.

  Lemma enters_dec x : {enters w x} + {~ enters w x}.
  Proof.
    destruct x as (e & a). unfold enters. destruct (e_visit e); [|right; intros (Z & _); discriminate]. destruct (e_type e); [right; intros (_ & Z & _); discriminate| |right; intros (_ & Z & _); discriminate].
    destruct a; [|right; intros (_ & _ & Z & _); discriminate|right; intros (_ & _ & Z & _); discriminate].
    destruct (fl_prune_mounts w && mount_point w (e_pos e)); [right; intros (_ & _ & _ & Z); discriminate|left; auto].
  Qed.

  Lemma reached_dec p l : {reached w p l} + {~ reached w p l}.
  Proof.
    destruct p as [|k q]; [right; intros []|]. cbn [reached]. destruct (node_at w (k :: q)); [|right; intros (Z & _); apply Z; reflexivity].
    destruct q as [|j q]; [left; split; [discriminate|auto]|].
    destruct (Exists_dec (fun x => e_pos (fst x) = j :: q /\ enters w x) l) as [E | E].
    { intros x. destruct (list_eq_dec Nat.eq_dec (e_pos (fst x)) (j :: q)); [|right; tauto]. destruct (enters_dec x); [left; auto|right; tauto]. }
    - left. split; [discriminate|]. right. apply Exists_exists in E as (x & A & B). exists x. auto.
    - right. intros (_ & [Z | (x & A & B)]); [discriminate|]. apply E, Exists_exists. exists x. auto.
  Qed.

  Lemma walk_post u s : named w -> bftw_walk w u = Some (true, s) -> forall p,
    (entered w p (trace s) -> length (filter is_post (visits_of p (trace s))) = if fl_post_order w then 1 else 0) /\
    (~ entered w p (trace s) -> filter is_post (visits_of p (trace s)) = []).
  Proof.
    intros NM E p. destruct (walk_right u s NM E p) as (A & B). rewrite visits_rev in *. rewrite <- entered_rev. set (l := trace s) in *.
    assert (R : filter is_post (rev (visits_of p l)) = rev (filter is_post (visits_of p l))).
    { clear. induction (visits_of p l) as [|x v IH]; [reflexivity|]. cbn [rev filter]. rewrite filter_app, IH. cbn [filter]. destruct (is_post x); [reflexivity|apply app_nil_r]. }
    assert (D : {reached w p (rev l) /\ skipped w p = false} + {~ (reached w p (rev l) /\ skipped w p = false)}).
    { destruct (reached_dec p (rev l)); [|right; tauto]. destruct (skipped w p); [right|left; auto]. intros (_ & Z). discriminate. }
    assert (LE : forall v : list (event * action), length (rev v) = length v) by apply rev_length.
    destruct D as [D | D].
    - destruct (A D) as (e & a & rest & EQ & V & EN & NE). rewrite EQ in R. cbn [filter] in R. replace (is_post (e, a)) with false in R by (unfold is_post; cbn [fst]; rewrite V; reflexivity).
      split; intros H.
      + assert (X : enters w (e, a)).
        { destruct (enters_dec (e, a)) as [X | X]; [exact X|]. rewrite (NE X) in EQ. destruct H as (x & I & P & EX). assert (J : In x (visits_of p (rev l))) by (apply in_visits; auto).
          rewrite visits_rev, EQ in J. destruct J as [<- | []]. destruct (X EX). }
        rewrite <- LE, <- R. destruct (EN X) as (er & po & -> & ER & PO). rewrite filter_app, app_length.
        replace (filter is_post er) with (@nil (event * action)).
        2:{ destruct (broken_at w p); [|subst er; reflexivity]. destruct ER as (e2 & a2 & -> & V2 & _). cbn [filter]. unfold is_post. cbn [fst]. rewrite V2. reflexivity. }
        destruct (fl_post_order w); [|subst po; reflexivity]. destruct PO as (e2 & a2 & -> & V2). cbn [filter]. unfold is_post. cbn [fst]. rewrite V2. reflexivity.
      + destruct (enters_dec (e, a)) as [X | X].
        { exfalso. apply H. exists (e, a). assert (J : In (e, a) (visits_of p (rev l))) by (rewrite visits_rev, EQ; left; reflexivity). apply in_visits in J. tauto. }
        rewrite (NE X) in R. cbn [filter] in R. symmetry in R. apply (f_equal (@rev _)) in R. rewrite rev_involutive in R. exact R.
    - specialize (B D). apply (f_equal (@rev _)) in B. rewrite rev_involutive in B. rewrite B. split; [|reflexivity]. intros (x & I & P & _). exfalso.
      assert (J : In x (visits_of p (rev l))) by (apply in_visits; auto). rewrite visits_rev, B in J. destruct J.
  Qed.

  (** If all directories are entered then all files are visited. *)
  Lemma walk_everything u s : named w -> bftw_walk w u = Some (true, s) -> fl_skip_mounts w = false ->
    (forall p, visits_of p (trace s) <> [] -> kids_at w p <> [] -> entered w p (trace s)) ->
    forall p, node_at w p <> None -> visits_of p (trace s) <> [].
  Proof.
    intros NM E SK EN p. induction p as [|k q IH]; [intros Z; destruct (Z eq_refl)|]. intros N.
    destruct (walk_right u s NM E (k :: q)) as (A & _). destruct A as (e & a & rest & EQ & _).
    - split; [|unfold skipped; rewrite SK; reflexivity]. cbn [reached]. split; [exact N|]. destruct q as [|j q]; [auto|]. right. apply entered_rev.
      cbn [node_at] in N. assert (K : kids_at w (j :: q) <> []) by (intros Z; rewrite Z in N; destruct k; apply N; reflexivity).
      apply EN; [|exact K]. apply IH. cbn [kids_at node_at] in *. destruct (nth_error (kids_at w q) j); [discriminate|]. congruence.
    - rewrite visits_rev in EQ. intros Z. rewrite Z in EQ. discriminate.
  Qed.

  Lemma first_type p : forall l e a rest, in_order w l -> visits_of p (rev l) = (e, a) :: rest -> exists n, e_type e = look w n p.
  Proof.
    induction l as [|(e0 & a0) l IH]; intros e a rest O E; [discriminate|]. inversion O as [|? ? ? O' _ _ _ _ TY _ _]; subst. cbn [rev] in E. rewrite visits_app in E.
    destruct (visits_of p (rev l)) as [|x v] eqn:V.
    - cbn [app] in E. assert (I : In (e, a) (visits_of p [(e0, a0)])) by (rewrite E; left; reflexivity). apply in_visits in I as ([[= -> ->] | []] & P). cbn [fst] in P. rewrite P in TY.
      destruct TY as [TY | (_ & _ & _ & Z)]; [exact TY|]. exfalso. apply Z. rewrite visits_rev in V. apply (f_equal (@rev _)) in V. rewrite rev_involutive in V. exact V.
    - cbn [app] in E. injection E as -> E. apply (IH e a v); auto.
  Qed.

  Lemma plays_in u l v x : plays w u l v -> In x l -> exists v', snd x = fst (callback w v' (fst x)).
  Proof. intros P. induction P as [|e l v P IH]; intros I; [destruct I|]. destruct I as [<- | I]; [exists v; reflexivity|auto]. Qed.

  (** If all directories are directories, and the callback never prunes anything *)
  Lemma walk_all u s : named w -> bftw_walk w u = Some (true, s) -> fl_skip_mounts w = false -> fl_prune_mounts w = false ->
    (forall n p, node_at w p <> None -> kids_at w p <> [] -> look w n p = BFS_DIR) -> (forall v e, fst (callback w v e) = BFTW_CONTINUE) ->
    forall p, node_at w p <> None -> exists e rest, visits_of p (rev (trace s)) = (e, BFTW_CONTINUE) :: rest /\ e_visit e = BFTW_PRE.
  Proof.
    intros NM E SK PM DI CO. pose proof (walk_facts u true s NM E) as K. pose proof (wk_order _ _ _ _ K) as O.
    assert (A : forall x, In x (trace s) -> snd x = BFTW_CONTINUE). { intros x I. destruct (plays_in _ _ _ x (wk_plays _ _ _ _ K) I) as (v & ->). apply CO. }
    assert (ND : forall p, visits_of p (trace s) <> [] -> node_at w p <> None).
    { intros p N. destruct (visits_of p (trace s)) as [|x l] eqn:V; [congruence|]. assert (I : In x (visits_of p (trace s))) by (rewrite V; left; reflexivity). apply in_visits in I as (I & <-).
      pose proof (wk_ok _ _ _ _ K) as Z. rewrite Forall_forall in Z. apply (Z x I). }
    assert (F : forall p, visits_of p (trace s) <> [] -> exists e a rest, visits_of p (rev (trace s)) = (e, a) :: rest /\ e_visit e = BFTW_PRE).
    { intros p N. destruct (walk_right u s NM E p) as (R1 & R2). destruct (reached_dec p (rev (trace s))) as [R | R].
      - destruct R1 as (e & a & rest & Z & V & _); [split; [exact R|unfold skipped; rewrite SK; reflexivity]|]. exists e, a, rest. auto.
      - exfalso. apply N. assert (Z : visits_of p (rev (trace s)) = []) by (apply R2; tauto). rewrite visits_rev in Z. apply (f_equal (@rev _)) in Z. rewrite rev_involutive in Z. exact Z. }
    assert (EN : forall p, visits_of p (trace s) <> [] -> kids_at w p <> [] -> entered w p (trace s)).
    { intros p N KI. destruct (F p N) as (e & a & rest & Z & V). destruct (first_type p _ _ _ _ O Z) as (n & T). rewrite (DI n p (ND p N) KI) in T.
      assert (I : In (e, a) (visits_of p (rev (trace s)))) by (rewrite Z; left; reflexivity). apply in_visits in I as (I & P). apply in_rev in I.
      exists (e, a). split; [exact I|]. split; [exact P|]. split; [exact V|]. split; [exact T|]. split; [apply (A _ I)|]. rewrite PM. reflexivity. }
    intros p N. destruct (F p) as (e & a & rest & Z & V); [apply (walk_everything u s); assumption|]. exists e, rest. split; [|exact V]. rewrite Z. f_equal. f_equal.
    assert (I : In (e, a) (visits_of p (rev (trace s)))) by (rewrite Z; left; reflexivity). apply in_visits in I as (I & P). apply in_rev in I. apply (A _ I).
  Qed.

  (** ** Names *)
  Fixpoint all_named (t : tree info) : bool :=
    let 'Node i kids := t in match kids, name i with _ :: _, [] => false | _, _ => true end && forallb all_named kids.

  Lemma named_all : forallb all_named (roots w) = true -> named w.
  Proof.
    intros R. assert (K : forall p, forallb all_named (kids_at w p) = true).
    { induction p as [|k p IH]; [exact R|]. cbn [kids_at]. destruct (nth_error (kids_at w p) k) as [[i kids]|] eqn:E; [|reflexivity].
      apply nth_error_In in E. rewrite forallb_forall in IH. apply IH in E. cbn [all_named] in E. apply andb_true_iff in E. apply E. }
    intros [|k p] N NE; [destruct (N eq_refl)|]. unfold name_at. cbn [node_at kids_at] in *. destruct (nth_error (kids_at w p) k) as [[i kids]|] eqn:E; [|congruence].
    apply nth_error_In in E. pose proof (K p) as Z. rewrite forallb_forall in Z. apply Z in E. cbn [all_named] in E. destruct kids; [congruence|]. destruct (name i); [discriminate|discriminate].
  Qed.
End Facts.

Lemma walk_parents {U} (w : env U) u ok s : named w -> bftw_walk w u = Some (ok, s) ->
  forall later e a earlier r q, trace s = later ++ (e, a) :: earlier -> e_pos e = r ++ q -> r <> [] -> q <> [] -> entered w q earlier.
Proof.
  intros NM E later e a earlier r q T. apply (parents_first w r q earlier e a later). rewrite <- T. apply (wk_order w u ok s (walk_facts w u ok s NM E)).
Qed.

Lemma walk_post_last {U} (w : env U) u ok s : named w -> bftw_walk w u = Some (ok, s) ->
  forall later e a earlier, trace s = later ++ (e, a) :: earlier -> e_visit e = BFTW_POST ->
  forall x r, In x later -> e_pos (fst x) <> r ++ e_pos e.
Proof.
  intros NM E later e a earlier T. apply (post_last w earlier e a later). rewrite <- T. apply (wk_order w u ok s (walk_facts w u ok s NM E)).
Qed.

Lemma walk_last {U} (w : env U) u ok s : named w -> bftw_walk w u = Some (ok, s) ->
  forall later e a earlier, trace s = later ++ (e, a) :: earlier -> e_visit e = BFTW_POST -> fl_post_order w = true /\ entered w (e_pos e) earlier.
Proof.
  intros NM E later e a earlier T. pose proof (wk_order w u ok s (walk_facts w u ok s NM E)) as O. rewrite T in O. apply order_tail in O.
  inversion O as [|? ? ? _ _ _ _ _ _ PO _]; subst. exact PO.
Qed.

Lemma walk_sorted {U} (w : env U) u ok s : named w -> bftw_walk w u = Some (ok, s) ->
  fl_sort w = true -> total_preorder (collate w) ->
  StronglySorted (if not_bfs w then dfs_before w else bfs_before w) (first_visits (trace s)).
Proof.
  intros NM E. apply (wk_sorted w u ok s (walk_facts w u ok s NM E)).
Qed.

Lemma walk_prune {U} (w : env U) u ok s : named w -> bftw_walk w u = Some (ok, s) ->
  forall e a, In (e, a) (trace s) -> e_visit e = BFTW_PRE -> e_type e <> BFS_ERROR -> ~ enters w (e, a) ->
  forall x r, In x (trace s) -> r <> [] -> e_pos (fst x) <> r ++ e_pos e.
Proof.
  intros NM E e a I V T N x r J NR. apply (prune_below w (trace s) e a x r (wk_order w u ok s (walk_facts w u ok s NM E)) I V T N); auto.
  pose proof (wk_ok w u ok s (walk_facts w u ok s NM E)) as O. rewrite Forall_forall in O. destruct (O (e, a) I) as (Z & _). intros Y. cbn [fst] in Z. rewrite Y in Z. apply Z. reflexivity.
Qed.

Lemma walk_stop {U} (w : env U) u ok s : named w -> bftw_walk w u = Some (ok, s) ->
  forall later e earlier, trace s = later ++ (e, BFTW_STOP) :: earlier -> later = [].
Proof.
  intros NM E later e earlier T. apply (stop_last w earlier e later). rewrite <- T. apply (wk_order w u ok s (walk_facts w u ok s NM E)).
Qed.

Lemma walk_paths {U} (w : env U) u ok s : named w -> bftw_walk w u = Some (ok, s) ->
  forall e a, In (e, a) (trace s) -> event_ok w e.
Proof.
  intros NM E e a I. pose proof (wk_ok w u ok s (walk_facts w u ok s NM E)) as O. rewrite Forall_forall in O. apply (O (e, a) I).
Qed.

(** bfs -S dfs -j1 *)
Lemma unsorted_depth_first : exists (w : env unit) s,
  strat w = BFTW_DFS /\ nthreads w = 0 /\ fl_sort w = false /\ named w /\
  bftw_walk w tt = Some (true, s) /\ ~ depth_first (first_visits (trace s)).
Proof.
  set (dir := fun c kids => Node {| name := [c]; broken := false |} kids).
  set (w := {| strat := BFTW_DFS; fl_sort := false; fl_buffer := false; fl_stat := false; fl_post_order := false; fl_recover := true;
               fl_skip_mounts := false; fl_prune_mounts := false; nthreads := 0;
               roots := [dir "a"%byte [dir "c"%byte []]; dir "b"%byte [dir "d"%byte []]];
               callback := fun (_ : unit) _ => (BFTW_CONTINUE, tt); collate := fun _ _ => true; must_stat := fun _ => false; whiteout := fun _ => false;
               mounted := fun _ => false; look := fun _ _ => BFS_DIR; choose := fun _ => 0; junk := "?"%byte |}).
  destruct (bftw_walk w tt) as [(ok & s)|] eqn:E; [|vm_compute in E; discriminate].
  exists w, s. split; [reflexivity|]. split; [reflexivity|]. split; [reflexivity|]. split; [apply named_all; vm_compute; reflexivity|].
  vm_compute in E. injection E as <- <-. split; [vm_compute; reflexivity|]. cbn.
  intros D. specialize (D [0] [] [0] [[1]] [0; 0] [[0; 1]] eq_refl). destruct (fun A B => Forall_inv (D A B)) as (r & Z).
  - exists []. reflexivity.
  - exists [0]. reflexivity.
  - apply (f_equal (fun l => last l 0)) in Z. destruct r as [|a r]; [discriminate|]. cbn [app] in Z. change (a :: r ++ [0]) with ((a :: r) ++ [0]) in Z. rewrite last_last in Z. discriminate.
Qed.

(** -xdev -depth.  The callback is that of eval.c (1457-1551), as far as it matters: it evaluates directories on their last visit. *)
Lemma mount_points : exists (w : env (list (list byte))) s p,
  callback w = (fun u e => (BFTW_CONTINUE, if is_dir (e_type e) && negb (is_post (e, BFTW_CONTINUE)) then u else e_path e :: u)) /\
  fl_post_order w = true /\ fl_skip_mounts w = false /\ named w /\
  bftw_walk w [] = Some (true, s) /\ visits_of p (trace s) <> [] /\ ~ In (path_at w p) (user s).
Proof.
  set (dir := fun c kids => Node {| name := [c]; broken := false |} kids).
  set (w := {| strat := BFTW_BFS; fl_sort := false; fl_buffer := false; fl_stat := false; fl_post_order := true; fl_recover := true;
               fl_skip_mounts := false; fl_prune_mounts := true; nthreads := 0;
               roots := [dir "a"%byte [dir "m"%byte [dir "x"%byte []]]];
               callback := fun u e => (BFTW_CONTINUE, if is_dir (e_type e) && negb (is_post (e, BFTW_CONTINUE)) then u else e_path e :: u);
               collate := fun _ _ => true; must_stat := fun _ => false; whiteout := fun _ => false;
               mounted := fun p => match p with [_; _] => true | _ => false end; look := fun _ _ => BFS_DIR; choose := fun _ => 0; junk := "?"%byte |}).
  destruct (bftw_walk w []) as [(ok & s)|] eqn:E; [|vm_compute in E; discriminate].
  exists w, s, [0; 0]. split; [reflexivity|]. split; [reflexivity|]. split; [reflexivity|]. split; [apply named_all; vm_compute; reflexivity|].
  vm_compute in E. injection E as <- <-. split; [vm_compute; reflexivity|]. split; vm_compute; [discriminate|]. intros [Z | []]. discriminate.
Qed.
