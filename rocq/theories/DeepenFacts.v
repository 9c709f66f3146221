(** * Searches by deepening, compared to other walks *)
From Coq Require Import List Bool Arith Lia Sorted Init.Byte.
From Verif Require Import WalkSpec PathModel PathSpec SortModel BftwModel BftwWalk BftwSpec BftwProofs BftwFacts DeepenModel DeepenLog DeepenRound DeepenProofs DeepenSpec DeepenPost.
Import ListNotations.

Section Facts.
  Context {U : Type}.
  Variable w : env U.
  Notation wd := (deepen w false).

  Lemma order_preorder l : in_order wd l -> in_order (preorder w) l.
  Proof. intros O. induction O; constructor; assumption. Qed.

  Lemma ids_searched T u : named w -> steady w T -> distinct w ->
    exists ok s pre post, bftw_ids w u = Some (ok, s) /\ files s = [] /\ d_log (user s) = post ++ pre /\ plays w u (post ++ pre) (d_user (user s)) /\
      in_order (preorder w) pre /\ Forall (fun x => event_ok w (fst x)) pre /\ by_depth pre /\
      (ok = true \/ post <> [] -> (forall p, visited_right (preorder w) p (rev pre)) /\ forall x, In x pre -> snd x <> BFTW_STOP) /\
      (if fl_post_order w then Forall (fun x => e_visit (fst x) = BFTW_POST) post else post = []) /\
      (ok = false -> failed s = true /\ fl_recover w = false \/ exists x, In x (post ++ pre) /\ snd x = BFTW_STOP) /\
      lasts w T pre post /\ deepest_first (places post) /\ (fl_post_order w = true -> ok = true -> forall p, In p (places post) <-> kept p pre) /\
      (ok = true -> forall x, In x (post ++ pre) -> snd x <> BFTW_STOP).
  Proof.
    intros NM ST DI. destruct (ids_all w T ST DI NM u) as (ok & s & pre & post & E & [A1 A2 A3 A4 A5 A6 A7 A8 A9] & LS & OR & AL). exists ok, s, pre, post.
    split; [exact E|]. split; [exact A1|]. split; [exact A2|]. split; [exact A3|]. split; [apply order_preorder, A5|]. split; [exact A4|]. split; [exact A6|]. split; [exact A7|]. split; [|split; [exact A9|split; [exact LS|split; [exact OR|exact AL]]]].
    destruct (fl_post_order w); [|exact A8]. eapply Forall_impl; [|exact A8]. intros x [X | (_ & X)]; [exact X|discriminate].
  Qed.

  Lemma eds_searched T u : named w -> steady w T -> distinct w ->
    exists ok s pre post, bftw_eds w u = Some (ok, s) /\ files s = [] /\ d_log (user s) = post ++ pre /\ plays w u (post ++ pre) (d_user (user s)) /\
      in_order (preorder w) pre /\ Forall (fun x => event_ok w (fst x)) pre /\ by_doublings pre /\
      (ok = true \/ post <> [] -> (forall p, visited_right (preorder w) p (rev pre)) /\ forall x, In x pre -> snd x <> BFTW_STOP) /\
      (if fl_post_order w then Forall (fun x => e_visit (fst x) = BFTW_POST \/ e_type (fst x) = BFS_ERROR) post else post = []) /\
      (ok = false -> failed s = true /\ fl_recover w = false \/ exists x, In x (post ++ pre) /\ snd x = BFTW_STOP) /\
      lasts w T pre post /\ contents_first (places post) /\ (fl_post_order w = true -> ok = true -> forall p, In p (places post) <-> entered w p pre) /\
      (ok = true -> forall x, In x (post ++ pre) -> snd x <> BFTW_STOP).
  Proof.
    intros NM ST DI. destruct (eds_all w T ST DI NM u) as (ok & s & pre & post & E & [A1 A2 A3 A4 A5 A6 A7 A8 A9] & LS & OR & AL). exists ok, s, pre, post.
    split; [exact E|]. split; [exact A1|]. split; [exact A2|]. split; [exact A3|]. split; [apply order_preorder, A5|]. split; [exact A4|]. split; [exact A6|]. split; [exact A7|]. split; [|split; [exact A9|split; [exact LS|split; [exact OR|exact AL]]]].
    destruct (fl_post_order w); [|exact A8]. eapply Forall_impl; [|exact A8]. intros x [X | (X & _)]; auto.
  Qed.

  Lemma eds_few T u k : named w -> steady w T -> distinct w -> (forall p, node_at w p <> None -> length p - 1 < 2 ^ k) -> rounds w eds_next (k + 2) (ids_init u) <> None.
  Proof. intros NM ST DI. exact (eds_rounds w NM T ST DI u k). Qed.

  (** ** The same files as in any other walk *)

  (** A complete search in which decisions are made by [act] *)
  Record complete (T : pos -> ftype) (act : list byte -> ftype -> action) (l : list (event * action)) : Prop := {
    co_first : forall p, reached w p l /\ skipped w p = false -> exists e a rest, visits_of p (rev l) = (e, a) :: rest /\ e_visit e = BFTW_PRE /\ e_type e = T p /\ e_path e = path_at w p /\ a = act (path_at w p) (T p);
    co_none : forall p, ~ (reached w p l /\ skipped w p = false) -> visits_of p l = [];
    co_types : forall x, In x l -> enters w x -> visits_of (e_pos (fst x)) l <> [] /\ e_type (fst x) = T (e_pos (fst x)) /\ e_path (fst x) = path_at w (e_pos (fst x)) /\ snd x = act (path_at w (e_pos (fst x))) (T (e_pos (fst x))) }.

  Lemma complete_entered T act l l' : complete T act l -> complete T act l' -> forall q, entered w q l -> entered w q l'.
  Proof.
    intros [A1 A2 A3] [B1 B2 B3] q. induction q as [|k q IH]; intros (x & I & P & EN); destruct (A3 x I EN) as (V & TY & PA & AC); rewrite P in *.
    - exfalso. apply V. apply A2. intros (Z & _). destruct Z.
    - assert (R : reached w (k :: q) l /\ skipped w (k :: q) = false).
      { destruct (reached_dec w (k :: q) l) as [R | R]; [|destruct V; apply A2; tauto]. destruct (skipped w (k :: q)) eqn:S; [destruct V; apply A2; intros (_ & Z); congruence|auto]. }
      destruct R as ((NO & R) & SK). assert (R' : reached w (k :: q) l' /\ skipped w (k :: q) = false). { split; [|exact SK]. split; [exact NO|]. destruct R as [R | R]; auto. }
      destruct (B1 _ R') as (e & a & rest & V' & EV & ET & EP & EA). assert (I' : In (e, a) (visits_of (k :: q) (rev l'))) by (rewrite V'; left; reflexivity).
      apply in_visits in I' as (I' & P'). apply in_rev in I'. exists (e, a). split; [exact I'|]. split; [exact P'|]. destruct x as (e0 & a0). destruct EN as (_ & T0 & AC0 & MP). cbn [fst snd] in *.
      split; [exact EV|]. split; [congruence|]. split; [congruence|]. rewrite P', <- P. exact MP.
  Qed.
  Lemma complete_same T act l l' : complete T act l -> complete T act l' -> forall p, visits_of p l <> [] -> visits_of p l' <> [].
  Proof.
    intros C C' p V. assert (R : reached w p l /\ skipped w p = false).
    { destruct (reached_dec w p l) as [R | R]; [|destruct V; apply (co_none _ _ _ C); tauto]. destruct (skipped w p) eqn:S; [destruct V; apply (co_none _ _ _ C); intros (_ & Z); congruence|auto]. }
    assert (R' : reached w p l' /\ skipped w p = false).
    { destruct R as (R & SK). split; [|exact SK]. destruct p as [|k q]; [destruct R|]. destruct R as (NO & [R | R]); split; auto. right. apply (complete_entered T act l l'); assumption. }
    destruct (co_first _ _ _ C' p R') as (e & a & rest & V' & _). rewrite visits_rev in V'. intros Z. rewrite Z in V'. discriminate.
  Qed.

  (** [w'] visits the same files, and makes the same decisions. *)
  Lemma right_complete (w' : env U) T act l u v : roots w' = roots w -> mounted w' = mounted w -> fl_skip_mounts w' = fl_skip_mounts w -> fl_prune_mounts w' = fl_prune_mounts w -> look w' = look w ->
    steady w T -> decides w act -> plays w u l v ->
    in_order w' l -> Forall (fun x => event_ok w (fst x)) l -> (forall p, visited_right w' p (rev l)) -> complete T act l.
  Proof.
    intros E1 E2 E3 E4 E5 ST DE PL O OK VR.
    assert (KI : forall p, kids_at w' p = kids_at w p). { induction p as [|k p IH]; cbn [kids_at]; [exact E1|]. rewrite IH. reflexivity. }
    assert (NA : forall p, node_at w' p = node_at w p). { intros [|k p]; [reflexivity|]. cbn [node_at]. rewrite KI. reflexivity. }
    assert (SK : forall p, skipped w' p = skipped w p). { intros p. unfold skipped, mount_point. rewrite E2, E3. reflexivity. }
    assert (EN : forall x, enters w' x <-> enters w x). { intros (e & a). unfold enters, mount_point. rewrite E2, E4. reflexivity. }
    assert (ET : forall q m, entered w' q m <-> entered w q m). { intros q m. unfold entered. split; intros (x & A & B & C); exists x; rewrite EN in *; auto. }
    assert (RE : forall p m, reached w' p m <-> reached w p m). { intros [|k q] m; [reflexivity|]. unfold reached. rewrite NA, ET. reflexivity. }
    assert (RV : forall p m, reached w p (rev m) <-> reached w p m). { intros [|k q] m; [reflexivity|]. unfold reached. rewrite entered_rev. reflexivity. }
    assert (AC : forall x, In x l -> snd x = act (path_at w (e_pos (fst x))) (e_type (fst x)) /\ e_path (fst x) = path_at w (e_pos (fst x))).
    { intros x I. rewrite Forall_forall in OK. destruct (OK x I) as (_ & _ & P & _). split; [|exact P]. destruct (plays_in w _ _ _ x PL I) as (v' & ->). rewrite DE, P. reflexivity. }
    constructor.
    - intros p (R & S). destruct (VR p) as (A & _). destruct A as (e & a & rest & V & EV & _); [rewrite RE, RV, SK; auto|].
      assert (I : In (e, a) (visits_of p (rev l))) by (rewrite V; left; reflexivity). apply in_visits in I as (I & P). apply in_rev in I. destruct (AC _ I) as (AC1 & AC2). cbn [fst snd] in *. rewrite P in *.
      assert (TY : e_type e = T p). { destruct (first_type w' p l e a rest O V) as (n & ->). rewrite E5. apply ST. destruct p as [|k q]; [destruct R|apply R]. }
      exists e, a, rest. rewrite TY in AC1. auto.
    - intros p N. destruct (VR p) as (_ & B). assert (Z : visits_of p (rev l) = []) by (apply B; rewrite RE, RV, SK; exact N). rewrite visits_rev in Z. apply (f_equal (@rev _)) in Z. rewrite rev_involutive in Z. exact Z.
    - intros x I X. destruct (AC x I) as (AC1 & AC2). split; [intros Z; assert (J : In x (visits_of (e_pos (fst x)) l)) by (apply in_visits; auto); rewrite Z in J; destruct J|].
      assert (TY : e_type (fst x) = T (e_pos (fst x))).
      { clear -O OK I X ST E5. induction O as [|e a l O IH _ _ _ _ TY _ _]; [destruct I|]. rewrite Forall_cons_iff in OK. destruct OK as (K1 & K2). destruct I as [<- | I]; [|auto].
        cbn [fst] in *. destruct TY as [(n & ->) | (Z & _)]; [rewrite E5; apply ST; apply K1|]. destruct X as (_ & X & _). congruence. }
      split; [exact TY|]. split; [exact AC2|]. rewrite <- TY. exact AC1.
  Qed.

  Lemma same_files T act u s : named w -> steady w T -> distinct w -> decides w act -> fl_post_order w = false -> bftw_walk w u = Some (true, s) ->
    (forall s', bftw_ids w u = Some (true, s') -> forall p, visits_of p (trace s) = [] <-> visits_of p (d_log (user s')) = []) /\
    (forall s', bftw_eds w u = Some (true, s') -> forall p, visits_of p (trace s) = [] <-> visits_of p (d_log (user s')) = []).
  Proof.
    intros NM ST DI DE PO E. destruct (walk_facts w u true s NM E) as [_ K2 K3 K4 (_ & K5) _].
    assert (C : complete T act (trace s)) by (apply (right_complete w T act (trace s) u (user s)); auto).
    assert (G : forall pre v, plays w u pre v -> in_order (preorder w) pre -> Forall (fun x => event_ok w (fst x)) pre -> (forall p, visited_right (preorder w) p (rev pre)) ->
      forall p, visits_of p (trace s) = [] <-> visits_of p pre = []).
    { intros pre v P O K V p. assert (C' : complete T act pre) by (apply (right_complete (preorder w) T act pre u v); auto). split; intros Z.
      - destruct (visits_of p pre) as [|x vs] eqn:Q; [reflexivity|]. exfalso. apply (complete_same T act pre (trace s) C' C p); [rewrite Q; discriminate|exact Z].
      - destruct (visits_of p (trace s)) as [|x vs] eqn:Q; [reflexivity|]. exfalso. apply (complete_same T act (trace s) pre C C' p); [rewrite Q; discriminate|exact Z]. }
    split; intros s' E'.
    - destruct (ids_searched T u NM ST DI) as (ok & s1 & pre & post & E1 & _ & L & P & O & K & _ & V0 & PP & _). assert (V := fun o => proj1 (V0 o)). rewrite E' in E1. injection E1 as <- <-. rewrite PO in PP. subst post. rewrite L in *. apply (G pre (d_user (user s'))); auto.
    - destruct (eds_searched T u NM ST DI) as (ok & s1 & pre & post & E1 & _ & L & P & O & K & _ & V0 & PP & _). assert (V := fun o => proj1 (V0 o)). rewrite E' in E1. injection E1 as <- <-. rewrite PO in PP. subst post. rewrite L in *. apply (G pre (d_user (user s'))); auto.
  Qed.

  (** ** Checking the hypotheses *)
  Lemma distinct_all : NoDup (map (path_at w) (all_pos w)) -> distinct w.
  Proof.
    intros ND p q N N' E. apply all_pos_in in N, N'. revert ND N N'. induction (all_pos w) as [|x l IH]; [intros _ []|]. cbn [map]. intros ND I I'. apply NoDup_cons_iff in ND as (NI & ND).
    destruct I as [-> | I], I' as [-> | I']; auto.
    - destruct NI. rewrite E. apply in_map, I'.
    - destruct NI. rewrite <- E. apply in_map, I.
  Qed.
End Facts.

(** bfs -S ids . ./b -depth 1 -name b -prune, where ./b/c/d exists: ./b is a root, too, but it is taken for the directory that was pruned. *)
Lemma overlapping_roots : exists (w : env unit) T act s s' p,
  named w /\ steady w T /\ bftw_walk w tt = Some (true, s) /\ bftw_ids w tt = Some (true, s') /\
  (forall u e, fst (callback w u e) = act (e_depth e) (e_path e)) /\
  visits_of p (trace s) <> [] /\ visits_of p (d_log (user s')) = [].
Proof.
  set (dir := fun l kids => Node {| name := l; broken := false |} kids).
  set (b := dir ["b"%byte] [dir ["c"%byte] [dir ["d"%byte] []]]).
  set (act := fun (d : nat) (p : list byte) => if (d =? 1) && Byte.eqb (last p "?"%byte) "b"%byte then BFTW_PRUNE else BFTW_CONTINUE).
  set (w := {| strat := BFTW_BFS; fl_sort := false; fl_buffer := false; fl_stat := false; fl_post_order := false; fl_recover := true;
               fl_skip_mounts := false; fl_prune_mounts := false; nthreads := 0;
               roots := [dir ["."%byte] [b]; dir ["."%byte; "/"%byte; "b"%byte] [dir ["c"%byte] [dir ["d"%byte] []]]];
               callback := fun (_ : unit) e => (act (e_depth e) (e_path e), tt); collate := fun _ _ => true; must_stat := fun _ => false; whiteout := fun _ => false;
               mounted := fun _ => false; look := fun _ _ => BFS_DIR; choose := fun _ => 0; junk := "?"%byte |}).
  destruct (bftw_walk w tt) as [(ok & s)|] eqn:E; [|vm_compute in E; discriminate].
  destruct (bftw_ids w tt) as [(ok' & s')|] eqn:E'; [|vm_compute in E'; discriminate].
  exists w, (fun _ => BFS_DIR), act, s, s', [0; 0; 1]. split; [apply named_all; vm_compute; reflexivity|]. split; [intros n p _; split; [reflexivity|discriminate]|].
  vm_compute in E. injection E as <- <-. split; [vm_compute; reflexivity|]. vm_compute in E'. injection E' as <- <-. split; [vm_compute; reflexivity|]. split; [reflexivity|]. split; vm_compute; [discriminate|reflexivity].
Qed.

(** A file that can not be examined is reported twice. *)
Lemma errors_twice : exists (w : env unit) T s p e a e' a',
  named w /\ distinct w /\ (forall n q, look w n q = T q) /\ bftw_ids w tt = Some (true, s) /\
  T p = BFS_ERROR /\ kids_at w p = [] /\ visits_of p (d_log (user s)) = [(e, a); (e', a')].
Proof.
  set (dir := fun c kids => Node {| name := [c]; broken := false |} kids).
  set (w := {| strat := BFTW_BFS; fl_sort := false; fl_buffer := false; fl_stat := false; fl_post_order := false; fl_recover := true;
               fl_skip_mounts := false; fl_prune_mounts := false; nthreads := 0;
               roots := [dir "a"%byte [dir "b"%byte []; dir "c"%byte [dir "d"%byte []]]];
               callback := fun (_ : unit) _ => (BFTW_CONTINUE, tt); collate := fun _ _ => true; must_stat := fun _ => false; whiteout := fun _ => false;
               mounted := fun _ => false; look := fun _ p => match p with [0; 0] => BFS_ERROR | _ => BFS_DIR end; choose := fun _ => 0; junk := "?"%byte |}).
  destruct (bftw_ids w tt) as [(ok & s)|] eqn:E; [|vm_compute in E; discriminate].
  exists w, (fun p => match p with [0; 0] => BFS_ERROR | _ => BFS_DIR end), s, [0; 0]. do 4 eexists. split; [apply named_all; vm_compute; reflexivity|].
  split; [apply distinct_all; vm_compute; repeat constructor; cbn; intuition discriminate|]. split; [reflexivity|].
  vm_compute in E. injection E as <- <-. split; [vm_compute; reflexivity|]. split; [reflexivity|]. split; [reflexivity|]. vm_compute. reflexivity.
Qed.

(** So is a directory that can not be read, with -depth. *)
Lemma errors_again : exists (w : env unit) T s p,
  named w /\ steady w T /\ distinct w /\ fl_post_order w = true /\ bftw_eds w tt = Some (true, s) /\
  length (filter (fun x => match e_type (fst x) with BFS_ERROR => true | _ => false end) (visits_of p (d_log (user s)))) = 2.
Proof.
  set (w := {| strat := BFTW_BFS; fl_sort := false; fl_buffer := false; fl_stat := false; fl_post_order := true; fl_recover := true;
               fl_skip_mounts := false; fl_prune_mounts := false; nthreads := 0;
               roots := [Node {| name := ["a"%byte]; broken := true |} []];
               callback := fun (_ : unit) _ => (BFTW_CONTINUE, tt); collate := fun _ _ => true; must_stat := fun _ => false; whiteout := fun _ => false;
               mounted := fun _ => false; look := fun _ p => BFS_DIR; choose := fun _ => 0; junk := "?"%byte |}).
  destruct (bftw_eds w tt) as [(ok & s)|] eqn:E; [|vm_compute in E; discriminate].
  exists w, (fun p => BFS_DIR), s, [0]. split; [apply named_all; vm_compute; reflexivity|]. split; [intros n p _; split; [reflexivity|discriminate]|].
  split; [apply distinct_all; vm_compute; repeat constructor; cbn; intuition discriminate|]. split; [reflexivity|].
  vm_compute in E. injection E as <- <-. split; [vm_compute; reflexivity|]. vm_compute. reflexivity.
Qed.
