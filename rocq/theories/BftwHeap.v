(** * The files of a walk: an invariant, and what the callback is told *)
From Coq Require Import List Bool Arith Lia Permutation Init.Byte.
From Coq Require Import ZifyBool ZifyNat.
From Verif Require Import PathModel PathSpec PathProperties WalkSpec BftwModel BftwIo BftwQueue BftwPop BftwSpec BftwPath.
Import ListNotations.

Section Heap.
  Context {U : Type}.
  Variable w : env U.
  Notation state := (state U).
  Notation IO := (IO w None).
  Notation moved := (moved w None).
  Notation popped := (popped w None).
  Notation contents := (contents w).
  Notation in_queue := (in_queue w None).

  Record heap (s : state) : Prop := {
    h_io : IO s;
    h_ids : NoDup (map f_id (files s));
    h_next : forall f, In f (files s) -> f_id f < next_id s;
    h_ok : all_ok w s;
    h_pos : forall f g, In f (files s) -> In g (files s) -> f_pos f = f_pos g -> f = g;
    h_parent : forall f p, In f (files s) -> f_parent f = Some p -> ~ in_queue p s;
    h_cur : forall x, cur s = Some x -> live x s /\ ~ in_queue x s;
    h_prev : path_ok w s }.

  (** ** States that are the same in what matters *)

  Lemma in_queue_eq s s' x : fileq s' = fileq s -> dirq s' = dirq s -> inflight s' = inflight s -> in_queue x s' <-> in_queue x s.
  Proof.
    intros A B C. assert (E : forall q, contents q s' = contents q s) by (intros q; unfold BftwIo.contents; rewrite C; destruct q; cbn [queue_of]; rewrite ?A, ?B; reflexivity).
    unfold BftwIo.in_queue. split; (intros [(q & I) | I]; [left; exists q; rewrite E in *; exact I|right; exact I]).
  Qed.
  Lemma contents_eq q s s' : fileq s' = fileq s -> dirq s' = dirq s -> inflight s' = inflight s -> contents q s' = contents q s.
  Proof. intros A B C. unfold BftwIo.contents. rewrite C. destruct q; cbn [queue_of]; rewrite ?A, ?B; reflexivity. Qed.

  (** The files may change in other places. *)
  Lemma io_files s s' : IO s -> fileq s' = fileq s -> dirq s' = dirq s -> inflight s' = inflight s -> to_close s' = to_close s -> busy s' = busy s ->
    (forall x f, in_queue x s -> find_file x s = Some f -> find_file x s' = Some f) ->
    (forall x f p, in_queue x s -> find_file x s = Some f -> f_parent f = Some p -> live p s') ->
    (forall x, In x (to_close s) -> live x s') -> IO s'.
  Proof.
    intros H A B C D E F G L.
    assert (Q : forall q, queue_of q s' = queue_of q s) by (intros []; cbn [queue_of]; assumption).
    assert (CE : forall q, contents q s' = contents q s) by (intros q; apply contents_eq; assumption).
    assert (IQ : forall x, in_queue x s' <-> in_queue x s) by (intros x; apply in_queue_eq; assumption).
    constructor.
    - intros q. destruct (io_q _ _ _ H q). constructor; rewrite ?Q, ?CE, ?C; assumption.
    - rewrite !CE. apply (io_nodup _ _ _ H).
    - rewrite C. apply (io_once _ _ _ H).
    - intros x X. apply IQ in X. destruct (io_live _ _ _ H x X) as (f & Ff & P). exists f. split; [exact (F x f X Ff)|].
      intros p E1. destruct (P p E1) as (_ & N). split; [exact (G x f p X Ff E1)|]. rewrite IQ. exact N.
    - intros x X. rewrite D in X. destruct (io_close _ _ _ H x X). split; [exact (L x X)|]. rewrite IQ. assumption.
    - rewrite E, C. apply (io_busy _ _ _ H).
    - rewrite C. apply (io_none _ _ _ H).
  Qed.
  Lemma live_eq (s s' : state) x : files s' = files s -> live x s -> live x s'.
  Proof. unfold live, find_file. intros ->. auto. Qed.
  Lemma io_eq s s' : IO s -> fileq s' = fileq s -> dirq s' = dirq s -> inflight s' = inflight s -> to_close s' = to_close s -> busy s' = busy s ->
    files s' = files s -> IO s'.
  Proof.
    intros H A B C D E F. apply (io_files s); auto.
    - intros x f _. unfold find_file. rewrite F. auto.
    - intros x f p X Ff P. apply (live_eq s); [exact F|]. destruct (io_live _ _ _ H x X) as (g & Fg & K). rewrite Ff in Fg. injection Fg as <-. apply (K p P).
    - intros x X. apply (live_eq s); [exact F|]. apply (io_close _ _ _ H x X).
  Qed.

  Lemma file_ok_eq (s s' : state) f : files s' = files s -> file_ok w s f -> file_ok w s' f.
  Proof.
    intros E []. constructor; auto. destruct (f_parent f); [|assumption]. destruct ok_parent as (g & k & F & R). exists g, k. split; [|exact R].
    unfold find_file in *. rewrite E. exact F.
  Qed.

  Lemma heap_eq s s' : heap s -> IO s' -> (forall x, in_queue x s' <-> in_queue x s) ->
    files s' = files s -> next_id s' = next_id s -> cur s' = cur s ->
    (previous s' = previous s /\ path s' = path s \/ path_ok w s') -> heap s'.
  Proof.
    intros H I Q F N C P. destruct H. constructor; auto.
    - rewrite F. assumption.
    - rewrite F, N. assumption.
    - intros f. rewrite F. intros G. apply (file_ok_eq s); auto.
    - rewrite F. assumption.
    - intros f p. rewrite F, Q. eauto.
    - intros x. rewrite C, Q. intros E. destruct (h_cur0 x E). split; [apply (live_eq s); assumption|assumption].
    - destruct P as [(P1 & P2) | P]; [|exact P]. intros x. rewrite P1. intros E. destruct (h_prev0 x E) as (f & Ff & l & L). exists f. split; [unfold find_file in *; rewrite F; exact Ff|].
      exists l. rewrite P2. exact L.
  Qed.
  Lemma heap_arranged s s' : heap s -> IO s' -> arranged w s s' -> heap s'.
  Proof.
    intros H I A. pose proof (arranged_same _ _ _ A) as []. apply (heap_eq s); auto. intros x. apply (arranged_in_queue _ _ _ x A).
  Qed.
  Lemma heap_moved s s' : heap s -> IO s' -> moved s s' -> heap s'.
  Proof. intros H I M. apply (heap_arranged s); [exact H|exact I|apply arranged_moved, M]. Qed.

  (** ** Opening files *)

  Lemma queued_in x s : IO s -> queued x s = true -> in_queue x s.
  Proof.
    intros H Q. unfold queued in Q. rewrite existsb_eqb, !in_app_iff in Q.
    assert (K : forall q, In x (buffer (queue_of q s)) \/ In x (waiting (queue_of q s)) -> in_queue x s).
    { intros q I. left. exists q. unfold BftwIo.contents. rewrite !in_app_iff. destruct I as [I | I]; [left; exact I|right].
      destruct (qorder (flags w q)) eqn:O; [|rewrite !in_app_iff; left; exact I]. eapply sub_in; [apply (q_order _ _ _ _ (io_q _ _ _ H q) O)|exact I]. }
    pose proof (K FileQ) as K1. pose proof (K DirQ) as K2. cbn [queue_of] in *. destruct Q as [Q | [Q | [Q | Q]]]; auto.
  Qed.

  Lemma open_chain_ok fuel s x f : heap s -> find_file x s = Some f -> ~ in_queue x s -> f_depth f <= fuel -> open_chain fuel x s = Some tt.
  Proof.
    intros H. revert x f. induction fuel as [|fuel IH]; intros x f F N L; cbn [open_chain]; rewrite F;
      (destruct (queued x s) eqn:Q; [exfalso; apply N, queued_in; [apply (h_io _ H)|exact Q]|]);
      pose proof (find_ok _ _ _ _ (h_ok _ H) F) as FO; pose proof (ok_parent _ _ _ FO) as P; pose proof (depth_pos _ _ _ FO) as D.
    - destruct (f_parent f); [|reflexivity]. destruct P as (g & k & Fg & E & _). rewrite E in D. pose proof (ok_pos _ _ _ (find_ok _ _ _ _ (h_ok _ H) Fg)).
      destruct (f_pos g); [congruence|]. cbn [length] in D. lia.
    - destruct (f_parent f) as [q|] eqn:FP; [|reflexivity]. destruct P as (g & k & Fg & E & _). rewrite E in D. cbn [length] in D.
      pose proof (depth_pos _ _ _ (find_ok _ _ _ _ (h_ok _ H) Fg)). apply (IH q g Fg); [|lia].
      apply (h_parent _ H f q); [apply (find_in _ _ _ F)|exact FP].
  Qed.

  Lemma file_open_ok x s f : heap s -> find_file x s = Some f -> ~ in_queue x s -> exists s', file_open w x s = Some s' /\ IO s' /\ popped s s'.
  Proof.
    intros H F N. unfold file_open. rewrite F, (open_chain_ok (f_depth f) s x f H F N (le_n _)). apply pump_ok, (h_io _ H).
  Qed.

  (** ** The callback *)

  (** Apart from what the callback changes, files are only moved within queues. *)
  Definition restore (s s' : state) : state :=
    set_previous (previous s) (set_path (path s) (set_failed (failed s) (set_user (user s) (set_trace (trace s) s')))).
  Definition kept (s s' : state) : Prop := moved s (restore s s').

  Lemma kept_moved s s' : moved s s' -> kept s s'.
  Proof. intros [[] ? ? ? ?]. constructor; auto. constructor; auto. Qed.
  Lemma kept_trans a b c : kept a b -> kept b c -> kept a c.
  Proof.
    unfold kept. intros A B. eapply moved_trans; [exact A|]. destruct B as [[] C ? ? ?]. constructor; auto.
    constructor; auto.
  Qed.

  (** How the callback's answer is understood *)
  Definition answer (b : action) (v : visit) (e : event) : action :=
    match b, v with
    | BFTW_CONTINUE, BFTW_PRE => if is_dir (e_type e) && negb (fl_prune_mounts w && mount_point w (e_pos e)) then BFTW_CONTINUE else BFTW_PRUNE
    | BFTW_CONTINUE, BFTW_POST => BFTW_PRUNE
    | _, _ => b
    end.

  Record outcome (v : visit) (p : pos) (s : state) (a : action) (s' : state) : Prop := {
    out_kept : kept s s';
    out_event : (v = BFTW_POST /\ fl_post_order w = false /\ a = BFTW_PRUNE /\ s' = s) \/
      (v = BFTW_POST -> fl_post_order w = true) /\ previous s' = cur s /\
      exists e, e_pos e = p /\ e_visit e = v /\ event_ok w e /\ ((direrror s = true -> e_type e = BFS_ERROR) /\ (direrror s = false -> exists n, e_type e = look w n p)) /\
        ((e_type e = BFS_ERROR /\ fl_recover w = false /\ a = BFTW_STOP /\ failed s' = true /\ trace s' = trace s /\ user s' = user s) \/
         (failed s' = failed s /\ skipped w p = true /\ a = BFTW_PRUNE /\ trace s' = trace s /\ user s' = user s) \/
         (failed s' = failed s /\ skipped w p = false /\ exists b, callback w (user s) e = (b, user s') /\ trace s' = (e, b) :: trace s /\ a = answer b v e)) }.

  Lemma file_ok_event s f : heap s -> In f (files s) -> length (f_pos f) <> 1 ->
    skipn (f_nameoff f) (path_at w (f_pos f)) = name_at w (f_pos f).
  Proof.
    intros H I L. pose proof (h_ok _ H f I) as FO. destruct (path_suffix w (f_pos f)) as (x & E). pose proof (ok_off _ _ _ FO) as O.
    rewrite (ok_name _ _ _ FO) in *. rewrite E in *. rewrite app_length in O. replace (f_nameoff f) with (length x) by lia.
    rewrite skipn_app, skipn_all, Nat.sub_diag. reflexivity.
  Qed.

  Lemma call_back_ok t v p s : named w -> heap s -> target_at w t p s ->
    exists a s', call_back w t v s = Some (a, s') /\ heap s' /\ outcome v p s a s'.
  Proof.
    intros NM H TA. unfold call_back.
    destruct (match v with BFTW_POST => negb (fl_post_order w) | BFTW_PRE => false end) eqn:PO.
    { destruct v; [discriminate|]. exists BFTW_PRUNE, s. split; [reflexivity|]. split; [exact H|]. constructor; [apply kept_moved, moved_id|].
      left. split; [reflexivity|]. split; [destruct (fl_post_order w); [discriminate|reflexivity]|auto]. }
    rewrite (build_path_ok w t p s NM (h_ok _ H) (h_ids _ H) (h_prev _ H) TA).
    set (s1 := set_previous (cur s) (set_path (path_at w p) s)).
    assert (PK1 : path_ok w s1).
    { intros x E. subst s1. cbn [set_previous previous path set_path] in *. unfold target_at in TA. rewrite E in TA. destruct t as [(k & tr)|].
      - destruct TA as (f & F & -> & _). exists f. split; [exact F|]. destruct (path_prefix w [k] (f_pos f)) as (l & L). exists l. exact L.
      - destruct TA as (f & F & ->). exists f. split; [exact F|]. exists []. rewrite app_nil_r. reflexivity. }
    assert (H1 : heap s1).
    { apply (heap_eq s); auto; [|intros x; reflexivity]. apply (io_eq s); auto. apply (h_io _ H). }
    assert (NV : node_at w p <> None).
    { unfold target_at in TA. destruct t as [(k & tr)|], (cur s) as [x|].
      - destruct TA as (f & _ & _ & N). congruence.
      - destruct TA as (_ & N & _). congruence.
      - destruct TA as (f & F & ->). rewrite (ok_node _ _ _ (find_ok _ _ _ _ (h_ok _ H) F)). discriminate.
      - destruct TA. }
    (* the parent is opened *)
    assert (IF : exists s2 off ty, init_ftwbuf w t v s1 = Some ({| e_pos := p; e_visit := v; e_type := ty; e_depth := length p - 1; e_path := path_at w p; e_nameoff := off |}, s2) /\
        IO s2 /\ moved s1 s2 /\ ((direrror s = true -> ty = BFS_ERROR) /\ (direrror s = false -> exists n, ty = look w n p)) /\
        event_ok w {| e_pos := p; e_visit := v; e_type := ty; e_depth := length p - 1; e_path := path_at w p; e_nameoff := off |}).
    { unfold init_ftwbuf. change (cur s1) with (cur s).
      assert (K : exists off parent, (' file <- get (cur s) s1 ;;
          match t, file with
          | Some (k, _), None => Some ([k], 0, None)
          | Some (k, _), Some f => ' off <- child_nameoff f ;; Some (k :: f_pos f, off, cur s)
          | None, Some f => Some (f_pos f, f_nameoff f, f_parent f)
          | None, None => None
          end) = Some (p, off, parent) /\ (forall x, parent = Some x -> live x s1 /\ ~ in_queue x s1) /\
          (length p <> 1 -> off + length (name_at w p) = length (path_at w p) /\ skipn off (path_at w p) = name_at w p)).
      { unfold target_at in TA. destruct (cur s) as [x|] eqn:CU; cbn [get].
        - change (find_file x s1) with (find_file x s). destruct t as [(k & tr)|].
          + destruct TA as (f & F & -> & N). rewrite F. pose proof (find_ok _ _ _ _ (h_ok _ H) F) as FO.
            destruct (child_off_ex w s f k tr NM FO N) as (off & C). rewrite C. exists off, (Some x). split; [reflexivity|].
            split; [intros y [= <-]; destruct (h_cur _ H x CU); split; assumption|]. intros _.
            destruct (child_off w s f k off FO C) as (A & EA & LA & _). rewrite EA. rewrite !app_length in *. split; [lia|].
            rewrite <- LA, <- app_length, skipn_app, skipn_all, Nat.sub_diag. reflexivity.
          + destruct TA as (f & F & ->). rewrite F. exists (f_nameoff f), (f_parent f). split; [reflexivity|].
            pose proof (find_ok _ _ _ _ (h_ok _ H) F) as FO. split.
            * intros y FP. split; [|apply (h_parent _ H f y); [apply (find_in _ _ _ F)|exact FP]].
              pose proof (ok_parent _ _ _ FO) as P. rewrite FP in P. destruct P as (g & k & G & _). exists g. exact G.
            * intros L. split; [rewrite (ok_name _ _ _ FO); apply (ok_off _ _ _ FO)|]. apply (file_ok_event s f H); [apply (find_in _ _ _ F)|exact L].
        - destruct t as [(k & tr)|]; [|destruct TA]. destruct TA as (-> & N & PR). exists 0, None. split; [reflexivity|]. split; [discriminate|].
          intros L. cbn [length] in L. lia. }
      destruct K as (off & parent & E & PL & NO). destruct (get (cur s) s1) as [file|]; [|discriminate].
      match goal with |- context [match ?e with Some _ => _ | None => None end] => replace e with (Some (p, off, parent)) by (symmetry; exact E) end. cbn match.
      assert (FO : exists s2, (match parent with Some x => file_open w x s1 | None => Some s1 end) = Some s2 /\ IO s2 /\ popped s1 s2).
      { destruct parent as [x|].
        - destruct (PL x eq_refl) as ((g & G) & N). apply (file_open_ok x s1 g H1 G N).
        - exists s1. split; [reflexivity|]. split; [apply (h_io _ H1)|apply popped_id]. }
      destruct FO as (s2 & EF & I2 & P2). rewrite EF. pose proof (moved_same _ _ _ _ (popped_moved _ _ _ _ P2)) as SM.
      assert (PE : path s2 = path_at w p) by (rewrite (same_path _ _ SM); reflexivity).
      assert (DE : direrror s2 = direrror s) by (rewrite (same_direrror _ _ SM); reflexivity).
      rewrite PE, DE. eexists (set_clock (S (clock s2)) s2), _, _. split; [reflexivity|]. split; [apply clock_io, I2|].
      split; [eapply moved_trans; [apply (popped_moved _ _ _ _ P2)|apply (popped_moved _ _ _ _ (clock_popped w None _ _))]|].
      split; [split; intros ->; [reflexivity|exists (clock s2); reflexivity]|]. unfold event_ok. cbn [e_pos e_depth e_path e_nameoff]. split; [exact NV|]. split; [reflexivity|]. split; [reflexivity|].
      destruct p as [|k [|j p]].
      - destruct (NV eq_refl).
      - cbn [length Nat.sub Nat.eqb]. eexists _, _. apply C18_dirname_basename.
      - cbn [length Nat.sub Nat.eqb]. apply NO. cbn [length]. lia. }
    destruct IF as (s2 & off & ty & -> & I2 & M2 & DT & EO).
    set (e := {| e_pos := p |}) in *. pose proof (moved_same _ _ _ _ M2) as SM.
    assert (H2 : heap s2) by (apply (heap_moved s1); assumption).
    assert (PV : previous s2 = cur s) by (rewrite (same_previous _ _ SM); reflexivity).
    assert (TR : trace s2 = trace s) by (rewrite (same_trace _ _ SM); reflexivity).
    assert (US : user s2 = user s) by (rewrite (same_user _ _ SM); reflexivity).
    assert (FA : failed s2 = failed s) by (rewrite (same_failed _ _ SM); reflexivity).
    assert (KP : kept s s2).
    { unfold kept. destruct M2 as [[] ? ? ? ?]. constructor; auto. constructor; auto. }
    assert (HP : forall s3, fileq s3 = fileq s2 -> dirq s3 = dirq s2 -> inflight s3 = inflight s2 -> to_close s3 = to_close s2 -> busy s3 = busy s2 ->
      files s3 = files s2 -> next_id s3 = next_id s2 -> cur s3 = cur s2 -> previous s3 = previous s2 -> path s3 = path s2 -> heap s3).
    { intros s3. intros. apply (heap_eq s2); auto; [apply (io_eq s2); auto; apply (h_io _ H2)|]. intros x. apply in_queue_eq; assumption. }
    change (e_pos e) with p. change (is_mount w p) with (mount_point w p).
    assert (OUT : (v = BFTW_POST -> fl_post_order w = true)) by (intros ->; destruct (fl_post_order w); [reflexivity|discriminate]).
    destruct (match e_type e with BFS_ERROR => negb (fl_recover w) | _ => false end) eqn:ER.
    { exists BFTW_STOP, (set_failed true s2). split; [reflexivity|]. split; [apply HP; reflexivity|]. constructor.
      - eapply kept_trans; [exact KP|]. unfold kept. constructor; auto. constructor; auto.
      - right. split; [exact OUT|]. split; [exact PV|]. exists e. split; [reflexivity|]. split; [reflexivity|]. split; [exact EO|]. split; [exact DT|].
        left. split; [destruct (e_type e); [reflexivity|discriminate|discriminate]|]. split; [destruct (e_type e); [|discriminate|discriminate]; destruct (fl_recover w); [discriminate|reflexivity]|].
        auto. }
    change (fl_skip_mounts w && mount_point w p) with (skipped w p).
    destruct (skipped w p) eqn:SK.
    { exists BFTW_PRUNE, s2. split; [reflexivity|]. split; [exact H2|]. constructor; [exact KP|]. right. split; [exact OUT|]. split; [exact PV|].
      exists e. split; [reflexivity|]. split; [reflexivity|]. split; [exact EO|]. split; [exact DT|]. right. left. auto. }
    destruct (callback w (user s2) e) as (b & u) eqn:CB.
    eexists _, (set_trace ((e, b) :: trace s2) (set_user u s2)). split; [reflexivity|]. split; [apply HP; reflexivity|]. constructor.
    - eapply kept_trans; [exact KP|]. unfold kept. constructor; auto. constructor; auto.
    - right. split; [exact OUT|]. split; [exact PV|]. exists e. split; [reflexivity|]. split; [reflexivity|]. split; [exact EO|]. split; [exact DT|].
      right. right. split; [exact FA|]. split; [exact SK|]. exists b. cbn [set_trace set_user user trace]. rewrite <- US. split; [exact CB|]. split; [rewrite TR; reflexivity|].
      unfold answer. change (e_pos e) with p. destruct b, v, (is_dir (e_type e)), (fl_prune_mounts w && mount_point w p); reflexivity.
  Qed.
End Heap.
