(** * The walk's queues and the I/O queue: what waiting for responses changes *)
From Coq Require Import List Bool Arith Lia Permutation Init.Byte.
From Coq Require Import ZifyBool ZifyNat.
From Verif Require Import PathModel SortModel WalkSpec BftwModel.
Import ListNotations.

(** [l] without some elements *)
Inductive sub {A} : list A -> list A -> Prop :=
| sub_nil : sub [] []
| sub_skip x l m : sub l m -> sub l (x :: m)
| sub_keep x l m : sub l m -> sub (x :: l) (x :: m).

Lemma sub_refl {A} (l : list A) : sub l l.
Proof. induction l; [constructor|apply sub_keep; assumption]. Qed.
Lemma sub_empty {A} (l : list A) : sub [] l.
Proof. induction l; [constructor|apply sub_skip; assumption]. Qed.
Lemma sub_app {A} (a b c d : list A) : sub a b -> sub c d -> sub (a ++ c) (b ++ d).
Proof. intros H. induction H; intros; cbn [app]; [assumption|apply sub_skip; auto|apply sub_keep; auto]. Qed.
Lemma sub_in {A} (a b : list A) x : sub a b -> In x a -> In x b.
Proof. intros H. induction H; cbn [In]; tauto. Qed.
Lemma sub_tl {A} (x : A) a b : sub (x :: a) b -> sub a b.
Proof.
  intros H. remember (x :: a) as l eqn:E. revert x a E. induction H; intros y a E; [discriminate|apply sub_skip; eauto|].
  injection E as <- <-. apply sub_skip. exact H.
Qed.
Lemma sub_nil_inv {A} (l : list A) : sub l [] -> l = [].
Proof. intros H. inversion H. reflexivity. Qed.
Lemma sub_nodup {A} (a b : list A) : sub a b -> NoDup b -> NoDup a.
Proof.
  intros H. induction H; intros N; [constructor|inversion N; auto|]. inversion N; subst. constructor; [|auto].
  intros I. eapply sub_in in I; eauto.
Qed.

Lemma in_app_3 {A} (x : A) a b c : In x (a ++ b ++ c) <-> In x a \/ In x b \/ In x c.
Proof. rewrite !in_app_iff. tauto. Qed.

Lemma nodup_app {A} (a b : list A) : NoDup (a ++ b) <-> NoDup a /\ NoDup b /\ forall x, In x a -> In x b -> False.
Proof.
  induction a as [|y a IH]; cbn [app].
  - split; [intros H; split; [constructor|split; [exact H|intros x []]]|tauto].
  - rewrite !NoDup_cons_iff, IH, in_app_iff. split.
    + intros (H & N & M & D). split; [tauto|]. split; [exact M|]. intros x [<- | I] J; [tauto|eauto].
    + intros ((H & N) & M & D). split; [intros [I | I]; [tauto|exact (D y (or_introl eq_refl) I)]|].
      split; [exact N|]. split; [exact M|]. intros x I. apply D. right. exact I.
Qed.

Lemma existsb_eqb x l : existsb (Nat.eqb x) l = true <-> In x l.
Proof.
  rewrite existsb_exists. split; [intros (y & I & E); apply Nat.eqb_eq in E; subst; exact I|].
  intros I. exists x. split; [exact I|apply Nat.eqb_refl].
Qed.
Lemma existsb_eqb_false x l : existsb (Nat.eqb x) l = false <-> ~ In x l.
Proof. rewrite <- existsb_eqb. destruct (existsb _ _); split; congruence. Qed.

Lemma remove_nth_perm {A} (n : nat) (l : list A) x : nth_error l n = Some x -> Permutation l (x :: remove_nth n l).
Proof.
  revert n. induction l as [|y l IH]; intros [|n] E; cbn [nth_error] in E; try discriminate; cbn [remove_nth].
  - injection E as <-. apply Permutation_refl.
  - rewrite (IH n E) at 1. apply perm_swap.
Qed.

Section Io.
  Context {U : Type}.
  Variable w : env U.
  Notation state := (state U).

  (** The files of a queue for which there are requests *)
  Definition fly1 (q : qsel) (r : request) : list nat :=
    match q, r with FileQ, RStat x => [x] | DirQ, ROpen x => [x] | _, _ => [] end.
  Definition fly (q : qsel) (l : list request) : list nat := flat_map (fly1 q) l.

  Lemma fly_app q a b : fly q (a ++ b) = fly q a ++ fly q b.
  Proof. apply flat_map_app. Qed.
  Lemma fly_remove q n l r : nth_error l n = Some r -> Permutation (fly q l) (fly1 q r ++ fly q (remove_nth n l)).
  Proof.
    intros E. apply remove_nth_perm in E.
    exact (Permutation_flat_map (fly1 q) E).
  Qed.

  (** The files in a queue *)
  Definition contents (q : qsel) (s : state) : list nat :=
    let v := queue_of q s in
    buffer v ++ (if qorder (flags w q) then ready v else waiting v ++ ready v ++ fly q (inflight s)).

  (** A file that was just taken out of an ordered queue may still be in flight. *)
  Variable hole : option nat.

  Record q_ok (q : qsel) (s : state) : Prop := {
    q_size : size (queue_of q s) = length (contents q s);
    q_io : ioqueued (queue_of q s) = length (fly q (inflight s));
    q_order : qorder (flags w q) = true -> sub (waiting (queue_of q s)) (ready (queue_of q s));
    q_fly : forall x, In x (fly q (inflight s)) -> In x (contents q s) \/ qorder (flags w q) = true /\ hole = Some x;
    q_away : forall x, In x (fly q (inflight s)) -> ~ In x (buffer (queue_of q s)) /\ ~ In x (waiting (queue_of q s));
    q_buffer : qbuffer (flags w q) = false -> buffer (queue_of q s) = [] }.

  Definition live (x : nat) (s : state) : Prop := exists f, find_file x s = Some f.
  Definition in_queue (x : nat) (s : state) : Prop := (exists q, In x (contents q s)) \/ hole = Some x.

  Record IO (s : state) : Prop := {
    io_q : forall q, q_ok q s;
    io_nodup : NoDup (contents FileQ s ++ contents DirQ s);
    io_once : NoDup (fly FileQ (inflight s) ++ fly DirQ (inflight s));
    io_live : forall x, in_queue x s -> exists f, find_file x s = Some f /\
      forall p, f_parent f = Some p -> live p s /\ ~ in_queue p s;
    io_close : forall x, In x (to_close s) -> live x s /\ ~ in_queue x s;
    io_busy : Permutation (busy s) (fly FileQ (inflight s) ++ fly DirQ (inflight s));
    io_none : nthreads w = 0 -> inflight s = [] }.

  (** What operations on queues leave alone *)
  Record same (s s' : state) : Prop := {
    same_files : files s' = files s; same_next : next_id s' = next_id s; same_refs : refs s' = refs s;
    same_cur : cur s' = cur s; same_direrror : direrror s' = direrror s; same_previous : previous s' = previous s;
    same_path : path s' = path s; same_failed : failed s' = failed s; same_user : user s' = user s; same_trace : trace s' = trace s }.

  Lemma same_id s : same s s.
  Proof. constructor; reflexivity. Qed.
  Lemma same_trans a b c : same a b -> same b c -> same a c.
  Proof. intros [] []. constructor; congruence. Qed.
  Lemma same_sym a b : same a b -> same b a.
  Proof. intros []. constructor; congruence. Qed.

  (** What operations on queues do to their contents *)
  Record moved (s s' : state) : Prop := {
    moved_same : same s s';
    moved_contents : forall q, Permutation (contents q s') (contents q s);
    moved_order : forall q, qorder (flags w q) = true ->
      buffer (queue_of q s') = buffer (queue_of q s) /\ ready (queue_of q s') = ready (queue_of q s);
    moved_empty : forall q, buffer (queue_of q s) = [] -> buffer (queue_of q s') = [];
    moved_close : forall x, In x (to_close s') -> In x (to_close s) \/
      exists y f, in_queue y s /\ find_file y s = Some f /\ f_parent f = Some x }.

  Lemma same_find a b x : same a b -> find_file x b = find_file x a.
  Proof. intros H. unfold find_file. rewrite (same_files _ _ H). reflexivity. Qed.
  Lemma moved_in_queue a b x : moved a b -> in_queue x b <-> in_queue x a.
  Proof.
    intros H. split; (intros [(q & I) | I]; [left; exists q|right; exact I]).
    - eapply Permutation_in; [apply (moved_contents _ _ H)|exact I].
    - eapply Permutation_in; [apply Permutation_sym, (moved_contents _ _ H)|exact I].
  Qed.
  Lemma moved_id s : moved s s.
  Proof. constructor; [apply same_id|reflexivity|auto|auto|auto]. Qed.
  Lemma moved_trans a b c : moved a b -> moved b c -> moved a c.
  Proof.
    intros H J. constructor.
    - eapply same_trans; [apply (moved_same _ _ H)|apply (moved_same _ _ J)].
    - intros q. eapply Permutation_trans; [apply (moved_contents _ _ J)|apply (moved_contents _ _ H)].
    - intros q Q. destruct (moved_order _ _ H q Q). destruct (moved_order _ _ J q Q). split; congruence.
    - intros q E. apply (moved_empty _ _ J), (moved_empty _ _ H), E.
    - intros x I. destruct (moved_close _ _ J x I) as [K | (y & f & K & L & M)].
      + apply (moved_close _ _ H x K).
      + right. exists y, f. split; [rewrite <- (moved_in_queue _ _ y H); exact K|].
        split; [rewrite <- (same_find _ _ y (moved_same _ _ H)); exact L|exact M].
  Qed.

  (** The number of responses that can add something to [to_close], and what is there *)
  Definition pending (s : state) : nat := length (fly FileQ (inflight s)) + length (fly DirQ (inflight s)).

  (** Waiting for responses leaves the buffers and the waiting lists alone as well. *)
  Record popped (s s' : state) : Prop := {
    popped_moved : moved s s';
    popped_lists : forall q, buffer (queue_of q s') = buffer (queue_of q s) /\ waiting (queue_of q s') = waiting (queue_of q s);
    popped_ready : forall q, exists l, ready (queue_of q s') = ready (queue_of q s) ++ l;
    popped_pending : length (to_close s') + pending s' <= length (to_close s) + pending s;
    popped_busy : forall x, In x (busy s') -> In x (busy s) }.
  Lemma popped_id s : popped s s.
  Proof. constructor; [apply moved_id|auto|intros q; exists []; rewrite app_nil_r; reflexivity|lia|auto]. Qed.
  Lemma popped_trans a b c : popped a b -> popped b c -> popped a c.
  Proof.
    intros H J. constructor.
    - eapply moved_trans; [apply (popped_moved _ _ H)|apply (popped_moved _ _ J)].
    - intros q. destruct (popped_lists _ _ H q), (popped_lists _ _ J q). split; congruence.
    - intros q. destruct (popped_ready _ _ H q) as (l & E), (popped_ready _ _ J q) as (m & F). exists (l ++ m).
      rewrite F, E, app_assoc. reflexivity.
    - pose proof (popped_pending _ _ H). pose proof (popped_pending _ _ J). lia.
    - intros x I. apply (popped_busy _ _ H), (popped_busy _ _ J), I.
  Qed.

  (** States that differ in the clock only *)
  Lemma clock_io c s : IO s -> IO (set_clock c s).
  Proof. intros []. constructor; auto. intros q. destruct (io_q0 q). constructor; auto. Qed.
  Lemma clock_popped c s : popped s (set_clock c s).
  Proof.
    constructor; [|destruct q; auto|intros q; exists []; rewrite app_nil_r; destruct q; reflexivity|cbn; apply Nat.le_refl|auto].
    constructor; [constructor; reflexivity|destruct q; reflexivity|destruct q; auto|destruct q; auto|auto].
  Qed.

  Lemma not_ready q x s : IO s -> ~ in_queue x s -> ~ In x (ready (queue_of q s)).
  Proof.
    intros H N I. apply N. left. exists q. unfold contents. rewrite !in_app_iff. destruct (qorder (flags w q)); [tauto|].
    rewrite !in_app_iff. tauto.
  Qed.

  (** ** Responses *)

  Lemma unpin_ok x s f : find_file x s = Some f ->
    (forall p, f_parent f = Some p -> live p s /\ ~ In p (ready (fileq s)) /\ ~ In p (ready (dirq s))) ->
    exists l c, unpin_parent w x true s = Some (set_to_close l (set_clock c s)) /\
      (l = to_close s \/ exists p, f_parent f = Some p /\ l = to_close s ++ [p]).
  Proof.
    intros F P. unfold unpin_parent. rewrite F. destruct (f_parent f) as [p|] eqn:E.
    - destruct (P p eq_refl) as ((g & G) & N & M). rewrite G. cbn [ask].
      unfold delayed_unwrap, find_file in *. cbn [set_clock files to_close fileq dirq]. rewrite G.
      rewrite <- existsb_eqb_false in N, M. rewrite N, M. cbn [orb andb].
      destruct (0 <? choose w (clock s)); [|exists (to_close s), (S (clock s)); split; [reflexivity|left; reflexivity]].
      destruct (existsb (Nat.eqb p) (to_close s)).
      + exists (to_close s), (S (clock s)). split; [reflexivity|left; reflexivity].
      + exists (to_close s ++ [p]), (S (clock s)). split; [reflexivity|right; eauto].
    - exists (to_close s), (clock s). split; [destruct s; reflexivity|left; reflexivity].
  Qed.

  Lemma remove_perm x l : NoDup l -> In x l -> Permutation l (x :: remove Nat.eq_dec x l).
  Proof.
    induction l as [|y l IH]; intros N I; [destruct I|]. cbn [remove]. inversion N; subst.
    destruct (Nat.eq_dec x y) as [-> | D].
    - rewrite notin_remove by assumption. reflexivity.
    - destruct I as [-> | I]; [congruence|]. rewrite perm_swap. apply perm_skip. apply IH; assumption.
  Qed.

  Definition request_of (q : qsel) (x : nat) : request := match q with FileQ => RStat x | DirQ => ROpen x end.
  Lemma fly1_of q x : fly1 q (request_of q x) = [x].
  Proof. destruct q; reflexivity. Qed.
  Lemma fly1_other q q' x : q' <> q -> fly1 q' (request_of q x) = [].
  Proof. destruct q, q'; try reflexivity; congruence. Qed.
  Lemma qsel_dec (q q' : qsel) : q' = q \/ q' <> q.
  Proof. destruct q, q'; (left; reflexivity) || (right; discriminate). Qed.

  Lemma queue_of_same q v (s : state) : queue_of q (set_queue q v s) = v.
  Proof. destruct q; reflexivity. Qed.
  Lemma queue_of_other q q' v (s : state) : q' <> q -> queue_of q' (set_queue q v s) = queue_of q' s.
  Proof. destruct q, q'; try reflexivity; congruence. Qed.

  Lemma contents_nodup q s : IO s -> NoDup (contents q s).
  Proof. intros H. pose proof (io_nodup _ H) as N. rewrite nodup_app in N. destruct q; tauto. Qed.
  Lemma fly_nodup q s : IO s -> NoDup (fly q (inflight s)).
  Proof. intros H. pose proof (io_once _ H) as N. rewrite nodup_app in N. destruct q; tauto. Qed.

  Lemma attach_ok q x n s l c :
    IO s -> nth_error (inflight s) n = Some (request_of q x) ->
    (l = to_close s \/ exists f p, find_file x s = Some f /\ f_parent f = Some p /\ l = to_close s ++ [p]) ->
    exists s', queue_attach w q x true (set_to_close l (set_clock c (set_inflight (remove_nth n (inflight s)) s))) = Some s' /\
      IO s' /\ popped s s' /\ inflight s' = remove_nth n (inflight s) /\ to_close s' = l.
  Proof.
    intros H N L.
    assert (FL : forall q', Permutation (fly q' (inflight s)) (fly1 q' (request_of q x) ++ fly q' (remove_nth n (inflight s))))
      by (intros q'; apply fly_remove; exact N).
    assert (X : In x (fly q (inflight s))).
    { eapply Permutation_in; [apply Permutation_sym, FL|]. rewrite fly1_of. left. reflexivity. }
    assert (XC : In x (contents q s) \/ qorder (flags w q) = true /\ hole = Some x) by (apply (q_fly _ _ (io_q _ H q)); exact X).
    assert (XQ : in_queue x s) by (destruct XC as [XC | (_ & XC)]; [left; exists q; exact XC|right; exact XC]).
    destruct (io_live _ H x XQ) as (f & F & P).
    assert (XL : ~ In x l).
    { intros I. destruct L as [-> | (f' & p & F' & E & ->)].
      - apply (io_close _ H) in I. tauto.
      - apply in_app_iff in I as [I | [<- | []]]; [apply (io_close _ H) in I; tauto|]. rewrite F in F'. injection F' as <-. apply (P p E). exact XQ. }
    assert (B : In x (busy s)).
    { eapply Permutation_in; [apply Permutation_sym, (io_busy _ H)|]. rewrite in_app_iff. destruct q; tauto. }
    pose proof (FL q) as FQ. rewrite fly1_of in FQ. cbn [app] in FQ.
    pose proof (q_io _ _ (io_q _ H q)) as IQ. rewrite (Permutation_length FQ) in IQ. cbn [length] in IQ.
    set (m := length (fly q (remove_nth n (inflight s)))) in *.
    set (r := if qorder (flags w q) then ready (queue_of q s) else ready (queue_of q s) ++ [x]).
    set (v := {| buffer := buffer (queue_of q s); waiting := waiting (queue_of q s); ready := r; size := size (queue_of q s); ioqueued := m |}).
    set (s' := set_busy (remove Nat.eq_dec x (busy s)) (set_queue q v (set_to_close l (set_clock c (set_inflight (remove_nth n (inflight s)) s))))).
    exists s'.
    assert (E : queue_attach w q x true (set_to_close l (set_clock c (set_inflight (remove_nth n (inflight s)) s))) = Some s').
    { unfold queue_attach, is_busy. unfold find_file in *. cbn [set_to_close set_clock set_inflight files busy]. rewrite F.
      apply existsb_eqb in B. rewrite B. subst s' v r. destruct q; cbn [queue_of fileq dirq set_queue set_fileq set_dirq set_to_close set_clock set_inflight] in IQ |- *; rewrite IQ; destruct (qorder _);
        try reflexivity; (replace (existsb (Nat.eqb x) _) with false; [reflexivity|symmetry; apply existsb_eqb_false; exact XL]). }
    split; [exact E|].
    assert (I' : inflight s' = remove_nth n (inflight s)) by (subst s'; destruct q; reflexivity).
    assert (Q' : forall q', buffer (queue_of q' s') = buffer (queue_of q' s) /\ waiting (queue_of q' s') = waiting (queue_of q' s) /\
        size (queue_of q' s') = size (queue_of q' s) /\ (q' <> q -> ready (queue_of q' s') = ready (queue_of q' s) /\ ioqueued (queue_of q' s') = ioqueued (queue_of q' s))).
    { intros q'. destruct (qsel_dec q q') as [-> | D]; subst s'; [destruct q|destruct q, q']; cbn; repeat split; try reflexivity; congruence. }
    assert (QQ : queue_of q s' = v) by (subst s'; destruct q; reflexivity).
    assert (FS : files s' = files s) by (subst s'; destruct q; reflexivity).
    assert (FF : forall y, find_file y s' = find_file y s) by (intros y; unfold find_file; rewrite FS; reflexivity).
    assert (TC : to_close s' = l) by (subst s'; destruct q; reflexivity).
    assert (C : forall q', Permutation (contents q' s') (contents q' s)).
    { intros q'. unfold contents. destruct (Q' q') as (-> & -> & _ & O). destruct (qsel_dec q q') as [-> | D].
      - rewrite QQ, I'. subst v r. cbn [ready]. destruct (qorder _); [reflexivity|]. apply Permutation_app_head, Permutation_app_head.
        rewrite FQ, <- app_assoc. reflexivity.
      - destruct (O D) as (-> & _). destruct (qorder (flags w q')); [reflexivity|]. rewrite I', (FL q'), fly1_other by exact D. reflexivity. }
    assert (M : moved s s').
    { constructor.
      - subst s'; destruct q; constructor; reflexivity.
      - exact C.
      - intros q' O. destruct (Q' q') as (-> & _ & _ & K). split; [reflexivity|]. destruct (qsel_dec q q') as [-> | D]; [|apply (K D)].
        rewrite QQ. subst v r. cbn [ready]. rewrite O. reflexivity.
      - intros q' E'. destruct (Q' q') as (-> & _). exact E'.
      - rewrite TC. intros y I. destruct L as [-> | (f' & p & F' & E' & ->)]; [tauto|]. apply in_app_iff in I as [I | [<- | []]]; [tauto|].
        right. exists x, f'. auto. }
    assert (FI : forall q' y, In y (fly q' (inflight s')) -> In y (fly q' (inflight s))).
    { intros q' y I. rewrite I' in I. eapply Permutation_in; [apply Permutation_sym, FL|]. rewrite in_app_iff. tauto. }
    assert (XN : ~ In x (fly q (remove_nth n (inflight s)))).
    { pose proof (fly_nodup q _ H) as O. rewrite FQ in O. inversion O; assumption. }
    split; [|split; [|split; [exact I'|exact TC]]].
    - constructor.
      + intros q'. destruct (io_q _ H q') as [A1 A2 A3 A4 A6 A7]. destruct (Q' q') as (Eb & Ew & Es & O). constructor.
        * rewrite Es, A1. symmetry. apply Permutation_length, C.
        * destruct (qsel_dec q q') as [-> | D]; [rewrite QQ, I'; reflexivity|]. destruct (O D) as (_ & ->). rewrite I', A2, (Permutation_length (FL q')), fly1_other by exact D. reflexivity.
        * intros QO. rewrite Ew, (proj2 (moved_order _ _ M q' QO)). exact (A3 QO).
        * intros y I. destruct (A4 y (FI _ _ I)) as [K | K]; [left|right; exact K]. eapply Permutation_in; [apply Permutation_sym, C|exact K].
        * intros y I. rewrite Eb, Ew. apply A6, FI, I.
        * rewrite Eb. exact A7.
      + eapply Permutation_NoDup; [|apply (io_nodup _ H)]. apply Permutation_sym, Permutation_app; apply C.
      + pose proof (io_once _ H) as O. rewrite I'. rewrite (FL FileQ), (FL DirQ) in O. rewrite !nodup_app in O. rewrite nodup_app. destruct O as ((_ & O1 & _) & (_ & O2 & _) & O3).
        split; [exact O1|]. split; [exact O2|]. intros y Y1 Y2. apply (O3 y); rewrite in_app_iff; tauto.
      + intros y I. apply (moved_in_queue _ _ y M) in I. destruct (io_live _ H y I) as (g & G & K). exists g. rewrite FF. split; [exact G|].
        intros p E'. destruct (K p E') as ((h & J) & K'). split; [exists h; rewrite FF; exact J|]. rewrite (moved_in_queue _ _ p M). exact K'.
      + intros y I. rewrite (moved_in_queue _ _ y M). unfold live. rewrite FF. rewrite TC in I. destruct L as [-> | (f' & p & F' & E' & ->)]; [apply (io_close _ H y I)|].
        apply in_app_iff in I as [I | [<- | []]]; [apply (io_close _ H y I)|]. rewrite F in F'. injection F' as <-. apply P. exact E'.
      + rewrite I'. assert (EB : busy s' = remove Nat.eq_dec x (busy s)) by (subst s'; destruct q; reflexivity). rewrite EB.
        assert (NB : NoDup (busy s)) by (eapply Permutation_NoDup; [apply Permutation_sym, (io_busy _ H)|apply (io_once _ H)]).
        apply (Permutation_cons_inv (a := x)). rewrite <- remove_perm by assumption. rewrite (io_busy _ H).
        destruct q; [rewrite (FL FileQ), (FL DirQ)|rewrite (FL FileQ), (FL DirQ)]; cbn [fly1 request_of app]; [reflexivity|]. symmetry. apply Permutation_middle.
      + intros NT. exfalso. rewrite (io_none _ H NT) in N. destruct n; discriminate.
    - constructor.
      + exact M.
      + intros q'. destruct (Q' q') as (Eb & Ew & _). auto.
      + intros q'. destruct (qsel_dec q q') as [-> | D]; [|exists []; rewrite app_nil_r; apply (Q' q'); exact D].
        rewrite QQ. subst v r. cbn [ready]. destruct (qorder _); [exists []; rewrite app_nil_r; reflexivity|exists [x]; reflexivity].
      + unfold pending. rewrite I', TC. rewrite (Permutation_length (FL FileQ)), (Permutation_length (FL DirQ)).
        rewrite !app_length. assert (length l <= S (length (to_close s))).
        { destruct L as [-> | (f' & p & _ & _ & ->)]; [lia|]. rewrite app_length. cbn. lia. }
        destruct q; cbn [request_of fly1 length]; lia.
      + intros y I. assert (EB : busy s' = remove Nat.eq_dec x (busy s)) by (subst s'; destruct q; reflexivity). rewrite EB in I. eapply in_remove. exact I.
  Qed.

  Lemma ioq_pop_ok block s : IO s -> exists ok s', ioq_pop w block s = Some (ok, s') /\ IO s' /\ popped s s' /\
    (if ok then S (length (inflight s')) = length (inflight s) else inflight s' = inflight s) /\
    (block = true -> inflight s <> [] -> ok = true) /\
    (ok = true -> exists r, In r (inflight s) /\ forall q, Permutation (fly q (inflight s)) (fly1 q r ++ fly q (inflight s'))).
  Proof.
    intros H. unfold ioq_pop. destruct (inflight s) as [|r0 l0] eqn:E0.
    { exists false, s. split; [reflexivity|]. split; [exact H|]. split; [apply popped_id|]. split; [exact E0|]. split; [congruence|discriminate]. }
    cbn [ask]. destruct (negb block && (choose w (clock s) =? 0)) eqn:B.
    { exists false, (set_clock (S (clock s)) s). split; [reflexivity|]. split; [apply clock_io, H|]. split; [apply clock_popped|].
      split; [exact E0|]. split; [|discriminate]. intros -> _. discriminate. }
    set (s1 := set_clock (S (clock (set_clock (S (clock s)) s))) (set_clock (S (clock s)) s)).
    set (c := choose w (clock (set_clock (S (clock s)) s))).
    change (inflight s1) with (inflight s). set (n := c mod length (inflight s)).
    assert (LN : n < length (inflight s)) by (apply Nat.mod_upper_bound; rewrite E0; discriminate).
    destruct (nth_error (inflight s) n) as [r|] eqn:N; [|apply nth_error_None in N; lia].
    assert (H1 : IO s1) by (apply clock_io, clock_io, H).
    assert (L : S (length (remove_nth n (inflight s))) = length (inflight s)).
    { pose proof (Permutation_length (remove_nth_perm _ _ _ N)) as P. cbn in P. lia. }
    assert (K : forall q x, r = request_of q x -> exists s', (' s0 <- unpin_parent w x true (set_inflight (remove_nth n (inflight s)) s1) ;; queue_attach w q x true s0) = Some s' /\
      IO s' /\ popped s s' /\ inflight s' = remove_nth n (inflight s)).
    { intros q x ->. 
      assert (XQ : in_queue x s1).
      { destruct (q_fly _ _ (io_q _ H1 q) x) as [K | (_ & K)]; [|left; exists q; exact K|right; exact K].
        change (inflight s1) with (inflight s). eapply Permutation_in; [apply Permutation_sym, fly_remove; exact N|].
        rewrite fly1_of. left. reflexivity. }
      destruct (io_live _ H1 x XQ) as (f & F & P).
      destruct (unpin_ok x (set_inflight (remove_nth n (inflight s)) s1) f) as (l & c' & EU & LU); [exact F| |].
      { intros p EP. destruct (P p EP) as (LP & NP). split; [exact LP|]. split; [apply (not_ready FileQ _ _ H1 NP)|apply (not_ready DirQ _ _ H1 NP)]. }
      rewrite EU. destruct (attach_ok q x n s1 l c' H1 N) as (s' & E' & H' & P' & I' & _).
      { destruct LU as [-> | (p & EP & ->)]; [left; reflexivity|right; exists f, p; auto]. }
      exists s'. split; [exact E'|]. split; [exact H'|]. split; [|exact I'].
      eapply popped_trans; [|exact P']. eapply popped_trans; apply clock_popped. }
    assert (FP : forall q, Permutation (fly q (inflight s)) (fly1 q r ++ fly q (remove_nth n (inflight s)))) by (intros q; apply fly_remove, N).
    destruct r as [x|x|].
    - destruct (K DirQ x eq_refl) as (s' & E' & H' & P' & I'). rewrite E'. exists true, s'. split; [reflexivity|]. split; [exact H'|]. split; [exact P'|].
      rewrite I'. split; [rewrite L, E0; reflexivity|]. split; [auto|]. intros _. exists (ROpen x). rewrite <- E0. split; [eapply nth_error_In; exact N|exact FP].
    - destruct (K FileQ x eq_refl) as (s' & E' & H' & P' & I'). rewrite E'. exists true, s'. split; [reflexivity|]. split; [exact H'|]. split; [exact P'|].
      rewrite I'. split; [rewrite L, E0; reflexivity|]. split; [auto|]. intros _. exists (RStat x). rewrite <- E0. split; [eapply nth_error_In; exact N|exact FP].
    - exists true, (set_inflight (remove_nth n (inflight s)) s1). split; [reflexivity|].
      assert (FE : forall q, Permutation (fly q (remove_nth n (inflight s))) (fly q (inflight s))) by (intros q; rewrite (FP q); destruct q; reflexivity).
      assert (CE : forall q, Permutation (contents q (set_inflight (remove_nth n (inflight s)) s1)) (contents q s)).
      { intros q. unfold contents. destruct q; cbn [queue_of set_inflight s1 set_clock fileq dirq inflight];
          (destruct (qorder _); [reflexivity|]; apply Permutation_app_head, Permutation_app_head, Permutation_app_head, FE). }
      assert (M : moved s (set_inflight (remove_nth n (inflight s)) s1)).
      { constructor; [constructor; reflexivity|exact CE|destruct q; auto|destruct q; auto|auto]. }
      split; [|split; [|split; [cbn [inflight set_inflight]; rewrite L, E0; reflexivity|split; [auto|]]]].
      + constructor.
        * intros q. destruct (io_q _ H q) as [A1 A2 A3 A4 A6 A7]. constructor.
          -- rewrite (Permutation_length (CE q)). destruct q; exact A1.
          -- cbn [inflight set_inflight]. rewrite (Permutation_length (FE q)). destruct q; exact A2.
          -- destruct q; exact A3.
          -- intros x I. destruct (A4 x) as [J | J]; [eapply Permutation_in; [apply FE|exact I]|left|right; exact J]. eapply Permutation_in; [apply Permutation_sym, CE|exact J].
          -- intros x I. assert (J : In x (fly q (inflight s))) by (eapply Permutation_in; [apply FE|exact I]). destruct q; exact (A6 x J).
          -- destruct q; exact A7.
        * eapply Permutation_NoDup; [|apply (io_nodup _ H)]. apply Permutation_sym, Permutation_app; apply CE.
        * eapply Permutation_NoDup; [|apply (io_once _ H)]. apply Permutation_sym, Permutation_app; apply FE.
        * intros x I. apply (moved_in_queue _ _ x M) in I. destruct (io_live _ H x I) as (f & F & P). exists f. split; [exact F|].
          intros p E'. destruct (P p E') as (G & G'). split; [exact G|]. rewrite (moved_in_queue _ _ p M). exact G'.
        * intros x I. rewrite (moved_in_queue _ _ x M). exact (io_close _ H x I).
        * cbn [inflight set_inflight busy s1 set_clock]. rewrite (io_busy _ H). apply Permutation_app; apply Permutation_sym, FE.
        * intros NT. exfalso. rewrite (io_none _ H NT) in E0. discriminate.
      + constructor; [exact M|destruct q; auto|intros q; exists []; rewrite app_nil_r; destruct q; reflexivity| |auto].
        unfold pending. cbn [inflight set_inflight to_close s1 set_clock]. rewrite (Permutation_length (FE FileQ)), (Permutation_length (FE DirQ)). lia.
      + intros _. exists RClose. rewrite <- E0. split; [eapply nth_error_In; exact N|exact FP].
  Qed.

  Lemma pops_ok n s : IO s -> exists s', pops w n s = Some s' /\ IO s' /\ popped s s' /\ (length (inflight s) <= n -> inflight s' = []).
  Proof.
    revert s. induction n as [|n IH]; intros s H; cbn [pops].
    - exists s. split; [reflexivity|]. split; [exact H|]. split; [apply popped_id|]. destruct (inflight s); [reflexivity|cbn; lia].
    - destruct (ioq_pop_ok true s H) as (ok & s1 & E & H1 & P1 & C & B & _). rewrite E. destruct ok.
      + destruct (IH s1 H1) as (s' & E' & H' & P' & D). exists s'. split; [exact E'|]. split; [exact H'|]. split; [eapply popped_trans; eassumption|].
        intros L. apply D. lia.
      + exists s1. split; [reflexivity|]. split; [exact H1|]. split; [exact P1|]. intros _. rewrite C.
        destruct (inflight s); [reflexivity|]. specialize (B eq_refl). exfalso. assert (false = true) by (apply B; discriminate). discriminate.
  Qed.
  Lemma pump_ok s : IO s -> exists s', pump w s = Some s' /\ IO s' /\ popped s s'.
  Proof.
    intros H. unfold pump. cbn [ask]. destruct (pops_ok (choose w (clock s)) _ (clock_io (S (clock s)) _ H)) as (s' & E & H' & P & _).
    exists s'. split; [exact E|]. split; [exact H'|]. eapply popped_trans; [apply clock_popped|exact P].
  Qed.
  Lemma reserve_ok s : IO s -> exists ok s', ioq_reserve w s = Some (ok, s') /\ IO s' /\ popped s s' /\ (ok = true -> nthreads w <> 0).
  Proof.
    intros H. unfold ioq_reserve. destruct (nthreads w =? 0) eqn:E.
    - exists false, s. split; [reflexivity|]. split; [exact H|]. split; [apply popped_id|discriminate].
    - cbn [ask]. apply Nat.eqb_neq in E. destruct (_ =? 0).
      + exists true, (set_clock (S (clock s)) s). split; [reflexivity|]. split; [apply clock_io, H|]. split; [apply clock_popped|auto].
      + destruct (ioq_pop_ok (1 <? nthreads w) _ (clock_io (S (clock s)) _ H)) as (ok & s' & E' & H' & P & _).
        exists ok, s'. split; [exact E'|]. split; [exact H'|]. split; [eapply popped_trans; [apply clock_popped|exact P]|auto].
  Qed.

  (** A request to close something *)
  Lemma close_io s : nthreads w <> 0 -> IO s -> IO (set_inflight (inflight s ++ [RClose]) s) /\ popped s (set_inflight (inflight s ++ [RClose]) s).
  Proof.
    intros NT H. set (s' := set_inflight _ s).
    assert (FE : forall q, fly q (inflight s') = fly q (inflight s)).
    { intros q. subst s'. cbn [set_inflight inflight]. rewrite fly_app. destruct q; cbn; apply app_nil_r. }
    assert (CE : forall q, contents q s' = contents q s) by (intros q; unfold contents; rewrite FE; destruct q; reflexivity).
    assert (M : moved s s').
    { constructor; [constructor; reflexivity|intros q; rewrite CE; reflexivity|destruct q; auto|destruct q; auto|auto]. }
    split.
    - constructor.
      + intros q. destruct (io_q _ H q) as [A1 A2 A3 A4 A6 A7]. constructor; rewrite ?FE, ?CE; destruct q; assumption.
      + rewrite !CE. apply (io_nodup _ H).
      + rewrite !FE. apply (io_once _ H).
      + intros x I. apply (moved_in_queue _ _ x M) in I. destruct (io_live _ H x I) as (f & F & P). exists f. split; [exact F|].
        intros p E'. destruct (P p E') as (G & G'). split; [exact G|]. rewrite (moved_in_queue _ _ p M). exact G'.
      + intros x I. rewrite (moved_in_queue _ _ x M). exact (io_close _ H x I).
      + rewrite !FE. exact (io_busy _ H).
      + intros. contradiction.
    - constructor; [exact M|destruct q; auto|intros q; exists []; rewrite app_nil_r; destruct q; reflexivity| |auto].
      unfold pending. rewrite !FE. apply Nat.le_refl.
  Qed.
  Lemma maybe_close_ok s : IO s -> exists s', maybe_close w s = Some s' /\ IO s' /\ popped s s'.
  Proof.
    intros H. unfold maybe_close. destruct (pump_ok s H) as (s1 & -> & H1 & P1).
    destruct (reserve_ok s1 H1) as (ok & s2 & -> & H2 & P2 & NT). cbn [ask].
    pose proof (clock_io (S (clock s2)) s2 H2) as H3. pose proof (clock_popped (S (clock s2)) s2) as P3.
    destruct ok; cbn [andb].
    - destruct (0 <? _).
      + destruct (close_io _ (NT eq_refl) H3) as (H4 & P4). eexists. split; [reflexivity|]. split; [exact H4|].
        eapply popped_trans; [exact P1|]. eapply popped_trans; [exact P2|]. eapply popped_trans; [exact P3|exact P4].
      + eexists. split; [reflexivity|]. split; [exact H3|]. eapply popped_trans; [exact P1|]. eapply popped_trans; [exact P2|exact P3].
    - eexists. split; [reflexivity|]. split; [exact H3|]. eapply popped_trans; [exact P1|]. eapply popped_trans; [exact P2|exact P3].
  Qed.
End Io.
