(** * The files of a walk: creating, counting, and freeing them *)
From Coq Require Import List Bool Arith Lia Permutation Init.Byte.
From Coq Require Import ZifyBool ZifyNat.
From Verif Require Import PathModel PathSpec WalkSpec BftwModel BftwIo BftwQueue BftwPop BftwSpec BftwPath BftwHeap.
Import ListNotations.

Section Files.
  Context {U : Type}.
  Variable w : env U.
  Notation state := (state U).
  Notation IO := (IO w None).
  Notation moved := (moved w None).
  Notation popped := (popped w None).
  Notation contents := (contents w).
  Notation in_queue := (in_queue w None).
  Notation heap := (heap w).
  Notation kept := (kept w).

  Lemma qorder_sort q : qorder (flags w q) = fl_sort w.
  Proof. destruct q; cbn [flags]; [reflexivity|]. unfold dirq_flags. destruct (negb (not_bfs w) || buffering w); reflexivity. Qed.

  (** ** Reference counts *)

  Definition is_cur (x : nat) (s : state) : bool := match cur s with Some y => x =? y | None => false end.
  Definition heldb (x : nat) (s : state) : bool := existsb (Nat.eqb x) (contents FileQ s ++ contents DirQ s) || is_cur x s.
  Definition child_of (x : nat) (f : file) : bool := match f_parent f with Some p => p =? x | None => false end.
  Definition children (x : nat) (l : list file) : nat := length (filter (child_of x) l).

  Definition counted (s : state) : Prop := forall f, In f (files s) ->
    0 < refs s (f_id f) /\ refs s (f_id f) = (if heldb (f_id f) s then 1 else 0) + children (f_id f) (files s).

  Lemma in_queue_any x s : in_queue x s <-> In x (contents FileQ s ++ contents DirQ s).
  Proof.
    rewrite in_app_iff. unfold BftwIo.in_queue. split.
    - intros [([] & I) | I]; [left; exact I|right; exact I|discriminate].
    - intros [I | I]; left; [exists FileQ|exists DirQ]; exact I.
  Qed.
  Lemma is_cur_iff x s : is_cur x s = true <-> cur s = Some x.
  Proof. unfold is_cur. destruct (cur s) as [y|]; [|split; discriminate]. rewrite Nat.eqb_eq. split; congruence. Qed.
  Lemma heldb_iff x s : heldb x s = true <-> in_queue x s \/ cur s = Some x.
  Proof. unfold heldb. rewrite orb_true_iff, existsb_eqb, in_queue_any, is_cur_iff. reflexivity. Qed.
  Lemma heldb_eq x y s s' : (in_queue x s \/ cur s = Some x <-> in_queue y s' \/ cur s' = Some y) -> heldb x s = heldb y s'.
  Proof. intros H. apply eq_true_iff_eq. rewrite !heldb_iff. exact H. Qed.

  Lemma counted_eq s s' : counted s -> files s' = files s -> refs s' = refs s -> cur s' = cur s -> (forall x, in_queue x s' <-> in_queue x s) -> counted s'.
  Proof.
    intros C F R K Q f I. rewrite F in I. destruct (C f I) as (P & E). rewrite R, F. split; [exact P|]. rewrite E. f_equal.
    replace (heldb (f_id f) s') with (heldb (f_id f) s); [reflexivity|]. apply heldb_eq. rewrite K, Q. reflexivity.
  Qed.
  Lemma counted_arranged s s' : counted s -> arranged w s s' -> counted s'.
  Proof.
    intros C A. pose proof (arranged_same _ _ _ A) as []. apply (counted_eq s); auto. intros x. apply (arranged_in_queue _ _ _ x A).
  Qed.

  (** ** What leaves the files in the queues alone *)

  Record calm (s s' : state) : Prop := {
    calm_contents : forall q, Permutation (contents q s') (contents q s);
    calm_order : fl_sort w = true -> forall q, buffer (queue_of q s') = buffer (queue_of q s) /\ ready (queue_of q s') = ready (queue_of q s);
    calm_empty : forall q, buffer (queue_of q s) = [] -> buffer (queue_of q s') = [] }.
  Lemma calm_id s : calm s s.
  Proof. constructor; auto. Qed.
  Lemma calm_trans a b c : calm a b -> calm b c -> calm a c.
  Proof.
    intros A B. constructor.
    - intros q. rewrite (calm_contents _ _ B q). apply (calm_contents _ _ A q).
    - intros S q. destruct (calm_order _ _ A S q), (calm_order _ _ B S q). split; congruence.
    - intros q E. apply (calm_empty _ _ B), (calm_empty _ _ A), E.
  Qed.
  Lemma calm_moved s s' : moved s s' -> calm s s'.
  Proof.
    intros M. constructor; [apply (moved_contents _ _ _ _ M)| |apply (moved_empty _ _ _ _ M)]. intros S q. apply (moved_order _ _ _ _ M). rewrite qorder_sort. exact S.
  Qed.
  Lemma calm_kept s s' : kept s s' -> calm s s'.
  Proof. intros K. apply calm_moved in K as []. constructor; auto. Qed.
  Lemma calm_in_queue s s' x : calm s s' -> in_queue x s' <-> in_queue x s.
  Proof.
    intros C. rewrite !in_queue_any, !in_app_iff. split; (intros [I | I]; [left|right]); (eapply Permutation_in; [|exact I]); try apply (calm_contents _ _ C); apply Permutation_sym, (calm_contents _ _ C).
  Qed.

  (** ** New files *)

  Lemma find_add x (s : state) f : find_file x (set_files (files s ++ [f]) s) =
    match find_file x s with Some g => Some g | None => if f_id f =? x then Some f else None end.
  Proof.
    unfold find_file. cbn [set_files files]. induction (files s) as [|g l IH]; cbn [app find]; [reflexivity|].
    destruct (f_id g =? x); [reflexivity|exact IH].
  Qed.
  Lemma find_id x (s : state) f : NoDup (map f_id (files s)) -> In f (files s) -> f_id f = x -> find_file x s = Some f.
  Proof.
    intros N I E. destruct (find_file x s) as [g|] eqn:F.
    - destruct (find_in _ _ _ F) as (J & K). f_equal. apply (id_unique s); congruence.
    - unfold find_file in F. pose proof (find_none _ _ F f I) as K. cbn beta in K. rewrite E, Nat.eqb_refl in K. discriminate.
  Qed.
  Lemma live_in x (s : state) : live x s <-> exists f, In f (files s) /\ f_id f = x.
  Proof.
    split.
    - intros (f & F). exists f. apply (find_in _ _ _ F).
    - intros (f & I & E). unfold live. destruct (find_file x s) as [g|] eqn:F; [eauto|]. unfold find_file in F.
      pose proof (find_none _ _ F f I) as K. cbn beta in K. rewrite E, Nat.eqb_refl in K. discriminate.
  Qed.
  Lemma live_next x s : heap s -> live x s -> x < next_id s.
  Proof. intros H L. apply live_in in L as (f & I & <-). apply (h_next _ _ H f I). Qed.

  Lemma parent_live s f p : heap s -> In f (files s) -> f_parent f = Some p -> live p s.
  Proof. intros H I E. pose proof (ok_parent _ _ _ (h_ok _ _ H f I)) as P. rewrite E in P. destruct P as (g & k & G & _). exists g. exact G. Qed.
  Lemma queue_live s x : heap s -> in_queue x s -> live x s.
  Proof. intros H Q. destruct (io_live _ _ _ (h_io _ _ H) x Q) as (f & F & _). exists f. exact F. Qed.

  (** A file that is put in a queue *)
  Lemma heap_pushed s s' x : heap s -> IO s' -> same s s' -> (forall y, in_queue y s' <-> y = x \/ in_queue y s) ->
    (forall f, In f (files s) -> f_parent f <> Some x) -> cur s <> Some x -> heap s'.
  Proof.
    intros H I S Q NC CU. destruct S. destruct H. constructor; auto.
    - rewrite same_files. assumption.
    - rewrite same_files, same_next. assumption.
    - intros f. rewrite same_files. intros G. apply (file_ok_eq w s); auto.
    - rewrite same_files. assumption.
    - intros f p. rewrite same_files, Q. intros F E [-> | J]; [exact (NC f F E)|eapply h_parent; eassumption].
    - intros y. rewrite same_cur, Q. intros E. destruct (h_cur y E). split; [apply (live_eq s); assumption|]. intros [-> | J]; [congruence|tauto].
    - intros y. rewrite same_previous. intros E. destruct (h_prev y E) as (f & F & l & L). exists f. split; [unfold find_file in *; rewrite same_files; exact F|].
      exists l. rewrite same_path. exact L.
  Qed.

  Definition push (q : qsel) (x : nat) (s : state) : option state := match q with FileQ => push_file w x s | DirQ => push_dir w x s end.

  (** [x] is now in [q] *)
  Record put (q : qsel) (x : nat) (s s' : state) : Prop := {
    put_in : Permutation (contents q s') (x :: contents q s);
    put_out : forall q', q' <> q -> Permutation (contents q' s') (contents q' s);
    put_order : fl_sort w = true ->
      (buffer (fileq s') = buffer (fileq s) ++ match q with FileQ => [x] | DirQ => [] end /\ ready (fileq s') = ready (fileq s)) /\
      ready (dirq s') = ready (dirq s) ++ match q with FileQ => [] | DirQ => [x] end }.
  Lemma put_in_queue q x s s' y : put q x s s' -> in_queue y s' <-> y = x \/ in_queue y s.
  Proof.
    intros [A B _]. unfold BftwIo.in_queue. split.
    - intros [(q' & I) | I]; [|discriminate]. destruct (qsel_dec q q') as [-> | D].
      + eapply Permutation_in in I; [|exact A]. destruct I as [-> | I]; [left; reflexivity|right; left; exists q; exact I].
      + right. left. exists q'. eapply Permutation_in; [exact (B q' D)|exact I].
    - intros [-> | [(q' & I) | I]]; [| |discriminate]; left.
      + exists q. eapply Permutation_in; [apply Permutation_sym, A|left; reflexivity].
      + exists q'. destruct (qsel_dec q q') as [-> | D].
        * eapply Permutation_in; [apply Permutation_sym, A|right; exact I].
        * eapply Permutation_in; [apply Permutation_sym, (B q' D)|exact I].
  Qed.

  Lemma push_full q x s f : heap s -> find_file x s = Some f -> ~ in_queue x s -> ~ In x (to_close s) -> cur s <> Some x ->
    (forall p, f_parent f = Some p -> p <> x) ->
    (forall g, In g (files s) -> f_parent g <> Some x) ->
    exists s', push q x s = Some s' /\ heap s' /\ same s s' /\ put q x s s'.
  Proof.
    intros H F NQ NC CU NP CH.
    destruct (push_ok w q x s f (h_io _ _ H) F NQ NC) as (I1 & S1 & P1 & _ & O1 & R1).
    { intros p E. split; [exact (NP p E)|]. pose proof (find_in _ _ _ F) as (J & _). split; [apply (parent_live s f p H J E)|apply (h_parent _ _ H f p J E)]. }
    { intros y g _ G. apply CH, (find_in _ _ _ G). }
    set (s1 := set_queue q (queue_push (flags w q) x (queue_of q s)) s) in *.
    assert (PU : put q x s s1).
    { constructor; [exact P1|intros q' D; destruct (O1 q' D) as (-> & _); apply Permutation_refl|]. intros S. rewrite qorder_sort in R1. specialize (R1 S). destruct q.
      - destruct R1 as (A & B). destruct (O1 DirQ) as (_ & C); [discriminate|]. cbn [queue_of] in *. rewrite A, B, C, app_nil_r. auto.
      - destruct R1 as (A & B). destruct (O1 FileQ) as (_ & C); [discriminate|]. cbn [queue_of] in *. rewrite B, C, app_nil_r. auto. }
    assert (H1 : heap s1).
    { apply (heap_pushed s s1 x); auto. intros y. apply (put_in_queue q x s s1 y PU). }
    assert (K : exists s', push q x s = Some s' /\ IO s' /\ moved s1 s').
    { destruct q; [exact (stat_files_ok w s1 I1)|exact (opendirs_ok w s1 I1)]. }
    destruct K as (s' & E & I2 & M2). exists s'. split; [exact E|]. split; [apply (heap_moved w s1); assumption|].
    split; [eapply same_trans; [exact S1|apply (moved_same _ _ _ _ M2)]|]. pose proof (calm_moved _ _ M2) as C. constructor.
    - rewrite (calm_contents _ _ C q). apply (put_in _ _ _ _ PU).
    - intros q' D. rewrite (calm_contents _ _ C q'). apply (put_out _ _ _ _ PU q' D).
    - intros S. pose proof (calm_order _ _ C S FileQ) as (E1 & E2). pose proof (calm_order _ _ C S DirQ) as (_ & E3). cbn [queue_of] in *. rewrite E1, E2, E3.
      apply (put_order _ _ _ _ PU S).
  Qed.

  (** A new file is put in a queue. *)
  Record added (q : qsel) (f : file) (s s' : state) : Prop := {
    add_files : files s' = files s ++ [f];
    add_cur : cur s' = cur s;
    add_direrror : direrror s' = direrror s;
    add_previous : previous s' = previous s;
    add_failed : failed s' = failed s;
    add_user : user s' = user s;
    add_trace : trace s' = trace s;
    add_put : put q (f_id f) s s' }.

  Lemma children_app x a b : children x (a ++ b) = children x a + children x b.
  Proof. unfold children. rewrite filter_app, app_length. reflexivity. Qed.
  Lemma children_none x l : (forall f, In f l -> f_parent f <> Some x) -> children x l = 0.
  Proof.
    intros H. unfold children. induction l as [|f l IH]; [reflexivity|]. cbn [filter]. unfold child_of at 1.
    destruct (f_parent f) as [p|] eqn:E.
    - destruct (Nat.eqb_spec p x) as [-> | D]; [destruct (H f (or_introl eq_refl) E)|]. apply IH. intros g I. apply H. right. exact I.
    - apply IH. intros g I. apply H. right. exact I.
  Qed.

  Lemma add_ok q k tr p s : named w -> heap s -> counted s -> target_at w (Some (k, tr)) p s ->
    (forall f, In f (files s) -> f_pos f <> p) ->
    exists x s1 s' f, file_new k tr s = Some (x, s1) /\ push q x s1 = Some s' /\ heap s' /\ counted s' /\ added q f s s' /\
      f_id f = next_id s /\ f_pos f = p /\ f_node f = tr /\ f_parent f = cur s.
  Proof.
    intros NM H C TA NP. unfold target_at in TA.
    (* the new file and its parent *)
    assert (K : exists off r, let f := {| f_id := next_id s; f_parent := cur s; f_pos := p; f_node := tr; f_nameoff := off |} in
       file_new k tr s = Some (next_id s, set_refs r (set_next_id (S (next_id s)) (set_files (files s ++ [f]) s))) /\
       file_ok w s f /\
       (forall y, r y = if y =? next_id s then 1 else if is_cur y s then S (refs s y) else refs s y)).
    { unfold file_new. destruct (cur s) as [d|] eqn:CU.
      - destruct TA as (g & G & -> & N). rewrite G. pose proof (find_ok _ _ _ _ (h_ok _ _ H) G) as GO.
        destruct (child_off_ex w s g k tr NM GO N) as (off & CO). rewrite CO. exists off, (fun y => if y =? next_id s then 1 else if y =? d then S (refs s d) else refs s y).
        split; [cbn [set_ref set_refs cur]; rewrite CU; reflexivity|]. split.
        + destruct (child_off w s g k off GO CO) as (A & EA & LA & _). constructor; cbn [f_pos f_node f_nameoff f_parent].
          * exact N.
          * unfold f_name, f_info. cbn [f_node]. rewrite EA, app_length, LA, (node_name w _ _ N). unfold t_name. destruct tr. reflexivity.
          * exists g, k. auto.
        + intros y. unfold is_cur. rewrite CU. destruct (Nat.eqb_spec y d) as [-> | D]; reflexivity.
      - destruct TA as (-> & N & PR). exists 0, (fun y => if y =? next_id s then 1 else refs s y). split; [reflexivity|]. split.
        + constructor; cbn [f_pos f_node f_nameoff f_parent].
          * exact N.
          * unfold f_name, f_info. cbn [f_node BftwSpec.path_at]. rewrite (node_name w _ _ N). unfold t_name. destruct tr. reflexivity.
          * exists k. reflexivity.
        + intros y. unfold is_cur. rewrite CU. reflexivity. }
    destruct K as (off & r & FN & FO & RE). set (f := {| f_id := next_id s |}) in *. cbv zeta in FN.
    set (s1 := set_refs r (set_next_id (S (next_id s)) (set_files (files s ++ [f]) s))) in *.
    assert (FR : forall y g, find_file y s = Some g -> find_file y s1 = Some g).
    { intros y g G. change (find_file y s1) with (find_file y (set_files (files s ++ [f]) s)). rewrite find_add, G. reflexivity. }
    assert (NF : find_file (next_id s) s = None).
    { destruct (find_file (next_id s) s) as [g|] eqn:G; [|reflexivity]. exfalso. assert (live (next_id s) s) by (exists g; exact G).
      apply (live_next _ _ H) in H0. lia. }
    assert (FX : find_file (next_id s) s1 = Some f).
    { change (find_file (next_id s) s1) with (find_file (next_id s) (set_files (files s ++ [f]) s)). rewrite find_add, NF. cbn [f_id f]. rewrite Nat.eqb_refl. reflexivity. }
    assert (LV : forall y, live y s -> live y s1) by (intros y (g & G); exists g; apply FR, G).
    assert (I1 : IO s1).
    { apply (io_files w s); auto; [apply (h_io _ _ H)| |].
      - intros y g q' Q G E. apply LV, (parent_live s g q' H); [apply (find_in _ _ _ G)|exact E].
      - intros y Y. apply LV, (io_close _ _ _ (h_io _ _ H) y Y). }
    assert (NQ : ~ in_queue (next_id s) s1).
    { intros Q. apply (queue_live s _ H) in Q. apply (live_next _ _ H) in Q. lia. }
    assert (CN : forall x, cur s = Some x -> x < next_id s) by (intros x E; apply (live_next _ _ H), (h_cur _ _ H x E)).
    assert (PL : forall g p, In g (files s) -> f_parent g = Some p -> p < next_id s) by (intros g y G E; apply (live_next _ _ H), (parent_live s g y H G E)).
    assert (H1 : heap s1).
    { constructor.
      - exact I1.
      - change (files s1) with (files s ++ [f]). rewrite map_app, nodup_app. split; [apply (h_ids _ _ H)|]. split; [constructor; [intros []|constructor]|].
        intros y Y [<- | []]. apply in_map_iff in Y as (g & E & G). apply (h_next _ _ H) in G. rewrite E in G. cbn [f_id f] in G. lia.
      - change (files s1) with (files s ++ [f]). change (next_id s1) with (S (next_id s)). intros g G. apply in_app_iff in G as [G | [<- | []]]; [apply (h_next _ _ H) in G; lia|cbn [f_id f]; lia].
      - intros g G. change (files s1) with (files s ++ [f]) in G. assert (GO : file_ok w s g) by (apply in_app_iff in G as [G | [<- | []]]; [apply (h_ok _ _ H g G)|exact FO]).
        destruct GO. constructor; auto. destruct (f_parent g); [|assumption]. destruct ok_parent as (h & j & E & R). exists h, j. split; [apply FR, E|exact R].
      - change (files s1) with (files s ++ [f]). intros g h G J E. apply in_app_iff in G as [G | [<- | []]]; apply in_app_iff in J as [J | [<- | []]].
        + apply (h_pos _ _ H g h G J E).
        + exfalso. apply (NP g G). exact E.
        + exfalso. apply (NP h J). symmetry. exact E.
        + reflexivity.
      - change (files s1) with (files s ++ [f]). intros g y G E Q. apply in_app_iff in G as [G | [<- | []]].
        + exact (h_parent _ _ H g y G E Q).
        + apply (proj2 (h_cur _ _ H y E) Q).
      - intros y E. destruct (h_cur _ _ H y E) as (A & B). split; [apply LV, A|exact B].
      - intros y E. destruct (h_prev _ _ H y E) as (g & G & R). exists g. split; [apply FR, G|exact R]. }
    destruct (push_full q (next_id s) s1 f H1 FX NQ) as (s' & EP & H' & SM & PU).
    { intros T. assert (live (next_id s) s) by apply (io_close _ _ _ (h_io _ _ H) _ T). apply (live_next _ _ H) in H0. lia. }
    { intros E. change (cur s1) with (cur s) in E. apply CN in E. lia. }
    { intros y E. cbn [f_parent f] in E. apply CN in E. lia. }
    { intros g G E. change (files s1) with (files s ++ [f]) in G. apply in_app_iff in G as [G | [<- | []]]; [apply PL in E; [lia|exact G]|].
      cbn [f_parent f] in E. apply CN in E. lia. }
    exists (next_id s), s1, s', f. split; [exact FN|]. split; [exact EP|]. split; [exact H'|].
    assert (PS : put q (f_id f) s s') by (destruct PU; constructor; assumption). pose proof (same_files _ _ SM) as SF. change (files s1) with (files s ++ [f]) in SF.
    split; [|split; [destruct SM; constructor; assumption|auto]].
    intros g G. rewrite SF in *. rewrite (same_refs _ _ SM). change (refs s1) with r. rewrite RE, children_app.
    assert (CC : children (f_id g) [f] = if is_cur (f_id g) s then 1 else 0).
    { unfold children. cbn [filter]. unfold child_of. cbn [f_parent f]. unfold is_cur. destruct (cur s); [|reflexivity]. rewrite Nat.eqb_sym. destruct (_ =? _); reflexivity. }
    assert (HE : heldb (f_id g) s' = (f_id g =? next_id s) || heldb (f_id g) s).
    { apply eq_true_iff_eq. rewrite orb_true_iff, !heldb_iff, Nat.eqb_eq, (put_in_queue _ _ _ _ _ PS), (same_cur _ _ SM). change (cur s1) with (cur s). change (f_id f) with (next_id s). tauto. }
    rewrite HE, CC. apply in_app_iff in G as [G | [<- | []]].
    - destruct (C g G) as (A & B). pose proof (h_next _ _ H g G) as NX. replace (f_id g =? next_id s) with false by (symmetry; apply Nat.eqb_neq; lia). cbn [orb].
      destruct (is_cur (f_id g) s); lia.
    - change (f_id f) with (next_id s). rewrite Nat.eqb_refl. cbn [orb]. rewrite (children_none (next_id s)).
      + unfold is_cur. destruct (cur s) as [d|] eqn:CU; [|lia]. pose proof (CN d eq_refl). replace (next_id s =? d) with false by (symmetry; apply Nat.eqb_neq; lia). lia.
      + intros h G E. apply (PL h _ G) in E. lia.
  Qed.

  Lemma heap_uncur s : heap s -> heap (set_cur None s).
  Proof.
    intros []. constructor; auto.
    - apply cur_io; assumption.
    - intros f F. apply (file_ok_eq w s); auto.
    - cbn [set_cur cur]. intros x E. discriminate E.
  Qed.

  (** The current file becomes a directory to read. *)
  Lemma requeue_ok x s : heap s -> counted s -> cur s = Some x -> ~ In x (to_close s) -> (forall g, In g (files s) -> f_parent g <> Some x) ->
    exists s', push_dir w x (set_cur None s) = Some s' /\ heap s' /\ counted s' /\ same (set_cur None s) s' /\ put DirQ x s s'.
  Proof.
    intros H C CU TC CH. destruct (h_cur _ _ H x CU) as ((f & F) & NQ).
    assert (H1 : heap (set_cur None s)).
    { apply heap_uncur, H. }
    destruct (push_full DirQ x (set_cur None s) f H1 F NQ TC) as (s' & E & H' & SM & PU); [discriminate| |exact CH|].
    { intros p E ->. apply (CH f); [apply (find_in _ _ _ F)|exact E]. }
    exists s'. split; [exact E|]. split; [exact H'|]. split; [|split; [exact SM|destruct PU; constructor; assumption]].
    intros g G. pose proof (same_files _ _ SM) as SF. cbn [set_cur files] in SF. rewrite SF in *. rewrite (same_refs _ _ SM). cbn [set_cur refs]. destruct (C g G) as (A & B). split; [exact A|]. rewrite B. f_equal.
    replace (heldb (f_id g) s') with (heldb (f_id g) s); [reflexivity|]. apply heldb_eq. rewrite (put_in_queue _ _ _ _ (f_id g) PU), (same_cur _ _ SM), CU. cbn [set_cur cur].
    change (in_queue (f_id g) (set_cur None s)) with (in_queue (f_id g) s). intuition congruence.
  Qed.

  (** ** Files that are taken from a queue *)

  Lemma took_in_queue q x s s' y : IO s -> took w q x s s' -> (in_queue y s <-> y = x \/ in_queue y s') /\ ~ in_queue x s'.
  Proof.
    intros H T. pose proof (took_from _ _ _ _ _ T) as A. pose proof (took_other _ _ _ _ _ T) as B.
    assert (N : NoDup (x :: contents q s')) by (eapply Permutation_NoDup; [exact A|apply contents_nodup with (hole := None), H]). split.
    - unfold BftwIo.in_queue. split.
      + intros [(q' & I) | I]; [|discriminate]. destruct (qsel_dec q q') as [-> | D].
        * eapply Permutation_in in I; [|exact A]. destruct I as [-> | I]; [left; reflexivity|right; left; exists q; exact I].
        * right. left. exists q'. eapply Permutation_in; [apply Permutation_sym, (B q' D)|exact I].
      + intros [-> | [(q' & I) | I]]; [| |discriminate]; left.
        * exists q. eapply Permutation_in; [apply Permutation_sym, A|left; reflexivity].
        * exists q'. destruct (qsel_dec q q') as [-> | D].
          -- eapply Permutation_in; [apply Permutation_sym, A|right; exact I].
          -- eapply Permutation_in; [apply (B q' D)|exact I].
    - intros [(q' & I) | I]; [|discriminate]. destruct (qsel_dec q q') as [-> | D]; [apply NoDup_cons_iff in N; tauto|].
      eapply Permutation_in in I; [|apply (B q' D)]. pose proof (io_nodup _ _ _ H) as O. rewrite nodup_app in O. destruct O as (_ & _ & O).
      assert (J : In x (contents q s)) by (eapply Permutation_in; [apply Permutation_sym, A|left; reflexivity]).
      destruct q, q'; try congruence; [exact (O x J I)|exact (O x I J)].
  Qed.

  Lemma took_ok q x s s' : heap s -> counted s -> cur s = None -> IO s' -> took w q x s s' ->
    heap s' /\ counted s' /\ ~ In x (to_close s') /\ (forall g, In g (files s') -> f_parent g <> Some x).
  Proof.
    intros H C CU I T. pose proof (fun y => proj1 (took_in_queue q x s s' y (h_io _ _ H) T)) as Q. pose proof (proj2 (took_in_queue q x s s' x (h_io _ _ H) T)) as NX.
    pose proof (took_same _ _ _ _ _ T) as SM. pose proof (took_cur _ _ _ _ _ T) as TC.
    assert (SF : files s' = files s) by apply (same_files _ _ SM). assert (SR : refs s' = refs s) by apply (same_refs _ _ SM).
    assert (SN : next_id s' = next_id s) by apply (same_next _ _ SM). assert (SP : previous s' = previous s) by apply (same_previous _ _ SM).
    assert (SPA : path s' = path s) by apply (same_path _ _ SM).
    assert (XQ : in_queue x s) by (apply Q; left; reflexivity).
    assert (CH : forall g, In g (files s') -> f_parent g <> Some x).
    { intros g G E. rewrite SF in G. exact (h_parent _ _ H g x G E XQ). }
    split; [|split; [|split; [|exact CH]]].
    - pose proof (queue_live s x H XQ) as LX. destruct H. constructor; auto.
      + rewrite SF. assumption.
      + rewrite SF, SN. assumption.
      + intros f. rewrite SF. intros G. apply (file_ok_eq w s); auto.
      + rewrite SF. assumption.
      + intros f p. rewrite SF. intros G E J. apply (h_parent f p G E), Q. right. exact J.
      + intros y. rewrite TC. intros [= <-]. split; [apply (live_eq s); assumption|exact NX].
      + intros y. rewrite SP. intros E. destruct (h_prev y E) as (f & F & l & L). exists f. split; [unfold find_file in *; rewrite SF; exact F|]. exists l. rewrite SPA. exact L.
    - intros g G. rewrite SF in *. rewrite SR. destruct (C g G) as (A & B). split; [exact A|]. rewrite B. f_equal.
      replace (heldb (f_id g) s') with (heldb (f_id g) s); [reflexivity|]. apply heldb_eq. rewrite Q, CU, TC. intuition congruence.
    - intros J. destruct (took_close _ _ _ _ _ T x J) as [K | (z & f & _ & F & E)].
      + apply (io_close _ _ _ (h_io _ _ H) x K). exact XQ.
      + apply (h_parent _ _ H f x); [apply (find_in _ _ _ F)|exact E|exact XQ].
  Qed.

  (** ** Freeing files *)

  (** All directories to close are parents of queued files. *)
  Definition crowded (s : state) : Prop :=
    forall y, In y (to_close s) -> exists z f, in_queue z s /\ find_file z s = Some f /\ f_parent f = Some y.

  Lemma crowded_moved s s' : crowded s -> moved s s' -> crowded s'.
  Proof.
    intros C M y I. assert (K : exists z f, in_queue z s /\ find_file z s = Some f /\ f_parent f = Some y) by (destruct (moved_close _ _ _ _ M y I); auto).
    destruct K as (z & f & Q & F & E). exists z, f. rewrite (moved_in_queue w None _ _ z M), (same_find _ _ z (moved_same _ _ _ _ M)). auto.
  Qed.
  Lemma crowded_kept s s' : crowded s -> kept s s' -> crowded s'.
  Proof. intros C K. exact (crowded_moved s (restore s s') C K). Qed.

  (** Another reference remains. *)
  Lemma release_ok s x n : heap s -> counted s -> cur s = Some x -> refs s x = S (S n) ->
    heap (set_cur None (set_ref x (S n) s)) /\ counted (set_cur None (set_ref x (S n) s)).
  Proof.
    intros H C CU R. destruct (h_cur _ _ H x CU) as ((f & F) & NQ). split.
    - destruct (heap_uncur s H) as [B1 B2 B3 B4 B5 B6 B7 B8]. constructor; auto; [apply (io_eq w s); auto; apply (h_io _ _ H)|].
      intros g G. apply (file_ok_eq w s); auto. apply (h_ok _ _ H g G).
    - intros g G. destruct (C g G) as (A & B).
      change (files (set_cur None (set_ref x (S n) s))) with (files s) in *.
      change (refs (set_cur None (set_ref x (S n) s)) (f_id g)) with (if f_id g =? x then S n else refs s (f_id g)).
      destruct (Nat.eqb_spec (f_id g) x) as [E | D].
      + split; [lia|]. rewrite E in *. replace (heldb x (set_cur None (set_ref x (S n) s))) with false.
        * replace (heldb x s) with true in B by (symmetry; apply heldb_iff; right; exact CU). lia.
        * symmetry. apply not_true_iff_false. rewrite heldb_iff. intros [Q | Q]; [exact (NQ Q)|discriminate].
      + split; [exact A|]. rewrite B. f_equal. replace (heldb (f_id g) (set_cur None (set_ref x (S n) s))) with (heldb (f_id g) s); [reflexivity|].
        apply heldb_eq. rewrite CU. cbn [set_cur cur]. change (in_queue (f_id g) (set_cur None (set_ref x (S n) s))) with (in_queue (f_id g) s). intuition congruence.
  Qed.

  Lemma filter_other (l : list file) x : ~ In x (map f_id l) -> filter (fun g => negb (f_id g =? x)) l = l.
  Proof.
    induction l as [|g l IH]; intros N; [reflexivity|]. cbn [map In] in N. cbn [filter]. replace (f_id g =? x) with false by (symmetry; apply Nat.eqb_neq; tauto).
    cbn [negb]. f_equal. apply IH. tauto.
  Qed.
  Lemma children_filter y (l : list file) f : NoDup (map f_id l) -> In f l ->
    children y l = children y (filter (fun g => negb (f_id g =? f_id f)) l) + if child_of y f then 1 else 0.
  Proof.
    induction l as [|g l IH]; intros N I; [destruct I|]. cbn [map] in N. apply NoDup_cons_iff in N as (N1 & N2). cbn [filter]. destruct I as [-> | I].
    - rewrite Nat.eqb_refl. cbn [negb]. rewrite (filter_other l (f_id f) N1). unfold children. cbn [filter]. destruct (child_of y f); cbn [length]; lia.
    - replace (f_id g =? f_id f) with false.
      + cbn [negb]. unfold children in *. cbn [filter]. specialize (IH N2 I). destruct (child_of y g); cbn [length]; lia.
      + symmetry. apply Nat.eqb_neq. intros E. apply N1. rewrite E. apply in_map, I.
  Qed.
  Lemma find_removed y x (s : state) : y <> x -> find_file y (set_files (filter (fun g => negb (f_id g =? x)) (files s)) s) = find_file y s.
  Proof.
    intros D. unfold find_file. cbn [set_files files]. induction (files s) as [|g l IH]; [reflexivity|]. cbn [filter].
    destruct (Nat.eqb_spec (f_id g) x) as [E | E]; cbn [negb find].
    - rewrite IH. replace (f_id g =? y) with false; [reflexivity|]. symmetry. apply Nat.eqb_neq. congruence.
    - destruct (f_id g =? y); [reflexivity|exact IH].
  Qed.

  (** The current file is freed, after the callback was told about it or not. *)
  Lemma free_ok s s1 x f : heap s -> counted s -> crowded s -> cur s = Some x -> find_file x s = Some f -> refs s x = 1 ->
    heap s1 -> kept (set_ref x 0 s) s1 ->
    let s2 := match previous s1 with Some y => if x =? y then set_previous (f_parent f) s1 else s1 | None => s1 end in
    exists s4, maybe_close w (set_cur (f_parent f) s2) = Some s4 /\ listed x s4 = false /\
      let s5 := set_files (filter (fun g => negb (f_id g =? x)) (files s4)) s4 in
      heap s5 /\ counted s5 /\ crowded s5 /\ calm s s5 /\
      files s5 = filter (fun g => negb (f_id g =? x)) (files s) /\ cur s5 = f_parent f /\
      direrror s5 = direrror s1 /\ failed s5 = failed s1 /\ user s5 = user s1 /\ trace s5 = trace s1.
  Proof.
    intros H C CR CU F R H1 K s2. destruct (find_in _ _ _ F) as (FI & FX). destruct (h_cur _ _ H x CU) as (_ & NQ).
    pose proof (moved_same _ _ _ _ K) as SM.
    assert (F1 : files s1 = files s) by apply (same_files _ _ SM). assert (R1 : refs s1 = refs (set_ref x 0 s)) by apply (same_refs _ _ SM).
    assert (C1 : cur s1 = Some x) by (rewrite <- CU; apply (same_cur _ _ SM)). assert (N1 : next_id s1 = next_id s) by apply (same_next _ _ SM).
    assert (CA1 : calm s s1) by (destruct (calm_kept _ _ K); constructor; assumption). assert (CR1 : crowded s1) by exact (crowded_kept (set_ref x 0 s) s1 CR K).
    (* no children *)
    destruct (C f FI) as (_ & CN). rewrite FX, R in CN. replace (heldb x s) with true in CN by (symmetry; apply heldb_iff; right; exact CU).
    assert (NC : forall g, In g (files s) -> f_parent g <> Some x).
    { intros g G E. assert (Z : children x (files s) = 0) by lia. unfold children in Z. apply length_zero_iff_nil in Z.
      assert (I : In g (filter (child_of x) (files s))) by (apply filter_In; split; [exact G|]; unfold child_of; rewrite E; apply Nat.eqb_refl). rewrite Z in I. destruct I. }
    (* the previous file *)
    set (s3 := set_cur (f_parent f) s2).
    assert (E2 : fileq s2 = fileq s1 /\ dirq s2 = dirq s1 /\ inflight s2 = inflight s1 /\ to_close s2 = to_close s1 /\ busy s2 = busy s1 /\ files s2 = files s1 /\
       next_id s2 = next_id s1 /\ refs s2 = refs s1 /\ direrror s2 = direrror s1 /\ failed s2 = failed s1 /\ user s2 = user s1 /\ trace s2 = trace s1 /\ path s2 = path s1).
    { subst s2. destruct (previous s1) as [y|]; [destruct (x =? y)|]; repeat split. }
    destruct E2 as (A1 & A2 & A3 & A4 & A5 & A6 & A7 & A8 & A9 & A10 & A11 & A12 & A13).
    pose proof (ok_parent _ _ _ (h_ok _ _ H f FI)) as FP.
    assert (PV : forall y, previous s2 = Some y -> y <> x /\ exists g, find_file y s1 = Some g /\ exists l, path s1 = path_at w (f_pos g) ++ l).
    { intros y E. subst s2. destruct (previous s1) as [z|] eqn:P1.
      - destruct (h_prev _ _ H1 z P1) as (g & G & l & L). destruct (Nat.eqb_spec x z) as [<- | D].
        + cbn [set_previous previous] in E. rewrite E in FP. destruct FP as (h & k & Fh & EP & _). split.
          * intros ->. exact (NC f FI E).
          * exists h. split; [unfold find_file in *; rewrite F1; exact Fh|]. assert (G1 : g = f) by (unfold find_file in *; rewrite F1 in G; congruence). subst g.
            destruct (path_prefix w [k] (f_pos h)) as (l' & L'). cbn [app] in L'. exists (l' ++ l). rewrite L, EP, L', app_assoc. reflexivity.
        + rewrite P1 in E. injection E as <-. split; [congruence|]. exists g. split; [exact G|]. exists l. exact L.
      - rewrite P1 in E. discriminate. }
    assert (I3 : IO s3) by (apply (io_eq w s1); auto; apply (h_io _ _ H1)).
    destruct (maybe_close_ok w None s3 I3) as (s4 & EM & I4 & P4). exists s4. split; [exact EM|].
    pose proof (popped_moved _ _ _ _ P4) as M4. pose proof (moved_same _ _ _ _ M4) as SM4.
    assert (F4 : files s4 = files s) by (rewrite (same_files _ _ SM4); subst s3; cbn [set_cur files]; congruence).
    assert (CA3 : calm s s3).
    { destruct CA1. subst s3. constructor.
      - intros q. rewrite (contents_eq w q s1 (set_cur (f_parent f) s2)); auto.
      - intros S q. destruct q; cbn [queue_of set_cur fileq dirq]; rewrite ?A1, ?A2; [exact (calm_order0 S FileQ)|exact (calm_order0 S DirQ)].
      - intros q. destruct q; cbn [queue_of set_cur fileq dirq]; rewrite ?A1, ?A2; [exact (calm_empty0 FileQ)|exact (calm_empty0 DirQ)]. }
    assert (CA4 : calm s s4) by (eapply calm_trans; [exact CA3|apply calm_moved, M4]).
    assert (CR3 : crowded s3).
    { intros y. change (to_close s3) with (to_close s2). rewrite A4. intros J. destruct (CR1 y J) as (z & g & Z & G & E). exists z, g.
      split; [|split; [unfold find_file in *; change (files s3) with (files s2); rewrite A6; exact G|exact E]]. apply (in_queue_eq w s1); assumption. }
    pose proof (crowded_moved s3 s4 CR3 M4) as CR4.
    assert (NQ4 : ~ in_queue x s4) by (rewrite (calm_in_queue _ _ x CA4); exact NQ).
    assert (NT : ~ In x (to_close s4)).
    { intros J. destruct (CR4 x J) as (z & g & _ & G & E). 
      destruct (find_in _ _ _ G) as (GI & _). rewrite F4 in GI. exact (NC g GI E). }
    assert (NL : listed x s4 = false).
    { unfold listed. apply orb_false_iff. split; [apply orb_false_iff; split|].
      - apply existsb_eqb_false. rewrite !in_app_iff. intros [J | [J | J]]; [exact (NT J)| |].
        + exact (not_ready w None FileQ x s4 I4 NQ4 J).
        + exact (not_ready w None DirQ x s4 I4 NQ4 J).
      - apply not_true_iff_false. intros J. exact (NQ4 (queued_in w x s4 I4 J)).
      - unfold is_busy. apply existsb_eqb_false. intros J. apply (Permutation_in _ (io_busy _ _ _ I4)) in J.
        assert (Q : exists q, In x (fly q (inflight s4))) by (apply in_app_iff in J as [J | J]; eauto). destruct Q as (q & Q).
        destruct (q_fly _ _ _ _ (io_q _ _ _ I4 q) x Q) as [L | (_ & L)]; [|discriminate]. apply NQ4. left. exists q. exact L. }
    split; [exact NL|]. set (s5 := set_files _ s4).
    assert (F5 : files s5 = filter (fun g => negb (f_id g =? x)) (files s)) by (subst s5; cbn [set_files files]; rewrite F4; reflexivity).
    assert (IN5 : forall g, In g (files s5) <-> In g (files s) /\ f_id g <> x).
    { intros g. rewrite F5, filter_In, negb_true_iff, Nat.eqb_neq. reflexivity. }
    assert (FF : forall y, y <> x -> find_file y s5 = find_file y s).
    { intros y D. subst s5. rewrite find_removed by exact D. unfold find_file. rewrite F4. reflexivity. }
    assert (LV : forall y, y <> x -> live y s -> live y s5) by (intros y D (g & G); exists g; rewrite FF; assumption).
    assert (PP : forall g p, In g (files s) -> f_parent g = Some p -> p <> x) by (intros g p G E ->; exact (NC g G E)).
    assert (C5 : cur s5 = f_parent f) by (subst s5; cbn [set_files cur]; rewrite (same_cur _ _ SM4); reflexivity).
    assert (QE : forall y, in_queue y s5 <-> in_queue y s) by (intros y; exact (calm_in_queue _ _ y CA4)).
    assert (PE : path s5 = path s1) by (subst s5; cbn [set_files path]; rewrite (same_path _ _ SM4); subst s3; cbn [set_cur path]; exact A13).
    assert (VE : previous s5 = previous s2) by (subst s5; cbn [set_files previous]; rewrite (same_previous _ _ SM4); reflexivity).
    split; [|split; [|split; [|split; [|repeat split]]]].
    - constructor.
      + apply (io_files w s4); auto.
        * intros y g Q G. change (find_file y s5 = Some g). rewrite FF; [unfold find_file in *; rewrite F4 in G; exact G|]. intros ->. exact (NQ4 Q).
        * intros y g p Q G E. destruct (find_in _ _ _ G) as (GI & _). rewrite F4 in GI. apply LV; [exact (PP g p GI E)|exact (parent_live s g p H GI E)].
        * intros y J. apply LV; [intros ->; exact (NT J)|]. apply (live_eq s4); [symmetry; exact F4|]. apply (io_close _ _ _ I4 y J).
      + rewrite F5. pose proof (h_ids _ _ H) as N. clear -N. induction (files s) as [|g l IH]; [constructor|]. cbn [map] in N. apply NoDup_cons_iff in N as (N1 & N2). cbn [filter].
        destruct (negb (f_id g =? x)); [|exact (IH N2)]. cbn [map]. constructor; [|exact (IH N2)]. intros J. apply N1. apply in_map_iff in J as (h & E & J). apply filter_In in J as (J & _). rewrite <- E. apply in_map, J.
      + intros g G. apply IN5 in G as (G & _). replace (next_id s5) with (next_id s); [apply (h_next _ _ H g G)|]. subst s5. cbn [set_files next_id]. rewrite (same_next _ _ SM4). subst s3. cbn [set_cur next_id]. congruence.
      + intros g G. apply IN5 in G as (G & D). destruct (h_ok _ _ H g G) as [B1 B2 B3]. constructor; auto. destruct (f_parent g) as [p|] eqn:E; [|exact B3].
        destruct B3 as (h & k & Fh & Rest). exists h, k. rewrite FF; [auto|]. exact (PP g p G E).
      + intros g h G J. apply IN5 in G as (G & _). apply IN5 in J as (J & _). exact (h_pos _ _ H g h G J).
      + intros g p G E. apply IN5 in G as (G & _). rewrite QE. exact (h_parent _ _ H g p G E).
      + intros y. rewrite C5. intros E. split; [apply LV; [exact (PP f y FI E)|exact (parent_live s f y H FI E)]|]. rewrite QE. exact (h_parent _ _ H f y FI E).
      + intros y. rewrite VE. intros E. destruct (PV y E) as (D & g & G & l & L). exists g. split; [rewrite (FF y D); unfold find_file in *; rewrite F1 in G; exact G|]. exists l. rewrite PE. exact L.
    - intros g G. apply IN5 in G as (G & D). destruct (C g G) as (B1 & B2).
      assert (RE : refs s5 (f_id g) = refs s (f_id g)).
      { subst s5. cbn [set_files refs]. rewrite (same_refs _ _ SM4). subst s3. cbn [set_cur refs]. rewrite A8, R1. cbn [set_ref set_refs refs]. replace (f_id g =? x) with false by (symmetry; apply Nat.eqb_neq; exact D). reflexivity. }
      rewrite RE. split; [exact B1|]. rewrite B2, F5. rewrite (children_filter (f_id g) (files s) f (h_ids _ _ H) FI), FX.
      assert (HE : heldb (f_id g) s5 = heldb (f_id g) s || child_of (f_id g) f).
      { apply eq_true_iff_eq. rewrite orb_true_iff, !heldb_iff, QE, C5, CU. unfold child_of. destruct (f_parent f) as [p|]; [rewrite Nat.eqb_eq|]; intuition congruence. }
      rewrite HE. destruct (child_of (f_id g) f) eqn:CO; [|rewrite orb_false_r; lia].
      assert (FE : f_parent f = Some (f_id g)) by (unfold child_of in CO; destruct (f_parent f); [apply Nat.eqb_eq in CO; congruence|discriminate]).
      replace (heldb (f_id g) s) with false; [cbn [orb]; lia|]. symmetry. apply not_true_iff_false. rewrite heldb_iff, CU. intros [Q | Q]; [exact (h_parent _ _ H f _ FI FE Q)|congruence].
    - intros y J. destruct (CR4 y J) as (z & g & Z & G & E). exists z, g. split; [exact Z|]. split; [|exact E]. rewrite FF; [unfold find_file in *; rewrite F4 in G; exact G|].
      intros ->. exact (NQ4 Z).
    - destruct CA4. constructor; auto.
    - exact F5.
    - exact C5.
    - subst s5. cbn [set_files direrror]. rewrite (same_direrror _ _ SM4). exact A9.
    - subst s5. cbn [set_files failed]. rewrite (same_failed _ _ SM4). exact A10.
    - subst s5. cbn [set_files user]. rewrite (same_user _ _ SM4). exact A11.
    - subst s5. cbn [set_files trace]. rewrite (same_trace _ _ SM4). exact A12.
  Qed.
End Files.
