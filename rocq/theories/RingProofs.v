(** * Proofs about the threads of the I/O queue *)
From Coq Require Import List Bool Arith ZArith Lia Permutation.
From Verif Require Import RingModel RingSpec.
Import ListNotations.

(** ** Stories *)

Lemma story_app i t t' : story i (t ++ t') = story i t ++ story i t'.
Proof. induction t as [|e t IH]; [reflexivity|]. destruct e as [j w| | | |]; cbn; auto. destruct (j =? i); cbn; congruence. Qed.
Lemma story_of i t w : story i (t ++ [Of i w]) = story i t ++ [w].
Proof. rewrite story_app. cbn. rewrite Nat.eqb_refl. reflexivity. Qed.
Lemma story_not i j t w : j <> i -> story i (t ++ [Of j w]) = story i t.
Proof. intros N. rewrite story_app. cbn. destruct (Nat.eqb_spec j i); [congruence|]. apply app_nil_r. Qed.
Definition global (e : event) : Prop := match e with Of _ _ => False | _ => True end.
Lemma story_global i t e : global e -> story i (t ++ [e]) = story i t.
Proof. intros G. rewrite story_app. destruct e; cbn in *; try contradiction; apply app_nil_r. Qed.
Lemma count_app f t t' : count f (t ++ t') = count f t + count f t'.
Proof. unfold count. rewrite filter_app, app_length. reflexivity. Qed.

Lemma list_eq_nil {A} (q : list A) : q = [] \/ exists q' y, q = q' ++ [y].
Proof. destruct q as [|x q]; [auto|]. right. destruct (exists_last (l := x :: q)) as (q' & y & E); [discriminate|]. exists q', y. exact E. Qed.

(** ** Where the requests are: [L] has their stories so far, [R] the answers that are ready *)

Section Places.
Variable cancel : Prop.

Record places (L : list (nat * list what)) (R : list (nat * Z)) (n : nat) (t : list event) : Prop := {
  pl_story : forall i l, In (i, l) L -> story i t = l;
  pl_ready : forall i r, In (i, r) R -> exists k, life cancel k (story i t ++ [Answered r]);
  pl_once : NoDup (map fst L ++ map fst R);
  pl_old : forall i, In i (map fst L ++ map fst R) -> i < n;
  pl_new : forall i, n <= i -> story i t = [];
  pl_rest : forall i, ~ In i (map fst L ++ map fst R) -> ended cancel (story i t) }.

Lemma places_perm L L' R n t : Permutation L L' -> places L R n t -> places L' R n t.
Proof.
  intros P [A B C D E F]. assert (Q : Permutation (map fst L ++ map fst R) (map fst L' ++ map fst R)) by (apply Permutation_app_tail, Permutation_map, P).
  constructor; auto.
  - intros i l I. apply A. apply (Permutation_in _ (Permutation_sym P)). exact I.
  - apply (Permutation_NoDup Q). exact C.
  - intros i I. apply D. apply (Permutation_in _ (Permutation_sym Q)). exact I.
  - intros i N. apply F. intros I. apply N. apply (Permutation_in _ Q). exact I.
Qed.
Lemma places_global L R n t e : global e -> places L R n t -> places L R n (t ++ [e]).
Proof. intros G [A B C D E F]. constructor; auto; intros; rewrite story_global; auto. Qed.
Lemma places_step i l L R n t w : places ((i, l) :: L) R n t -> places ((i, l ++ [w]) :: L) R n (t ++ [Of i w]).
Proof.
  intros [A B C D E F]. cbn [map fst app] in *. assert (NI : ~ In i (map fst L ++ map fst R)) by (inversion C; auto). assert (LT : i < n) by (apply D; left; reflexivity).
  constructor; cbn [map fst app]; auto.
  - intros j m [I | I].
    + injection I as <- <-. rewrite story_of. f_equal. apply A. left. reflexivity.
    + rewrite story_not; [apply A; right; exact I|]. intros ->. apply NI. apply in_app_iff. left. apply in_map_iff. exists (j, m). auto.
  - intros j r I. rewrite story_not; [apply B; exact I|]. intros ->. apply NI. apply in_app_iff. right. apply in_map_iff. exists (j, r). auto.
  - intros j L'. rewrite story_not; [auto|lia].
  - intros j N. rewrite story_not; [apply F; exact N|]. intros ->. apply N. left. reflexivity.
Qed.
Lemma places_take L R n t k : places L R n t -> places ((n, [Took k]) :: L) R (S n) (t ++ [Of n (Took k)]).
Proof.
  intros [A B C D E F]. assert (NI : ~ In n (map fst L ++ map fst R)) by (intros I; apply D in I; lia).
  constructor; cbn [map fst app].
  - intros j m [I | I].
    + injection I as <- <-. rewrite story_of, E; auto.
    + rewrite story_not; [apply A; exact I|]. intros ->. apply NI. apply in_app_iff. left. apply in_map_iff. exists (j, m). auto.
  - intros j r I. rewrite story_not; [apply B; exact I|]. intros ->. apply NI. apply in_app_iff. right. apply in_map_iff. exists (j, r). auto.
  - constructor; auto.
  - intros j [<- | I]; [lia|]. apply D in I. lia.
  - intros j L'. rewrite story_not; [apply E; lia|lia].
  - intros j N. rewrite story_not; [apply F; intros I; apply N; right; exact I|]. intros ->. apply N. left. reflexivity.
Qed.
Lemma places_ready i l k r L R n t : places ((i, l) :: L) R n t -> life cancel k (l ++ [Answered r]) -> places L (R ++ [(i, r)]) n t.
Proof.
  intros [A B C D E F] V. cbn [map fst app] in *.
  assert (P : Permutation (i :: map fst L ++ map fst R) (map fst L ++ map fst (R ++ [(i, r)]))).
  { rewrite map_app. cbn. rewrite app_assoc. apply Permutation_cons_append. }
  constructor; auto.
  - intros j m I. apply A. right. exact I.
  - intros j q I. apply in_app_iff in I. destruct I as [I | [I | []]]; [apply B; exact I|]. injection I as <- <-. exists k. rewrite (A i l); [exact V|left; reflexivity].
  - apply (Permutation_NoDup P). exact C.
  - intros j I. apply D. apply (Permutation_in _ (Permutation_sym P)). exact I.
  - intros j N. apply F. intros I. apply N. apply (Permutation_in _ P). exact I.
Qed.
Lemma places_answer i r L R n t : places L ((i, r) :: R) n t -> places L R n (t ++ [Of i (Answered r)]).
Proof.
  intros [A B C D E F]. cbn [map fst] in *. apply NoDup_remove in C. destruct C as (C & NI).
  assert (LT : i < n) by (apply D; apply in_app_iff; right; left; reflexivity).
  constructor; auto.
  - intros j m I. rewrite story_not; [apply A; exact I|]. intros ->. apply NI. apply in_app_iff. left. apply in_map_iff. exists (j, m). auto.
  - intros j q I. rewrite story_not; [apply B; right; exact I|]. intros ->. apply NI. apply in_app_iff. right. apply in_map_iff. exists (j, q). auto.
  - intros j I. apply D. apply in_app_iff in I. apply in_app_iff. destruct I; [left|right; right]; auto.
  - intros j N. rewrite story_not; [auto|lia].
  - intros j N. destruct (Nat.eq_dec i j) as [<- | NE].
    + rewrite story_of. right. apply B. left. reflexivity.
    + rewrite story_not; auto. apply F. intros I. apply in_app_iff in I. apply N. apply in_app_iff. destruct I as [I | [I | I]]; auto. congruence.
Qed.
End Places.

(** ** The invariant *)
Section Thread.
  Variable env : nat -> moment.
  Variables (IOQ_BATCH entries : nat).
  Variables (has_openat has_close has_statx has_unwrapdir : bool).
  Definition cancel : Prop := was_cancelled env.
  Hypothesis BATCH : 0 < IOQ_BATCH.
  Hypothesis ENTRIES : 0 < entries.
  Hypothesis STOPS : stops_last IOQ_BATCH env.

  Definition at_pending (x : option ent) : list (nat * list what) := match x with Some e => [(id e, [Took (kind e)])] | None => [] end.
  Definition at_sq (e : ent) : nat * list what := (id e, [Took (kind e); Queued]).
  Definition at_flight (e : ent) : nat * list what := (id e, [Took (kind e); Queued; Sent]).
  Definition at_cq (x : ent * Z) : nat * list what := (id (fst x), [Took (kind (fst x)); Queued; Sent; Done (snd x)]).
  Definition at_ready (x : ent * Z) : nat * Z := (id (fst x), snd x).
  Definition locs (s : st) : list (nat * list what) :=
    flat_map at_pending (rest (pending s)) ++ map at_sq (sq s) ++ map at_flight (flight s) ++ map at_cq (cq s).

  Definition all_allowed (t : list event) : Prop := forall p e q, t = p ++ e :: q -> allowed cancel entries p e.
  Lemma allowed_snoc t e : all_allowed t -> allowed cancel entries t e -> all_allowed (t ++ [e]).
  Proof.
    intros A B p x q E. destruct (list_eq_nil q) as [-> | (q' & y & ->)].
    - apply app_inj_tail in E. destruct E as (<- & <-). exact B.
    - rewrite app_comm_cons, app_assoc in E. apply app_inj_tail in E. destruct E as (E & _). exact (A _ _ _ E).
  Qed.

  Record inv (h : list (nat * list what)) (s : st) : Prop := {
    in_places : places cancel (h ++ locs s) (map at_ready (ready s)) (next s) (trace s);
    in_allowed : all_allowed (trace s);
    in_sent : count is_sent (trace s) = count is_seen (trace s) + length (flight s) + length (cq s);
    in_queued : count is_queued (trace s) = count is_sent (trace s) + length (sq s);
    in_sq : length (sq s) <= entries;
    in_all : length (sq s) + length (flight s) + length (cq s) <= 2 * entries }.

  Lemma locs_tick s : locs (tick s) = locs s. Proof. reflexivity. Qed.
  Lemma inv_tick h s : inv h s -> inv h (tick s).
  Proof. intros [A B C D E F]. constructor; auto. Qed.

  (** Flushing *)
  Lemma flush_fold h l : forall s, places cancel (h ++ locs s) (map at_ready l) (next s) (trace s) ->
    all_allowed (trace s) ->
    let s' := fold_left (fun s x => emit (Of (id (fst x)) (Answered (snd x))) s) l s in
    places cancel (h ++ locs s') [] (next s') (trace s') /\ all_allowed (trace s') /\
    (forall f, (forall i r, f (Of i (Answered r)) = false) -> count f (trace s') = count f (trace s)) /\
    pending s' = pending s /\ sq s' = sq s /\ flight s' = flight s /\ cq s' = cq s /\ prepped s' = prepped s /\ submitted s' = submitted s /\
    stop s' = stop s /\ next s' = next s /\ (forall e, In e (trace s) -> In e (trace s')).
  Proof.
    induction l as [|(e, r) l IH]; intros s P A; cbn [fold_left map].
    - split; [exact P|]. split; [exact A|]. repeat split; auto.
    - cbn [fst snd]. cbn [map at_ready fst snd] in P. apply places_answer in P.
      specialize (IH (emit (Of (id e) (Answered r)) s) P (allowed_snoc _ (Of (id e) (Answered r)) A I)).
      cbn zeta in IH |- *. destruct IH as (X1 & X2 & X3 & X4 & X5 & X6 & X7 & X8 & X9 & X10 & X11 & X12). split; [exact X1|]. split; [exact X2|]. split.
      + intros f F. rewrite X3; [|exact F]. cbn [trace emit]. rewrite count_app. unfold count at 2. cbn. rewrite F. cbn. lia.
      + repeat (split; [assumption|]). intros x I. apply X12. cbn. apply in_app_iff. left. exact I.
  Qed.

  (** What most steps do not change *)
  Record same (s s' : st) : Prop := {
    sm_pending : pending s' = pending s; sm_sq : sq s' = sq s; sm_flight : flight s' = flight s; sm_cq : cq s' = cq s;
    sm_prepped : prepped s' = prepped s; sm_submitted : submitted s' = submitted s; sm_stop : stop s' = stop s;
    sm_trace : forall e, In e (trace s) -> In e (trace s') }.
  Lemma same_refl s : same s s. Proof. constructor; auto. Qed.
  Lemma same_trans a b c : same a b -> same b c -> same a c.
  Proof. intros [A1 A2 A3 A4 A5 A6 A7 A8] [B1 B2 B3 B4 B5 B6 B7 B8]. constructor; try congruence. auto. Qed.

  Lemma flush_inv h s : inv h s -> inv h (ioq_batch_flush s) /\ same s (ioq_batch_flush s) /\ ready (ioq_batch_flush s) = [].
  Proof.
    intros [A B C D E F]. unfold ioq_batch_flush. destruct (flush_fold h (ready s) s A B) as (X1 & X2 & X3 & X4 & X5 & X6 & X7 & X8 & X9 & X10 & X11 & X12).
    set (s' := fold_left _ _ _) in *. split; [|split; [constructor; auto|reflexivity]].
    constructor; cbn [set_ready ready trace next flight cq sq map]; auto.
    - rewrite !X3, X6, X7; auto.
    - rewrite !X3, X5; auto.
    - rewrite X5. exact E.
    - rewrite X5, X6, X7. exact F.
  Qed.

  Lemma push_inv h i l k r s e : inv ((i, l) :: h) s -> id e = i -> life cancel k (l ++ [Answered r]) -> inv h (ioq_batch_push IOQ_BATCH e r s) /\ same s (ioq_batch_push IOQ_BATCH e r s).
  Proof.
    intros [A B C D E F] I V. unfold ioq_batch_push. set (s1 := set_ready _ s).
    assert (J : inv h s1).
    { constructor; auto. unfold s1. cbn [set_ready ready next trace]. rewrite map_app. unfold at_ready at 2. cbn [map fst snd]. rewrite I. eapply places_ready; [exact A|exact V]. }
    destruct (IOQ_BATCH <=? length (ready s1)).
    - destruct (flush_inv h s1 J) as (K & S & _). split; [exact K|]. apply (same_trans s s1); [constructor; auto|exact S].
    - split; [exact J|constructor; auto].
  Qed.

  (** Events that are always allowed, of the request in hand *)
  Definition plain (w : what) : Prop := match w with Sent | Seen | Queued => False | _ => True end.
  Lemma emit_inv h i l w s : plain w -> inv ((i, l) :: h) s -> inv ((i, l ++ [w]) :: h) (emit (Of i w) s).
  Proof.
    intros P [A B C D E F]. constructor; cbn [emit trace ready next flight cq sq]; auto.
    - apply (places_step _ _ _ _ _ _ _ w) in A. exact A.
    - apply allowed_snoc; auto. destruct w; cbn in *; auto; contradiction.
    - rewrite !count_app. unfold count at 2 4. destruct w; cbn in *; try contradiction; lia.
    - rewrite !count_app. unfold count at 2 4. destruct w; cbn in *; try contradiction; lia.
  Qed.
  Lemma emit_same e s : same s (emit e s).
  Proof. constructor; auto. intros x I. cbn. apply in_app_iff. left. exact I. Qed.
  Lemma tick_same s : same s (tick s).
  Proof. constructor; auto. Qed.
  Lemma emit_global h e s : global e -> allowed cancel entries (trace s) e -> inv h s -> inv h (emit e s).
  Proof.
    intros G AL [A B C D E F]. constructor; cbn [emit trace ready next flight cq sq]; auto.
    - apply (places_global _ _ _ _ _ _ G A).
    - apply allowed_snoc; auto.
    - rewrite !count_app. unfold count at 2 4. destruct e; cbn in *; try contradiction; lia.
    - rewrite !count_app. unfold count at 2 4. destruct e; cbn in *; try contradiction; lia.
  Qed.

  (** ** The kernel *)
  Lemma places_move h h' s s' i l w L : places cancel (h ++ locs s) (map at_ready (ready s)) (next s) (trace s) ->
    Permutation (h ++ locs s) ((i, l) :: L) -> Permutation ((i, l ++ [w]) :: L) (h' ++ locs s') ->
    ready s' = ready s -> next s' = next s -> trace s' = trace s ++ [Of i w] ->
    places cancel (h' ++ locs s') (map at_ready (ready s')) (next s') (trace s').
  Proof.
    intros P A B R N T. rewrite R, N, T. apply (places_perm _ _ _ _ _ _ B). apply places_step. apply (places_perm _ _ _ _ _ _ A). exact P.
  Qed.

  Record moved (s s' : st) : Prop := {
    mv_pending : pending s' = pending s; mv_sq : sq s' = sq s; mv_rings : length (flight s') + length (cq s') = length (flight s) + length (cq s);
    mv_ready : ready s' = ready s; mv_prepped : prepped s' = prepped s; mv_submitted : submitted s' = submitted s; mv_stop : stop s' = stop s;
    mv_trace : forall e, In e (trace s) -> In e (trace s') }.
  Lemma moved_refl s : moved s s. Proof. constructor; auto. Qed.
  Lemma moved_trans a b c : moved a b -> moved b c -> moved a c.
  Proof. intros [A1 A2 A3 A4 A5 A6 A7 A8] [B1 B2 B3 B4 B5 B6 B7 B8]. constructor; try congruence. auto. Qed.

  Lemma remove_at_perm {A} n (l : list A) x : nth_error l n = Some x -> Permutation l (x :: remove_at n l).
  Proof.
    revert n. induction l as [|y l IH]; intros [|n] E; try discriminate E.
    - injection E as ->. reflexivity.
    - cbn. rewrite (IH n E) at 1. apply perm_swap.
  Qed.

  Lemma complete_inv h l : forall s, inv h s -> inv h (complete l s) /\ moved s (complete l s).
  Proof.
    unfold complete. induction l as [|(i, r) l IH]; intros s J; [split; [exact J|apply moved_refl]|]. cbn [fold_left fst snd].
    destruct (nth_error (flight s) i) as [e|] eqn:E; [|apply IH; exact J].
    set (s1 := emit _ _). assert (P : Permutation (flight s) (e :: remove_at i (flight s))) by (apply remove_at_perm; exact E).
    assert (LF : length (flight s) = S (length (remove_at i (flight s)))) by (rewrite P at 1; reflexivity).
    assert (J1 : inv h s1 /\ moved s s1).
    { destruct J as [A B C D F G]. split.
      - constructor; cbn [s1 emit set_rings trace flight cq sq].
        + apply (places_move h h s s1 (id e) [Took (kind e); Queued; Sent] (Done r) (h ++ flat_map at_pending (rest (pending s)) ++ map at_sq (sq s) ++ map at_flight (remove_at i (flight s)) ++ map at_cq (cq s))); auto.
          * unfold locs. rewrite (Permutation_map at_flight P). cbn [map]. unfold at_flight at 1.
            rewrite !app_assoc. rewrite <- !app_assoc. rewrite (app_assoc h), (app_assoc (h ++ _)). cbn [app].
            etransitivity; [apply Permutation_sym, Permutation_middle|]. rewrite <- !app_assoc. reflexivity.
          * unfold locs, s1. cbn [emit set_rings pending sq flight cq]. rewrite map_app. cbn [map]. unfold at_cq at 3. cbn [fst snd].
            rewrite !app_assoc. rewrite Permutation_cons_append. apply Permutation_app_tail. rewrite <- !app_assoc. reflexivity.
        + apply allowed_snoc; [exact B|exact I].
        + rewrite !count_app. unfold count at 2 4. cbn. rewrite app_length. cbn. lia.
        + rewrite !count_app. unfold count at 2 4. cbn. lia.
        + exact F.
        + rewrite app_length. cbn. lia.
      - constructor; cbn [s1 emit set_rings trace flight cq sq]; auto; [rewrite app_length; cbn; lia|]. intros x I. apply in_app_iff. left. exact I. }
    destruct J1 as (J1 & M1). destruct (IH s1 J1) as (J2 & M2). split; [exact J2|]. apply (moved_trans _ s1); assumption.
  Qed.

  Lemma send_inv h n : forall s, inv h s -> n <= length (sq s) ->
    inv h (send n s) /\ pending (send n s) = pending s /\ length (sq (send n s)) = length (sq s) - n /\
    length (flight (send n s)) = length (flight s) + n /\ cq (send n s) = cq s /\ ready (send n s) = ready s /\ prepped (send n s) = prepped s /\
    submitted (send n s) = submitted s /\ stop (send n s) = stop s /\ (forall e, In e (trace s) -> In e (trace (send n s))).
  Proof.
    induction n as [|n IH]; intros s J L; cbn [send].
    - split; [exact J|]. repeat split; auto; lia.
    - destruct (sq s) as [|e q] eqn:Q; [cbn in L; lia|]. set (s1 := emit _ _).
      assert (J1 : inv h s1).
      { destruct J as [A B C D F G]. constructor; cbn [s1 emit set_rings trace flight cq sq].
        - apply (places_move h h s s1 (id e) [Took (kind e); Queued] Sent (h ++ flat_map at_pending (rest (pending s)) ++ map at_sq q ++ map at_flight (flight s) ++ map at_cq (cq s))); auto.
          + unfold locs. rewrite Q. cbn [map]. unfold at_sq at 1. rewrite (app_assoc h). cbn [app].
            etransitivity; [apply Permutation_sym, Permutation_middle|]. rewrite <- !app_assoc. reflexivity.
          + unfold locs, s1. cbn [emit set_rings pending sq flight cq]. rewrite map_app. cbn [map]. unfold at_flight at 3.
            rewrite <- !app_assoc. rewrite !(app_assoc h), !(app_assoc (h ++ _)), !(app_assoc ((h ++ _) ++ _)). cbn [app].
            apply Permutation_middle.
        - apply allowed_snoc; [exact B|]. unfold allowed, outstanding. cbn [trace tick]. rewrite Q in *. cbn [length] in *. lia.
        - rewrite !count_app. unfold count at 2 4. cbn. rewrite app_length. cbn. lia.
        - rewrite !count_app. unfold count at 2 4. cbn. rewrite Q in D. cbn [length] in D. lia.
        - rewrite Q in F. cbn in F. lia.
        - rewrite app_length. rewrite Q in G. cbn in *. lia. }
      cbn in L. destruct (IH s1 J1) as (K & X1 & X2 & X3 & X4 & X5 & X6 & X7 & X8 & X9); [cbn; lia|]. split; [exact K|].
      cbn [s1 emit set_rings pending sq flight cq ready prepped submitted stop trace] in X1, X2, X3, X4, X5, X6, X7, X8, X9.
      split; [exact X1|]. split; [rewrite X2; cbn; lia|]. split; [rewrite X3, app_length; cbn; lia|]. repeat (split; [assumption|]).
      intros x I. apply X9. apply in_app_iff. left. exact I.
  Qed.

  Lemma wait_cqes_inv h n s : inv h s -> n <= length (flight s) + length (cq s) -> inv h (wait_cqes env n s) /\ moved s (wait_cqes env n s).
  Proof.
    intros J L. unfold wait_cqes. assert (J1 : inv h (emit (Wait n) (tick s))).
    { apply emit_global; [exact I| |apply inv_tick; exact J]. unfold allowed, outstanding. cbn [trace tick]. destruct J. lia. }
    destruct (complete_inv h (completed (env (clock s))) _ J1) as (K & M). split; [exact K|].
    apply (moved_trans _ (emit (Wait n) (tick s))); [|exact M]. constructor; auto. intros x I. cbn. apply in_app_iff. left. exact I.
  Qed.

  Lemma submit_and_wait_inv h n s k s' : inv h s -> n <= length (flight s) + length (cq s) + length (sq s) -> submit_and_wait env n s = (k, s') ->
    inv h s' /\ k <= length (sq s) /\ pending s' = pending s /\ length (sq s') = length (sq s) - k /\ length (flight s') + length (cq s') = length (flight s) + length (cq s) + k /\
    ready s' = ready s /\ prepped s' = prepped s /\ submitted s' = submitted s /\ stop s' = stop s /\ (forall e, In e (trace s) -> In e (trace s')).
  Proof.
    intros J L E. unfold submit_and_wait in E. injection E as <- <-. set (m := env (clock s)). set (k := min (accepted m) (length (sq s))).
    assert (K : k <= length (sq s)) by (unfold k; lia).
    destruct (send_inv h k (tick s) (inv_tick _ _ J) K) as (J1 & X1 & X2 & X3 & X4 & X5 & X6 & X7 & X8 & X9). cbn [tick pending sq flight cq ready prepped submitted stop trace] in *.
    set (s1 := send k (tick s)) in *. set (s2 := if k =? length (sq s) then emit (Wait n) s1 else s1).
    assert (J2 : inv h s2 /\ pending s2 = pending s1 /\ sq s2 = sq s1 /\ flight s2 = flight s1 /\ cq s2 = cq s1 /\ ready s2 = ready s1 /\ prepped s2 = prepped s1 /\ submitted s2 = submitted s1 /\ stop s2 = stop s1 /\ (forall e, In e (trace s1) -> In e (trace s2))).
    { unfold s2. destruct (Nat.eqb_spec k (length (sq s))) as [EQ|]; [|repeat (split; [auto; fail|]); auto]. split.
      - apply emit_global; [exact I| |exact J1]. unfold allowed, outstanding. cbn [trace tick]. destruct J1. assert (length (cq s1) = length (cq s)) by congruence. lia.
      - repeat (split; [reflexivity|]). intros x I. cbn. apply in_app_iff. left. exact I. }
    destruct J2 as (J2 & Y1 & Y2 & Y3 & Y4 & Y5 & Y6 & Y7 & Y8 & Y9).
    destruct (complete_inv h (completed m) s2 J2) as (J3 & [Z1 Z2 Z3 Z4 Z5 Z6 Z7 Z8]). split; [exact J3|]. split; [exact K|].
    split; [congruence|]. split; [rewrite Z2, Y2, X2; reflexivity|]. split; [rewrite Z3, Y3, Y4, X3, X4; lia|]. repeat (split; [congruence|]). auto.
  Qed.

  (** ** Reaping *)

  Lemma check_cancel_spec k s c s' : ioq_check_cancel env k s = (c, s') -> s' = tick s /\ (c = true -> cancel /\ ~ closes k).
  Proof.
    unfold ioq_check_cancel. intros E. injection E as <- <-. split; [reflexivity|]. intros T. apply andb_true_iff in T. destruct T as (T & K).
    split; [exists (clock s); exact T|]. intros [-> | ->]; discriminate.
  Qed.

  Lemma reap_inv h e res s : inv ((id e, [Took (kind e); Queued; Sent; Done res; Seen]) :: h) s ->
    inv h (ioq_reap_cqe env IOQ_BATCH e res s) /\ same s (ioq_reap_cqe env IOQ_BATCH e res s).
  Proof.
    intros J. unfold ioq_reap_cqe. destruct (Z.ltb_spec res 0) as [N|N].
    { apply (push_inv h (id e) _ (kind e) res s e J eq_refl). apply l_ring. left. exact N. }
    destruct (kind e) eqn:K.
    - apply (push_inv h (id e) _ (kind e) res s e J eq_refl). rewrite K. apply l_ring. right. intros [X | X]; discriminate.
    - apply (push_inv h (id e) _ (kind e) res s e J eq_refl). rewrite K. apply l_ring. right. intros [X | X]; discriminate.
    - destruct (ioq_check_cancel env Opendir s) as (c, s1) eqn:E. apply check_cancel_spec in E. destruct E as (-> & CC). apply inv_tick in J. destruct c.
      + destruct (CC eq_refl) as (CA & _). apply (emit_inv _ _ _ (Dropped res)) in J; [|exact I]. 
        destruct (push_inv h (id e) _ Opendir (- EINTR)%Z _ e J eq_refl) as (X & Y); [apply l_dropped; assumption|]. split; [exact X|].
        eapply same_trans; [|exact Y]. apply (same_trans _ (tick s)); [apply tick_same|apply emit_same].
      + set (r := result (env (clock (tick s)))). apply (emit_inv _ _ _ (Wrapped res r)) in J; [|exact I]. apply inv_tick in J.
        destruct (Z.leb_spec 0 r) as [R|R].
        * destruct (push_inv h (id e) _ Opendir r _ e J eq_refl) as (X & Y); [apply l_dir; assumption|]. split; [exact X|].
          eapply same_trans; [|exact Y]. constructor; auto. intros x I. cbn. apply in_app_iff. left. exact I.
        * apply (emit_inv _ _ _ (Dropped res)) in J; [|exact I].
          destruct (push_inv h (id e) _ Opendir r _ e J eq_refl) as (X & Y); [apply l_nodir; assumption|]. split; [exact X|].
          eapply same_trans; [|exact Y]. constructor; auto. intros x I. cbn. apply in_app_iff. left. apply in_app_iff. left. exact I.
    - apply (push_inv h (id e) _ (kind e) res s e J eq_refl). rewrite K. apply l_ring. right. intros [X | X]; discriminate.
    - set (r := result (env (clock s))). apply (emit_inv _ _ _ (Converted r)) in J; [|exact I]. apply inv_tick in J.
      destruct (push_inv h (id e) _ Stat r _ e J eq_refl) as (X & Y); [apply l_stat; assumption|]. split; [exact X|].
      eapply same_trans; [|exact Y]. constructor; auto. intros x I. cbn. apply in_app_iff. left. exact I.
  Qed.

  Lemma see_inv h e res c s : inv h s -> cq s = (e, res) :: c ->
    inv ((id e, [Took (kind e); Queued; Sent; Done res; Seen]) :: h) (emit (Of (id e) Seen) (set_rings (sq s) (flight s) c s)).
  Proof.
    intros [A B C D E F] Q. set (s1 := emit _ _). constructor; cbn [s1 emit set_rings trace flight cq sq].
    - apply (places_move h ((id e, [Took (kind e); Queued; Sent; Done res; Seen]) :: h) s s1 (id e) [Took (kind e); Queued; Sent; Done res] Seen (h ++ flat_map at_pending (rest (pending s)) ++ map at_sq (sq s) ++ map at_flight (flight s) ++ map at_cq c)); auto.
      unfold locs. rewrite Q. cbn [map]. unfold at_cq at 1. cbn [fst snd].
      rewrite !(app_assoc h), !(app_assoc (h ++ _)), !(app_assoc ((h ++ _) ++ _)). apply Permutation_sym, Permutation_middle.
    - apply allowed_snoc; [exact B|exact I].
    - rewrite Q in C. cbn [length] in C. rewrite !count_app. unfold count at 2 4. cbn. lia.
    - rewrite !count_app. unfold count at 2 4. cbn. lia.
    - exact E.
    - rewrite Q in F. cbn [length] in F. lia.
  Qed.

  (** What the loops do not change *)
  Record kept (s s' : st) : Prop := {
    kp_pending : pending s' = pending s; kp_sq : sq s' = sq s; kp_prepped : prepped s' = prepped s; kp_stop : stop s' = stop s;
    kp_trace : forall e, In e (trace s) -> In e (trace s') }.
  Lemma kept_refl s : kept s s. Proof. constructor; auto. Qed.
  Lemma kept_trans a b c : kept a b -> kept b c -> kept a c.
  Proof. intros [A1 A2 A3 A4 A5] [B1 B2 B3 B4 B5]. constructor; try congruence. auto. Qed.
  Lemma same_kept s s' : same s s' -> kept s s'. Proof. intros []. constructor; auto. Qed.
  Lemma moved_kept s s' : moved s s' -> kept s s'. Proof. intros []. constructor; auto. Qed.

  Lemma for_each_inv h fuel : forall seen s ran seen' s', inv h s -> for_each_cqe env IOQ_BATCH fuel seen s = (ran, seen', s') ->
    inv h s' /\ kept s s' /\ submitted s' = submitted s /\ length (flight s') + length (cq s') + seen' = length (flight s) + length (cq s) + seen.
  Proof.
    induction fuel as [|fuel IH]; intros seen s ran seen' s' J E; cbn [for_each_cqe] in E.
    all: destruct (complete_inv h (completed (env (clock s))) (tick s) (inv_tick _ _ J)) as (J1 & M1).
    all: set (s1 := complete (completed (env (clock s))) (tick s)) in *.
    all: assert (K1 : kept s s1) by (apply (kept_trans _ (tick s)); [apply same_kept, tick_same|apply moved_kept, M1]).
    all: assert (L1 : length (flight s1) + length (cq s1) = length (flight s) + length (cq s)) by (rewrite (mv_rings _ _ M1); reflexivity).
    all: assert (S1 : submitted s1 = submitted s) by (rewrite (mv_submitted _ _ M1); reflexivity).
    all: destruct (cq s1) as [|(e, res) c] eqn:Q.
    - injection E as <- <- <-. rewrite Q. auto.
    - injection E as <- <- <-. rewrite Q. repeat (split; [assumption|]). lia.
    - injection E as <- <- <-. rewrite Q. auto.
    - pose proof (see_inv h e res c s1 J1 Q) as J2. set (s2 := emit _ _) in *. destruct (reap_inv h e res s2 J2) as (J3 & [X1 X2 X3 X4 X5 X6 X7 X8]).
      apply IH in E; [|exact J3]. destruct E as (J4 & K4 & S4 & L4). split; [exact J4|]. split.
      + apply (kept_trans _ s1); [exact K1|]. eapply kept_trans; [|exact K4]. constructor; auto. intros x I. apply X8. cbn. apply in_app_iff. left. exact I.
      + split; [rewrite S4, X6; exact S1|]. rewrite L4, X3, X4. cbn [s2 emit set_rings flight cq]. cbn [length] in L1. lia.
  Qed.

  Lemma drain_loop_inv h fuel : forall n s ran s', inv h s -> submitted s = length (flight s) + length (cq s) -> n <= submitted s ->
    drain_loop env IOQ_BATCH fuel n s = (ran, s') ->
    inv h s' /\ (ran = true -> kept s s' /\ submitted s' = length (flight s') + length (cq s') /\ submitted s' + n <= submitted s).
  Proof.
    induction fuel as [|fuel IH]; intros n s ran s' J C L E; cbn [drain_loop] in E.
    - destruct (Nat.eqb_spec (submitted s) 0) as [Z|Z]; injection E as <- <-; (split; [exact J|]); [|discriminate]. intros _. split; [apply kept_refl|]. split; [exact C|lia].
    - destruct (Nat.eqb_spec (submitted s) 0) as [Z|Z].
      { injection E as <- <-. split; [exact J|]. intros _. split; [apply kept_refl|]. split; [exact C|lia]. }
      set (s1 := if 0 <? n then wait_cqes env n s else s) in E.
      assert (X : inv h s1 /\ kept s s1 /\ submitted s1 = submitted s /\ length (flight s1) + length (cq s1) = length (flight s) + length (cq s)).
      { unfold s1. destruct (0 <? n); [|repeat (split; [auto using kept_refl; fail|]); reflexivity].
        destruct (wait_cqes_inv h n s J ltac:(lia)) as (A & M). split; [exact A|]. split; [apply moved_kept, M|]. split; [apply (mv_submitted _ _ M)|apply (mv_rings _ _ M)]. }
      destruct X as (J1 & K1 & S1 & L1). destruct (for_each_cqe env IOQ_BATCH fuel 0 s1) as ((ran1, seen), s2) eqn:F.
      apply for_each_inv with (h := h) in F; [|exact J1]. destruct F as (J2 & K2 & S2 & L2). destruct ran1.
      + set (s3 := set_counts _ _ _) in E. assert (J3 : inv h s3) by (destruct J2; constructor; auto).
        assert (K3 : kept s s3) by (apply (kept_trans _ s1); [exact K1|]; apply (kept_trans _ s2); [exact K2|]; constructor; auto).
        assert (C3 : submitted s3 = length (flight s3) + length (cq s3)) by (cbn; lia).
        assert (B3 : submitted s3 + seen = submitted s) by (cbn; lia).
        destruct (Nat.leb_spec n seen) as [W|W].
        * injection E as <- <-. split; [exact J3|]. intros _. split; [exact K3|]. split; [exact C3|lia].
        * apply IH in E; auto; [|lia]. destruct E as (J4 & P4). split; [exact J4|]. intros R. destruct (P4 R) as (K4 & C4 & B4).
          split; [apply (kept_trans _ s3); assumption|]. split; [exact C4|lia].
      + injection E as <- <-. split; [exact J2|discriminate].
  Qed.

  Lemma drain_inv h fuel n s ran s' : inv h s -> submitted s = length (flight s) + length (cq s) -> n <= submitted s ->
    ioq_ring_drain env IOQ_BATCH fuel n s = (ran, s') ->
    inv h s' /\ (ran = true -> kept s s' /\ submitted s' = length (flight s') + length (cq s') /\ submitted s' + n <= submitted s /\ ready s' = []).
  Proof.
    intros J C L E. unfold ioq_ring_drain, check in E. rewrite (proj2 (Nat.leb_le _ _) L) in E. unfold andthen in E.
    destruct (drain_loop env IOQ_BATCH fuel n s) as (ran1, s1) eqn:D. apply drain_loop_inv with (h := h) in D; auto. destruct D as (J1 & P1). cbn [fst snd] in E. destruct ran1.
    - injection E as <- <-. destruct (P1 eq_refl) as (K1 & C1 & B1). destruct (flush_inv h s1 J1) as (J2 & [X1 X2 X3 X4 X5 X6 X7 X8] & R2). split; [exact J2|]. intros _.
      split; [apply (kept_trans _ s1); [exact K1|constructor; auto]|]. rewrite X3, X4, X6. split; [exact C1|]. split; [exact B1|exact R2].
    - injection E as <- <-. split; [exact J1|discriminate].
  Qed.

  Record counted (s : st) : Prop := { ct_prepped : prepped s = length (sq s); ct_submitted : submitted s = length (flight s) + length (cq s) }.

  Lemma submit_loop_inv h fuel : forall n s ran s', inv h s -> counted s -> n <= submitted s + prepped s ->
    submit_loop env IOQ_BATCH fuel n s = (ran, s') ->
    inv h s' /\ (ran = true -> counted s' /\ sq s' = [] /\ ready s' = [] /\ pending s' = pending s /\ stop s' = stop s /\ (forall e, In e (trace s) -> In e (trace s')) /\
      (submitted s' + n <= submitted s + prepped s \/ submitted s' <= entries)).
  Proof.
    assert (LAST : forall fuel n s ran s', inv h s -> counted s -> n <= submitted s + prepped s -> prepped s = 0 -> ioq_ring_drain env IOQ_BATCH fuel n s = (ran, s') ->
      inv h s' /\ (ran = true -> counted s' /\ sq s' = [] /\ ready s' = [] /\ pending s' = pending s /\ stop s' = stop s /\ (forall e, In e (trace s) -> In e (trace s')) /\
        (submitted s' + n <= submitted s + prepped s \/ submitted s' <= entries))).
    { intros f n s ran s' J [CP CS] L Z E. apply drain_inv with (h := h) in E; auto; [|lia]. destruct E as (J1 & P1). split; [exact J1|]. intros R. destruct (P1 R) as ([K1 K2 K3 K4 K5] & C1 & B1 & R1).
      assert (Q : sq s = []) by (destruct (sq s); [reflexivity|cbn in CP; lia]).
      split; [constructor; [rewrite K3, K2; exact CP|exact C1]|]. split; [congruence|]. repeat (split; [assumption|]). left. lia. }
    induction fuel as [|fuel IH]; intros n s ran s' J C L E; cbn [submit_loop] in E.
    - destruct (Nat.eqb_spec (prepped s) 0) as [Z|Z]; [apply (LAST 0 n s ran s'); assumption|]. injection E as <- <-. split; [exact J|discriminate].
    - destruct (Nat.eqb_spec (prepped s) 0) as [Z|Z]; [apply (LAST (S fuel) n s ran s'); assumption|].
      destruct (submit_and_wait env n s) as (ret, s1) eqn:W. destruct C as [CP CS].
      apply submit_and_wait_inv with (h := h) in W; [|exact J|lia]. destruct W as (J1 & KR & X1 & X2 & X3 & X4 & X5 & X6 & X7 & X8).
      destruct (Nat.leb_spec ret 0) as [R0|R0].
      + assert (ret = 0) by lia. subst ret. apply IH in E; [|exact J1|constructor; lia|lia]. destruct E as (J2 & P2). split; [exact J2|]. intros R.
        destruct (P2 R) as (C2 & Y1 & Y2 & Y3 & Y4 & Y5 & Y6). split; [exact C2|]. split; [exact Y1|]. split; [exact Y2|]. split; [congruence|]. split; [congruence|]. split; [auto|]. lia.
      + set (s2 := set_counts _ _ _) in E. assert (J2 : inv h s2) by (destruct J1; constructor; auto).
        assert (C2 : counted s2) by (constructor; cbn [s2 set_counts prepped submitted sq flight cq]; lia).
        assert (T2 : submitted s2 + prepped s2 = submitted s + prepped s) by (cbn [s2 set_counts prepped submitted]; lia).
        destruct (Nat.ltb_spec 0 (prepped s2)) as [P|P].
        * unfold andthen in E. destruct (ioq_ring_drain env IOQ_BATCH fuel (submitted s2) s2) as (ran1, s3) eqn:D. apply drain_inv with (h := h) in D; [|exact J2|apply C2|lia].
          destruct D as (J3 & P3). cbn [fst snd] in E. destruct ran1; [|injection E as <- <-; split; [exact J3|discriminate]].
          destruct (P3 eq_refl) as ([K1 K2 K3 K4 K5] & C3 & B3 & R3). apply IH in E; [|exact J3| |lia].
          -- destruct E as (J4 & P4). split; [exact J4|]. intros R. destruct (P4 R) as (C4 & Y1 & Y2 & Y3 & Y4 & Y5 & Y6). split; [exact C4|]. split; [exact Y1|]. split; [exact Y2|].
             split; [rewrite Y3, K1; exact X1|]. split; [rewrite Y4, K4; exact X7|]. split; [intros e I; apply Y5, K5, X8, I|].
             right. destruct Y6 as [Y6|Y6]; [|exact Y6]. assert (length (sq s2) <= entries) by (destruct J2; assumption). destruct C2 as [C2 _]. lia.
          -- constructor; [|exact C3]. rewrite K3, K2. apply C2.
        * apply IH in E; [|exact J2|exact C2|lia]. destruct E as (J4 & P4). split; [exact J4|]. intros R. destruct (P4 R) as (C4 & Y1 & Y2 & Y3 & Y4 & Y5 & Y6).
          split; [exact C4|]. split; [exact Y1|]. split; [exact Y2|]. split; [rewrite Y3; exact X1|]. split; [rewrite Y4; exact X7|]. split; [intros e I; apply Y5, X8, I|]. lia.
  Qed.

  Lemma ring_submit_inv h fuel s ran s' : inv h s -> counted s -> ioq_ring_submit env IOQ_BATCH entries fuel s = (ran, s') ->
    inv h s' /\ (ran = true -> counted s' /\ sq s' = [] /\ ready s' = [] /\ pending s' = pending s /\ stop s' = stop s /\ (forall e, In e (trace s) -> In e (trace s')) /\ submitted s' <= entries).
  Proof.
    intros J C E. unfold ioq_ring_submit in E. set (n := if entries <? _ then _ else _) in E.
    assert (N : n <= submitted s + prepped s /\ submitted s + prepped s - n <= entries).
    { unfold n. destruct (Nat.ltb_spec entries (prepped s + submitted s)) as [A|A]; [lia|].
      destruct ((prepped s =? 0) && (0 <? prepped s + submitted s)) eqn:B; [|lia]. apply andb_true_iff in B. destruct B as (_ & B). apply Nat.ltb_lt in B. lia. }
    apply submit_loop_inv with (h := h) in E; [|exact J|exact C|apply N]. destruct E as (J1 & P1). split; [exact J1|]. intros R.
    destruct (P1 R) as (C1 & Y1 & Y2 & Y3 & Y4 & Y5 & Y6). repeat (split; [assumption|]). lia.
  Qed.

  (** ** Preparing *)

  Lemma reserve_inv h fuel : forall n s ran s', inv h s -> counted s -> submitted s <= entries -> ioq_reserve_sqes env IOQ_BATCH entries fuel n s = (ran, s') ->
    inv h s' /\ (ran = true -> counted s' /\ pending s' = pending s /\ stop s' = stop s /\ (forall e, In e (trace s) -> In e (trace s')) /\ submitted s' <= entries /\ n + length (sq s') <= entries).
  Proof.
    induction fuel as [|fuel IH]; intros n s ran s' J C L E; cbn [ioq_reserve_sqes] in E.
    all: destruct (Nat.ltb_spec (entries - length (sq s)) n) as [A|A].
    - injection E as <- <-. split; [exact J|discriminate].
    - injection E as <- <-. split; [exact J|]. intros _. repeat (split; [auto; fail|]). destruct J. lia.
    - unfold andthen in E. destruct (ioq_ring_submit env IOQ_BATCH entries fuel s) as (ran1, s1) eqn:D. apply ring_submit_inv with (h := h) in D; auto. destruct D as (J1 & P1). cbn [fst snd] in E.
      destruct ran1; [|injection E as <- <-; split; [exact J1|discriminate]]. destruct (P1 eq_refl) as (C1 & Y1 & Y2 & Y3 & Y4 & Y5 & Y6).
      apply IH in E; auto. destruct E as (J2 & P2). split; [exact J2|]. intros R. destruct (P2 R) as (C2 & Z1 & Z2 & Z3 & Z4 & Z5). split; [exact C2|]. split; [congruence|]. split; [congruence|]. auto.
    - injection E as <- <-. split; [exact J|]. intros _. repeat (split; [auto; fail|]). destruct J. lia.
  Qed.

  Lemma prep_sqe_inv h fuel e s ran s' : inv ((id e, [Took (kind e)]) :: h) s -> counted s -> submitted s <= entries ->
    ioq_prep_sqe env IOQ_BATCH entries has_openat has_close has_statx has_unwrapdir fuel e s = (ran, s') ->
    if ran then inv h s' /\ counted s' /\ submitted s' <= entries /\ pending s' = pending s /\ stop s' = stop s /\ (forall e, In e (trace s) -> In e (trace s'))
    else inv ((id e, [Took (kind e)]) :: h) s'.
  Proof.
    intros J C L E. unfold ioq_prep_sqe in E. destruct (ioq_check_cancel env (kind e) s) as (c, s1) eqn:CC. apply check_cancel_spec in CC. destruct CC as (-> & CC). apply inv_tick in J. destruct c.
    { injection E as <- <-. change (-4)%Z with (- EINTR)%Z. destruct (CC eq_refl) as (CA & NC). apply (emit_inv _ _ _ Refused) in J; [|exact I].
      destruct (push_inv h (id e) _ (kind e) (- EINTR)%Z _ e J eq_refl) as (X & [Y1 Y2 Y3 Y4 Y5 Y6 Y7 Y8]); [apply l_refused; assumption|]. split; [exact X|].
      split; [destruct C as [C1 C2]; constructor; [rewrite Y5, Y2; exact C1|rewrite Y6, Y3, Y4; exact C2]|]. split; [rewrite Y6; exact L|]. split; [exact Y1|]. split; [exact Y7|].
      intros x I. apply Y8. cbn. apply in_app_iff. left. exact I. }
    destruct (has_sqe has_openat has_close has_statx has_unwrapdir (kind e)).
    - unfold ioq_get_sqe, andthen in E.
      destruct (ioq_reserve_sqes env IOQ_BATCH entries fuel 1 (tick s)) as (ran1, s1) eqn:D.
      apply reserve_inv with (h := (id e, [Took (kind e)]) :: h) in D; [|exact J|destruct C; constructor; assumption|exact L]. destruct D as (J1 & P1).
      destruct ran1; cbn [fst snd] in E; [|injection E as <- <-; exact J1].
      destruct (P1 eq_refl) as (C1 & Z1 & Z2 & Z3 & Z4 & Z5). unfold check in E. rewrite (proj2 (Nat.ltb_lt (length (sq s1)) entries)) in E by lia.
      injection E as <- <-. cbn [set_counts emit set_rings prepped submitted]. destruct C1 as [CP CS].
      set (s2 := set_counts _ _ _). split; [|split; [|split; [exact Z4|split; [exact Z1|split; [exact Z2|]]]]].
      + destruct J1 as [A B CN D F G]. constructor; cbn [s2 set_counts emit set_rings trace flight cq sq].
        * apply (places_move ((id e, [Took (kind e)]) :: h) h s1 s2 (id e) [Took (kind e)] Queued (h ++ locs s1)); auto.
          unfold locs, s2. cbn [set_counts emit set_rings pending sq flight cq]. rewrite map_app. cbn [map]. unfold at_sq at 3. cbn [app].
          rewrite <- !app_assoc. rewrite !(app_assoc h), !(app_assoc (h ++ _)). cbn [app]. apply Permutation_middle.
        * apply allowed_snoc; [exact B|]. unfold allowed, waiting. lia.
        * rewrite !count_app. unfold count at 2 4. cbn. lia.
        * rewrite !count_app. unfold count at 2 4. cbn. rewrite app_length. cbn. lia.
        * rewrite app_length. cbn. lia.
        * rewrite app_length. cbn. lia.
      + constructor; cbn [s2 set_counts emit set_rings prepped submitted sq flight cq]; [rewrite app_length; cbn; lia|exact CS].
      + intros x I. cbn. apply in_app_iff. left. apply Z3. exact I.
    - unfold ioq_dispatch_sync in E. set (r := match kind e with Nop _ => 0%Z | _ => _ end) in E. injection E as <- <-.
      apply inv_tick in J. apply (emit_inv _ _ _ (Did r)) in J; [|exact I].
      destruct (push_inv h (id e) _ (kind e) r _ e J eq_refl) as (X & [Y1 Y2 Y3 Y4 Y5 Y6 Y7 Y8]); [apply l_sync|]. split; [exact X|].
      split; [destruct C as [C1 C2]; constructor; [rewrite Y5, Y2; exact C1|rewrite Y6, Y3, Y4; exact C2]|]. split; [rewrite Y6; exact L|]. split; [exact Y1|]. split; [exact Y7|].
      intros x I. apply Y8. cbn. apply in_app_iff. left. exact I.
  Qed.

  (** ** Taking requests *)

  (** What taking requests does not change *)
  Record quiet (s s' : st) : Prop := {
    qt_ready : ready s' = ready s; qt_sq : sq s' = sq s; qt_flight : flight s' = flight s; qt_cq : cq s' = cq s;
    qt_prepped : prepped s' = prepped s; qt_submitted : submitted s' = submitted s; qt_stop : stop s' = stop s;
    qt_trace : forall e, In e (trace s) -> In e (trace s') }.
  Lemma quiet_refl s : quiet s s. Proof. constructor; auto. Qed.
  Lemma quiet_trans a b c : quiet a b -> quiet b c -> quiet a c.
  Proof. intros [A1 A2 A3 A4 A5 A6 A7 A8] [B1 B2 B3 B4 B5 B6 B7 B8]. constructor; try congruence. auto. Qed.

  Lemma take_places l : forall s L R r s', places cancel L R (next s) (trace s) -> all_allowed (trace s) -> take l s = (r, s') ->
    places cancel (flat_map at_pending r ++ L) R (next s') (trace s') /\ all_allowed (trace s') /\ quiet s s' /\
    (forall f, (forall i k, f (Of i (Took k)) = false) -> count f (trace s') = count f (trace s)) /\ map (option_map kind) r = l.
  Proof.
    induction l as [|[k|] l IH]; intros s L R r s' P A E; cbn [take] in E.
    - injection E as <- <-. split; [exact P|]. split; [exact A|]. split; [apply quiet_refl|]. auto.
    - set (s1 := set_next _ _) in E. destruct (take l s1) as (r2, s2) eqn:T. injection E as <- <-.
      apply (places_take _ _ _ _ _ k) in P. apply (IH s1 _ _ _ _ P) in T; [|apply allowed_snoc; [exact A|exact I]]. destruct T as (P2 & A2 & Q2 & F2 & M2).
      split. { cbn [flat_map at_pending id kind app]. apply (places_perm _ _ _ _ _ _ (Permutation_sym (Permutation_middle _ _ _)) P2). }
      split; [exact A2|]. split; [apply (quiet_trans _ s1); [|exact Q2]; constructor; auto; intros x I; cbn; apply in_app_iff; left; exact I|].
      split; [intros f F; rewrite F2 by exact F; cbn [s1 set_next emit trace]; rewrite count_app; unfold count at 2; cbn; rewrite F; cbn; lia|]. cbn. rewrite M2. reflexivity.
    - destruct (take l s) as (r2, s2) eqn:T. injection E as <- <-. apply (IH s L R) in T; auto. destruct T as (P2 & A2 & Q2 & F2 & M2).
      split; [exact P2|]. split; [exact A2|]. split; [exact Q2|]. split; [exact F2|]. cbn. rewrite M2. reflexivity.
  Qed.

  Definition last_stop (r : list (option ent)) : Prop := forall a b, r = a ++ None :: b -> b = [].
  Lemma last_stop_tl x r : last_stop (x :: r) -> last_stop r.
  Proof. intros H a b E. apply (H (x :: a) b). rewrite E. reflexivity. Qed.

  Definition drained (s : st) : Prop := sq s = [] /\ flight s = [] /\ cq s = [] /\ ready s = [].
  Lemma all_ended s : inv [] s -> rest (pending s) = [] -> drained s -> forall i, ended cancel (story i (trace s)).
  Proof.
    intros [A _ _ _ _ _] R (D1 & D2 & D3 & D4) i. apply (pl_rest _ _ _ _ _ A). unfold locs. rewrite R, D1, D2, D3, D4. auto.
  Qed.

  Lemma fill_inv block s ran s' : inv [] s -> rest (pending s) = [] -> (block = true -> drained s) -> ioq_batch_fill env IOQ_BATCH block s = (ran, s') ->
    inv [] s' /\ quiet s s' /\ (ran = false -> rest (pending s') = []) /\ last_stop (rest (pending s')) /\ (ran = true -> rest (pending s') = [] -> block = false).
  Proof.
    intros J R B E. unfold ioq_batch_fill in E. set (s1 := if block then emit Block s else s) in E.
    assert (X : inv [] s1 /\ quiet s s1 /\ rest (pending s1) = []).
    { unfold s1. destruct block; [|auto using quiet_refl]. split.
      - apply emit_global; [exact I| |exact J]. cbn [allowed]. apply all_ended; auto.
      - split; [|exact R]. constructor; auto. intros x I. cbn. apply in_app_iff. left. exact I. }
    destruct X as (J1 & Q1 & R1). set (l := firstn IOQ_BATCH (popped (env (clock s1)))) in E. clearbody s1.
    assert (H : inv [] s1 /\ quiet s s1 /\ (false = false -> rest (pending s1) = []) /\ last_stop (rest (pending s1)) /\ (false = true -> rest (pending s1) = [] -> block = false)).
    { split; [exact J1|]. split; [exact Q1|]. split; [auto|]. split; [|discriminate]. rewrite R1. intros a b X. destruct a; discriminate. }
    assert (G : forall r s2, take l (tick s1) = (r, s2) -> (l = [] -> block = false) -> inv [] (set_pending (mkBatch 0 r) s2) /\ quiet s (set_pending (mkBatch 0 r) s2) /\
      (true = false -> r = []) /\ last_stop r /\ (true = true -> r = [] -> block = false)).
    { intros r s2 T NB. destruct J1 as [A1 A2 A3 A4 A5 A6]. cbn [app] in A1.
      assert (L1 : locs s1 = map at_sq (sq s1) ++ map at_flight (flight s1) ++ map at_cq (cq s1)) by (unfold locs; rewrite R1; reflexivity).
      apply (take_places l (tick s1) _ _ r s2 A1 A2) in T. destruct T as (P2 & B2 & Q2 & F2 & M2). pose proof Q2 as [Y1 Y2 Y3 Y4 Y5 Y6 Y7 Y8]. cbn [tick ready sq flight cq] in Y1, Y2, Y3, Y4.
      split.
      - constructor; cbn [set_pending trace ready next flight cq sq]; auto.
        + cbn [app]. unfold locs. cbn [set_pending pending rest sq flight cq]. rewrite Y1, Y2, Y3, Y4. rewrite L1 in P2. exact P2.
        + rewrite !F2 by reflexivity. rewrite Y3, Y4. exact A3.
        + rewrite !F2 by reflexivity. rewrite Y2. exact A4.
        + rewrite Y2. exact A5.
        + rewrite Y2, Y3, Y4. exact A6.
      - split; [apply (quiet_trans _ s1); [exact Q1|]; apply (quiet_trans _ s2); [|constructor; auto]; apply (quiet_trans _ (tick s1)); [constructor; auto|exact Q2]|].
        split; [discriminate|]. split.
        + intros a b X. subst r. rewrite map_app in M2. cbn [map option_map] in M2. symmetry in M2. apply STOPS in M2. destruct b; [reflexivity|discriminate].
        + intros _ ->. apply NB. symmetry. exact M2. }
    destruct l as [|x l]; [destruct block|].
    - injection E as <- <-. exact H.
    - destruct (take [] (tick s1)) as (r, s2) eqn:T. injection E as <- <-. apply (G r s2 eq_refl). reflexivity.
    - destruct (take (x :: l) (tick s1)) as (r, s2) eqn:T. destruct block; injection E as <- <-; apply (G r s2 eq_refl); discriminate.
  Qed.

  Lemma pop_inv block s ran x s' : inv [] s -> last_stop (rest (pending s)) -> (block = true -> rest (pending s) = [] -> drained s) ->
    ioq_batch_pop env IOQ_BATCH block s = (ran, x, s') ->
    quiet s s' /\
    match x with
    | Some (Some e) => ran = true /\ inv [(id e, [Took (kind e)])] s' /\ last_stop (rest (pending s'))
    | Some None => ran = true /\ inv [] s' /\ rest (pending s') = []
    | None => inv [] s' /\ rest (pending s') = [] /\ (ran = true -> block = false)
    end.
  Proof.
    intros J LS B E. unfold ioq_batch_pop in E.
    assert (POP : forall s0 ran x s', inv [] s0 -> last_stop (rest (pending s0)) -> quiet s s0 -> (rest (pending s0) = [] -> block = false) ->
      match rest (pending s0) with
      | [] => (true, None, s0)
      | x :: l => (true, Some x, set_pending (mkBatch (S (head (pending s0))) l) s0)
      end = (ran, x, s') ->
      quiet s s' /\
      match x with
      | Some (Some e) => ran = true /\ inv [(id e, [Took (kind e)])] s' /\ last_stop (rest (pending s'))
      | Some None => ran = true /\ inv [] s' /\ rest (pending s') = []
      | None => inv [] s' /\ rest (pending s') = [] /\ (ran = true -> block = false)
      end).
    { clear E. intros s0 ran0 x0 s0' J0 L0 Q0 N0 E. destruct (rest (pending s0)) as [|[e|] l] eqn:R; injection E as <- <- <-.
      - split; [exact Q0|]. split; [exact J0|]. split; [exact R|auto].
      - split; [apply (quiet_trans _ s0); [exact Q0|constructor; auto]|]. split; [reflexivity|]. split; [|apply (last_stop_tl (Some e)); exact L0].
        destruct J0 as [A1 A2 A3 A4 A5 A6]. constructor; auto. revert A1. unfold locs. rewrite R. cbn [set_pending pending rest sq flight cq ready next trace flat_map at_pending app]. auto.
      - assert (l = []) by (apply (L0 [] l); reflexivity). subst l.
        split; [apply (quiet_trans _ s0); [exact Q0|constructor; auto]|]. split; [reflexivity|]. split; [|reflexivity].
        destruct J0 as [A1 A2 A3 A4 A5 A6]. constructor; auto. revert A1. unfold locs. rewrite R. auto. }
    unfold ioq_batch_empty in E. destruct (rest (pending s)) as [|y r] eqn:R.
    - destruct (negb block && (head (pending s) <? IOQ_BATCH)) eqn:NB.
      + injection E as <- <- <-. split; [constructor; auto|]. split; [|split; [reflexivity|]].
        * destruct J as [A1 A2 A3 A4 A5 A6]. constructor; auto. revert A1. unfold locs. rewrite R. auto.
        * intros _. apply andb_true_iff in NB. destruct NB as (NB & _). destruct block; [discriminate|reflexivity].
      + destruct (ioq_batch_fill env IOQ_BATCH block s) as (ran1, s1) eqn:F. apply fill_inv in F; auto. destruct F as (J1 & Q1 & R1 & L1 & N1). destruct ran1.
        * apply (POP s1 ran x s'); auto.
        * injection E as <- <- <-. split; [exact Q1|]. split; [exact J1|]. split; [auto|discriminate].
    - rewrite <- R in LS. apply (POP s ran x s'); auto using quiet_refl; [congruence|]. rewrite R. exact E.
  Qed.

  (** ** The loops *)

  Definition good (s : st) : Prop := inv [] s \/ exists i k, inv [(i, [Took k])] s.

  Lemma quiet_counted s s' : quiet s s' -> counted s -> counted s'.
  Proof. intros [Y1 Y2 Y3 Y4 Y5 Y6 Y7 Y8] [A B]. constructor; congruence. Qed.
  Lemma quiet_empty s s' : quiet s s' -> ioq_ring_empty s' = ioq_ring_empty s.
  Proof. intros [Y1 Y2 Y3 Y4 Y5 Y6 Y7 Y8]. unfold ioq_ring_empty. rewrite Y1, Y5, Y6. reflexivity. Qed.
  Lemma empty_drained s : counted s -> ioq_ring_empty s = true -> drained s.
  Proof.
    intros [A B] E. unfold ioq_ring_empty in E. rewrite !andb_true_iff in E. destruct E as ((E1 & E2) & E3). apply Nat.eqb_eq in E1, E2.
    unfold drained. destruct (sq s); [|cbn in A; lia]. destruct (flight s); [|cbn in B; lia]. destruct (cq s); [|cbn in B; lia]. destruct (ready s); [auto|discriminate].
  Qed.

  Lemma prep_loop_inv fuel : forall s ran s', inv [] s -> counted s -> submitted s <= entries -> last_stop (rest (pending s)) -> stop s = false ->
    prep_loop env IOQ_BATCH entries has_openat has_close has_statx has_unwrapdir fuel s = (ran, s') ->
    if ran then inv [] s' /\ counted s' /\ submitted s' <= entries /\ rest (pending s') = [] /\ (stop s' = true -> In Restop (trace s')) /\ (stop s' = true \/ ioq_ring_empty s' = false)
    else good s'.
  Proof.
    induction fuel as [|fuel IH]; intros s ran s' J C L LS ST E; cbn [prep_loop] in E.
    { injection E as <- <-. left. exact J. }
    destruct (ioq_batch_pop env IOQ_BATCH (ioq_ring_empty s) s) as ((ran1, x), s1) eqn:P. apply pop_inv in P; auto; [|intros X _; apply empty_drained; assumption].
    destruct P as (Q & P). destruct x as [[e|]|].
    - destruct P as (-> & J1 & L1). unfold andthen in E.
      destruct (ioq_prep_sqe env IOQ_BATCH entries has_openat has_close has_statx has_unwrapdir fuel e s1) as (ran2, s2) eqn:D.
      apply prep_sqe_inv with (h := []) in D; [|exact J1|apply (quiet_counted s); assumption|rewrite (qt_submitted _ _ Q); exact L]. cbn [fst snd] in E. destruct ran2.
      + destruct D as (J2 & C2 & L2 & P2 & S2 & T2). apply IH in E; auto; [rewrite P2; exact L1|]. rewrite S2, (qt_stop _ _ Q). exact ST.
      + injection E as <- <-. right. exists (id e), (kind e). exact D.
    - destruct P as (-> & J1 & R1). injection E as <- <-. cbn [set_stop emit stop trace pending submitted].
      assert (J2 : inv [] (emit Restop s1)) by (apply emit_global; [exact I|exact I|exact J1]).
      split; [destruct J2; constructor; assumption|]. split; [destruct (quiet_counted _ _ Q C); constructor; assumption|]. split; [rewrite (qt_submitted _ _ Q); exact L|].
      split; [exact R1|]. split; [intros _; apply in_app_iff; right; left; reflexivity|auto].
    - destruct P as (J1 & R1 & B). destruct ran1; injection E as <- <-; [|left; exact J1].
      split; [exact J1|]. split; [apply (quiet_counted s); assumption|]. split; [rewrite (qt_submitted _ _ Q); exact L|]. split; [exact R1|].
      rewrite (qt_stop _ _ Q), ST. split; [discriminate|]. right. rewrite (quiet_empty _ _ Q). auto.
  Qed.

  Lemma ring_prep_inv fuel s ran more s' : inv [] s -> counted s -> submitted s <= entries -> rest (pending s) = [] -> sq s = [] -> (stop s = true -> In Restop (trace s)) ->
    ioq_ring_prep env IOQ_BATCH entries has_openat has_close has_statx has_unwrapdir fuel s = (ran, more, s') ->
    if ran then inv [] s' /\ counted s' /\ submitted s' <= entries /\ rest (pending s') = [] /\ (stop s' = true -> In Restop (trace s')) /\ (more = false -> stop s' = true /\ sq s' = [])
    else good s'.
  Proof.
    intros J C L R Q ST E. unfold ioq_ring_prep in E. destruct (stop s) eqn:S.
    { injection E as <- <- <-. rewrite S. auto 10. }
    set (s0 := set_pending (mkBatch 0 []) s) in E.
    assert (J0 : inv [] s0). { destruct J as [A1 A2 A3 A4 A5 A6]. constructor; auto. revert A1. unfold locs. rewrite R. auto. }
    destruct (prep_loop env IOQ_BATCH entries has_openat has_close has_statx has_unwrapdir fuel s0) as (ran1, s1) eqn:P.
    apply prep_loop_inv in P; auto; [|destruct C; constructor; assumption|intros a b X; destruct a; discriminate].
    destruct ran1; [|injection E as <- <- <-; exact P]. destruct P as (J1 & C1 & L1 & R1 & S1 & X1).
    unfold check, ioq_batch_empty in E. rewrite R1 in E. injection E as <- <- <-. split; [exact J1|]. split; [exact C1|]. split; [exact L1|]. split; [exact R1|]. split; [exact S1|].
    intros M. apply negb_false_iff in M. split; [destruct X1; congruence|]. apply (empty_drained s1 C1 M).
  Qed.

  Lemma work_loop_inv fuel : forall s ran s', inv [] s -> counted s -> submitted s <= entries -> rest (pending s) = [] -> sq s = [] -> (stop s = true -> In Restop (trace s)) ->
    work_loop env IOQ_BATCH entries has_openat has_close has_statx has_unwrapdir fuel s = (ran, s') ->
    good s' /\ (ran = true -> (forall i, ended cancel (story i (trace s'))) /\ In Restop (trace s')).
  Proof.
    induction fuel as [|fuel IH]; intros s ran s' J C L R Q ST E; cbn [work_loop] in E.
    { injection E as <- <-. split; [left; exact J|discriminate]. }
    destruct (ioq_ring_prep env IOQ_BATCH entries has_openat has_close has_statx has_unwrapdir fuel s) as ((ran1, more), s1) eqn:P. apply ring_prep_inv in P; auto.
    destruct ran1; [|injection E as <- <-; split; [exact P|discriminate]]. destruct P as (J1 & C1 & L1 & R1 & S1 & M1). destruct more.
    - unfold andthen in E. destruct (ioq_ring_submit env IOQ_BATCH entries fuel s1) as (ran2, s2) eqn:D. apply ring_submit_inv with (h := []) in D; auto. destruct D as (J2 & P2). cbn [fst snd] in E.
      destruct ran2; [|injection E as <- <-; split; [left; exact J2|discriminate]]. destruct (P2 eq_refl) as (C2 & Y1 & Y2 & Y3 & Y4 & Y5 & Y6).
      apply IH in E; auto; [congruence|]. rewrite Y4. intros X. apply Y5, S1, X.
    - destruct (M1 eq_refl) as (S2 & Q2). apply drain_inv with (h := []) in E; auto; [|apply C1]. destruct E as (J2 & P2). split; [left; exact J2|]. intros X.
      destruct (P2 X) as ([K1 K2 K3 K4 K5] & C2 & B2 & R2). split; [|apply K5, S1, S2]. apply all_ended; [exact J2|congruence|].
      unfold drained. split; [congruence|]. destruct (flight s'); [|cbn in C2; lia]. destruct (cq s'); [|cbn in C2; lia]. auto.
  Qed.

  Lemma sync_loop_inv fuel : forall s ran s', inv [] s -> sq s = [] -> flight s = [] -> cq s = [] -> last_stop (rest (pending s)) ->
    sync_loop env IOQ_BATCH fuel s = (ran, s') ->
    good s' /\ (ran = true -> inv [] s' /\ sq s' = [] /\ flight s' = [] /\ cq s' = [] /\ rest (pending s') = [] /\ In Restop (trace s')).
  Proof.
    induction fuel as [|fuel IH]; intros s ran s' J Q F C LS E; cbn [sync_loop] in E.
    { injection E as <- <-. split; [left; exact J|discriminate]. }
    set (s0 := if ioq_batch_empty s then ioq_batch_flush s else s) in E.
    assert (X : inv [] s0 /\ same s s0 /\ (rest (pending s0) = [] -> ready s0 = [])).
    { unfold s0, ioq_batch_empty. destruct (rest (pending s)) eqn:R.
      - destruct (flush_inv [] s J) as (A & B & D). auto.
      - split; [exact J|]. split; [apply same_refl|]. congruence. }
    destruct X as (J0 & [Y1 Y2 Y3 Y4 Y5 Y6 Y7 Y8] & D0). clearbody s0.
    destruct (ioq_batch_pop env IOQ_BATCH true s0) as ((ran1, x), s1) eqn:P. apply pop_inv in P; auto; [|rewrite Y1; exact LS|intros _ R; unfold drained; repeat split; auto; congruence].
    destruct P as (Q1 & P). destruct x as [[e|]|].
    - destruct P as (-> & J1 & L1). destruct (ioq_check_cancel env (kind e) s1) as (c, s2) eqn:CC. apply check_cancel_spec in CC. destruct CC as (-> & CC).
      assert (W : forall w r s3, plain w -> (forall k, k = kind e -> life cancel k ([Took k; w] ++ [Answered r])) -> inv [(id e, [Took (kind e)])] s3 -> same s1 s3 ->
        sync_loop env IOQ_BATCH fuel (ioq_batch_push IOQ_BATCH e r (emit (Of (id e) w) s3)) = (ran, s') ->
        good s' /\ (ran = true -> inv [] s' /\ sq s' = [] /\ flight s' = [] /\ cq s' = [] /\ rest (pending s') = [] /\ In Restop (trace s'))).
      { intros w r s3 PW LF J3 [Z1 Z2 Z3 Z4 Z5 Z6 Z7 Z8] E3. apply (emit_inv _ _ _ w) in J3; [|exact PW].
        destruct (push_inv [] (id e) _ (kind e) r _ e J3 eq_refl (LF _ eq_refl)) as (J4 & [T1 T2 T3 T4 T5 T6 T7 T8]). destruct Q1 as [V1 V2 V3 V4 V5 V6 V7 V8].
        apply (IH _ _ _ J4) in E3; auto.
        - rewrite T2. cbn [emit sq]. congruence.
        - rewrite T3. cbn [emit flight]. congruence.
        - rewrite T4. cbn [emit cq]. congruence.
        - rewrite T1. cbn [emit pending]. rewrite Z1. exact L1. }
      destruct c.
      + destruct (CC eq_refl) as (CA & NC). apply (W Refused (- EINTR)%Z (tick s1)); auto; [exact I|intros k ->; apply l_refused; assumption|apply inv_tick; exact J1|apply tick_same].
      + unfold ioq_dispatch_sync in E. set (r := match kind e with Nop _ => 0%Z | _ => _ end) in E.
        apply (W (Did r) r (tick (tick s1))); auto; [exact I|intros k ->; apply l_sync|apply inv_tick, inv_tick; exact J1|constructor; auto].
    - destruct P as (-> & J1 & R1). injection E as <- <-. assert (J2 : inv [] (emit Restop s1)) by (apply emit_global; [exact I|exact I|exact J1]).
      split; [left; exact J2|]. intros _. destruct Q1 as [V1 V2 V3 V4 V5 V6 V7 V8]. cbn [emit sq flight cq pending trace]. split; [exact J2|]. repeat (split; [congruence|]).
      apply in_app_iff. right. left. reflexivity.
    - destruct P as (J1 & R1 & B). destruct ran1; [specialize (B eq_refl); discriminate|]. injection E as <- <-. split; [left; exact J1|discriminate].
  Qed.

  Lemma sync_work_inv fuel s ran s' : inv [] s -> sq s = [] -> flight s = [] -> cq s = [] -> rest (pending s) = [] -> ioq_sync_work env IOQ_BATCH fuel s = (ran, s') ->
    good s' /\ (ran = true -> (forall i, ended cancel (story i (trace s'))) /\ In Restop (trace s')).
  Proof.
    intros J Q F C R E. unfold ioq_sync_work, andthen in E. destruct (sync_loop env IOQ_BATCH fuel s) as (ran1, s1) eqn:D.
    apply sync_loop_inv in D; auto; [|rewrite R; intros a b X; destruct a; discriminate]. destruct D as (G1 & P1). cbn [fst snd] in E.
    destruct ran1; injection E as <- <-; [|split; [exact G1|discriminate]]. destruct (P1 eq_refl) as (J1 & X1 & X2 & X3 & X4 & X5).
    unfold check, ioq_batch_empty. rewrite X4. destruct (flush_inv [] s1 J1) as (J2 & [Y1 Y2 Y3 Y4 Y5 Y6 Y7 Y8] & R2).
    split; [left; exact J2|]. intros _. split; [|apply Y8; exact X5]. apply all_ended; [exact J2|congruence|]. unfold drained. repeat split; congruence.
  Qed.

  Lemma init_inv : inv [] init.
  Proof.
    constructor; cbn; try lia.
    - constructor; cbn; intros; try contradiction; auto; [constructor|left; reflexivity].
    - intros p e q X. destruct p; discriminate.
  Qed.

  Lemma story_begun h s : inv h s -> (forall i l, In (i, l) h -> begun cancel l) -> forall i, begun cancel (story i (trace s)).
  Proof.
    intros [A _ _ _ _ _] H i. destruct (in_dec Nat.eq_dec i (map fst (h ++ locs s) ++ map fst (map at_ready (ready s)))) as [I|N].
    - apply in_app_iff in I. destruct I as [I|I].
      + apply in_map_iff in I. destruct I as ((j, l) & <- & I). cbn [fst]. rewrite (pl_story _ _ _ _ _ A j l I). apply in_app_iff in I. destruct I as [I|I]; [apply (H j l I)|].
        right. unfold locs in I. rewrite !in_app_iff in I. destruct I as [I|[I|[I|I]]].
        * apply in_flat_map in I. destruct I as ([e|] & _ & I); [|contradiction]. destruct I as [I|[]]. injection I as _ <-. exists (kind e), [Did 0; Answered 0]. apply l_sync.
        * apply in_map_iff in I. destruct I as (e & I & _). injection I as _ <-. exists (kind e), [Sent; Done (-1); Seen; Answered (-1)]%Z. apply l_ring. left. lia.
        * apply in_map_iff in I. destruct I as (e & I & _). injection I as _ <-. exists (kind e), [Done (-1); Seen; Answered (-1)]%Z. apply l_ring. left. lia.
        * apply in_map_iff in I. destruct I as ((e, r) & I & _). injection I as _ <-. cbn [fst snd]. exists (kind e).
          destruct (Z_lt_le_dec r 0) as [X|X].
          { exists [Seen; Answered r]. apply l_ring. left. exact X. }
          destruct (kind e) eqn:K.
          -- exists [Seen; Answered r]. apply l_ring. right. intros [Y|Y]; discriminate.
          -- exists [Seen; Answered r]. apply l_ring. right. intros [Y|Y]; discriminate.
          -- exists [Seen; Wrapped r 0; Answered 0]. apply l_dir; lia.
          -- exists [Seen; Answered r]. apply l_ring. right. intros [Y|Y]; discriminate.
          -- exists [Seen; Converted 0; Answered 0]. apply l_stat; lia.
      + apply in_map_iff in I. destruct I as ((j, r) & <- & I). destruct (pl_ready _ _ _ _ _ A j r I) as (k & V). right. exists k, [Answered r]. exact V.
    - destruct (pl_rest _ _ _ _ _ A i N) as [X|(k & V)]; [left; exact X|]. right. exists k, []. rewrite app_nil_r. exact V.
  Qed.

  Lemma good_end s : good s -> all_allowed (trace s) /\ forall i, begun cancel (story i (trace s)).
  Proof.
    intros [J | (i & k & J)].
    - split; [apply J|]. apply (story_begun [] s J). intros i l [].
    - split; [apply J|]. apply (story_begun _ s J). intros j l [X|[]]. injection X as _ <-. right. exists k, [Did 0; Answered 0]. apply l_sync.
  Qed.

  Lemma work_correct ring fuel :
    let (ran, s) := ioq_work env IOQ_BATCH entries has_openat has_close has_statx has_unwrapdir ring fuel in
    (forall past e future, trace s = past ++ e :: future -> allowed (was_cancelled env) entries past e) /\
    (forall i, begun (was_cancelled env) (story i (trace s))) /\
    (ran = true -> (forall i, ended (was_cancelled env) (story i (trace s))) /\ In Restop (trace s)).
  Proof.
    destruct (ioq_work env IOQ_BATCH entries has_openat has_close has_statx has_unwrapdir ring fuel) as (ran, s) eqn:E. unfold ioq_work in E.
    assert (X : good s /\ (ran = true -> (forall i, ended cancel (story i (trace s))) /\ In Restop (trace s))).
    { destruct ring.
      - apply work_loop_inv in E; auto using init_inv; [constructor; reflexivity|cbn; lia|discriminate].
      - apply sync_work_inv in E; auto using init_inv. }
    destruct X as (G & X). apply good_end in G. destruct G as (G1 & G2). auto.
  Qed.
End Thread.

Definition early_stop (t : nat) : moment := mkMoment false [Some Close; None; Some Close] 10 [(0, 0%Z)] 0%Z.
Lemma stop_refuted : exists env IOQ_BATCH entries has_openat has_close has_statx has_unwrapdir fuel,
  0 < IOQ_BATCH /\ 0 < entries /\
  forall ring, let (ran, s) := ioq_work env IOQ_BATCH entries has_openat has_close has_statx has_unwrapdir ring fuel in
  ran = true /\ In Bug (trace s) /\ exists i, ~ ended (was_cancelled env) (story i (trace s)).
Proof.
  exists early_stop, 4, 2, true, true, true, true, 20. split; [lia|]. split; [lia|]. intros ring.
  destruct ring; vm_compute; (split; [reflexivity|]); (split; [tauto|]); exists 1; intros [E | (k & E)]; try discriminate E; inversion E.
Qed.
