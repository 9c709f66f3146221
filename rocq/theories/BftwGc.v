(** * The files of a walk: cleaning up without visiting them *)
From Coq Require Import List Bool Arith Lia Permutation Init.Byte.
From Coq Require Import ZifyBool ZifyNat.
From Verif Require Import PathModel PathSpec WalkSpec BftwModel BftwIo BftwQueue BftwPop BftwSpec BftwPath BftwHeap BftwFiles.
Import ListNotations.

Section Gc.
  Context {U : Type}.
  Variable w : env U.
  Notation state := (state U).
  Notation IO := (IO w None).
  Notation moved := (moved w None).
  Notation popped := (popped w None).
  Notation contents := (contents w).
  Notation in_queue := (in_queue w None).
  Notation heap := (heap w).
  Notation kept := (kept w).
  Notation counted := (counted w).
  Notation calm := (calm w).
  Notation crowded := (crowded w).

  Lemma heap_calm s s' : heap s -> IO s' -> same s s' -> calm s s' -> heap s'.
  Proof.
    intros H I [] C. apply (heap_eq w s); auto. intros x. apply (calm_in_queue _ _ _ x C).
  Qed.
  Lemma counted_calm s s' : counted s -> same s s' -> calm s s' -> counted s'.
  Proof. intros H [] C. apply (counted_eq w s); auto. intros x. apply (calm_in_queue _ _ _ x C). Qed.

  Lemma to_close_io s l : IO s -> (forall x, In x l -> In x (to_close s)) -> IO (set_to_close l s).
  Proof.
    intros H L. destruct H. constructor; auto; [intros q; destruct (io_q q); constructor; auto|]. intros x I. exact (io_close x (L x I)).
  Qed.
  Lemma to_close_same (s : state) l : same s (set_to_close l s).
  Proof. constructor; reflexivity. Qed.
  Lemma to_close_calm s l : calm s (set_to_close l s).
  Proof. constructor; intros; try destruct q; cbn [set_to_close queue_of fileq dirq]; auto; apply Permutation_refl. Qed.

  Lemma drain_all_ok fuel s : IO s -> length (to_close s) + pending s <= fuel ->
    exists s', drain_all w fuel s = Some s' /\ IO s' /\ same s s' /\ calm s s' /\ to_close s' = [].
  Proof.
    revert s. induction fuel as [|fuel IH]; intros s H L; cbn [drain_all]; destruct (to_close s) as [|x l] eqn:E.
    - exists s. split; [reflexivity|]. split; [exact H|]. split; [apply same_id|]. split; [apply calm_id|exact E].
    - cbn [length] in L. lia.
    - exists s. split; [reflexivity|]. split; [exact H|]. split; [apply same_id|]. split; [apply calm_id|exact E].
    - destruct (io_close _ _ _ H x) as ((f & F) & _); [rewrite E; left; reflexivity|]. rewrite F.
      assert (H1 : IO (set_to_close l s)) by (apply to_close_io; [exact H|intros y Y; rewrite E; right; exact Y]).
      destruct (maybe_close_ok w None _ H1) as (s2 & E2 & H2 & P2). rewrite E2.
      pose proof (popped_pending _ _ _ _ P2) as PP. change (to_close (set_to_close l s)) with l in PP. change (pending (set_to_close l s)) with (pending s) in PP. cbn [length] in L.
      destruct (IH s2 H2) as (s' & E3 & H3 & S3 & C3 & T3); [lia|]. exists s'. split; [exact E3|]. split; [exact H3|]. split.
      + eapply same_trans; [apply (to_close_same s l)|]. eapply same_trans; [apply (moved_same _ _ _ _ (popped_moved _ _ _ _ P2))|exact S3].
      + split; [|exact T3]. eapply calm_trans; [apply (to_close_calm s l)|]. eapply calm_trans; [apply calm_moved, (popped_moved _ _ _ _ P2)|exact C3].
  Qed.
  Lemma pending_inflight (s : state) : pending s <= length (inflight s).
  Proof.
    unfold pending, fly. induction (inflight s) as [|r l IH]; [reflexivity|]. cbn [flat_map]. rewrite !app_length. destruct r; cbn [fly1 length]; lia.
  Qed.

  (** The current directory may have to be closed. *)
  Lemma unwrap_ok s : heap s -> exists s', (match cur s with
           | None => Some s
           | Some x => let (c, s) := ask w s in if 0 <? c then delayed_unwrap x s else Some s
           end) = Some s' /\ heap s' /\ same s s' /\ calm s s'.
  Proof.
    intros H. destruct (cur s) as [x|] eqn:CU.
    - destruct (h_cur _ _ H x CU) as ((f & F) & NQ). cbn [ask].
      set (s1 := set_clock (S (clock s)) s). assert (I1 : IO s1) by (apply clock_io, (h_io _ _ H)).
      pose proof (popped_moved _ _ _ _ (clock_popped w None (S (clock s)) s)) as M1. fold s1 in M1.
      destruct (0 <? choose w (clock s)).
      + unfold delayed_unwrap. change (find_file x s1) with (find_file x s). rewrite F.
        destruct (existsb (Nat.eqb x) (to_close s1)).
        * exists s1. split; [reflexivity|]. split; [apply (heap_moved w s); assumption|]. split; [apply (moved_same _ _ _ _ M1)|apply calm_moved, M1].
        * assert (N1 : existsb (Nat.eqb x) (ready (fileq s1)) = false) by (apply existsb_eqb_false, (not_ready w None FileQ x s (h_io _ _ H) NQ)).
          assert (N2 : existsb (Nat.eqb x) (ready (dirq s1)) = false) by (apply existsb_eqb_false, (not_ready w None DirQ x s (h_io _ _ H) NQ)).
          rewrite N1, N2. cbn [orb]. set (s2 := set_to_close (to_close s1 ++ [x]) s1).
          assert (I2 : IO s2).
          { destruct I1. constructor; auto; [intros q; destruct (io_q q); constructor; auto|]. intros y Y. cbn [set_to_close to_close s2] in Y. apply in_app_iff in Y as [Y | [<- | []]]; [exact (io_close y Y)|].
            split; [exists f; exact F|exact NQ]. }
          assert (S2 : same s s2) by (eapply same_trans; [apply (moved_same _ _ _ _ M1)|apply to_close_same]).
          assert (C2 : calm s s2) by (eapply calm_trans; [apply calm_moved, M1|apply to_close_calm]).
          exists s2. split; [reflexivity|]. split; [apply (heap_calm s); assumption|]. auto.
      + exists s1. split; [reflexivity|]. split; [apply (heap_moved w s); assumption|]. split; [apply (moved_same _ _ _ _ M1)|apply calm_moved, M1].
    - exists s. split; [reflexivity|]. split; [exact H|]. split; [apply same_id|apply calm_id].
  Qed.

  (** What does not involve the callback *)
  Record silent (s s' : state) : Prop := {
    silent_failed : failed s' = failed s; silent_user : user s' = user s; silent_trace : trace s' = trace s; silent_direrror : direrror s' = direrror s }.
  Lemma silent_id s : silent s s.
  Proof. constructor; reflexivity. Qed.
  Lemma silent_trans a b c : silent a b -> silent b c -> silent a c.
  Proof. intros [] []. constructor; congruence. Qed.
  Lemma silent_same a b : same a b -> silent a b.
  Proof. intros []. constructor; congruence. Qed.

  Lemma gc_loop_quiet fuel ret s : heap s -> counted s -> crowded s ->
    (forall x f, cur s = Some x -> find_file x s = Some f -> length (f_pos f) <= fuel) ->
    exists s', gc_loop w fuel false false ret s = Some (ret, s') /\ heap s' /\ counted s' /\ calm s s' /\ silent s s' /\ cur s' = None.
  Proof.
    revert s. induction fuel as [|fuel IH]; intros s H C CR L; cbn [gc_loop]; destruct (cur s) as [x|] eqn:CU.
    - exfalso. destruct (h_cur _ _ H x CU) as ((f & F) & _). pose proof (L x f eq_refl F). pose proof (ok_pos _ _ _ (find_ok _ _ _ _ (h_ok _ _ H) F)). destruct (f_pos f); [congruence|cbn [length] in *; lia].
    - exists s. split; [reflexivity|]. split; [exact H|]. split; [exact C|]. split; [apply calm_id|]. split; [apply silent_id|exact CU].
    - destruct (h_cur _ _ H x CU) as ((f & F) & NQ). rewrite F. destruct (find_in _ _ _ F) as (FI & FX). destruct (C f FI) as (P & _). rewrite FX in P.
      destruct (refs s x) as [|[|n]] eqn:R; [lia| |].
      + set (s0 := set_ref x 0 s).
        assert (H0 : heap s0).
        { apply (heap_eq w s); auto; [|intros y; reflexivity]. apply (io_eq w s); auto. apply (h_io _ _ H). }
        destruct (free_ok w s s0 x f H C CR CU F R H0) as (s4 & E4 & NL & H5 & C5 & CR5 & CA5 & F5 & CU5 & D5 & FA5 & U5 & T5).
        { apply kept_moved, moved_id. }
        rewrite E4, NL. set (s5 := set_files _ s4) in *.
        destruct (IH s5 H5 C5 CR5) as (s' & E & H' & C' & CA' & SI' & CU').
        { intros y g CY G. rewrite CU5 in CY. pose proof (ok_parent _ _ _ (h_ok _ _ H f FI)) as FP. rewrite CY in FP. destruct FP as (h & k & Fh & EP & _).
          pose proof (L x f eq_refl F) as LX. rewrite EP in LX. cbn [length] in LX.
          assert (h = g); [|subst; lia]. destruct (find_in _ _ _ G) as (GI & GX). rewrite F5 in GI. apply filter_In in GI as (GI & _).
          destruct (find_in _ _ _ Fh) as (HI & HX). apply (id_unique s); [apply (h_ids _ _ H)|exact HI|exact GI|congruence]. }
        exists s'. split; [exact E|]. split; [exact H'|]. split; [exact C'|]. split; [eapply calm_trans; eassumption|]. split; [|exact CU'].
        eapply silent_trans; [|exact SI']. constructor; assumption.
      + destruct (release_ok w s x n H C CU R) as (H1 & C1). eexists. split; [reflexivity|]. split; [exact H1|]. split; [exact C1|]. split; [|split; [constructor; reflexivity|reflexivity]].
        constructor; auto.
    - exists s. split; [reflexivity|]. split; [exact H|]. split; [exact C|]. split; [apply calm_id|]. split; [apply silent_id|exact CU].
  Qed.

  (** The beginning of all garbage collection, apart from errors *)
  Lemma depth_fuel s : heap s -> exists n, (' f <- get (cur s) s ;; Some (match f with Some f => S (f_depth f) | None => 0 end)) = Some n /\
    (forall x f, cur s = Some x -> find_file x s = Some f -> length (f_pos f) <= n).
  Proof.
    intros H. destruct (cur s) as [x|] eqn:CU; cbn [get].
    - destruct (h_cur _ _ H x CU) as ((f & F) & _). rewrite F. exists (S (f_depth f)). split; [reflexivity|]. intros y g [= <-] G. rewrite F in G. injection G as <-.
      rewrite (depth_pos _ _ _ (find_ok _ _ _ _ (h_ok _ _ H) F)). lia.
    - exists 0. split; [reflexivity|]. discriminate.
  Qed.

  Lemma drain_heap s : heap s -> counted s -> exists s', drain_all w (length (to_close s) + length (inflight s)) s = Some s' /\ heap s' /\ counted s' /\ same s s' /\ calm s s' /\ crowded s'.
  Proof.
    intros H C. destruct (drain_all_ok (length (to_close s) + length (inflight s)) s (h_io _ _ H)) as (s' & E & I & S & CA & T).
    { pose proof (pending_inflight s). lia. }
    exists s'. split; [exact E|]. split; [apply (heap_calm s); assumption|]. split; [apply (counted_calm s); assumption|]. split; [exact S|]. split; [exact CA|].
    intros y Y. rewrite T in Y. destruct Y.
  Qed.

  Lemma set_direrror_same s b : heap s -> counted s -> heap (set_direrror b s) /\ counted (set_direrror b s) /\ calm s (set_direrror b s).
  Proof.
    intros H C. split; [|split].
    - apply (heap_eq w s); auto; [|intros y; reflexivity]. apply (io_eq w s); auto. apply (h_io _ _ H).
    - apply (counted_eq w s); auto. intros y. reflexivity.
    - constructor; auto.
  Qed.

  (** Without visiting anything *)
  Lemma gc_quiet s : heap s -> counted s -> direrror s = false -> exists s', gc w false false false s = Some (true, s') /\ heap s' /\ counted s' /\ calm s s' /\ silent s s' /\ cur s' = None.
  Proof.
    intros H C D. unfold gc. destruct (unwrap_ok s H) as (s1 & E1 & H1 & S1 & CA1). rewrite E1. pose proof (counted_calm _ _ C S1 CA1) as C1.
    rewrite (same_direrror _ _ S1), D. destruct (set_direrror_same s1 false H1 C1) as (H2 & C2 & CA2). set (s2 := set_direrror false s1) in *.
    destruct (drain_heap s2 H2 C2) as (s3 & E3 & H3 & C3 & S3 & CA3 & CR3). rewrite E3.
    destruct (depth_fuel s3 H3) as (n & EN & LN). destruct (get (cur s3) s3) as [o|]; [|discriminate]. injection EN as ->.
    destruct (gc_loop_quiet n true s3 H3 C3 CR3 LN) as (s' & E & H' & C' & CA' & SI' & CU'). exists s'. split; [exact E|]. split; [exact H'|]. split; [exact C'|].
    split; [eapply calm_trans; [exact CA1|]; eapply calm_trans; [exact CA2|]; eapply calm_trans; eassumption|]. split; [|exact CU'].
    eapply silent_trans; [apply silent_same, S1|]. eapply silent_trans; [|eapply silent_trans; [apply silent_same, S3|exact SI']].
    constructor; try reflexivity. cbn [set_direrror direrror s2]. rewrite (same_direrror _ _ S1). auto.
  Qed.

  (** ** The end of a walk *)

  Lemma no_files s : heap s -> counted s -> cur s = None -> (forall q, contents q s = []) -> files s = [].
  Proof.
    intros H C CU E. destruct (files s) as [|f0 l0] eqn:FE; [reflexivity|]. exfalso.
    assert (NE : In f0 (files s)) by (rewrite FE; left; reflexivity). clear FE l0.
    assert (K : forall n, exists f, In f (files s) /\ n <= length (f_pos f)).
    { induction n as [|n (f & F & L)]; [exists f0; split; [exact NE|lia]|]. destruct (C f F) as (P & R).
      replace (heldb w (f_id f) s) with false in R.
      - assert (exists g, In g (files s) /\ f_parent g = Some (f_id f)) as (g & G & GP).
        { unfold children in R. destruct (filter (child_of (f_id f)) (files s)) as [|g l] eqn:EF; [cbn [length] in R; lia|].
          assert (I : In g (filter (child_of (f_id f)) (files s))) by (rewrite EF; left; reflexivity). apply filter_In in I as (I & J). exists g. split; [exact I|].
          unfold child_of in J. destruct (f_parent g); [apply Nat.eqb_eq in J; congruence|discriminate]. }
        exists g. split; [exact G|]. pose proof (ok_parent _ _ _ (h_ok _ _ H g G)) as FP. rewrite GP in FP. destruct FP as (h & k & Fh & EP & _).
        rewrite (find_id (f_id f) s f (h_ids _ _ H) F eq_refl) in Fh. injection Fh as <-. rewrite EP. cbn [length]. lia.
      - symmetry. apply not_true_iff_false. rewrite heldb_iff, CU. intros [[(q & Q) | Q] | Q]; [rewrite E in Q; destruct Q|discriminate|discriminate]. }
    assert (B : forall l f, In f l -> length (f_pos f) <= list_sum (map (fun f => length (f_pos f)) l)).
    { clear. induction l as [|g l IH]; intros f I; [destruct I|]. cbn [map list_sum fold_right]. unfold list_sum in *. destruct I as [-> | I]; [lia|specialize (IH f I); lia]. }
    destruct (K (S (list_sum (map (fun f => length (f_pos f)) (files s))))) as (f & F & L). specialize (B _ _ F). lia.
  Qed.

  Lemma drain_loop_ok fuel q s : heap s -> counted s -> cur s = None -> direrror s = false -> buffer (queue_of q s) = [] -> length (contents q s) <= fuel ->
    exists s', drain_loop w fuel q s = Some s' /\ heap s' /\ counted s' /\ silent s s' /\ cur s' = None /\ contents q s' = [] /\
      (forall q', q' <> q -> Permutation (contents q' s') (contents q' s)).
  Proof.
    revert s. induction fuel as [|fuel IH]; intros s H C CU D B L; cbn [drain_loop];
      (destruct (pop_ok w q s (h_io _ _ H) B) as [(E & ->) | (x & s1 & -> & I1 & T1)];
       [exists s; split; [reflexivity|]; split; [exact H|]; split; [exact C|]; split; [apply silent_id|]; auto|]).
    - pose proof (Permutation_length (took_from _ _ _ _ _ T1)) as LE. cbn [length] in LE. lia.
    - destruct (took_ok w q x s s1 H C CU I1 T1) as (H1 & C1 & _ & _). pose proof (took_same _ _ _ _ _ T1) as SM.
      assert (D1 : direrror s1 = false) by (rewrite <- D; apply (same_direrror _ _ SM)).
      destruct (gc_quiet s1 H1 C1 D1) as (s2 & -> & H2 & C2 & CA2 & SI2 & CU2).
      pose proof (Permutation_length (took_from _ _ _ _ _ T1)) as LE. cbn [length] in LE. pose proof (Permutation_length (calm_contents _ _ _ CA2 q)) as LC.
      destruct (IH s2 H2 C2 CU2) as (s' & E' & H' & C' & SI' & CU' & Q' & O').
      + rewrite (silent_direrror _ _ SI2). exact D1.
      + apply (calm_empty _ _ _ CA2). rewrite (took_buffer _ _ _ _ _ T1). exact B.
      + lia.
      + exists s'. split; [exact E'|]. split; [exact H'|]. split; [exact C'|]. split.
        * eapply silent_trans; [|eapply silent_trans; [exact SI2|exact SI']]. constructor; [apply (same_failed _ _ SM)|apply (same_user _ _ SM)|apply (same_trace _ _ SM)|apply (same_direrror _ _ SM)].
        * split; [exact CU'|]. split; [exact Q'|]. intros q' DQ. rewrite (O' q' DQ), (calm_contents _ _ _ CA2 q'). apply (took_other _ _ _ _ _ T1 q' DQ).
  Qed.

  Lemma drain_ok q s : heap s -> counted s -> cur s = None -> direrror s = false ->
    exists s', drain w q s = Some s' /\ heap s' /\ counted s' /\ silent s s' /\ cur s' = None /\ contents q s' = [] /\
      (forall q', q' <> q -> Permutation (contents q' s') (contents q' s)).
  Proof.
    intros H C CU D. unfold drain. destruct (flush_ok w q s (h_io _ _ H)) as (I1 & A1 & B1 & O1 & _). set (s1 := set_queue q _ s) in *.
    pose proof (arranged_same _ _ _ A1) as S1.
    destruct (drain_loop_ok (size (queue_of q s1)) q s1) as (s' & E' & H' & C' & SI' & CU' & Q' & O').
    - apply (heap_arranged w s); assumption.
    - apply (counted_arranged w s); assumption.
    - rewrite (same_cur _ _ S1). exact CU.
    - rewrite (same_direrror _ _ S1). exact D.
    - exact B1.
    - rewrite (q_size _ _ _ _ (io_q _ _ _ I1 q)). lia.
    - exists s'. split; [exact E'|]. split; [exact H'|]. split; [exact C'|]. split; [eapply silent_trans; [apply silent_same, S1|exact SI']|]. split; [exact CU'|]. split; [exact Q'|].
      intros q' DQ. rewrite (O' q' DQ). apply (arranged_contents _ _ _ A1).
  Qed.

  Lemma destroy_ok s : heap s -> counted s -> direrror s = false ->
    exists s', state_destroy w s = Some s' /\ heap s' /\ counted s' /\ silent s s' /\ files s' = [].
  Proof.
    intros H C D. unfold state_destroy. destruct (pops_ok w None (length (inflight s)) s (h_io _ _ H)) as (s1 & -> & I1 & P1 & N1).
    pose proof (popped_moved _ _ _ _ P1) as M1. pose proof (moved_same _ _ _ _ M1) as S1.
    assert (H1 : heap s1) by (apply (heap_moved w s); assumption). assert (C1 : counted s1) by (apply (counted_arranged w s); [exact C|apply arranged_moved, M1]).
    destruct (gc_quiet s1 H1 C1) as (s2 & -> & H2 & C2 & CA2 & SI2 & CU2); [rewrite (same_direrror _ _ S1); exact D|].
    destruct (drain_ok DirQ s2 H2 C2 CU2) as (s3 & -> & H3 & C3 & SI3 & CU3 & Q3 & O3); [rewrite (silent_direrror _ _ SI2), (same_direrror _ _ S1); exact D|].
    destruct (drain_ok FileQ s3 H3 C3 CU3) as (s4 & E4 & H4 & C4 & SI4 & CU4 & Q4 & O4); [rewrite (silent_direrror _ _ SI3), (silent_direrror _ _ SI2), (same_direrror _ _ S1); exact D|].
    exists s4. split; [exact E4|]. split; [exact H4|]. split; [exact C4|].
    split; [eapply silent_trans; [apply silent_same, S1|]; eapply silent_trans; [exact SI2|]; eapply silent_trans; eassumption|].
    apply no_files; [exact H4|exact C4|exact CU4|]. intros [|]; [exact Q4|]. assert (P : Permutation (contents DirQ s4) []) by (rewrite <- Q3; apply O4; discriminate).
    apply Permutation_sym, Permutation_nil in P. exact P.
  Qed.
End Gc.
