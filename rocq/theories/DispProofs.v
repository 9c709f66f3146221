(** * Proofs about signal dispositions *)
From Coq Require Import List Bool Arith ZArith Lia ZifyBool.
From Verif Require Import DispSpec DispModel.
Import ListNotations.
Open Scope nat_scope.

Definition caught (s : state) (sig : nat) : bool := existsb (Nat.eqb sig) (signals s).

Lemma fault_is sig code : is_fault sig code = faulty sig code.
Proof.
  unfold is_fault, faulty, is_user_generated.
  destruct (sig =? 4), (sig =? 7), (sig =? 8), (sig =? 11); cbn [orb andb]; try reflexivity; lia.
Qed.
Lemma faulty_terminates sig code : faulty sig code = true -> default_of sig = Terminate.
Proof.
  unfold faulty. rewrite andb_true_iff, !orb_true_iff, !Nat.eqb_eq. intros [[[[->| ->]| ->]| ->] _]; reflexivity.
Qed.
Lemma fatal_terminates sig : is_fatal sig = true -> default_of sig = Terminate /\ 1 <= sig <= 64.
Proof.
  unfold is_fatal, SIGRTMIN, SIGRTMAX. rewrite orb_true_iff, andb_true_iff, !Nat.leb_le.
  intros [E|[A B]].
  - apply existsb_exists in E. destruct E as (f & I & E). apply Nat.eqb_eq in E. subst f.
    cbn [FATAL_SIGNALS In] in I. repeat (destruct I as [<-|I]; [split; [reflexivity|lia]|]). destruct I.
  - split; [|lia]. do 34 (destruct sig as [|sig]; [lia|]). reflexivity.
Qed.
Lemma terminates_fatal sig : 1 <= sig <= 64 -> sig <> 9 -> sig <> 32 -> sig <> 33 -> default_of sig = Terminate -> is_fatal sig = true.
Proof.
  intros L N9 N32 N33 D. assert (H : sig <= 33 \/ 34 <= sig) by lia. destruct H as [H|H].
  - do 34 (destruct sig as [|sig]; [first [lia | discriminate | reflexivity]|]). lia.
  - unfold is_fatal, SIGRTMIN, SIGRTMAX. rewrite (proj2 (Nat.leb_le 34 sig)), (proj2 (Nat.leb_le sig 64)) by lia. apply orb_true_r.
Qed.
Lemma fatal_in sig : is_fatal sig = true -> In sig FATAL_SIGNALS \/ In sig (seq SIGRTMIN (SIGRTMAX - SIGRTMIN + 1)).
Proof.
  unfold is_fatal, SIGRTMIN, SIGRTMAX. rewrite orb_true_iff, andb_true_iff, !Nat.leb_le. intros [E|E].
  - left. apply existsb_exists in E. destruct E as (f & I & E). apply Nat.eqb_eq in E. subst f. exact I.
  - right. apply in_seq. lia.
Qed.
Lemma in_fatal sig : In sig FATAL_SIGNALS \/ In sig (seq SIGRTMIN (SIGRTMAX - SIGRTMIN + 1)) -> is_fatal sig = true.
Proof.
  unfold is_fatal, SIGRTMIN, SIGRTMAX. intros [I|I].
  - apply orb_true_iff. left. apply existsb_exists. exists sig. split; [exact I|apply Nat.eqb_refl].
  - apply in_seq in I. apply orb_true_iff. right. rewrite andb_true_iff, !Nat.leb_le. lia.
Qed.

Section System.
Variable can : nat -> bool.
Variable clobber : nat -> Z.
Variable started : nat -> start.
Hypothesis sys : system can started.

Local Notation siginit := (siginit can).
Local Notation siginit_all := (siginit_all can).

(** ** What is true at all times *)
Record inv (os : list op) (s : state) : Prop := {
  i_disp : forall sig, disp s sig = if caught s sig then Dispatch else of_start (started sig);
  i_blocked : forall sig, blocked s sig = false;
  i_can : forall sig, caught s sig = true -> can sig = true;
  i_saved : Forall (fun x => caught s (fst x) = true /\ snd x = of_start (started (fst x))) (saved s);
  i_all : forall sig, caught s sig = true -> In (sig, of_start (started sig)) (saved s);
  i_touched : forall sig, caught s sig = true -> touched sig os = true;
  i_stop : forall sig, caught s sig = true -> default_of sig <> Stop;
  i_hooks : Forall (fun h => snd (fst h) = 0 \/ caught s (snd (fst h)) = true) (hooks s)
}.
(** With enough memory, every signal that ends the process is caught if there is a hook for exits. *)
Definition full (s : state) : Prop := for_signal (hooks s) 0 <> [] -> forall sig, is_fatal sig = true -> can sig = true -> caught s sig = true.

Lemma init_inv : inv [] (init started).
Proof. constructor; cbn; auto; try discriminate. Qed.

(** The invariant without the hooks, so that it holds in between *)
Lemma siginit_hooks s sig mem : hooks (fst (siginit s sig mem)) = hooks s.
Proof.
  unfold DispModel.siginit, sigaction. destruct (negb _); [reflexivity|]. destruct (existsb _ _); [reflexivity|]. destruct (negb mem); [reflexivity|].
  destruct (can sig); reflexivity.
Qed.
Lemma siginit_errno s sig mem : errno (fst (siginit s sig mem)) = errno s.
Proof.
  unfold DispModel.siginit, sigaction. destruct (negb _); [reflexivity|]. destruct (existsb _ _); [reflexivity|]. destruct (negb mem); [reflexivity|].
  destruct (can sig); reflexivity.
Qed.
Lemma siginit_grows s sig mem g : caught s g = true -> caught (fst (siginit s sig mem)) g = true.
Proof.
  intros C. unfold DispModel.siginit, sigaction. destruct (negb _); [exact C|]. destruct (existsb _ _); [exact C|]. destruct (negb mem); [exact C|].
  destruct (can sig); [|exact C]. unfold caught in *. cbn. rewrite C. apply orb_true_r.
Qed.
Lemma siginit_ok s sig : can sig = true -> snd (siginit s sig true) = true /\ caught (fst (siginit s sig true)) sig = true.
Proof.
  intros C. pose proof (range _ _ sys sig C) as L. unfold DispModel.siginit, sigaction.
  rewrite (proj2 (Nat.leb_le 1 sig)), (proj2 (Nat.leb_le sig 64)) by lia. cbn [negb andb].
  destruct (existsb (Nat.eqb sig) (signals s)) eqn:E; [split; [reflexivity|exact E]|]. rewrite C. split; [reflexivity|]. unfold caught. cbn. rewrite Nat.eqb_refl. reflexivity.
Qed.
Lemma siginit_true s sig mem : snd (siginit s sig mem) = true -> caught (fst (siginit s sig mem)) sig = true.
Proof.
  unfold DispModel.siginit, sigaction. destruct (negb _); [discriminate|]. destruct (existsb _ _) eqn:E; [intros _; exact E|]. destruct (negb mem); [discriminate|].
  destruct (can sig); [|discriminate]. intros _. unfold caught. cbn. rewrite Nat.eqb_refl. reflexivity.
Qed.

Lemma siginit_inv os s sig mem : inv os s -> touched sig os = true -> default_of sig <> Stop -> inv os (fst (siginit s sig mem)).
Proof.
  intros I T NS. unfold DispModel.siginit. destruct (negb _); [exact I|]. destruct (existsb (Nat.eqb sig) (signals s)) eqn:E; [exact I|]. destruct (negb mem); [exact I|].
  unfold sigaction. destruct (can sig) eqn:C.
  - cbn [fst]. assert (CC : forall g, caught (set_signals (set_disp (set_saved s (saved s ++ [(sig, disp s sig)])) sig Dispatch) (sig :: signals s)) g = (g =? sig) || caught s g) by reflexivity.
    assert (D0 : disp s sig = of_start (started sig)). { rewrite (i_disp _ _ I). unfold caught. rewrite E. reflexivity. }
    constructor.
    + intros g. rewrite CC. cbn [disp set_signals set_disp set_saved]. unfold upd. destruct (g =? sig) eqn:G; [reflexivity|]. cbn [orb]. apply (i_disp _ _ I).
    + apply (i_blocked _ _ I).
    + intros g. rewrite CC. destruct (g =? sig) eqn:G; [apply Nat.eqb_eq in G; subst; auto|]. apply (i_can _ _ I).
    + cbn [saved set_signals set_disp set_saved]. apply Forall_app. split.
      * eapply Forall_impl; [|apply (i_saved _ _ I)]. intros x [A B]. rewrite CC, A, orb_true_r. auto.
      * constructor; [|constructor]. rewrite CC. cbn [fst snd]. rewrite Nat.eqb_refl. auto.
    + intros g. rewrite CC. cbn [saved set_signals set_disp set_saved]. intros G. apply in_app_iff. destruct (g =? sig) eqn:GE.
      * apply Nat.eqb_eq in GE. subst g. right. rewrite <- D0. left. reflexivity.
      * left. apply (i_all _ _ I). exact G.
    + intros g. rewrite CC. destruct (g =? sig) eqn:G; [apply Nat.eqb_eq in G; subst; auto|]. apply (i_touched _ _ I).
    + intros g. rewrite CC. destruct (g =? sig) eqn:G; [apply Nat.eqb_eq in G; subst; auto|]. apply (i_stop _ _ I).
    + eapply Forall_impl; [|apply (i_hooks _ _ I)]. intros x [A|A]; [auto|]. right. rewrite CC, A. apply orb_true_r.
  - cbn [fst]. destruct s; exact I.
Qed.

Lemma all_inv os l mem : Forall (fun sig => touched sig os = true /\ default_of sig <> Stop) l -> forall s, inv os s -> inv os (siginit_all l mem s).
Proof.
  unfold DispModel.siginit_all. induction 1 as [|sig l [T N] F IH]; intros s I; [exact I|]. cbn [fold_left]. apply IH. apply siginit_inv; auto.
Qed.
Lemma all_hooks l mem : forall s, hooks (siginit_all l mem s) = hooks s.
Proof. unfold DispModel.siginit_all. induction l as [|sig l IH]; intros s; [reflexivity|]. cbn [fold_left]. rewrite IH. apply siginit_hooks. Qed.
Lemma all_grows l mem g : forall s, caught s g = true -> caught (siginit_all l mem s) g = true.
Proof. unfold DispModel.siginit_all. induction l as [|sig l IH]; intros s C; [exact C|]. cbn [fold_left]. apply IH, siginit_grows, C. Qed.
Lemma all_caught l mem g : (forall g, mem g = true) -> In g l -> can g = true -> forall s, caught (siginit_all l mem s) g = true.
Proof.
  intros M. induction l as [|sig l IH]; intros I C s; [destruct I|]. unfold DispModel.siginit_all. cbn [fold_left]. destruct I as [->|I].
  - apply all_grows. rewrite M. apply siginit_ok. exact C.
  - apply IH; auto.
Qed.

Lemma more os os' s : (forall sig, touched sig os = true -> touched sig os' = true) -> inv os s -> inv os' s.
Proof. intros T I. destruct I. constructor; auto. Qed.
Lemma touched_app sig os o : touched sig (os ++ [o]) = touched sig os || touches sig o.
Proof. unfold touched. rewrite existsb_app. cbn. rewrite orb_false_r. reflexivity. Qed.

Lemma add_inv os s n sig go : inv os s -> sig = 0 \/ caught s sig = true -> inv os (set_hooks s (hooks s ++ [(n, sig, go)])).
Proof.
  intros I C. destruct I. constructor; auto. cbn [hooks set_hooks]. apply Forall_app. split; [exact i_hooks0|]. constructor; [exact C|constructor].
Qed.

(** ** Dispatching *)
Lemma run_hooks_ok sig l : forall s, exists e,
  run_hooks clobber s l sig = (set_errno s e, numbers (filter (should_run sig) l), existsb snd (filter (should_run sig) l)).
Proof.
  induction l as [|h l IH]; intros s; cbn [run_hooks filter].
  - exists (errno s). destruct s; reflexivity.
  - destruct (should_run sig h).
    + destruct (IH (set_errno s (clobber (fst (fst h))))) as (e & ->). exists e. reflexivity.
    + apply IH.
Qed.
Lemma filter_filter {A} (f g : A -> bool) l : filter f (filter g l) = filter (fun x => g x && f x) l.
Proof.
  induction l as [|x l IH]; [reflexivity|]. cbn [filter]. destruct (g x); cbn [filter andb]; [|exact IH]. destruct (f x); rewrite IH; reflexivity.
Qed.
Lemma hooks_small os s : inv os s -> Forall (fun h => snd (fst h) <= 64) (hooks s).
Proof.
  intros I. eapply Forall_impl; [|apply (i_hooks _ _ I)]. intros h [->|C]; [lia|]. apply (i_can _ _ I) in C. apply (range _ _ sys) in C. lia.
Qed.
Lemma mod64 g : g <= 64 -> g mod 64 = if g =? 64 then 0 else g.
Proof. intros L. destruct (Nat.eqb_spec g 64) as [->|N]; [reflexivity|]. apply Nat.mod_small. lia. Qed.
Lemma normal_hooks os s sig : inv os s -> 1 <= sig < 64 -> filter (should_run sig) (in_list s (siglist sig)) = for_signal (hooks s) sig.
Proof.
  intros I L. unfold in_list. rewrite filter_filter. apply filter_ext_in. intros h IN.
  pose proof (proj1 (Forall_forall _ _) (hooks_small _ _ I) h IN) as S. unfold siglist, should_run. cbn beta in S. rewrite (mod64 (snd (fst h)) S), (mod64 sig) by lia.
  destruct (Nat.eqb_spec sig 64); [lia|]. destruct (Nat.eqb_spec (snd (fst h)) 64), (Nat.eqb_spec (snd (fst h)) sig), (Nat.eqb_spec (snd (fst h)) 0); cbn; lia.
Qed.
Lemma exit_hooks os s sig : inv os s -> 1 <= sig < 64 -> filter (should_run sig) (in_list s (siglist 0)) = for_signal (hooks s) 0.
Proof.
  intros I L. unfold in_list. rewrite filter_filter. apply filter_ext_in. intros h IN.
  pose proof (proj1 (Forall_forall _ _) (hooks_small _ _ I) h IN) as S. unfold siglist, should_run. cbn beta in S. rewrite (mod64 (snd (fst h)) S). change (0 mod 64) with 0.
  destruct (Nat.eqb_spec (snd (fst h)) 64), (Nat.eqb_spec (snd (fst h)) sig), (Nat.eqb_spec (snd (fst h)) 0); cbn; lia.
Qed.
Lemma reraise_ok s sig : can sig = true -> default_of sig = Terminate -> reraise can s sig = sig.
Proof.
  intros C T. unfold reraise, sigaction. rewrite C. unfold raise. cbn [blocked disp set_blocked set_disp]. unfold upd. rewrite !Nat.eqb_refl, T. reflexivity.
Qed.

(** What happens to a signal that is not caught, and to one that is *)
Lemma uncaught os s sig code : inv os s -> 1 <= sig -> caught s sig = false ->
  for_signal (hooks s) sig = [] /\
  deliver can clobber s sig code = (s, if faulty sig code then Killed sig [] [] else
    match started sig, default_of sig with
    | AtDefault, Terminate => Killed sig [] []
    | AtDefault, Stop => Stops
    | _, _ => Continues []
    end).
Proof.
  intros I L C. split.
  - destruct (for_signal (hooks s) sig) as [|h l] eqn:E; [reflexivity|exfalso].
    assert (IN : In h (for_signal (hooks s) sig)) by (rewrite E; left; reflexivity). unfold for_signal in IN.
    apply filter_In in IN. destruct IN as [IN G]. apply Nat.eqb_eq in G. pose proof (proj1 (Forall_forall _ _) (i_hooks _ _ I) h IN) as [Z|Z]; [lia|]. rewrite G in Z. congruence.
  - unfold deliver. rewrite (i_disp _ _ I), C. destruct (started sig); cbn [of_start].
    + destruct (faulty sig code) eqn:F; [rewrite (faulty_terminates _ _ F); reflexivity|]. destruct (default_of sig); reflexivity.
    + destruct (faulty sig code); reflexivity.
Qed.
Definition after (s : state) (sig : nat) : state :=
  mkState (disp s) (upd (upd (blocked s) sig true) sig false) (signals s) (saved s) (hooks s) (errno s).
Lemma fatal_iff os s sig : inv os s -> caught s sig = true -> is_fatal sig = match default_of sig with Terminate => true | _ => false end.
Proof.
  intros I C. pose proof (i_can _ _ I _ C) as CA. pose proof (range _ _ sys _ CA) as R. destruct (never _ _ sys) as (N1 & N2 & N3 & N4).
  destruct (is_fatal sig) eqn:F; [apply fatal_terminates in F; destruct F as [-> _]; reflexivity|].
  destruct (default_of sig) eqn:D; try reflexivity. exfalso.
  assert (X : is_fatal sig = true) by (apply terminates_fatal; auto; intros ->; congruence). congruence.
Qed.
Lemma caught_ok os s sig code : inv os s -> 1 <= sig < 64 -> caught s sig = true ->
  exists s', deliver can clobber s sig code = (s', if faulty sig code then Killed sig [] [] else
    if existsb snd (for_signal (hooks s) sig) then Continues (numbers (for_signal (hooks s) sig)) else
    match default_of sig with
    | Terminate => Killed sig (numbers (for_signal (hooks s) sig)) (numbers (for_signal (hooks s) 0))
    | _ => Continues (numbers (for_signal (hooks s) sig))
    end) /\ (forall ran, snd (deliver can clobber s sig code) = Continues ran -> s' = after s sig).
Proof.
  intros I L C. pose proof (i_can _ _ I _ C) as CA. unfold deliver. rewrite (i_disp _ _ I), C. unfold sigdispatch. rewrite fault_is. destruct (faulty sig code) eqn:F.
  - unfold sigaction. rewrite CA. cbn [disp set_blocked set_disp]. unfold upd. rewrite Nat.eqb_refl. eexists. split; [reflexivity|discriminate].
  - replace (in_list (set_blocked s sig true) (siglist sig)) with (in_list s (siglist sig)) by reflexivity.
    destruct (run_hooks_ok sig (in_list s (siglist sig)) (set_blocked s sig true)) as (e & ->). rewrite (normal_hooks _ _ _ I L).
    rewrite (fatal_iff _ _ _ I C). destruct (existsb snd (for_signal (hooks s) sig)) eqn:EX; cbn [negb andb].
    + eexists. split; [reflexivity|]. intros ran _. reflexivity.
    + pose proof (i_stop _ _ I _ C) as NS. destruct (default_of sig) eqn:D.
      * replace (in_list (set_errno (set_blocked s sig true) e) (siglist 0)) with (in_list s (siglist 0)) by reflexivity.
        destruct (run_hooks_ok sig (in_list s (siglist 0)) (set_errno (set_blocked s sig true) e)) as (e' & ->). rewrite (exit_hooks _ _ _ I L), (reraise_ok _ _ CA D).
        eexists. split; [reflexivity|]. discriminate.
      * eexists. split; [reflexivity|]. intros ran _. reflexivity.
      * congruence.
      * eexists. split; [reflexivity|]. intros ran _. reflexivity.
Qed.

Lemma after_inv os s sig : inv os s -> inv os (after s sig).
Proof. intros I. destruct I. constructor; auto. cbn. unfold upd. intros g. destruct (g =? sig); auto. Qed.

(** ** Histories *)
Lemma live_snoc h x : live (h ++ [x]) = live1 (live h) x.
Proof. unfold live. rewrite fold_left_app. reflexivity. Qed.
Lemma filter_sub {A} (P : A -> Prop) f l : Forall P l -> Forall P (filter f l).
Proof. rewrite !Forall_forall. intros H x I. apply filter_In in I. apply H, I. Qed.

Lemma exits_app l n sig go : 1 <= sig -> for_signal (l ++ [(n, sig, go)]) 0 = for_signal l 0.
Proof. intros L. unfold for_signal. rewrite filter_app. cbn. destruct (Nat.eqb_spec sig 0); [lia|]. apply app_nil_r. Qed.
Lemma atexit_touched os n : Forall (fun sig => touched sig (os ++ [AtExit n]) = true /\ default_of sig <> Stop) FATAL_SIGNALS /\
  Forall (fun sig => touched sig (os ++ [AtExit n]) = true /\ default_of sig <> Stop) (seq SIGRTMIN (SIGRTMAX - SIGRTMIN + 1)).
Proof.
  split; apply Forall_forall; intros sig IN; (split; [rewrite touched_app; apply orb_true_r|]);
    destruct (fatal_terminates sig) as [-> _]; try discriminate; apply in_fatal; auto.
Qed.

Lemma two_inv os s l1 l2 mem : Forall (fun sig => touched sig os = true /\ default_of sig <> Stop) l1 -> Forall (fun sig => touched sig os = true /\ default_of sig <> Stop) l2 -> inv os s ->
  exists s', siginit_all l2 mem (siginit_all l1 mem s) = s' /\ inv os s' /\ hooks s' = hooks s /\
    ((forall g, mem g = true) -> forall g, In g l1 \/ In g l2 -> can g = true -> caught s' g = true).
Proof.
  intros F1 F2 I. eexists. split; [reflexivity|]. split; [apply all_inv; [exact F2|]; apply all_inv; assumption|]. split; [rewrite !all_hooks; reflexivity|].
  intros M g [G|G] C; [apply all_grows; apply all_caught; auto|apply all_caught; auto].
Qed.
Lemma atexit_inv os s n mem mem' : inv (os ++ [AtExit n]) s ->
  inv (os ++ [AtExit n]) (fst (atsigexit can s n mem mem')) /\
  hooks (fst (atsigexit can s n mem mem')) = (if snd (atsigexit can s n mem mem') then hooks s ++ [(n, 0, false)] else hooks s) /\
  ((forall g, mem g = true) -> forall g, is_fatal g = true -> can g = true -> caught (fst (atsigexit can s n mem mem')) g = true).
Proof.
  intros I. destruct (atexit_touched os n) as [T1 T2]. unfold atsigexit. cbv zeta.
  destruct (two_inv _ s _ _ mem T1 T2 I) as (s' & -> & I' & HH & ALL). unfold sighook_impl. destruct mem'; cbn [fst snd].
  - split; [apply add_inv; auto|]. split; [cbn [hooks set_hooks]; rewrite HH; reflexivity|]. intros M g F C. exact (ALL M g (fatal_in g F) C).
  - split; [exact I'|]. split; [exact HH|]. intros M g F C. exact (ALL M g (fatal_in g F) C).
Qed.

Lemma step_inv os h s o m s' r : inv os s -> hooks s = live h -> fair o -> step can clobber s o m = (s', r) -> over r = false ->
  inv (os ++ [o]) s' /\ hooks s' = live (h ++ [(o, r)]) /\ (full s -> (forall g, fst m g = true) -> full s').
Proof.
  intros I HL FA E OV. assert (I' : inv (os ++ [o]) s). { eapply more; [|exact I]. intros g T. rewrite touched_app, T. reflexivity. }
  destruct o as [n sig go|n|n|sig code]; cbn [step] in E.
  - unfold sighook in E. destruct FA as [L NS].
    assert (T : touched sig (os ++ [Hook n sig go]) = true) by (rewrite touched_app; cbn [touches]; rewrite Nat.eqb_refl; apply orb_true_r).
    pose proof (siginit_inv _ _ _ (fst m sig) I' T NS) as I2. pose proof (siginit_true s sig (fst m sig)) as C. pose proof (siginit_hooks s sig (fst m sig)) as HH.
    pose proof (fun g => siginit_grows s sig (fst m sig) g) as GR.
    destruct (siginit s sig (fst m sig)) as [s1 ok]. cbn [fst snd] in *. destruct ok; [unfold sighook_impl in E; destruct (snd m)|]; injection E as <- <-.
    + split; [apply add_inv; auto|]. split; [rewrite live_snoc; cbn [live1 hooks set_hooks]; rewrite HH, HL; reflexivity|].
      intros FU _ NE g F CG. unfold caught in *. cbn [signals set_hooks]. apply GR, FU; auto. intros Z. apply NE. cbn [hooks set_hooks]. rewrite HH, exits_app by exact L. exact Z.
    + split; [exact I2|]. split; [rewrite live_snoc; cbn [live1]; congruence|]. intros FU _ NE g F CG. apply GR, FU; auto. congruence.
    + split; [exact I2|]. split; [rewrite live_snoc; cbn [live1]; congruence|]. intros FU _ NE g F CG. apply GR, FU; auto. congruence.
  - rewrite (surjective_pairing (atsigexit can s n (fst m) (snd m))) in E. injection E as <- <-.
    destruct (atexit_inv os s n (fst m) (snd m) I') as (I2 & HH & ALL). split; [exact I2|]. split; [|intros _ M _; exact (ALL M)].
    rewrite live_snoc. cbn [live1]. rewrite HH, HL. destruct (snd (atsigexit can s n (fst m) (snd m))); reflexivity.
  - injection E as <- <-. split; [|split].
    + destruct I'. constructor; auto. cbn [hooks sigunhook set_hooks]. apply filter_sub. assumption.
    + rewrite live_snoc. cbn [live1 hooks sigunhook set_hooks]. rewrite HL. reflexivity.
    + intros FU _ NE g F CG. apply FU; auto. intros Z. apply NE. cbn [hooks sigunhook set_hooks]. clear - Z. unfold for_signal in *. revert Z. generalize (hooks s).
      induction l as [|x l IH]; [reflexivity|]. cbn [filter]. destruct (snd (fst x) =? 0) eqn:Q; [discriminate|]. intros Z. destruct (negb _); cbn [filter]; rewrite ?Q; apply IH, Z.
  - cbn [fair] in FA. destruct (deliver can clobber s sig code) as [s1 oc] eqn:ED. injection E as <- <-.
    assert (S1 : s1 = s \/ s1 = after s sig).
    { destruct (caught s sig) eqn:C.
      - destruct (caught_ok _ _ _ code I FA C) as (s2 & E2 & A). rewrite ED in E2, A. cbn [snd] in A. injection E2 as <- E3. right. destruct oc as [ran| |by_ ran ex|]; try discriminate; [eapply A; reflexivity|].
        exfalso. destruct (faulty sig code); [discriminate|]. destruct (existsb _ _); [discriminate|]. destruct (default_of sig); discriminate.
      - destruct (uncaught _ _ _ code I (proj1 FA) C) as [_ E2]. rewrite ED in E2. injection E2 as <- _. left. reflexivity. }
    split; [destruct S1 as [->| ->]; [exact I'|apply after_inv; exact I']|]. split; [rewrite live_snoc; cbn [live1]; destruct S1 as [->| ->]; exact HL|].
    intros FU _. destruct S1 as [->| ->]; exact FU.
Qed.

Lemma run_inv : forall todo os h s s' h', inv os s -> hooks s = live h -> Forall fair (map fst todo) -> run can clobber s todo = Some (s', h') ->
  inv (os ++ map fst todo) s' /\ hooks s' = live (h ++ h') /\ (full s -> plenty todo -> full s').
Proof.
  induction todo as [|[o m] todo IH]; intros os h s s' h' I HL FA E; cbn [run map] in *.
  - injection E as <- <-. rewrite !app_nil_r. auto.
  - destruct (step can clobber s o m) as [s1 r] eqn:ES. destruct (over r) eqn:OV; [discriminate|]. destruct (run can clobber s1 todo) as [[s2 h2]|] eqn:ER; [|discriminate].
    injection E as <- <-. inversion FA as [|? ? F1 F2]; subst. cbn [fst] in F1.
    destruct (step_inv _ _ _ _ _ _ _ I HL F1 ES OV) as (I1 & H1 & U1). destruct (IH _ _ _ _ _ I1 H1 F2 ER) as (I2 & H2 & U2).
    rewrite <- !app_assoc in *. cbn [app] in *. split; [exact I2|]. split; [exact H2|]. intros FU PL. inversion PL as [|? ? P1 P2]; subst. apply U2; auto.
Qed.

Lemma reached todo s h : Forall fair (map fst todo) -> run can clobber (init started) todo = Some (s, h) ->
  inv (map fst todo) s /\ hooks s = live h /\ (plenty todo -> full s).
Proof.
  intros FA E. destruct (run_inv todo [] [] _ _ _ init_inv eq_refl FA E) as (I & HL & U). split; [exact I|]. split; [exact HL|]. apply U. intros N. exfalso. apply N. reflexivity.
Qed.

(** ** The claims *)
Lemma touched_caught os s sig : inv os s -> caught s sig = true -> (started sig = Ignored -> touched sig os = false) -> started sig = AtDefault.
Proof.
  intros I C T. destruct (started sig) eqn:S; [reflexivity|]. rewrite (i_touched _ _ I _ C) in T. discriminate (T eq_refl).
Qed.

Lemma signal_ok todo s h sig code : Forall fair (map fst todo) -> plenty todo -> run can clobber (init started) todo = Some (s, h) -> 1 <= sig < 64 ->
  (started sig = Ignored -> touched sig (map fst todo) = false) -> snd (deliver can clobber s sig code) = expected can started (live h) sig code.
Proof.
  intros FA PL E L T. destruct (reached _ _ _ FA E) as (I & HL & U). specialize (U PL). rewrite <- HL. unfold expected. destruct (caught s sig) eqn:C.
  - destruct (caught_ok _ _ _ code I L C) as (s' & -> & _). cbn [snd]. rewrite (touched_caught _ _ _ I C T), (i_can _ _ I _ C). pose proof (i_stop _ _ I _ C).
    destruct (faulty sig code); [reflexivity|]. destruct (existsb _ _); [reflexivity|]. destruct (default_of sig); try reflexivity. congruence.
  - destruct (uncaught _ _ _ code I (proj1 L) C) as [N ->]. cbn [snd]. rewrite N. destruct (faulty sig code); [reflexivity|]. cbn [existsb numbers map].
    destruct (started sig); [|reflexivity]. destruct (default_of sig) eqn:D; try reflexivity. destruct (can sig) eqn:CA; [|reflexivity].
    destruct (for_signal (hooks s) 0) as [|x l] eqn:X; [reflexivity|exfalso]. destruct (never _ _ sys) as (N1 & N2 & N3 & N4).
    rewrite U in C; [discriminate|rewrite X; discriminate| |exact CA]. apply terminates_fatal; auto; try lia; intros ->; congruence.
Qed.

Lemma fate_ok todo s h sig code : Forall fair (map fst todo) -> run can clobber (init started) todo = Some (s, h) -> 1 <= sig < 64 ->
  (started sig = Ignored -> touched sig (map fst todo) = false) -> same_fate (snd (deliver can clobber s sig code)) (expected can started (live h) sig code).
Proof.
  intros FA E L T. destruct (reached _ _ _ FA E) as (I & HL & _). rewrite <- HL. unfold expected. destruct (caught s sig) eqn:C.
  - destruct (caught_ok _ _ _ code I L C) as (s' & -> & _). cbn [snd]. rewrite (touched_caught _ _ _ I C T), (i_can _ _ I _ C). pose proof (i_stop _ _ I _ C).
    destruct (faulty sig code); [cbn; auto|]. destruct (existsb _ _); [reflexivity|]. destruct (default_of sig); cbn [same_fate]; auto.
  - destruct (uncaught _ _ _ code I (proj1 L) C) as [N ->]. cbn [snd]. rewrite N. destruct (faulty sig code); [cbn; auto|]. cbn [existsb numbers map].
    destruct (started sig); [|reflexivity]. destruct (default_of sig); cbn [same_fate]; auto.
Qed.

Lemma unnoticed todo s h sig code s' ran : Forall fair (map fst todo) -> run can clobber (init started) todo = Some (s, h) -> 1 <= sig < 64 ->
  deliver can clobber s sig code = (s', Continues ran) -> errno s' = errno s /\ hooks s' = hooks s /\ forall g, disp s' g = disp s g /\ blocked s' g = blocked s g.
Proof.
  intros FA E L ED. destruct (reached _ _ _ FA E) as (I & _ & _). destruct (caught s sig) eqn:C.
  - destruct (caught_ok _ _ _ code I L C) as (s2 & E2 & A). rewrite ED in E2, A. injection E2 as <- _. rewrite (A ran eq_refl). cbn. repeat split; auto. unfold upd. destruct (Nat.eqb_spec g sig); [|reflexivity]. symmetry. apply (i_blocked _ _ I).
  - destruct (uncaught _ _ _ code I (proj1 L) C) as [_ E2]. rewrite ED in E2. injection E2 as <- _. auto.
Qed.

Lemma added todo s h n sig go m : Forall fair (map fst todo) -> run can clobber (init started) todo = Some (s, h) -> can sig = true -> (forall g, fst m g = true) -> snd m = true ->
  snd (step can clobber s (Hook n sig go) m) = Added true /\ snd (step can clobber s (AtExit n) m) = Added true.
Proof.
  intros FA E C M1 M2. cbn [step]. unfold sighook, atsigexit, sighook_impl. rewrite M1, M2. split; [|reflexivity].
  pose proof (proj1 (siginit_ok s sig C)) as K. destruct (siginit s sig true) as [s1 ok]. cbn [snd] in K. subst ok. reflexivity.
Qed.

Lemma restore_ok l : Forall (fun x => can (fst x) = true /\ snd x = of_start (started (fst x))) l -> forall s, exists s', restore can s l = Some s' /\
  forall sig, disp s' sig = disp s sig /\ (forall a, ~ In (sig, a) l) \/ disp s' sig = of_start (started sig).
Proof.
  induction 1 as [|[g a] l [C A] F IH]; intros s; cbn [restore fst snd] in *.
  - exists s. split; [reflexivity|]. intros sig. left. split; [reflexivity|]. intros a I. exact I.
  - unfold sigaction. rewrite C. destruct (IH (set_disp s g a)) as (s' & -> & D). exists s'. split; [reflexivity|]. intros sig.
    destruct (D sig) as [[D1 D2]|D1]; [|right; exact D1]. cbn [disp set_disp] in D1. unfold upd in D1. destruct (Nat.eqb_spec sig g) as [EQ|NE]; [right; congruence|].
    left. split; [exact D1|]. intros a' [X|X]; [congruence|]. exact (D2 a' X).
Qed.

Lemma forked todo s h : Forall fair (map fst todo) -> run can clobber (init started) todo = Some (s, h) ->
  exists d, command can s false = Some d /\ forall sig, d sig = started sig.
Proof.
  intros FA E. destruct (reached _ _ _ FA E) as (I & _ & _). unfold command, sigreset.
  destruct (restore_ok (saved s)) with (s := s) as (s' & -> & D).
  { eapply Forall_impl; [|apply (i_saved _ _ I)]. intros x [A B]. split; [apply (i_can _ _ I _ A)|exact B]. }
  eexists. split; [reflexivity|]. intros sig. cbn beta. unfold execve. assert (X : disp s' sig = of_start (started sig)).
  { destruct (D sig) as [[D1 D2]|D1]; [|exact D1]. rewrite D1, (i_disp _ _ I). destruct (caught s sig) eqn:C; [|reflexivity]. exfalso. exact (D2 _ (i_all _ _ I _ C)). }
  rewrite X. destruct (started sig); reflexivity.
Qed.
Lemma spawned todo s h : Forall fair (map fst todo) -> run can clobber (init started) todo = Some (s, h) ->
  exists d, command can s true = Some d /\ forall sig, (started sig = Ignored -> touched sig (map fst todo) = false) -> d sig = started sig.
Proof.
  intros FA E. destruct (reached _ _ _ FA E) as (I & _ & _). exists (execve s). split; [reflexivity|]. intros sig T. unfold execve. rewrite (i_disp _ _ I). destruct (caught s sig) eqn:C.
  - rewrite (touched_caught _ _ _ I C T). reflexivity.
  - destruct (started sig); reflexivity.
Qed.
End System.
