From Coq Require Import List ZArith Lia Bool.
From Coq Require Import Init.Byte.
From Verif Require Import PathModel ExecModel ExecSpec ExecProofs ExecRuns ArgmaxModel ArgmaxSpec.
Import ListNotations.

Local Opaque Nat.div Nat.modulo Nat.ltb Nat.leb.

(** ** The run depends on the answers to the commands that are tried only *)
Section Agree.
  Variable dir : Type.
  Variable tmpl : list arg.
  Variable P : arg -> Prop.
  Notation exec := (exec dir). Notation argv := (argv dir). Notation tries := (tries dir).

  Definition agree (k1 k2 : nat -> list arg -> outcome) (l : list (attempt dir)) : Prop :=
    forall i a, nth_error l i = Some a -> k2 i (t_argv dir a) = k1 i (t_argv dir a).
  Definition ext (e e' : exec) : Prop := exists new, tries e' = tries e ++ new.
  Definition slots (e : exec) : Prop := forall i a, argv e i = Arg a -> P a.
  Definition good (k : nat -> list arg -> outcome) (e : exec) : Prop :=
    slots e /\ forall i a, nth_error (tries e) i = Some a -> t_outcome dir a = k i (t_argv dir a) /\ Forall P (t_argv dir a).

  Lemma ext_refl e : ext e e. Proof. exists []. now rewrite app_nil_r. Qed.
  Lemma ext_same e e' : tries e' = tries e -> ext e e'. Proof. intros T. exists []. now rewrite app_nil_r. Qed.
  Lemma ext_trans e f g : ext e f -> ext f g -> ext e g.
  Proof. intros (n & E) (m & F). exists (n ++ m). now rewrite F, E, app_assoc. Qed.
  Lemma agree_ext k1 k2 e e' : ext e e' -> agree k1 k2 (tries e') -> agree k1 k2 (tries e).
  Proof.
    intros (n & E) A i a N. apply A. rewrite E, nth_error_app1; [exact N|]. apply nth_error_Some. now rewrite N.
  Qed.

  (** [e'] has the attempts of [e], and arguments of [e] or [P] *)
  Definition quiet (e e' : exec) : Prop := tries e' = tries e /\ (slots e -> slots e').
  Lemma quiet_refl e : quiet e e. Proof. now split. Qed.
  Lemma quiet_trans e f g : quiet e f -> quiet f g -> quiet e g.
  Proof. intros (A & B) (C & D). split; [now rewrite C|auto]. Qed.
  Lemma quiet_ext e e' : quiet e e' -> ext e e'. Proof. intros (T & _). now apply ext_same. Qed.
  Lemma quiet_good k e e' : quiet e e' -> good k e -> good k e'.
  Proof. intros (T & S) (A & B). split; [auto|]. rewrite T. exact B. Qed.

  Lemma put_quiet e i s e' : put dir e i s = Some e' -> (forall a, s = Arg a -> P a \/ exists j, argv e j = Arg a) -> quiet e e'.
  Proof.
    unfold put. destruct (Nat.ltb _ _); [|discriminate]. intros [= <-] H. split; [reflexivity|]. intros S j a. cbn.
    destruct (Nat.eqb j i); [|apply S]. intros E. destruct (H a E) as [X|(m & X)]; [exact X|exact (S _ _ X)].
  Qed.
  Lemma set_quiet e n z : quiet e (set_argc dir e n z). Proof. now split. Qed.
  Lemma bounds_quiet e n z : quiet e (set_bounds dir e n z). Proof. now split. Qed.
  Lemma cap_quiet e n : quiet e (set_cap dir e n). Proof. now split. Qed.
  Lemma min_quiet e : quiet e (update_min dir e).
  Proof. unfold update_min. destruct (Nat.ltb _ _); [apply bounds_quiet|apply quiet_refl]. Qed.
  Lemma max_quiet e : quiet e (update_max dir e).
  Proof.
    unfold update_max. cbv zeta. set (e1 := if Nat.leb _ _ then _ else _). assert (Q : quiet e e1) by (subst e1; destruct (Nat.leb _ _); [apply bounds_quiet|apply quiet_refl]).
    clearbody e1. eapply quiet_trans; [exact Q|]. destruct (Nat.ltb _ _); [apply bounds_quiet|apply quiet_refl].
  Qed.
  Lemma shrink_quiet : forall fuel e m e', shrink dir fuel e m = Some e' -> quiet e e'.
  Proof.
    induction fuel as [|fuel IH]; intros e m e'; cbn [shrink].
    - destruct (Nat.ltb _ _); [discriminate|]. intros [= <-]. apply quiet_refl.
    - destruct (Nat.ltb m _); [|intros [= <-]; apply quiet_refl]. destruct (argc dir e) as [|n] eqn:N; [discriminate|].
      destruct (argv e n) as [|a|] eqn:A; try discriminate. destruct (put dir e (Datatypes.S n) (Arg a)) as [e1|] eqn:E; [|discriminate].
      destruct (Nat.ltb _ _); [discriminate|]. intros H. apply IH in H. eapply quiet_trans; [|exact H].
      eapply quiet_trans; [|apply set_quiet]. eapply put_quiet; [exact E|]. intros b [= <-]. right. exists n. exact A.
  Qed.
  Lemma free_quiet : forall n e i e', free_slots dir e i n = Some e' -> quiet e e'.
  Proof.
    induction n as [|n IH]; intros e i e'; cbn [free_slots]; [intros [= <-]; apply quiet_refl|].
    destruct (argv e i) as [|a|] eqn:A; try discriminate. destruct (put dir e i Junk) as [e1|] eqn:E; [|discriminate].
    intros H. apply IH in H. eapply quiet_trans; [|exact H]. eapply put_quiet; [exact E|discriminate].
  Qed.
  Lemma move_quiet keep : forall n e i e', move_slots dir e keep i n = Some e' -> quiet e e'.
  Proof.
    induction n as [|n IH]; intros e i e'; cbn [move_slots]; [intros [= <-]; apply quiet_refl|].
    destruct (argv e i) as [|a|] eqn:A; try discriminate. destruct keep.
    - destruct (put dir e _ (Arg a)) as [e1|] eqn:E; [|discriminate].
      intros H. apply IH in H. eapply quiet_trans; [|exact H]. eapply quiet_trans; [|apply set_quiet]. eapply put_quiet; [exact E|]. intros b [= <-]. right. exists i. exact A.
    - destruct (put dir e i Junk) as [e1|] eqn:E; [|discriminate].
      intros H. apply IH in H. eapply quiet_trans; [|exact H]. eapply put_quiet; [exact E|discriminate].
  Qed.
  Lemma push_quiet w e a e' b : push dir w e a = Some (e', b) -> P a -> quiet e e'.
  Proof.
    unfold push. intros H PA. destruct (put dir e _ (Arg a)) as [e1|] eqn:E; [|discriminate].
    assert (Q : quiet e e1) by (eapply put_quiet; [exact E|]; intros c [= <-]; now left). destruct (Nat.leb _ _).
    - destruct (w_grow dir w).
      + injection H as <- <-. eapply quiet_trans; [exact Q|]. eapply quiet_trans; [apply cap_quiet|apply set_quiet].
      + destruct (put dir e1 _ Junk) as [e2|] eqn:E2; [|discriminate]. injection H as <- <-. eapply quiet_trans; [exact Q|]. eapply put_quiet; [exact E2|discriminate].
    - injection H as <- <-. eapply quiet_trans; [exact Q|apply set_quiet].
  Qed.

  Lemma read_P : forall fuel e i l, slots e -> read_argv dir fuel e i = Some l -> Forall P l.
  Proof.
    induction fuel as [|fuel IH]; intros e i l S; cbn [read_argv]; [discriminate|]. destruct (Nat.ltb _ _); [|discriminate].
    destruct (argv e i) as [|a|] eqn:A; try discriminate; [intros [= <-]; constructor|].
    destruct (read_argv dir fuel e (Datatypes.S i)) as [m|] eqn:R; [|discriminate]. intros [= <-]. constructor; [exact (S _ _ A)|exact (IH _ _ _ S R)].
  Qed.

  (** What a function that may run commands does *)
  Definition fine {X} (f : (nat -> list arg -> outcome) -> option (exec * X)) (e : exec) : Prop :=
    forall k e' x, f k = Some (e', x) -> ext e e' /\ (good k e -> good k e') /\ (forall k', agree k k' (tries e') -> f k' = Some (e', x)).

  Lemma fine_quiet {X} (r : option (exec * X)) e : (forall e' x, r = Some (e', x) -> quiet e e') -> fine (fun _ => r) e.
  Proof. intros Q k e' x H. apply Q in H as Q'. split; [now apply quiet_ext|]. split; [now apply quiet_good|auto]. Qed.

  Lemma fine_bind {X Y} f (g : exec -> X -> _ -> option (exec * Y)) e :
    fine f e -> (forall e1 x, fine (g e1 x) e1) ->
    fine (fun k => match f k with None => None | Some (e1, x) => g e1 x k end) e.
  Proof.
    intros F G k e' y H. destruct (f k) as [[e1 x]|] eqn:E; [|discriminate]. destruct (F _ _ _ E) as (A & B & C). destruct (G _ _ _ _ _ H) as (A' & B' & C').
    split; [eapply ext_trans; eauto|]. split; [auto|]. intros k' K. rewrite (C k') by (eapply agree_ext; eauto). auto.
  Qed.

  Lemma fine_spawn e : fine (fun k => exec_spawn dir k e) e.
  Proof.
    intros k e' o. unfold exec_spawn. destruct (read_argv dir (argv_cap dir e + 1) e 0) as [args|] eqn:R; [|discriminate].
    intros [= <- <-]. split; [exists [mkAttempt dir args (wd_fd dir e) (k (length (tries e)) args)]; reflexivity|]. split.
    - intros (S & T). split; [exact S|]. intros i a N. cbn [ExecModel.tries set_tries] in N. destruct (Nat.ltb_spec i (length (tries e))).
      + rewrite nth_error_app1 in N by exact H. exact (T _ _ N).
      + rewrite nth_error_app2 in N by lia. destruct (i - length (tries e)) as [|m] eqn:M; [|destruct m; discriminate N]. injection N as <-. cbn.
        replace i with (length (tries e)) by lia. split; [reflexivity|]. exact (read_P _ _ _ _ S R).
    - intros k' A. cbv zeta. assert (X : k' (length (tries e)) args = k (length (tries e)) args).
      { apply (A (length (tries e)) (mkAttempt dir args (wd_fd dir e) (k (length (tries e)) args))). cbn. rewrite nth_error_app2, PeanoNat.Nat.sub_diag by lia. reflexivity. }
      now rewrite X.
  Qed.

  Lemma fine_ext {X} (f g : _ -> option (exec * X)) e : (forall k, f k = g k) -> fine f e -> fine g e.
  Proof. intros E F k e' x H. rewrite <- E in H. destruct (F _ _ _ H) as (A & B & C). split; [exact A|]. split; [exact B|]. intros k' K. rewrite <- E. auto. Qed.
  Lemma fine_after {X} (f : _ -> option (exec * X)) e e1 : quiet e e1 -> fine f e1 -> fine f e.
  Proof. intros Q F k e' x H. destruct (F _ _ _ H) as (A & B & C). split; [eapply ext_trans; [apply quiet_ext, Q|exact A]|]. split; [|exact C]. intros G. apply B. eapply quiet_good; eauto. Qed.
  Lemma fine_none {X} e : fine (fun _ => @None (exec * X)) e. Proof. intros k e' x [=]. Qed.
  Lemma fine_some {X} e e1 (x : X) : quiet e e1 -> fine (fun _ => Some (e1, x)) e.
  Proof. intros Q. apply fine_quiet. intros e' y [= <- <-]. exact Q. Qed.

  Lemma fine_loop : forall fuel e o, fine (fun k => flush_loop dir tmpl k fuel e o) e.
  Proof.
    induction fuel as [|fuel IH]; intros e o; cbn [flush_loop].
    - destruct (args_remain dir tmpl e); [apply fine_none|apply fine_some, quiet_refl].
    - destruct (args_remain dir tmpl e); [|apply fine_some, quiet_refl].
      destruct (put dir e (argc dir e) Null) as [e0|] eqn:E; [|apply fine_none].
      apply (fine_after _ _ e0); [eapply put_quiet; [exact E|discriminate]|].
      apply (fine_ext (fun k => match exec_spawn dir k e0 with None => None | Some (e1, o) =>
         (fun e1 o k => match o with
           | Done => Some (update_min dir e1, Done)
           | TooBig => match shrink dir (S (argc dir (update_max dir e1))) (update_max dir e1) (estimate_max dir (update_max dir e1)) with
                       | None => None | Some e => flush_loop dir tmpl k fuel e TooBig end
           | o => Some (e1, o) end) e1 o k end)).
      { intros k. destruct (exec_spawn dir k e0) as [[e1 []]|]; reflexivity. }
      apply fine_bind; [apply fine_spawn|]. intros e1 x. destruct x.
      + apply fine_some, min_quiet.
      + apply fine_some, quiet_refl.
      + destruct (shrink dir _ (update_max dir e1) _) as [e2|] eqn:SH; [|apply fine_none].
        apply (fine_after _ _ e2); [|apply IH]. eapply quiet_trans; [apply max_quiet|]. eapply shrink_quiet, SH.
      + apply fine_some, quiet_refl.
  Qed.

  Lemma fine_flush e : fine (fun k => flush dir tmpl k e) e.
  Proof.
    unfold flush. cbv zeta. apply fine_bind; [apply fine_loop|]. intros e1 o.
    apply fine_quiet. intros e' x. destruct (free_slots dir e1 _ _) as [e2|] eqn:F; [|discriminate].
    destruct (if Nat.ltb _ _ then _ else _) as [e3|] eqn:M; [|discriminate]. intros [= <- <-].
    eapply quiet_trans; [eapply free_quiet, F|]. eapply quiet_trans; [apply set_quiet|]. destruct (Nat.ltb _ _).
    - eapply move_quiet, M.
    - injection M as <-. apply quiet_refl.
  Qed.

  Lemma fine_all : forall fuel e ok, fine (fun k => flush_all dir tmpl k fuel e ok) e.
  Proof.
    induction fuel as [|fuel IH]; intros e ok; cbn [flush_all].
    - destruct (args_remain dir tmpl e); [apply fine_none|apply fine_some, quiet_refl].
    - destruct (args_remain dir tmpl e); [|apply fine_some, quiet_refl].
      apply (fine_bind _ (fun e o k => flush_all dir tmpl k fuel e (ok && succeeded o))); [apply fine_flush|]. intros. apply IH.
  Qed.

  Lemma fine_multi w e f : P (f_path dir f) -> fine (fun k => exec_multi dir false tmpl k w e f) e.
  Proof.
    intros PF. unfold exec_multi. destruct (negb (w_arg dir w)); [apply fine_some, quiet_refl|]. cbv zeta. unfold changed_dirs. cbn [andb format_path].
    apply (fine_bind (fun k => if would_overflow dir e (f_path dir f) then match flush dir tmpl k e with Some (e, o) => Some (e, succeeded o) | None => None end else Some (e, true))
                     (fun e ok _ => match push dir w e (f_path dir f) with None => None | Some (e, pushed) => Some (e, ok && pushed) end)).
    - destruct (would_overflow _ _ _); [|apply fine_some, quiet_refl].
      apply (fine_ext (fun k => match flush dir tmpl k e with None => None | Some (e, o) => (fun e o _ => Some (e, succeeded o)) e o k end)); [reflexivity|].
      apply fine_bind; [apply fine_flush|]. intros. apply fine_some, quiet_refl.
    - intros e1 ok. apply fine_quiet. intros e' x. destruct (push dir w e1 _) as [[e2 b]|] eqn:PU; [|discriminate]. intros [= <- _]. eapply push_quiet; eauto.
  Qed.

  Definition unit_of (r : option exec) : option (exec * unit) := option_map (fun e => (e, tt)) r.
  Lemma failed_quiet e : quiet e (set_failed dir e). Proof. now split. Qed.
  Lemma if_quiet e (b : bool) : quiet e (if b then e else set_failed dir e). Proof. destruct b; [apply quiet_refl|apply failed_quiet]. Qed.

  Lemma fine_files : forall fs e, Forall (fun fw => P (f_path dir (fst fw))) fs -> fine (fun k => unit_of (exec_files dir false tmpl k e fs)) e.
  Proof.
    induction fs as [|[f w] fs IH]; intros e F; cbn [exec_files].
    - unfold exec_finish. apply (fine_ext (fun k => match flush_all dir tmpl k (S (argc dir e)) e true with None => None | Some (e, ok) => (fun e (ok : bool) _ => Some (if ok then e else set_failed dir e, tt)) e ok k end)).
      { intros k. destruct (flush_all dir tmpl k _ e true) as [[? ?]|]; reflexivity. }
      apply fine_bind; [apply fine_all|]. intros. apply fine_some, if_quiet.
    - inversion F as [|? ? PF FS]; subst. cbn [fst] in PF.
      apply (fine_ext (fun k => match exec_multi dir false tmpl k w e f with None => None | Some (e, ok) => (fun e (ok : bool) k => unit_of (exec_files dir false tmpl k (if ok then e else set_failed dir e) fs)) e ok k end)).
      { intros k. unfold exec_file. destruct (exec_multi dir false tmpl k w e f) as [[? ?]|]; reflexivity. }
      apply fine_bind; [apply fine_multi; exact PF|]. intros e1 ok. eapply fine_after; [apply if_quiet|]. apply IH, FS.
  Qed.

  Lemma run_agree k k' fs e e' : Forall (fun fw => P (f_path dir (fst fw))) fs -> exec_files dir false tmpl k e fs = Some e' -> good k e ->
    good k e' /\ (agree k k' (tries e') -> exec_files dir false tmpl k' e fs = Some e').
  Proof.
    intros F E G. destruct (fine_files fs e F k e' tt) as (_ & B & C); [unfold unit_of; now rewrite E|]. split; [auto|].
    intros A. specialize (C k' A). unfold unit_of in C. destruct (exec_files dir false tmpl k' e fs); [|discriminate]. now injection C as ->.
  Qed.

  Lemma init_good k limit : Forall P tmpl -> good k (exec_init dir tmpl limit).
  Proof.
    intros F. split; [|intros [|i] a [=]]. intros i a. cbn. destruct (nth_error tmpl i) eqn:N; [|discriminate]. intros [= <-].
    rewrite Forall_forall in F. apply F. eapply nth_error_In, N.
  Qed.
End Agree.

(** ** Sizes *)
Local Open Scope Z_scope.

Lemma to_long_id z : - 2 ^ 63 <= z < 2 ^ 63 -> to_long z = z.
Proof. intros H. unfold to_long. rewrite Z.mod_small by lia. lia. Qed.
Lemma take_ok m n : - 2 ^ 63 <= m - n < 2 ^ 63 -> take m n = m - n.
Proof.
  intros H. unfold take, to_long. rewrite Z.add_mod_idemp_l by lia. rewrite Z.mod_small by lia. lia.
Qed.
Lemma space_total l : space l = Z.of_nat (total l).
Proof.
  induction l as [|a l IH]; [reflexivity|]. rewrite total_cons. cbn [space fold_right]. fold (space l). rewrite IH. unfold len, arg_size. lia.
Qed.
Lemma space_app l m : space (l ++ m) = space l + space m.
Proof. rewrite !space_total, total_app. lia. Qed.
Lemma space_pos l : 0 <= space l. Proof. rewrite space_total. lia. Qed.
Lemma size_len a : Z.of_nat (arg_size a) = len a + 9.
Proof. unfold arg_size, len. lia. Qed.
Lemma take_args_ok : forall l m, m < 2 ^ 63 -> - 2 ^ 63 <= m - space l -> take_args m l = m - space l.
Proof.
  unfold take_args. induction l as [|a l IH]; intros m H H'; cbn [fold_left].
  - cbn. lia.
  - cbn [space fold_right] in *. fold (space l) in *. pose proof (space_pos l). rewrite size_len in *.
    assert (0 <= len a) by (unfold len; lia). rewrite take_ok by lia. rewrite IH by lia. lia.
Qed.

Lemma arg_max_ok sc page environ fixed : 0 <= sc < 2 ^ 63 -> page <= 2 ^ 32 -> space environ + space fixed < 2 ^ 62 ->
  bfs_exec_arg_max sc page environ fixed = Z.max 0 (Z.min BFS_EXEC_ARG_MAX (sc - space environ - space fixed - 16 - Z.max 4096 page - 2048)).
Proof.
  intros S PG SM. unfold bfs_exec_arg_max. pose proof (space_pos environ). pose proof (space_pos fixed).
  destruct (Z.ltb_spec sc 0); [lia|]. rewrite (take_args_ok environ sc) by lia. rewrite (take_ok (sc - space environ)) by lia. rewrite take_args_ok by lia. rewrite take_ok by lia.
  assert (P : (if page <? 4096 then 4096 else page) = Z.max 4096 page) by (destruct (Z.ltb_spec page 4096); lia).
  rewrite P. rewrite (to_long_id (_ - Z.max 4096 page)) by lia. rewrite to_long_id by lia.
  replace (sc - space environ - 8 - space fixed - 8 - Z.max 4096 page - 2048) with (sc - space environ - space fixed - 16 - Z.max 4096 page - 2048) by lia.
  set (v := sc - _ - _ - _ - _ - _). clearbody v. unfold BFS_EXEC_ARG_MAX. destruct (Z.ltb_spec v 0); [lia|]. destruct (Z.ltb_spec 16777216 v); lia.
Qed.

Lemma reported_range stack : 0 <= stack < 2 ^ 64 -> 0 <= reported_limit stack < 2 ^ 63.
Proof. intros H. unfold reported_limit. assert (stack / 4 < 2 ^ 62) by (apply Z.div_lt_upper_bound; lia). lia. Qed.
Lemma allowance_reported stack : allowance stack <= reported_limit stack.
Proof. unfold allowance, reported_limit. lia. Qed.
Lemma allowance_same stack : stack <= 25165824 -> allowance stack = reported_limit stack.
Proof. intros H. unfold allowance, reported_limit. assert (stack / 4 <= 6291456) by (apply Z.div_le_upper_bound; lia). lia. Qed.

Lemma within stack page environ file tmpl qs :
  0 <= stack <= 25165824 -> page <= 2 ^ 32 -> space environ + space tmpl < 2 ^ 62 ->
  len file < 4096 -> Forall short environ -> Forall short (tmpl ++ qs) ->
  space qs <= bfs_exec_arg_max (reported_limit stack) page environ tmpl -> 0 < bfs_exec_arg_max (reported_limit stack) page environ tmpl ->
  accepted stack file environ (tmpl ++ qs).
Proof.
  intros S PG SM F E A Q POS. rewrite arg_max_ok in Q, POS by (try exact PG; try exact SM; apply reported_range; lia).
  split; [unfold short; lia|]. split; [exact E|]. split; [exact A|]. rewrite space_app, allowance_same by lia. lia.
Qed.

Definition small (s : arg) : bool := len s + 1 <=? 131072.
Lemma small_short s : small s = true <-> short s. Proof. unfold small, short. apply Z.leb_le. Qed.

Lemma subseq_in {A} (l m : list A) : subseq l m -> forall x, In x l -> In x m.
Proof. induction 1; cbn; [tauto|auto|]. intros y [<-|I]; auto. Qed.

Lemma runs_linux dir stack page environ file tmpl kernel fs :
  0 <= stack < 2 ^ 64 -> page <= 2 ^ 32 -> len file < 4096 -> Forall short environ -> Forall short tmpl ->
  linux stack file environ kernel ->
  Forall (fun fw => generous (snd fw) /\ short (f_path dir (fst fw)) /\
    4 * (len (f_path dir (fst fw)) + 9) + Z.max 4096 page + 8192 <= allowance stack - space environ - space tmpl) fs -> exists e,
  exec_files dir false tmpl kernel (exec_init dir tmpl (Z.to_nat (bfs_exec_arg_max (reported_limit stack) page environ tmpl))) fs = Some e /\
  executed tmpl (tries dir e) = map (fun fw => f_path dir (fst fw)) fs /\
  (stack <= 25165824 -> Forall (fun a => t_outcome dir a <> TooBig) (tries dir e)).
Proof.
  intros ST PG FI EN TM LI FS. destruct fs as [|fw0 fs0].
  { set (limit := Z.to_nat _). destruct (runs_subseq dir tmpl kernel limit []) as (e & E & A & SB & _). exists e. split; [exact E|]. cbn [map] in *.
    split; [inversion SB; reflexivity|]. intros _. cbn [exec_files] in E. unfold exec_finish in E. cbn [flush_all] in E. unfold args_remain in E. cbn [argc exec_init] in E.
    unfold tmpl_argc in E. destruct (Nat.leb_spec (S (length tmpl)) (length tmpl)); [lia|]. injection E as <-. constructor. }
  set (fs := fw0 :: fs0) in *. assert (FS0 : allowance stack - space environ - space tmpl >= 4 * 9 + Z.max 4096 page + 8192).
  { subst fs. inversion FS as [|? ? (_ & _ & H) _]; subst. assert (0 <= len (f_path dir (fst fw0))) by (unfold len; lia). lia. }
  pose proof (space_pos environ) as PE. pose proof (space_pos tmpl) as PT.
  assert (AL : allowance stack <= 6291456) by (unfold allowance; lia).
  assert (SUM : space environ + space tmpl < 2 ^ 62) by lia.
  pose proof (arg_max_ok (reported_limit stack) page environ tmpl (reported_range stack ST) PG SUM) as AM.
  pose proof (allowance_reported stack) as AR.
  set (lim := bfs_exec_arg_max _ _ _ _) in *. set (limit := Z.to_nat lim).
  set (mostz := allowance stack - space environ - space tmpl - len file - 1). set (most := Z.to_nat mostz).
  assert (LF : 0 <= len file) by (unfold len; lia).
  assert (MP : 4096 <= mostz) by (subst mostz; lia).
  assert (IFF : forall qs, Forall short qs -> (accepted stack file environ (tmpl ++ qs) <-> (total qs <= most)%nat)).
  { intros qs SQ. unfold accepted. rewrite space_app, (space_total qs). split.
    - intros (_ & _ & _ & H). subst most mostz. lia.
    - intros H. split; [unfold short; lia|]. split; [exact EN|]. split; [apply Forall_app; split; assumption|]. subst most mostz. lia. }
  (* an ideal system *)
  pose (ok := fun n args => match kernel n args with Status => Status | _ => Done end).
  pose (k3 := fun n args => if Nat.ltb most (total (skipn (length tmpl) args)) then TooBig else ok n args).
  assert (OK : forall n args, ok n args <> TooBig /\ ok n args <> Fault) by (intros n args; unfold ok; destruct (kernel n args); split; discriminate).
  assert (SK : forall qs, skipn (length tmpl) (tmpl ++ qs) = qs) by (intros qs; rewrite skipn_app, skipn_all, PeanoNat.Nat.sub_diag; reflexivity).
  assert (L3 : limited tmpl most k3).
  { intros n ps. unfold k3. rewrite SK. destruct (OK n (tmpl ++ ps)). destruct (Nat.ltb_spec most (total ps)); split; try congruence; split; intros; try congruence; lia. }
  assert (KK : forall n qs, Forall short qs -> kernel n (tmpl ++ qs) = k3 n (tmpl ++ qs)).
  { intros n qs SQ. destruct (LI n (tmpl ++ qs)) as (NF & TB). unfold k3. rewrite SK. destruct (Nat.ltb_spec most (total qs)) as [H|H].
    - apply TB. intros A. apply IFF in A; [lia|exact SQ].
    - unfold ok. destruct (kernel n (tmpl ++ qs)) eqn:K; try reflexivity; [|congruence]. exfalso. apply (proj1 TB eq_refl). apply IFF; [exact SQ|exact H]. }
  assert (GE : Forall (fun fw => generous (snd fw)) fs) by (eapply Forall_impl; [|exact FS]; cbv beta; tauto).
  assert (SP : Forall (fun fw => short (f_path dir (fst fw))) fs) by (eapply Forall_impl; [|exact FS]; cbv beta; tauto).
  assert (SZ : forall f w, In (f, w) fs -> 4 * (len (f_path dir f) + 9) + Z.max 4096 page + 8192 <= allowance stack - space environ - space tmpl).
  { intros f w I. rewrite Forall_forall in FS. apply (FS (f, w) I). }
  pose (low := Nat.min limit (most - most / 16)%nat).
  assert (SM : forall f w, In (f, w) fs -> (arg_size (f_path dir f) <= low / 2)%nat).
  { intros f w I. specialize (SZ f w I). pose proof (size_len (f_path dir f)) as SL. rewrite Forall_forall in SP. specialize (SP _ I). cbn [fst] in SP. unfold short in SP.
    apply PeanoNat.Nat.div_le_lower_bound; [lia|]. subst low. apply PeanoNat.Nat.min_glb.
    - subst limit. rewrite AM. unfold BFS_EXEC_ARG_MAX. lia.
    - assert (16 * (most / 16) <= most)%nat by (apply PeanoNat.Nat.mul_div_le; lia). subst most mostz. lia. }
  destruct (runs_exact dir tmpl k3 limit fs most low L3) as (e & E & X); [subst low; lia|subst low; lia|exact GE|exact SM|].
  assert (PRE : forall k e', exec_files dir false tmpl k (exec_init dir tmpl limit) fs = Some e' ->
     forall i a, nth_error (tries dir e') i = Some a -> t_outcome dir a = k i (t_argv dir a) /\ exists qs, t_argv dir a = tmpl ++ qs /\ Forall short qs).
  { intros k e' E' i a N. destruct (run_agree dir tmpl short k k fs _ e' SP E' (init_good dir tmpl short k limit TM)) as ((_ & G) & _). destruct (G i a N) as (O & F).
    split; [exact O|]. destruct (runs_subseq dir tmpl k limit fs) as (e2 & E2 & A & _). rewrite E' in E2. injection E2 as <-. rewrite Forall_forall in A.
    destruct (A a (nth_error_In _ _ N)) as (qs & Q & _). exists qs. split; [exact Q|]. rewrite Q in F. now apply Forall_app in F. }
  assert (EK : exec_files dir false tmpl kernel (exec_init dir tmpl limit) fs = Some e).
  { destruct (run_agree dir tmpl short k3 kernel fs _ e SP E (init_good dir tmpl short k3 limit TM)) as (_ & C). apply C.
    intros i a N. destruct (PRE k3 e E i a N) as (_ & qs & -> & SQ). apply KK, SQ. }
  exists e. split; [exact EK|]. split; [exact X|]. intros SS.
  (* with a small stack *)
  assert (U : unlimited ok) by (intros n args; apply OK).
  destruct (runs_subseq dir tmpl ok limit fs) as (e2 & E2 & _ & SB & _). pose proof (runs_small dir tmpl ok limit fs U e2 E2) as R.
  assert (LM : (limit <= most)%nat).
  { subst limit most mostz. rewrite AM, <- (allowance_same stack SS). unfold BFS_EXEC_ARG_MAX. lia. }
  assert (AG : agree dir ok k3 (tries dir e2)).
  { intros i a N. unfold k3. rewrite Forall_forall in R. destruct (R a (nth_error_In _ _ N)) as (qs & Q & H).
    rewrite Q, SK. destruct (Nat.ltb_spec most (total qs)) as [B|B]; [|reflexivity]. exfalso. destruct H as [H|H]; [lia|].
    destruct qs as [|q [|? ?]]; try discriminate H. rewrite total_one in B.
    assert (IQ : In q (map (fun fw => f_path dir (fst fw)) fs)).
    { apply (subseq_in _ _ SB). unfold executed. apply in_flat_map. exists a. split; [exact (nth_error_In _ _ N)|].
      destruct (PRE ok e2 E2 i a N) as (O & _). destruct (OK i (t_argv dir a)) as (O1 & O2). rewrite <- O in O1, O2. rewrite Q, SK. destruct (t_outcome dir a); try congruence; now left. }
    apply in_map_iff in IQ. destruct IQ as ([f w] & <- & I). specialize (SM f w I). cbn [fst] in *. assert (low / 2 <= low)%nat by (apply PeanoNat.Nat.div_le_upper_bound; lia). subst low. lia. }
  destruct (run_agree dir tmpl short ok k3 fs _ e2 SP E2 (init_good dir tmpl short ok limit TM)) as ((_ & G) & C).
  specialize (C AG). rewrite E in C. injection C as ->. apply Forall_forall. intros a I. apply In_nth_error in I. destruct I as (i & N).
  destruct (G i a N) as (O & _). rewrite O. apply OK.
Qed.
