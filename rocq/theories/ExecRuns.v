From Coq Require Import List Arith Bool Lia.
From Coq Require Import Init.Byte.
From Coq Require Strings.Byte.
From Verif Require Import PathModel PathSpec ExecModel ExecSpec ExecProofs.
Import ListNotations.

Lemma total_app l m : total (l ++ m) = total l + total m.
Proof. unfold total. rewrite map_app, list_sum_app. reflexivity. Qed.
Lemma total_one a : total [a] = arg_size a.
Proof. unfold total. cbn [map list_sum fold_right]. lia. Qed.
Lemma total_cons a l : total (a :: l) = arg_size a + total l.
Proof. reflexivity. Qed.

Local Opaque Nat.div Nat.modulo Nat.ltb Nat.leb.

Section Runs.
Variable dir : Type.
Variable chdir : bool.
Variable tmpl : list arg.
Variable kernel : nat -> list arg -> outcome.
Notation exec := (exec dir).
Notation t := (length tmpl).
Notation argv := (argv dir). Notation argc := (argc dir). Notation argv_cap := (argv_cap dir). Notation size := (size dir).
Notation arg_max := (arg_max dir). Notation arg_min := (arg_min dir). Notation wd_fd := (wd_fd dir). Notation wd_path := (wd_path dir).
Notation wd_len := (wd_len dir). Notation failed := (failed dir). Notation tries := (tries dir).

Definition holds (e : exec) (l : list arg) : Prop := forall i a, nth_error l i = Some a -> argv e i = Arg a.
Definition unused (e : exec) (i : nat) (us : list arg) : Prop := forall k a, nth_error us k = Some a -> argv e (i + k) = Arg a.

(** Between attempts: [ps] are still to be tried, [us] were set aside. *)
Definition Mid (e : exec) (ps us : list arg) : Prop :=
  argc e = t + length ps /\ holds e (tmpl ++ ps) /\ unused e (S (argc e)) us /\ size e = total ps /\
  argc e + length us < argv_cap e /\ arg_min e <= arg_max e.

Definition same_wd (e e' : exec) : Prop :=
  wd_fd e' = wd_fd e /\ wd_path e' = wd_path e /\ wd_len e' = wd_len e /\ failed e' = failed e.
Definition same_lim (e e' : exec) : Prop := arg_max e' = arg_max e /\ arg_min e' = arg_min e.

Lemma put_ok e i s : i < argv_cap e -> exists e', put dir e i s = Some e' /\
  argv e' i = s /\ (forall j, j <> i -> argv e' j = argv e j) /\ argc e' = argc e /\ argv_cap e' = argv_cap e /\
  size e' = size e /\ same_lim e e' /\ same_wd e e' /\ tries e' = tries e.
Proof.
  intros L. unfold put. destruct (Nat.ltb_spec i (argv_cap e)); [|lia]. eexists. split; [reflexivity|].
  cbn. rewrite Nat.eqb_refl. split; [reflexivity|]. split; [intros j N; destruct (Nat.eqb_spec j i); [contradiction|reflexivity]|].
  unfold same_lim, same_wd. cbn. auto 12.
Qed.

Lemma read_ok e l : holds e l -> argv e (length l) = Null -> length l < argv_cap e ->
  read_argv dir (argv_cap e + 1) e 0 = Some l.
Proof.
  intros H N L.
  assert (G : forall m pre fuel, l = pre ++ m -> length m < fuel -> read_argv dir fuel e (length pre) = Some m).
  { induction m as [|a m IH]; intros pre fuel E F; destruct fuel as [|fuel]; try (cbn in F; lia); cbn [read_argv].
    - rewrite app_nil_r in E. subst pre. destruct (Nat.ltb_spec (length l) (argv_cap e)); [|lia]. now rewrite N.
    - assert (LL : length l = length pre + S (length m)) by (rewrite E, app_length; reflexivity).
      destruct (Nat.ltb_spec (length pre) (argv_cap e)); [|lia].
      rewrite (H (length pre) a) by (rewrite E, nth_error_app2, Nat.sub_diag by lia; reflexivity).
      specialize (IH (pre ++ [a]) fuel). rewrite app_length, Nat.add_1_r in IH. rewrite IH; [reflexivity|now rewrite <- app_assoc|cbn in F; lia]. }
  apply (G l [] (argv_cap e + 1)); [reflexivity|lia].
Qed.

Lemma holds_app e l m : holds e (l ++ m) -> holds e l.
Proof. intros H i a E. apply H. rewrite nth_error_app1; [exact E|]. apply nth_error_Some. congruence. Qed.

Lemma shrink_ok : forall ps us fuel e nm, Mid e ps us -> length ps < fuel ->
  exists e' ps' vs, shrink dir fuel e nm = Some e' /\ ps = ps' ++ vs /\ Mid e' ps' (vs ++ us) /\
    total ps' <= nm /\ same_lim e e' /\ same_wd e e' /\ tries e' = tries e /\ argv_cap e' = argv_cap e /\
    (nm < total ps -> vs <> []) /\ (forall p, nth_error ps 0 = Some p -> arg_size p <= nm -> ps' <> []).
Proof.
  induction ps as [|a ps IH] using rev_ind; intros us fuel e nm M F.
  - destruct M as (A & B & C & D & E & G). exists e, [], []. destruct fuel as [|fuel]; [lia|].
    cbn [shrink]. rewrite D. change (total []) with 0. destruct (Nat.ltb_spec nm 0); [lia|].
    split; [reflexivity|]. split; [reflexivity|]. split; [cbn; unfold Mid; auto 8|]. split; [lia|].
    unfold same_lim, same_wd. do 4 (split; [auto|]). split; [lia|]. intros p P. discriminate.
  - destruct fuel as [|fuel]; [lia|]. cbn [shrink]. pose proof M as (A & B & C & D & E & G).
    rewrite D. destruct (Nat.ltb_spec nm (total (ps ++ [a]))) as [L|L].
    + rewrite app_length, Nat.add_1_r in *. rewrite A, Nat.add_succ_r.
      rewrite (B (t + length ps) a).
      2:{ rewrite app_assoc, nth_error_app2 by (rewrite app_length; lia). rewrite app_length, Nat.sub_diag. reflexivity. }
      destruct (put_ok e (S (t + length ps)) (Arg a)) as (e1 & -> & P1 & P2 & P3 & P4 & P5 & P6 & P7 & P8); [lia|].
      rewrite total_app, total_one in *. destruct (Nat.ltb_spec (total ps + arg_size a) (arg_size a)); [lia|].
      rewrite Nat.add_sub. set (e2 := set_argc dir e1 (t + length ps) (total ps)).
      destruct (IH (a :: us) fuel e2 nm) as (e' & ps' & vs & S1 & S2 & S3 & S4 & S5 & S6 & S7 & S8 & S9 & S10).
      * unfold Mid, e2. cbn. split; [reflexivity|]. split; [|split; [|split; [|split]]].
        -- intros i b NB. change (argv e1 i = Arg b). rewrite P2.
           ++ apply B. rewrite app_assoc, nth_error_app1; [exact NB|]. apply nth_error_Some. congruence.
           ++ assert (i < length (tmpl ++ ps)) by (apply nth_error_Some; congruence). rewrite app_length in *. lia.
        -- intros k b NB. change (argv e1 (S (t + length ps) + k) = Arg b). destruct k as [|k].
           ++ cbn in NB. injection NB as <-. rewrite Nat.add_0_r. exact P1.
           ++ cbn in NB. rewrite P2 by lia. replace (S (t + length ps) + S k) with (S (argc e) + k) by lia. now apply C.
        -- reflexivity.
        -- rewrite P4. cbn [length]. lia.
        -- destruct P6 as (-> & ->). exact G.
      * lia.
      * exists e', ps', (vs ++ [a]). split; [exact S1|]. split; [rewrite S2 at 1; now rewrite app_assoc|].
        split; [now rewrite <- app_assoc|]. split; [exact S4|].
        split; [destruct S5, P6; unfold same_lim, e2 in *; cbn in *; split; congruence|].
        split; [destruct S6 as (?&?&?&?), P7 as (?&?&?&?); unfold same_wd, e2 in *; cbn in *; repeat split; congruence|].
        split; [unfold e2 in S7; cbn in S7; congruence|]. split; [unfold e2 in S8; cbn in S8; congruence|].
        split; [intros _; destruct vs; discriminate|].
        intros p NP LP. destruct ps as [|q ps].
        -- cbn in NP. injection NP as ->. change (total []) with 0 in L. lia.
        -- apply (S10 p); [exact NP|exact LP].
    + exists e, (ps ++ [a]), []. split; [reflexivity|]. split; [now rewrite app_nil_r|]. split; [exact M|]. split; [exact L|].
      unfold same_lim, same_wd. do 4 (split; [auto|]). split; [lia|]. intros p _ _. destruct ps; discriminate.
Qed.

Lemma div_le a b : b <> 0 -> a / b <= a.
Proof. intros H. apply Nat.div_le_upper_bound; [exact H|]. nia. Qed.
Lemma half_lt a b : a < b -> a + (b - a) / 2 < b.
Proof. intros H. pose proof (Nat.div_lt (b - a) 2 ltac:(lia) ltac:(lia)). lia. Qed.

Lemma Mid_bounds e ps us mn mx : Mid e ps us -> mn <= mx -> Mid (set_bounds dir e mn mx) ps us.
Proof. intros (A & B & C & D & E & G) L. unfold Mid. cbn. auto 8. Qed.

(** The new bounds after a failed attempt of size [s] *)
Definition bounds_after (s mn mx : nat) : nat * nat :=
  let mn := if s <=? mn then 0 else mn in
  let sz := s - s / 16 in
  if sz <? mx then (if sz <? mn then sz else mn, sz) else (mn, mx).
Lemma update_max_bounds e : let b := bounds_after (size e) (arg_min e) (arg_max e) in
  update_max dir e = set_bounds dir e (fst b) (snd b).
Proof.
  unfold update_max, bounds_after. destruct e as [v c cap sz mx mn fd p n fl tr]. cbn.
  destruct (sz <=? mn); cbn; destruct (sz - sz / 16 <? mx); reflexivity.
Qed.
Lemma bounds_after_ok s mn mx : 0 < s -> mn <= mx -> let b := bounds_after s mn mx in
  fst b <= snd b /\ fst b + (snd b - fst b) / 2 < s /\ snd b = Nat.min mx (s - s / 16) /\
  snd b / 2 <= fst b + (snd b - fst b) / 2.
Proof.
  intros P L b.
  assert (HF : forall a b, a <= b -> b / 2 <= a + (b - a) / 2).
  { clear. intros a b LE. pose proof (Nat.div_mod b 2 ltac:(lia)). pose proof (Nat.div_mod (b - a) 2 ltac:(lia)).
    pose proof (Nat.mod_upper_bound b 2 ltac:(lia)). pose proof (Nat.mod_upper_bound (b - a) 2 ltac:(lia)). lia. }
  assert (HL : forall a b, a <= b -> b <= s -> a < s -> a + (b - a) / 2 < s).
  { clear. intros a b LE LS LA. destruct (Nat.eq_dec a b) as [<-|NE]; [rewrite Nat.sub_diag, Nat.div_0_l; lia|].
    pose proof (half_lt a b ltac:(lia)). lia. }
  pose proof (div_le s 16 ltac:(lia)) as L16.
  assert (X : fst b <= snd b /\ snd b <= s /\ fst b < s /\ snd b = Nat.min mx (s - s / 16)).
  { unfold b, bounds_after. set (m := if s <=? mn then 0 else mn).
    assert (LM : m <= mx /\ m < s) by (unfold m; destruct (Nat.leb_spec s mn); lia). clearbody m. clear b HF HL.
    set (z := s - s / 16) in *. assert (z <= s) by (unfold z; lia). clearbody z.
    destruct (Nat.ltb_spec z mx); cbn [fst snd]; [|lia]. destruct (Nat.ltb_spec z m); lia. }
  destruct X as (X1 & X2 & X3 & X4). auto.
Qed.

(** After a failed attempt the estimate is less than the size. *)
Lemma update_max_ok e ps us : Mid e ps us -> 0 < total ps ->
  let e' := update_max dir e in
  Mid e' ps us /\ estimate_max dir e' < total ps /\ same_wd e e' /\ tries e' = tries e /\ argv_cap e' = argv_cap e /\
  arg_max e' = Nat.min (arg_max e) (total ps - total ps / 16) /\ arg_max e' / 2 <= estimate_max dir e'.
Proof.
  intros M P e'. pose proof M as (A & B & C & D & E & G). rewrite <- D in *. unfold e'. rewrite update_max_bounds. cbn zeta.
  destruct (bounds_after_ok (size e) (arg_min e) (arg_max e) P G) as (X1 & X2 & X3 & X4). cbn zeta in *.
  set (b := bounds_after (size e) (arg_min e) (arg_max e)) in *. clearbody b.
  split; [apply Mid_bounds; auto|]. unfold estimate_max, same_wd. cbn. auto 10.
Qed.

Lemma update_min_ok e ps us : Mid e ps us ->
  let e' := update_min dir e in
  Mid e' ps us /\ same_wd e e' /\ tries e' = tries e /\ argv_cap e' = argv_cap e /\ arg_max e' = arg_max e /\
  (arg_min e = arg_max e -> arg_min e' = arg_max e).
Proof.
  intros (A & B & C & D & E & G) e'. unfold e', update_min. destruct (Nat.ltb_spec (arg_min e) (size e)) as [L|L].
  - unfold Mid, same_wd. cbn. split; [repeat (split; [assumption|]); destruct (Nat.ltb_spec (arg_max e) (size e)); lia|].
    do 4 (split; [auto|]). intros Q. destruct (Nat.ltb_spec (arg_max e) (size e)); lia.
  - unfold Mid, same_wd. auto 15.
Qed.

(** One attempt *)
Lemma spawn_ok e ps us : Mid e ps us ->
  exists e1 e2, put dir e (argc e) Null = Some e1 /\ exec_spawn dir kernel e1 = Some (e2, kernel (length (tries e)) (tmpl ++ ps)) /\
    Mid e2 ps us /\ same_wd e e2 /\ same_lim e e2 /\ argv_cap e2 = argv_cap e /\
    tries e2 = tries e ++ [mkAttempt dir (tmpl ++ ps) (wd_fd e) (kernel (length (tries e)) (tmpl ++ ps))].
Proof.
  intros (A & B & C & D & E & G).
  destruct (put_ok e (argc e) Null) as (e1 & P0 & P1 & P2 & P3 & P4 & P5 & P6 & P7 & P8); [lia|].
  assert (H1 : holds e1 (tmpl ++ ps)).
  { intros i a NI. rewrite P2; [now apply B|]. assert (i < length (tmpl ++ ps)) by (apply nth_error_Some; congruence).
    rewrite app_length in *. lia. }
  exists e1. eexists. split; [exact P0|]. unfold exec_spawn. rewrite (read_ok e1 (tmpl ++ ps)); [|exact H1| |].
  2:{ rewrite app_length, <- A. exact P1. }
  2:{ rewrite app_length, <- A, P4. lia. }
  rewrite P8. split; [reflexivity|]. destruct P6 as (M1 & M2), P7 as (W1 & W2 & W3 & W4).
  split.
  { unfold Mid. cbn. rewrite P3, P4, P5, M1, M2. split; [exact A|]. split; [exact H1|]. split; [|auto].
    intros k a NK. change (argv e1 (S (argc e) + k) = Arg a). rewrite P2 by lia. now apply C. }
  unfold same_wd, same_lim. cbn. rewrite W1. auto 10.
Qed.

Definition attempt_of (e : exec) (ps : list arg) (a : attempt dir) : Prop :=
  t_cwd dir a = wd_fd e /\ exists qs rest, qs <> [] /\ ps = qs ++ rest /\ t_argv dir a = tmpl ++ qs.

Lemma executed_app l m : executed tmpl (l ++ m) = executed tmpl l ++ @executed dir tmpl m.
Proof. unfold executed. now rewrite flat_map_app. Qed.
Lemma executed_one qs cwd o : @executed dir tmpl [mkAttempt dir (tmpl ++ qs) cwd o] = if ran o then qs else [].
Proof.
  unfold executed. cbn. rewrite app_nil_r. destruct (ran o); [|reflexivity].
  rewrite skipn_app, skipn_all, Nat.sub_diag. reflexivity.
Qed.

Lemma remain_iff e ps us : Mid e ps us -> args_remain dir tmpl e = match ps with [] => false | _ => true end.
Proof.
  intros (A & _). unfold args_remain, tmpl_argc. rewrite A. destruct ps; cbn [length].
  - apply Nat.leb_gt. lia.
  - apply Nat.leb_le. lia.
Qed.

Lemma flush_loop_ok : forall fuel e ps us last, Mid e ps us -> length ps < fuel ->
  exists e' o ps' vs new, flush_loop dir tmpl kernel fuel e last = Some (e', o) /\ ps = ps' ++ vs /\ Mid e' ps' (vs ++ us) /\
    tries e' = tries e ++ new /\ Forall (attempt_of e ps) new /\ same_wd e e' /\ argv_cap e' = argv_cap e /\
    (ps = [] -> o = last /\ new = []) /\
    (ps <> [] -> o = Done \/ o = Status \/ o = Fault -> ps' <> []) /\
    executed tmpl new = (if ran o then ps' else []) /\
    (ps <> [] -> o = Fault -> exists n qs, kernel n (tmpl ++ qs) = Fault) /\
    (* without the system's limit *)
    (unlimited kernel -> (ps <> [] -> new = [mkAttempt dir (tmpl ++ ps) (wd_fd e) o] /\ ps' = ps) /\ arg_max e' = arg_max e /\
       (arg_min e = arg_max e -> arg_min e' = arg_max e)) /\
    (* with it *)
    (forall most low, limited tmpl most kernel -> low <= most - most / 16 -> low <= arg_max e ->
       (forall p, In p ps -> arg_size p <= low / 2) ->
       low <= arg_max e' /\ (ps <> [] -> o = Done \/ o = Status)).
Proof.
  induction fuel as [|fuel IH]; intros e ps us last M F; [lia|].
  cbn [flush_loop]. rewrite (remain_iff e ps us M).
  destruct ps as [|p ps].
  { exists e, last, [], [], []. split; [reflexivity|]. split; [reflexivity|]. split; [exact M|]. split; [now rewrite app_nil_r|].
    split; [constructor|]. split; [unfold same_wd; auto|]. split; [reflexivity|]. split; [auto|]. split; [congruence|].
    split; [now destruct (ran last)|]. split; [congruence|]. split; [intros _; split; [congruence|auto]|]. intros most low _ _ H _. split; [exact H|congruence]. }
  destruct (spawn_ok e (p :: ps) us M) as (e1 & e2 & -> & -> & M2 & W2 & L2 & C2 & T2).
  set (o := kernel (length (tries e)) (tmpl ++ p :: ps)) in *.
  assert (AT : Forall (attempt_of e (p :: ps)) [mkAttempt dir (tmpl ++ p :: ps) (wd_fd e) o]).
  { constructor; [|constructor]. split; [reflexivity|]. exists (p :: ps), []. rewrite app_nil_r. split; [discriminate|]. auto. }
  destruct o eqn:EO.
  - destruct (update_min_ok e2 (p :: ps) us M2) as (M3 & W3 & T3 & C3 & X3 & N3).
    exists (update_min dir e2), Done, (p :: ps), [], [mkAttempt dir (tmpl ++ p :: ps) (wd_fd e) Done].
    destruct L2 as (L2a & L2b).
    split; [reflexivity|]. split; [now rewrite app_nil_r|]. split; [exact M3|]. split; [now rewrite T3|]. split; [exact AT|].
    split; [destruct W2 as (?&?&?&?), W3 as (?&?&?&?); unfold same_wd; repeat split; congruence|]. split; [congruence|].
    split; [congruence|]. split; [discriminate|]. split; [apply executed_one|]. split; [congruence|].
    split; [intros _; split; [intros _; split; reflexivity|]; split; [congruence|]; intros Q; rewrite N3; congruence|].
    intros most low _ _ H _. split; [congruence|auto].
  - exists e2, Status, (p :: ps), [], [mkAttempt dir (tmpl ++ p :: ps) (wd_fd e) Status].
    destruct L2 as (L2a & L2b).
    split; [reflexivity|]. split; [now rewrite app_nil_r|]. split; [exact M2|]. split; [exact T2|]. split; [exact AT|].
    split; [exact W2|]. split; [congruence|].
    split; [congruence|]. split; [discriminate|]. split; [apply executed_one|]. split; [congruence|].
    split; [intros _; split; [intros _; split; reflexivity|]; split; congruence|].
    intros most low _ _ H _. split; [congruence|auto].
  - assert (POS : 0 < total (p :: ps)) by (rewrite total_cons; unfold arg_size; lia).
    destruct (update_max_ok e2 (p :: ps) us M2 POS) as (M3 & E3 & W3 & T3 & C3 & X3 & H3). cbn zeta in *.
    set (e3 := update_max dir e2) in *. set (nm := estimate_max dir e3) in *.
    destruct (shrink_ok (p :: ps) us (S (argc e3)) e3 nm M3) as (e4 & qs & vs & -> & S2 & M4 & S4 & L4 & W4 & T4 & C4 & N4 & F4).
    { destruct M3 as (A3 & _). rewrite A3. lia. }
    destruct (IH e4 qs (vs ++ us) TooBig M4) as (e' & o' & ps' & ws & new & R1 & R2 & R3 & R4 & R5 & R6 & R7 & R8 & R9 & R10 & R11 & R12 & R13).
    { specialize (N4 E3). rewrite S2, app_length in F. destruct vs; [contradiction|]. cbn [length] in F. lia. }
    exists e', o', ps', (ws ++ vs), (mkAttempt dir (tmpl ++ p :: ps) (wd_fd e) TooBig :: new).
    split; [exact R1|]. split; [rewrite S2, R2; now rewrite <- app_assoc|]. split; [rewrite <- app_assoc; exact R3|].
    split; [rewrite R4, T4, T3, T2, <- app_assoc; reflexivity|].
    assert (WW : same_wd e e4) by (destruct W2 as (?&?&?&?), W3 as (?&?&?&?), W4 as (?&?&?&?); unfold same_wd; repeat split; congruence).
    split.
    { constructor; [inversion AT; assumption|]. eapply Forall_impl; [|exact R5]. intros a (Q1 & ys & rest & Q2 & Q3 & Q4).
      split; [destruct WW; congruence|]. exists ys, (rest ++ vs). split; [exact Q2|]. split; [rewrite S2, Q3; now rewrite <- app_assoc|exact Q4]. }
    split; [destruct WW as (?&?&?&?), R6 as (?&?&?&?); unfold same_wd; repeat split; congruence|]. split; [congruence|].
    split; [congruence|].
    split.
    { intros _ O. destruct qs as [|q qs]; [destruct (R8 eq_refl) as (-> & _); destruct O as [O|[O|O]]; discriminate|]. apply R9; [discriminate|exact O]. }
    split; [exact R10|].
    split.
    { intros _ O. destruct qs as [|q qs]; [destruct (R8 eq_refl) as (-> & _); discriminate|]. apply R11; [discriminate|exact O]. }
    split; [intros U; exfalso; exact (U _ _ EO)|].
    intros most low LIM LOW LMX SM.
    destruct (LIM (length (tries e)) (p :: ps)) as (_ & BIG). fold o in BIG. apply BIG in EO.
    assert (MONO : most - most / 16 <= total (p :: ps) - total (p :: ps) / 16).
    { clear -EO. set (s := total (p :: ps)) in *. pose proof (Nat.div_mod s 16 ltac:(lia)). pose proof (Nat.div_mod most 16 ltac:(lia)).
      pose proof (Nat.mod_upper_bound s 16 ltac:(lia)). pose proof (Nat.mod_upper_bound most 16 ltac:(lia)). lia. }
    destruct L4 as (L4a & L4b). destruct L2 as (L2a & L2b).
    assert (LMX3 : low <= arg_max e3) by (rewrite X3; lia).
    destruct (R13 most low LIM LOW) as (Z1 & Z2); [lia|intros x IX; apply SM; rewrite S2; apply in_or_app; auto|].
    split; [exact Z1|]. intros _. apply Z2. apply (F4 p); [reflexivity|].
    pose proof (SM p (or_introl eq_refl)). pose proof (Nat.div_le_mono low (arg_max e3) 2 ltac:(lia) LMX3). lia.
  - exists e2, Fault, (p :: ps), [], [mkAttempt dir (tmpl ++ p :: ps) (wd_fd e) Fault].
    destruct L2 as (L2a & L2b).
    split; [reflexivity|]. split; [now rewrite app_nil_r|]. split; [exact M2|]. split; [exact T2|]. split; [exact AT|].
    split; [exact W2|]. split; [congruence|].
    split; [congruence|]. split; [discriminate|]. split; [apply executed_one|]. split; [intros _ _; exists (length (tries e)), (p :: ps); exact EO|].
    split; [intros _; split; [intros _; split; reflexivity|]; split; congruence|].
    intros most low LIM _ H _. destruct (LIM (length (tries e)) (p :: ps)) as (NF & _). fold o in NF. congruence.
Qed.
Lemma free_ok n : forall e i, i + n <= argv_cap e -> (forall k, k < n -> exists a, argv e (i + k) = Arg a) ->
  exists e', free_slots dir e i n = Some e' /\ (forall j, j < i \/ i + n <= j -> argv e' j = argv e j) /\
    argc e' = argc e /\ argv_cap e' = argv_cap e /\ size e' = size e /\ same_lim e e' /\ same_wd e e' /\ tries e' = tries e.
Proof.
  induction n as [|n IH]; intros e i L H.
  - exists e. cbn. unfold same_lim, same_wd. auto 12.
  - cbn [free_slots]. destruct (H 0 ltac:(lia)) as (a & E). rewrite Nat.add_0_r in E. rewrite E.
    destruct (put_ok e i Junk) as (e1 & -> & P1 & P2 & P3 & P4 & P5 & P6 & P7 & P8); [lia|].
    destruct (IH e1 (S i)) as (e' & -> & F1 & F2 & F3 & F4 & F5 & F6 & F7); [lia| |].
    { intros k K. rewrite P2 by lia. destruct (H (S k) ltac:(lia)) as (b & B). exists b. rewrite <- B. f_equal. lia. }
    exists e'. split; [reflexivity|]. split; [intros j J; rewrite F1, P2 by lia; reflexivity|].
    destruct P6 as (?&?), F5 as (?&?), P7 as (?&?&?&?), F6 as (?&?&?&?). unfold same_lim, same_wd. repeat split; congruence.
Qed.

Lemma move_keep_ok : forall us e i l, holds e l -> argc e = length l -> argc e < i -> i + length us <= argv_cap e ->
  (forall k a, nth_error us k = Some a -> argv e (i + k) = Arg a) ->
  exists e', move_slots dir e true i (length us) = Some e' /\ holds e' (l ++ us) /\ argc e' = length l + length us /\
    size e' = size e + total us /\ argv_cap e' = argv_cap e /\ same_lim e e' /\ same_wd e e' /\ tries e' = tries e.
Proof.
  induction us as [|a us IH]; intros e i l H A L C U.
  - exists e. cbn. rewrite app_nil_r, !Nat.add_0_r. unfold same_lim, same_wd. auto 12.
  - cbn [move_slots length]. rewrite (eq_trans (f_equal (argv e) (eq_sym (Nat.add_0_r i))) (U 0 a eq_refl)).
    cbn [length] in C.
    destruct (put_ok e (argc e) (Arg a)) as (e1 & -> & P1 & P2 & P3 & P4 & P5 & P6 & P7 & P8); [lia|].
    set (e2 := set_argc dir e1 (argc e1 + 1) (size e1 + arg_size a)).
    destruct (IH e2 (S i) (l ++ [a])) as (e' & -> & F1 & F2 & F3 & F4 & F5 & F6 & F7).
    + intros j b J. change (argv e1 j = Arg b). destruct (Nat.eq_dec j (argc e)) as [->|N].
      * rewrite A, nth_error_app2, Nat.sub_diag in J by lia. cbn in J. injection J as <-. exact P1.
      * rewrite P2 by exact N. apply H. rewrite nth_error_app1 in J; [exact J|].
        assert (j < length (l ++ [a])) by (apply nth_error_Some; congruence). rewrite app_length in *. cbn [length] in *. lia.
    + unfold e2. cbn. rewrite app_length, P3, A. reflexivity.
    + unfold e2. cbn. lia.
    + unfold e2. cbn. lia.
    + intros k b K. change (argv e1 (S i + k) = Arg b). rewrite P2 by lia. replace (S i + k) with (i + S k) by lia. apply U. exact K.
    + exists e'. split; [reflexivity|]. rewrite <- app_assoc in F1. split; [exact F1|].
      unfold e2 in *. cbn [set_argc ExecModel.argc ExecModel.size ExecModel.argv_cap ExecModel.tries] in F2, F3, F4, F7. rewrite app_length in F2. cbn [length] in F2.
      split; [lia|]. split; [rewrite F3, P5, total_cons; lia|].
      destruct P6 as (?&?), F5 as (?&?), P7 as (?&?&?&?), F6 as (?&?&?&?). unfold same_lim, same_wd in *. cbn in *. repeat split; congruence.
Qed.
Lemma move_drop_ok : forall us e i, i + length us <= argv_cap e ->
  (forall k a, nth_error us k = Some a -> argv e (i + k) = Arg a) ->
  exists e', move_slots dir e false i (length us) = Some e' /\ (forall j, j < i -> argv e' j = argv e j) /\ argc e' = argc e /\
    size e' = size e /\ argv_cap e' = argv_cap e /\ same_lim e e' /\ same_wd e e' /\ tries e' = tries e.
Proof.
  induction us as [|a us IH]; intros e i C U.
  - exists e. cbn. unfold same_lim, same_wd. auto 12.
  - cbn [move_slots length]. rewrite (eq_trans (f_equal (argv e) (eq_sym (Nat.add_0_r i))) (U 0 a eq_refl)).
    cbn [length] in C.
    destruct (put_ok e i Junk) as (e1 & -> & P1 & P2 & P3 & P4 & P5 & P6 & P7 & P8); [lia|].
    destruct (IH e1 (S i)) as (e' & -> & F1 & F2 & F3 & F4 & F5 & F6 & F7).
    + lia.
    + intros k b K. rewrite P2 by lia. replace (S i + k) with (i + S k) by lia. apply U. exact K.
    + exists e'. split; [reflexivity|]. split; [intros j J; rewrite F1, P2 by lia; reflexivity|].
      destruct P6 as (?&?), F5 as (?&?), P7 as (?&?&?&?), F6 as (?&?&?&?). unfold same_lim, same_wd in *. repeat split; congruence.
Qed.

Definition Rep (e : exec) (ps : list arg) : Prop := Mid e ps [].

Lemma flush_ok e ps : Rep e ps ->
  exists e' o done rest new, flush dir tmpl kernel e = Some (e', o) /\ ps = done ++ rest /\
    Rep e' (if ran o then rest else []) /\ tries e' = tries e ++ new /\ Forall (attempt_of e ps) new /\
    same_wd e e' /\ executed tmpl new = (if ran o then done else []) /\
    (ps <> [] -> ran o = true -> done <> []) /\
    (unlimited kernel -> (ps <> [] -> new = [mkAttempt dir (tmpl ++ ps) (wd_fd e) o] /\ done = ps) /\ arg_max e' = arg_max e /\
       (arg_min e = arg_max e -> arg_min e' = arg_max e)) /\
    (forall most low, limited tmpl most kernel -> low <= most - most / 16 -> low <= arg_max e ->
       (forall p, In p ps -> arg_size p <= low / 2) -> low <= arg_max e' /\ ran o = true).
Proof.
  intros M. unfold flush.
  destruct (flush_loop_ok (S (argc e)) e ps [] Done M) as (e1 & o & ps' & vs & new & -> & R2 & R3 & R4 & R5 & R6 & R7 & R8 & R9 & R10 & R11 & R12 & R13).
  { destruct M as (A & _). rewrite A. lia. }
  rewrite app_nil_r in R3. destruct R3 as (A & B & C & D & E & G). destruct M as (A0 & _).
  destruct (free_ok (argc e1 - t) e1 t) as (e2 & -> & F1 & F2 & F3 & F4 & F5 & F6 & F7).
  { clear -A E. lia. }
  { intros k K. rewrite A in K. destruct (nth_error ps' k) as [a|] eqn:N; [|apply nth_error_None in N; lia].
    exists a. apply B. rewrite nth_error_app2 by lia. rewrite Nat.add_comm, Nat.add_sub. exact N. }
  assert (AO : argc e1 <= argc e /\ argc e - argc e1 = length vs).
  { rewrite A, A0, R2, app_length. lia. }
  set (e3 := set_argc dir e2 t 0).
  assert (H3 : holds e3 tmpl).
  { intros i a N. change (argv e2 i = Arg a). assert (i < t) by (apply nth_error_Some; congruence).
    rewrite F1 by lia. apply B. rewrite nth_error_app1 by assumption. exact N. }
  assert (U3 : forall k a, nth_error vs k = Some a -> argv e3 (argc e1 + 1 + k) = Arg a).
  { intros k a N. change (argv e2 (argc e1 + 1 + k) = Arg a). rewrite F1 by lia.
    replace (argc e1 + 1 + k) with (S (argc e1) + k) by lia. now apply C. }
  assert (MV : exists e4, (if argc e1 <? argc e then move_slots dir e3 (ran o) (argc e1 + 1) (argc e - argc e1) else Some e3) = Some e4 /\
     Rep e4 (if ran o then vs else []) /\ same_lim e1 e4 /\ same_wd e1 e4 /\ tries e4 = tries e1 /\ argv_cap e4 = argv_cap e1).
  { destruct F5 as (L1 & L2). destruct (Nat.ltb_spec (argc e1) (argc e)) as [LT|GE].
    - rewrite (proj2 AO). destruct (ran o).
      + destruct (move_keep_ok vs e3 (argc e1 + 1) tmpl) as (e4 & -> & K1 & K2 & K3 & K4 & K5 & K6 & K7); auto.
        * unfold e3. cbn. lia.
        * unfold e3. cbn. rewrite F3. lia.
        * exists e4. split; [reflexivity|]. unfold e3 in *. cbn [set_argc ExecModel.argc ExecModel.size ExecModel.argv_cap ExecModel.tries] in K2, K3, K4, K7.
          destruct K5 as (?&?), K6 as (?&?&?&?), F6 as (?&?&?&?). cbn in *.
          split; [|unfold same_lim, same_wd; repeat split; congruence].
          split; [exact K2|]. split; [exact K1|]. split; [intros k a N; now destruct k|]. split; [lia|]. cbn [length].
          split; [rewrite K4, F3, K2; lia|]. lia.
      + destruct (move_drop_ok vs e3 (argc e1 + 1)) as (e4 & -> & K1 & K2 & K3 & K4 & K5 & K6 & K7); auto.
        * unfold e3. cbn. rewrite F3. lia.
        * exists e4. split; [reflexivity|]. unfold e3 in *. cbn [set_argc ExecModel.argc ExecModel.size ExecModel.argv_cap ExecModel.tries] in K2, K3, K4, K7.
          destruct K5 as (?&?), K6 as (?&?&?&?), F6 as (?&?&?&?). cbn in *.
          split; [|unfold same_lim, same_wd; repeat split; congruence].
          split; [cbn; lia|]. split.
          { rewrite app_nil_r. intros i a N. assert (i < t) by (apply nth_error_Some; congruence). rewrite K1 by lia. now apply H3. }
          split; [intros k a N; now destruct k|]. split; [exact K3|]. cbn [length]. split; [rewrite K4, F3, K2; lia|]. lia.
    - exists e3. split; [reflexivity|]. assert (vs = []) as -> by (destruct vs; [reflexivity|cbn in AO; lia]).
      destruct F6 as (?&?&?&?). unfold e3, same_lim, same_wd in *. cbn in *. split; [|repeat split; assumption].
      destruct (ran o); (split; [cbn; lia|]; split; [rewrite app_nil_r; exact H3|]; split; [intros k a N; now destruct k|];
        split; [reflexivity|]; cbn; split; lia). }
  change (match o with Done | Status => true | _ => false end) with (ran o).
  fold e3. destruct MV as (e4 & -> & RP & LM & WM & TM & CM).
  exists e4, o, ps', vs, new. split; [reflexivity|]. split; [exact R2|]. split; [exact RP|]. split; [congruence|]. split; [exact R5|].
  split; [destruct R6 as (?&?&?&?), WM as (?&?&?&?); unfold same_wd; repeat split; congruence|].
  split; [exact R10|].
  split; [intros N O; apply R9; [exact N|destruct o; auto; discriminate]|].
  destruct LM as (LM1 & LM2).
  split.
  { intros U. destruct (R12 U) as (Z1 & Z3 & Z4). split; [exact Z1|]. split; [congruence|]. intros Q. rewrite LM2. auto. }
  intros most low X1 X2 X3 X4. destruct (R13 most low X1 X2 X3 X4) as (Z1 & Z2). split; [lia|].
  destruct ps as [|p ps]; [destruct (R8 eq_refl) as (-> & _); reflexivity|].
  destruct (Z2 ltac:(discriminate)) as [-> | ->]; reflexivity.
Qed.

(** An attempt with some adjacent ones of [ps] *)
Definition seg_attempt (e : exec) (ps : list arg) (a : attempt dir) : Prop :=
  t_cwd dir a = wd_fd e /\ exists pre qs rest, ps = pre ++ qs ++ rest /\ t_argv dir a = tmpl ++ qs.
Lemma attempt_seg e ps a : attempt_of e ps a -> seg_attempt e ps a.
Proof. intros (C & qs & rest & _ & E & T). split; [exact C|]. exists [], qs, rest. auto. Qed.

Lemma subseq_refl {A} (l : list A) : subseq l l.
Proof. induction l; [constructor|apply sub_keep; assumption]. Qed.
Lemma subseq_nil {A} (l : list A) : subseq [] l.
Proof. induction l; constructor; assumption. Qed.
Lemma subseq_app {A} (a b c d : list A) : subseq a b -> subseq c d -> subseq (a ++ c) (b ++ d).
Proof. intros H. induction H; intros K; cbn; [exact K|apply sub_skip; auto|apply sub_keep; auto]. Qed.
Lemma subseq_trans {A} (a b c : list A) : subseq a b -> subseq b c -> subseq a c.
Proof.
  intros H K. revert a H. induction K as [|x b c K IH|x b c K IH]; intros a H; [exact H|apply sub_skip; auto|].
  inversion H; subst; [apply sub_skip|apply sub_keep]; auto.
Qed.

Lemma flush_all_ok : forall fuel e ps ok, Rep e ps -> length ps < fuel ->
  exists e' ok' new, flush_all dir tmpl kernel fuel e ok = Some (e', ok') /\ Rep e' [] /\ tries e' = tries e ++ new /\
    Forall (seg_attempt e ps) new /\ same_wd e e' /\ subseq (executed tmpl new) ps /\
    (ok' = true -> ok = true /\ executed tmpl new = ps) /\
    (unlimited kernel -> Forall (fun a => t_argv dir a = tmpl ++ ps /\ ps <> []) new /\ arg_max e' = arg_max e /\
       (arg_min e = arg_max e -> arg_min e' = arg_max e)) /\
    (forall most low, limited tmpl most kernel -> low <= most - most / 16 -> low <= arg_max e ->
       (forall p, In p ps -> arg_size p <= low / 2) -> low <= arg_max e' /\ executed tmpl new = ps).
Proof.
  induction fuel as [|fuel IH]; intros e ps ok R F; [lia|].
  cbn [flush_all]. rewrite (remain_iff e ps [] R). destruct ps as [|p ps].
  - exists e, ok, []. rewrite app_nil_r. split; [reflexivity|]. split; [exact R|]. split; [reflexivity|]. split; [constructor|].
    split; [unfold same_wd; auto|]. split; [constructor|]. split; [auto|]. split; [auto|]. auto.
  - destruct (flush_ok e (p :: ps) R) as (e1 & o & done & rest & new & -> & E & R1 & T1 & A1 & W1 & X1 & N1 & U1 & L1).
    set (q := if ran o then rest else []) in *.
    assert (LQ : length q < fuel).
    { unfold q. destruct (ran o) eqn:O; [|cbn [length] in *; lia]. specialize (N1 ltac:(discriminate) eq_refl).
      rewrite E, app_length in F. destruct done; [contradiction|]. cbn [length] in F. lia. }
    destruct (IH e1 q (ok && succeeded o) R1 LQ) as (e' & ok' & new' & -> & R' & T' & A' & W' & S' & O' & U' & L').
    exists e', ok', (new ++ new'). split; [reflexivity|]. split; [exact R'|]. split; [rewrite T', T1; now rewrite app_assoc|].
    split.
    { apply Forall_app. split; [eapply Forall_impl; [intros a; apply attempt_seg|exact A1]|].
      eapply Forall_impl; [|exact A']. intros a (C & pre & qs & r & EQ & TA). split; [destruct W1; congruence|].
      unfold q in EQ. destruct (ran o).
      - exists (done ++ pre), qs, r. split; [|exact TA]. rewrite E, EQ, <- app_assoc. reflexivity.
      - destruct pre, qs; try discriminate. exists [], [], (p :: ps). split; [reflexivity|exact TA]. }
    split; [destruct W1 as (?&?&?&?), W' as (?&?&?&?); unfold same_wd; repeat split; congruence|].
    rewrite executed_app, X1.
    split.
    { rewrite E. apply subseq_app; [destruct (ran o); [apply subseq_refl|apply subseq_nil]|].
      unfold q in S'. destruct (ran o); [exact S'|]. eapply subseq_trans; [exact S'|apply subseq_nil]. }
    split.
    { intros K. destruct (O' K) as (K1 & K2). apply andb_true_iff in K1. destruct K1 as (K1 & K3). split; [exact K1|].
      destruct o; try discriminate. unfold q in K2. cbn [ran] in *. now rewrite K2, E. }
    split.
    { intros U. destruct (U1 U) as (Z0 & Z3 & Z4). destruct (Z0 ltac:(discriminate)) as (Z1 & Z2). destruct (U' U) as (Z5 & Z6 & Z7).
      assert (q = []) as Q.
      { unfold q. destruct (ran o); [|reflexivity]. rewrite Z2 in E. rewrite <- app_nil_r in E at 1. now apply app_inv_head in E. }
      split.
      - apply Forall_app. split; [rewrite Z1; constructor; [split; [reflexivity|discriminate]|constructor]|].
        eapply Forall_impl; [|exact Z5]. intros a (_ & N). contradiction.
      - split; [congruence|]. intros M. rewrite Z7; [congruence|]. rewrite Z3. auto. }
    intros most low LIM LOW LMX SM. destruct (L1 most low LIM LOW LMX SM) as (Z1 & Z2).
    destruct (L' most low LIM LOW Z1) as (Z3 & Z4).
    { intros x IX. apply SM. unfold q in IX. rewrite Z2 in IX. rewrite E. apply in_or_app. auto. }
    split; [exact Z3|]. rewrite Z4, E. unfold q. now rewrite Z2.
Qed.

Lemma push_ok w e ps a : Rep e ps ->
  exists e' ok, push dir w e a = Some (e', ok) /\ Rep e' (if ok then ps ++ [a] else ps) /\ tries e' = tries e /\
    same_lim e e' /\ same_wd e e' /\ (w_grow dir w = true -> ok = true).
Proof.
  intros (A & B & C & D & E & G). cbn [length] in E.
  unfold push. destruct (put_ok e (argc e) (Arg a)) as (e1 & -> & P1 & P2 & P3 & P4 & P5 & P6 & P7 & P8); [lia|].
  assert (H1 : holds e1 (tmpl ++ ps ++ [a])).
  { intros i b N. destruct (Nat.eq_dec i (argc e)) as [->|NE].
    - rewrite app_assoc, nth_error_app2 in N by (rewrite app_length; lia). rewrite app_length, <- A, Nat.sub_diag in N. cbn in N.
      injection N as <-. exact P1.
    - rewrite P2 by exact NE. apply B. assert (LI : i < length (tmpl ++ ps ++ [a])) by (apply nth_error_Some; congruence).
      rewrite !app_length in LI. cbn [length] in LI. rewrite app_assoc, nth_error_app1 in N; [exact N|]. rewrite app_length. lia. }
  assert (FIN : forall cap, argc e1 + 1 < cap -> Rep (set_argc dir (set_cap dir e1 cap) (argc e1 + 1) (size e1 + arg_size a)) (ps ++ [a])).
  { intros cap LC. split; [cbn; rewrite app_length; cbn [length]; lia|]. split; [exact H1|]. split; [intros k b N; now destruct k|].
    split; [cbn [ExecModel.size set_argc]; rewrite total_app, total_one; lia|]. cbn [length ExecModel.argv_cap set_argc set_cap ExecModel.argc].
    split; [lia|]. destruct P6 as (Q1 & Q2). cbn. lia. }
  destruct (Nat.leb_spec (argv_cap e1) (argc e1 + 1)) as [L|L].
  - destruct (w_grow dir w).
    + eexists. exists true. split; [reflexivity|]. split; [apply FIN; lia|].
      destruct P6 as (?&?), P7 as (?&?&?&?). unfold same_lim, same_wd. cbn. auto 10.
    + destruct (put_ok e1 (argc e1) Junk) as (e2 & -> & Q1 & Q2 & Q3 & Q4 & Q5 & Q6 & Q7 & Q8); [lia|].
      exists e2, false. split; [reflexivity|]. destruct P6 as (?&?), P7 as (?&?&?&?), Q6 as (?&?), Q7 as (?&?&?&?).
      split.
      { split; [lia|]. split.
        - intros i b N. assert (i < length (tmpl ++ ps)) by (apply nth_error_Some; congruence). rewrite app_length in *.
          rewrite Q2, P2 by lia. now apply B.
        - split; [intros k b N; now destruct k|]. split; [lia|]. cbn [length]. split; lia. }
      unfold same_lim, same_wd. repeat split; try congruence.
  - eexists. exists true. split; [reflexivity|]. split.
    + specialize (FIN (argv_cap e1) ltac:(lia)). destruct e1. exact FIN.
    + destruct P6 as (?&?), P7 as (?&?&?&?). unfold same_lim, same_wd. cbn. auto 10.
Qed.

(** What a file (whose argument is [a]) does if no directory is involved *)
Lemma handled e ps (b : bool) : Rep e ps ->
  exists e1 ok q new,
    (if b then match flush dir tmpl kernel e with Some (e, o) => Some (e, succeeded o) | None => None end else Some (e, true)) = Some (e1, ok) /\
    Rep e1 q /\ tries e1 = tries e ++ new /\ Forall (seg_attempt e ps) new /\ same_wd e e1 /\
    subseq (executed tmpl new ++ q) ps /\ (ok = true -> executed tmpl new ++ q = ps) /\
    (exists pre, ps = pre ++ q \/ q = []) /\
    (unlimited kernel -> Forall (fun a => t_argv dir a = tmpl ++ ps /\ ps <> []) new /\ (q = ps \/ q = []) /\ (b = true -> q = []) /\
       arg_max e1 = arg_max e /\ (arg_min e = arg_max e -> arg_min e1 = arg_max e)) /\
    (forall most low, limited tmpl most kernel -> low <= most - most / 16 -> low <= arg_max e ->
       (forall p, In p ps -> arg_size p <= low / 2) -> low <= arg_max e1 /\ executed tmpl new ++ q = ps).
Proof.
  intros R. destruct b.
  - destruct (flush_ok e ps R) as (e1 & o & done & rest & new & -> & E & R1 & T1 & A1 & W1 & X1 & N1 & U1 & L1).
    exists e1, (succeeded o), (if ran o then rest else []), new. split; [reflexivity|]. split; [exact R1|]. split; [exact T1|].
    split; [eapply Forall_impl; [intros x; apply attempt_seg|exact A1]|]. split; [exact W1|]. rewrite X1.
    split; [destruct (ran o); [rewrite E; apply subseq_refl|apply subseq_nil]|].
    split; [intros K; destruct o; try discriminate; now rewrite E|].
    split; [destruct (ran o); [exists done; auto|exists []; auto]|].
    split.
    + intros U. destruct ps as [|p ps].
      * destruct done; [|discriminate]. cbn in E. subst rest.
        assert (new = []) as ->.
        { unfold flush in *. (* no attempt *) destruct new as [|x new]; [reflexivity|]. inversion A1 as [|? ? (_ & qs & r & NQ & EQ & _) _]. subst.
          destruct qs; [contradiction|discriminate]. }
        split; [constructor|]. split; [right; destruct (ran o); reflexivity|]. split; [intros _; destruct (ran o); reflexivity|].
        destruct (U1 U) as (_ & Z3 & Z4). auto.
      * destruct (U1 U) as (Z0 & Z3 & Z4). destruct (Z0 ltac:(discriminate)) as (Z1 & Z2).
        assert (rest = []) as ->.
        { rewrite Z2 in E. rewrite <- app_nil_r in E at 1. now apply app_inv_head in E. }
        split; [rewrite Z1; constructor; [split; [reflexivity|discriminate]|constructor]|].
        split; [right; destruct (ran o); reflexivity|]. split; [intros _; destruct (ran o); reflexivity|]. auto.
    + intros most low LIM LOW LMX SM. destruct (L1 most low LIM LOW LMX SM) as (Z1 & Z2). split; [exact Z1|]. now rewrite Z2.
  - exists e, true, ps, []. rewrite app_nil_r. split; [reflexivity|]. split; [exact R|]. split; [reflexivity|]. split; [constructor|].
    split; [unfold same_wd; auto|]. cbn [executed flat_map app]. split; [apply subseq_refl|]. split; [auto|]. split; [exists []; auto|].
    split; [intros _; split; [constructor|]; split; [auto|]; split; [discriminate|]; auto|]. auto.
Qed.

(** ** Without directories *)

(** Within the limit, or a single argument *)
Definition small (limit : nat) (ps : list arg) : Prop := total ps <= limit \/ length ps = 1.

Lemma estimate_same e : arg_min e = arg_max e -> estimate_max dir e = arg_max e.
Proof. intros H. unfold estimate_max. rewrite H, Nat.sub_diag, Nat.div_0_l; lia. Qed.

Lemma set_failed_rep e ps : Rep e ps -> Rep (set_failed dir e) ps.
Proof. intros (A & B & C & D & E & G). unfold Rep, Mid. cbn. auto 8. Qed.

Lemma exec_file_ok w e f ps : chdir = false -> Rep e ps ->
  exists e' q new, exec_file dir chdir tmpl kernel w e f = Some e' /\ Rep e' q /\ tries e' = tries e ++ new /\
    Forall (seg_attempt e ps) new /\ wd_fd e' = wd_fd e /\
    subseq (executed tmpl new ++ q) (ps ++ [f_path dir f]) /\
    (failed e' = false -> failed e = false /\ executed tmpl new ++ q = ps ++ [f_path dir f]) /\
    (unlimited kernel -> arg_min e = arg_max e -> small (arg_max e) ps ->
       arg_max e' = arg_max e /\ arg_min e' = arg_max e /\ small (arg_max e) q /\
       Forall (fun a => t_argv dir a = tmpl ++ ps) new) /\
    (forall most low, generous w -> limited tmpl most kernel -> low <= most - most / 16 -> low <= arg_max e ->
       (forall p, In p (ps ++ [f_path dir f]) -> arg_size p <= low / 2) ->
       low <= arg_max e' /\ executed tmpl new ++ q = ps ++ [f_path dir f]).
Proof.
  intros CH R. unfold exec_file, exec_multi, changed_dirs, format_path. rewrite CH. cbn [andb].
  set (a := f_path dir f).
  destruct (w_arg dir w) eqn:WA; cbn [negb].
  2:{ exists (set_failed dir e), ps, []. rewrite app_nil_r. split; [reflexivity|]. split; [now apply set_failed_rep|]. split; [reflexivity|].
      split; [constructor|]. split; [reflexivity|]. cbn [executed flat_map app].
      split; [rewrite <- (app_nil_r ps) at 1; apply subseq_app; [apply subseq_refl|apply subseq_nil]|].
      split; [discriminate|]. split; [intros _ EQ SM; cbn; auto|]. intros most low (W & _). congruence. }
  destruct (handled e ps (would_overflow dir e a) R) as (e1 & ok & q & new & -> & R1 & T1 & A1 & W1 & S1 & O1 & P1 & U1 & L1).
  destruct (push_ok w e1 q a R1) as (e2 & pushed & -> & R2 & T2 & L2 & W2 & G2).
  set (e' := if ok && pushed then e2 else set_failed dir e2).
  assert (E' : tries e' = tries e2 /\ wd_fd e' = wd_fd e2 /\ arg_max e' = arg_max e2 /\ arg_min e' = arg_min e2)
    by (unfold e'; destruct (ok && pushed); auto).
  destruct E' as (E1 & E2 & E3 & E4). destruct L2 as (L2a & L2b). destruct W1 as (W1a & W1b & W1c & W1d), W2 as (W2a & W2b & W2c & W2d).
  exists e', (if pushed then q ++ [a] else q), new. split; [reflexivity|].
  split; [unfold e'; destruct (ok && pushed); [|apply set_failed_rep]; destruct pushed; exact R2|].
  split; [congruence|]. split; [exact A1|]. split; [congruence|].
  split.
  { destruct pushed; [rewrite app_assoc; apply subseq_app; [exact S1|apply subseq_refl]|].
    rewrite <- (app_nil_r (executed tmpl new ++ q)). apply subseq_app; [exact S1|apply subseq_nil]. }
  split.
  { unfold e'. destruct ok, pushed; cbn [andb]; try discriminate. intros F. split; [congruence|]. rewrite app_assoc, O1 by reflexivity. reflexivity. }
  split.
  { intros U EQ SM. destruct (U1 U) as (Z1 & Z2 & Z3 & Z4 & Z5). specialize (Z5 EQ).
    split; [congruence|]. split; [congruence|].
    split; [|eapply Forall_impl; [|exact Z1]; tauto].
    destruct (would_overflow dir e a) eqn:OV.
    - rewrite (Z3 eq_refl). destruct pushed; [right; reflexivity|left; cbn; lia].
    - unfold would_overflow in OV. rewrite estimate_same in OV by exact EQ. apply Nat.ltb_ge in OV. destruct R as (_ & _ & _ & SZ & _).
      assert (q = ps \/ q = []) as [-> | ->] by exact Z2.
      + destruct pushed; [left; rewrite total_app, total_one; lia|exact SM].
      + destruct pushed; [right; reflexivity|left; cbn; lia]. }
  intros most low (_ & _ & GR) LIM LOW LMX SM.
  destruct (L1 most low LIM LOW LMX) as (Z1 & Z2); [intros p IP; apply SM, in_or_app; auto|].
  split; [lia|]. rewrite (G2 GR), app_assoc, Z2. reflexivity.
Qed.

Lemma finish_ok e ps : Rep e ps ->
  exists e' new, exec_finish dir tmpl kernel e = Some e' /\ Rep e' [] /\ tries e' = tries e ++ new /\
    Forall (seg_attempt e ps) new /\
    subseq (executed tmpl new) ps /\ (failed e' = false -> failed e = false /\ executed tmpl new = ps) /\
    (unlimited kernel -> Forall (fun a => t_argv dir a = tmpl ++ ps) new) /\
    (forall most low, limited tmpl most kernel -> low <= most - most / 16 -> low <= arg_max e ->
       (forall p, In p ps -> arg_size p <= low / 2) -> executed tmpl new = ps).
Proof.
  intros R. unfold exec_finish.
  destruct (flush_all_ok (S (argc e)) e ps true R) as (e1 & ok & new & -> & R1 & T1 & A1 & W1 & S1 & O1 & U1 & L1).
  { destruct R as (A & _). rewrite A. lia. }
  destruct W1 as (W1a & W1b & W1c & W1d).
  exists (if ok then e1 else set_failed dir e1), new. split; [reflexivity|]. split; [destruct ok; [exact R1|now apply set_failed_rep]|].
  split; [destruct ok; exact T1|]. split; [exact A1|]. split; [exact S1|].
  split; [destruct ok; [|discriminate]; intros F; split; [congruence|now apply O1]|].
  split; [intros U; eapply Forall_impl; [|apply (proj1 (U1 U))]; intros a (H & _); exact H|].
  intros most low LIM LOW LMX SM. now apply (L1 most low).
Qed.

Lemma files_ok : chdir = false -> forall fs e ps, Rep e ps ->
  exists e' new, exec_files dir chdir tmpl kernel e fs = Some e' /\ tries e' = tries e ++ new /\
    Forall (fun a => exists qs, t_argv dir a = tmpl ++ qs /\ t_cwd dir a = wd_fd e) new /\
    subseq (executed tmpl new) (ps ++ map (fun fw => f_path dir (fst fw)) fs) /\
    (failed e' = false -> failed e = false /\ executed tmpl new = ps ++ map (fun fw => f_path dir (fst fw)) fs) /\
    (unlimited kernel -> arg_min e = arg_max e -> small (arg_max e) ps ->
       Forall (fun a => exists qs, t_argv dir a = tmpl ++ qs /\ small (arg_max e) qs) new) /\
    (forall most low, Forall (fun fw => generous (snd fw)) fs -> limited tmpl most kernel -> low <= most - most / 16 -> low <= arg_max e ->
       (forall p, In p (ps ++ map (fun fw => f_path dir (fst fw)) fs) -> arg_size p <= low / 2) ->
       executed tmpl new = ps ++ map (fun fw => f_path dir (fst fw)) fs).
Proof.
  intros CH. induction fs as [|[f w] fs IH]; intros e ps R.
  - cbn [exec_files map]. rewrite app_nil_r.
    destruct (finish_ok e ps R) as (e' & new & E & R1 & T1 & A1 & S1 & O1 & U1 & L1). exists e', new. split; [exact E|]. split; [exact T1|].
    split; [eapply Forall_impl; [|exact A1]; intros a (C & pre & qs & r & _ & H); eauto|].
    split; [exact S1|]. split; [exact O1|].
    split; [intros U EQ SM; eapply Forall_impl; [|exact (U1 U)]; intros a H; exists ps; auto|]. eauto.
  - cbn [exec_files map fst].
    destruct (exec_file_ok w e f ps CH R) as (e1 & q & new & -> & R1 & T1 & A1 & W1 & S1 & O1 & U1 & L1).
    destruct (IH e1 q R1) as (e' & new' & E & T' & A' & S' & O' & U' & L'). exists e', (new ++ new'). split; [exact E|].
    split; [rewrite T', T1; now rewrite app_assoc|]. set (rest := map (fun fw => f_path dir (fst fw)) fs) in *.
    assert (RW : ps ++ f_path dir f :: rest = (ps ++ [f_path dir f]) ++ rest) by now rewrite <- app_assoc.
    split.
    { apply Forall_app. split; [eapply Forall_impl; [|exact A1]; intros a (C & pre & qs & r & _ & H); eauto|]. rewrite <- W1. exact A'. }
    split.
    { rewrite executed_app, RW. eapply subseq_trans; [apply subseq_app; [apply subseq_refl|exact S']|].
      rewrite app_assoc. apply subseq_app; [exact S1|apply subseq_refl]. }
    split.
    { intros F. destruct (O' F) as (F1 & X1). destruct (O1 F1) as (F2 & X2). split; [exact F2|].
      rewrite executed_app, X1, RW, app_assoc, X2. reflexivity. }
    split.
    { intros U EQ SM. destruct (U1 U EQ SM) as (Z1 & Z2 & Z3 & Z4). apply Forall_app. split.
      - eapply Forall_impl; [|exact Z4]. intros a H. exists ps. auto.
      - rewrite <- Z1. apply U'; [exact U|congruence|rewrite Z1; exact Z3]. }
    intros most low GS LIM LOW LMX SM. inversion GS as [|? ? G1 G2]; subst.
    destruct (L1 most low G1 LIM LOW LMX) as (Z1 & Z2).
    { intros p IP. apply SM. rewrite RW. apply in_or_app. auto. }
    rewrite executed_app, RW, <- Z2, <- app_assoc. f_equal. apply (L' most low); auto.
    intros p IP. apply SM. rewrite RW, <- Z2, <- app_assoc. apply in_or_app. auto.
Qed.

Lemma init_rep limit : Rep (exec_init dir tmpl limit) [].
Proof.
  unfold Rep, Mid, exec_init. cbn. split; [lia|]. split.
  - rewrite app_nil_r. intros i a N. cbn. now rewrite N.
  - split; [intros k a N; now destruct k|]. split; [reflexivity|]. unfold tmpl_argc. split; lia.
Qed.
End Runs.

Lemma runs_subseq dir tmpl kernel limit fs : exists e,
  exec_files dir false tmpl kernel (exec_init dir tmpl limit) fs = Some e /\
  Forall (fun a => exists qs, t_argv dir a = tmpl ++ qs /\ t_cwd dir a = None) (tries dir e) /\
  subseq (executed tmpl (tries dir e)) (map (fun fw => f_path dir (fst fw)) fs) /\
  (failed dir e = false -> executed tmpl (tries dir e) = map (fun fw => f_path dir (fst fw)) fs).
Proof.
  destruct (files_ok dir false tmpl kernel eq_refl fs _ [] (init_rep dir tmpl limit)) as (e & new & E & T & A & S & O & _).
  exists e. cbn in T. rewrite T. split; [exact E|]. split; [exact A|]. split; [exact S|]. intros F. now apply O.
Qed.

Lemma runs_small dir tmpl kernel limit fs : unlimited kernel -> forall e,
  exec_files dir false tmpl kernel (exec_init dir tmpl limit) fs = Some e ->
  Forall (fun a => exists qs, t_argv dir a = tmpl ++ qs /\ (total qs <= limit \/ length qs = 1)) (tries dir e).
Proof.
  intros U e E. destruct (files_ok dir false tmpl kernel eq_refl fs _ [] (init_rep dir tmpl limit)) as (e' & new & E' & T & _ & _ & _ & SM & _).
  rewrite E in E'. injection E' as <-. cbn in T. rewrite T. apply SM; [exact U|reflexivity|]. left. cbn. lia.
Qed.

Lemma runs_exact dir tmpl kernel limit fs most low : limited tmpl most kernel -> low <= most - most / 16 -> low <= limit ->
  Forall (fun fw => generous (snd fw)) fs -> (forall f w, In (f, w) fs -> arg_size (f_path dir f) <= low / 2) -> exists e,
  exec_files dir false tmpl kernel (exec_init dir tmpl limit) fs = Some e /\
  executed tmpl (tries dir e) = map (fun fw => f_path dir (fst fw)) fs.
Proof.
  intros LIM LOW LMX GS SM. destruct (files_ok dir false tmpl kernel eq_refl fs _ [] (init_rep dir tmpl limit)) as (e & new & E & T & _ & _ & _ & _ & L).
  exists e. split; [exact E|]. cbn in T. rewrite T. apply (L most low); auto.
  intros p IP. cbn [app] in IP. apply in_map_iff in IP. destruct IP as ([f w] & <- & I). apply (SM f w I).
Qed.
