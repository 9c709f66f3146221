(** * Proofs about file descriptors *)
From Coq Require Import List Arith ZArith Bool Lia Permutation ZifyBool.
From Verif Require Import FdModel FdSpec CacheModel CacheSpec CacheFacts.
Import ListNotations.

Lemma rlim_cmp_spec a b : (0 <= a < 2 ^ 64 -> 0 <= b < 2 ^ 64 ->
  (rlim_cmp a b < 0 <-> a < b) /\ (rlim_cmp a b = 0 <-> a = b) /\ (rlim_cmp a b > 0 <-> a > b))%Z.
Proof.
  intros A B. unfold rlim_cmp, rlim_isinf, RLIM_INFINITY.
  destruct (Z.eqb_spec a (2 ^ 64 - 1)), (Z.eqb_spec b (2 ^ 64 - 1)); cbn [orb Z.b2z]; try lia.
Qed.

Lemma to_int_id r : (0 <= r < 2 ^ 31)%Z -> to_int r = r.
Proof. intros H. unfold to_int. rewrite Z.mod_small by lia. destruct (Z.ltb_spec r (2 ^ 31)); lia. Qed.

(** The limit of the process, and how much of it is used *)
Lemma raised orig raise set : limits_ok orig ->
  let '(n, now) := raise_fdlimit orig raise set in
  rlim_max now = rlim_max orig /\
  rlim_cur now = (if raise && set then Z.max (rlim_cur orig) (Z.min 65536 (rlim_max orig)) else rlim_cur orig) /\
  n = Z.min 65536 (rlim_cur now).
Proof.
  intros (H & M). unfold raise_fdlimit. set (max := if raise then rlim_max orig else rlim_cur orig).
  assert (HM : (rlim_cur orig <= max <= rlim_max orig)%Z) by (subst max; destruct raise; lia).
  destruct (rlim_cmp_spec (64 * 1024) max) as (_ & _ & C1); [lia|lia|].
  set (target := if (rlim_cmp (64 * 1024) max >? 0)%Z then max else (64 * 1024)%Z).
  assert (T : target = Z.min 65536 max) by (subst target; destruct (Z.gtb_spec (rlim_cmp (64 * 1024) max) 0); lia). clearbody target.
  destruct (rlim_cmp_spec target (rlim_cur orig)) as (_ & _ & C2); [lia|lia|].
  destruct (Z.leb_spec (rlim_cmp target (rlim_cur orig)) 0) as [L | L]; cbn [rlim_cur rlim_max].
  - rewrite to_int_id by lia. subst max. destruct raise, set; cbn [andb] in *; lia.
  - subst max. destruct raise; [|lia]. destruct set; cbn [andb rlim_cur rlim_max]; rewrite to_int_id by lia; lia.
Qed.

Lemma commands orig raise set : limits_ok orig -> command_limit orig (snd (raise_fdlimit orig raise set)) = orig.
Proof.
  intros OK. pose proof (raised orig raise set OK) as R. destruct (raise_fdlimit orig raise set) as (n & now). cbn [snd]. destruct R as (R1 & R2 & _).
  destruct OK as (H & M). unfold command_limit. destruct (rlim_cmp_spec (rlim_cur orig) (rlim_cur now)) as (C & _); [lia| |].
  { destruct (raise && set); lia. }
  destruct (Z.ltb_spec (rlim_cmp (rlim_cur orig) (rlim_cur now)) 0); [reflexivity|].
  assert (E : rlim_cur now = rlim_cur orig) by (destruct (raise && set); lia). destruct now, orig. cbn in *. congruence.
Qed.

Section Ind.
  Variable P : expr -> Prop.
  Hypothesis leaf : forall p, P (Leaf p).
  Hypothesis node : forall cs, Forall P cs -> P (Node cs).
  Fixpoint expr_ind' (e : expr) : P e :=
    match e with
    | Leaf p => leaf p
    | Node cs => node cs ((fix go l : Forall P l := match l with [] => Forall_nil P | c :: l => Forall_cons c (expr_ind' c) (go l) end) cs)
    end.
End Ind.

(** The numbers of an expression are right, but for the names of users and groups. *)
Definition known_opens (p : primary) : nat := match p with Names => 0 | _ => opens p end.

Lemma max_app l m : list_max (l ++ m) = Nat.max (list_max l) (list_max m).
Proof. apply list_max_app. Qed.

Lemma fds_right e : persistent_fds (expr_fds e) = Z.of_nat (list_sum (map keeps (leaves e))) /\
  ephemeral_fds (expr_fds e) = Z.of_nat (list_max (map known_opens (leaves e))).
Proof.
  induction e as [p|cs IH] using expr_ind'.
  - destruct p as [| | |[] []| |]; cbn; lia.
  - cbn [expr_fds leaves].
    assert (G : forall c, persistent_fds (fold_left append_fds (map expr_fds cs) c) = (persistent_fds c + Z.of_nat (list_sum (map keeps (flat_map leaves cs))))%Z /\
      ephemeral_fds (fold_left append_fds (map expr_fds cs) c) = Z.max (ephemeral_fds c) (Z.of_nat (list_max (map known_opens (flat_map leaves cs)))) \/ (ephemeral_fds c < 0)%Z).
    { induction IH as [|e es (A & B) _ IHes]; intros c.
      - cbn. destruct (Z.ltb_spec (ephemeral_fds c) 0); [right; assumption|left]. lia.
      - cbn [map fold_left flat_map]. destruct (Z.ltb_spec (ephemeral_fds c) 0) as [N | N]; [right; assumption|left].
        rewrite !map_app, list_sum_app, max_app. destruct (IHes (append_fds c (expr_fds e))) as [(C & D) | D].
        + rewrite C, D. unfold append_fds. cbn [persistent_fds ephemeral_fds]. rewrite A, B.
          destruct (Z.ltb_spec (ephemeral_fds c) (Z.of_nat (list_max (map known_opens (leaves e))))); lia.
        + exfalso. unfold append_fds in D. cbn [ephemeral_fds] in D. rewrite B in D.
          destruct (Z.ltb_spec (ephemeral_fds c) (Z.of_nat (list_max (map known_opens (leaves e))))); lia. }
    destruct (G no_fds) as [(A & B) | A]; cbn [no_fds persistent_fds ephemeral_fds] in *; lia.
Qed.

Lemma no_names l : ~ In Names l -> map known_opens l = map opens l.
Proof. intros H. apply map_ext_in. intros p I. destruct p; try reflexivity. destruct (H I). Qed.

(** What is left for the walk *)
Lemma share s : limits_ok (orig_nofile s) -> (1 <= threads s)%Z -> exists now dirs nthreads,
  search_fds s = Some (now, dirs, nthreads) /\ raise_fdlimit (orig_nofile s) (raise_nofile s) (can_set s) = (Z.min 65536 (rlim_cur now), now) /\
  (2 <= dirs /\ 0 <= nthreads <= threads s - 1)%Z /\
  (dirs + Z.of_nat (rings s nthreads))%Z = infer_fdlimit (n_files s) (fd_entries s) (expression s) (Z.min 65536 (rlim_cur now)) /\
  (uring s = false -> nthreads = threads s - 1)%Z /\
  (nthreads < threads s - 1 -> dirs = 2)%Z.
Proof.
  intros OK TH. unfold search_fds. pose proof (raised (orig_nofile s) (raise_nofile s) (can_set s) OK) as R.
  destruct (raise_fdlimit (orig_nofile s) (raise_nofile s) (can_set s)) as (n & now). destruct R as (_ & _ & ->).
  remember (infer_fdlimit (n_files s) (fd_entries s) (expression s) (Z.min 65536 (rlim_cur now))) as lim eqn:EL.
  assert (L : (2 <= lim)%Z) by (rewrite EL; unfold infer_fdlimit; match goal with |- context[(?x <? 2)%Z] => destruct (Z.ltb_spec x 2) end; lia).
  unfold bftw_split. destruct (Z.ltb_spec lim 2); [lia|]. unfold rings. destruct (uring s).
  - destruct (threads s - 1 >=? lim - 1)%Z eqn:G; rewrite Z.geb_leb in G; (eexists _, _, _; split; [reflexivity|]; split; [reflexivity|]; rewrite <- EL; split; [lia|]; split; [lia|]; split; [discriminate|lia]).
  - eexists _, _, _. split; [reflexivity|]. split; [reflexivity|]. rewrite <- EL. lia.
Qed.

Lemma keeps_sub waiting rest l : Permutation (waiting ++ rest) l -> list_sum (map keeps waiting) <= list_sum (map keeps l).
Proof.
  intros P. assert (E : list_sum (map keeps (waiting ++ rest)) = list_sum (map keeps l)).
  { clear - P. unfold list_sum. induction P; cbn [map fold_right]; lia. }
  rewrite <- E, map_app, list_sum_app. lia.
Qed.

Lemma budget s standing now dirs nthreads unwrap choices ops st later earlier waiting rest running :
  limits_ok (orig_nofile s) -> (1 <= threads s)%Z -> counted s standing -> accounted s ->
  search_fds s = Some (now, dirs, nthreads) ->
  (Z.of_nat (standing + reserve (expression s) + 2) <= Z.min 65536 (rlim_cur now))%Z ->
  run unwrap (Z.to_nat dirs) choices ops = Some st -> log st = later ++ earlier ->
  Permutation (waiting ++ rest) (leaves (expression s)) -> In running (leaves (exclude s) ++ leaves (expression s)) ->
  (Z.of_nat (in_use standing (rings s nthreads) earlier waiting running) <= rlim_cur now)%Z.
Proof.
  intros OK TH CO (NN & EX) SF EN RU LO PE IN. destruct (share s OK TH) as (now' & dirs' & nth' & SF' & _ & (D2 & _) & SH & _).
  rewrite SF in SF'. injection SF' as <- <- <-. destruct (run_budget unwrap _ choices ops st later earlier RU LO) as (_ & BU).
  pose proof (keeps_sub waiting rest _ PE) as KS. unfold infer_fdlimit in SH. destruct (fds_right (expression s)) as (P1 & P2).
  rewrite P1, P2, (no_names _ NN) in SH. unfold reserve in EN.
  assert (OP : opens running <= list_max (map opens (leaves (expression s)))).
  { apply in_app_or in IN as [I | I]; [rewrite Forall_forall in EX; rewrite (EX _ I); lia|].
    assert (X := proj1 (list_max_le (map opens (leaves (expression s))) _) (le_n _)). rewrite Forall_forall in X. apply X, in_map, I. }
  unfold in_use. destruct CO as [E | (E & E2)]; rewrite E in SH; match type of SH with context[(?x <? 2)%Z] => destruct (Z.ltb_spec x 2) end; lia.
Qed.

Lemma whole_share s standing now dirs nthreads :
  limits_ok (orig_nofile s) -> (1 <= threads s)%Z -> fd_entries s = Some (Z.of_nat standing + 1)%Z -> accounted s ->
  search_fds s = Some (now, dirs, nthreads) ->
  (Z.of_nat (standing + reserve (expression s) + 2) <= Z.min 65536 (rlim_cur now))%Z ->
  (Z.of_nat (standing + reserve (expression s) + rings s nthreads) + dirs = Z.min 65536 (rlim_cur now))%Z.
Proof.
  intros OK TH E (NN & _) SF EN. destruct (share s OK TH) as (now' & dirs' & nth' & SF' & _ & (D2 & _) & SH & _).
  rewrite SF in SF'. injection SF' as <- <- <-. unfold infer_fdlimit in SH. destruct (fds_right (expression s)) as (P1 & P2).
  rewrite P1, P2, (no_names _ NN), E in SH. unfold reserve in *. match type of SH with context[(?x <? 2)%Z] => destruct (Z.ltb_spec x 2) end; lia.
Qed.

Lemma always_walks s : limits_ok (orig_nofile s) -> (1 <= threads s)%Z -> exists now dirs nthreads,
  search_fds s = Some (now, dirs, nthreads) /\ (2 <= dirs)%Z /\ (0 <= nthreads <= threads s - 1)%Z /\
  (nthreads < threads s - 1 -> uring s = true /\ dirs = 2)%Z.
Proof.
  intros OK TH. destruct (share s OK TH) as (now & dirs & nth & SF & _ & (D & T) & _ & U & N). exists now, dirs, nth.
  split; [exact SF|]. split; [exact D|]. split; [exact T|]. intros L. split; [|exact (N L)]. destruct (uring s); [reflexivity|]. specialize (U eq_refl). lia.
Qed.

Lemma limit_of s now dirs nthreads : limits_ok (orig_nofile s) -> search_fds s = Some (now, dirs, nthreads) ->
  rlim_max now = rlim_max (orig_nofile s) /\
  rlim_cur now = (if raise_nofile s && can_set s then Z.max (rlim_cur (orig_nofile s)) (Z.min 65536 (rlim_max (orig_nofile s))) else rlim_cur (orig_nofile s)) /\
  command_limit (orig_nofile s) now = orig_nofile s.
Proof.
  intros OK SF. pose proof (raised (orig_nofile s) (raise_nofile s) (can_set s) OK) as R. pose proof (commands (orig_nofile s) (raise_nofile s) (can_set s) OK) as C.
  unfold search_fds in SF. destruct (raise_fdlimit (orig_nofile s) (raise_nofile s) (can_set s)) as (n & now'). cbn [snd] in C.
  destruct (bftw_split _ _ _) as [(d & t)|]; [|discriminate]. injection SF as <- <- <-. destruct R as (A & B & _). auto.
Qed.

(** ** Where it is not so *)
Definition few (x e : expr) (n : Z) : start :=
  {| orig_nofile := mkRlimit n n; raise_nofile := true; can_set := true; n_files := 0; fd_entries := Some 4%Z;
     exclude := x; expression := e; uring := false; threads := 1 |}.
(** A directory with a directory, which is being read *)
Definition reading : list op := [New; Take 0; Opendir; New; Finish; Unwrap; Drop; Take 1; Opendir].

Lemma exclude_short : exists s standing now dirs nthreads unwrap choices ops st waiting rest running,
  limits_ok (orig_nofile s) /\ (1 <= threads s)%Z /\ counted s standing /\
  ~ In Names (leaves (expression s)) /\ search_fds s = Some (now, dirs, nthreads) /\
  (Z.of_nat (standing + reserve (expression s) + 2) <= Z.min 65536 (rlim_cur now))%Z /\
  run unwrap (Z.to_nat dirs) choices ops = Some st /\
  Permutation (waiting ++ rest) (leaves (expression s)) /\ In running (leaves (exclude s)) /\
  (rlim_cur now < Z.of_nat (in_use standing (rings s nthreads) (log st) waiting running))%Z.
Proof.
  exists (few (Leaf Empty) (Leaf Other) 5), 3, (mkRlimit 5 5), 2%Z, 0%Z, false, [].
  destruct (run false 2 [] reading) as [st|] eqn:E; [|vm_compute in E; discriminate].
  exists reading, st, [], [Other], Empty. split; [unfold limits_ok; cbn; lia|]. split; [cbn; lia|]. split; [left; reflexivity|].
  split; [intros [Z | []]; discriminate|]. split; [reflexivity|]. split; [cbn; lia|]. split; [exact E|]. split; [apply Permutation_refl|]. split; [left; reflexivity|].
  vm_compute in E. injection E as <-. vm_compute. reflexivity.
Qed.

Lemma names_short : exists s standing now dirs nthreads unwrap choices ops st waiting rest running,
  limits_ok (orig_nofile s) /\ (1 <= threads s)%Z /\ counted s standing /\
  Forall (fun p => opens p = 0) (leaves (exclude s)) /\ search_fds s = Some (now, dirs, nthreads) /\
  (Z.of_nat (standing + reserve (expression s) + 2) <= Z.min 65536 (rlim_cur now))%Z /\
  run unwrap (Z.to_nat dirs) choices ops = Some st /\
  Permutation (waiting ++ rest) (leaves (expression s)) /\ In running (leaves (expression s)) /\
  (rlim_cur now < Z.of_nat (in_use standing (rings s nthreads) (log st) waiting running))%Z.
Proof.
  exists (few (Leaf Other) (Leaf Names) 8), 3, (mkRlimit 8 8), 5%Z, 0%Z, false, [].
  set (ops := [New; Take 0; Opendir; New; Finish; Unwrap; Drop; Take 1; Opendir; New; Finish; Unwrap; Drop; Take 2; Opendir; New; Finish; Unwrap; Drop;
               Take 3; Opendir; New; Finish; Unwrap; Drop; Take 4; Opendir]).
  destruct (run false 5 [] ops) as [st|] eqn:E; [|vm_compute in E; discriminate].
  exists ops, st, [], [Names], Names. split; [unfold limits_ok; cbn; lia|]. split; [cbn; lia|]. split; [left; reflexivity|].
  split; [repeat constructor|]. split; [reflexivity|]. split; [cbn; lia|]. split; [exact E|]. split; [apply Permutation_refl|]. split; [left; reflexivity|].
  vm_compute in E. injection E as <-. vm_compute. reflexivity.
Qed.
