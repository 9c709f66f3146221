(** * Histories that are written out *)
From Coq Require Import List Arith Bool Lia.
From Verif Require Import RcuModel RcuSpec RcuProofs RcuRuns RcuFull.
Import ListNotations.

Definition regb (st : state) (n : nat) : bool :=
  (1 <=? n) && alive st n && negb (match kont_of (w st) with Some (KAppend m) | Some (KRemove m _) | Some (KDestroy m _) => m =? n | None => false end).
Lemma regb_ok st n : regb st n = true -> registered st n.
Proof.
  unfold regb, registered, busy. intros H. apply andb_true_iff in H as (H & B). apply andb_true_iff in H as (N & A). apply Nat.leb_le in N. split; [exact N|]. split; [exact A|].
  apply negb_true_iff in B. destruct (kont_of (w st)) as [[m|m ?|m ?]|]; try (apply Nat.eqb_neq in B; exact B). exact (fun F => F).
Qed.

Definition okb (order : bool) (st : state) (e : event) : bool :=
  match e with Remove n => regb st n && (negb order || existsb (fun m => (n <? m) && regb st m) (seq 0 (fresh st))) | _ => true end.
Lemma okb_allowed b st e : okb b st e = true -> allowed st e.
Proof. destruct e; cbn; auto. intros H. apply andb_true_iff in H as (H & _). exact (regb_ok _ _ H). Qed.
Lemma okb_orderly st e : okb true st e = true -> orderly st e.
Proof.
  destruct e as [| | | |n]; cbn; auto. intros H. apply andb_true_iff in H as (H & X). split; [exact (regb_ok _ _ H)|left]. cbn [negb orb] in X.
  apply existsb_exists in X as (m & _ & Y). apply andb_true_iff in Y as (L & Y). apply Nat.ltb_lt in L. exists m. split; [exact L|exact (regb_ok _ _ Y)].
Qed.

Fixpoint play (cfg : config) (order : bool) (es : list event) (st : state) : option state :=
  match es with
  | [] => Some st
  | e :: es => if okb order st e then match step cfg e st with Next st' => play cfg order es st' | _ => None end else None
  end.
Lemma play_ok cfg b (ok : state -> event -> Prop) : (forall st e, okb b st e = true -> ok st e) -> forall es st st', play cfg b es st = Some st' -> runs_to cfg ok st es st'.
Proof.
  intros OK. induction es as [|e es IH]; cbn [play]; intros st st' H; [injection H as <-; constructor|].
  destruct (okb b st e) eqn:O; [|discriminate]. destruct (step cfg e st) as [st1| |] eqn:E; try discriminate. econstructor; [exact (OK _ _ O)|exact E|exact (IH _ _ H)].
Qed.
Lemma play_some cfg b (ok : state -> event -> Prop) es st (f : state -> bool) : (forall st e, okb b st e = true -> ok st e) ->
  match play cfg b es st with Some st' => f st' | None => false end = true -> exists st', runs_to cfg ok st es st' /\ play cfg b es st = Some st' /\ f st' = true.
Proof. intros OK H. destruct (play cfg b es st) as [st'|] eqn:E; [|discriminate]. exists st'. split; [exact (play_ok cfg b ok OK _ _ _ E)|auto]. Qed.

Definition add (os : bool) : list event := Append os :: repeat Write 5.
Definition del (n : nat) : list event := Remove n :: repeat Write 10.
Definition handle (i k : nat) : list event := repeat (Read i) k.
Definition ran_of (st : state) (i : nat) : list nat := match nth_error (rs st) i with Some r => rev (ran r) | None => [] end.
Definition idle (st : state) (i : nat) : bool := match nth_error (rs st) i with Some (mkReader Idle _) => true | _ => false end.
Lemma idle_returned st i : idle st i = true -> returned st i (ran_of st i).
Proof. unfold idle, returned, ran_of. destruct (nth_error (rs st) i) as [[p l]|]; [|discriminate]. destruct p; try discriminate. intros _. cbn [ran]. rewrite rev_involutive. reflexivity. Qed.

(** ** F8 *)
Definition lost_before : list event := add false ++ add false ++ del 2 ++ add false.
Lemma lost : exists threads es0 st st1 es st2 n l,
  runs_to Sem allowed (init threads) es0 st /\ registered st n /\ oneshot st n = false /\ step Sem (Begin 0) st = Next st1 /\
  runs_to Sem allowed st1 es st2 /\ ~ In (Begin 0) es /\ ~ In (Remove n) es /\ returned st2 0 l /\ ~ In n l.
Proof.
  destruct (play_some Sem false allowed lost_before (init 1) (fun st => regb st 1 && negb (oneshot st 1) &&
    match step Sem (Begin 0) st with
    | Next st1 => match play Sem false (handle 0 10) st1 with Some st2 => idle st2 0 && negb (existsb (Nat.eqb 1) (ran_of st2 0)) | None => false end
    | _ => false
    end) (okb_allowed false)) as (st & R & _ & Q); [vm_compute; reflexivity|].
  apply andb_true_iff in Q as (Q1 & Q2). apply andb_true_iff in Q1 as (Q0 & Q1). apply negb_true_iff in Q1.
  destruct (step Sem (Begin 0) st) as [st1| |] eqn:B; try discriminate. destruct (play Sem false (handle 0 10) st1) as [st2|] eqn:P; [|discriminate].
  apply andb_true_iff in Q2 as (Q2 & Q3). apply negb_true_iff in Q3.
  exists 1, lost_before, st, st1, (handle 0 10), st2, 1, (ran_of st2 0).
  split; [exact R|]. split; [exact (regb_ok _ _ Q0)|]. split; [exact Q1|]. split; [exact B|]. split; [exact (play_ok Sem false allowed (okb_allowed false) _ _ _ P)|].
  split; [intros I; apply repeat_spec in I; discriminate|]. split; [intros I; apply repeat_spec in I; discriminate|]. split; [exact (idle_returned _ _ Q2)|].
  intros I. assert (X : existsb (Nat.eqb 1) (ran_of st2 0) = true) by (apply existsb_exists; exists 1; split; [exact I|reflexivity]). congruence.
Qed.

(** ** A handler that looks at a hook which was freed *)
Definition spin_case : list event :=
  add false ++ Begin 0 :: handle 0 9 ++ (Remove 1 :: repeat Write 7) ++ [Read 0] ++ repeat Write 4.
Lemma spin : exists threads st e, reachable Spin threads st /\ allowed st e /\ step Spin e st = Bad.
Proof.
  destruct (play_some Spin false allowed spin_case (init 1) (fun st => match step Spin (Read 0) st with Bad => true | _ => false end) (okb_allowed false)) as (st & R & _ & Q); [vm_compute; reflexivity|].
  exists 1, st, (Read 0). split; [exists spin_case; exact R|]. split; [exact I|]. destruct (step Spin (Read 0) st); congruence.
Qed.

(** ** A busy history: three hooks are added, one of them for one signal only, and the first one is removed while a handler is at it. *)
Definition busy_before : list event := add false ++ add true ++ add false.
Definition busy_middle : list event :=
  handle 0 5 ++ (Remove 1 :: repeat Write 4) ++ handle 0 5 ++ repeat Write 4 ++ Begin 1 :: handle 1 6.
Definition busy_handler : list event := busy_middle ++ handle 0 13.
Definition busy_end : list event := repeat Write 4.
