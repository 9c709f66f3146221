(** * C48: listing directories *)
From Coq Require Import List NArith Bool Init.Byte Lia.
From Coq Require Import Strings.Byte.
From Verif Require Import DirModel DirSpec DirProofs.
Import ListNotations.
Local Open Scope N_scope.

(** Whatever pieces the kernel gives, and however it is polled in between, reading a directory gives its entries
    with their types, in order, each once, without . and ..; the end is only reported when there are no more. *)
Theorem C48_listing : forall K getdents left_, lists getdents left_ -> forall (k : K) w b l fuel, (length (left_ k) < fuel)%nat ->
  let outs := run K getdents fuel k (bfs_opendir w b) l in
  ~ In Stuck outs /\ (exists tail, contents w (left_ k) = filter is_entry outs ++ tail) /\
  (forall before after, outs = before ++ End :: after -> filter is_entry before = contents w (left_ k) /\ Forall (eq End) after).
Proof. exact listing. Qed.
Print Assumptions C48_listing.

(** If the kernel does not fail, nor does reading. *)
Theorem C48_exact : forall K getdents left_, lists getdents left_ -> reliable getdents -> forall (k : K) w b l fuel, (length (left_ k) < fuel)%nat ->
  run K getdents fuel k (bfs_opendir w b) l = firstn (reads l) (contents w (left_ k) ++ repeat End (reads l)).
Proof. exact exact_listing. Qed.
Print Assumptions C48_exact.

(** -empty is true for a directory only if it contains nothing; it is false for one that contains nothing only with an
    error message, and there is none unless the kernel fails. *)
Theorem C48_empty : forall K getdents left_, lists getdents left_ -> forall (k : K) b fuel, (length (left_ k) < fuel)%nat ->
  exists r e, eval_empty K getdents fuel k b = Some (r, e) /\ (r = true -> contents false (left_ k) = []) /\
    (contents false (left_ k) = [] -> r = true \/ e = true) /\ (e = true -> ~ reliable getdents).
Proof. exact empty_ok. Qed.
Print Assumptions C48_empty.

Module Examples.
  (** A directory with ., a regular file, .., a directory ... and a whiteout *)
  Definition zeros := repeat x00 8.
  Definition e (t : byte) (n : list byte) : entry := mkEntry zeros zeros t n [x00].
  Definition all : list entry := [e x04 [x2e]; e x08 [x61]; e x04 [x2e; x2e]; e x04 [x2e; x2e; x2e]; e x0e [x62]].
  (** It is given one entry at a time. *)
  Definition getdents (k : nat) (n : N) : nat * answer :=
    match nth_error all k with
    | None => (k, Bytes [])
    | Some e => if n <? N.of_nat (length (encode e)) then (k, Fail) else (S k, Bytes (encode e))
    end.
  Definition left_ (k : nat) : list entry := skipn k all.
  Lemma all_proper : Forall proper all.
  Proof. repeat constructor; cbn; try lia; intuition discriminate. Qed.
  Example kernel_lists : lists getdents left_.
  Proof.
    constructor.
    - intros k. apply Forall_forall. intros x I. pose proof all_proper as P. rewrite Forall_forall in P. apply P. rewrite <- (firstn_skipn k all). apply in_app_iff. right. exact I.
    - intros k n k'. unfold getdents. destruct (nth_error all k) as [x|]; [|discriminate]. destruct (n <? _); [|discriminate]. intros E. injection E as <-. reflexivity.
    - intros k n k'. unfold getdents. destruct (nth_error all k) as [x|] eqn:E.
      + assert (P : proper x) by (pose proof all_proper as P; rewrite Forall_forall in P; apply P; eapply nth_error_In, E). pose proof (encode_len x P) as L. unfold reclen in L. destruct (n <? _); [discriminate|]. intros X. injection X as _ X. rewrite X in L. cbn in L. lia.
      + intros X. injection X as <-. unfold left_. rewrite skipn_all2 by (apply nth_error_None, E). auto.
    - intros k n k' l. unfold getdents. destruct (nth_error all k) as [x|] eqn:E.
      + destruct (N.ltb_spec n (N.of_nat (length (encode x)))); [discriminate|]. intros X _. injection X as <- <-. exists [x]. cbn [map concat app]. rewrite app_nil_r. split; [|auto].
        unfold left_. do 5 (destruct k as [|k]; [cbn in E; injection E as <-; reflexivity|]). destruct k; discriminate.
      + intros X Ne. injection X as _ <-. congruence.
  Qed.
  Example kernel_reliable : reliable getdents.
  Proof.
    intros k n G. unfold getdents. destruct (nth_error all k) as [x|] eqn:E; [|discriminate].
    assert (P : proper x) by (pose proof all_proper as P; rewrite Forall_forall in P; apply P; eapply nth_error_In, E). pose proof (encode_len x P) as L. destruct P as (_ & _ & _ & _ & _ & P & _).
    destruct (N.ltb_spec n (N.of_nat (length (encode x)))); [lia|discriminate].
  Qed.
  Example result : run nat getdents 9 0%nat (bfs_opendir false (fun _ => x41)) [Poll; Read; Poll; Poll; Read; Read; Poll; Read] = [Entry [x61] BFS_REG; Entry [x2e; x2e; x2e] BFS_DIR; End; End].
  Proof. vm_compute. reflexivity. Qed.
  Example result_whiteouts : run nat getdents 9 0%nat (bfs_opendir true (fun _ => x41)) [Read; Read; Read; Read] = [Entry [x61] BFS_REG; Entry [x2e; x2e; x2e] BFS_DIR; Entry [x62] BFS_UNKNOWN; End].
  Proof. vm_compute. reflexivity. Qed.
  Example empty_only_whiteout : eval_empty nat getdents 9 4%nat (fun _ => x41) = Some (true, false) /\ eval_empty nat getdents 9 3%nat (fun _ => x41) = Some (false, false).
  Proof. vm_compute. auto. Qed.
End Examples.
