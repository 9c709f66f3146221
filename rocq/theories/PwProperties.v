(** Property theorems for account lookups: C38. *)
From Coq Require Import List NArith Arith Bool Lia.
From Coq Require Import Init.Byte.
From Verif Require Import TrieModel TrieSpec PwModel PwSpec PwProofs.
Import ListNotations.

(** C38: in any history of lookups by name and by number and of flushes, with any answers of
    the system that agree with its database, each lookup gives the entry in the database, or that
    there is none; it fails only if the system reported an error or some memory was refused. *)
Theorem C38_lookups : forall account omax, 1 <= omax -> forall db os, Forall (valid account db) os ->
  exists c rs, run_all account omax os (cache_new account) = Some (c, rs) /\ Forall2 (correct account db) os rs.
Proof.
  exact lookups_ok.
Qed.
Print Assumptions C38_lookups.

(** C38: after a lookup that did not fail, the same one gives the same result until the next flush,
    whatever the system would answer then (and although memory may have run out): it is not asked. *)
Theorem C38_cached : forall account omax, 1 <= omax -> forall db c o c1 r os c2 rs o',
  history account omax db c -> valid account db o ->
  run account omax o c = Some (c1, r) -> r <> Failed ->
  Forall (valid account db) os -> ~ In (Flush account) os -> run_all account omax os c1 = Some (c2, rs) ->
  same_lookup account o o' -> exists c3, run account omax o' c2 = Some (c3, r).
Proof.
  exact cached_ok.
Qed.
Print Assumptions C38_cached.

Module Examples.
  (** Two accounts, root (0) and user (1000), and nobody else *)
  Definition root : list byte := [x72; x6f; x6f; x74].
  Definition rooter : list byte := [x72; x6f; x6f; x74; x65; x72].
  Definition db : database N := mkDb N
    (fun n => if key_eqb n root then Some 0%N else None)
    (fun i => if N.eqb i 0 then Some 0%N else if N.eqb i 1000 then Some 1000%N else None).
  Definition ok : allocs := Allocs true (fun _ => true) true.
  Definition os : list (op N) :=
    [ByName N ok true [Small true; Entry 0%N] root; ByName N ok true [NoEntry] rooter;
     ById N ok true [Error] 1000; ById N ok true [Entry 1000%N] 1000; ById N ok true [NoEntry] 5;
     ByName N ok false [Error] root; ById N ok true [Error] 1000; ById N ok true [Error] 5; Flush N;
     ById N ok true [Error] 1000].

  Example os_valid : Forall (valid N db) os.
  Proof.
    repeat constructor; cbn; try lia; try (intros [H|[H|H]]; discriminate H || destruct H as [H|H]; discriminate H || easy);
    unfold nul_free; cbn; intuition (try congruence); eauto using in_eq, in_cons.
    all: try (eexists; split; [left; reflexivity|discriminate]).
    eexists; split; [right; left; reflexivity|discriminate].
  Qed.

  Example results : match run_all N 8 os (cache_new N) with Some (_, rs) => rs | None => [] end =
    [Hit 0%N; Miss; Failed; Hit 1000%N; Miss; Hit 0%N; Hit 1000%N; Miss; Miss; Failed].
  Proof. vm_compute. reflexivity. Qed.
End Examples.
