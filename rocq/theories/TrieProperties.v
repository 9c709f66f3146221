(** Property theorems for src/trie.c: C01, C02, C03. *)
From Coq Require Import List NArith Arith Bool Lia.
From Coq Require Import Init.Byte.
From Verif Require Import TrieModel TrieSpec TrieRefine.
Import ListNotations.

(** C01: every history of operations behaves as the specification's
    insertion-ordered map; no assertion fails ([step] never yields [RFail]). *)
Theorem C01_trie_is_finite_map :
  forall omax, 1 <= omax -> forall ops tr outs,
    run omax trie_init ops = (tr, outs) ->
    exists es, steps [] ops es outs.
Proof.
  exact trie_refines.
Qed.
Print Assumptions C01_trie_is_finite_map.

(** C01, in terms of values: a lookup returns the value last stored. *)
Theorem C01_trie_last_value :
  forall omax, 1 <= omax -> forall (K : key -> Prop) ops tr outs k,
    prefix_free K -> Forall (plain_op K) ops -> K k ->
    run omax trie_init ops = (tr, outs) ->
    get_mem tr k = Some (last_value k ops 0%N).
Proof.
  exact trie_last_value.
Qed.
Print Assumptions C01_trie_last_value.

(** C02: the longest stored prefix.  [ls] is what iterating over the trie
    yields. *)
Theorem C02_find_prefix_longest :
  forall omax, 1 <= omax -> forall ops q tr outs ls,
    Forall str_op ops -> nul_free q ->
    run omax trie_init ops = (tr, outs) ->
    do_op omax tr OIterate = (tr, RAll ls) ->
    match out_of (find_prefix tr q) with
    | RLeaf id k => exists s, k = cstr s /\ In (id, k) ls /\ prefix s q /\
        forall id' s', In (id', cstr s') ls -> prefix s' q -> length s' <= length s
    | RNull => forall id s, In (id, cstr s) ls -> ~ prefix s q
    | _ => False
    end.
Proof.
  exact find_prefix_correct.
Qed.
Print Assumptions C02_find_prefix_longest.

(** C03: completion. *)
Theorem C03_find_postfix :
  forall omax, 1 <= omax -> forall ops q tr outs ls,
    Forall str_op ops -> nul_free q ->
    run omax trie_init ops = (tr, outs) ->
    do_op omax tr OIterate = (tr, RAll ls) ->
    match out_of (find_postfix tr q) with
    | RLeaf id k => exists s, k = cstr s /\ In (id, k) ls /\ prefix q s
    | RNull => forall id s, In (id, cstr s) ls -> ~ prefix q s
    | _ => False
    end.
Proof.
  exact find_postfix_correct.
Qed.
Print Assumptions C03_find_postfix.

(** Concrete cases.  "foo", "foobar", "fop", "@", "A": branching in high and
    low nibbles, a removal that collapses a node, a failed allocation. *)
Module Examples.
  Definition foo := cstr [x66; x6f; x6f].
  Definition foobar := cstr [x66; x6f; x6f; x62; x61; x72].
  Definition fop := cstr [x66; x6f; x70].
  Definition at_ := cstr [x40].
  Definition big_a := cstr [x41].
  Definition ok := Allocs true (fun _ => true) true.
  Definition ops : list op :=
    [OSet ok foo 1%N; OSet ok foobar 2%N; OSet ok fop 3%N; OInsert ok at_; OSet ok big_a 5%N;
     ORemove fop; OSet ok foo 7%N; OGet foo; OGet foobar; OGet fop; OFind at_;
     OInsert (Allocs true (fun _ => true) false) (cstr [x7a]); OIterate].

  (* OFFSET_MAX = 3 forces jump nodes; a large one never uses them. *)
  Example history_3 : snd (run 3 trie_init ops) =
    [RDone true; RDone true; RDone true; RLeaf 3 at_; RDone true; RDone true; RDone true;
     RValue 7; RValue 2; RValue 0; RLeaf 3 at_; RNull;
     RAll [(0, foo); (1, foobar); (3, at_); (4, big_a)]].
  Proof. vm_compute. reflexivity. Qed.

  Example history_1000 : snd (run 1000 trie_init ops) = snd (run 3 trie_init ops).
  Proof. vm_compute. reflexivity. Qed.

  Example hypotheses_hold : Forall str_op (firstn 11 ops) /\ nul_free [x66; x6f; x6f; x62].
  Proof.
    assert (N : forall s, existsb (Byte.eqb x00) s = false -> nul_free s).
    { intros s E I. assert (existsb (Byte.eqb x00) s = true) by (apply existsb_exists; exists x00; auto). congruence. }
    assert (S : forall s, existsb (Byte.eqb x00) s = false -> exists s0, nul_free s0 /\ cstr s = cstr s0) by eauto.
    split; [|apply N; reflexivity].
    cbn [firstn ops]. repeat (apply Forall_cons; [apply S; reflexivity|]). apply Forall_nil.
  Qed.

  (* the longest stored prefix of "foob" is "foo"; of "foobarbaz", "foobar" *)
  Example prefix_foob : out_of (find_prefix (fst (run 3 trie_init ops)) [x66; x6f; x6f; x62]) = RLeaf 0 foo.
  Proof. vm_compute. reflexivity. Qed.
  Example prefix_foobarbaz : out_of (find_prefix (fst (run 3 trie_init ops))
    [x66; x6f; x6f; x62; x61; x72; x62]) = RLeaf 1 foobar.
  Proof. vm_compute. reflexivity. Qed.
  Example prefix_none : out_of (find_prefix (fst (run 3 trie_init ops)) [x66; x6f]) = RNull.
  Proof. vm_compute. reflexivity. Qed.
  Example postfix_foob : out_of (find_postfix (fst (run 3 trie_init ops)) [x66; x6f; x6f; x62]) = RLeaf 1 foobar.
  Proof. vm_compute. reflexivity. Qed.

  (* a prefix-free key set *)
  Example keys_prefix_free : prefix_free (fun k => In k [foo; foobar; fop; at_; big_a]) /\
    Forall (plain_op (fun k => In k [foo; foobar; fop; at_; big_a])) (firstn 11 ops).
  Proof.
    split; [split|].
    - cbn. intuition discriminate.
    - intros k1 k2 H1 H2 [c E]. cbn [In] in H1, H2.
      destruct H1 as [<-|[<-|[<-|[<-|[<-|[]]]]]], H2 as [<-|[<-|[<-|[<-|[<-|[]]]]]];
        first [reflexivity | exfalso; cbv in E; discriminate].
    - cbn [firstn ops]. repeat (apply Forall_cons; [cbn; tauto|]). apply Forall_nil.
  Qed.
End Examples.
