(** * Settings for which the color of an extension is not the intended one *)
From Coq Require Import String List NArith Arith Bool Init.Byte Lia.
From Verif Require Import TrieModel TrieSpec ExtModel ExtSpec ExtTrie ExtProofs.
Import ListNotations.
Local Open Scope nat_scope.

Open Scope string_scope.
Definition run (l : list (list byte * list byte)) (name : string) : option (option (list byte)) :=
  match ext_colors 64 l with Some c => get_ext c (bytes name) | None => None end.

(** The color does not depend on OFFSET_MAX. *)
Lemma run_any l name v : no_nul (bytes name) -> run l name = Some v -> forall omax, 1 <= omax ->
  exists c color, ext_colors omax l = Some c /\ get_ext c (bytes name) = Some color /\ color = v.
Proof.
  intros N E omax Ho. destruct (chosen_ok omax Ho l (bytes name) N) as (c & color & Ec & Eg & Ch).
  destruct (chosen_ok 64) with (l := l) (name := bytes name) as (c' & color' & Ec' & Eg' & Ch'); [lia|exact N|].
  unfold run in E. rewrite Ec', Eg' in E. injection E as <-. exists c, color. split; [exact Ec|]. split; [exact Eg|]. eapply chosen_unique; eauto.
Qed.
Ltac no_nuls := let H := fresh in intros H; vm_compute in H; repeat (destruct H as [H|H]; [discriminate H|]); exact H.
Ltac index H i := unfold set in H; destruct i as [|[|[|i]]]; [| | |destruct i; discriminate H]; cbn in H; try discriminate H; injection H as <- <-.
Ltac no_suffix P := let c := fresh in destruct P as [c P]; destruct c as [|? [|? [|? [|? [|? [|? [|? [|]]]]]]]]; discriminate P.

Definition l1 := settings [(".gz", "1"); (".GZ", "1"); (".Gz", "2")].
Lemma eff1 : effective l1 0 (bytes ".gz") (bytes "1") /\ effective l1 1 (bytes ".GZ") (bytes "1") /\ effective l1 2 (bytes ".Gz") (bytes "2").
Proof.
  split; [|split]; (split; [reflexivity|]); intros j v' H; unfold l1 in H; cbn [settings] in H;
    unfold set in H; (destruct j as [|[|[|j]]]; [| | |destruct j; discriminate H]; cbn in H; try discriminate H; lia).
Qed.
Lemma order_refuted omax : 1 <= omax -> exists c color,
  ext_colors omax l1 = Some c /\ get_ext c (bytes "a.gZ") = Some color /\ color = Some (bytes "1") /\ intended (usable l1) (bytes "a.gZ") None.
Proof.
  intros Ho. destruct (run_any l1 "a.gZ" (Some (bytes "1"))) with (omax := omax) as (c & color & A & B & C); [no_nuls|vm_compute; reflexivity|exact Ho|].
  exists c, color. split; [exact A|]. split; [exact B|]. split; [exact C|]. change (usable l1) with l1. clear.
  destruct eff1 as (E0 & E1 & E2). intros i k v H M.
  assert (C : contested l1 k).
  { unfold l1 in H. cbn [settings] in H. index H i; fold l1.
    - exists 0, 2, (bytes ".Gz"), (bytes "1"), (bytes "2"). split; [exact E0|]. split; [exact E2|]. split; [discriminate|]. split; [reflexivity|discriminate].
    - exists 1, 2, (bytes ".Gz"), (bytes "1"), (bytes "2"). split; [exact E1|]. split; [exact E2|]. split; [discriminate|]. split; [reflexivity|discriminate].
    - exists 2, 1, (bytes ".GZ"), (bytes "2"), (bytes "1"). split; [exact E2|]. split; [exact E1|]. split; [discriminate|]. split; [reflexivity|discriminate]. }
  destruct M as [P|[_ N]]; [|contradiction]. unfold l1 in H. cbn [settings] in H. index H i; no_suffix P.
Qed.

Definition l2 := settings [(".a.xz", "1"); (".xz", "2"); (".XZ", "3")].
Lemma eff2 : effective l2 1 (bytes ".xz") (bytes "2") /\ effective l2 2 (bytes ".XZ") (bytes "3").
Proof.
  split; (split; [reflexivity|]); intros j v' H; unfold l2 in H; cbn [settings] in H;
    unfold set in H; (destruct j as [|[|[|j]]]; [| | |destruct j; discriminate H]; cbn in H; try discriminate H; lia).
Qed.
Lemma hidden_refuted omax : 1 <= omax -> exists c color,
  ext_colors omax l2 = Some c /\ get_ext c (bytes "b.a.Xz") = Some color /\ color = None /\ intended (usable l2) (bytes "b.a.Xz") (Some (bytes "1")).
Proof.
  intros Ho. destruct (run_any l2 "b.a.Xz" None) with (omax := omax) as (c & color & A & B & C); [no_nuls|vm_compute; reflexivity|exact Ho|].
  exists c, color. split; [exact A|]. split; [exact B|]. split; [exact C|]. change (usable l2) with l2. clear.
  destruct eff2 as (E1 & E2). exists 0, (bytes ".a.xz"). split; [reflexivity|]. split.
  - right. split; [exists (bytes "b"); reflexivity|]. intros (i & j & k' & v & v' & _ & [S _] & N & L & _).
    unfold l2 in S. cbn [settings] in S. index S j; try discriminate L. apply N. reflexivity.
  - intros j k v Lt H M.
    assert (C : contested l2 k).
    { unfold l2 in H. cbn [settings] in H. index H j; fold l2; [lia| |].
      - exists 1, 2, (bytes ".XZ"), (bytes "2"), (bytes "3"). split; [exact E1|]. split; [exact E2|]. split; [discriminate|]. split; [reflexivity|discriminate].
      - exists 2, 1, (bytes ".xz"), (bytes "3"), (bytes "2"). split; [exact E2|]. split; [exact E1|]. split; [discriminate|]. split; [reflexivity|discriminate]. }
    destruct M as [P|[_ N]]; [|contradiction]. unfold l2 in H. cbn [settings] in H. index H j; [lia| |]; no_suffix P.
Qed.

Definition l3 := settings [(".a.xz", "1"); (".xz", "2"); (".A.xz", "3")].
Lemma eff3 : effective l3 0 (bytes ".a.xz") (bytes "1") /\ effective l3 2 (bytes ".A.xz") (bytes "3").
Proof.
  split; (split; [reflexivity|]); intros j v' H; unfold l3 in H; cbn [settings] in H;
    unfold set in H; (destruct j as [|[|[|j]]]; [| | |destruct j; discriminate H]; cbn in H; try discriminate H; lia).
Qed.
Lemma forgotten_refuted omax : 1 <= omax -> exists c color,
  ext_colors omax l3 = Some c /\ get_ext c (bytes "f.a.xz") = Some color /\ color = Some (bytes "3") /\ intended (usable l3) (bytes "f.a.xz") (Some (bytes "2")).
Proof.
  intros Ho. destruct (run_any l3 "f.a.xz" (Some (bytes "3"))) with (omax := omax) as (c & color & A & B & C); [no_nuls|vm_compute; reflexivity|exact Ho|].
  exists c, color. split; [exact A|]. split; [exact B|]. split; [exact C|]. change (usable l3) with l3. clear.
  destruct eff3 as (E0 & E2). exists 1, (bytes ".xz"). split; [reflexivity|]. split.
  - left. exists (bytes "f.a"). reflexivity.
  - intros j k v Lt H M. unfold l3 in H. cbn [settings] in H. index H j; [lia|lia|]. fold l3 in M.
    destruct M as [P|[_ N]]; [no_suffix P|]. apply N.
    exists 2, 0, (bytes ".a.xz"), (bytes "3"), (bytes "1"). split; [exact E2|]. split; [exact E0|]. split; [discriminate|]. split; [reflexivity|discriminate].
Qed.
