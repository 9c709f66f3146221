(** * C45: the color of a file's extension (src/color.c) *)
From Coq Require Import String List NArith Arith Bool Init.Byte Lia.
From Verif Require Import TrieModel TrieSpec ExtModel ExtSpec ExtTrie ExtProofs ExtRefuted.
Import ListNotations.
Local Open Scope nat_scope.

(** C45.  Whatever the settings are, no assertion fails, and the color of any file name is that of the last of
    the settings that count and match: a setting counts unless a later one is for an extension that it ends with,
    it matches the names that end with its extension, and also those that do so up to case unless it or an
    earlier one has another color than the next one for the same extension up to case. *)
Theorem C45_extension_colors : forall omax, 1 <= omax -> forall l name, no_nul name ->
  exists c color, ext_colors omax l = Some c /\ get_ext c name = Some color /\ chosen (usable l) name color.
Proof. exact chosen_ok. Qed.
Print Assumptions C45_extension_colors.

(** C45.  For simple settings, that is the color of the last setting that should match, in any case unless the
    extension is set in several cases and colors.  Not proved, because false (see below): the same for all settings. *)
Theorem C45_smart_case_partial : forall omax l name, 1 <= omax -> no_nul name -> simple (usable l) ->
  exists c color, ext_colors omax l = Some c /\ get_ext c name = Some color /\ intended (usable l) name color.
Proof. exact intended_ok. Qed.
Print Assumptions C45_smart_case_partial.

(** The statement for all settings is false in three ways. *)
Local Open Scope string_scope.

(** An extension in several cases and colors still matches in any case, because the comparisons are with the next one only. *)
Theorem C45_order_refuted : forall omax, 1 <= omax -> let l := settings [(".gz", "1"); (".GZ", "1"); (".Gz", "2")] in exists c color,
ext_colors omax l = Some c /\ get_ext c (bytes "a.gZ") = Some color /\ color = Some (bytes "1") /\ intended (usable l) (bytes "a.gZ") None.
Proof. exact order_refuted. Qed.
Print Assumptions C45_order_refuted.

(** A setting that is hidden by a shorter one is lost even for the names that the shorter one does not match. *)
Theorem C45_hidden_refuted : forall omax, 1 <= omax -> let l := settings [(".a.xz", "1"); (".xz", "2"); (".XZ", "3")] in exists c color,
ext_colors omax l = Some c /\ get_ext c (bytes "b.a.Xz") = Some color /\ color = None /\ intended (usable l) (bytes "b.a.Xz") (Some (bytes "1")).
Proof. exact hidden_refuted. Qed.
Print Assumptions C45_hidden_refuted.

(** An extension in several cases and colors matches in any case if one of the settings is hidden. *)
Theorem C45_forgotten_refuted : forall omax, 1 <= omax -> let l := settings [(".a.xz", "1"); (".xz", "2"); (".A.xz", "3")] in exists c color,
ext_colors omax l = Some c /\ get_ext c (bytes "f.a.xz") = Some color /\ color = Some (bytes "3") /\ intended (usable l) (bytes "f.a.xz") (Some (bytes "2")).
Proof. exact forgotten_refuted. Qed.
Print Assumptions C45_forgotten_refuted.

Module Examples.
  Open Scope string_scope.

  Definition some : list (string * string) := [(".gz", "1"); (".GZ", "2"); (".tar.xz", "3"); (".xz", "4")].
  Example runs : map (run (settings some)) ["a.gz"; "a.GZ"; "a.Gz"; "a.tar.xz"; "a.tar.XZ"; "gz"; "a.xz.gz"; "gz.tar"] =
    map (fun x => Some (option_map bytes x)) [Some "1"; Some "2"; None; Some "4"; Some "4"; None; Some "1"; None].
  Proof. vm_compute. reflexivity. Qed.
  Example longer_wins_if_later : map (run (settings [(".xz", "4"); (".tar.xz", "3")])) ["a.tar.xz"; "a.TAR.xz"; "tar.xz"] =
    map (fun x => Some (option_map bytes x)) [Some "3"; Some "3"; Some "4"].
  Proof. vm_compute. reflexivity. Qed.

  Ltac index H i := unfold set in H; destruct i as [|[|[|[|i]]]]; [| | | |destruct i; discriminate H]; cbn in H; try discriminate H; injection H as <- <-.
  Example some_simple : simple (usable (settings some)).
  Proof.
    change (usable (settings some)) with (settings some). constructor.
    - intros i1 i2 i3 k1 k2 k3 v1 v2 v3 H1 H2 H3 E1 E2 _. unfold some in *. cbn [settings] in *.
      index H1 i1; index H2 i2; try discriminate E1; index H3 i3; try discriminate E2; auto.
    - intros i j k k' v v' L H1 H2 [c P] N. unfold some in *. cbn [settings] in *.
      index H1 i; index H2 j; try congruence; try lia;
        try (exfalso; destruct c as [|? [|? [|? [|? [|? [|? [|? [|]]]]]]]]; discriminate P);
        split; intros (a & b & k' & w & w' & [A _] & [B _] & Nk & Lk & Nw);
        index B b; try discriminate Lk; congruence.
  Qed.
  Example some_hypotheses : no_nul (bytes "a.Gz").
  Proof. intros H. repeat (destruct H as [H|H]; [discriminate H|]). exact H. Qed.
End Examples.
