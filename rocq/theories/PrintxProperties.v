(** Property theorems for -print0 and -printx: C30. *)
From Coq Require Import String List Bool.
From Coq Require Import Init.Byte Strings.Byte.
From Verif Require Import PrintxModel PrintxSpec PrintxProofs.
Import ListNotations.

(** C30: xargs reads back exactly the list of paths that -printx was given. *)
Theorem C30_printx_roundtrip : forall paths, Forall (fun p => p <> []) paths ->
  exists out,
    fold_right (fun p acc => match fprintx p, acc with Some a, Some b => Some (a ++ b) | _, _ => None end)
      (Some []) paths = Some out /\
    xargs_split out = Some paths.
Proof.
  exact printx_roundtrip.
Qed.
Print Assumptions C30_printx_roundtrip.

(** C30: no special character is left unprotected before the final newline. *)
Theorem C30_printx_protected : forall path,
  exists out, fprintx path = Some (out ++ [x0a]) /\
    protected (fun c => existsb (Byte.eqb c) [" "; x09; x0a; "\"; "$"; "'"; x22; "`"]%byte) out = true.
Proof.
  exact printx_protected.
Qed.
Print Assumptions C30_printx_protected.

(** C30: the output of -print0 determines the list of paths. *)
Theorem C30_print0_roundtrip : forall paths, Forall (fun p => ~ In x00 p) paths ->
  xargs0_split (flat_map fprint0 paths) = (paths, []).
Proof.
  exact print0_roundtrip.
Qed.
Print Assumptions C30_print0_roundtrip.

Module Examples.
  Definition b (s : string) : list byte := list_byte_of_string s.
  Definition paths := [b "./it's"; b "a b\c"; b "x" ++ [x0a] ++ b "y$z"].
  Example nonempty : Forall (fun p => p <> []) paths. Proof. repeat constructor; discriminate. Qed.
  Example no_nul : Forall (fun p => ~ In x00 p) paths.
  Proof. repeat constructor; intros H; cbn in H; intuition discriminate. Qed.
  Example printed : fprintx (b "a b\c") = Some (b "a\ b\\c" ++ [x0a]). Proof. reflexivity. Qed.
End Examples.
