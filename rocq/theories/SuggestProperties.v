(** * C21: suggestions for unknown primaries *)
From Coq Require Import String List ZArith Bool.
From Coq Require Import Init.Byte Strings.Byte.
From Verif Require Import TypoModel TypoSpec GramModel SuggestModel SuggestSpec SuggestProofs.
Import ListNotations.
Local Open Scope Z_scope.

(** A primary is parsed as what it says, or as a group of flags.  For any other word, one of the closest known words is suggested, and
    it is parsed in its place if, and only if, an interactive user says so and it can start a primary (-and, for example, cannot). *)
Theorem C21_suggestion : forall interactive yes a, Z.of_nat (length a) < 2 ^ 27 ->
  match decide interactive yes a with
  | None => False
  | Some (Parse None e) => table_lookup a = Some e
  | Some (Parse (Some s) e) => table_lookup a = None /\ is_flag_group a = false /\ interactive = true /\ yes = true /\ s = e_arg e /\ In e parse_table /\ closest a s
  | Some Group => table_lookup a = None /\ is_flag_group a = true
  | Some (Unmatched s) => table_lookup a = None /\ is_flag_group a = false /\ closest a s /\
      exists e, In e parse_table /\ s = e_arg e /\ (interactive = true -> yes = true -> e_parse e = None)
  | Some Unexpected => (forall t, a <> "-"%byte :: t) \/ exists e, table_lookup a = Some e /\ e_parse e = None
  end.
Proof. exact decide_ok. Qed.
Print Assumptions C21_suggestion.

Module Examples.
  Definition w (s : string) : list byte := list_byte_of_string s.
  Definition outcome (d : option decision) : option (bool * list byte) :=
    match d with Some (Parse (Some s) _) => Some (true, s) | Some (Unmatched s) => Some (false, s) | _ => None end.
  Example typos : map (fun s => outcome (decide true true (w s))) ["-nmae"; "-isame"; "-exce"; "-delte"; "-dleete"]%string =
    map (fun s => Some (true, w s)) ["-name"; "-iname"; "-exec"; "-delete"; "-delete"]%string.
  Proof. vm_compute. reflexivity. Qed.
  Example refused : outcome (decide true false (w "-nmae")) = Some (false, w "-name") /\ outcome (decide false true (w "-nmae")) = Some (false, w "-name").
  Proof. vm_compute. auto. Qed.
End Examples.
