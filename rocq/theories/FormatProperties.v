(** * -printf formats: properties *)
From Coq Require Import List ZArith NArith Arith Bool.
From Coq Require Import Init.Byte Strings.Byte.
From Verif Require Import NumSpec.
From Verif Require Import FormatModel FormatSpec FormatProofs.
Import ListNotations.

(** ** C27 *)

(** A format is accepted exactly if it is made of characters, escape sequences and directives. *)
Theorem C27_accepts : forall s, (exists r, parse s = Some (Some r)) <-> exists items e, format_ok items e /\ s = format_text items e.
Proof. exact accepts. Qed.
Print Assumptions C27_accepts.
Theorem C27_total : forall s, parse s <> None.
Proof. exact total. Qed.
Print Assumptions C27_total.

(** Printing a format prints its parts in order, for every file: literal text with escape
    sequences interpreted, and what each directive stands for, once, converted with its flags,
    width and precision.  It succeeds if all parts do. *)
Theorem C27_output : forall items e, format_ok items e -> exists r, parse (format_text items e) = Some (Some r) /\
  forall vfprintf b, modest b -> bfs_printf vfprintf b r = output vfprintf b items e.
Proof. exact prints. Qed.
Print Assumptions C27_output.

Module Examples.
  (** "%-5d\t%p: 100%%\1018\n%.3TY\cxyz" *)
  Definition items : list item :=
    [Directive (mkDirective ["-"%byte] ["5"%byte] None "d" None); Escape "t"; Directive (mkDirective [] [] None "p" None); Char ":"; Char " ";
     Char "1"; Char "0"; Char "0"; Percent; Octal ["1"; "0"; "1"]%byte; Char "8"; Escape "n";
     Directive (mkDirective [] [] (Some ["3"%byte]) "T" (Some "Y"%byte))].
  Definition e : ending := Stop ["x"; "y"; "z"]%byte.
  Definition text : list byte :=
    ["%"; "-"; "5"; "d"; "\"; "t"; "%"; "p"; ":"; " "; "1"; "0"; "0"; "%"; "%"; "\"; "1"; "0"; "1"; "8"; "\"; "n";
     "%"; "."; "3"; "T"; "Y"; "\"; "c"; "x"; "y"; "z"]%byte.
  Example items_text : format_text items e = text.
  Proof. reflexivity. Qed.
  Example items_ok : format_ok items e.
  Proof.
    unfold items. cbn [format_ok].
    assert (D : forall fl w p l t, NoDup fl -> (forall c, In c fl -> In c ["-"; "#"; "0"; "+"; " "]%byte) -> Forall (is_digit_of 10) w -> hd "1"%byte w <> "0"%byte ->
      match p with Some ds => Forall (is_digit_of 10) ds | None => True end ->
      match t with None => plain_letter l | Some c => time_letter l /\ strftime_letter c end ->
      ((exists c, In c fl /\ c <> "-"%byte) -> numeric l) -> directive_ok (mkDirective fl w p l t)) by (intros; unfold directive_ok; cbn; auto 8).
    repeat match goal with |- item_ok _ _ /\ _ => split | |- item_ok (Char _) _ => split; discriminate | |- True => exact I | |- item_ok Percent _ => exact I end.
    - apply D; [constructor; [intros []|constructor]|intros c [<-|[]]; now left|repeat constructor; discriminate|discriminate|exact I|cbv; tauto|intros _; now left].
    - exists x09. cbv. tauto.
    - apply D; [constructor|intros c []|constructor|discriminate|exact I|cbv; tauto|intros (c & [] & _)].
    - split; [cbn; repeat constructor|]. split; [repeat constructor; discriminate|]. intros H. now apply Nat.lt_irrefl in H.
    - exists x0a. cbv. tauto.
    - apply D; [constructor|intros c []|constructor|discriminate|repeat constructor; discriminate|cbv; tauto|intros (c & [] & _)].
  Qed.
  Definition b : bftw :=
    mkBftw ["d"; "/"; "f"]%byte 2 ["d"%byte] 1 BFS_REG (Some (mkStat 1 2 33188 1 0 0 100 8 (fun _ => Some (0, 0)%Z))) (Type_of BFS_REG) None None
      (fun _ => None) (fun _ => None) None.
  Example b_modest : modest b.
  Proof. split; [repeat constructor|]. cbn. repeat split; discriminate. Qed.
  (** A vfprintf() that writes strings and ignores the rest *)
  Definition vf (c : list byte) (v : value) : option (list byte) := match v with Str s => Some s | _ => Some c end.
  Example items_output : output vf b items e =
    (map Put ["%"; "-"; "5"; "j"; "d"; x09; "d"; "/"; "f"; ":"; " "; "1"; "0"; "0"; "%"; "A"; "8"; x0a; "%"; "."; "3"; "s"]%byte ++ [Flush], true).
  Proof. vm_compute. reflexivity. Qed.
  Example items_printed : match parse text with Some (Some r) => bfs_printf vf b r = output vf b items e | _ => False end.
  Proof. vm_compute. reflexivity. Qed.

  Example values : denotes "h" None b = Some (Str ["d"%byte]) /\ denotes "P" None b = Some (Str ["f"%byte]) /\ denotes "k" None b = Some (Decimal 4) /\
    denotes "m" None b = Some (Mode 420).
  Proof. vm_compute. auto. Qed.

  (** Malformed: an unknown escape sequence or directive, a flag twice, a flag for numbers on a string, incomplete ones *)
  Example malformed : map parse [["\"; "q"]; ["%"; "q"]; ["%"; "-"; "-"; "p"]; ["%"; "0"; "p"]; ["\"]; ["%"; "5"]; ["%"; "T"]; ["%"; "A"; "E"]]%byte = repeat (Some None) 8.
  Proof. vm_compute. reflexivity. Qed.
End Examples.
