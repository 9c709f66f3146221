(** * The grammar of the command line: properties *)
From Coq Require Import String List Bool Arith ZArith.
From Coq Require Import Init.Byte Strings.Byte.
From Verif Require Import NumSpec GramModel GramSpec GramProofs.
Import ListNotations.
Local Open Scope list_scope.

(** ** C23 *)

(** A command line is accepted exactly if its arguments can be read as an expression of the
    grammar with paths in between, and then the expression, the exclusions and the root paths
    are the ones that it stands for: parentheses bind strongest, then negations, then the
    explicit or implicit -a, then -o, then the comma, all from left to right, and -print is
    added exactly if no action shows anything. *)
Theorem C23_grammar : forall w, sane (isspace w) -> forall argv c,
  parse_cmdline w argv = Ok c <-> means w argv c.
Proof. exact grammar. Qed.
Print Assumptions C23_grammar.

(** Every other command line is rejected. *)
Theorem C23_decides : forall w, sane (isspace w) -> forall argv,
  (exists c, parse_cmdline w argv = Ok c /\ means w argv c) \/
  (parse_cmdline w argv = Rejected /\ forall c, ~ means w argv c).
Proof. exact decides. Qed.
Print Assumptions C23_decides.

(** No command line can be read in two ways. *)
Theorem C23_unambiguous : forall w, sane (isspace w) -> forall argv c d,
  means w argv c -> means w argv d -> c = d.
Proof. exact unambiguous. Qed.
Print Assumptions C23_unambiguous.

Module Examples.
  Definition spaces (c : byte) : bool := match c with " " | x09 | x0a | x0b | x0c | x0d => true | _ => false end%byte.
  (** An -O must come before the rest, and the list file names two paths. *)
  Definition w : env := {|
    valid := fun before name args => if aeq name (b "-O") then match before with [] => true | _ => false end else true;
    files0_list := fun f => if aeq f (b "list") then Some [b "p"; b "q"] else None;
    isspace := spaces |}.
  Example posix : sane (isspace w).
  Proof.
    intros c. destruct c; vm_compute; intros H; try discriminate; repeat split; try discriminate;
      intros [A B]; try (apply A; reflexivity); discriminate.
  Qed.
  Definition words (l : list string) : list arg := map b l.
  Definition t (l : list string) : expr := Prim (hd [] (words l)) (words l).

  Example precedence :
    parse_cmdline w (words ["root"; "-name"; "x"; "-o"; "!"; "-type"; "f"; "-size"; "0"; "-a"; "("; "-hidden"; ","; "-empty"; ")"; ","; "other"; "-true"; "-o"; "-false"]) =
    Ok {| c_expr := And (Comma (Or (t ["-name"; "x"]) (And (And (Not (t ["-type"; "f"])) (t ["-size"; "0"])) (Comma (t ["-hidden"]) (t ["-empty"]))))
                               (Or (t ["-true"]) (t ["-false"]))) Print;
          c_exclude := []; c_roots := words ["root"; "other"] |}.
  Proof. vm_compute. reflexivity. Qed.
  (** Joined flags, of which the last takes a path; -exec up to its semicolon; a semicolon and a
      dash as paths *)
  Example flags : parse_cmdline w (words ["-O2"; "-Lxf"; "-d"; "--"; "-"; "("; "-exec"; "f"; ";"; ";"; ")"]) =
    Ok {| c_expr := And (And (Prim (b "-O") [b "-O2"]) (Prim (b "-f") (words ["-Lxf"; "-d"]))) (t ["-exec"; "f"; ";"]);
          c_exclude := []; c_roots := words ["-d"; "-"; ";"] |}.
  Proof. vm_compute. reflexivity. Qed.
  (** -prune does not take the place of -print, -delete does *)
  Example prune :
    parse_cmdline w (words ["-name"; "x"; "-prune"; "-exclude"; "-name"; "y"]) =
    Ok {| c_expr := And (And (And (t ["-name"; "x"]) (t ["-prune"])) Excluded) Print; c_exclude := [t ["-name"; "y"]]; c_roots := [b "."] |} /\
    parse_cmdline w (words ["-files0-from"; "list"; "-name"; "x"; "-delete"]) =
    Ok {| c_expr := And (And (t ["-files0-from"; "list"]) (t ["-name"; "x"])) (t ["-delete"]); c_exclude := []; c_roots := words ["p"; "q"] |}.
  Proof. vm_compute. repeat split. Qed.
  (** Before the expression a comma is a path; after it has begun it is not. *)
  Example comma : parse_cmdline w (words [","; "-name"; "x"]) =
    Ok {| c_expr := And (t ["-name"; "x"]) Print; c_exclude := []; c_roots := [b ","] |} /\
    parse_cmdline w (words ["-name"; "x"; ","]) = Rejected.
  Proof. vm_compute. split; reflexivity. Qed.
  Example rejected :
    parse_cmdline w (words ["("; "-name"; "x"]) = Rejected /\ parse_cmdline w (words ["-name"; "x"; ")"]) = Rejected /\
    parse_cmdline w (words ["-name"]) = Rejected /\ parse_cmdline w (words ["!"]) = Rejected /\ parse_cmdline w (words ["-o"; "-true"]) = Rejected /\
    parse_cmdline w (words ["-exclude"; "("; "-true"; "-print"; ")"]) = Rejected /\ parse_cmdline w (words ["-limit"; "3"]) = Rejected /\
    parse_cmdline w (words ["-true"; "-nonsense"]) = Rejected /\ parse_cmdline w (words ["."; "-files0-from"; "list"]) = Rejected /\
    parse_cmdline w (words ["-L"; "-O3"]) = Rejected.
  Proof. vm_compute. repeat split. Qed.
  (** The same from the side of the specification *)
  Example meaning : exists c, means w (words ["-name"; "x"; "-o"; "-print"; "."]) c /\ c_expr c = Or (t ["-name"; "x"]) (t ["-print"]).
  Proof. eexists. split; [apply C23_grammar; [exact posix|]; vm_compute; reflexivity|reflexivity]. Qed.
  Example no_meaning : forall c, ~ means w (words ["-name"; "x"; "-o"]) c.
  Proof. intros c H. apply C23_grammar in H; [|exact posix]. vm_compute in H. discriminate. Qed.
End Examples.
