(** * What commands should be run *)
From Coq Require Import List Arith Bool.
From Coq Require Import Init.Byte.
From Verif Require Import PathModel PathSpec ExecModel.
Import ListNotations.

(** ** Substitution *)

(** Every {} is replaced, from left to right, and nothing else is changed. *)
Fixpoint substitute (path s : list byte) : list byte :=
  match s with
  | x7b :: x7d :: s => path ++ substitute path s
  | c :: s => c :: substitute path s
  | [] => []
  end.

(** ** Parsing *)

Definition semicolon : arg := [x3b].
Definition plus : arg := [x2b].
Definition braces : arg := [x7b; x7d].

(** [s] contains {}. *)
Definition has_braces (s : list byte) : Prop := exists a b, s = a ++ braces ++ b.

(** No argument ends the command. *)
Inductive unterminated (confirm : bool) : list arg -> Prop :=
| u_nil : unterminated confirm []
| u_last l a : unterminated confirm l -> a <> semicolon ->
    (confirm = false -> forall l', l = l' ++ [braces] -> a <> plus) -> unterminated confirm (l ++ [a]).

(** The command that an action means: -exec cmd ; or -exec cmd {} + *)
Inductive command (confirm : bool) : list arg -> list arg -> bool -> Prop :=
| c_single cmd rest : cmd <> [] -> unterminated confirm cmd -> command confirm (cmd ++ semicolon :: rest) cmd false
| c_multi cmd rest : confirm = false -> unterminated confirm (cmd ++ [braces]) -> (forall a, In a cmd -> ~ has_braces a) ->
    command confirm (cmd ++ braces :: plus :: rest) (cmd ++ [braces]) true.

(** ** Runs *)

(** A list with some elements removed *)
Inductive subseq {A} : list A -> list A -> Prop :=
| sub_nil : subseq [] []
| sub_skip x l m : subseq l m -> subseq l (x :: m)
| sub_keep x l m : subseq l m -> subseq (x :: l) (x :: m).

Definition total (l : list arg) : nat := list_sum (map arg_size l).

Definition ran (o : outcome) : bool := match o with Done | Status => true | _ => false end.

Section Spec.
Context {dir : Type}.
Variable tmpl : list arg.

(** The arguments after the template, in all commands that were run *)
Definition executed (l : list (attempt dir)) : list arg :=
  flat_map (fun t => if ran (t_outcome dir t) then skipn (length tmpl) (t_argv dir t) else []) l.

(** Memory is not refused, and descriptors can be duplicated. *)
Definition generous (w : world dir) : Prop := w_arg dir w = true /\ w_dup dir w = true /\ w_grow dir w = true.

(** The system never refuses a command, except if it is too large: if the arguments after the
    template take more than [most] bytes. *)
Definition limited (most : nat) (kernel : nat -> list arg -> outcome) : Prop :=
  forall n ps, kernel n (tmpl ++ ps) <> Fault /\ (kernel n (tmpl ++ ps) = TooBig <-> most < total ps).

(** The system never says that a command is too large. *)
Definition unlimited (kernel : nat -> list arg -> outcome) : Prop := forall n args, kernel n args <> TooBig.
End Spec.

(** ** Directories *)

(** A path's directory as far as a last slash, as bytes of the path *)
Definition dir_part (path : list byte) : list byte :=
  if Nat.eqb (xbaseoff path) 0 && is_slash (at_ path 0) then [slash] else firstn (xbaseoff path) path.

(** A file as the walk reports it, if directories are where [place] says: the working directory
    for the empty path. *)
Definition reported {dir} (place : list byte -> dir) (f : file dir) : Prop :=
  f_nameoff dir f = xbaseoff (f_path dir f) /\
  forall d, f_at dir f = Some d -> d = place (dir_part (f_path dir f)).

Definition opens {dir} (place : list byte -> dir) (w : world dir) : Prop :=
  forall p d, w_open dir w p = Some d -> d = place p.

(** [f] cannot follow [g]: it is the root and [g] is named without a slash, or it ends in slashes and
    the directory of [g] is inside of that of [f]. *)
Definition confused {dir} (g f : file dir) : Prop :=
  f_path dir f = [slash] /\ dir_part (f_path dir g) = [] \/
  (exists r, f_path dir f = dir_part (f_path dir g) ++ r) /\ xbaseoff (f_path dir f) < length (dir_part (f_path dir g)).

(** An argument seen from a directory *)
Definition from (d a : list byte) : list byte := if is_slash (at_ a 0) then a else d ++ a.

(** A command runs where all its files are. *)
Definition in_place {dir} (place : list byte -> dir) (tmpl : list arg) (fs : list (file dir)) (t : attempt dir) : Prop :=
  exists gs, incl gs fs /\ t_argv dir t = tmpl ++ map (format_path dir true) gs /\
  forall g, In g gs -> match t_cwd dir t with Some d => d | None => place [] end = place (dir_part (f_path dir g)).
