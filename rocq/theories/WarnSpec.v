(** * What the optimizer's warnings say about a command line

    The primaries of an expression (its tests and actions) are numbered from left to right, as they
    stand on the command line. *)
From Coq Require Import List ZArith Bool.
From Verif Require Import ExprModel.
Import ListNotations.

(** The warnings about single primaries (src/opt.c 1780, 1794, 1819, 1852). *)
Inductive warning :=
| AlwaysTrue    (* "This expression is always true." *)
| AlwaysFalse   (* "This expression is always false." *)
| Unreachable   (* "This expression is unreachable." *)
| Ignored.      (* "The result of this expression is ignored." *)

Definition constant (l : leaf) : bool := match l with LTrue | LFalse => true | _ => false end.

(** How many primaries an expression has *)
Fixpoint primaries {F} (e : expr F) : nat :=
  match e with
  | Leaf _ _ => 1
  | Node _ _ cs => fold_right (fun c n => primaries c + n) 0 cs
  end.

(** What happened, and the primaries that were evaluated on the way, with their results, in order.
    The constants -true and -false are not listed. *)
Definition account := (outcome * list (nat * bool))%type.

Section Run.
  Context {F : Type}.
  Variable level : nat.
  Variable b : behaviour.
  (** The primaries that are made to have a certain result *)
  Variable forced : nat -> option bool.

  Definition run_leaf (n : nat) (l : leaf) (h : hist) : account :=
    if constant l then (eval_leaf level b l h, [])
    else let '(r, h1, q) := eval_leaf level b l h in
         let r := match forced n with Some v => v | None => r end in
         ((r, h1, q), [(n, r)]).

  Section Lists.
    Variable go : nat -> expr F -> hist -> account.

    (** -and ([d] is true): until one is false; -or ([d] is false): until one is true *)
    Fixpoint run_until (d : bool) (n : nat) (cs : list (expr F)) (h : hist) : account :=
      match cs with
      | [] => ((d, h, false), [])
      | c :: cs' =>
          let '((r, h1, q), t) := go n c h in
          if xorb r d || q then ((negb d, h1, q), t)
          else let '(o, t') := run_until d (n + primaries c) cs' h1 in (o, t ++ t')
      end.

    Fixpoint run_all (ret : bool) (n : nat) (cs : list (expr F)) (h : hist) : account :=
      match cs with
      | [] => ((ret, h, false), [])
      | c :: cs' =>
          let '((r, h1, q), t) := go n c h in
          if q then ((r, h1, q), t)
          else let '(o, t') := run_all r (n + primaries c) cs' h1 in (o, t ++ t')
      end.
  End Lists.

  (** [run n e h]: [e], whose first primary has the number [n], is evaluated after [h]. *)
  Fixpoint run (n : nat) (e : expr F) (h : hist) {struct e} : account :=
    match e with
    | Leaf _ l => run_leaf n l h
    | Node _ ONot cs =>
        match cs with
        | [] => ((true, h, false), [])
        | c :: _ => let '((r, h1, q), t) := run n c h in ((negb r, h1, q), t)
        end
    | Node _ OAnd cs => run_until run true n cs h
    | Node _ OOr cs => run_until run false n cs h
    | Node _ OComma cs => run_all run false n cs h
    end.
End Run.

Definition as_it_is : nat -> option bool := fun _ => None.
Definition made (i : nat) (v : bool) : nat -> option bool := fun j => if Nat.eqb i j then Some v else None.

(** The warning [w] about primary [i] of [e] is true when [e] is evaluated after [h]. *)
Definition right {F} level b (e : expr F) (h : hist) (i : nat) (w : warning) : Prop :=
  let evaluated := snd (run level b as_it_is 0 e h) in
  match w with
  | AlwaysTrue => forall r, In (i, r) evaluated -> r = true
  | AlwaysFalse => forall r, In (i, r) evaluated -> r = false
  | Unreachable => forall r, ~ In (i, r) evaluated
  | Ignored =>
      (* the same happens whatever the result of this one is *)
      forall v v', let '((_, h1, q), _) := run level b (made i v) 0 e h in
                   let '((_, h1', q'), _) := run level b (made i v') 0 e h in h1 = h1' /\ q = q'
  end.
