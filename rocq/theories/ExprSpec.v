(** * What evaluating an expression means

    Inference rules for the operators of find(1), for operators of any arity. *)
From Coq Require Import List ZArith Bool.
From Verif Require Import ExprModel.
Import ListNotations.

Section Rules.
  Context {F : Type}.
  Variable level : nat.
  Variable b : behaviour.

  (** [ev e h r h' q]: evaluating [e] when the effects [h] have happened
      yields [r]; [h'] has happened then, and [q] says whether to quit. *)
  Inductive ev : expr F -> hist -> bool -> hist -> bool -> Prop :=
  | ev_leaf a l h r h1 q : eval_leaf level b l h = (r, h1, q) -> ev (Leaf a l) h r h1 q
  (* ! *)
  | ev_not a c h r h1 q : ev c h r h1 q -> ev (Node a ONot [c]) h (negb r) h1 q
  (* -a: true if it runs to the end; stops at the first false operand *)
  | ev_and_nil a h : ev (Node a OAnd []) h true h false
  | ev_and_false a c cs h h1 q : ev c h false h1 q -> ev (Node a OAnd (c :: cs)) h false h1 q
  | ev_and_quit a c cs h h1 : ev c h true h1 true -> ev (Node a OAnd (c :: cs)) h false h1 true
  | ev_and_next a c cs h h1 r h2 q :
      ev c h true h1 false -> ev (Node a OAnd cs) h1 r h2 q -> ev (Node a OAnd (c :: cs)) h r h2 q
  (* -o: false if it runs to the end; stops at the first true operand *)
  | ev_or_nil a h : ev (Node a OOr []) h false h false
  | ev_or_true a c cs h h1 q : ev c h true h1 q -> ev (Node a OOr (c :: cs)) h true h1 q
  | ev_or_quit a c cs h h1 : ev c h false h1 true -> ev (Node a OOr (c :: cs)) h true h1 true
  | ev_or_next a c cs h h1 r h2 q :
      ev c h false h1 false -> ev (Node a OOr cs) h1 r h2 q -> ev (Node a OOr (c :: cs)) h r h2 q
  (* , : all operands; the value of the last one *)
  | ev_comma_last a c h r h1 q : ev c h r h1 q -> ev (Node a OComma [c]) h r h1 q
  | ev_comma_quit a c cs h r h1 : ev c h r h1 true -> ev (Node a OComma (c :: cs)) h r h1 true
  | ev_comma_next a c d cs h r1 h1 r h2 q :
      ev c h r1 h1 false -> ev (Node a OComma (d :: cs)) h1 r h2 q ->
      ev (Node a OComma (c :: d :: cs)) h r h2 q.

  (** Does evaluating primary [l] after [h] end the search? *)
  Definition quits (l : leaf) (h : hist) : bool :=
    match l with
    | LExit _ | LQuit => true
    | LLimit _ _ => lim b l h
    | _ => false
    end.

  (** [new] are effects that happened after [h], latest first, none of which quit. *)
  Fixpoint calm (new : list leaf) (h : hist) : Prop :=
    match new with
    | [] => True
    | l :: new' => quits l (new' ++ h) = false /\ calm new' h
    end.

  (** The truth value of an expression whose primaries have the values [v]. *)
  Section Truth.
    Variable v : leaf -> bool.
    Fixpoint truth (e : expr F) : bool :=
      match e with
      | Leaf _ l => v l
      | Node _ ONot cs => match cs with c :: _ => negb (truth c) | [] => true end
      | Node _ OAnd cs => forallb truth cs
      | Node _ OOr cs => existsb truth cs
      | Node _ OComma cs => last (map truth cs) false
      end.
  End Truth.

End Rules.

(** Operators have operands: one for !, at least one for the comma. *)
Fixpoint wf {F} (e : expr F) : Prop :=
  match e with
  | Leaf _ _ => True
  | Node _ o cs =>
      match o with
      | ONot => exists c, cs = [c]
      | OComma => cs <> []
      | _ => True
      end /\ (fix all l := match l with [] => True | c :: l' => wf c /\ all l' end) cs
  end.
