(** * What signal hooks should do *)
From Coq Require Import List Arith Bool.
From Verif Require Import SigModel.
Import ListNotations.

(** A registered hook.  Those registered by [atsigexit] have signal 0.  A one-shot
    hook is [spent] once it has run. *)
Record reg := mkReg { id : nat; on : nat; once : bool; cont : bool; spent : bool }.

(** The hooks that are registered, in order of registration *)
Definition regs := list reg.

Definition due (sg : nat) (r : reg) : bool := Nat.eqb (on r) sg && negb (once r && spent r).
Definition use (sg : nat) (r : reg) : reg :=
  if Nat.eqb (on r) sg then mkReg (id r) (on r) (once r) (cont r) true else r.

Inductive op :=
| Hook (n sg : nat) (once cont ok : bool)
| Unhook (n : nat)
| Signal (sg : nat) (fatal fault : bool).

(** The hooks run by a signal *)
Definition ran (sg : nat) (R : regs) : list nat := map id (filter (due sg) R).
Definition happens (sg : nat) (fatal fault : bool) (R : regs) : event :=
  if fault then Fault
  else if fatal && negb (existsb cont (filter (due sg) R)) then Died (ran sg R) (ran 0 R)
  else Ran (ran sg R).

Definition after (o : op) (R : regs) : regs :=
  match o with
  | Hook n sg once cont true => R ++ [mkReg n sg once cont false]
  | Hook _ _ _ _ false => R
  | Unhook n => filter (fun r => negb (Nat.eqb (id r) n)) R
  | Signal sg fatal true => R
  | Signal sg fatal false => map (use sg) R
  end.
Definition seen (o : op) (R : regs) : option event :=
  match o with Signal sg fatal fault => Some (happens sg fatal fault R) | _ => None end.

(** A new hook is not yet registered, one that is removed is.  Hooks for exits, those
    of signal 0, have no flags.  Signals whose number is divisible by 64 are excluded. *)
Definition allowed (o : op) (R : regs) : Prop :=
  match o with
  | Hook n sg once cont ok => ~ In n (map id R) /\ (sg = 0 -> once = false /\ cont = false)
  | Unhook n => In n (map id R)
  | Signal sg fatal fault => sg mod 64 <> 0
  end.

(** Running the code *)
Definition run (fuel : nat) (o : op) (s : state) : option (state * option event) :=
  match o with
  | Hook n sg once cont ok => option_map (fun s => (s, None)) (sighook s n sg once cont ok)
  | Unhook n => option_map (fun s => (s, None)) (sigunhook s n)
  | Signal sg fatal fault => option_map (fun '(s, e) => (s, Some e)) (sigdispatch fuel s sg fatal fault)
  end.

(** Histories end when the process dies. *)
Fixpoint run_all (fuel : nat) (os : list op) (s : state) : option (list (option event)) :=
  match os with
  | [] => Some []
  | o :: os => match run fuel o s with
               | None => None
               | Some (_, Some (Died a b)) => Some [Some (Died a b)]
               | Some (s, e) => option_map (cons e) (run_all fuel os s)
               end
  end.
Fixpoint seen_all (os : list op) (R : regs) : list (option event) :=
  match os with
  | [] => []
  | o :: os => match seen o R with
               | Some (Died a b) => [Some (Died a b)]
               | e => e :: seen_all os (after o R)
               end
  end.

(** Hooks share a list if the numbers of their signals are equal modulo 64. *)
Definition sharing (l : nat) (R : regs) : list nat := map id (filter (fun r => Nat.eqb (on r mod 64) l) R).

(** A history that avoids the defect of the removal: after the most recent hook of a
    list is removed while others of the list remain, none is registered on the list until it
    is empty.  [stale] are the lists in this condition. *)
Definition is_last (n : nat) (xs : list nat) : bool :=
  match rev xs with m :: _ => Nat.eqb m n | [] => false end.
Definition stale_after (o : op) (R : regs) (stale : nat -> bool) : nat -> bool :=
  match o with
  | Unhook n => fun l => match sharing l (after o R) with
                         | [] => false
                         | _ => stale l || is_last n (sharing l R)
                         end
  | _ => stale
  end.
Definition careful (o : op) (stale : nat -> bool) : Prop :=
  match o with Hook n sg _ _ true => stale (sg mod 64) = false | _ => True end.
Fixpoint allowed_all (os : list op) (R : regs) (stale : nat -> bool) : Prop :=
  match os with
  | [] => True
  | o :: os => allowed o R /\ careful o stale /\ allowed_all os (after o R) (stale_after o R stale)
  end.

(** Histories that are allowed, without care *)
Fixpoint all_allowed (os : list op) (R : regs) : Prop :=
  match os with [] => True | o :: os => allowed o R /\ all_allowed os (after o R) end.
