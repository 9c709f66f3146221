(** * What output files and the exit status mean *)
From Coq Require Import List Arith ZArith Bool Init.Byte.
From Verif Require Import OutModel.
Import ListNotations.
Local Open Scope nat_scope.

(** What an event prints to the stream [k], if nothing fails *)
Definition prints (k : nat) (e : event) : list byte :=
  match e with
  | Print k' l _ => if k' =? k then concat (map fst l) else []
  | Error m | Warning m | Failure m => if k =? cerr then fst m else []
  | Command _ _ | Exit _ => []
  end.
Definition written (k : nat) (l : list event) : list byte := concat (map (prints k) l).

(** No action fails to print. *)
Definition prints_fine (e : event) : Prop :=
  match e with Print _ l _ => Forall (fun x => succeeds (snd x) = true) l | _ => True end.
(** No call fails at all, and there is no other error. *)
Definition fine (e : event) : Prop :=
  match e with
  | Print _ l _ => Forall (fun x => succeeds (snd x) = true) l
  | Warning m => succeeds (snd m) = true
  | Command o _ => forall k, succeeds (o k) = true
  | Error _ | Failure _ => False
  | Exit n => n = EXIT_SUCCESS
  end.
(** -exit is not used to report success after an action has failed to print; nor with a multiple of 256. *)
Definition honest (l : list event) : Prop :=
  forall before n after, l = before ++ Exit n :: after -> (n mod 256 = 0)%Z -> n = EXIT_SUCCESS /\ Forall prints_fine before.
(** Actions only use standard output and the files that were opened for them. *)
Definition uses (ks : list nat) (l : list event) : Prop :=
  forall k d m, In (Print k d m) l -> k = cout \/ In k ks.
(** Some of the bytes, in the same order *)
Inductive some_of : list byte -> list byte -> Prop :=
| so_nil : some_of [] []
| so_keep b l l' : some_of l l' -> some_of (b :: l) (b :: l')
| so_skip b l l' : some_of l l' -> some_of l (b :: l').
