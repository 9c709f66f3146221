(** * The color that a file's extension gives it *)
From Coq Require Import String List NArith Arith Bool Init.Byte.
From Verif Require Import ExtModel.
Import ListNotations.
Local Open Scope nat_scope.

Definition suffix (a b : list byte) : Prop := exists c, b = c ++ a.
Definition lower_letter (c : byte) : byte :=
  match c with
  | x41 => x61
  | x42 => x62
  | x43 => x63
  | x44 => x64
  | x45 => x65
  | x46 => x66
  | x47 => x67
  | x48 => x68
  | x49 => x69
  | x4a => x6a
  | x4b => x6b
  | x4c => x6c
  | x4d => x6d
  | x4e => x6e
  | x4f => x6f
  | x50 => x70
  | x51 => x71
  | x52 => x72
  | x53 => x73
  | x54 => x74
  | x55 => x75
  | x56 => x76
  | x57 => x77
  | x58 => x78
  | x59 => x79
  | x5a => x7a
  | _ => c
  end.
Definition lower (s : list byte) : list byte := map lower_letter s.

Section Settings.
  (** What $LS_COLORS and $BFS_COLORS set, in order: *k=v:... *)
  Variable l : list (list byte * list byte).
  Definition set (i : nat) (k v : list byte) : Prop := nth_error l i = Some (k, v).

  (** ** What should happen *)

  (** An extension should be case-sensitive if it was also set in another case and for another color.
      Settings of the same extension replace each other. *)
  Definition effective (i : nat) (k v : list byte) : Prop := set i k v /\ forall j v', set j k v' -> j <= i.
  Definition contested (k : list byte) : Prop :=
    exists i j k' v v', effective i k v /\ effective j k' v' /\ k' <> k /\ lower k' = lower k /\ v <> v'.
  Definition should_match (k name : list byte) : Prop := suffix k name \/ suffix (lower k) (lower name) /\ ~ contested k.
  (** The last one that matches *)
  Definition intended (name : list byte) (color : option (list byte)) : Prop :=
    match color with
    | Some v => exists i k, set i k v /\ should_match k name /\ forall j k' v', i < j -> set j k' v' -> ~ should_match k' name
    | None => forall i k v, set i k v -> ~ should_match k name
    end.

  (** ** What happens *)

  (** A setting counts unless a later one is for an extension that it ends with. *)
  Definition alive (i : nat) (k v : list byte) : Prop := set i k v /\ forall j k' v', i < j -> set j k' v' -> ~ suffix k' k.
  (** Two settings that count, for the same extension up to case, with none in between *)
  Definition next (i j : nat) (v v' : list byte) : Prop :=
    i < j /\ exists k k', alive i k v /\ alive j k' v' /\ lower k = lower k' /\
      forall m k'' v'', i < m -> m < j -> alive m k'' v'' -> lower k'' <> lower k.
  (** A setting is case-sensitive if it or an earlier one has another color than the next one. *)
  Definition exact (i : nat) (k : list byte) : Prop :=
    exists a b ka va vb, a <= i /\ next a b va vb /\ set a ka va /\ lower ka = lower k /\ va <> vb.
  Definition matches (i : nat) (k name : list byte) : Prop := suffix k name \/ suffix (lower k) (lower name) /\ ~ exact i k.
  Definition chosen (name : list byte) (color : option (list byte)) : Prop :=
    match color with
    | Some v => exists i k, alive i k v /\ matches i k name /\ forall j k' v', i < j -> alive j k' v' -> ~ matches j k' name
    | None => forall i k v, alive i k v -> ~ matches i k name
    end.
End Settings.

(** File names have no NUL in them, so that settings for extensions with a NUL cannot matter. *)
Definition no_nul (s : list byte) : Prop := ~ In x00 s.
Definition has_nul (s : list byte) : bool := existsb (Byte.eqb x00) s.
Definition usable (l : list (list byte * list byte)) : list (list byte * list byte) := filter (fun kv => negb (has_nul (fst kv))) l.

(** When what happens is what should happen: extensions that are case-sensitive are set in two cases only, and
    no setting for an extension is hidden by one for a shorter extension if either is case-sensitive. *)
Record simple (l : list (list byte * list byte)) : Prop := {
  two_cases : forall i1 i2 i3 k1 k2 k3 v1 v2 v3, set l i1 k1 v1 -> set l i2 k2 v2 -> set l i3 k3 v3 ->
    lower k1 = lower k2 -> lower k2 = lower k3 -> contested l k1 -> k1 = k2 \/ k2 = k3 \/ k1 = k3;
  apart : forall i j k k' v v', i < j -> set l i k v -> set l j k' v' -> suffix k' k -> k' <> k -> ~ contested l k /\ ~ contested l k'
}.

(** Readable settings *)
Definition bytes (s : string) : list byte := list_byte_of_string s.
Fixpoint settings (l : list (string * string)) : list (list byte * list byte) :=
  match l with [] => [] | (k, v) :: l => (bytes k, bytes v) :: settings l end.
