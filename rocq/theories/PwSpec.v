(** * The cache as a database *)
From Coq Require Import List NArith Arith Bool.
From Coq Require Import Init.Byte.
From Verif Require Import TrieModel TrieSpec PwModel.
Import ListNotations.

Section Spec.
Variable account : Type.

(** The system database *)
Record database := mkDb { named : list byte -> option account; numbered : N -> option account }.

(** Lookups, with the answers of the system to the calls they may make *)
Inductive op :=
| ByName (a : allocs) (mem : bool) (ask : list (answer account)) (name : list byte)
| ById (a : allocs) (mem : bool) (ask : list (answer account)) (id : N)
| Flush.

(** What the database says about an operation *)
Definition truth (db : database) (o : op) : option account :=
  match o with ByName _ _ _ n => named db n | ById _ _ _ i => numbered db i | Flush => None end.

(** The system answers according to an entry, and does not ask for larger buffers for ever. *)
Definition faithful (t : option account) (ask : list (answer account)) : Prop :=
  (forall x, In (Entry x) ask -> t = Some x) /\ (In NoEntry ask -> t = None) /\
  (exists r, In r ask /\ r <> Small true).

Definition valid (db : database) (o : op) : Prop :=
  match o with
  | ByName a mem ask n => nul_free n /\ faithful (truth db o) ask
  | ById a mem ask i => (i < 2 ^ 32)%N /\ faithful (truth db o) ask
  | Flush => True
  end.

(** Something that the operation needed was refused. *)
Definition refused (o : op) : Prop :=
  match o with
  | ByName a mem ask _ | ById a mem ask _ =>
      (a_leaf a = false \/ (exists n, a_jump a n = false) \/ a_node a = false) \/
      mem = false \/ In (Small false) ask \/ In Error ask
  | Flush => False
  end.

(** The result of an operation is that of the database. *)
Definition correct (db : database) (o : op) (r : result account) : Prop :=
  match r with
  | Hit x => truth db o = Some x
  | Miss => truth db o = None
  | Failed => refused o
  end.

Definition run (omax : nat) (o : op) (c : cache account) : option (cache account * result account) :=
  match o with
  | ByName a mem ask n => lookup_name account omax a mem ask c n
  | ById a mem ask i => lookup_id account omax a mem ask c i
  | Flush => Some (flush account c, Miss)
  end.

(** The caches reached by valid operations *)
Inductive history (omax : nat) (db : database) : cache account -> Prop :=
| h_new : history omax db (cache_new account)
| h_step c o c' r : history omax db c -> valid db o -> run omax o c = Some (c', r) -> history omax db c'.

(** The same lookup, with other answers of the system *)
Definition same_lookup (o o' : op) : Prop :=
  match o, o' with
  | ByName _ _ _ n, ByName _ _ _ n' => n = n'
  | ById _ _ _ i, ById _ _ _ i' => i = i'
  | _, _ => False
  end.

(** Running several operations *)
Fixpoint run_all (omax : nat) (os : list op) (c : cache account) : option (cache account * list (result account)) :=
  match os with
  | [] => Some (c, [])
  | o :: os => match run omax o c with
               | None => None
               | Some (c, r) => match run_all omax os c with
                                | None => None
                                | Some (c, rs) => Some (c, r :: rs)
                                end
               end
  end.
End Spec.
