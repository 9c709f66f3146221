(** * What -unique, -mindepth and -maxdepth mean *)
From Coq Require Import List ZArith NArith Arith Bool.
From Coq Require Import Init.Byte.
From Verif Require Import TrieModel CbModel WalkSpec.
Import ListNotations.

(** ** -unique *)

(** A call whose file is subject to -unique: its identity, if it can be found out *)
Definition subject (fw : file * world) : option (N * N) :=
  let '(f, w) := fw in
  if is_error f then None else match f_visit f with Pre => stat w | Post => None end.

(** Identities that fit in dev_t and ino_t *)
Definition fits (fw : file * world) : Prop :=
  match stat (snd fw) with Some (dev, ino) => (dev < 2 ^ 64 /\ ino < 2 ^ 64)%N | None => True end.

(** No allocation fails in a call. *)
Definition plenty (fw : file * world) : Prop :=
  a_leaf (mem (snd fw)) = true /\ (forall n, a_jump (mem (snd fw)) n = true) /\ a_node (mem (snd fw)) = true.
(** One may fail. *)
Definition scarce (fw : file * world) : Prop :=
  a_leaf (mem (snd fw)) = false \/ (exists n, a_jump (mem (snd fw)) n = false) \/ a_node (mem (snd fw)) = false.

(** A file with this identity was subject to -unique before. *)
Definition met (before : list (file * world)) (id : N * N) : Prop :=
  exists fw, In fw before /\ subject fw = Some id.

(** The outcome of a call with a memory [ids] of identities, and the memory after it *)
Definition judged (c : ctx) (ids : list (N * N)) (fw : file * world) (r : outcome * action) (ids' : list (N * N)) : Prop :=
  let '(f, w) := fw in
  if is_error f then r = (Errored, Prune) /\ ids' = ids
  else match f_visit f with
       | Post => r = eval_file c f w /\ ids' = ids
       | Pre => match stat w with
                | None => r = (Unknown, Continue) /\ ids' = ids
                | Some id =>
                    (In id ids /\ r = (Duplicate, Prune) /\ ids' = ids) \/
                    (~ In id ids /\ r = eval_file c f w /\ ids' = id :: ids) \/
                    (~ In id ids /\ scarce fw /\ r = (Unknown, Continue) /\ ids' = ids)
                end
       end.

Inductive judged_all (c : ctx) : list (N * N) -> list (file * world) -> list (outcome * action) -> Prop :=
| j_nil ids : judged_all c ids [] []
| j_cons ids fw r ids' calls rs :
    judged c ids fw r ids' -> judged_all c ids' calls rs -> judged_all c ids (fw :: calls) (r :: rs).

(** ** -mindepth and -maxdepth *)

Section Depth.
Context {A : Type}.
(** Files: whether they are directories, their paths, and how the world answers for each *)
Variable dir : A -> bool.
Variable path : A -> list byte.
Variable answers : A -> world.
Variable c : ctx.

(** What eval_callback() does when the walk visits [a] at depth [d] *)
Definition visited (v : visit) (d : N) (a : A) : outcome * action :=
  eval_file c (mkFile false (dir a) d v (path a)) (answers a).

Definition continues (v : visit) (d : N) (a : A) : bool :=
  match snd (visited v d a) with Continue => true | _ => false end.

(** The visits of a walk of a tree whose root is at depth [d]: each file before what is in it,
    which is only visited if the callback says so; then, with -depth, once more. *)
Fixpoint walk (d : N) (t : tree A) : list (visit * N * A) :=
  let '(Node a kids) := t in
  (Pre, d, a) ::
  (if dir a && continues Pre d a then flat_map (walk (d + 1)) kids else []) ++
  (if post_order c && (ids c || dir a) && continues Pre d a then [(Post, d, a)] else []).

(** The files for which the expression is evaluated *)
Definition evaluated (visits : list (visit * N * A)) : list (N * A) :=
  map (fun x => (snd (fst x), snd x))
    (filter (fun '(v, d, a) => match fst (visited v d a) with Evaluated => true | _ => false end) visits).

(** The characters that xargs does not take literally: blanks, newlines, quotes and backslashes *)
Definition xargs_special (b : byte) : bool :=
  match b with x20 | x09 | x0a | x27 | x22 | x5c => true | _ => false end.

(** A file is dropped: by -exclude, or because of -X. *)
Definition dropped (a : A) : bool :=
  fst (exclude (answers a) Continue) || xargs_safe c && existsb xargs_special (path a).

(** The expression prunes a file. *)
Definition prunes (a : A) : bool :=
  match expr (answers a) Continue with Continue => false | _ => true end.

Definition within (d : N) : bool := (Z.leb (mindepth c) (Z.of_N d) && Z.leb (Z.of_N d) (maxdepth c))%bool.

(** The files that should be selected: those whose depth is within the limits, below
    directories that were not dropped, nor pruned by the expression.  (With -depth, -prune has
    no effect.) *)
Fixpoint selected (d : N) (t : tree A) : list (N * A) :=
  let '(Node a kids) := t in
  if dropped a then []
  else
    (if within d then [(d, a)] else []) ++
    (if dir a && Z.ltb (Z.of_N d) (maxdepth c) && negb (within d && negb (post_order c) && prunes a)
     then flat_map (selected (d + 1)) kids else []).

(** The limits are as the options set them, or their defaults; the search is not stopped;
    neither expression undoes -prune, and -exclude has no effect on the action. *)
Definition limits : Prop := (0 <= mindepth c < 2 ^ 31 /\ 0 <= maxdepth c < 2 ^ 31)%Z.
Definition tame (w : world) : Prop :=
  (forall b act, exclude w Continue = (b, act) -> act = Continue) /\
  (expr w Continue = Continue \/ expr w Continue = Prune) /\ expr w Prune = Prune.
End Depth.
