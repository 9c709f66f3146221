(** * What modes mean: chmod in POSIX *)
From Coq Require Import List ZArith NArith Arith Bool.
From Coq Require Import Init.Byte Strings.Byte.
From Verif Require Import NumModel NumSpec PermModel.
Import ListNotations.

(** ** Syntax *)
Inductive class := User | Group | Other.
Inductive letter := Only (c : class) | All.
Inductive symbol := Sr | Sw | Sx | SX | Ss | St.
Inductive argument := Perms (l : list symbol) | Copy (c : class).
Inductive operator := Plus | Minus | Equals.
Definition action : Type := operator * argument.
Definition clause : Type := list letter * list action.

Definition class_char (c : class) : byte := match c with User => "u" | Group => "g" | Other => "o" end.
Definition letter_char (l : letter) : byte := match l with Only c => class_char c | All => "a" end.
Definition symbol_char (s : symbol) : byte :=
  match s with Sr => "r" | Sw => "w" | Sx => "x" | SX => "X" | Ss => "s" | St => "t" end.
Definition operator_char (o : operator) : byte := match o with Plus => "+" | Minus => "-" | Equals => "=" end.
Definition action_text (a : action) : list byte :=
  operator_char (fst a) :: match snd a with Perms l => map symbol_char l | Copy c => [class_char c] end.
Definition clause_text (c : clause) : list byte := map letter_char (fst c) ++ flat_map action_text (snd c).
Fixpoint mode_text (l : list clause) : list byte :=
  match l with
  | [] => []
  | [c] => clause_text c
  | c :: l => clause_text c ++ ","%byte :: mode_text l
  end.
(** There is a clause, and each has an action. *)
Definition well_formed (l : list clause) : Prop := l <> [] /\ Forall (fun c : clause => snd c <> []) l.

(** ** Meaning *)
Inductive perm := R | W | X.
Inductive bit := Perm (c : class) (p : perm) | Suid | Sgid | Sticky.
Definition bits : Type := bit -> bool.

Definition place (b : bit) : N :=
  match b with
  | Perm Other X => 0 | Perm Other W => 1 | Perm Other R => 2
  | Perm Group X => 3 | Perm Group W => 4 | Perm Group R => 5
  | Perm User X => 6 | Perm User W => 7 | Perm User R => 8
  | Sticky => 9 | Sgid => 10 | Suid => 11
  end%N.
Definition all_bits : list bit :=
  [Perm Other X; Perm Other W; Perm Other R; Perm Group X; Perm Group W; Perm Group R; Perm User X; Perm User W; Perm User R; Sticky; Sgid; Suid].
Definition number (m : bits) : N := fold_right (fun b n => (if m b then 2 ^ place b else 0) + n)%N 0%N all_bits.

Definition class_eqb (a b : class) : bool := match a, b with User, User | Group, Group | Other, Other => true | _, _ => false end.
Definition perm_eqb (a b : perm) : bool := match a, b with R, R | W, W | X, X => true | _, _ => false end.

(** The classes that the letters select: all without letters *)
Definition chosen (ls : list letter) (c : class) : bool :=
  match ls with [] => true | _ => existsb (fun l => match l with Only d => class_eqb c d | All => true end) ls end.
(** The bits of the chosen classes *)
Definition of_who (ls : list letter) (b : bit) : bool :=
  match b with Perm c _ => chosen ls c | Suid => chosen ls User | Sgid => chosen ls Group | Sticky => chosen ls Other end.
(** Without letters, the permissions in the umask are left alone. *)
Definition unmasked (umask : bits) (ls : list letter) (b : bit) : bool :=
  match ls with [] => negb (umask b) | _ => true end.

(** The bits that a symbol stands for.  X is x for directories, and for files that are
    executable, which a mode of 0 is not. *)
Definition symbol_bit (dir : bool) (s : symbol) (b : bit) : bool :=
  match s, b with
  | Sr, Perm _ R => true
  | Sw, Perm _ W => true
  | Sx, Perm _ X => true
  | SX, Perm _ X => dir
  | Ss, Suid => true
  | Ss, Sgid => true
  | St, Sticky => true
  | _, _ => false
  end.
Definition argument_bit (dir : bool) (m : bits) (a : argument) (b : bit) : bool :=
  match a with
  | Perms l => existsb (fun s => symbol_bit dir s b) l
  | Copy c => match b with Perm _ p => m (Perm c p) | _ => false end
  end.
Definition is_perm (b : bit) : bool := match b with Perm _ _ => true | _ => false end.
Definition change (dir : bool) (umask : bits) (ls : list letter) (m : bits) (a : argument) (b : bit) : bool :=
  argument_bit dir m a b && of_who ls b && (negb (is_perm b) || unmasked umask ls b).

Definition chmod_action (dir : bool) (umask : bits) (ls : list letter) (m : bits) (a : action) : bits :=
  let ch := change dir umask ls m (snd a) in
  match fst a with
  | Plus => fun b => m b || ch b
  | Minus => fun b => m b && negb (ch b)
  | Equals => fun b => m b && negb (of_who ls b) || ch b
  end.
Definition chmod_clause (dir : bool) (umask : bits) (m : bits) (c : clause) : bits :=
  fold_left (chmod_action dir umask (fst c)) (snd c) m.
Definition chmod (dir : bool) (umask : bits) (l : list clause) (m : bits) : bits := fold_left (chmod_clause dir umask) l m.
Definition no_bits : bits := fun _ => false.
Definition bits_of (n : N) : bits := fun b => N.testbit n (place b).

(** ** Where the program agrees *)

(** = only meets modes in which no special bit of the chosen classes is set. *)
Fixpoint equals_ok_actions (dir : bool) (umask : bits) (ls : list letter) (l : list action) (m : bits) : Prop :=
  match l with
  | [] => True
  | a :: l => (fst a = Equals -> forall b, is_perm b = false -> of_who ls b = true -> m b = false) /\
              equals_ok_actions dir umask ls l (chmod_action dir umask ls m a)
  end.
Fixpoint equals_ok (dir : bool) (umask : bits) (l : list clause) (m : bits) : Prop :=
  match l with
  | [] => True
  | c :: l => equals_ok_actions dir umask (fst c) (snd c) m /\ equals_ok dir umask l (chmod_clause dir umask m c)
  end.
(** There is no umask, or clauses without letters have only one action. *)
Definition umask_ok (umask : bits) (l : list clause) : Prop :=
  (forall b, is_perm b = true -> umask b = false) \/ Forall (fun c : clause => fst c = [] -> length (snd c) <= 1) l.

(** An octal number *)
Definition octal (s : list byte) (n : N) : Prop :=
  s <> [] /\ Forall (is_digit_of 8) s /\ value 8 s = Z.of_N n /\ (n <= 4095)%N.

(** ** -perm *)
(** What the argument of -perm asks for, and the mode in it *)
Definition starts_with_digit (s : list byte) : Prop := exists c t, s = c :: t /\ is_digit_of 10 c.
Definition asks (s : list byte) (cmp : mode_cmp) (t : list byte) : Prop :=
  match cmp with
  | BFS_MODE_ALL => s = "-"%byte :: t
  | BFS_MODE_ANY => s = "/"%byte :: t \/ s = "+"%byte :: t /\ starts_with_digit t
  | BFS_MODE_EQUAL => s = t /\ ~ (exists u, s = "-"%byte :: u \/ s = "/"%byte :: u \/ s = "+"%byte :: u /\ starts_with_digit u)
  end.
(** Whether a file that has some bits has the bits that are wanted *)
Definition granted (cmp : mode_cmp) (want have : bits) : Prop :=
  match cmp with
  | BFS_MODE_EQUAL => forall b, have b = want b
  | BFS_MODE_ALL => forall b, want b = true -> have b = true
  | BFS_MODE_ANY => (exists b, want b = true /\ have b = true) \/ (forall b, want b = false)
  end.
