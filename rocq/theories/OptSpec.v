(** * What the tests of an expression say about a file

    This is the meaning of the primaries (src/eval.c), independent of the
    optimizer.  It is used to state that the data flow analysis is sound. *)
From Coq Require Import List ZArith Bool.
From Verif Require Import ExprModel.
Import ListNotations.
Local Open Scope Z_scope.

(** The attributes of a file that stat() and friends report successfully. *)
Record file := mkFile {
  f_access : access_mode -> bool;
  f_acl : bool;
  f_capable : bool;
  f_hidden : bool;
  f_nogroup : bool;
  f_nouser : bool;
  f_sparse : bool;
  f_xattr : bool;
  f_emptydir : bool;
  f_depth : Z;
  f_gid : Z;
  f_ino : Z;
  f_dev : Z;
  f_nlink : Z;
  f_size : Z;
  f_uid : Z;
  f_type : N;
  f_xtype : N;
  f_lname : bool -> nat -> bool
}.

(** src/eval.c 145-157, bfs_expr_cmp *)
Definition expr_cmp (c : int_cmp) (num n : Z) : bool :=
  match c with
  | CmpEqual => n =? num
  | CmpLess => n <? num
  | CmpGreater => num <? n
  end.

(** src/eval.c 954-963 *)
Definition scale (u : size_unit) : Z :=
  match u with
  | UBlocks => 512 | UBytes => 1 | UWords => 2
  | UKB => 2 ^ 10 | UMB => 2 ^ 20 | UGB => 2 ^ 30 | UTB => 2 ^ 40 | UPB => 2 ^ 50
  end.

(** src/eval.c 966: the size in units, rounded up.  (The addition cannot
    overflow for sizes below 2^63 - 2^50; see the hypothesis [wf_file].) *)
Definition size_in (u : size_unit) (n : Z) : Z := (n + scale u - 1) / scale u.

(** src/eval.c 457-494 *)
Definition file_empty (f : file) : bool :=
  match f_type f with
  | 8%N (* BFS_REG *) => f_size f =? 0
  | 3%N (* BFS_DIR *) => f_emptydir f
  | _ => false
  end.

(** The value of a test that depends on the file's attributes alone; [None]
    for actions and for tests the optimizer knows nothing about. *)
Definition file_val (f : file) (l : leaf) : option bool :=
  match l with
  | LTrue => Some true
  | LFalse => Some false
  | LAccess m => Some (f_access f m)
  | LAcl => Some (f_acl f)
  | LCapable => Some (f_capable f)
  | LEmpty => Some (file_empty f)
  | LHidden => Some (f_hidden f)
  | LNogroup => Some (f_nogroup f)
  | LNouser => Some (f_nouser f)
  | LSparse => Some (f_sparse f)
  | LXattr => Some (f_xattr f)
  | LDepth c n => Some (expr_cmp c n (f_depth f))
  | LGid c n => Some (expr_cmp c n (f_gid f))
  | LInum c n => Some (expr_cmp c n (f_ino f))
  | LLinks c n => Some (expr_cmp c n (f_nlink f))
  | LSize u c n => Some (expr_cmp c n (size_in u (f_size f)))
  | LUid c n => Some (expr_cmp c n (f_uid f))
  | LLname lit id => Some ((f_type f =? 6)%N (* BFS_LNK *) && f_lname f lit id)
  | LSamefile dev ino => Some ((f_dev f =? dev) && (f_ino f =? ino))
  | LType m => Some (N.testbit m (f_type f))
  | LXtype m => Some (N.testbit m (f_xtype f))
  | _ => None
  end.

(** The tests behave as [f] says, whatever has happened before: the file does
    not change while it is being evaluated. *)
Definition about (f : file) (b : behaviour) : Prop :=
  forall l v h, file_val f l = Some v -> val b l h = v.

(** The file changes while it is being evaluated: it is as [f] says until a command of -exec has
    run, and as [g] says afterwards. *)
Definition becomes (f g : file) (b : behaviour) : Prop :=
  forall l v h, file_val (if existsb (fun e => match e with LExec _ => true | _ => false end) h then g else f) l = Some v ->
    val b l h = v.

(** The tests that need stat(), and what they are when it fails (src/eval.c 127-141: they report
    that and are false). *)
Definition needs_stat (l : leaf) : bool :=
  match l with
  | LNogroup | LNouser | LSparse | LGid _ _ | LInum _ _ | LLinks _ _ | LSize _ _ _ | LUid _ _ | LSamefile _ _ => true
  | _ => false
  end.
(** The directory of [f] can be listed but not searched, so the file cannot be examined. *)
Definition hidden_away (f : file) (b : behaviour) : Prop :=
  forall l v h, (if needs_stat l then Some false else file_val f l) = Some v -> val b l h = v.

(** The attributes of a file fit their C types.  Inode numbers at or above
    2^63 are excluded: eval_inum converts them to long long. *)
Definition wf_file (f : file) : Prop :=
  0 <= f_depth f < 2 ^ 31 /\
  0 <= f_gid f < 2 ^ 32 /\
  0 <= f_ino f < 2 ^ 63 /\
  0 <= f_nlink f < 2 ^ 63 /\
  0 <= f_size f < 2 ^ 62 /\
  0 <= f_uid f < 2 ^ 32 /\
  (f_type f < 32)%N /\ (f_xtype f < 32)%N.

(** ** Expressions that the data flow analysis treats correctly

    [tame level udb gdb f u l]: primary [l], evaluated on file [f] at
    optimization level [level], is not affected by the known faults of the
    analysis.  The numbers fit long long.  All -size tests use the unit [u].  A
    -samefile test that compares different devices also compares different inode
    numbers.  -uid and -gid are only used if the user and group databases
    cannot be read ([udb] and [gdb] are the databases).  -empty is not used at -O4. *)
Definition int64 (n : Z) : Prop := - 2 ^ 63 <= n < 2 ^ 63.
Definition tame (level : nat) (udb gdb : Z -> option bool) (f : file) (u : size_unit) (l : leaf) : Prop :=
  match l with
  | LDepth _ n | LInum _ n | LLinks _ n => int64 n
  | LSize v _ n => v = u /\ int64 n
  | LSamefile dev ino => int64 ino /\ (f_dev f = dev \/ f_ino f <> ino)
  | LUid _ n => int64 n /\ forall id, udb id = None
  | LGid _ n => int64 n /\ forall id, gdb id = None
  | LEmpty => (level < 4)%nat
  | _ => True
  end.

(** Every primary of [e] satisfies [P], and [e] has no comma operator. *)
Section Primaries.
  Variable P : leaf -> Prop.
  Fixpoint made_of {F} (e : expr F) : Prop :=
    match e with
    | Leaf _ l => P l
    | Node _ o cs =>
        o <> OComma /\
        (fix all l := match l with [] => True | c :: l' => made_of c /\ all l' end) cs
    end.
End Primaries.
