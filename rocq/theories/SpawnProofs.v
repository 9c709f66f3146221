(** * Proofs about spawning processes *)
From Coq Require Import List Bool Arith ZArith Lia ZifyBool Init.Byte Strings.Byte.
From Verif Require Import SpawnModel SpawnSpec.
Import ListNotations.

(** ** Setting up *)

Definition action_of (q : request) : action :=
  match q with
  | Open fd path => mkAction (SPAWN_OPEN path) (-1) (Z.of_nat fd)
  | Close fd => mkAction SPAWN_CLOSE (-1) (Z.of_nat fd)
  | Dup2 a b => mkAction SPAWN_DUP2 (Z.of_nat a) (Z.of_nat b)
  | Fchdir fd => mkAction SPAWN_FCHDIR (Z.of_nat fd) (-1)
  | Setrlimit r v => mkAction (SPAWN_SETRLIMIT r v) (-1) (-1)
  end.

Lemma set_up_ok hf l : forall c, let c' := fold_left (set_up hf) l c in
  actions c' = actions c ++ map action_of l /\ use_path c' = use_path c /\
  (posix c' = None \/ exists l0, posix c = Some l0 /\ posix c' = Some (l0 ++ l)).
Proof.
  induction l as [|q l IH]; intros c; cbn [fold_left map].
  - rewrite app_nil_r. repeat split. destruct (posix c) as [l0|]; [right; exists l0; rewrite app_nil_r; auto|auto].
  - destruct (IH (set_up hf c q)) as (A & U & P).
    assert (A1 : actions (set_up hf c q) = actions c ++ [action_of q]) by (destruct q; cbn; try reflexivity; destruct hf; reflexivity).
    assert (U1 : use_path (set_up hf c q) = use_path c) by (destruct q; cbn; try reflexivity; destruct hf; reflexivity).
    assert (P1 : posix (set_up hf c q) = None \/ exists l0, posix c = Some l0 /\ posix (set_up hf c q) = Some (l0 ++ [q])).
    { destruct q; cbn; auto; try destruct hf; cbn; auto; destruct (posix c) as [l0|]; auto; right; exists l0; auto. }
    rewrite A, A1, U, U1, <- app_assoc. repeat split. destruct P as [P | (l1 & P2 & P3)]; [auto|]. destruct P1 as [P1 | (l0 & P4 & P5)]; [congruence|].
    right. exists l0. split; [exact P4|]. rewrite P3. f_equal. rewrite P5 in P2. injection P2 as <-. rewrite <- app_assoc. reflexivity.
Qed.

(** ** Descriptors *)

Lemma get_nat p n : get_fd p (Z.of_nat n) = fds p n.
Proof. unfold get_fd. replace (Z.of_nat n <? 0)%Z with false by lia. rewrite Nat2Z.id. reflexivity. Qed.
Lemma set_same p n d : fds (set_fd p n d) n = d.
Proof. cbn. rewrite Nat.eqb_refl. reflexivity. Qed.
Lemma set_other p n d i : i <> n -> fds (set_fd p n d) i = fds p i.
Proof. intros N. cbn. destruct (Nat.eqb_spec i n); [congruence|reflexivity]. Qed.
Lemma lowest_free p n : lowest p = Some n -> fds p n = None /\ n < limits p RLIMIT_NOFILE.
Proof. unfold lowest. intros F. apply find_some in F as (I & F). apply in_seq in I. destruct (fds p n); [discriminate|]. split; [reflexivity|lia]. Qed.
Lemma lowest_none p n : lowest p = None -> n < limits p RLIMIT_NOFILE -> fds p n <> None.
Proof. unfold lowest. intros F L Z. assert (I : In n (seq 0 (limits p RLIMIT_NOFILE))) by (apply in_seq; lia). pose proof (find_none _ _ F n I) as Y. cbn in Y. rewrite Z in Y. discriminate. Qed.

Definition seen (d : option desc) : option (nat * bool) := match d with Some d => Some (obj d, cloexec d) | None => None end.

Section Child.
  Variables access runnable : nat -> list byte -> bool.
  Variable opens : nat -> list byte -> option nat.
  Variable directory : nat -> option nat.
  Variable allowed : nat -> nat -> bool.
  Variable wr : nat.
  Variable p0 : proc.

  Record inv (p : proc) (pipe : nat) (w : image) : Prop := {
    i_pipe : fds p pipe = Some (mkDesc wr true);
    i_hidden : files w pipe = None;
    i_files : forall i, i <> pipe -> seen (fds p i) = files w i;
    i_cwd : cwd p = dir w;
    i_lim : forall r, limits p r = lim w r;
    i_blocked : blocked p = blocked p0;
    i_handled : handled p = handled p0;
    i_disturbed : disturbed p = disturbed p0 }.

  Lemma inv_put p pipe w i d : inv p pipe w -> i <> pipe -> inv (set_fd p i d) pipe (put w i (seen d)).
  Proof.
    intros [A B C D E F G H] N. constructor; auto.
    - rewrite set_other; auto.
    - cbn. destruct (Nat.eq_dec pipe i); [congruence|exact B].
    - intros j J. cbn. destruct (Nat.eq_dec j i) as [->|M]; [rewrite Nat.eqb_refl; reflexivity|]. destruct (Nat.eqb_spec j i); [congruence|]. apply C, J.
  Qed.

  Lemma move_ok p pipe w a : inv p pipe w ->
    match move_pipe p pipe a with
    | Ok (p', pipe') => inv p' pipe' w /\ (out_fd a <> Z.of_nat pipe')
    | Err e => lowest p = None
    end.
  Proof.
    intros I. unfold move_pipe. destruct (Z.eqb_spec (out_fd a) (Z.of_nat pipe)) as [E|E]; [|split; [exact I|exact E]].
    unfold dup_cloexec. rewrite (i_pipe _ _ _ I). destruct (lowest p) as [new|] eqn:L; [|reflexivity].
    destruct (lowest_free _ _ L) as (FR & _). assert (N : new <> pipe) by (intros ->; rewrite (i_pipe _ _ _ I) in FR; discriminate).
    destruct I as [A B C D E' F G H]. split; [|rewrite E; lia]. constructor; auto.
    - rewrite set_other by exact N. apply set_same.
    - rewrite <- (C new N), FR. reflexivity.
    - intros i J. destruct (Nat.eq_dec i pipe) as [->|M]; [rewrite set_same, B; reflexivity|]. rewrite !set_other by assumption. apply C, M.
  Qed.

  Lemma seen_some d o b : seen d = Some (o, b) <-> d = Some (mkDesc o b).
  Proof. destruct d as [[o' b']|]; cbn; split; congruence. Qed.

  (** An action of the child does what POSIX says *)
  Lemma op_ok p pipe w q : inv p pipe w -> plain q -> out_fd (action_of q) <> Z.of_nat pipe ->
    match run_action opens directory allowed p pipe (action_of q) with
    | Ok p' => exists w', perform opens directory allowed w q = Some w' /\ inv p' pipe w'
    | Err _ => perform opens directory allowed w q = None
    end.
  Proof.
    intros I PL O. unfold run_action. destruct (Z.eqb_spec (in_fd (action_of q)) (Z.of_nat pipe)) as [E|E].
    - destruct q; cbn in E; try lia; assert (E' : pipe = _) by (apply Nat2Z.inj; symmetry; exact E); subst pipe; cbn [perform]; rewrite (i_hidden _ _ _ I); reflexivity.
    - destruct q as [fd path|fd|a b|fd|r v]; cbn [action_of in_fd out_fd] in *; [destruct PL| | | |]; unfold run_op; cbn [a_op in_fd out_fd action_of perform].
      + unfold k_close. rewrite get_nat. assert (N : fd <> pipe) by (intros ->; congruence). rewrite <- (i_files _ _ _ I fd N). destruct (fds p fd) as [d|]; cbn [seen]; [|reflexivity].
        eexists. split; [reflexivity|]. rewrite Nat2Z.id. apply (inv_put _ _ _ fd None); assumption.
      + unfold k_dup2. rewrite get_nat. assert (N : a <> pipe) by (intros ->; congruence). assert (N' : b <> pipe) by (intros ->; congruence).
        rewrite <- (i_files _ _ _ I a N). destruct (fds p a) as [d|]; cbn [seen]; [|reflexivity].
        replace (Z.of_nat b <? 0)%Z with false by lia. cbn [orb]. rewrite Nat2Z.id, (i_lim _ _ _ I). cbn in PL.
        destruct (Nat.leb_spec (lim w RLIMIT_NOFILE) b); [replace (b <? lim w RLIMIT_NOFILE) with false by lia; reflexivity|].
        replace (b <? lim w RLIMIT_NOFILE) with true by lia. replace (Z.of_nat a =? Z.of_nat b)%Z with false by lia.
        eexists. split; [reflexivity|]. apply (inv_put _ _ _ b (Some (mkDesc (obj d) false))); assumption.
      + unfold k_fchdir. rewrite get_nat. assert (N : fd <> pipe) by (intros ->; congruence). rewrite <- (i_files _ _ _ I fd N). destruct (fds p fd) as [d|]; cbn [seen]; [|reflexivity].
        destruct (directory (obj d)) as [x|]; [|reflexivity]. eexists. split; [reflexivity|]. destruct I as [A B C D E' F G H]. constructor; auto.
      + unfold k_setrlimit. destruct (allowed r v); [|reflexivity]. eexists. split; [reflexivity|]. destruct I as [A B C D E' F G H]. constructor; auto.
        intros i. cbn. destruct (Nat.eq_dec i r) as [->|M]; [rewrite Nat.eqb_refl; reflexivity|]. destruct (Nat.eqb_spec i r); [congruence|apply E'].
  Qed.

  (** Enough descriptors are left for the pipe. *)
  Definition room (n : nat) (w : image) (l : list request) : Prop :=
    (forall fd, n <= fd -> files w fd = None) /\ n + 2 <= lim w RLIMIT_NOFILE /\
    forall q, In q l -> match q with
                        | Open fd _ | Close fd | Fchdir fd => fd < n
                        | Dup2 a b => a < n /\ b < n
                        | Setrlimit r v => r = RLIMIT_NOFILE -> n + 2 <= v
                        end.

  Lemma room_step n w q l w' : room n w (q :: l) -> perform opens directory allowed w q = Some w' -> room n w' l.
  Proof.
    intros (A & B & C) P. pose proof (C q (or_introl eq_refl)) as Q. split; [|split; [|intros x X; apply C; right; exact X]].
    - intros fd L. destruct q as [a path|a|a b|a|r v]; cbn [perform] in P.
      + destruct (opens _ _); [|discriminate]. destruct (_ <? _); [|discriminate]. injection P as <-. cbn. destruct (Nat.eq_dec fd a); [lia|apply A, L].
      + destruct (files w a); [|discriminate]. injection P as <-. cbn. destruct (Nat.eq_dec fd a); [reflexivity|apply A, L].
      + destruct (files w a) as [(o & ?)|]; [|discriminate]. destruct (_ <? _); [|discriminate]. injection P as <-. cbn. destruct (Nat.eq_dec fd b); [lia|apply A, L].
      + destruct (files w a) as [(o & ?)|]; [|discriminate]. destruct (directory o); [|discriminate]. injection P as <-. apply A, L.
      + destruct (allowed r v); [|discriminate]. injection P as <-. apply A, L.
    - destruct q as [a path|a|a b|a|r v]; cbn [perform] in P.
      + destruct (opens _ _); [|discriminate]. destruct (_ <? _); [|discriminate]. injection P as <-. exact B.
      + destruct (files w a); [|discriminate]. injection P as <-. exact B.
      + destruct (files w a) as [(o & ?)|]; [|discriminate]. destruct (_ <? _); [|discriminate]. injection P as <-. exact B.
      + destruct (files w a) as [(o & ?)|]; [|discriminate]. destruct (directory o); [|discriminate]. injection P as <-. exact B.
      + destruct (allowed r v); [|discriminate]. injection P as <-. cbn [lim]. destruct (Nat.eq_dec RLIMIT_NOFILE r); [apply Q; congruence|exact B].
  Qed.

  Lemma room_lowest n p pipe w l : inv p pipe w -> room n w l -> lowest p <> None.
  Proof.
    intros I (A & B & _) L. assert (E : exists i, n <= i /\ i <= n + 1 /\ i <> pipe). { destruct (Nat.eq_dec pipe n) as [->|]; [exists (n + 1); lia|exists n; lia]. }
    destruct E as (i & E1 & E2 & E3). apply (lowest_none p i L); [rewrite (i_lim _ _ _ I); lia|]. pose proof (i_files _ _ _ I i E3) as F. rewrite (A i E1) in F. destruct (fds p i); [discriminate|reflexivity].
  Qed.

  Lemma actions_ok l : forall p pipe w, inv p pipe w -> Forall plain l ->
    let '(p', pipe', failed) := run_actions opens directory allowed p pipe (map action_of l) in
    fds p' pipe' = Some (mkDesc wr true) /\
    match failed with
    | None => exists w', performs opens directory allowed w l = Some w' /\ inv p' pipe' w'
    | Some _ => forall n, room n w l -> performs opens directory allowed w l = None
    end.
  Proof.
    induction l as [|q l IH]; intros p pipe w I PL; cbn [map run_actions performs].
    - split; [apply I|]. exists w. auto.
    - inversion PL as [|? ? P1 P2]; subst. pose proof (move_ok p pipe w (action_of q) I) as M. destruct (move_pipe p pipe (action_of q)) as [(p1 & pipe1)|e].
      + destruct M as (I1 & O). pose proof (op_ok p1 pipe1 w q I1 P1 O) as R. destruct (run_action opens directory allowed p1 pipe1 (action_of q)) as [p2|e].
        * destruct R as (w' & E & I2). specialize (IH p2 pipe1 w' I2 P2). destruct (run_actions _ _ _ p2 pipe1 (map action_of l)) as ((p3 & pipe3) & failed). destruct IH as (A & B). split; [exact A|].
          rewrite E. destruct failed; [|exact B]. intros n RM. apply (B n), (room_step n w q l w' RM E).
        * split; [apply I1|]. intros n _. rewrite R. reflexivity.
      + split; [apply I|]. intros n RM. destruct (room_lowest n p pipe w _ I RM M).
  Qed.
End Child.

(** ** $PATH *)

Lemma strchr_split s c : match strchr s c with
  | None => existsb (Byte.eqb c) s = false
  | Some rest => exists x r, s = x ++ rest /\ rest = c :: r /\ existsb (Byte.eqb c) x = false
  end.
Proof.
  assert (SY : forall x y, Byte.eqb x y = Byte.eqb y x). { intros x y. destruct (Byte.eqb x y) eqn:E. - apply byte_dec_bl in E. subst. symmetry. apply byte_dec_lb. reflexivity. - destruct (Byte.eqb y x) eqn:F; [|reflexivity]. apply byte_dec_bl in F. subst. rewrite byte_dec_lb in E by reflexivity. discriminate. }
  induction s as [|x s IH]; cbn [strchr]; [reflexivity|]. destruct (Byte.eqb x c) eqn:E.
  - apply byte_dec_bl in E. subst. exists [], s. auto.
  - destruct (strchr s c) as [rest|].
    + destruct IH as (y & r & -> & -> & N). exists (x :: y), r. repeat split. cbn [existsb]. rewrite (SY c x), E. exact N.
    + cbn [existsb]. rewrite (SY c x), E. exact IH.
Qed.

Lemma split_none s : existsb (Byte.eqb ":") s = false -> split s = [s].
Proof.
  induction s as [|x s IH]; intros N; [reflexivity|]. cbn [existsb] in N. apply orb_false_iff in N as (N1 & N2). cbn [split]. rewrite (IH N2).
  destruct (Byte.eqb x ":") eqn:E; [|reflexivity]. apply byte_dec_bl in E. subst. rewrite byte_dec_lb in N1 by reflexivity. discriminate.
Qed.
Lemma split_some x r : existsb (Byte.eqb ":") x = false -> split (x ++ ":"%byte :: r) = x :: split r.
Proof.
  induction x as [|c x IH]; intros N; [reflexivity|]. cbn [existsb] in N. apply orb_false_iff in N as (N1 & N2). cbn [app split]. rewrite (IH N2).
  destruct (Byte.eqb c ":") eqn:E; [|reflexivity]. apply byte_dec_bl in E. subst. rewrite byte_dec_lb in N1 by reflexivity. discriminate.
Qed.

Definition dotted (x : list byte) : list byte := match x with [] => ["."%byte] | _ => x end.

Lemma next_ok s : exists x, match bfs_resolve_next (Some s) with
  | Some (y, Some r) => y = dotted x /\ components s = y :: components r /\ length r < length s
  | Some (y, None) => y = dotted x /\ components s = [y]
  | None => False
  end.
Proof.
  unfold bfs_resolve_next. pose proof (strchr_split s colon) as S. destruct (strchr s colon) as [rest|].
  - destruct S as (x & r & -> & -> & N). exists x. rewrite app_length. replace (length x + length (colon :: r) - length (colon :: r)) with (length x) by lia. cbn [skipn].
    destruct (Nat.eqb_spec (length x) 0) as [Z|Z].
    + destruct x; [|discriminate]. cbn [firstn]. split; [reflexivity|]. split; [unfold components; cbn [app]; reflexivity|cbn; lia].
    + rewrite firstn_app, Nat.sub_diag, firstn_all. cbn [firstn]. rewrite app_nil_r. destruct x as [|c x]; [cbn in Z; lia|]. split; [reflexivity|]. split; [|cbn; lia].
      unfold components. change colon with ":"%byte. rewrite (split_some (c :: x) r N). reflexivity.
  - exists s. destruct (Nat.eqb_spec (length s) 0) as [Z|Z].
    + destruct s; [|discriminate]. auto.
    + rewrite firstn_all. destruct s as [|c s]; [cbn in Z; lia|]. split; [reflexivity|]. unfold components. rewrite (split_none _ S). reflexivity.
Qed.

Section Path.
  Variables access runnable : nat -> list byte -> bool.

  Definition join (cmd d : list byte) : list byte := d ++ "/"%byte :: cmd.

  Lemma copy_fits cap l src : length l + length src < cap -> xstpencpy cap (Some l) src = Some (l ++ src).
  Proof. intros L. unfold xstpencpy. replace (length src <? cap - length l) with true by lia. reflexivity. Qed.

  Lemma loop_ok d cap cmd : forall fuel s, length s + 1 < fuel -> (forall x, In x (components s) -> length x + 1 + length cmd + 1 <= cap) ->
    resolve_loop access fuel d cap cmd (Some s) = match find (access d) (map (join cmd) (components s)) with Some b => Ok b | None => Err ENOENT end.
  Proof.
    induction fuel as [|fuel IH]; intros s L C; [lia|]. cbn [resolve_loop]. destruct (next_ok s) as (x & E). destruct (bfs_resolve_next (Some s)) as [(y & [r|])|]; [| |destruct E].
    - destruct E as (Y & E & SH). rewrite E in C |- *. assert (LY : length y + 1 + length cmd + 1 <= cap) by (apply C; left; reflexivity).
      rewrite (copy_fits cap [] y) by (cbn; lia). cbn [app]. rewrite (copy_fits cap y [slash]) by (cbn; lia). rewrite (copy_fits cap (y ++ [slash]) cmd) by (rewrite app_length; cbn; lia).
      cbn [map find]. unfold join at 1. replace ((y ++ [slash]) ++ cmd) with (y ++ "/"%byte :: cmd) by (rewrite <- app_assoc; reflexivity).
      change ("/"%byte) with slash. destruct (access d (y ++ slash :: cmd)); [reflexivity|]. apply IH; [lia|]. intros z Z. apply C. right. exact Z.
    - destruct E as (Y & E). rewrite E in C |- *. assert (LY : length y + 1 + length cmd + 1 <= cap) by (apply C; left; reflexivity).
      rewrite (copy_fits cap [] y) by (cbn; lia). cbn [app]. rewrite (copy_fits cap y [slash]) by (cbn; lia). rewrite (copy_fits cap (y ++ [slash]) cmd) by (rewrite app_length; cbn; lia).
      cbn [map find]. unfold join at 1. replace ((y ++ [slash]) ++ cmd) with (y ++ "/"%byte :: cmd) by (rewrite <- app_assoc; reflexivity).
      change ("/"%byte) with slash. destruct (access d (y ++ slash :: cmd)); [reflexivity|]. destruct fuel; [lia|]. reflexivity.
  Qed.

  Lemma capacity_ok : forall fuel s m, length s + 1 < fuel -> m <= capacity_loop fuel m (Some s) /\ forall x, In x (components s) -> length x <= capacity_loop fuel m (Some s).
  Proof.
    induction fuel as [|fuel IH]; intros s m L; [lia|]. cbn [capacity_loop]. destruct (next_ok s) as (x & E). destruct (bfs_resolve_next (Some s)) as [(y & [r|])|]; [| |destruct E].
    - destruct E as (_ & E & SH). rewrite E. destruct (IH r (if m <? length y then length y else m)) as (A & B); [lia|]. assert (Z : m <= (if m <? length y then length y else m) /\ length y <= (if m <? length y then length y else m)) by (destruct (Nat.ltb_spec m (length y)); lia).
      split; [lia|]. intros z [<- | I]; [lia|apply B, I].
    - destruct E as (_ & E). rewrite E. destruct fuel; [lia|]. cbn [capacity_loop bfs_resolve_next]. assert (Z : m <= (if m <? length y then length y else m) /\ length y <= (if m <? length y then length y else m)) by (destruct (Nat.ltb_spec m (length y)); lia).
      split; [lia|]. intros z [<- | []]. lia.
  Qed.

  Lemma relative_ok : forall fuel s, length s + 1 < fuel -> resolve_relative fuel (Some s) = false -> forall x, In x (components s) -> absolute x.
  Proof.
    assert (AB : forall y, Byte.eqb (hd x00 y) slash = true -> absolute y). { intros [|c y] E; [discriminate|]. apply byte_dec_bl in E. cbn in E. subst. exists y. reflexivity. }
    induction fuel as [|fuel IH]; intros s L R; [lia|]. cbn [resolve_relative] in R. destruct (next_ok s) as (x & E). destruct (bfs_resolve_next (Some s)) as [(y & [r|])|]; [| |destruct E].
    - destruct E as (_ & E & SH). rewrite E. destruct (Byte.eqb (hd x00 y) slash) eqn:H; [|discriminate]. intros z [<- | I]; [apply AB, H|]. apply (IH r); auto. lia.
    - destruct E as (_ & E). rewrite E. destruct (Byte.eqb (hd x00 y) slash) eqn:H; [|discriminate]. intros z [<- | []]. apply AB, H.
  Qed.

  Lemma late_ok d cmd env : bfs_resolve_late access d (mkRes cmd env (resolve_capacity env cmd) false) =
    match find (access d) (map (join cmd) (components env)) with Some b => Ok (mkRes b env (resolve_capacity env cmd) true) | None => Err ENOENT end.
  Proof.
    unfold bfs_resolve_late. cbn [done rpath cap exe]. rewrite loop_ok; [destruct (find _ _); reflexivity|lia|].
    intros x I. unfold resolve_capacity. destruct (capacity_ok (length env + 2) env 0) as (_ & B); [lia|]. specialize (B x I). lia.
  Qed.

  (** If all that can be accessed can be run, or what is found can be run: it is what should be found. *)
  Lemma find_runs d l : (forall p, runnable d p = true -> access d p = true) -> forall b, find (access d) l = Some b -> runnable d b = true -> find (runnable d) l = Some b.
  Proof.
    intros R b. induction l as [|x l IH]; [discriminate|]. cbn [find]. destruct (access d x) eqn:A.
    - intros [= ->] Rb. rewrite Rb. reflexivity.
    - intros F Rb. destruct (runnable d x) eqn:Rx; [rewrite (R x Rx) in A; discriminate|]. auto.
  Qed.
  Lemma find_same (f g : list byte -> bool) l : (forall x, In x l -> f x = g x) -> find f l = find g l.
  Proof. induction l as [|x l IH]; intros H; [reflexivity|]. cbn [find]. rewrite (H x) by (left; reflexivity). destruct (g x); [reflexivity|]. apply IH. intros y I. apply H. right. exact I. Qed.
End Path.

(** ** All together *)
Section Whole.
  Variables access runnable : nat -> list byte -> bool.
  Variable opens : nat -> list byte -> option nat.
  Variable directory : nat -> option nat.
  Variable allowed : nat -> nat -> bool.
  Variable posix_spawn : bool -> list byte -> list request -> proc -> outcome.
  Variables (hp hf search : bool) (l : list request) (env cmd : list byte) (p : proc).
  Hypothesis SN : sane access runnable.

  Notation c := (fold_left (set_up hf) l (bfs_spawn_init hp search)).
  Notation performs := (performs opens directory allowed).
  Notation cands := (candidates search env cmd).

  Lemma c_actions : actions c = map action_of l.
  Proof. destruct (set_up_ok hf l (bfs_spawn_init hp search)) as (A & _). rewrite A. reflexivity. Qed.
  Lemma c_path : use_path c = search.
  Proof. destruct (set_up_ok hf l (bfs_spawn_init hp search)) as (_ & A & _). rewrite A. reflexivity. Qed.
  Lemma c_posix : posix c = None \/ posix c = Some l.
  Proof.
    destruct (set_up_ok hf l (bfs_spawn_init hp search)) as (_ & _ & A). destruct A as [A | (l0 & E & A)]; [auto|]. right. rewrite A. cbn in E. destruct hp; [|discriminate]. injection E as <-. reflexivity.
  Qed.

  Lemma stays_dir : forall ql w w', stays ql -> performs w ql = Some w' -> dir w' = dir w.
  Proof.
    induction ql as [|q ql IH]; intros w w' S P; [injection P as <-; reflexivity|]. cbn [SpawnSpec.performs] in P. destruct (perform opens directory allowed w q) as [w1|] eqn:E; [|discriminate].
    rewrite (IH w1 w'); [|intros fd I; apply (S fd); right; exact I|exact P]. destruct q as [a path|a|a b|a|r v]; cbn [perform] in E.
    - destruct (opens _ _); [|discriminate]. destruct (_ <? _); [|discriminate]. injection E as <-. reflexivity.
    - destruct (files w a); [|discriminate]. injection E as <-. reflexivity.
    - destruct (files w a) as [(o & ?)|]; [|discriminate]. destruct (_ <? _); [|discriminate]. injection E as <-. reflexivity.
    - destruct (S a). left. reflexivity.
    - destruct (allowed r v); [|discriminate]. injection E as <-. reflexivity.
  Qed.

  Lemma stays_dec : existsb (fun a => match a_op a with SPAWN_FCHDIR => true | _ => false end) (map action_of l) = false -> stays l.
  Proof.
    intros E fd I. assert (Z : existsb (fun a => match a_op a with SPAWN_FCHDIR => true | _ => false end) (map action_of l) = true); [|congruence].
    apply existsb_exists. exists (action_of (Fchdir fd)). split; [apply in_map, I|reflexivity].
  Qed.

  Lemma slash_same : match strchr cmd slash with Some _ => true | None => false end = existsb (Byte.eqb "/") cmd.
  Proof.
    pose proof (strchr_split cmd slash) as S. destruct (strchr cmd slash) as [rest|]; [|symmetry; exact S]. destruct S as (x & r & -> & -> & _). rewrite existsb_app. cbn [existsb]. 
    symmetry. apply orb_true_iff. right. reflexivity.
  Qed.

  Lemma skip_same : can_skip_resolve cmd c = negb (search && negb (existsb (Byte.eqb "/") cmd)).
  Proof. unfold can_skip_resolve. rewrite c_path, slash_same. destruct search, (existsb _ _); reflexivity. Qed.

  Lemma cands_path : search && negb (existsb (Byte.eqb "/") cmd) = true -> cands = map (join cmd) (components env).
  Proof. intros E. unfold candidates. rewrite E. reflexivity. Qed.
  Lemma cands_self : search && negb (existsb (Byte.eqb "/") cmd) = false -> cands = [cmd].
  Proof. intros E. unfold candidates. rewrite E. reflexivity. Qed.

  (** If it can be resolved early, the directory does not matter. *)
  Lemma early_same w : can_resolve_early env c = true -> performs (image_of p) l = Some w ->
    search && negb (existsb (Byte.eqb "/") cmd) = true ->
    forall x, In x cands -> access (cwd p) x = access (dir w) x.
  Proof.
    intros CE P E x I. unfold can_resolve_early in CE. rewrite c_actions in CE. destruct (resolve_relative (length env + 2) (Some env)) eqn:R; cbn [negb] in CE.
    - apply negb_true_iff in CE. apply stays_dec in CE. rewrite (stays_dir l _ _ CE P). reflexivity.
    - rewrite (cands_path E) in I. apply in_map_iff in I as (y & <- & I). apply (sn_absolute _ _ SN). destruct (relative_ok (length env + 2) env ltac:(lia) R y I) as (q & ->). exists (q ++ "/"%byte :: cmd). reflexivity.
  Qed.

  (** What bfs_resolve_early() finds out *)
  Lemma early_ok : match bfs_resolve_early access (cwd p) cmd env c with
    | Ok r =>
        done r = true /\ (forall w, performs (image_of p) l = Some w -> runnable (dir w) (exe r) = true -> find (runnable (dir w)) cands = Some (exe r)) /\
          (forall w b, performs (image_of p) l = Some w -> (forall d x, In x cands -> access d x = runnable d x) -> find (runnable (dir w)) cands = Some b -> exe r = b) \/
        search && negb (existsb (Byte.eqb "/") cmd) = true /\ done r = false /\ exe r = cmd /\ (posix c = None -> r = mkRes cmd env (resolve_capacity env cmd) false)
    | Err _ =>
        forall w, performs (image_of p) l = Some w -> (forall d x, In x cands -> access d x = runnable d x) ->
          (search && negb (existsb (Byte.eqb "/") cmd) = false -> absolute cmd \/ stays l) -> find (runnable (dir w)) cands = None
    end.
  Proof.
    unfold bfs_resolve_early. rewrite skip_same. destruct (search && negb (existsb (Byte.eqb "/") cmd)) eqn:E; cbn [negb].
    - destruct (can_resolve_early env c) eqn:CE; cbn [negb andb].
      + rewrite late_ok, <- (cands_path E). destruct (find (access (cwd p)) cands) as [b|] eqn:F.
        * left. cbn [done exe]. split; [reflexivity|]. split.
          -- intros w P R. apply (find_runs access runnable); [apply (sn_access _ _ SN)| |exact R]. rewrite <- F. apply find_same. intros x I. symmetry. apply (early_same w CE P E x I).
          -- intros w b' P A F'. rewrite (find_same _ (runnable (dir w))) in F; [congruence|]. intros x I. rewrite (early_same w CE P E x I). apply A, I.
        * intros w P A _. rewrite <- F. apply find_same. intros x I. rewrite (early_same w CE P E x I). symmetry. apply A, I.
      + destruct (posix c) as [pl|] eqn:PX; cbn [andb]; right; repeat split; auto; discriminate.
    - rewrite (cands_self E). destruct (access (cwd p) cmd) eqn:A.
      + left. cbn [done exe]. split; [reflexivity|]. split.
        * intros w _ R. cbn [find]. rewrite R. reflexivity.
        * intros w b _ _ F. cbn [find] in F. destruct (runnable (dir w) cmd); [congruence|discriminate].
      + intros w P B C. cbn [find]. specialize (C eq_refl). replace (runnable (dir w) cmd) with (access (cwd p) cmd); [rewrite A; reflexivity|].
        destruct C as [C | C]; [rewrite <- (B (dir w)) by (left; reflexivity); apply (sn_absolute _ _ SN), C|].
        rewrite (stays_dir l _ _ C P). apply B. left. reflexivity.
  Qed.


  Lemma pipe_ok rd wr : match pipe_cloexec p rd wr with
    | Ok (p1, r, w) => r <> w /\ fds p r = None /\ fds p w = None /\ p1 = set_fd (set_fd p r (Some (mkDesc rd true))) w (Some (mkDesc wr true))
    | Err _ => forall n, ~ roomy n p l
    end.
  Proof.
    unfold pipe_cloexec. destruct (lowest p) as [r|] eqn:L.
    - destruct (lowest_free _ _ L) as (A & _). set (p1 := set_fd p r (Some (mkDesc rd true))). destruct (lowest p1) as [w|] eqn:L'.
      + destruct (lowest_free _ _ L') as (B & _). assert (N : r <> w). { intros <-. unfold p1 in B. rewrite set_same in B. discriminate. }
        split; [exact N|]. split; [exact A|]. split; [|reflexivity]. unfold p1 in B. rewrite set_other in B; auto.
      + intros n (X & Y & _). assert (Z : exists i, n <= i /\ i <= n + 1 /\ i <> r). { destruct (Nat.eq_dec r n) as [->|]; [exists (n + 1); lia|exists n; lia]. }
        destruct Z as (i & Z1 & Z2 & Z3). apply (lowest_none p1 i L'); [cbn; lia|]. unfold p1. rewrite set_other by exact Z3. apply X, Z1.
    - intros n (X & Y & _). apply (lowest_none p n L); [lia|]. apply X. lia.
  Qed.

  Lemma fork_ok rd wr r : Forall plain l -> posix c = None ->
    (done r = true \/ r = mkRes cmd env (resolve_capacity env cmd) false /\ search && negb (existsb (Byte.eqb "/") cmd) = true) ->
    (done r = true -> forall w, performs (image_of p) l = Some w -> runnable (dir w) (exe r) = true -> find (runnable (dir w)) cands = Some (exe r)) ->
    let '(o, p') := bfs_fork_spawn access runnable opens directory allowed r c p rd wr in
    started_right runnable opens directory allowed search env cmd l p o /\ unchanged p p' /\
    forall n, roomy n p l -> (forall d x, In x cands -> access d x = runnable d x) ->
      (done r = true -> forall w b, performs (image_of p) l = Some w -> find (runnable (dir w)) cands = Some b -> exe r = b) ->
      started_possible runnable opens directory allowed search env cmd l p o.
  Proof.
    intros PL PX DN FD. unfold bfs_fork_spawn. pose proof (pipe_ok rd wr) as PO. destruct (pipe_cloexec p rd wr) as [((p1 & pipe0) & pipe1)|e].
    2:{ split; [exact I|]. split; [repeat split; auto|]. intros n RM. destruct (PO n RM). }
    destruct PO as (N & F0 & F1 & ->).
    set (pc := mkProc _ _ _ true _ _). unfold bfs_spawn_exec. rewrite c_actions.
    set (q := set_fd pc pipe0 None).
    assert (IV : inv wr q q pipe1 (image_of p)).
    { constructor; auto.
      - unfold q. rewrite set_other by auto. unfold pc. cbn [fds]. rewrite set_same. reflexivity.
      - cbn. rewrite F1. reflexivity.
      - intros i J. unfold q. destruct (Nat.eq_dec i pipe0) as [->|M]; [rewrite set_same; cbn; rewrite F0; reflexivity|]. rewrite set_other by exact M. unfold pc. cbn [fds]. rewrite !set_other by assumption. reflexivity. }
    pose proof (actions_ok opens directory allowed wr q l q pipe1 (image_of p) IV PL) as AO.
    destruct (run_actions opens directory allowed q pipe1 (map action_of l)) as ((p2 & pipe2) & failed). destruct AO as (W & AO). rewrite W. cbn [obj].
    assert (UN : unchanged p (set_fd (set_fd (set_fd (set_fd p pipe0 (Some (mkDesc rd true))) pipe1 (Some (mkDesc wr true))) pipe1 None) pipe0 None)).
    { repeat split. intros fd. cbn. destruct (Nat.eqb_spec fd pipe0) as [->|]; [congruence|]. destruct (Nat.eqb_spec fd pipe1) as [->|]; [congruence|reflexivity]. }
    assert (RMO : forall n, roomy n p l -> room n (image_of p) l).
    { intros n (X & Y & Z). split; [intros fd L; cbn; rewrite (X fd L); reflexivity|]. split; [exact Y|exact Z]. }
    destruct failed as [e|].
    { rewrite Nat.eqb_refl. split; [exact I|]. split; [exact UN|]. intros n RM _ _ (w & x & P & _). rewrite (AO n (RMO n RM)) in P. discriminate. }
    destruct AO as (w & P & IV2).
    assert (LT : match bfs_resolve_late access (cwd p2) r with
      | Ok r' => (runnable (dir w) (exe r') = true -> find (runnable (dir w)) cands = Some (exe r')) /\
         ((forall d x, In x cands -> access d x = runnable d x) -> (done r = true -> forall w b, performs (image_of p) l = Some w -> find (runnable (dir w)) cands = Some b -> exe r = b) ->
           forall b, find (runnable (dir w)) cands = Some b -> exe r' = b)
      | Err _ => (forall d x, In x cands -> access d x = runnable d x) -> find (runnable (dir w)) cands = None
      end).
    { rewrite (i_cwd _ _ _ _ _ IV2). destruct (done r) eqn:D.
      - unfold bfs_resolve_late. rewrite D. split; [apply FD; [reflexivity|exact P]|]. intros _ B b F. apply (B eq_refl w b P F).
      - destruct DN as [DN | (-> & E)]; [congruence|]. rewrite late_ok, <- (cands_path E). destruct (find (access (dir w)) cands) as [b|] eqn:F.
        + cbn [exe]. split; [apply (find_runs access runnable); [apply (sn_access _ _ SN)|exact F]|]. intros A _ b' F'. rewrite (find_same _ (runnable (dir w))) in F by (intros x J; apply A, J). congruence.
        + intros A. rewrite <- F. apply find_same. intros x J. symmetry. apply A, J. }
    destruct (bfs_resolve_late access (cwd p2) r) as [r'|e].
    2:{ rewrite Nat.eqb_refl. split; [exact I|]. split; [exact UN|]. intros n _ A _ (w' & x & P' & F). rewrite P in P'. injection P' as <-. rewrite (LT A) in F. discriminate. }
    cbn [set_mask sigreset cwd]. rewrite (i_cwd _ _ _ _ _ IV2). destruct LT as (LT1 & LT2). destruct (runnable (dir w) (exe r')) eqn:RN.
    - split; [|split; [exact UN|intros; exact I]]. exists w. split; [split; [exact P|apply LT1; reflexivity]|]. cbn [exec_image fds cwd limits blocked handled disturbed set_mask sigreset].
      split; [|split; [apply IV2|split; [intros rr; apply (i_lim _ _ _ _ _ IV2)|split; [reflexivity|split; [reflexivity|]]]]].
      + intros fd. unfold inherited. destruct (Nat.eq_dec fd pipe2) as [->|M].
        * rewrite W, (i_hidden _ _ _ _ _ IV2). reflexivity.
        * rewrite <- (i_files _ _ _ _ _ IV2 fd M). destruct (fds p2 fd) as [[o [|]]|]; reflexivity.
      + rewrite (i_disturbed _ _ _ _ _ IV2). rewrite andb_false_r, orb_false_r. reflexivity.
    - rewrite Nat.eqb_refl. split; [exact I|]. split; [exact UN|]. intros n _ A B (w' & x & P' & F). rewrite P in P'. injection P' as <-. specialize (LT2 A B x F). subst x. apply find_some in F as (_ & F). congruence.
  Qed.

  Hypothesis PR : posix_right runnable opens directory allowed env posix_spawn.

  Lemma spawn_ok rd wr : Forall plain l ->
    let '(o, p') := bfs_spawn access runnable opens directory allowed posix_spawn cmd env c p rd wr in
    started_right runnable opens directory allowed search env cmd l p o /\ unchanged p p' /\
    forall n, roomy n p l -> (forall d x, In x cands -> access d x = runnable d x) ->
      (search && negb (existsb (Byte.eqb "/") cmd) = false -> absolute cmd \/ stays l) ->
      started_possible runnable opens directory allowed search env cmd l p o.
  Proof.
    intros PL. unfold bfs_spawn. pose proof early_ok as EO. destruct (bfs_resolve_early access (cwd p) cmd env c) as [r|e].
    2:{ split; [exact I|]. split; [repeat split; auto|]. intros n _ A B (w & x & P & F). rewrite (EO w P A B) in F. discriminate. }
    destruct (posix c) as [pl|] eqn:PX.
    - assert (pl = l) as -> by (destruct c_posix; congruence). split; [|split; [repeat split; auto|]].
      + destruct (PR (negb (done r)) (exe r) l p) as (A & _). unfold started_right in *. destruct (posix_spawn _ _ _ _) as [x child|e]; [|exact I].
        destruct A as (w & (P & F) & A). exists w. split; [|exact A]. split; [exact P|]. destruct EO as [(D & EO & _) | (E & D & X & _)].
        * rewrite D in F. cbn [negb candidates andb find] in F. destruct (runnable (dir w) (exe r)) eqn:R; [|discriminate]. injection F as <-. apply EO; assumption.
        * rewrite D, X in F. cbn [negb] in F. destruct search; [exact F|discriminate].
      + intros n _ A B. destruct (PR (negb (done r)) (exe r) l p) as (_ & C). unfold started_possible in *. destruct (posix_spawn _ _ _ _) as [x child|e]; [exact I|].
        intros (w & x & P & F). apply C. destruct EO as [(D & _ & EO) | (E & D & X & _)].
        * rewrite D. exists w, x. split; [exact P|]. rewrite (EO w x P A F). cbn [negb candidates andb find]. apply find_some in F as (_ & F). rewrite F. reflexivity.
        * rewrite D, X. exists w, x. split; [exact P|]. cbn [negb]. destruct search; [exact F|discriminate].
    - assert (DN : done r = true \/ r = mkRes cmd env (resolve_capacity env cmd) false /\ search && negb (existsb (Byte.eqb "/") cmd) = true).
      { destruct EO as [(D & _) | (E & _ & _ & X)]; [left; exact D|right; split; [apply X; reflexivity|exact E]]. }
      pose proof (fork_ok rd wr r PL PX DN) as FO.
      destruct EO as [(D & EO1 & EO2) | (E & D & _ & X)].
      + specialize (FO (fun _ => EO1)). destruct (bfs_fork_spawn _ _ _ _ _ r c p rd wr) as (o & p'). destruct FO as (A & B & C). split; [exact A|]. split; [exact B|]. intros n RM AC _. apply (C n RM AC). intros _ w b P F. apply (EO2 w b P AC F).
      + assert (FD : done r = true -> forall w, performs (image_of p) l = Some w -> runnable (dir w) (exe r) = true -> find (runnable (dir w)) cands = Some (exe r)) by congruence.
        specialize (FO FD). destruct (bfs_fork_spawn _ _ _ _ _ r c p rd wr) as (o & p'). destruct FO as (A & B & C). split; [exact A|]. split; [exact B|]. intros n RM AC _. apply (C n RM AC). congruence.
  Qed.
End Whole.

(** Without open(), all files were open before. *)
Lemma files_old opens directory allowed : forall l w w', Forall plain l -> performs opens directory allowed w l = Some w' ->
  forall fd o b, files w' fd = Some (o, b) -> exists fd' b', files w fd' = Some (o, b').
Proof.
  induction l as [|q l IH]; intros w w' PL P fd o b F; [injection P as <-; eauto|]. inversion PL as [|? ? P1 P2]; subst. cbn [performs] in P.
  destruct (perform opens directory allowed w q) as [w1|] eqn:E; [|discriminate]. destruct (IH w1 w' P2 P fd o b F) as (fd1 & b1 & F1).
  destruct q as [a path|a|a c|a|r v]; cbn [perform] in E; [destruct P1| | | |].
  - destruct (files w a); [|discriminate]. injection E as <-. cbn in F1. destruct (Nat.eq_dec fd1 a); [discriminate|eauto].
  - destruct (files w a) as [(o' & b')|] eqn:A; [|discriminate]. destruct (_ <? _); [|discriminate]. injection E as <-. cbn in F1. destruct (Nat.eq_dec fd1 c); [injection F1 as -> <-; eauto|eauto].
  - destruct (files w a) as [(o' & b')|] eqn:A; [|discriminate]. destruct (directory o'); [|discriminate]. injection E as <-. eauto.
  - destruct (allowed r v); [|discriminate]. injection E as <-. eauto.
Qed.

Lemma started_old runnable opens directory allowed search env cmd l p exe child : Forall plain l ->
  started_right runnable opens directory allowed search env cmd l p (Started exe child) ->
  forall fd d, fds child fd = Some d -> exists fd' d', fds p fd' = Some d' /\ obj d' = obj d.
Proof.
  intros PL (w & (P & _) & F & _) fd d E. rewrite F in E. unfold inherited in E. destruct (files w fd) as [(o & [|])|] eqn:G; try discriminate. injection E as <-.
  destruct (files_old opens directory allowed l _ _ PL P fd o false G) as (fd' & b' & H). cbn in H. destruct (fds p fd') as [d'|] eqn:I; [|discriminate]. injection H as <- <-. exists fd', d'. auto.
Qed.

(** ** -exec and -execdir *)
Lemma exec_same access runnable opens directory allowed posix_spawn hp hf wd nofile cmd env p rd wr :
  bfs_exec_spawn access runnable opens directory allowed posix_spawn hp hf wd nofile cmd env p rd wr =
  bfs_spawn access runnable opens directory allowed posix_spawn cmd env (fold_left (set_up hf) (exec_requests wd nofile) (bfs_spawn_init hp true)) p rd wr.
Proof. unfold bfs_exec_spawn, exec_requests. destruct wd, nofile; reflexivity. Qed.
Lemma exec_plain wd nofile : Forall plain (exec_requests wd nofile).
Proof. unfold exec_requests. destruct wd, nofile; repeat constructor. Qed.

Lemma spawn_started access runnable opens directory allowed posix_spawn hp hf search l env cmd p rd wr :
  sane access runnable -> posix_right runnable opens directory allowed env posix_spawn -> Forall plain l ->
  let '(o, p') := bfs_spawn access runnable opens directory allowed posix_spawn cmd env (fold_left (set_up hf) l (bfs_spawn_init hp search)) p rd wr in
  started_right runnable opens directory allowed search env cmd l p o /\ unchanged p p'.
Proof. intros SN PR PL. pose proof (spawn_ok access runnable opens directory allowed posix_spawn hp hf search l env cmd p SN PR rd wr PL) as S. destruct (bfs_spawn _ _ _ _ _ _ _ _ _ _ _ _) as (o & p'). tauto. Qed.

Lemma spawn_possible access runnable opens directory allowed posix_spawn hp hf search l env cmd p rd wr n :
  sane access runnable -> posix_right runnable opens directory allowed env posix_spawn -> Forall plain l -> roomy n p l ->
  (forall d x, In x (candidates search env cmd) -> access d x = runnable d x) ->
  (search = false \/ In "/"%byte cmd -> absolute cmd \/ stays l) ->
  started_possible runnable opens directory allowed search env cmd l p
    (fst (bfs_spawn access runnable opens directory allowed posix_spawn cmd env (fold_left (set_up hf) l (bfs_spawn_init hp search)) p rd wr)).
Proof.
  intros SN PR PL RM AC AB. pose proof (spawn_ok access runnable opens directory allowed posix_spawn hp hf search l env cmd p SN PR rd wr PL) as S. destruct (bfs_spawn _ _ _ _ _ _ _ _ _ _ _ _) as (o & p'). destruct S as (_ & _ & S).
  apply (S n RM AC). intros E. apply AB. destruct search; [right|left; reflexivity]. cbn [andb] in E. apply negb_false_iff, existsb_exists in E as (x & I & E). apply byte_dec_bl in E. subst. exact I.
Qed.

Lemma exec_started access runnable opens directory allowed posix_spawn hp hf wd nofile env cmd p rd wr :
  sane access runnable -> posix_right runnable opens directory allowed env posix_spawn ->
  let '(o, p') := bfs_exec_spawn access runnable opens directory allowed posix_spawn hp hf wd nofile cmd env p rd wr in
  started_right runnable opens directory allowed true env cmd (exec_requests wd nofile) p o /\ unchanged p p'.
Proof. intros SN PR. rewrite exec_same. apply spawn_started; auto. apply exec_plain. Qed.

(** ** Counterexamples *)
Definition one (x y : list byte) : bool := if list_eq_dec byte_eq_dec x y then true else false.

Lemma execdir_fails : exists access runnable opens directory allowed fd env cmd p n,
  sane access runnable /\ (forall d x, access d x = runnable d x) /\ roomy n p (exec_requests (Some fd) None) /\
  forall posix_spawn hp hf rd wr,
    ~ started_possible runnable opens directory allowed true env cmd (exec_requests (Some fd) None) p
        (fst (bfs_exec_spawn access runnable opens directory allowed posix_spawn hp hf (Some fd) None cmd env p rd wr)).
Proof.
  set (acc := fun d x => (d =? 1) && one x ["."; "/"; "s"]%byte).
  set (p := mkProc (fun i => if i =? 3 then Some (mkDesc 30 true) else None) 0 (fun _ => 20) false true false).
  exists acc, acc, (fun _ _ => None), (fun o => if o =? 30 then Some 1 else None), (fun _ _ => true), 3, ["/"%byte], ["."; "/"; "s"]%byte, p, 4.
  split; [|split; [reflexivity|split]].
  - constructor; [auto|]. intros d d' x (q & ->). unfold acc, one. destruct (list_eq_dec byte_eq_dec ("/"%byte :: q) ["."; "/"; "s"]%byte); [discriminate|]. rewrite !andb_false_r. auto.
  - split; [|split; [cbn; lia|]].
    + intros fd L. cbn. destruct (Nat.eqb_spec fd 3); [lia|reflexivity].
    + intros q [<- | []]. lia.
  - intros posix_spawn hp hf rd wr. rewrite exec_same. assert (E : fst (bfs_spawn acc acc (fun _ _ => None) (fun o => if o =? 30 then Some 1 else None) (fun _ _ => true) posix_spawn ["."; "/"; "s"]%byte ["/"%byte]
       (fold_left (set_up hf) (exec_requests (Some 3) None) (bfs_spawn_init hp true)) p rd wr) = Failed ENOENT) by (destruct hp, hf; reflexivity).
    rewrite E. cbn [started_possible]. intros N. apply N. eexists _, _. split; [reflexivity|]. vm_compute. reflexivity.
Qed.

Lemma hidden_fails : exists access runnable opens directory allowed env cmd p n,
  sane access runnable /\ roomy n p [] /\
  forall posix_spawn hp hf rd wr, posix_right runnable opens directory allowed env posix_spawn ->
    ~ started_possible runnable opens directory allowed true env cmd [] p
        (fst (bfs_exec_spawn access runnable opens directory allowed posix_spawn hp hf None None cmd env p rd wr)).
Proof.
  set (acc := fun (d : nat) x => one x ["/"; "a"; "/"; "c"]%byte || one x ["/"; "b"; "/"; "c"]%byte).
  set (run := fun (d : nat) x => one x ["/"; "b"; "/"; "c"]%byte).
  set (p := mkProc (fun i => None) 0 (fun _ => 20) false true false).
  exists acc, run, (fun _ _ => None), (fun o => None), (fun _ _ => true), ["/"; "a"; ":"; "/"; "b"]%byte, ["c"%byte], p, 0.
  split; [|split].
  - constructor; [|auto]. intros d x R. unfold acc. unfold run in R. rewrite R. apply orb_true_r.
  - split; [reflexivity|split; [cbn; lia|intros q []]].
  - intros posix_spawn hp hf rd wr PR. rewrite exec_same. 
    assert (EX : exists w x, expected run (fun _ _ => None) (fun o => None) (fun _ _ => true) true ["/"; "a"; ":"; "/"; "b"]%byte ["c"%byte] [] p w x).
    { eexists _, _. split; [reflexivity|]. vm_compute. reflexivity. }
    destruct hp.
    + assert (E : fst (bfs_spawn acc run (fun _ _ => None) (fun o => None) (fun _ _ => true) posix_spawn ["c"%byte] ["/"; "a"; ":"; "/"; "b"]%byte
        (fold_left (set_up hf) (exec_requests None None) (bfs_spawn_init true true)) p rd wr) = posix_spawn false ["/"; "a"; "/"; "c"]%byte [] p) by reflexivity.
      rewrite E. destruct (PR false ["/"; "a"; "/"; "c"]%byte [] p) as (A & _). destruct (posix_spawn false ["/"; "a"; "/"; "c"]%byte [] p) as [x ch|e].
      * destruct A as (w & (_ & F) & _). vm_compute in F. discriminate.
      * intros N. exact (N EX).
    + assert (E : fst (bfs_spawn acc run (fun _ _ => None) (fun o => None) (fun _ _ => true) posix_spawn ["c"%byte] ["/"; "a"; ":"; "/"; "b"]%byte
        (fold_left (set_up hf) (exec_requests None None) (bfs_spawn_init false true)) p rd wr) = Failed EACCES).
      { cbn [exec_requests app fold_left]. unfold bfs_spawn. set (r := bfs_resolve_early _ _ _ _ _). vm_compute in r. unfold r. cbn [posix bfs_spawn_init]. unfold bfs_fork_spawn. set (pc := pipe_cloexec p rd wr). vm_compute in pc. unfold pc.
        pose proof (Nat.eqb_refl wr) as R. cbv in R |- *. rewrite R. reflexivity. }
      rewrite E. intros N. exact (N EX).
Qed.

Lemma open_leaks : exists access runnable opens directory allowed fd path env cmd p,
  sane access runnable /\
  forall posix_spawn hf rd wr,
    ~ started_right runnable opens directory allowed true env cmd [Open fd path] p
        (fst (bfs_spawn access runnable opens directory allowed posix_spawn cmd env (fold_left (set_up hf) [Open fd path] (bfs_spawn_init false true)) p rd wr)).
Proof.
  set (acc := fun (d : nat) x => one x ["/"; "b"; "/"; "c"]%byte).
  set (p := mkProc (fun i => None) 0 (fun _ => 20) false true false).
  exists acc, acc, (fun _ _ => Some 50), (fun o => None), (fun _ _ => true), 5, ["x"%byte], ["/"; "b"]%byte, ["c"%byte], p.
  split; [constructor; auto|]. intros posix_spawn hf rd wr S. 
  set (o := fst _) in S. assert (E : exists x ch, o = Started x ch /\ fds ch 0 = Some (mkDesc 50 false)).
  { unfold o. unfold bfs_spawn. set (r := bfs_resolve_early _ _ _ _ _). vm_compute in r. unfold r. cbn [posix set_up fold_left bfs_spawn_init bfs_spawn_addopen append add_posix].
    unfold bfs_fork_spawn. set (pc := pipe_cloexec p rd wr). vm_compute in pc. unfold pc. cbv -[Nat.eqb]. eexists _, _. split; [reflexivity|]. reflexivity. }
  destruct E as (x & ch & E & F). rewrite E in S. destruct S as (w & (P & _) & G & _). rewrite G in F. vm_compute in P. injection P as <-. discriminate.
Qed.

Lemma dup2_closes : exists access runnable opens directory allowed fd env cmd p,
  sane access runnable /\
  forall posix_spawn hf rd wr,
    ~ started_right runnable opens directory allowed true env cmd [Dup2 fd fd] p
        (fst (bfs_spawn access runnable opens directory allowed posix_spawn cmd env (fold_left (set_up hf) [Dup2 fd fd] (bfs_spawn_init false true)) p rd wr)).
Proof.
  set (acc := fun (d : nat) x => one x ["/"; "b"; "/"; "c"]%byte).
  set (p := mkProc (fun i => if i =? 4 then Some (mkDesc 50 true) else None) 0 (fun _ => 20) false true false).
  exists acc, acc, (fun _ _ => Some 50), (fun o => None), (fun _ _ => true), 4, ["/"; "b"]%byte, ["c"%byte], p.
  split; [constructor; auto|]. intros posix_spawn hf rd wr S. 
  set (o := fst _) in S. assert (E : exists x ch, o = Started x ch /\ fds ch 4 = None).
  { unfold o. unfold bfs_spawn. set (r := bfs_resolve_early _ _ _ _ _). vm_compute in r. unfold r. cbn [posix set_up fold_left bfs_spawn_init bfs_spawn_adddup2 append add_posix].
    unfold bfs_fork_spawn. set (pc := pipe_cloexec p rd wr). vm_compute in pc. unfold pc. cbv. eexists _, _. split; [reflexivity|]. reflexivity. }
  destruct E as (x & ch & E & F). rewrite E in S. destruct S as (w & (P & _) & G & _). rewrite G in F. vm_compute in P. injection P as <-. discriminate.
Qed.
