(** * -perm: proofs *)
From Coq Require Import List ZArith NArith Arith Bool Lia.
From Coq Require Import ZifyBool ZifyNat ZifyN.
From Coq Require Import Init.Byte Strings.Byte.
From Verif Require Import NumModel NumSpec NumProofs PermModel PermSpec.
Import ListNotations.
Local Open Scope N_scope.

(** ** Bits *)
Definition bit_at (i : N) : option bit := find (fun b => place b =? i) all_bits.

Lemma place_at b : bit_at (place b) = Some b.
Proof. destruct b as [[] []| | |]; reflexivity. Qed.
Lemma at_place i b : bit_at i = Some b -> place b = i.
Proof. intros H. apply find_some in H. lia. Qed.

Fixpoint num (l : list bool) : N := match l with [] => 0 | x :: l => 2 * num l + N.b2n x end.
Lemma num_spec : forall l k, N.testbit (num l) (N.of_nat k) = nth k l false.
Proof.
  induction l as [|x l IH]; intros k; cbn [num].
  - rewrite N.bits_0. now destruct k.
  - destruct k as [|k].
    + cbn [N.of_nat nth]. apply N.testbit_0_r.
    + rewrite Nat2N.inj_succ, N.testbit_succ_r. apply IH.
Qed.

Lemma number_num m : number m = num (map m all_bits).
Proof.
  assert (E : forall b p, (if m b then p else 0) = p * N.b2n (m b)) by (intros b p; destruct (m b); cbn [N.b2n]; lia).
  unfold number, all_bits. cbn [fold_right map num place]. rewrite !E. clear E.
  change (2 ^ 0) with 1. change (2 ^ 1) with 2. change (2 ^ 2) with 4. change (2 ^ 3) with 8. change (2 ^ 4) with 16. change (2 ^ 5) with 32.
  change (2 ^ 6) with 64. change (2 ^ 7) with 128. change (2 ^ 8) with 256. change (2 ^ 9) with 512. change (2 ^ 10) with 1024. change (2 ^ 11) with 2048.
  lia.
Qed.

Lemma number_spec m i : N.testbit (number m) i = match bit_at i with Some b => m b | None => false end.
Proof.
  rewrite number_num. rewrite <- (N2Nat.id i) at 1. rewrite num_spec. destruct (bit_at i) as [b|] eqn:E.
  - apply at_place in E. subst i. destruct b as [[] []| | |]; reflexivity.
  - apply nth_overflow. rewrite map_length. cbn [all_bits length].
    destruct (Nat.le_gt_cases 12 (N.to_nat i)) as [|L]; [assumption|exfalso].
    assert (I : i = 0 \/ i = 1 \/ i = 2 \/ i = 3 \/ i = 4 \/ i = 5 \/ i = 6 \/ i = 7 \/ i = 8 \/ i = 9 \/ i = 10 \/ i = 11) by lia.
    decompose [or] I; subst i; discriminate E.
Qed.

Lemma number_bit m b : N.testbit (number m) (place b) = m b.
Proof. now rewrite number_spec, place_at. Qed.

Lemma number_lt m : number m < 4096.
Proof.
  rewrite number_num. assert (H : forall l, num l < 2 ^ N.of_nat (length l)).
  { induction l as [|x l IH]; [reflexivity|]. cbn [num length]. rewrite Nat2N.inj_succ, N.pow_succ_r'. destruct x; cbn [N.b2n]; lia. }
  specialize (H (map m all_bits)). rewrite map_length in H. exact H.
Qed.

Lemma number_ext m m' : (forall b, m b = m' b) -> number m = number m'.
Proof. intros H. apply N.bits_inj. intros i. rewrite !number_spec. destruct (bit_at i); auto. Qed.

(** Modes of 12 bits *)
Lemma number_of n : n < 4096 -> number (bits_of n) = n.
Proof.
  intros L. apply N.bits_inj. intros i. rewrite number_spec. destruct (bit_at i) as [b|] eqn:E.
  - apply at_place in E. now subst i.
  - symmetry. destruct (N.ltb_spec i 12) as [I|I].
    + exfalso. assert (J : i = 0 \/ i = 1 \/ i = 2 \/ i = 3 \/ i = 4 \/ i = 5 \/ i = 6 \/ i = 7 \/ i = 8 \/ i = 9 \/ i = 10 \/ i = 11) by lia.
      decompose [or] J; subst i; discriminate E.
    + destruct (N.eq_dec n 0) as [->|NZ]; [apply N.bits_0|]. apply N.bits_above_log2.
      apply N.log2_lt_pow2; [lia|]. apply N.lt_le_trans with (2 ^ 12); [exact L|]. apply N.pow_le_mono_r; lia.
Qed.
Lemma bits_of_number m b : bits_of (number m) b = m b.
Proof. apply number_bit. Qed.

Lemma lor_number m m' : N.lor (number m) (number m') = number (fun b => m b || m' b).
Proof. apply N.bits_inj. intros i. rewrite N.lor_spec, !number_spec. now destruct (bit_at i). Qed.
Lemma ldiff_number m m' : N.ldiff (number m) (number m') = number (fun b => m b && negb (m' b)).
Proof. apply N.bits_inj. intros i. rewrite N.ldiff_spec, !number_spec. now destruct (bit_at i). Qed.
Lemma land_number m m' : N.land (number m) (number m') = number (fun b => m b && m' b).
Proof. apply N.bits_inj. intros i. rewrite N.land_spec, !number_spec. now destruct (bit_at i). Qed.
Lemma land_number_l m n : N.land (number m) n = number (fun b => m b && bits_of n b).
Proof.
  apply N.bits_inj. intros i. rewrite N.land_spec, !number_spec. destruct (bit_at i) as [b|] eqn:E; [|reflexivity].
  apply at_place in E. now subst i.
Qed.
Lemma ldiff_number_l m n : N.ldiff (number m) n = number (fun b => m b && negb (bits_of n b)).
Proof.
  apply N.bits_inj. intros i. rewrite N.ldiff_spec, !number_spec. destruct (bit_at i) as [b|] eqn:E; [|reflexivity].
  apply at_place in E. now subst i.
Qed.
Lemma number_zero m : (number m =? 0) = negb (existsb m all_bits).
Proof.
  destruct (existsb m all_bits) eqn:E.
  - apply existsb_exists in E. destruct E as (b & _ & H). cbn [negb]. apply N.eqb_neq. intros Z. pose proof (number_bit m b) as K. rewrite Z, N.bits_0, H in K. discriminate.
  - cbn [negb]. apply N.eqb_eq. apply N.bits_inj. intros i. rewrite number_spec, N.bits_0. destruct (bit_at i) as [b|]; [|reflexivity].
    destruct (m b) eqn:M; [|reflexivity]. rewrite <- E. symmetry. apply existsb_exists. exists b. split; [|exact M]. destruct b as [[] []| | |]; cbn; tauto.
Qed.

(** Copying permissions, for every mode *)
Definition copies (x : N) : N := N.lor x (N.lor (N.shiftl x 6) (N.shiftl x 3)).
Definition copied (c : class) (n : N) : N :=
  copies (match c with User => N.land (N.shiftr n 6) o7 | Group => N.land (N.shiftr n 3) o7 | Other => N.land n o7 end).
Definition copy_bits (c : class) (m : bits) (b : bit) : bool := match b with Perm _ p => m (Perm c p) | _ => false end.
Fixpoint below (k : nat) (f : N -> bool) (n : N) : bool := match k with O => true | S k => f n && below k f (n + 1) end.
Lemma below_ok : forall k f n, below k f n = true -> forall x, n <= x -> x < n + N.of_nat k -> f x = true.
Proof.
  induction k as [|k IH]; intros f n H x A B; [lia|]. cbn [below] in H. apply andb_prop in H. destruct H as (H1 & H2).
  destruct (N.eq_dec x n) as [->|NE]; [exact H1|]. apply (IH f (n + 1) H2); lia.
Qed.
Lemma copied_all : forall n, n < 4096 -> forall c, copied c n = number (copy_bits c (bits_of n)).
Proof.
  assert (H : below (16 * 256) (fun n => forallb (fun c => copied c n =? number (copy_bits c (bits_of n))) [User; Group; Other]) 0 = true) by (vm_compute; reflexivity).
  intros n L c. pose proof (below_ok _ _ _ H n (N.le_0_l n)) as F. cbv beta in F.
  assert (L' : n < 0 + N.of_nat (16 * 256)) by (change (N.of_nat (16 * 256)) with 4096; lia).
  specialize (F L'). cbn [forallb] in F. apply andb_prop in F. destruct F as (F1 & F). apply andb_prop in F. destruct F as (F2 & F).
  apply andb_prop in F. destruct F as (F3 & _). destruct c; now apply N.eqb_eq.
Qed.
Lemma copied_number c m : copied c (number m) = number (copy_bits c m).
Proof.
  rewrite copied_all by apply number_lt. apply number_ext. intros b. unfold copy_bits. destruct b; auto. apply bits_of_number.
Qed.

(** ** Parsing *)
Definition rank (s : mode_state) : nat :=
  match s with MODE_CLAUSE | MODE_WHO => 1 | MODE_OP => 2 | MODE_PERM => 1 | _ => 0 end.
Definition measure (v : vars) (s : list byte) : nat := (3 * length s + rank (state v))%nat.

Section Parse.
Variable umask : N.
Notation step := (step umask).
Notation loop fuel := (loop fuel umask).

Lemma step_rank v c : match step v c with
                      | Advance v' => c <> x00 /\ (rank (state v') <= rank (state v) + 2)%nat
                      | Again v' => (rank (state v') < rank (state v))%nat
                      | _ => True
                      end.
Proof.
  unfold PermModel.step. destruct (state v) eqn:ST; cbn [rank].
  - unfold step_who. destruct c; cbn [state set_state set_who rank]; try (split; [discriminate|lia]); lia.
  - unfold step_who. destruct c; cbn [state set_state set_who rank]; rewrite ?ST; cbn [rank]; try (split; [discriminate|lia]); lia.
  - unfold step_action. destruct c; cbn [state set_state set_op rank]; try exact I; split; (discriminate || lia).
  - unfold step_action. destruct c; cbn [state set_state set_op rank]; try exact I; split; (discriminate || lia).
  - unfold step_op, spread. destruct c; cbn [state set_state rank]; try lia; split; (discriminate || lia).
  - unfold step_perm. destruct c; cbn [state set_state add_change set_change rank]; try lia; (split; [discriminate|]).
    all: repeat match goal with |- context [if ?x then _ else _] => destruct x end; cbn [state add_change set_change]; rewrite ST; cbn [rank]; lia.
Qed.

Lemma loop_enough : forall fuel v s, (measure v s < fuel)%nat -> forall fuel', (measure v s < fuel')%nat -> loop fuel v s = loop fuel' v s /\ loop fuel v s <> None.
Proof.
  induction fuel as [|fuel IH]; intros v s L fuel' L'; [lia|]. destruct fuel' as [|fuel']; [lia|]. cbn [PermModel.loop].
  pose proof (step_rank v (hd x00 s)) as H. unfold measure in *.
  destruct (step v (hd x00 s)) as [v'|v'|v'|]; try (split; [reflexivity|discriminate]).
  - destruct s as [|c s]; [now destruct H|]. cbn [hd length] in *. apply IH; destruct H; lia.
  - apply IH; lia.
Qed.

Definition eval (v : vars) (s : list byte) : option (option (N * N)) := loop (S (measure v s)) v s.
Lemma eval_eq v s : eval v s = match step v (hd x00 s) with
                               | Advance v => match s with [] => None | _ :: s => eval v s end
                               | Again v => eval v s
                               | Done v => Some (Some (file_mode v, dir_mode v))
                               | Fail => Some None
                               end.
Proof.
  unfold eval at 1. cbn [PermModel.loop]. pose proof (step_rank v (hd x00 s)) as H.
  destruct (step v (hd x00 s)) as [v'|v'|v'|]; try reflexivity.
  - destruct s as [|c s]; [reflexivity|]. unfold eval. apply loop_enough; unfold measure in *; cbn [length] in *; lia.
  - unfold eval. apply loop_enough; unfold measure in *; lia.
Qed.
Lemma eval_some v s : eval v s <> None.
Proof. unfold eval. apply loop_enough with (fuel' := S (measure v s)); lia. Qed.

(** The meaning of the syntax in the program *)
Definition letter_mask (l : letter) : N := match l with Only User => o700 | Only Group => o70 | Only Other => o7 | All => o777 end.
Definition add_letters (w : N) (ls : list letter) : N := fold_left (fun w l => N.lor w (letter_mask l)) ls w.
Definition symbol_change (v : vars) (s : symbol) : vars :=
  match step_perm v (symbol_char s) with Advance v => v | _ => v end.
Definition start_action (v : vars) : vars :=
  if who v =? 0 then set_who v o777 (N.ldiff o777 umask) else set_who v (who v) (who v).
Definition op_of (o : operator) : mode_op := match o with Plus => MODE_PLUS | Minus => MODE_MINUS | Equals => MODE_EQUALS end.
Definition argument_change (v : vars) (a : argument) : vars :=
  match a with
  | Perms l => set_state (fold_left symbol_change l (set_state (set_change v 0 0) MODE_PERM)) MODE_ACTION_APPLY
  | Copy c => set_state (set_change v (N.land (copied c (file_mode v)) (mask v)) (N.land (copied c (dir_mode v)) (mask v))) MODE_ACTION_APPLY
  end.
(** The variables before the character of the operator is looked at, and after the argument *)
Definition action_vars (v : vars) (a : action) : vars :=
  argument_change (set_op (start_action v) (op_of (fst a))) (snd a).
Fixpoint actions_vars (v : vars) (l : list action) : vars :=
  match l with [] => v | a :: l => actions_vars (apply_action (action_vars v a)) l end.

Definition not_perm (s : list byte) : Prop := match hd x00 s with "r" | "w" | "x" | "X" | "s" | "t" => False | _ => True end%byte.

Lemma eval_perms : forall l v s, state v = MODE_PERM -> not_perm s ->
  eval v (map symbol_char l ++ s) = eval (set_state (fold_left symbol_change l v) MODE_ACTION_APPLY) s.
Proof.
  induction l as [|x l IH]; intros v s ST NP; cbn [map app fold_left].
  - rewrite eval_eq. unfold PermModel.step. rewrite ST. unfold step_perm, not_perm in *. destruct (hd x00 s); try reflexivity; destruct NP.
  - rewrite eval_eq. cbn [hd]. unfold PermModel.step. rewrite ST.
    assert (H : exists v', step_perm v (symbol_char x) = Advance v' /\ state v' = MODE_PERM).
    { unfold step_perm. destruct x; cbn [symbol_char]; eexists; (split; [reflexivity|]); cbn; rewrite ?ST; auto.
      - destruct (N.land (who v) o700 =? 0); destruct (N.land _ o70 =? 0); exact ST.
      - destruct (N.land _ o7 =? 0); exact ST. }
    destruct H as (v' & E & ST'). unfold symbol_change at 2. rewrite E. now apply IH.
Qed.

Definition not_copy (s : list byte) : Prop := match hd x00 s with "u" | "g" | "o" => False | _ => True end%byte.
Lemma eval_argument a v s : state v = MODE_OP -> not_perm s -> not_copy s ->
  eval v (match a with Perms l => map symbol_char l | Copy c => [class_char c] end ++ s) = eval (argument_change v a) s.
Proof.
  intros ST NP NC. destruct a as [l|c].
  - rewrite eval_eq. unfold PermModel.step. rewrite ST.
    assert (H : step_op v (hd x00 (map symbol_char l ++ s)) = Again (set_state (set_change v 0 0) MODE_PERM)).
    { unfold step_op. destruct l as [|x l]; cbn [map app hd]; [unfold not_copy in NC; destruct (hd x00 s); try reflexivity; destruct NC|].
      destruct x; reflexivity. }
    rewrite H. now apply eval_perms.
  - cbn [app]. rewrite eval_eq. cbn [hd]. unfold PermModel.step. rewrite ST. destruct c; reflexivity.
Qed.

Definition more (s : list byte) : Prop := match hd x00 s with "+" | "-" | "=" | "," | x00 => True | _ => False end%byte.
Lemma more_ok s : more s -> not_perm s /\ not_copy s.
Proof. unfold more, not_perm, not_copy. destruct (hd x00 s); tauto. Qed.

Lemma eval_action a v s : state v = MODE_ACTION -> more s -> eval v (action_text a ++ s) = eval (action_vars v a) s.
Proof.
  intros ST M. destruct a as (o & x). unfold action_text, action_vars. cbn [fst snd app]. rewrite eval_eq. cbn [hd].
  unfold PermModel.step. rewrite ST. unfold step_action. fold (start_action v).
  destruct (more_ok s M) as (NP & NC).
  destruct o; cbn [operator_char]; apply eval_argument; auto.
Qed.

(** After an action the next one starts as before, except for the state *)
Lemma eval_apply a v s : state v = MODE_ACTION_APPLY -> more s -> eval v (action_text a ++ s) = eval (action_vars (apply_action v) a) s.
Proof.
  intros ST M. destruct a as (o & x). unfold action_text, action_vars. cbn [fst snd app]. rewrite eval_eq. cbn [hd].
  unfold PermModel.step. rewrite ST. unfold step_action. fold (start_action (apply_action v)).
  destruct (more_ok s M) as (NP & NC).
  destruct o; cbn [operator_char]; apply eval_argument; auto.
Qed.

Lemma action_state v a : state (action_vars v a) = MODE_ACTION_APPLY.
Proof. unfold action_vars, argument_change. destruct (snd a); reflexivity. Qed.
Lemma more_actions l s : match hd x00 s with "," | x00 => True | _ => False end%byte -> more (flat_map action_text l ++ s).
Proof.
  intros H. destruct l as [|(o & x) l]; cbn.
  - unfold more. destruct (hd x00 s); tauto.
  - destruct o; exact I.
Qed.

Lemma eval_actions : forall l v s, state v = MODE_ACTION_APPLY -> match hd x00 s with "," | x00 => True | _ => False end%byte ->
  eval v (flat_map action_text l ++ s) =
  match s with
  | [] => Some (Some (let v := actions_vars (apply_action v) l in (file_mode v, dir_mode v)))
  | _ => eval (set_state (start_action (actions_vars (apply_action v) l)) MODE_CLAUSE) (tl s)
  end \/ In x00 s.
Proof.
  induction l as [|a l IH]; intros v s ST H; cbn [flat_map app actions_vars].
  - rewrite eval_eq. unfold PermModel.step. rewrite ST. unfold step_action. fold (start_action (apply_action v)).
    destruct s as [|c s]; cbn [hd tl] in *; [|destruct c; try destruct H; [right; now left|left; reflexivity]].
    left. unfold start_action. destruct (who (apply_action v) =? 0); reflexivity.
  - rewrite <- app_assoc. rewrite eval_apply; [|exact ST|now apply more_actions].
    apply IH; [apply action_state|exact H].
Qed.

Lemma eval_who : forall ls v s, state v = MODE_WHO -> match hd x00 s with "+" | "-" | "=" => True | _ => False end%byte ->
  eval v (map letter_char ls ++ s) = eval (set_state (set_who v (add_letters (who v) ls) (mask v)) MODE_ACTION) s.
Proof.
  induction ls as [|l ls IH]; intros v s ST H; cbn [map app add_letters fold_left].
  - rewrite eval_eq. unfold PermModel.step. rewrite ST. unfold step_who. destruct (hd x00 s); try destruct H; now destruct v.
  - rewrite eval_eq. cbn [hd]. unfold PermModel.step. rewrite ST.
    assert (E : step_who v (letter_char l) = Advance (set_who v (N.lor (who v) (letter_mask l)) (mask v))) by (destruct l as [[]|]; reflexivity).
    rewrite E. rewrite IH; [reflexivity|exact ST|exact H].
Qed.

(** A clause, and the modes after it *)
Definition clause_vars (v : vars) (c : clause) : vars :=
  actions_vars (set_state (set_who v (add_letters 0 (fst c)) o777) MODE_ACTION) (snd c).

Lemma apply_who v : who (apply_action v) = who v /\ mask (apply_action v) = mask v.
Proof. unfold apply_action. destruct (op v); auto. Qed.

Lemma eval_clause c v s : snd c <> [] -> state v = MODE_CLAUSE -> ~ In x00 s -> match hd x00 s with "," | x00 => True | _ => False end%byte ->
  eval v (clause_text c ++ s) =
  match s with
  | [] => Some (Some (file_mode (clause_vars v c), dir_mode (clause_vars v c)))
  | _ => eval (set_state (start_action (clause_vars v c)) MODE_CLAUSE) (tl s)
  end.
Proof.
  intros NE ST N0 H. destruct c as (ls & acts). unfold clause_text, clause_vars. cbn [fst snd] in *.
  destruct acts as [|a acts]; [contradiction|]. rewrite <- app_assoc.
  assert (E : eval v (map letter_char ls ++ flat_map action_text (a :: acts) ++ s) =
              eval (set_state (set_who v 0 o777) MODE_WHO) (map letter_char ls ++ flat_map action_text (a :: acts) ++ s)).
  { rewrite eval_eq. rewrite (eval_eq (set_state _ _)). unfold PermModel.step. rewrite ST. reflexivity. }
  rewrite E. rewrite eval_who; [|reflexivity|cbn; destruct a as ([] & ?); exact I].
  cbn [flat_map actions_vars]. rewrite <- app_assoc. rewrite eval_action; [|reflexivity|now apply more_actions].
  destruct (eval_actions acts (action_vars (set_state (set_who (set_state (set_who v 0 o777) MODE_WHO)
     (add_letters (who (set_state (set_who v 0 o777) MODE_WHO)) ls) (mask (set_state (set_who v 0 o777) MODE_WHO))) MODE_ACTION) a) s) as [->|K];
    [apply action_state|exact H| |contradiction].
  reflexivity.
Qed.

Fixpoint mode_vars (v : vars) (l : list clause) : vars :=
  match l with [] => v | [c] => clause_vars v c | c :: l => mode_vars (set_state (start_action (clause_vars v c)) MODE_CLAUSE) l end.

Lemma text_no_nul l : ~ In x00 (mode_text l).
Proof.
  assert (C : forall c, ~ In x00 (clause_text c)).
  { intros (ls & acts) I. unfold clause_text in I. cbn [fst snd] in I. apply in_app_or in I. destruct I as [I|I].
    - apply in_map_iff in I. destruct I as (l0 & E & _). destruct l0 as [[]|]; discriminate.
    - apply in_flat_map in I. destruct I as ((o & a) & _ & [E|I]); [destruct o; discriminate|]. destruct a as [ps|c].
      + apply in_map_iff in I. destruct I as (p & E & _). destruct p; discriminate.
      + destruct I as [E|[]]. destruct c; discriminate. }
  induction l as [|c l IH]; [intros []|]. destruct l as [|d l]; [apply C|]. intros I. apply in_app_or in I. destruct I as [I|[E|I]]; [now apply C in I|discriminate|auto].
Qed.

Lemma eval_mode : forall l v, well_formed l -> state v = MODE_CLAUSE ->
  eval v (mode_text l) = Some (Some (file_mode (mode_vars v l), dir_mode (mode_vars v l))).
Proof.
  induction l as [|c l IH]; intros v (NE & F) ST; [contradiction|]. inversion F as [|? ? F1 F2]; subst.
  destruct l as [|d l].
  - cbn [mode_text mode_vars]. rewrite <- (app_nil_r (clause_text c)). rewrite eval_clause; auto. exact I.
  - change (mode_text (c :: d :: l)) with (clause_text c ++ ","%byte :: mode_text (d :: l)). rewrite eval_clause; auto; [|intros [E|E]; [discriminate|now apply text_no_nul in E]|exact I].
    cbn [tl]. change (mode_vars v (c :: d :: l)) with (mode_vars (set_state (start_action (clause_vars v c)) MODE_CLAUSE) (d :: l)).
    apply IH; [split; [discriminate|exact F2]|reflexivity].
Qed.

(** *** Only these strings are accepted *)
Definition tail_text (t : list byte) : Prop := t = [] \/ exists l, well_formed l /\ t = ","%byte :: mode_text l.
Definition language (st : mode_state) (s : list byte) : Prop :=
  exists t, tail_text t /\
  match st with
  | MODE_CLAUSE | MODE_WHO => exists ls acts, acts <> [] /\ s = map letter_char ls ++ flat_map action_text acts ++ t
  | MODE_ACTION => exists acts, acts <> [] /\ s = flat_map action_text acts ++ t
  | MODE_ACTION_APPLY => exists acts, s = flat_map action_text acts ++ t
  | MODE_OP => exists a acts, s = match a with Perms l => map symbol_char l | Copy c => [class_char c] end ++ flat_map action_text acts ++ t
  | MODE_PERM => exists l acts, s = map symbol_char l ++ flat_map action_text acts ++ t
  end.

Lemma clause_language s : language MODE_CLAUSE s <-> exists l, well_formed l /\ s = mode_text l.
Proof.
  split.
  - intros (t & [-> | (l & W & ->)] & ls & acts & NE & ->).
    + exists [(ls, acts)]. split; [split; [discriminate|constructor; auto]|]. now rewrite app_nil_r.
    + exists ((ls, acts) :: l). split; [destruct W; split; [discriminate|constructor; auto]|]. destruct l; [destruct W as ([] & _); reflexivity|].
      unfold mode_text at 2. fold mode_text. unfold clause_text. cbn [fst snd]. now rewrite <- app_assoc.
  - intros (l & (NE & F) & ->). destruct l as [|(ls & acts) l]; [contradiction|]. inversion F as [|? ? F1 F2]; subst. cbn [snd] in F1.
    destruct l as [|d l].
    + exists []. split; [now left|]. exists ls, acts. split; [exact F1|]. now rewrite app_nil_r.
    + exists (","%byte :: mode_text (d :: l)). split; [right; exists (d :: l); split; [split; [discriminate|exact F2]|reflexivity]|].
      exists ls, acts. split; [exact F1|]. change (mode_text ((ls, acts) :: d :: l)) with (clause_text (ls, acts) ++ ","%byte :: mode_text (d :: l)).
      unfold clause_text. cbn [fst snd]. now rewrite <- app_assoc.
Qed.

Lemma accepted_language : forall fuel v s r, ~ In x00 s -> loop fuel v s = Some (Some r) -> language (state v) s.
Proof.
  induction fuel as [|fuel IH]; intros v s r N0; [discriminate|]. cbn [PermModel.loop].
  assert (AG : forall v', step v (hd x00 s) = Again v' -> loop fuel v' s = Some (Some r) -> language (state v') s) by (intros v' _; now apply (IH v' s r)).
  assert (AD : forall v' c s', step v (hd x00 s) = Advance v' -> s = c :: s' -> loop fuel v' s' = Some (Some r) -> language (state v') s').
  { intros v' c s' _ E. apply (IH v' s' r). intros I. apply N0. subst s. now right. }
  clear IH.
  destruct s as [|c s]; cbn [hd] in *.
  - (* the end *)
    destruct (step v x00) as [v'|v'|v'|] eqn:E; try discriminate.
    + intros L. specialize (AG v' eq_refl L). clear AD L. unfold PermModel.step, step_who, step_action, step_op, step_perm in E.
      destruct (state v); try discriminate; injection E as <-; cbn [state set_state set_change set_who] in AG; destruct AG as (t & T & AG); exists t; (split; [exact T|]).
      * destruct AG as (acts & NE & E). exists [], acts. auto.
      * destruct AG as (acts & NE & E). exists [], acts. auto.
      * destruct AG as (l & acts & E). exists (Perms l), acts. auto.
      * destruct AG as (acts & E). exists [], acts. auto.
    + intros _. unfold PermModel.step, step_who, step_action, step_op, step_perm in E. destruct (state v); try discriminate.
      exists []. split; [now left|]. exists []. reflexivity.
  - assert (NZ : c <> x00) by (intros ->; apply N0; now left).
    destruct (step v c) as [v'|v'|v'|] eqn:E; try discriminate.
    + intros L. specialize (AD v' c s eq_refl eq_refl L). clear AG L.
      unfold PermModel.step, step_who, step_action, step_op, step_perm, spread in E.
      destruct (state v) eqn:ST.
      * (* clause *)
        assert (H : exists l, letter_char l = c /\ state v' = MODE_WHO)
          by (destruct c; try discriminate E; injection E as <-; [exists All|exists (Only Group)|exists (Only Other)|exists (Only User)]; auto).
        destruct H as (l & <- & SV). rewrite SV in AD. destruct AD as (t & T & ls & acts & NE & ->). exists t. split; [exact T|]. exists (l :: ls), acts. auto.
      * assert (H : exists l, letter_char l = c /\ state v' = MODE_WHO)
          by (destruct c; try discriminate E; injection E as <-; [exists All|exists (Only Group)|exists (Only Other)|exists (Only User)]; auto).
        destruct H as (l & <- & SV). rewrite SV in AD. destruct AD as (t & T & ls & acts & NE & ->). exists t. split; [exact T|]. exists (l :: ls), acts. auto.
      * assert (H : exists o, operator_char o = c /\ state v' = MODE_OP)
          by (destruct c; try discriminate E; injection E as <-; [exists Plus|exists Minus|exists Equals]; auto).
        destruct H as (o & <- & SV). rewrite SV in AD. destruct AD as (t & T & a & acts & ->). exists t. split; [exact T|]. exists ((o, a) :: acts). split; [discriminate|].
        cbn [flat_map]. unfold action_text. cbn [fst snd app]. now rewrite <- app_assoc.
      * assert (H : (exists o, operator_char o = c /\ state v' = MODE_OP) \/ c = ","%byte /\ state v' = MODE_CLAUSE)
          by (destruct c; try discriminate E; injection E as <-; [left; exists Plus|right|left; exists Minus|left; exists Equals]; auto).
        destruct H as [(o & <- & SV)|(-> & SV)]; rewrite SV in AD.
        -- destruct AD as (t & T & a & acts & ->). exists t. split; [exact T|]. exists ((o, a) :: acts).
           cbn [flat_map]. unfold action_text. cbn [fst snd app]. now rewrite <- app_assoc.
        -- apply clause_language in AD. destruct AD as (l & W & ->). exists (","%byte :: mode_text l). split; [right; eauto|]. exists []. reflexivity.
      * assert (H : exists k, class_char k = c /\ state v' = MODE_ACTION_APPLY)
          by (destruct c; try discriminate E; injection E as <-; [exists Group|exists Other|exists User]; auto).
        destruct H as (k & <- & SV). rewrite SV in AD. destruct AD as (t & T & acts & ->). exists t. split; [exact T|]. exists (Copy k), acts. reflexivity.
      * assert (H : exists k, symbol_char k = c /\ state v' = MODE_PERM).
        { destruct c; try discriminate E; injection E as <-; [exists SX|exists Sr|exists Ss|exists St|exists Sw|exists Sx]; (split; [reflexivity|]); cbn; rewrite ?ST; auto.
          - destruct (N.land (who v) o700 =? 0), (N.land _ o70 =? 0); exact ST.
          - destruct (N.land _ o7 =? 0); exact ST. }
        destruct H as (k & <- & SV). rewrite SV in AD. destruct AD as (t & T & l & acts & ->). exists t. split; [exact T|]. exists (k :: l), acts. reflexivity.
    + intros L. specialize (AG v' eq_refl L). clear AD L.
      assert (H : (state v = MODE_CLAUSE \/ state v = MODE_WHO) /\ state v' = MODE_ACTION \/ state v = MODE_OP /\ state v' = MODE_PERM \/ state v = MODE_PERM /\ state v' = MODE_ACTION_APPLY).
      { unfold PermModel.step, step_who, step_action, step_op, step_perm, spread in E.
        destruct (state v); destruct c; try discriminate E; injection E as <-; cbn; auto 6. }
      destruct H as [([-> | ->] & SV)|[(-> & SV)|(-> & SV)]]; rewrite SV in AG; destruct AG as (t & T & AG); exists t; (split; [exact T|]).
      * destruct AG as (acts & NE & E'). exists [], acts. auto.
      * destruct AG as (acts & NE & E'). exists [], acts. auto.
      * destruct AG as (l & acts & E'). exists (Perms l), acts. auto.
      * destruct AG as (acts & E'). exists [], acts. auto.
    + exfalso. unfold PermModel.step, step_who, step_action, step_op, step_perm, spread in E. destruct (state v); destruct c; try discriminate E; contradiction.
Qed.

(** ** The meaning *)
Definition who_bits (g : class -> bool) (b : bit) : bool := match b with Perm c _ => g c | _ => false end.
Definition special (g : class -> bool) (b : bit) : bool := match b with Suid => g User | Sgid => g Group | Sticky => g Other | _ => false end.
Lemma who_zero g c : (N.land (number (who_bits g)) (match c with User => o700 | Group => o70 | Other => o7 end) =? 0) = negb (g c).
Proof.
  assert (E : match c with User => o700 | Group => o70 | Other => o7 end = number (who_bits (class_eqb c))) by (destruct c; vm_compute; reflexivity).
  rewrite E, land_number, number_zero. f_equal. destruct c; cbn; destruct (g User), (g Group), (g Other); reflexivity.
Qed.

Definition added (dir : bool) (g : class -> bool) (mb : bits) (s : symbol) (b : bit) : bool :=
  symbol_bit dir s b && (if is_perm b then mb b else special g b).

Lemma symbol_change_ok g mb v s f d : state v = MODE_PERM -> who v = number (who_bits g) -> mask v = number (fun b => is_perm b && mb b) ->
  file_change v = number f -> dir_change v = number d ->
  exists f' d', symbol_change v s = set_change v (number f') (number d') /\
    (forall b, f' b = f b || added false g mb s b) /\ (forall b, d' b = d b || added true g mb s b).
Proof.
  intros ST WH MK FC DC. unfold symbol_change, step_perm.
  assert (E4 : o444 = number (fun b => match b with Perm _ R => true | _ => false end)) by (vm_compute; reflexivity).
  assert (E2 : o222 = number (fun b => match b with Perm _ W => true | _ => false end)) by (vm_compute; reflexivity).
  assert (E1 : o111 = number (fun b => match b with Perm _ X => true | _ => false end)) by (vm_compute; reflexivity).
  assert (EU : S_ISUID = number (fun b => match b with Suid => true | _ => false end)) by (vm_compute; reflexivity).
  assert (EG : S_ISGID = number (fun b => match b with Sgid => true | _ => false end)) by (vm_compute; reflexivity).
  assert (ET : S_ISVTX = number (fun b => match b with Sticky => true | _ => false end)) by (vm_compute; reflexivity).
  pose proof (who_zero g User) as ZU. pose proof (who_zero g Group) as ZG. pose proof (who_zero g Other) as ZO. cbv iota in ZU, ZG, ZO.
  destruct s; cbn [symbol_char]; unfold add_change; cbn [file_change dir_change set_change who].
  1-4: rewrite FC, DC, ?MK, ?E4, ?E2, ?E1, ?land_number, ?lor_number, ?N.lor_0_r; eexists _, _; (split; [reflexivity|]);
       (split; intros b; unfold added; destruct b as [? []| | |]; cbn [symbol_bit is_perm andb]; rewrite ?andb_true_r, ?andb_false_r, ?orb_false_r; reflexivity).
  - rewrite WH, ZU, EU, EG. destruct (g User) eqn:GU; cbn [negb who file_change dir_change set_change]; rewrite ?WH, ZG; destruct (g Group) eqn:GG;
      cbn [negb file_change dir_change set_change]; rewrite ?FC, ?DC, ?lor_number.
    4: { exists f, d. split; [destruct v; cbn in *; now subst|]. split; intros b; unfold added; destruct b; cbn [symbol_bit is_perm special]; rewrite ?GU, ?GG, ?andb_false_r, ?orb_false_r; reflexivity. }
    all: eexists _, _; (split; [reflexivity|]);
      (split; intros b; unfold added; destruct b as [? []| | |]; cbn [symbol_bit is_perm special andb]; rewrite ?GU, ?GG, ?orb_false_r; reflexivity).
  - rewrite WH, ZO, ET. destruct (g Other) eqn:GO; cbn [negb file_change dir_change set_change]; rewrite ?FC, ?DC, ?lor_number.
    2: { exists f, d. split; [destruct v; cbn in *; now subst|]. split; intros b; unfold added; destruct b; cbn [symbol_bit is_perm special]; rewrite ?GO, ?andb_false_r, ?orb_false_r; reflexivity. }
    eexists _, _; (split; [reflexivity|]);
      (split; intros b; unfold added; destruct b as [? []| | |]; cbn [symbol_bit is_perm special andb]; rewrite ?GO, ?orb_false_r; reflexivity).
Qed.

Lemma symbols_change_ok g mb : forall l v f d, state v = MODE_PERM -> who v = number (who_bits g) -> mask v = number (fun b => is_perm b && mb b) ->
  file_change v = number f -> dir_change v = number d ->
  exists f' d', fold_left symbol_change l v = set_change v (number f') (number d') /\
    (forall b, f' b = f b || existsb (fun s => added false g mb s b) l) /\ (forall b, d' b = d b || existsb (fun s => added true g mb s b) l).
Proof.
  induction l as [|s l IH]; intros v f d ST WH MK FC DC; cbn [fold_left existsb].
  - exists f, d. split; [destruct v; cbn in *; now subst|]. split; intros b; now rewrite orb_false_r.
  - destruct (symbol_change_ok g mb v s f d ST WH MK FC DC) as (f1 & d1 & E & F1 & D1). rewrite E.
    destruct (IH (set_change v (number f1) (number d1)) f1 d1) as (f2 & d2 & E2 & F2 & D2); auto.
    exists f2, d2. split; [exact E2|]. split; intros b; [rewrite F2, F1|rewrite D2, D1]; now rewrite orb_assoc.
Qed.

(** The change of an action, with the classes in [g], and the permissions [mb] left *)
Definition impl_change (dir : bool) (g : class -> bool) (mb m : bits) (a : argument) (b : bit) : bool :=
  argument_bit dir m a b && (if is_perm b then mb b else special g b).

Lemma argument_ok g mb v a mf md : who v = number (who_bits g) -> mask v = number (fun b => is_perm b && mb b) ->
  file_mode v = number mf -> dir_mode v = number md ->
  exists f d, argument_change v a = set_state (set_change v (number f) (number d)) MODE_ACTION_APPLY /\
    (forall b, f b = impl_change false g mb mf a b) /\ (forall b, d b = impl_change true g mb md a b).
Proof.
  intros WH MK FM DM. destruct a as [l|c]; cbn [argument_change].
  - destruct (symbols_change_ok g mb l (set_state (set_change v 0 0) MODE_PERM) no_bits no_bits) as (f & d & E & F & D); auto.
    exists f, d. rewrite E. split; [reflexivity|].
    assert (K : forall dir m b, existsb (fun s => added dir g mb s b) l = impl_change dir g mb m (Perms l) b).
    { intros dir m b. unfold impl_change, added, argument_bit. generalize (if is_perm b then mb b else special g b). intros x.
      clear. induction l as [|s l IH]; cbn [existsb]; [reflexivity|]. rewrite IH. symmetry. apply andb_orb_distrib_l. }
    split; intros b; [rewrite F|rewrite D]; cbn [no_bits orb]; apply K.
  - rewrite FM, DM, MK, !copied_number, !land_number. eexists _, _. split; [reflexivity|].
    split; intros b; unfold impl_change, copy_bits, argument_bit; destruct b; cbn [is_perm andb]; reflexivity.
Qed.

Definition impl_action (dir : bool) (g : class -> bool) (mb m : bits) (a : action) : bits :=
  let ch := impl_change dir g mb m (snd a) in
  match fst a with
  | Plus => fun b => m b || ch b
  | Minus => fun b => m b && negb (ch b)
  | Equals => fun b => m b && negb (who_bits g b) || ch b
  end.

Lemma action_ok g mb v a mf md : who (start_action v) = number (who_bits g) -> mask (start_action v) = number (fun b => is_perm b && mb b) ->
  file_mode v = number mf -> dir_mode v = number md ->
  let v' := apply_action (action_vars v a) in
  who v' = number (who_bits g) /\ file_mode v' = number (impl_action false g mb mf a) /\ dir_mode v' = number (impl_action true g mb md a).
Proof.
  intros WH MK FM DM. unfold action_vars. destruct a as (o & x). cbn [fst snd].
  destruct (argument_ok g mb (set_op (start_action v) (op_of o)) x mf md) as (f & d & -> & F & D); auto.
  1-2: unfold start_action; destruct (who v =? 0); assumption.
  assert (FM' : file_mode (start_action v) = number mf) by (unfold start_action; destruct (who v =? 0); assumption).
  assert (DM' : dir_mode (start_action v) = number md) by (unfold start_action; destruct (who v =? 0); assumption).
  unfold apply_action, impl_action. destruct o; cbn [op_of op set_op set_state set_change who set_mode file_mode dir_mode file_change dir_change fst snd];
    rewrite FM', DM', WH, ?ldiff_number, ?lor_number; split; [reflexivity| |reflexivity| |reflexivity|];
    split; apply number_ext; intros b; rewrite ?F, ?D; reflexivity.
Qed.

(** The classes of a clause *)
Definition named (ls : list letter) (c : class) : bool := existsb (fun l => match l with Only d => class_eqb c d | All => true end) ls.
Lemma add_letters_ok : forall ls g, add_letters (number (who_bits g)) ls = number (who_bits (fun c => g c || named ls c)).
Proof.
  induction ls as [|l ls IH]; intros g; cbn [add_letters fold_left named existsb].
  - apply number_ext. intros []; cbn; now rewrite ?orb_false_r.
  - assert (E : letter_mask l = number (who_bits (fun c => match l with Only d => class_eqb c d | All => true end))) by (destruct l as [[]|]; vm_compute; reflexivity).
    rewrite E, lor_number.
    rewrite (number_ext _ (who_bits (fun c => g c || match l with Only d => class_eqb c d | All => true end))) by (intros []; reflexivity).
    fold (add_letters (number (who_bits (fun c => g c || match l with Only d => class_eqb c d | All => true end))) ls). rewrite IH.
    apply number_ext. intros []; cbn; now rewrite ?orb_assoc.
Qed.
Lemma who_none : number (who_bits (fun _ => false)) = 0.
Proof. vm_compute. reflexivity. Qed.
Lemma clause_who ls : add_letters 0 ls = number (who_bits (named ls)).
Proof. rewrite <- who_none, add_letters_ok. reflexivity. Qed.
Lemma who_nonzero g : number (who_bits g) =? 0 = negb (g User || g Group || g Other).
Proof. rewrite number_zero. cbn. destruct (g User), (g Group), (g Other); reflexivity. Qed.
Lemma named_some ls : ls <> [] -> named ls User || named ls Group || named ls Other = true.
Proof. destruct ls as [|[[]|] ls]; [contradiction| | | |]; intros _; cbn; rewrite ?orb_true_r; reflexivity. Qed.

Lemma impl_spec dir um ls m a b : (forall b, is_perm b = false -> fst a = Equals -> of_who ls b = true -> m b = false) ->
  impl_action dir (chosen ls) (fun b => of_who ls b && unmasked um ls b) m a b = chmod_action dir um ls m a b.
Proof.
  intros EQ. unfold impl_action, chmod_action.
  assert (C : forall b, impl_change dir (chosen ls) (fun b => of_who ls b && unmasked um ls b) m (snd a) b = change dir um ls m (snd a) b).
  { intros b0. unfold impl_change, change. rewrite <- andb_assoc. f_equal. destruct b0 as [c p| | |]; cbn [is_perm negb orb]; [reflexivity|..]; cbn [special of_who]; now rewrite andb_true_r. }
  specialize (EQ b). destruct (fst a) eqn:O; rewrite C; auto. f_equal. destruct b as [c p| | |]; [reflexivity|..]; cbn [who_bits is_perm of_who] in *.
  all: match goal with |- context [chosen ?l ?k] => destruct (chosen l k); [rewrite EQ by auto; reflexivity|reflexivity] end.
Qed.

Lemma actions_ok um ls : (forall b, um b = bits_of umask b) -> forall acts v mf md,
  (ls = [] -> length acts <= 1 \/ (forall b, is_perm b = true -> um b = false))%nat ->
  who v = number (who_bits (named ls)) \/ ls = [] /\ who v = o777 /\ (acts = [] \/ forall b, is_perm b = true -> um b = false) ->
  file_mode v = number mf -> dir_mode v = number md ->
  equals_ok_actions false um ls acts mf -> equals_ok_actions true um ls acts md ->
  let v' := actions_vars v acts in
  file_mode v' = number (fold_left (chmod_action false um ls) acts mf) /\ dir_mode v' = number (fold_left (chmod_action true um ls) acts md).
Proof.
  intros UM. induction acts as [|a acts IH]; intros v mf md LEN WH FM DM EF ED; cbn [actions_vars fold_left]; [auto|].
  cbn [equals_ok_actions] in EF, ED. destruct EF as (EF & EF'), ED as (ED & ED').
  assert (O7 : o777 = number (who_bits (fun _ => true))) by (vm_compute; reflexivity).
  assert (ST : who (start_action v) = number (who_bits (chosen ls)) /\ mask (start_action v) = number (fun b => is_perm b && (of_who ls b && unmasked um ls b))).
  { unfold start_action. destruct ls as [|l ls].
    - assert (WC : number (who_bits (chosen [])) = o777) by (vm_compute; reflexivity).
      assert (E : (forall b, is_perm b = true -> um b = false) -> number (fun b => is_perm b && (of_who [] b && unmasked um [] b)) = o777).
      { intros U. rewrite O7. apply number_ext. intros [c p| | |]; try reflexivity. cbn. now rewrite U. }
      destruct WH as [WH|(_ & WH & K)]; rewrite WH.
      + change (number (who_bits (named []))) with 0. change (0 =? 0) with true. cbn [who mask set_who]. rewrite WC. split; [reflexivity|]. rewrite O7, ldiff_number_l. apply number_ext. intros [c p| | |]; try reflexivity. cbn. now rewrite UM.
      + change (o777 =? 0) with false. cbn [who mask set_who]. rewrite WC. destruct K as [|K]; [discriminate|]. now rewrite E.
    - destruct WH as [WH|(? & _)]; [|discriminate]. rewrite WH, who_nonzero, named_some by discriminate. cbn [negb who mask set_who]. split; [reflexivity|].
      apply number_ext. intros [c p| | |]; try reflexivity. cbn [who_bits is_perm of_who unmasked andb]. now rewrite andb_true_r. }
  destruct ST as (SW & SM).
  destruct (action_ok (chosen ls) (fun b => of_who ls b && unmasked um ls b) v a mf md SW SM FM DM) as (W' & F' & D').
  assert (NF : file_mode (apply_action (action_vars v a)) = number (chmod_action false um ls mf a)) by (rewrite F'; apply number_ext; intros b; apply impl_spec; auto).
  assert (ND : dir_mode (apply_action (action_vars v a)) = number (chmod_action true um ls md a)) by (rewrite D'; apply number_ext; intros b; apply impl_spec; auto).
  apply IH; auto.
  - intros L. destruct (LEN L) as [H|H]; [left; cbn [length] in H; lia|now right].
  - destruct ls as [|l ls]; [right|left; exact W']. split; [reflexivity|]. split; [rewrite W'; vm_compute; reflexivity|].
    destruct (LEN eq_refl) as [H|H]; [left; cbn [length] in H; destruct acts; [reflexivity|cbn [length] in H; lia]|now right].
Qed.

Lemma start_modes v : file_mode (start_action v) = file_mode v /\ dir_mode (start_action v) = dir_mode v.
Proof. unfold start_action. destruct (who v =? 0); auto. Qed.

Lemma clause_ok um c v mf md : (forall b, um b = bits_of umask b) ->
  (fst c = [] -> length (snd c) <= 1 \/ (forall b, is_perm b = true -> um b = false))%nat ->
  file_mode v = number mf -> dir_mode v = number md ->
  equals_ok_actions false um (fst c) (snd c) mf -> equals_ok_actions true um (fst c) (snd c) md ->
  file_mode (clause_vars v c) = number (chmod_clause false um mf c) /\ dir_mode (clause_vars v c) = number (chmod_clause true um md c).
Proof.
  intros UM LEN FM DM EF ED. unfold clause_vars, chmod_clause. apply actions_ok; auto. left. cbn [who set_who set_state]. apply clause_who.
Qed.

Lemma mode_ok um : (forall b, um b = bits_of umask b) -> forall l v mf md, l <> [] ->
  umask_ok um l -> file_mode v = number mf -> dir_mode v = number md -> equals_ok false um l mf -> equals_ok true um l md ->
  file_mode (mode_vars v l) = number (chmod false um l mf) /\ dir_mode (mode_vars v l) = number (chmod true um l md).
Proof.
  intros UM. induction l as [|c l IH]; intros v mf md NE UK FM DM EF ED; [contradiction|]. destruct EF as (EF & EF'), ED as (ED & ED').
  assert (CL : (fst c = [] -> length (snd c) <= 1 \/ (forall b, is_perm b = true -> um b = false))%nat).
  { destruct UK as [U|U]; [now right|]. inversion U; subst. auto. }
  assert (UK' : umask_ok um l) by (destruct UK as [U|U]; [now left|right; now inversion U]).
  destruct (clause_ok um c v mf md UM CL FM DM EF ED) as (CF & CD).
  destruct l as [|d l]; [now split|].
  change (mode_vars v (c :: d :: l)) with (mode_vars (set_state (start_action (clause_vars v c)) MODE_CLAUSE) (d :: l)).
  unfold chmod. cbn [fold_left]. apply (IH (set_state (start_action (clause_vars v c)) MODE_CLAUSE) (chmod_clause false um mf c) (chmod_clause true um md c)); auto; [discriminate|..].
  - cbn [file_mode set_state]. now rewrite (proj1 (start_modes _)).
  - cbn [dir_mode set_state]. now rewrite (proj2 (start_modes _)).
Qed.
End Parse.

(** ** The theorems *)
Lemma loop_eval umask v s fuel : (measure v s < fuel)%nat -> loop fuel umask v s = eval umask v s.
Proof. intros L. unfold eval. apply loop_enough; lia. Qed.

Lemma text_digit l : is_digit (mode_text l) = false.
Proof.
  assert (C : forall c s, s = [] \/ hd x00 s = ","%byte -> is_digit (clause_text c ++ s) = false).
  { intros (ls & acts) s E. unfold clause_text. cbn [fst snd]. destruct ls as [|l0 ls]; [|destruct l0 as [[]|]; reflexivity].
    destruct acts as [|([] & a) acts]; try reflexivity. cbn. destruct s as [|c s]; [reflexivity|]. destruct E as [E|E]; [discriminate|]. cbn in E. now subst c. }
  destruct l as [|c [|d l]]; [reflexivity| |].
  - cbn [mode_text]. rewrite <- (app_nil_r (clause_text c)). apply C. now left.
  - apply C. now right.
Qed.

Lemma parse_text isspace umask l : well_formed l ->
  exists r, parse_mode isspace umask (mode_text l) = Some (Some r).
Proof.
  intros W. unfold parse_mode. rewrite text_digit, loop_eval by (unfold measure; cbn [rank state init]; lia). rewrite eval_mode; eauto.
Qed.

Lemma modes isspace umask l : well_formed l ->
  umask_ok (bits_of umask) l -> equals_ok false (bits_of umask) l no_bits -> equals_ok true (bits_of umask) l no_bits ->
  parse_mode isspace umask (mode_text l) =
  Some (Some (number (chmod false (bits_of umask) l no_bits), number (chmod true (bits_of umask) l no_bits))).
Proof.
  intros W U EF ED. unfold parse_mode. rewrite text_digit, loop_eval by (unfold measure; cbn [rank state init]; lia).
  rewrite eval_mode by auto. destruct (mode_ok umask (bits_of umask) (fun _ => eq_refl) l init no_bits no_bits) as (F & D); auto; [now destruct W|].
  now rewrite F, D.
Qed.

Lemma symbolic isspace umask s : ~ In x00 s -> is_digit s = false ->
  (exists r, parse_mode isspace umask s = Some (Some r)) <-> exists l, well_formed l /\ s = mode_text l.
Proof.
  intros N0 D. split.
  - intros (r & H). unfold parse_mode in H. rewrite D in H. apply accepted_language in H; [|exact N0]. now apply clause_language in H.
  - intros (l & W & ->). now apply parse_text.
Qed.

Lemma total isspace umask s : parse_mode isspace umask s <> None.
Proof.
  unfold parse_mode. destruct (is_digit s).
  - destruct (parse_int isspace 8 IF_INT true false s) as [(n & ?)|]; [destruct (4095 <? n)%Z|]; discriminate.
  - rewrite loop_eval by (unfold measure; cbn [rank state init]; lia). apply eval_some.
Qed.

Lemma digit_10 c t : is_digit (c :: t) = true <-> is_digit_of 10 c.
Proof. unfold is_digit, is_digit_of. lia. Qed.

Lemma octal_modes isspace umask s r : sane isspace -> is_digit s = true ->
  parse_mode isspace umask s = Some (Some r) <-> exists n, octal s n /\ r = (n, n).
Proof.
  intros SP D. unfold parse_mode. rewrite D. destruct s as [|c s]; [discriminate|]. apply digit_10 in D.
  pose proof (fun v rest => parse_int_ok isspace SP 8 IF_INT true false (c :: s) v rest ltac:(lia)) as P.
  assert (SG : forall sgn x y, c :: s = sgn ++ x -> sgn = [y] -> is_digit_of 10 y).
  { intros sgn x y E ->. cbn in E. now injection E as <- _. }
  assert (N1 : forall v rest, numeral 8 (c :: s) v rest -> rest = [] -> Forall (is_digit_of 8) (c :: s) /\ v = value 8 (c :: s)).
  { intros v rest (sgn & ds & E & NE & F & _ & [(-> & ->)|[(-> & ->)|(-> & ->)]]) ->.
    - cbn [app] in E. rewrite app_nil_r in E. now rewrite E.
    - exfalso. specialize (SG _ _ _ E eq_refl). unfold is_digit_of in SG. cbn in SG. lia.
    - exfalso. specialize (SG _ _ _ E eq_refl). unfold is_digit_of in SG. cbn in SG. lia. }
  assert (N2 : Forall (is_digit_of 8) (c :: s) -> numeral 8 (c :: s) (value 8 (c :: s)) []).
  { intros F. exists [], (c :: s). split; [now rewrite app_nil_r|]. split; [discriminate|]. split; [exact F|]. split; [exact I|]. now left. }
  clear SG. split.
  - intros H. destruct (parse_int isspace 8 IF_INT true false (c :: s)) as [(n & rest)|] eqn:E; [|discriminate].
    destruct (proj1 (P n rest) eq_refl) as (NU & [?|RE] & POS & _); [discriminate|].
    destruct (N1 n rest NU RE) as (F & V). specialize (POS eq_refl).
    destruct (4095 <? n)%Z eqn:L; [discriminate|]. injection H as <-. exists (Z.to_N n). split; [|reflexivity].
    split; [discriminate|]. split; [exact F|]. split; [rewrite <- V|]; lia.
  - intros (n & (_ & F & V & L) & ->).
    assert (E : parse_int isspace 8 IF_INT true false (c :: s) = inl (Z.of_N n, [])).
    { apply P. rewrite <- V. split; [now apply N2|]. split; [now right|]. rewrite V. split; [lia|]. unfold size_min, size_max. lia. }
    rewrite E. assert (L' : (4095 <? Z.of_N n)%Z = false) by lia. rewrite L'. now rewrite N2Z.id.
Qed.

(** All modes have 12 bits. *)
Definition low (x : N) : Prop := forall i, 12 <= i -> N.testbit x i = false.
Lemma low_lt x : low x -> x < 4096.
Proof.
  intros H. destruct (N.eq_dec x 0) as [->|NZ]; [reflexivity|]. change 4096 with (2 ^ 12). apply N.log2_lt_pow2; [lia|].
  destruct (N.lt_ge_cases (N.log2 x) 12) as [|G]; [assumption|]. specialize (H _ G). rewrite N.bit_log2 in H by exact NZ. discriminate.
Qed.
Lemma lt_low x : x < 4096 -> low x.
Proof.
  intros L i I. destruct (N.eq_dec x 0) as [->|NZ]; [apply N.bits_0|]. apply N.bits_above_log2.
  apply N.log2_lt_pow2; [lia|]. apply N.lt_le_trans with (2 ^ 12); [exact L|]. apply N.pow_le_mono_r; lia.
Qed.
Lemma low_lor x y : low x -> low y -> low (N.lor x y).
Proof. intros H K i I. now rewrite N.lor_spec, H, K. Qed.
Lemma low_land_l x y : low x -> low (N.land x y).
Proof. intros H i I. now rewrite N.land_spec, H. Qed.
Lemma low_land_r x y : low y -> low (N.land x y).
Proof. intros H i I. rewrite N.land_spec, (H i) by exact I. apply andb_false_r. Qed.
Lemma low_ldiff x y : low x -> low (N.ldiff x y).
Proof. intros H i I. now rewrite N.ldiff_spec, H. Qed.

Definition low_vars (v : vars) : Prop :=
  low (who v) /\ low (mask v) /\ low (file_change v) /\ low (dir_change v) /\ low (file_mode v) /\ low (dir_mode v).
Definition low_next (n : next) : Prop := match n with Advance v | Again v | Done v => low_vars v | Fail => True end.
Lemma low_step umask v c : low_vars v -> low_next (step umask v c).
Proof.
  assert (C : forall n, n < 4096 -> low n) by apply lt_low.
  intros (W & M & F & D & FM & DM). unfold step.
  assert (SW : forall v c, low_vars v -> low_next (step_who v c)).
  { intros u x (W' & M' & F' & D' & FM' & DM'). unfold step_who. destruct x; cbn [low_next]; unfold low_vars; cbn; repeat split; try assumption; apply low_lor; try assumption; apply C; reflexivity. }
  assert (SA : forall b v c, low_vars v -> low_next (step_action umask b v c)).
  { intros b u x (W' & M' & F' & D' & FM' & DM'). unfold step_action.
    assert (L : low_vars (if who u =? 0 then set_who u o777 (N.ldiff o777 umask) else set_who u (who u) (who u))).
    { destruct (who u =? 0); unfold low_vars; cbn [who mask file_change dir_change file_mode dir_mode set_who]; repeat split; try assumption; [apply C; reflexivity|]. apply low_ldiff, C. reflexivity. }
    revert L. generalize (if who u =? 0 then set_who u o777 (N.ldiff o777 umask) else set_who u (who u) (who u)). intros w L.
    destruct x; try exact I; try exact L; destruct b; try exact I; exact L. }
  destruct (state v).
  - apply SW. unfold low_vars. cbn. repeat split; try assumption; apply C; reflexivity.
  - apply SW. unfold low_vars. auto 7.
  - apply SA. unfold low_vars. auto 7.
  - apply SA. unfold apply_action. destruct (op v); unfold low_vars; cbn; repeat split; try assumption; try (apply low_lor; try assumption); now apply low_ldiff.
  - unfold step_op, spread. destruct c; cbn [low_next]; unfold low_vars; cbn [who mask file_change dir_change file_mode dir_mode set_state set_change];
      repeat split; try assumption; try (now apply low_land_r); apply C; reflexivity.
  - assert (A : forall v f d, low_vars v -> f < 4096 -> d < 4096 -> low_vars (add_change v f d)).
    { intros u f d (W' & M' & F' & D' & FM' & DM') Lf Ld. unfold low_vars, add_change. cbn. repeat split; try assumption; apply low_lor; auto. }
    assert (L : low_vars v) by (unfold low_vars; auto 7).
    assert (X : forall y, N.land (mask v) y < 4096) by (intros y; apply low_lt, low_land_l, M).
    unfold step_perm. destruct c; cbn [low_next]; try exact L; try (apply A; auto; reflexivity).
    + assert (L' : low_vars (if N.land (who v) o700 =? 0 then v else add_change v S_ISUID S_ISUID)) by (destruct (N.land (who v) o700 =? 0); [exact L|apply A; [exact L|reflexivity|reflexivity]]).
      revert L'. generalize (if N.land (who v) o700 =? 0 then v else add_change v S_ISUID S_ISUID). intros u L'.
      destruct (N.land (who u) o70 =? 0); [exact L'|apply A; [exact L'|reflexivity|reflexivity]].
    + destruct (N.land (who v) o7 =? 0); [exact L|apply A; [exact L|reflexivity|reflexivity]].
Qed.

Lemma low_loop umask : forall fuel v s f d, low_vars v -> loop fuel umask v s = Some (Some (f, d)) -> f < 4096 /\ d < 4096.
Proof.
  induction fuel as [|fuel IH]; intros v s f d L; [discriminate|]. cbn [loop]. pose proof (low_step umask v (hd x00 s) L) as K.
  destruct (step umask v (hd x00 s)) as [u|u|u|]; cbn [low_next] in K; try discriminate.
  - destruct s; [discriminate|]. now apply IH.
  - now apply IH.
  - intros [= <- <-]. destruct K as (_ & _ & _ & _ & H1 & H2). split; now apply low_lt.
Qed.

Lemma parse_low isspace umask s f d : sane isspace -> parse_mode isspace umask s = Some (Some (f, d)) -> f < 4096 /\ d < 4096.
Proof.
  intros SP H. destruct (is_digit s) eqn:D.
  - apply octal_modes in H; auto. destruct H as (n & (_ & _ & _ & L) & E). injection E as -> ->. lia.
  - unfold parse_mode in H. rewrite D in H. apply low_loop in H; [exact H|]. unfold low_vars, init. cbn. repeat split; apply lt_low; reflexivity.
Qed.

Lemma parse_perm_ok isspace umask s cmp f d :
  parse_perm isspace umask s = Some (Some (cmp, f, d)) <-> exists t, asks s cmp t /\ parse_mode isspace umask t = Some (Some (f, d)).
Proof.
  unfold parse_perm.
  assert (DG : forall t, is_digit t = true <-> starts_with_digit t).
  { intros [|c t]; split; intros H; try discriminate.
    - destruct H as (? & ? & ? & _). discriminate.
    - apply digit_10 in H. exists c, t. auto.
    - destruct H as (? & ? & [= <- <-] & H). now apply digit_10. }
  set (p := match s with "-"%byte :: t => (BFS_MODE_ALL, t) | "/"%byte :: t => (BFS_MODE_ANY, t) | "+"%byte :: t => if is_digit t then (BFS_MODE_ANY, t) else (BFS_MODE_EQUAL, s) | _ => (BFS_MODE_EQUAL, s) end).
  assert (P : forall c t, asks s c t <-> p = (c, t)).
  { intros c t. subst p. destruct s as [|x s].
    - split; [|intros [= <- <-]; cbn; split; [reflexivity|]; intros (u & [E|[E|(E & _)]]); discriminate].
      destruct c; cbn; [intros (<- & _); reflexivity|discriminate|intros [E|(E & _)]; discriminate].
    - split.
      + destruct c; cbn [asks].
        * intros (<- & N). destruct x; try reflexivity; try (exfalso; apply N; eauto; fail).
          destruct (is_digit s) eqn:E; [|reflexivity]. exfalso. apply N. exists s. right. right. split; [reflexivity|]. now apply DG.
        * intros [= -> ->]. reflexivity.
        * intros [[= -> ->]|([= -> ->] & E)]; [reflexivity|]. apply DG in E. now rewrite E.
      + assert (EQ : x <> "-"%byte -> x <> "/"%byte -> (x = "+"%byte -> is_digit s = false) -> asks (x :: s) BFS_MODE_EQUAL (x :: s)).
        { intros N1 N2 N3. split; [reflexivity|]. intros (u & [[= E _]|[[= E _]|([= E <-] & K)]]); [contradiction|contradiction|]. apply DG in K. rewrite (N3 E) in K. discriminate. }
        destruct x; try (intros [= <- <-]; apply EQ; discriminate).
        * destruct (is_digit s) eqn:E; intros [= <- <-]; [right; split; [reflexivity|now apply DG]|apply EQ; auto; discriminate].
        * intros [= <- <-]. reflexivity.
        * intros [= <- <-]. now left. }
  clearbody p. destruct p as (c & t). split.
  - destruct (parse_mode isspace umask t) as [[(f' & d')|]|] eqn:E; try discriminate. intros [= <- <- <-]. exists t. split; [now apply P|exact E].
  - intros (t' & A & E). apply P in A. injection A as <- <-. now rewrite E.
Qed.

Lemma land_o7777 n : N.land n o7777 = number (bits_of n).
Proof.
  assert (E : o7777 = number (fun _ => true)) by (vm_compute; reflexivity). rewrite E, N.land_comm, land_number_l. now apply number_ext.
Qed.
Lemma number_inj m m' : number m = number m' -> forall b, m b = m' b.
Proof. intros H b. now rewrite <- (number_bit m), H, number_bit. Qed.

Lemma granted_ok cmp f d dir mode : f < 4096 -> d < 4096 ->
  eval_perm cmp f d dir mode = true <-> granted cmp (bits_of (if dir then d else f)) (bits_of mode).
Proof.
  intros Lf Ld. unfold eval_perm. set (t := if dir then d else f). assert (L : t < 4096) by (subst t; destruct dir; assumption). clearbody t. clear - L.
  assert (EL : N.land mode t = number (fun b => bits_of t b && bits_of mode b)) by (rewrite N.land_comm; rewrite <- (number_of t L) at 1; apply land_number_l).
  assert (ET : t = number (bits_of t)) by (symmetry; now apply number_of).
  assert (EZ : (t =? 0) = (number (bits_of t) =? 0)) by now rewrite <- ET.
  assert (EQ : forall x, x = t <-> x = number (bits_of t)) by (intros x; now rewrite <- ET).
  rewrite land_o7777, EL. clear EL ET. destruct cmp; cbn [granted].
  - rewrite N.eqb_eq, EQ. split; [apply number_inj|apply number_ext].
  - rewrite N.eqb_eq, EQ. split; intros H.
    + intros b W. pose proof (number_inj _ _ H b) as K. cbv beta in K. rewrite W in K. exact K.
    + apply number_ext. intros b. destruct (bits_of t b) eqn:W; [|reflexivity]. now apply H.
  - rewrite EZ, !number_zero. split.
    + destruct (existsb (bits_of t) all_bits) eqn:T; destruct (existsb (fun b => bits_of t b && bits_of mode b) all_bits) eqn:K; try discriminate; intros _.
      * left. apply existsb_exists in K. destruct K as (b & _ & H). apply andb_prop in H. eauto.
      * right. intros b. destruct (bits_of t b) eqn:W; [|reflexivity]. rewrite <- T. symmetry. apply existsb_exists. exists b. split; [destruct b as [[] []| | |]; cbn; tauto|exact W].
    + intros [(b & W & H)|Z].
      * assert (A : In b all_bits) by (destruct b as [[] []| | |]; cbn; tauto).
        assert (T : existsb (bits_of t) all_bits = true) by (apply existsb_exists; eauto).
        assert (K : existsb (fun b => bits_of t b && bits_of mode b) all_bits = true) by (apply existsb_exists; exists b; split; [exact A|now rewrite W]).
        now rewrite T, K.
      * assert (T : existsb (bits_of t) all_bits = false) by (destruct (existsb _ _) eqn:E; [apply existsb_exists in E; destruct E as (b & _ & E); rewrite Z in E; discriminate|reflexivity]).
        assert (K : existsb (fun b => bits_of t b && bits_of mode b) all_bits = false).
        { destruct (existsb (fun b => _ && _) _) eqn:E; [|reflexivity]. apply existsb_exists in E. destruct E as (b & _ & E). rewrite Z in E. discriminate. }
        now rewrite T, K.
Qed.

Lemma perm_ok isspace umask s : sane isspace ->
  (forall cmp f d, parse_perm isspace umask s = Some (Some (cmp, f, d)) <->
     exists t, asks s cmp t /\ parse_mode isspace umask t = Some (Some (f, d))) /\
  (forall cmp f d, parse_perm isspace umask s = Some (Some (cmp, f, d)) ->
     forall dir mode, eval_perm cmp f d dir mode = true <-> granted cmp (bits_of (if dir then d else f)) (bits_of mode)).
Proof.
  intros SP. split; [intros; apply parse_perm_ok|]. intros cmp f d H dir mode. apply parse_perm_ok in H. destruct H as (t & _ & H).
  apply parse_low in H; [|exact SP]. destruct H. now apply granted_ok.
Qed.
