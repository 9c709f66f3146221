(** * Primaries and the parse table *)
From Coq Require Import String List Bool Arith ZArith Lia.
From Coq Require Import Init.Byte Strings.Byte.
From Verif Require Import NumModel NumSpec NumProofs ExecModel ExecSpec ExecProofs GramModel GramSpec.
Import ListNotations.
Local Close Scope string_scope.
Local Open Scope list_scope.
Local Open Scope nat_scope.

Lemma aeq_spec x y : reflect (x = y) (aeq x y).
Proof. unfold aeq. destruct (list_eq_dec Byte.byte_eq_dec x y); constructor; assumption. Qed.
Lemma aeq_iff x y : aeq x y = true <-> x = y.
Proof. destruct (aeq_spec x y); split; congruence. Qed.
Lemma aeq_refl x : aeq x x = true.
Proof. now apply aeq_iff. Qed.

Lemma byte_eqb_iff x y : Byte.eqb x y = true <-> x = y.
Proof. split; [apply Byte.byte_dec_bl|apply Byte.byte_dec_lb]. Qed.

(** ** Deciding membership *)

Definition mem (l : list string) (a : arg) : bool := existsb (aeq a) (map b l).
Lemma mem_iff l a : mem l a = true <-> one_of l a.
Proof.
  unfold mem, one_of. rewrite existsb_exists. split.
  - intros (x & H & E). apply aeq_iff in E. now subst.
  - intros H. exists a. split; [assumption|apply aeq_refl].
Qed.
Lemma mem_false l a : mem l a = false <-> ~ one_of l a.
Proof. rewrite <- mem_iff. destruct (mem l a); split; congruence. Qed.

Definition all_in (l : list string) (f : arg -> bool) : bool := forallb f (map b l).
Lemma all_in_spec l f : all_in l f = true -> forall a, one_of l a -> f a = true.
Proof. unfold all_in. rewrite forallb_forall. intros H a I. now apply H. Qed.
Lemma all_in_bytes (f : byte -> bool) : forallb f (map (fun n => match Byte.of_nat n with Some c => c | None => x00 end) (seq 0 256)) = true -> forall c, f c = true.
Proof.
  intros H c. rewrite forallb_forall in H. apply H, in_map_iff. exists (Byte.to_nat c). split.
  - now rewrite Byte.of_to_nat.
  - apply in_seq. pose proof (Byte.to_nat_bounded c). lia.
Qed.

Definition pureb (n : arg) : bool := mem (flags0 ++ ["-D"; "-O"; "-S"; "-j"; "-f"]%string) n.
Definition actionb (n : arg) : bool :=
  mem (actions0 ++ actions1 ++ ["-fprintf"; "-exit"; "-exec"; "-execdir"; "-ok"; "-okdir"]%string) n.
Definition showsb (n : arg) : bool := actionb n && negb (mem ["-limit"; "-prune"; "-quit"]%string n).

Lemma pureb_iff n : pureb n = true <-> pure_flag n.
Proof. apply mem_iff. Qed.
Lemma actionb_iff n : actionb n = true <-> is_action n.
Proof. apply mem_iff. Qed.
Lemma showsb_iff n : showsb n = true <-> is_action n /\ ~ shows_nothing n.
Proof. unfold showsb, shows_nothing. rewrite andb_true_iff, negb_true_iff, actionb_iff, mem_false. tauto. Qed.
Lemma pure_all names : Forall pure_flag names <-> forallb pureb names = true.
Proof.
  rewrite forallb_forall, Forall_forall. split; intros H x I; apply pureb_iff, H, I.
Qed.

(** ** The state after some arguments have been read *)

Definition paths_in (names args : list arg) : list arg := paths_of (TPrim names args).
Definition lists_in (names args : list arg) : list arg := lists_of (TPrim names args).
Definition latest (old : option arg) (l : list arg) : option arg :=
  match rev l with [] => old | f :: _ => Some f end.

Definition moved (names args : list arg) (p : parser) : parser :=
  {| done := done p ++ args; rest := skipn (length args) (rest p);
     roots := roots p ++ paths_in names args; exclude := exclude p ++ excludes names;
     implicit_print := implicit_print p && negb (existsb showsb names);
     expr_started := expr_started p || negb (forallb pureb names);
     excluding := excluding p;
     limit := limit p || existsb (aeq (b "-limit")) names;
     files0 := latest (files0 p) (lists_in names args) |}.

Lemma finish_spec w name k n p :
  n <= length (rest p) ->
  (k = BFS_FLAG <-> pure_flag name) -> k <> BFS_PATH -> (k = BFS_ACTION <-> is_action name) ->
  (name = b "-f" \/ name = b "-files0-from" -> n = 2) ->
  finish w name k n p =
  if excluding p && actionb name then Rejected
  else if valid w (done p) name (firstn n (rest p))
       then Ok (Prim name (firstn n (rest p)), moved [name] (firstn n (rest p)) p)
       else Rejected.
Proof.
  intros L Hf Hp Ha H2. unfold finish, advance. rewrite (proj2 (Nat.leb_le _ _) L). cbn [GramModel.excluding].
  assert (A : match k with BFS_ACTION => true | _ => false end = actionb name).
  { destruct (actionb name) eqn:N.
    - apply actionb_iff, Ha in N. now subst.
    - destruct k; try reflexivity. apply Bool.not_true_iff_false in N. exfalso. apply N, actionb_iff, Ha. reflexivity. }
  rewrite A, andb_comm. destruct (excluding p && actionb name); [reflexivity|].
  destruct (valid w (done p) name (firstn n (rest p))); [|reflexivity]. f_equal. f_equal.
  assert (S : match k with BFS_FLAG | BFS_PATH => expr_started p | _ => true end = expr_started p || negb (forallb pureb [name])).
  { cbn [forallb]. rewrite andb_true_r. destruct (pureb name) eqn:N.
    - apply pureb_iff, Hf in N. subst. now rewrite orb_false_r.
    - rewrite orb_true_r. destruct k; try reflexivity; [|congruence]. apply Bool.not_true_iff_false in N. exfalso. apply N, pureb_iff, Hf. reflexivity. }
  assert (LA : length (firstn n (rest p)) = n) by (rewrite firstn_length; lia).
  assert (AR : forall x, (name = b "-f" \/ name = b "-files0-from") -> skipn 1 (firstn n (rest p)) = [nth 1 (firstn n (rest p)) x]).
  { intros x C. specialize (H2 C). clear - H2 LA. destruct (firstn n (rest p)) as [|? [|? [|]]]; cbn [length] in LA; try lia. reflexivity. }
  assert (PR : (actionb name && negb (silent name)) = showsb name).
  { unfold showsb, silent, mem. cbn [map existsb]. now rewrite orb_false_r, orb_assoc. }
  rewrite PR, S. clear S PR A. unfold effects, moved, paths_in, lists_in, paths_of, lists_of, excludes. cbn [last flat_map existsb].
  assert (LI : aeq (b "-limit") name = aeq name (b "-limit")).
  { destruct (aeq_spec (b "-limit") name), (aeq_spec name (b "-limit")); congruence. }
  rewrite LI, !orb_false_r. unfold aeq. rewrite LA.
  repeat match goal with |- context [list_eq_dec Byte.byte_eq_dec ?a ?c] => destruct (list_eq_dec Byte.byte_eq_dec a c) as [?E|?E] end;
    try (subst name; discriminate);
    unfold parse_root, set_files0, set_limit, add_exclude, set_print;
    try rewrite AR with (x := @nil byte) by auto; cbn [done rest roots exclude implicit_print expr_started GramModel.excluding GramModel.limit GramModel.files0 latest rev app];
    destruct (showsb name); cbn [negb]; rewrite ?app_nil_r, ?andb_true_r, ?andb_false_r, ?orb_true_r, ?orb_false_r; reflexivity.
Qed.

(** ** The table *)

Definition kind_eqb (x y : kind) : bool :=
  match x, y with
  | BFS_FLAG, BFS_FLAG | BFS_OPTION, BFS_OPTION | BFS_TEST, BFS_TEST | BFS_ACTION, BFS_ACTION
  | BFS_OPERATOR, BFS_OPERATOR | BFS_PATH, BFS_PATH => true
  | _, _ => false
  end.
Lemma kind_eqb_iff x y : kind_eqb x y = true <-> x = y.
Proof. destruct x, y; cbn; split; congruence. Qed.

Definition kinds_of (f : parse_fn) : list kind :=
  match f with
  | nullary k | unary k => [k]
  | prefix_flag _ _ => [BFS_FLAG]
  | depth_n => [BFS_TEST; BFS_OPTION]
  | exec _ | exit_status | fprintf_ => [BFS_ACTION]
  | newerxy => [BFS_TEST]
  | info => []
  end.
Definition kind_fits (n : arg) (k : kind) : bool :=
  Bool.eqb (kind_eqb k BFS_FLAG) (pureb n) && Bool.eqb (kind_eqb k BFS_ACTION) (actionb n) && negb (kind_eqb k BFS_PATH).
Definition is_prefix_flag (f : parse_fn) : bool := match f with prefix_flag _ _ | newerxy => true | _ => false end.
Definition shape_fits (n : arg) (f : parse_fn) : bool :=
  match f with
  | nullary _ => mem (flags0 ++ options0 ++ tests0 ++ actions0) n
  | unary _ => mem (options1 ++ tests1 ++ actions1 ++ ["-f"%string]) n
  | prefix_flag c sep => aeq n (letter c) && mem ["-D"; "-O"; "-S"; "-j"]%string n && Bool.eqb sep (mem ["-D"; "-S"]%string n)
  | depth_n => aeq n (b "-depth")
  | exec confirm => if confirm then mem ["-ok"; "-okdir"]%string n else mem ["-exec"; "-execdir"]%string n
  | exit_status => aeq n (b "-exit")
  | fprintf_ => aeq n (b "-fprintf")
  | newerxy => aeq n (b "-newer")
  | info => mem informational n
  end.
Definition entry_fits (e : entry) : bool :=
  match e_parse e with
  | None => mem operators (e_arg e) && negb (e_prefix e)
  | Some f => forallb (kind_fits (e_arg e)) (kinds_of f) && shape_fits (e_arg e) f && Bool.eqb (e_prefix e) (is_prefix_flag f)
  end.
Lemma table_fits : forallb entry_fits parse_table = true.
Proof. vm_compute. reflexivity. Qed.
Lemma entry_ok e : In e parse_table -> entry_fits e = true.
Proof. intros H. pose proof table_fits as T. rewrite forallb_forall in T. now apply T. Qed.

Lemma kind_fits_spec n k : kind_fits n k = true ->
  (k = BFS_FLAG <-> pure_flag n) /\ k <> BFS_PATH /\ (k = BFS_ACTION <-> is_action n).
Proof.
  unfold kind_fits. rewrite !andb_true_iff, negb_true_iff, !Bool.eqb_true_iff. intros [[A B] C].
  rewrite <- pureb_iff, <- actionb_iff, <- A, <- B, !kind_eqb_iff. split; [tauto|]. split; [|tauto].
  intros ->. discriminate.
Qed.

(** How many arguments a primary takes, and its kind *)
Definition want (w : env) (f : parse_fn) (r : list arg) : option (kind * nat) :=
  match f with
  | nullary k => Some (k, 1)
  | unary k => match r with _ :: _ :: _ => Some (k, 2) | _ => None end
  | prefix_flag c sep =>
      match after_flag c (hd [] r) with
      | None => None
      | Some (_ :: _) => Some (BFS_FLAG, 1)
      | Some [] => if sep then match r with _ :: _ :: _ => Some (BFS_FLAG, 2) | _ => None end else None
      end
  | depth_n =>
      match nth_error r 1 with
      | Some a => if looks_like_icmp a then Some (BFS_TEST, 2) else Some (BFS_OPTION, 1)
      | None => Some (BFS_OPTION, 1)
      end
  | exec confirm =>
      match exec_parse confirm (tl r) with
      | None => None
      | Some (tmpl, _) => Some (BFS_ACTION, length tmpl + 2)
      end
  | exit_status =>
      match nth_error r 1 with
      | Some a => match parse_int (isspace w) 10 IF_INT true false a with inl _ => Some (BFS_ACTION, 2) | inr _ => Some (BFS_ACTION, 1) end
      | None => Some (BFS_ACTION, 1)
      end
  | fprintf_ => match r with _ :: _ :: _ :: _ => Some (BFS_ACTION, 3) | _ => None end
  | newerxy => if length (hd [] r) =? 8 then match r with _ :: _ :: _ => Some (BFS_TEST, 2) | _ => None end else None
  | info => None
  end.

Lemma run_want w f n p :
  match f with prefix_flag c _ => after_flag c (hd [] (rest p)) <> None | _ => True end ->
  run w f n p = match want w f (rest p) with Some (k, m) => finish w n k m p | None => Rejected end.
Proof.
  intros H. destruct f; cbn [run want]; unfold parse_nullary, parse_unary, parse_prefix_flag, parse_depth_n, parse_exec, parse_exit,
    parse_fprintf, parse_newerxy, parse_unary, parse_nullary, second.
  - reflexivity.
  - destruct (rest p) as [|? [|]]; reflexivity.
  - destruct (after_flag flag (hd [] (rest p))) as [[|]|]; [|reflexivity|congruence].
    destruct separate; [|reflexivity]. destruct (rest p) as [|? [|]]; reflexivity.
  - destruct (rest p) as [|? [|a ?]]; cbn [nth_error]; try reflexivity. destruct (looks_like_icmp a); reflexivity.
  - destruct (exec_parse confirm (tl (rest p))) as [[? ?]|]; reflexivity.
  - destruct (nth_error (rest p) 1) as [a|]; [|reflexivity]. destruct (parse_int (isspace w) 10 IF_INT true false a); reflexivity.
  - destruct (rest p) as [|? [|? [|]]]; reflexivity.
  - destruct (_ =? 8); [|reflexivity]. destruct (rest p) as [|? [|]]; reflexivity.
  - reflexivity.
Qed.

Local Ltac bd := split; [cbn [length]; lia|tauto].
Lemma want_bound w f r k m : r <> [] -> want w f r = Some (k, m) ->
  1 <= m <= length r /\ In k (kinds_of f).
Proof.
  intros N. destruct r as [|a r]; [congruence|]. clear N.
  destruct f; cbn [want kinds_of hd tl In].
  - intros [= <- <-]. bd.
  - destruct r; [discriminate|]. intros [= <- <-]. bd.
  - destruct (after_flag flag a) as [[|]|]; [| |discriminate].
    + destruct separate; [|discriminate]. destruct r; [discriminate|]. intros [= <- <-]. bd.
    + intros [= <- <-]. bd.
  - destruct r as [|c r]; cbn [nth_error].
    + intros [= <- <-]. bd.
    + destruct (looks_like_icmp c); intros [= <- <-]; bd.
  - destruct (exec_parse confirm r) as [[t mu]|] eqn:E; [|discriminate]. intros [= <- <-].
    apply exec_parse_ok in E. split; [|auto].
    destruct E as [cmd rest N U|cmd rest C U B]; cbn [length]; rewrite !app_length; cbn [length]; lia.
  - destruct r as [|c r]; cbn [nth_error].
    + intros [= <- <-]. bd.
    + destruct (parse_int _ _ _ _ _ c); intros [= <- <-]; bd.
  - destruct r as [|? [|]]; try discriminate. intros [= <- <-]. bd.
  - destruct (_ =? 8); [|discriminate]. destruct r; [discriminate|]. intros [= <- <-]. bd.
  - discriminate.
Qed.

(** ** What the functions in the table accept *)

Lemma number_like_iff a : looks_like_icmp a = true <-> number_like a.
Proof.
  assert (PM : forall c, plus_minus c = true <-> c = x2b \/ c = x2d).
  { intros c. unfold plus_minus. rewrite orb_true_iff, !byte_eqb_iff. tauto. }
  assert (DG : forall s, is_digit s = true <-> exists d t, s = d :: t /\ is_digit_of 10 d).
  { intros [|d t]; cbn [is_digit].
    - split; [discriminate|]. intros (? & ? & [=] & _).
    - unfold is_digit_of. rewrite andb_true_iff, !Z.leb_le. split.
      + intros H. exists d, t. split; [reflexivity|lia].
      + intros (d' & t' & [= <- <-] & H). lia. }
  assert (DP : forall d, is_digit_of 10 d -> plus_minus d = false).
  { intros d H. destruct (plus_minus d) eqn:P; [|reflexivity]. apply PM in P. unfold is_digit_of in H.
    destruct P; subst; cbn in H; lia. }
  assert (PMf : forall c, plus_minus c = false -> ~ (c = x2b \/ c = x2d)).
  { intros c H1 H2. apply PM in H2. congruence. }
  unfold number_like. split.
  - destruct a as [|x s1]; [discriminate|]. cbn [looks_like_icmp].
    destruct (plus_minus x) eqn:X.
    + destruct s1 as [|y s2]; [discriminate|]. apply PM in X. destruct (plus_minus y) eqn:Y.
      * apply PM in Y. intros H. apply DG in H. destruct H as (d & t & -> & H). exists [x; y], d, t.
        split; [reflexivity|]. split; [cbn; lia|]. split; [|assumption]. constructor; [assumption|]. constructor; [assumption|constructor].
      * intros H. apply DG in H. destruct H as (d & t & [= -> ->] & H). exists [x], d, t.
        split; [reflexivity|]. split; [cbn; lia|]. split; [|assumption]. constructor; [assumption|constructor].
    + intros H. apply DG in H. destruct H as (d & t & [= -> ->] & H). exists [], d, t.
      split; [reflexivity|]. split; [cbn; lia|]. split; [constructor|assumption].
  - intros (pre & d & t & -> & L & F & D).
    destruct pre as [|x [|y [|]]]; [| | |cbn in L; lia].
    + cbn [app looks_like_icmp]. rewrite (DP d D). apply DG. eauto.
    + inversion_clear F as [|? ? X _]. cbn [app looks_like_icmp]. apply PM in X. rewrite X, (DP d D). apply DG. eauto.
    + inversion_clear F as [|? ? X F']. inversion_clear F' as [|? ? Y _]. apply PM in X, Y.
      cbn [app looks_like_icmp]. rewrite X, Y. apply DG. eauto.
Qed.

Lemma status_iff isspace a : sane isspace ->
  (exists x, parse_int isspace 10 IF_INT true false a = inl x) <-> status_number a.
Proof.
  intros SN. unfold status_number. split.
  - intros ([v r] & H). apply (parse_int_ok isspace SN) in H; [|lia]. destruct H as (N & [X| ->] & U & R); [discriminate|].
    exists v. split; [assumption|]. cbn [size_min size_max] in R. specialize (U eq_refl). lia.
  - intros (v & N & R). exists (v, []). apply (parse_int_ok isspace SN); [lia|].
    split; [assumption|]. split; [now right|]. split; [lia|]. cbn [size_min size_max]. lia.
Qed.

Lemma after_flag_letter c t : after_flag c (letter c ++ t) = match Byte.eqb x2d c with true => Some (c :: t) | false => Some t end.
Proof. cbn [letter app after_flag]. destruct (Byte.eqb x2d c); [reflexivity|]. now rewrite (proj2 (byte_eqb_iff c c) eq_refl). Qed.

Lemma letter_not_dash c : one_of ["-D"; "-O"; "-S"; "-j"]%string (letter c) -> Byte.eqb x2d c = false.
Proof. intros H. unfold one_of in H. cbn in H. destruct H as [[= <-]|[[= <-]|[[= <-]|[[= <-]|[]]]]]; reflexivity. Qed.

Definition result_of (w : env) (n : arg) (args : list arg) (p : parser) : result (expr * parser) :=
  if excluding p && actionb n then Rejected
  else if valid w (done p) n args then Ok (Prim n args, moved [n] args p) else Rejected.

Lemma run_spec w n f p :
  forallb (kind_fits n) (kinds_of f) = true -> shape_fits n f = true -> rest p <> [] ->
  match f with prefix_flag c _ => after_flag c (hd [] (rest p)) <> None | _ => True end ->
  run w f n p =
  match want w f (rest p) with
  | Some (_, m) => result_of w n (firstn m (rest p)) p
  | None => Rejected
  end.
Proof.
  intros K S R A. rewrite run_want by assumption.
  destruct (want w f (rest p)) as [[k m]|] eqn:W; [|reflexivity].
  destruct (want_bound w f _ _ _ R W) as [B I]. rewrite forallb_forall in K. apply K, kind_fits_spec in I.
  destruct I as (I1 & I2 & I3). apply finish_spec; try assumption; [lia|].
  intros N. clear - N S W. destruct f; cbn [shape_fits] in S.
  - exfalso. destruct N; subst n; vm_compute in S; discriminate.
  - cbn [want] in W. destruct (rest p) as [|? [|]]; congruence.
  - exfalso. rewrite !andb_true_iff in S. destruct S as [[_ S] _]. destruct N; subst n; vm_compute in S; discriminate.
  - exfalso. destruct N; subst n; vm_compute in S; discriminate.
  - exfalso. destruct confirm, N; subst n; vm_compute in S; discriminate.
  - exfalso. destruct N; subst n; vm_compute in S; discriminate.
  - exfalso. destruct N; subst n; vm_compute in S; discriminate.
  - exfalso. destruct N; subst n; vm_compute in S; discriminate.
  - discriminate.
Qed.

Lemma starts_with_iff q a : starts_with q a = true <-> exists t, a = q ++ t.
Proof.
  unfold starts_with. rewrite aeq_iff. split.
  - intros H. exists (skipn (length q) a). rewrite <- H at 1. symmetry. apply firstn_skipn.
  - intros (t & ->). rewrite firstn_app, Nat.sub_diag, firstn_O, app_nil_r, firstn_all. reflexivity.
Qed.

Lemma app_split (m : nat) (r : list arg) : r = firstn m r ++ skipn m r.
Proof. symmetry. apply firstn_skipn. Qed.

(** The arguments that the function of an entry takes are a primary *)
Lemma want_primary w e f a r k m : sane (isspace w) ->
  entry_fits e = true -> matches a e = true -> e_parse e = Some f ->
  want w f (a :: r) = Some (k, m) ->
  primary w (skipn m (a :: r)) [e_arg e] (firstn m (a :: r)).
Proof.
  intros SN EF M F W. unfold entry_fits in EF. rewrite F in EF. rewrite !andb_true_iff in EF. destruct EF as [[_ SH] P].
  apply Bool.eqb_prop in P. unfold matches in M. rewrite P in M. clear P F.
  set (n := e_arg e) in *. clearbody n. clear e.
  destruct f; cbn [is_prefix_flag] in M; cbn [shape_fits] in SH; cbn [want hd tl] in W.
  - apply aeq_iff in M. subst a. injection W as <- <-. cbn [firstn]. apply p_nullary. now apply mem_iff.
  - apply aeq_iff in M. subst a. destruct r as [|v r]; [discriminate|]. injection W as <- <-. cbn [firstn]. apply p_unary. now apply mem_iff.
  - apply starts_with_iff in M. destruct M as [t ->]. rewrite !andb_true_iff in SH. destruct SH as [[S1 S2] S3].
    apply aeq_iff in S1. subst n. apply mem_iff in S2. apply Bool.eqb_prop in S3.
    rewrite after_flag_letter, letter_not_dash in W by assumption. destruct t as [|y t].
    + rewrite app_nil_r in *. destruct separate; [|discriminate]. destruct r as [|v r]; [discriminate|]. injection W as <- <-.
      cbn [firstn]. apply p_separate. now apply mem_iff.
    + injection W as <- <-. cbn [firstn]. apply p_value; [assumption|discriminate].
  - apply aeq_iff in M. subst a. apply aeq_iff in SH. subst n. destruct r as [|v r]; cbn [nth_error] in W.
    + injection W as <- <-. cbn [firstn skipn]. apply p_depth. intros n [=].
    + destruct (looks_like_icmp v) eqn:L; injection W as <- <-; cbn [firstn skipn].
      * apply p_depth_n. now apply number_like_iff.
      * apply p_depth. intros n [= <-] H. apply number_like_iff in H. congruence.
  - apply aeq_iff in M. subst a. destruct (exec_parse confirm r) as [[t mu]|] eqn:E; [|discriminate]. injection W as <- <-.
    apply exec_parse_ok in E.
    assert (D : exists after, r = t ++ b (if mu then "+" else ";") :: after /\ (confirm = true -> mu = false)).
    { destruct E as [cmd rest N U|cmd rest C U B]; exists rest; (split; [|congruence]).
      - reflexivity.
      - rewrite <- app_assoc. reflexivity. }
    destruct D as (after & D & CM).
    assert (A1 : firstn (length t + 2) (n :: r) = n :: t ++ [b (if mu then "+" else ";")]).
    { rewrite D. replace (length t + 2) with (S (S (length t))) by lia. rewrite firstn_cons. f_equal.
      rewrite firstn_app, firstn_all2 by lia. f_equal. replace (S (length t) - length t) with 1 by lia. reflexivity. }
    assert (A2 : skipn (length t + 2) (n :: r) = after).
    { rewrite D. replace (length t + 2) with (S (S (length t))) by lia. rewrite skipn_cons.
      rewrite skipn_app, skipn_all2 by lia. replace (S (length t) - length t) with 1 by lia. reflexivity. }
    rewrite A1, A2. rewrite D in E. destruct confirm.
    + rewrite (CM eq_refl) in *. apply p_ok; [now apply mem_iff|assumption].
    + apply p_exec with (multi := mu); [now apply mem_iff|reflexivity|assumption].
  - apply aeq_iff in M. subst a. apply aeq_iff in SH. subst n. destruct r as [|v r]; cbn [nth_error] in W.
    + injection W as <- <-. cbn [firstn skipn]. apply p_exit. intros n [=].
    + destruct (parse_int (isspace w) 10 IF_INT true false v) as [x|x] eqn:L; injection W as <- <-; cbn [firstn skipn].
      * apply p_exit_n. apply (status_iff (isspace w) v SN). eauto.
      * apply p_exit. intros n [= <-] H. apply (status_iff (isspace w) v SN) in H. destruct H. congruence.
  - apply aeq_iff in M. subst a. apply aeq_iff in SH. subst n. destruct r as [|x [|y r]]; try discriminate.
    injection W as <- <-. cbn [firstn skipn]. apply p_fprintf.
  - apply starts_with_iff in M. destruct M as [t ->]. apply aeq_iff in SH. subst n.
    rewrite app_length in W. destruct (length (b "-newer") + length t =? 8) eqn:L; [|discriminate]. apply Nat.eqb_eq in L.
    destruct r as [|v r]; [discriminate|]. injection W as <- <-. cbn [firstn].
    change (length (b "-newer")) with 6 in L. destruct t as [|x [|y [|]]]; cbn [length] in L; try lia. apply p_newerxy.
  - discriminate.
Qed.
