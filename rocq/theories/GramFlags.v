(** * Primaries: looking them up, and several flags in one argument *)
From Coq Require Import String List Bool Arith ZArith Lia.
From Coq Require Import Init.Byte Strings.Byte.
From Verif Require Import NumModel NumSpec NumProofs ExecModel ExecSpec ExecProofs GramModel GramSpec GramPrims.
Import ListNotations.
Local Close Scope string_scope.
Local Open Scope list_scope.
Local Open Scope nat_scope.

(** ** Looking up *)

Definition found (n : arg) (P : parse_fn -> bool) : bool :=
  match table_lookup n with
  | Some e => aeq (e_arg e) n && match e_parse e with Some f => P f | None => false end
  | None => false
  end.
Lemma found_spec n P : found n P = true ->
  exists e f, table_lookup n = Some e /\ e_arg e = n /\ e_parse e = Some f /\ P f = true.
Proof.
  unfold found. destruct (table_lookup n) as [e|]; [|discriminate]. rewrite andb_true_iff, aeq_iff.
  intros [A B]. destruct (e_parse e) as [f|] eqn:E; [|discriminate]. exists e, f. repeat split; assumption.
Qed.
Definition is_nullary f := match f with nullary _ => true | _ => false end.
Definition is_unary f := match f with unary _ => true | _ => false end.
Definition is_exec c f := match f with exec c' => Bool.eqb c c' | _ => false end.

Lemma lookup_nullary n : one_of (flags0 ++ options0 ++ tests0 ++ actions0) n -> found n is_nullary = true.
Proof. apply (all_in_spec _ (fun n => found n is_nullary)). vm_compute. reflexivity. Qed.
Lemma lookup_unary n : one_of (options1 ++ tests1 ++ actions1 ++ ["-f"%string]) n -> found n is_unary = true.
Proof. apply (all_in_spec _ (fun n => found n is_unary)). vm_compute. reflexivity. Qed.
Lemma lookup_exec n : one_of ["-exec"; "-execdir"]%string n -> found n (is_exec false) = true.
Proof. apply (all_in_spec _ (fun n => found n (is_exec false))). vm_compute. reflexivity. Qed.
Lemma lookup_ok n : one_of ["-ok"; "-okdir"]%string n -> found n (is_exec true) = true.
Proof. apply (all_in_spec _ (fun n => found n (is_exec true))). vm_compute. reflexivity. Qed.
Lemma lookup_prefix n t : one_of ["-D"; "-O"; "-S"; "-j"]%string n ->
  exists e c, table_lookup (n ++ t) = Some e /\ e_arg e = n /\ e_parse e = Some (prefix_flag c (mem ["-D"; "-S"]%string n)) /\ n = letter c.
Proof.
  unfold one_of. cbn [map In]. intros [<-|[<-|[<-|[<-|[]]]]].
  - exists (E "-D" BFS_FLAG (Some (prefix_flag "D" true)) true false), "D"%byte. repeat split.
  - exists (E "-O" BFS_FLAG (Some (prefix_flag "O" false)) true false), "O"%byte. repeat split.
  - exists (E "-S" BFS_FLAG (Some (prefix_flag "S" true)) true false), "S"%byte. repeat split.
  - exists (E "-j" BFS_FLAG (Some (prefix_flag "j" false)) true false), "j"%byte. repeat split.
Qed.
Lemma lookup_newerxy x y : exists e, table_lookup (b "-newer" ++ [x; y]) = Some e /\ e_arg e = b "-newer" /\ e_parse e = Some newerxy.
Proof. exists (E "-newer" BFS_TEST (Some newerxy) true false). repeat split. Qed.

Lemma lookup_in n e : table_lookup n = Some e -> In e parse_table /\ matches n e = true.
Proof. apply List.find_some. Qed.

Lemma primary_lookup w after names args : sane (isspace w) ->
  primary w after names args ->
  (exists e f k, table_lookup (hd [] args) = Some e /\ e_parse e = Some f /\ names = [e_arg e] /\
     want w f (args ++ after) = Some (k, length args)) \/
  (exists word more, args = word :: more /\ joined names word more /\ ~ taken word).
Proof.
  intros SN H. destruct H as [n I|n v I|file fmt|n t I T|n v I|N|n N|N|n N|n tmpl multi ending I E C|n tmpl I C|x y v|flags word more J T].
  13: { right. eauto. }
  all: left; cbn [hd].
  - apply lookup_nullary, found_spec in I. destruct I as (e & f & L & A & P & F). destruct f; try discriminate.
    exists e, (nullary k), k. rewrite A. repeat split; assumption.
  - apply lookup_unary, found_spec in I. destruct I as (e & f & L & A & P & F). destruct f; try discriminate.
    exists e, (unary k), k. rewrite A. repeat split; assumption.
  - exists (E "-fprintf" BFS_ACTION (Some fprintf_) false false), fprintf_, BFS_ACTION. repeat split.
  - pose proof I as I'. apply (lookup_prefix n t) in I'. destruct I' as (e & c & L & A & P & ->).
    eexists e, _, _. split; [exact L|]. split; [exact P|]. split; [now rewrite A|]. cbn [want app hd].
    rewrite after_flag_letter, letter_not_dash by assumption. destruct t; [congruence|]. reflexivity.
  - assert (I2 : one_of ["-D"; "-O"; "-S"; "-j"]%string n) by (unfold one_of in *; cbn in *; tauto).
    pose proof I2 as I'. apply (lookup_prefix n []) in I'. destruct I' as (e & c & L & A & P & ->). rewrite app_nil_r in L.
    apply mem_iff in I. rewrite I in P. eexists e, _, _. split; [exact L|]. split; [exact P|]. split; [now rewrite A|]. cbn [want app hd].
    replace (letter c) with (letter c ++ []) by reflexivity. rewrite after_flag_letter, letter_not_dash by assumption. reflexivity.
  - eexists (E "-depth" BFS_OPTION (Some depth_n) false false), depth_n, _. do 3 (split; [reflexivity|]).
    cbn [app want nth_error]. destruct after as [|n after]; [reflexivity|]. cbn [nth_error].
    specialize (N n eq_refl). rewrite <- number_like_iff in N. destruct (looks_like_icmp n); [congruence|]. reflexivity.
  - eexists (E "-depth" BFS_OPTION (Some depth_n) false false), depth_n, _. do 3 (split; [reflexivity|]).
    cbn [app want nth_error]. apply number_like_iff in N. rewrite N. reflexivity.
  - eexists (E "-exit" BFS_ACTION (Some exit_status) false false), exit_status, _. do 3 (split; [reflexivity|]).
    cbn [app want nth_error]. destruct after as [|n after]; [reflexivity|]. cbn [nth_error].
    specialize (N n eq_refl). rewrite <- (status_iff (isspace w) n SN) in N.
    destruct (parse_int (isspace w) 10 IF_INT true false n) as [x|x]; [|reflexivity]. exfalso. eauto.
  - eexists (E "-exit" BFS_ACTION (Some exit_status) false false), exit_status, _. do 3 (split; [reflexivity|]).
    cbn [app want nth_error]. apply (status_iff (isspace w) n SN) in N. destruct N as [x N]. rewrite N. reflexivity.
  - apply lookup_exec, found_spec in I. destruct I as (e & f & L & A & P & F). destruct f; try discriminate.
    cbn [is_exec] in F; apply Bool.eqb_prop in F; subst confirm. eexists e, (exec false), _. split; [exact L|]. split; [exact P|]. split; [now rewrite A|].
    cbn [app want tl]. rewrite <- app_assoc. cbn [app]. apply exec_parse_ok in C. rewrite C. f_equal. f_equal.
    cbn [length]. rewrite app_length. cbn [length]. unfold GramModel.arg, ExecModel.arg. lia.
  - apply lookup_ok, found_spec in I. destruct I as (e & f & L & A & P & F). destruct f; try discriminate.
    cbn [is_exec] in F; apply Bool.eqb_prop in F; subst confirm. eexists e, (exec true), _. split; [exact L|]. split; [exact P|]. split; [now rewrite A|].
    cbn [app want tl]. rewrite <- app_assoc. cbn [app]. apply exec_parse_ok in C. rewrite C. f_equal. f_equal.
    cbn [length]. rewrite app_length. cbn [length]. unfold GramModel.arg, ExecModel.arg. lia.
  - destruct (lookup_newerxy x y) as (e & L & A & P). exists e, newerxy, BFS_TEST. rewrite A. repeat split; assumption.
Qed.

Lemma lookup_taken a : (exists e, table_lookup a = Some e) <-> taken a.
Proof.
  assert (PS : forall q, begins q a <-> starts_with (b q) a = true).
  { intros q. unfold begins. symmetry. apply starts_with_iff. }
  unfold taken. rewrite !PS, <- mem_iff. set (L := (_ ++ _)).
  split.
  - intros (e & H). apply lookup_in in H. destruct H as [I M]. unfold matches in M.
    assert (C : forallb (fun e => if e_prefix e then existsb (fun q => aeq (e_arg e) (b q)) ["-D"; "-O"; "-S"; "-j"; "-newer"]%string else mem L (e_arg e)) parse_table = true)
      by (vm_compute; reflexivity).
    rewrite forallb_forall in C. specialize (C e I). cbn beta in C. destruct (e_prefix e).
    + apply existsb_exists in C. destruct C as (q & Q & A). apply aeq_iff in A. rewrite A in M.
      cbn [In] in Q. destruct Q as [<-|[<-|[<-|[<-|[<-|[]]]]]]; tauto.
    + apply aeq_iff in M. subst a. now left.
  - intros H.
    assert (X : exists e, In e parse_table /\ matches a e = true).
    { destruct H as [H|H].
      - assert (C : all_in L (fun n => existsb (fun e => aeq (e_arg e) n && negb (e_prefix e)) parse_table) = true) by (vm_compute; reflexivity).
        apply mem_iff in H. apply (all_in_spec _ _ C), existsb_exists in H. destruct H as (e & I & M). exists e. split; [exact I|].
        apply andb_true_iff in M. destruct M as [M1 M2]. apply aeq_iff in M1. apply negb_true_iff in M2. unfold matches. rewrite M2, M1. apply aeq_refl.
      - assert (C : forallb (fun q => existsb (fun e => aeq (e_arg e) (b q) && e_prefix e) parse_table) ["-D"; "-O"; "-S"; "-j"; "-newer"]%string = true) by (vm_compute; reflexivity).
        assert (Q : exists q, In q ["-D"; "-O"; "-S"; "-j"; "-newer"]%string /\ starts_with (b q) a = true).
        { cbn [In]. destruct H as [H|[H|[H|[H|H]]]]; eexists; (split; [|exact H]); tauto. }
        destruct Q as (q & Iq & M). rewrite forallb_forall in C. specialize (C q Iq). apply existsb_exists in C. destruct C as (e & I & A).
        apply andb_true_iff in A. destruct A as [A1 A2]. apply aeq_iff in A1. exists e. split; [exact I|]. unfold matches. rewrite A2, A1. exact M. }
    destruct X as (e & I & M). destruct (table_lookup a) as [e'|] eqn:T; [eauto|]. exfalso.
    pose proof (List.find_none _ _ T e I). congruence.
Qed.

(** ** Several flags in one argument *)

Definition simpleb (c : byte) : bool := mem ("-x"%string :: flags0) (letter c).
Definition valueb (c : byte) : bool := mem ["-D"; "-O"; "-S"; "-j"]%string (letter c).
Definition sepb (c : byte) : bool := mem ["-D"; "-S"]%string (letter c).

Definition flag_fits (c : byte) : bool :=
  match flag_lookup c with
  | None => negb (simpleb c) && negb (Byte.eqb c "f") && negb (valueb c)
  | Some e =>
      entry_fits e &&
      match e_parse e with
      | None => negb (simpleb c) && negb (Byte.eqb c "f") && negb (valueb c)
      | Some (nullary _) => aeq (e_arg e) (letter c) && simpleb c && negb (e_prefix e) && negb (e_needs_arg e)
      | Some (unary _) => aeq (e_arg e) (letter c) && Byte.eqb c "f" && negb (e_prefix e) && e_needs_arg e && negb (simpleb c) && negb (valueb c)
      | Some (prefix_flag d sep) =>
          aeq (e_arg e) (letter c) && Byte.eqb c d && e_prefix e && negb (simpleb c) && negb (Byte.eqb c "f") && valueb c && Bool.eqb sep (sepb c)
      | _ => false
      end
  end.
Lemma flags_fit c : flag_fits c = true.
Proof. apply (all_in_bytes flag_fits). vm_compute. reflexivity. Qed.

Inductive flag_case (c : byte) : Prop :=
| fc_none : match flag_lookup c with Some e => e_parse e | None => None end = None ->
    simpleb c = false -> Byte.eqb c "f" = false -> valueb c = false -> flag_case c
| fc_simple e k : flag_lookup c = Some e -> e_parse e = Some (nullary k) -> entry_fits e = true -> e_arg e = letter c ->
    simpleb c = true -> e_prefix e = false -> e_needs_arg e = false -> flag_case c
| fc_path e k : flag_lookup c = Some e -> e_parse e = Some (unary k) -> entry_fits e = true -> e_arg e = letter c ->
    c = "f"%byte -> e_prefix e = false -> e_needs_arg e = true -> simpleb c = false -> valueb c = false -> flag_case c
| fc_value e : flag_lookup c = Some e -> e_parse e = Some (prefix_flag c (sepb c)) -> entry_fits e = true -> e_arg e = letter c ->
    e_prefix e = true -> simpleb c = false -> Byte.eqb c "f" = false -> valueb c = true -> flag_case c.

Lemma flag_cases c : flag_case c.
Proof.
  pose proof (flags_fit c) as H. unfold flag_fits in H. destruct (flag_lookup c) as [e|] eqn:L.
  - apply andb_true_iff in H. destruct H as [EF H]. destruct (e_parse e) as [f|] eqn:P.
    + destruct f; try discriminate; rewrite ?andb_true_iff, ?negb_true_iff in H.
      * apply fc_simple with e k; try tauto. now apply aeq_iff.
      * apply fc_path with e k; try tauto; [now apply aeq_iff|]. apply byte_eqb_iff. tauto.
      * assert (c = flag) by (apply byte_eqb_iff; tauto). subst flag.
        assert (separate = sepb c) by (apply Bool.eqb_prop; tauto). subst separate.
        apply fc_value with e; try tauto. now apply aeq_iff.
    + rewrite ?andb_true_iff, ?negb_true_iff in H. apply fc_none; try tauto. now rewrite L, P.
  - rewrite ?andb_true_iff, ?negb_true_iff in H. apply fc_none; try tauto. now rewrite L.
Qed.

Lemma simpleb_iff c : simpleb c = true <-> simple_flag c.
Proof. apply mem_iff. Qed.
Lemma upper_iff c : upper c = true <-> capital c.
Proof. unfold upper, capital. rewrite andb_true_iff, !Nat.leb_le. reflexivity. Qed.

Lemma simple_not_value c : simpleb c = true -> valueb c = true -> False.
Proof.
  intros S V. destruct (flag_cases c) as [N S' F V'|e k L P EF A S' X Y|e k L P EF A X Y Z S' V'|e L P EF A X S' F V']; try congruence.
  assert (H : forallb (fun c => negb (simpleb c && valueb c)) (map (fun n => match Byte.of_nat n with Some c => c | None => x00 end) (seq 0 256)) = true)
    by (vm_compute; reflexivity).
  pose proof (all_in_bytes (fun c => negb (simpleb c && valueb c)) H c) as C. cbn beta in C. rewrite S, V in C. discriminate.
Qed.

(** What may follow the last flag in the argument *)
Definition tail_ok (c : byte) (t : list byte) : Prop :=
  simpleb c = true /\ t = [] \/ c = "f"%byte /\ t = [] \/ valueb c = true.

Lemma scan_spec cs : forall up, group_scan up false cs = true <->
  (cs = [] /\ up = true) \/
  exists cs1 c t, cs = cs1 ++ c :: t /\ Forall simple_flag cs1 /\ tail_ok c t /\ (up = true \/ Exists capital (cs1 ++ [c])).
Proof.
  induction cs as [|c cs IH]; intros up.
  - cbn [group_scan]. split; [tauto|]. intros [[_ H]|(cs1 & d & t & E & _)]; [assumption|]. destruct cs1; discriminate.
  - cbn [group_scan].
    assert (UP : up || upper c = true <-> up = true \/ capital c) by (rewrite orb_true_iff, upper_iff; reflexivity).
    destruct (flag_cases c) as [N S F V|e k L P EF A S X Y|e k L P EF A -> X Y S V|e L P EF A X S F V].
    + assert (H : match flag_lookup c with
                  | Some e => match e_parse e with Some _ => if e_prefix e then up || upper c else group_scan (up || upper c) (false || e_needs_arg e) cs | None => false end
                  | None => false end = false).
      { destruct (flag_lookup c) as [e|]; [|reflexivity]. now rewrite N. }
      rewrite H. split; [discriminate|]. intros [[E _]|(cs1 & d & t & E & FS & T & _)]; [discriminate|].
      exfalso. destruct cs1 as [|d' cs1]; injection E as -> ->.
      * destruct T as [[T _]|[[-> _]|T]]; try congruence. discriminate.
      * inversion_clear FS as [|? ? FS1 _]. apply simpleb_iff in FS1. congruence.
    + rewrite L, P, X, Y. cbn [orb]. rewrite IH. split.
      * intros [[-> U]|(cs1 & d & t & -> & FS & T & U)]; right.
        -- exists [], c, []. split; [reflexivity|]. split; [constructor|]. split; [left; auto|].
           apply UP in U. destruct U as [U|U]; [now left|right; now constructor].
        -- exists (c :: cs1), d, t. split; [reflexivity|]. split; [constructor; [now apply simpleb_iff|assumption]|]. split; [assumption|].
           cbn [app]. rewrite Exists_cons. rewrite UP in U. tauto.
      * intros [[E _]|(cs1 & d & t & E & FS & T & U)]; [discriminate|]. destruct cs1 as [|d' cs1]; injection E as -> ->.
        -- left. assert (t = []) as ->. { destruct T as [[_ T]|[[_ T]|T]]; try assumption. exfalso. clear - S T. revert S T. apply simple_not_value. }
           split; [reflexivity|]. apply UP. cbn [app] in U. rewrite Exists_cons, Exists_nil in U. tauto.
        -- right. inversion_clear FS as [|? ? _ FS2]. exists cs1, d, t. split; [reflexivity|]. split; [assumption|]. split; [assumption|].
           rewrite UP. cbn [app] in U. rewrite Exists_cons in U. tauto.
    + rewrite L, P, X, Y. cbn [orb]. destruct cs as [|c' cs]; cbn [group_scan].
      * split.
        -- intros U. right. exists [], "f"%byte, []. split; [reflexivity|]. split; [constructor|]. split; [right; left; auto|].
           apply UP in U. destruct U as [U|U]; [now left|right; now constructor].
        -- intros [[E _]|(cs1 & d & t & E & FS & T & U)]; [discriminate|]. destruct cs1 as [|d' cs1]; injection E as <- E.
           ++ apply UP. cbn [app] in U. rewrite Exists_cons, Exists_nil in U. tauto.
           ++ destruct cs1; discriminate.
      * split; [discriminate|]. intros [[E _]|(cs1 & d & t & E & FS & T & U)]; [discriminate|]. exfalso. destruct cs1 as [|d' cs1]; injection E as <- E.
        -- destruct T as [[T _]|[[_ ->]|T]]; try congruence.
        -- inversion_clear FS as [|? ? FS1 _]. apply simpleb_iff in FS1. congruence.
    + rewrite L, P, X. split.
      * intros U. right. exists [], c, cs. split; [reflexivity|]. split; [constructor|]. split; [right; right; assumption|].
        apply UP in U. destruct U as [U|U]; [now left|right; now constructor].
      * intros [[E _]|(cs1 & d & t & E & FS & T & U)]; [discriminate|]. destruct cs1 as [|d' cs1]; injection E as -> E.
        -- apply UP. cbn [app] in U. rewrite Exists_cons, Exists_nil in U. tauto.
        -- inversion_clear FS as [|? ? FS1 _]. apply simpleb_iff in FS1. congruence.
Qed.

Lemma no_letter_action c : actionb (letter c) = false.
Proof.
  apply negb_true_iff. apply (all_in_bytes (fun c => negb (actionb (letter c)))). vm_compute. reflexivity.
Qed.
Lemma letter_inj c d : letter c = letter d -> c = d.
Proof. intros [= ->]. reflexivity. Qed.

Lemma lists_letters cs args : lists_in (map letter cs) args = [].
Proof.
  unfold lists_in, lists_of. destruct cs as [|c [|]]; try reflexivity. cbn [map].
  destruct (list_eq_dec Byte.byte_eq_dec (letter c) (b "-files0-from")) as [E|]; [discriminate|reflexivity].
Qed.
Lemma paths_one names (word : arg) : paths_in names [word] = [].
Proof. unfold paths_in, paths_of. destruct (list_eq_dec _ _ _); reflexivity. Qed.
Lemma excludes_letters cs : excludes (map letter cs) = [].
Proof.
  unfold excludes. induction cs as [|c cs IH]; [reflexivity|]. cbn [map flat_map]. rewrite IH.
  destruct (list_eq_dec Byte.byte_eq_dec (letter c) (b "-nohidden")) as [E|]; [discriminate|reflexivity].
Qed.

Lemma moved_group start pre c word args :
  moved [letter c] args (rewind start (moved (map letter pre) [word] start)) = moved (map letter (pre ++ [c])) args start.
Proof.
  unfold moved, rewind. cbn [done rest roots exclude implicit_print expr_started GramModel.excluding GramModel.limit GramModel.files0].
  change [letter c] with (map letter [c]). rewrite !lists_letters, paths_one, !excludes_letters, !app_nil_r.
  rewrite map_app, !existsb_app, forallb_app, negb_orb, negb_andb, !andb_assoc, !orb_assoc. f_equal. f_equal.
  unfold paths_in, paths_of. cbn [map]. rewrite last_last. reflexivity.
Qed.

(** The arguments that the last flag takes *)
Definition final (c : byte) (t : list byte) (r : list arg) : option (list arg) :=
  if simpleb c then Some []
  else if Byte.eqb c "f" then match r with v :: _ => Some [v] | [] => None end
  else match t with
       | _ :: _ => Some []
       | [] => if sepb c then match r with v :: _ => Some [v] | [] => None end else None
       end.

Lemma final_spec c t r more : tail_ok c t ->
  (final c t r = Some more <-> last_flag c t more /\ exists after, r = more ++ after).
Proof.
  intros T. unfold final.
  assert (V : valueb c = true <-> one_of ["-D"; "-O"; "-S"; "-j"]%string (letter c)) by apply mem_iff.
  assert (P : sepb c = true <-> one_of ["-D"; "-S"]%string (letter c)) by apply mem_iff.
  assert (F : simpleb "f" = false) by reflexivity.
  assert (PV : sepb c = true -> valueb c = true) by (rewrite V, P; unfold one_of; cbn; tauto).
  assert (FV : valueb "f" = false) by reflexivity.
  split.
  - destruct (simpleb c) eqn:S.
    + intros [= <-]. split; [|now exists r]. destruct T as [[_ ->]|[[-> _]|T]]; [|discriminate|destruct (simple_not_value c S T)].
      apply last_simple. now apply simpleb_iff.
    + destruct (Byte.eqb c "f") eqn:E.
      * apply byte_eqb_iff in E. subst c. destruct r as [|v r]; [discriminate|]. intros [= <-]. split; [|now exists r].
        destruct T as [[T _]|[[_ ->]|T]]; [discriminate| |discriminate]. apply last_path.
      * destruct T as [[T _]|[[-> _]|T]]; [congruence|discriminate|]. destruct t as [|x t].
        -- destruct (sepb c); [|discriminate]. destruct r as [|v r]; [discriminate|]. intros [= <-]. split; [|now exists r]. apply last_separate. now apply P.
        -- intros [= <-]. split; [|now exists r]. apply last_value; [now apply V|discriminate].
  - intros [L (after & ->)]. destruct L as [c S|v|c t I N|c v I].
    + apply simpleb_iff in S. now rewrite S.
    + reflexivity.
    + apply V in I. destruct (simpleb c) eqn:S; [reflexivity|]. destruct (Byte.eqb c "f") eqn:E.
      * apply byte_eqb_iff in E. subst. discriminate.
      * destruct t; [congruence|reflexivity].
    + apply P in I. destruct (simpleb c) eqn:S.
      * destruct (simple_not_value c S (PV I)).
      * destruct (Byte.eqb c "f"); [reflexivity|]. now rewrite I.
Qed.

Lemma last_flag_tail c t more : last_flag c t more -> tail_ok c t.
Proof.
  intros L. destruct L as [c S|v|c t I N|c v I].
  - left. split; [now apply simpleb_iff|reflexivity].
  - right. left. split; reflexivity.
  - right. right. now apply mem_iff.
  - right. right. apply mem_iff. unfold one_of in *. cbn in *. tauto.
Qed.

Lemma after_flag_group c cs t : ~ In c cs -> after_flag c (cs ++ c :: t) = Some t.
Proof.
  induction cs as [|d cs IH]; intros N; cbn [app after_flag].
  - now rewrite (proj2 (byte_eqb_iff c c) eq_refl).
  - destruct (Byte.eqb d c) eqn:E; [apply byte_eqb_iff in E; subst; exfalso; apply N; now left|].
    apply IH. intros I. apply N. now right.
Qed.

Section Group.
  Variable w : env.
  Variables (start : parser) (word : arg) (r : list arg).
  Hypothesis R : rest start = word :: r.

  Lemma rewound p : rest (rewind start p) = word :: r.
  Proof. exact R. Qed.
  Lemma rewound_done p : done (rewind start p) = done start.
  Proof. reflexivity. Qed.

  Lemma fits e f : e_parse e = Some f -> entry_fits e = true ->
    forallb (kind_fits (e_arg e)) (kinds_of f) = true /\ shape_fits (e_arg e) f = true.
  Proof. intros P EF. unfold entry_fits in EF. rewrite P, !andb_true_iff in EF. tauto. Qed.

  Lemma group_spec : forall cs1 pre p end_ last c t,
    word = x2d :: pre ++ cs1 ++ c :: t -> Forall simple_flag pre -> Forall simple_flag cs1 -> tail_ok c t ->
    rewind start p = rewind start (moved (map letter pre) [word] start) -> end_ <= length (done start) + 1 ->
    group_loop w start p end_ (cs1 ++ c :: t) last =
    if forallb (fun d => valid w (done start) (letter d) [word]) cs1 then
      match final c t r with
      | Some more =>
          if valid w (done start) (letter c) (word :: more)
          then Ok (Prim (letter c) (word :: more), moved (map letter (pre ++ cs1 ++ [c])) (word :: more) start)
          else Rejected
      | None => Rejected
      end
    else Rejected.
  Proof.
    induction cs1 as [|d cs1 IH]; intros pre p end_ last c t W FP FS T RW EN.
    - cbn [app forallb group_loop].
      destruct (flag_cases c) as [N S F V|e k L P EF A S X Y|e k L P EF A -> X Y S V|e L P EF A X S F V].
      + exfalso. destruct T as [[T _]|[[-> _]|T]]; try congruence. discriminate.
      + rewrite L, P, X. destruct (fits e _ P EF) as [K SH]. rewrite run_spec by (try assumption; try exact I; rewrite rewound; discriminate).
        rewrite rewound. cbn [want firstn]. unfold result_of, final. rewrite A, no_letter_action, andb_false_r, rewound_done, S.
        assert (t = []) as -> by (destruct T as [[_ T]|[[_ T]|T]]; [assumption|assumption|destruct (simple_not_value c S T)]).
        destruct (valid w (done start) (letter c) [word]); [|reflexivity]. cbn [group_loop].
        rewrite RW, moved_group. cbn [moved done]. rewrite !app_length. cbn [length].
        rewrite (proj2 (Nat.eqb_eq _ _)) by lia. reflexivity.
      + rewrite L, P, X. destruct (fits e _ P EF) as [K SH]. rewrite run_spec by (try assumption; try exact I; rewrite rewound; discriminate).
        rewrite rewound. cbn [want]. unfold final. cbn [Byte.eqb]. rewrite S.
        assert (t = []) as -> by (destruct T as [[T _]|[[_ T]|T]]; [congruence|assumption|congruence]).
        replace (Byte.eqb "f" "f") with true by reflexivity. destruct r as [|v r']; [reflexivity|]. cbn [firstn]. unfold result_of. rewrite A, no_letter_action, andb_false_r, rewound_done.
        destruct (valid w (done start) (letter "f") [word; v]); [|reflexivity]. cbn [group_loop].
        rewrite RW, moved_group. cbn [moved done]. rewrite !app_length. cbn [length].
        rewrite (proj2 (Nat.eqb_eq _ _)) by lia. reflexivity.
      + rewrite L, P, X. destruct (fits e _ P EF) as [K SH].
        assert (AF : after_flag c word = Some t).
        { rewrite W. cbn [app]. change (x2d :: pre ++ c :: t) with ((x2d :: pre) ++ c :: t). apply after_flag_group.
          intros [<-|I]; [discriminate|]. rewrite Forall_forall in FP. apply FP, simpleb_iff in I. congruence. }
        rewrite run_spec by (try assumption; rewrite rewound; cbn [hd]; try congruence).
        rewrite rewound. cbn [want hd]. rewrite AF. unfold final. rewrite S, F.
        destruct t as [|y t]; [destruct (sepb c); [destruct r as [|v r']|]|]; try reflexivity; cbn [firstn]; unfold result_of;
          rewrite A, no_letter_action, andb_false_r, rewound_done;
          match goal with |- context [valid ?a ?x ?y ?z] => destruct (valid a x y z) end; try reflexivity;
          rewrite RW, moved_group; cbn [moved done]; rewrite !app_length; cbn [length];
          rewrite (proj2 (Nat.eqb_eq _ _)) by lia; reflexivity.
    - inversion_clear FS as [|? ? FS1 FS2]. pose proof FS1 as S. apply simpleb_iff in S.
      cbn [app forallb group_loop].
      destruct (flag_cases d) as [N S' F V|e k L P EF A S' X Y|e k L P EF A X Y Z S' V|e L P EF A X S' F V]; try congruence.
      rewrite L, P, X. destruct (fits e _ P EF) as [K SH]. rewrite run_spec by (try assumption; try exact I; rewrite rewound; discriminate).
      rewrite rewound. cbn [want firstn]. unfold result_of. rewrite A, no_letter_action, andb_false_r, rewound_done.
      destruct (valid w (done start) (letter d) [word]); [|reflexivity]. cbn [andb].
      rewrite (IH (pre ++ [d])).
      + rewrite <- app_assoc. reflexivity.
      + rewrite W, <- app_assoc. reflexivity.
      + apply Forall_app. split; [assumption|]. constructor; [assumption|constructor].
      + assumption.
      + assumption.
      + rewrite RW, moved_group. reflexivity.
      + rewrite RW, moved_group. cbn [moved done]. rewrite !app_length. cbn [length]. lia.
  Qed.
End Group.

(** ** All primaries *)

Lemma accepted_group w before word more cs c :
  accepted w before (map letter (cs ++ [c])) (word :: more) <->
  forallb (fun d => valid w before (letter d) [word]) cs = true /\ valid w before (letter c) (word :: more) = true.
Proof.
  induction cs as [|d cs IH].
  - cbn [app map accepted forallb]. tauto.
  - cbn [app map forallb]. rewrite andb_true_iff.
    assert (C : accepted w before (letter d :: map letter (cs ++ [c])) (word :: more) <->
                valid w before (letter d) [word] = true /\ accepted w before (map letter (cs ++ [c])) (word :: more)).
    { destruct cs; reflexivity. }
    rewrite C, IH. tauto.
Qed.

Lemma dashed a r w p : rest p = a :: r -> hd_error a = Some x2d ->
  parse_primary w p =
  match table_lookup a with
  | Some e => match e_parse e with Some f => run w f (e_arg e) p | None => Rejected end
  | None => if is_flag_group a then parse_flag_group w p else Rejected
  end.
Proof. intros R H. unfold parse_primary. rewrite R. destruct a as [|c a]; [discriminate|]. injection H as ->. reflexivity. Qed.

Lemma not_dashed a r w p : rest p = a :: r -> hd_error a <> Some x2d -> parse_primary w p = Rejected.
Proof.
  intros R H. unfold parse_primary. rewrite R. destruct a as [|c a]; [reflexivity|]. cbn [hd_error] in H.
  destruct c; try reflexivity. congruence.
Qed.

Lemma no_letter_actions cs : ~ Exists is_action (map letter cs).
Proof.
  intros H. apply Exists_exists in H. destruct H as (x & I & A). apply in_map_iff in I. destruct I as (c & <- & _).
  apply actionb_iff in A. now rewrite no_letter_action in A.
Qed.

(** The outcome of [parse_primary] *)
Lemma prim_cases w p a r : sane (isspace w) -> rest p = a :: r ->
  (parse_primary w p = Rejected) \/
  (exists names args after,
     rest p = args ++ after /\ primary w after names args /\ accepted w (done p) names args /\
     (excluding p = true -> ~ Exists is_action names) /\
     parse_primary w p = Ok (Prim (last names []) args, moved names args p)).
Proof.
  intros SN R. destruct (hd_error a) as [h|] eqn:H.
  2: { left. apply (not_dashed a r); congruence. }
  destruct (Byte.byte_eq_dec h x2d) as [->|N].
  2: { left. apply (not_dashed a r); congruence. }
  rewrite (dashed a r w p R H). destruct (table_lookup a) as [e|] eqn:L.
  - destruct (e_parse e) as [f|] eqn:P; [|now left]. apply lookup_in in L. destruct L as [IE M]. apply entry_ok in IE.
    destruct (fits e f P IE) as [K SH].
    assert (AF : match f with prefix_flag c _ => after_flag c (hd [] (rest p)) <> None | _ => True end).
    { destruct f as [ | |c s| | | | | | ]; try exact I. rewrite R. cbn [hd]. unfold entry_fits in IE. rewrite P in IE.
      rewrite !andb_true_iff in IE. destruct IE as [[_ _] X]. apply Bool.eqb_prop in X. unfold matches in M. rewrite X in M. cbn [is_prefix_flag] in M.
      cbn [shape_fits] in SH. rewrite !andb_true_iff in SH. destruct SH as [[S1 S2] _]. apply aeq_iff in S1. rewrite S1 in M.
      apply starts_with_iff in M. destruct M as [t ->]. rewrite after_flag_letter. destruct (Byte.eqb x2d c); discriminate. }
    rewrite run_spec by (try assumption; rewrite R; discriminate).
    destruct (want w f (rest p)) as [[k m]|] eqn:W; [|now left].
    unfold result_of. destruct (excluding p && actionb (e_arg e)) eqn:X; [now left|].
    destruct (valid w (done p) (e_arg e) (firstn m (rest p))) eqn:V; [|now left]. right.
    exists [e_arg e], (firstn m (rest p)), (skipn m (rest p)). split; [apply app_split|].
    split. { rewrite R in *. apply (want_primary w e f a r k m); assumption. }
    split; [exact V|]. split; [|reflexivity].
    intros EX A. rewrite EX in X. cbn [andb] in X. inversion_clear A as [? ? A1|? ? A1]; [|inversion A1]. apply actionb_iff in A1. congruence.
  - destruct (is_flag_group a) eqn:G; [|now left]. unfold is_flag_group in G. apply scan_spec in G.
    destruct G as [[_ G]|(cs & c & t & E & FS & T & U)]; [discriminate|]. destruct U as [U|U]; [discriminate|].
    assert (WD : a = x2d :: [] ++ cs ++ c :: t).
    { destruct a as [|y a]; [discriminate|]. injection H as ->. cbn [tl] in E. now subst a. }
    unfold parse_flag_group. rewrite R. cbn [hd]. rewrite E.
    rewrite (group_spec w p a r R cs [] p (length (done p)) None c t WD (Forall_nil _) FS T).
    + destruct (forallb (fun d => valid w (done p) (letter d) [a]) cs) eqn:V1; [|now left].
      destruct (final c t r) as [more|] eqn:F; [|now left].
      destruct (valid w (done p) (letter c) (a :: more)) eqn:V2; [|now left]. right.
      apply (final_spec c t r more T) in F. destruct F as [LF (after & AE)].
      exists (map letter (cs ++ [c])), (a :: more), after. split; [rewrite AE; reflexivity|]. split.
      { apply p_joined.
        - exists cs, c, t. split; [reflexivity|]. split; [assumption|]. split; [assumption|]. split; assumption.
        - intros TK. apply lookup_taken in TK. destruct TK as [e TK]. congruence. }
      split; [apply accepted_group; split; assumption|]. split; [intros _; apply no_letter_actions|].
      rewrite app_nil_l, !map_app. cbn [map]. rewrite last_last. reflexivity.
    + unfold rewind, moved. cbn [map done rest roots exclude implicit_print expr_started GramModel.excluding GramModel.limit GramModel.files0].
      rewrite paths_one. cbn [excludes flat_map existsb forallb negb lists_in lists_of latest rev]. rewrite !app_nil_r, andb_true_r, !orb_false_r. reflexivity.
    + lia.
Qed.

(** Primaries can be told from other words *)
Lemma entries_dashed : forallb (fun e => match e_arg e with x2d :: _ :: _ => true | _ => false end) parse_table = true.
Proof. vm_compute. reflexivity. Qed.
Lemma operators_lookup a : one_of operators a -> exists e, table_lookup a = Some e /\ e_parse e = None.
Proof.
  assert (C : all_in operators (fun a => match table_lookup a with Some e => match e_parse e with None => true | _ => false end | None => false end) = true)
    by (vm_compute; reflexivity).
  intros I. apply (all_in_spec _ _ C) in I. cbn beta in I. destruct (table_lookup a) as [e|]; [|discriminate]. exists e.
  split; [reflexivity|]. destruct (e_parse e); [discriminate|reflexivity].
Qed.
Lemma primary_word w after names args : sane (isspace w) -> primary w after names args ->
  exists a more, args = a :: more /\ hd_error a = Some x2d /\ a <> b "-" /\ ~ one_of operators a.
Proof.
  intros SN P. pose proof (primary_lookup w after names args SN P) as [(e & f & k & L & PF & N & W)|(word & more & -> & J & T)].
  - destruct args as [|a more]; [discriminate L|]. cbn [hd] in L. exists a, more. split; [reflexivity|].
    pose proof (lookup_in _ _ L) as [I M].
    pose proof entries_dashed as D. rewrite forallb_forall in D. specialize (D e I). cbn beta in D.
    assert (A : exists t, a = e_arg e ++ t).
    { unfold matches in M. destruct (e_prefix e); [now apply starts_with_iff|]. apply aeq_iff in M. exists []. now rewrite app_nil_r. }
    destruct A as [t ->]. destruct (e_arg e) as [|y [|z u]]; try discriminate D.
    { destruct y; discriminate D. }
    assert (y = x2d) as -> by (destruct y; try discriminate D; reflexivity).
    split; [reflexivity|]. split; [intros [=]|]. intros O. apply operators_lookup in O. destruct O as (e' & L' & P'). congruence.
  - exists word, more. destruct J as (cs & c & t & -> & -> & _). split; [reflexivity|]. split; [reflexivity|]. split.
    + intros [= E]. destruct cs; discriminate.
    + intros O. apply T. left. unfold one_of in *. rewrite !map_app, !in_app_iff. tauto.
Qed.

Lemma prim_complete w p names args after : sane (isspace w) ->
  rest p = args ++ after -> primary w after names args -> accepted w (done p) names args ->
  (excluding p = true -> ~ Exists is_action names) ->
  parse_primary w p = Ok (Prim (last names []) args, moved names args p).
Proof.
  intros SN R P AC EX.
  destruct (primary_word w after names args SN P) as (a & more & -> & H & _ & _). cbn [app] in R.
  pose proof (primary_lookup w after names _ SN P) as [(e & f & k & L & PF & -> & W)|(word & more' & E & J & T)].
  - rewrite (dashed a _ w p R H). cbn [hd] in L. rewrite L, PF.
    apply lookup_in in L. destruct L as [IE M]. apply entry_ok in IE. destruct (fits e f PF IE) as [K SH].
    cbn [app] in W. rewrite <- R in W.
    rewrite run_spec; try assumption; [|rewrite R; discriminate|].
    2: { destruct f; try exact I. cbn [want] in W. intros A. rewrite A in W. discriminate. }
    rewrite W. unfold result_of. rewrite R. change (a :: more ++ after) with ((a :: more) ++ after). rewrite firstn_app, firstn_all, Nat.sub_diag, firstn_O, app_nil_r.
    cbn [accepted] in AC. rewrite AC. destruct (excluding p && actionb (e_arg e)) eqn:X; [|reflexivity].
    apply andb_true_iff in X. destruct X as [X1 X2]. exfalso. apply (EX X1). constructor. now apply actionb_iff.
  - injection E as <- <-. rewrite (dashed a _ w p R H). destruct (table_lookup a) as [e|] eqn:L.
    { exfalso. apply T, lookup_taken. eauto. }
    destruct J as (cs & c & t & -> & WD & FS & LF & U).
    assert (G : is_flag_group a = true).
    { unfold is_flag_group. apply scan_spec. right. exists cs, c, t. rewrite WD. split; [reflexivity|]. split; [assumption|].
      split; [now apply last_flag_tail in LF|now right]. }
    rewrite G. unfold parse_flag_group. rewrite R. cbn [hd].
    replace (tl a) with (cs ++ c :: t) by now rewrite WD.
    rewrite (group_spec w p a (more ++ after) R cs [] p (length (done p)) None c t WD (Forall_nil _) FS (last_flag_tail _ _ _ LF)).
    + apply accepted_group in AC. destruct AC as [AC1 AC2]. rewrite AC1.
      assert (F : final c t (more ++ after) = Some more).
      { apply final_spec; [now apply last_flag_tail in LF|]. split; [assumption|eauto]. }
      rewrite F, AC2. rewrite app_nil_l, !map_app. cbn [map]. rewrite last_last. reflexivity.
    + unfold rewind, moved. cbn [map done rest roots exclude implicit_print expr_started GramModel.excluding GramModel.limit GramModel.files0].
      rewrite paths_one. cbn [excludes flat_map existsb forallb negb lists_in lists_of latest rev]. rewrite !app_nil_r, andb_true_r, !orb_false_r. reflexivity.
    + lia.
Qed.
