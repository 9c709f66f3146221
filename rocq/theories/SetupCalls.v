(** * Settings: any call *)
From Coq Require Import String List Bool Arith ZArith NArith Lia Permutation.
From Coq Require Import Init.Byte Strings.Byte.
From Verif Require Import NumModel NumSpec NumProofs GramModel SetupModel SetupSpec SetupSteps.
Import ListNotations.
Local Open Scope string_scope.
Local Open Scope list_scope.

Lemma same_b m n : same (b m) (b n) = String.eqb m n.
Proof. change (same (b m) (b n)) with (named n (b m, [])). apply named_b. Qed.
Lemma b_inv (x : arg) : b (string_of_list_byte x) = x.
Proof. apply list_byte_of_string_of_list_byte. Qed.

(** ** -D *)

Lemma words_cspn s : words s = firstn (cspn s) s :: match skipn (cspn s) s with [] => [] | _ :: t => words t end.
Proof.
  induction s as [|c s IH]; [reflexivity|]. cbn [words cspn].
  destruct (Byte.eqb c ","); [reflexivity|]. cbn [firstn skipn]. rewrite IH. reflexivity.
Qed.
Lemma cspn_le s : length (skipn (cspn s) s) <= length s.
Proof. rewrite skipn_length. lia. Qed.

Section Debug.
  Variables (w : env) (cs : list call).
  Definition debugM (m : string -> bool) : N :=
    debugN (m "cost") (m "exec") (m "opt") (m "rates") (m "search") (m "stat") (m "tree").
  Definition with_debug (m : string -> bool) (l : list event) : parser :=
    set_log l (change (set_debug (debugM m)) (want w cs)).
  Definition or_word (v : arg) (m : string -> bool) (n : string) : bool := (m n || (same v (b n) || same v (b "all")))%bool.
  Definition note (v : arg) : list event := if unknown_debug v then warns w cs "-D" else [].

  Lemma known n : In n ["cost"; "exec"; "opt"; "rates"; "search"; "stat"; "tree"] ->
    exists i, find (fun e => aeq (b n) (fst e)) debug_names = Some (b n, i) /\
      (forall m, N.lor (debugM m) i = debugM (or_word (b n) m)) /\ unknown_debug (b n) = false /\
      same (b n) (b "help") = false /\ same (b n) (b "all") = false.
  Proof.
    cbn [In]. intros H.
    repeat destruct H as [<- |H]; [..|destruct H];
      (eexists; split; [reflexivity|]; split; [|split; [|split]; reflexivity];
       intros m; unfold debugM, or_word; rewrite !same_b; cbn [String.eqb Ascii.eqb Bool.eqb orb];
       rewrite ?orb_false_r, ?orb_true_r;
       destruct (m "cost"), (m "exec"), (m "opt"), (m "rates"), (m "search"), (m "stat"), (m "tree"); reflexivity).
  Qed.

  Lemma debug_ok fuel : forall s m l, length s < fuel ->
    debug_loop fuel s (with_debug m l) =
    if existsb (fun v => same v (b "help")) (words s) then Info
    else Ok (with_debug (fold_left (fun m v => or_word v m) (words s) m) (rev (flat_map note (words s)) ++ l)).
  Proof.
    induction fuel as [|fuel IH]; intros s m l L; [lia|].
    cbn [debug_loop]. rewrite words_cspn. cbn [existsb fold_left flat_map].
    change aeq with same. set (v := firstn (cspn s) s).
    assert (K : forall m' l', match skipn (cspn s) s with [] => Ok (with_debug m' l') | _ :: t => debug_loop fuel t (with_debug m' l') end =
      if existsb (fun v => same v (b "help")) (match skipn (cspn s) s with [] => [] | _ :: t => words t end) then Info
      else Ok (with_debug (fold_left (fun m v => or_word v m) (match skipn (cspn s) s with [] => [] | _ :: t => words t end) m')
                          (rev (flat_map note (match skipn (cspn s) s with [] => [] | _ :: t => words t end)) ++ l'))).
    { intros m' l'. pose proof (cspn_le s) as C. destruct (skipn (cspn s) s) as [|c t]; [reflexivity|].
      apply IH. cbn [length] in C. lia. }
    destruct (same v (b "help")) eqn:H; [reflexivity|]. cbn [orb].
    destruct (same v (b "all")) eqn:A.
    - apply same_eq in A.
      change (change (set_debug DEBUG_ALL) (with_debug m l)) with (set_log l (change (set_debug DEBUG_ALL) (want w cs))).
      replace (set_log l (change (set_debug DEBUG_ALL) (want w cs))) with (with_debug (or_word v m) l).
      + rewrite K. rewrite A. change (note (b "all")) with (@nil event). reflexivity.
      + rewrite A. unfold with_debug, debugM, or_word. rewrite !same_b. cbn [String.eqb Ascii.eqb Bool.eqb].
        rewrite !orb_true_r. reflexivity.
    - destruct (in_dec string_dec (string_of_list_byte v) ["cost"; "exec"; "opt"; "rates"; "search"; "stat"; "tree"]) as [I|I].
      + destruct (known _ I) as [i [F [O [U _]]]]. rewrite b_inv in F, O, U.
        change aeq with same in F. rewrite F.
        change (change (fun c => set_debug (N.lor (debug c) i) c) (with_debug m l))
          with (set_log l (change (set_debug (N.lor (debugM m) i)) (want w cs))).
        rewrite O. change (set_log l (change (set_debug (debugM (or_word v m))) (want w cs))) with (with_debug (or_word v m) l).
        rewrite K. unfold note at 2. rewrite U. reflexivity.
      + assert (D : forall n, In n ["cost"; "exec"; "opt"; "rates"; "search"; "stat"; "tree"] -> same v (b n) = false).
        { intros n J. destruct (same v (b n)) eqn:E; [|reflexivity]. apply same_eq in E. destruct I. rewrite E.
          unfold b. rewrite string_of_list_byte_of_string. exact J. }
        assert (D1 := D "cost"). assert (D2 := D "exec"). assert (D3 := D "opt"). assert (D4 := D "rates").
        assert (D5 := D "search"). assert (D6 := D "stat"). assert (D7 := D "tree").
        specialize (D1 ltac:(cbn; tauto)). specialize (D2 ltac:(cbn; tauto)). specialize (D3 ltac:(cbn; tauto)).
        specialize (D4 ltac:(cbn; tauto)). specialize (D5 ltac:(cbn; tauto)). specialize (D6 ltac:(cbn; tauto)). specialize (D7 ltac:(cbn; tauto)).
        assert (U : unknown_debug v = true).
        { unfold unknown_debug. cbn [existsb]. rewrite A, D1, D2, D3, D4, D5, D6, D7. reflexivity. }
        replace (find (fun e => same v (fst e)) debug_names) with (@None (arg * N)).
        2: { unfold debug_names. cbn [find fst]. rewrite D1, D2, D3, D4, D5, D6, D7. reflexivity. }
        replace (warning (b "-D") (with_debug m l)) with (with_debug (or_word v m) (rev (note v) ++ l)).
        * rewrite K. rewrite rev_app_distr, <- app_assoc. reflexivity.
        * rewrite (warned w cs) by reflexivity. unfold note. rewrite U.
          unfold with_debug, debugM, or_word. rewrite A, D1, D2, D3, D4, D5, D6, D7. rewrite !orb_false_r. reflexivity.
  Qed.

  Lemma fold_or vs : forall m n, fold_left (fun m v => or_word v m) vs m n =
    (m n || existsb (fun v => same v (b n) || same v (b "all")) vs)%bool.
  Proof.
    induction vs as [|v vs IH]; intros m n; cbn [fold_left existsb]; [rewrite orb_false_r; reflexivity|].
    rewrite IH. unfold or_word. rewrite !orb_assoc. reflexivity.
  Qed.

  Lemma want_debug : want w cs = with_debug (fun n => debugs n cs) (rev (eventsf w [] cs)).
  Proof. reflexivity. Qed.
  Lemma parse_D args : parse w (b "-D", args) (want w cs) =
    if existsb (fun v => same v (b "help")) (words (flag_value "D" (b "-D", args))) then Info else Ok (want w (cs ++ [(b "-D", args)])).
  Proof.
    change (parse w (b "-D", args) (want w cs)) with (parse_debug args (want w cs)). unfold parse_debug.
    rewrite (prefix_flag _ (b "-D")). set (v := flag_value "D" (b "-D", args)).
    rewrite want_debug, debug_ok by lia. destruct (existsb _ (words v)); [reflexivity|]. f_equal.
    rewrite want_snoc.
    cbv [more_want m_links m_colors m_warn m_races m_strategy m_regex m_option m_flag m_post m_seen more also any_of choose
         existsb String.eqb Ascii.eqb Bool.eqb].
    unfold m_debugs. change ("-D" =? "-D")%string with true.
    cbn [orb andb]. rewrite !orb_false_r. cbn [orb andb]. fold v. unfold with_debug, debugM. rewrite !fold_or. reflexivity.
  Qed.
End Debug.

(** ** Any call *)

Lemma as_b (c : call) : exists m, c = (b m, snd c).
Proof. destruct c as [n a]. exists (string_of_list_byte n). rewrite b_inv. reflexivity. Qed.

Definition table_names : list string :=
  ["-P"; "-H"; "-L"; "-follow"; "-X"; "-ignore_readdir_race"; "-noignore_readdir_race"; "-noerror"; "-nowarn"; "-warn"; "-status";
   "-unique"; "-prune"; "-E"; "-color"; "-nocolor"; "-d"; "-delete"; "-rm"; "-depth"; "-mount"; "-x"; "-xdev"; "-s"; "-fls";
   "-fprint"; "-fprint0"; "-fprintf"; "-regex"; "-iregex"; "-samefile"; "-anewer"; "-Bnewer"; "-cnewer"; "-mnewer"; "-newer";
   "-noleaf"; "-mindepth"; "-maxdepth"; "-j"; "-O"; "-S"; "-regextype"; "-D"].
Lemma table_complete w n : existsb (String.eqb n) table_names = existsb (String.eqb n) (map fst (table w)).
Proof.
  apply eq_true_iff_eq. rewrite !existsb_exists. split; intros [x [I E]]; exists x; (split; [|exact E]); revert I; clear;
  cbn [table_names table map fst]; intros I; repeat destruct I as [<- |I]; try destruct I;
  repeat (first [left; reflexivity | right]).
Qed.

Section Any.
  Variables (w : env) (cs : list call).
  Notation stepped n args := (parse w (b n, args) (want w cs) = Ok (want w (cs ++ [(b n, args)]))).
  Lemma step_other m args : existsb (String.eqb m) table_names = false -> stepped m args.
  Proof.
    intros H.
    assert (F : forall n, existsb (String.eqb n) table_names = true -> String.eqb m n = false).
    { intros n J. destruct (String.eqb_spec m n) as [<- |_]; [congruence|reflexivity]. }
    assert (P : parse w (b m, args) (want w cs) = Ok (want w cs)).
    { unfold parse. cbn [fst snd].
      destruct (find _ (table w)) as [e|] eqn:E; [|reflexivity].
      apply find_some in E. destruct E as [I E]. rewrite table_complete with (w := w) in H.
      assert (X : existsb (String.eqb m) (map fst (table w)) = true); [|congruence].
      apply existsb_exists. exists (fst e). split; [apply in_map; exact I|].
      change (same (b m) (b (fst e)) = true) in E. rewrite same_b in E. exact E. }
    rewrite P, want_snoc. f_equal.
    cbv [more_want m_links m_colors m_warn m_races m_strategy m_regex m_option m_flag m_debugs m_post m_seen more also any_of choose].
    cbn [existsb].
    repeat match goal with |- context [String.eqb m ?n] => rewrite !(F n) by reflexivity end.
    cbn [orb andb app rev]. rewrite !orb_false_r. reflexivity.
  Qed.

  Ltac member := repeat (first [left; reflexivity | right]).
  Lemma step c : accept w c = true -> parse w c (want w cs) = Ok (want w (cs ++ [c])).
  Proof.
    destruct (as_b c) as [m E]. rewrite E. set (args := snd c). clearbody args. clear c E. intros A.
    destruct (existsb (String.eqb m) table_names) eqn:T; [|apply step_other; exact T].
    apply existsb_exists in T. destruct T as [n [I E]]. apply String.eqb_eq in E. subst n.
    cbn [table_names In] in I.
    do 4 (destruct I as [<- |I]; [eapply step_links; member|]).
    do 10 (destruct I as [<- |I]; [eapply step_set; member|]).
    destruct I as [<- |I]; [apply step_color; exact A|].
    destruct I as [<- |I]; [apply step_nocolor|].
    do 3 (destruct I as [<- |I]; [apply step_post; member|]).
    destruct I as [<- |I]; [apply step_depth|].
    do 4 (destruct I as [<- |I]; [apply step_mounts; member|]).
    do 6 (destruct I as [<- |I]; [apply step_open; member|]).
    do 5 (destruct I as [<- |I]; [apply step_stat; member|]).
    destruct I as [<- |I]; [apply step_newer|].
    destruct I as [<- |I]; [apply step_noleaf|].
    destruct I as [<- |I]; [apply step_mindepth; exact A|].
    destruct I as [<- |I]; [apply step_maxdepth; exact A|].
    destruct I as [<- |I]; [apply step_j; exact A|].
    destruct I as [<- |I]; [apply step_O; exact A|].
    destruct I as [<- |I]; [apply step_S; exact A|].
    destruct I as [<- |I]; [apply step_regextype; exact A|].
    destruct I as [<- |[]]. rewrite parse_D.
    change (accept w (b "-D", args)) with
      (negb (existsb (fun v => same v (b "help")) (words (flag_value "D" (b "-D", args))))) in A.
    destruct (existsb _ _); [discriminate|reflexivity].
  Qed.

  Lemma refused c p : accept w c = false -> parse w c (want w cs) <> Ok p.
  Proof.
    destruct (as_b c) as [m E]. rewrite E. set (args := snd c). clearbody args. clear c E. intros A.
    assert (M : In m ["-D"; "-O"; "-S"; "-j"; "-mindepth"; "-maxdepth"; "-regextype"; "-color"]).
    { unfold accept in A. rewrite !named_b in A.
      repeat match type of A with
        | (if (String.eqb m ?x || String.eqb m ?y)%bool then _ else _) = _ =>
            destruct (String.eqb_spec m x) as [-> |_]; [cbn [In]; member|];
            destruct (String.eqb_spec m y) as [-> |_]; [cbn [In]; member|]; cbn [orb] in A
        | (if String.eqb m ?x then _ else _) = _ =>
            destruct (String.eqb_spec m x) as [-> |_]; [cbn [In]; member|]
        end; discriminate. }
    cbn [In] in M.
    destruct M as [<- |M].
    { rewrite parse_D. change (accept w (b "-D", args)) with
        (negb (existsb (fun v => same v (b "help")) (words (flag_value "D" (b "-D", args))))) in A.
      destruct (existsb _ _); [discriminate|discriminate A]. }
    destruct M as [<- |M].
    { change (accept w (b "-O", args)) with
      (same (flag_value "O" (b "-O", args)) (b "fast") || match num w (flag_value "O" (b "-O", args)) with Some _ => true | None => false end)%bool in A.
      change (parse w (b "-O", args) (want w cs)) with (parse_optlevel w args (want w cs)).
      unfold parse_optlevel. rewrite (prefix_flag _ (b "-O")), same_aeq. unfold num in A.
      destruct (same _ _); [discriminate A|]. cbn [orb] in A. destruct (parse_int _ _ _ _ _ _) as [[]|]; [discriminate A|discriminate]. }
    destruct M as [<- |M].
    { change (accept w (b "-S", args)) with
      (match lookup strategies (flag_value "S" (b "-S", args)) with Some _ => true | None => false end) in A.
      change (parse w (b "-S", args) (want w cs)) with (parse_search_strategy args (want w cs)).
      unfold parse_search_strategy. rewrite (prefix_flag _ (b "-S")).
      remember (flag_value "S" (b "-S", args)) as v. unfold lookup, strategies in A. cbn [find fst] in A.
      change aeq with same.
      repeat match type of A with context [same v ?x] => destruct (same v x); [discriminate A|] end.
      destruct (same _ _); discriminate. }
    destruct M as [<- |M].
    { change (accept w (b "-j", args)) with (match num w (flag_value "j" (b "-j", args)) with Some n => negb (n =? 0)%Z | None => false end) in A.
      change (parse w (b "-j", args) (want w cs)) with (parse_jobs w args (want w cs)).
      unfold parse_jobs. rewrite (prefix_flag _ (b "-j")). unfold num in A.
      destruct (parse_int _ _ _ _ _ _) as [[n r]|]; [|discriminate]. destruct (n =? 0)%Z; [discriminate|discriminate A]. }
    destruct M as [<- |M].
    { change (accept w (b "-mindepth", args)) with (match num w (value args) with Some _ => true | None => false end) in A.
      change (parse w (b "-mindepth", args) (want w cs)) with (parse_depth_limit w true args (want w cs)).
      unfold parse_depth_limit. unfold num in A. destruct (parse_int _ _ _ _ _ _) as [[n r]|]; [discriminate A|discriminate]. }
    destruct M as [<- |M].
    { change (accept w (b "-maxdepth", args)) with (match num w (value args) with Some _ => true | None => false end) in A.
      change (parse w (b "-maxdepth", args) (want w cs)) with (parse_depth_limit w false args (want w cs)).
      unfold parse_depth_limit. unfold num in A. destruct (parse_int _ _ _ _ _ _) as [[n r]|]; [discriminate A|discriminate]. }
    destruct M as [<- |M].
    { change (accept w (b "-regextype", args)) with
      (match lookup (regexes w) (value args) with Some _ => true | None => false end) in A.
      change (parse w (b "-regextype", args) (want w cs)) with (parse_regextype w args (want w cs)).
      unfold parse_regextype. remember (value args) as v.
      unfold lookup, regexes, posix_regexes, more_regexes in A.
      destruct (oniguruma w); cbn [find fst app andb orb] in A |- *; change aeq with same;
      repeat match type of A with context [same v ?x] => destruct (same v x); cbn [orb] in A |- *; [discriminate A|] end;
      destruct (same _ _); discriminate. }
    destruct M as [<- |[]].
    change (accept w (b "-color", args)) with (colors w) in A.
    change (parse w (b "-color", args) (want w cs)) with (parse_color w true (want w cs)).
    unfold parse_color. rewrite A. discriminate.
  Qed.
End Any.
