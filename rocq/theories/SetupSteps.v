(** * Settings: what one call changes *)
From Coq Require Import String List Bool Arith ZArith NArith Lia Permutation.
From Coq Require Import Init.Byte Strings.Byte.
From Verif Require Import NumModel NumSpec NumProofs GramModel SetupModel SetupSpec.
Import ListNotations.
Local Open Scope string_scope.
Local Open Scope list_scope.

Lemma aeq_eq x y : aeq x y = true -> x = y.
Proof. unfold aeq. destruct (list_eq_dec Byte.byte_eq_dec x y); [auto|discriminate]. Qed.
Lemma same_eq x y : same x y = true <-> x = y.
Proof. unfold same. destruct (list_eq_dec Byte.byte_eq_dec x y); split; congruence. Qed.
Lemma same_aeq x y : aeq x y = same x y.
Proof. reflexivity. Qed.

Lemma said_snoc {A} (f : call -> option A) cs c :
  said f (cs ++ [c]) = match f c with Some x => Some x | None => said f cs end.
Proof.
  induction cs as [|d cs IH]; cbn [said app]; [destruct (f c); reflexivity|].
  rewrite IH. destruct (f c); reflexivity.
Qed.
Lemma given_snoc ns cs c : given ns (cs ++ [c]) = (given ns cs || existsb (fun n => named n c) ns)%bool.
Proof. unfold given. rewrite existsb_app. cbn [existsb]. rewrite orb_false_r. reflexivity. Qed.
Lemma post_snoc cs c : post_order (cs ++ [c]) =
  (post_order cs || existsb (fun n => named n c) ["-d"; "-delete"; "-rm"] || (named "-depth" c && (length (snd c) =? 1)%nat))%bool.
Proof.
  unfold post_order. rewrite given_snoc, existsb_app.
  change (existsb (fun c => (named "-depth" c && (length (snd c) =? 1)%nat)%bool) [c])
    with ((named "-depth" c && (length (snd c) =? 1)%nat) || false)%bool.
  rewrite orb_false_r.
  remember (existsb (fun n => named n c) ["-d"; "-delete"; "-rm"]) as x.
  remember (existsb (fun c => (named "-depth" c && (length (snd c) =? 1)%nat)%bool) cs) as y.
  remember (named "-depth" c && (length (snd c) =? 1)%nat)%bool as z.
  destruct (given _ cs), x, y, z; reflexivity.
Qed.
Lemma debugs_snoc n cs c : debugs n (cs ++ [c]) =
  (debugs n cs || (named "-D" c && existsb (fun v => same v (b n) || same v (b "all")) (words (flag_value "D" c))))%bool.
Proof. unfold debugs. rewrite existsb_app. cbn [existsb]. rewrite orb_false_r. reflexivity. Qed.

Section Proofs.
  Variable w : env.

  (** ** The settings as a function *)

  Definition num (v : arg) : option Z :=
    match parse_int (isspace w) 10 IF_INT true false v with inl (n, _) => Some n | inr _ => None end.
  Definition numd (d : Z) (o : option arg) : Z := match o with Some v => default d (num v) | None => d end.
  Definition level (v : arg) : Z := if same v (b "fast") then 4%Z else default 3%Z (num v).

  Definition want_use (cs : list call) : use_color :=
    match said colors_of cs with
    | Some true => COLOR_ALWAYS
    | Some false => COLOR_NEVER
    | None => if no_color_set w then COLOR_NEVER else COLOR_AUTO
    end.
  Definition flagsN (l : links) (post skip prune sort : bool) : N :=
    (BFTW_RECOVER + bit post BFTW_POST_ORDER
     + match l with Never => 0 | Roots => BFTW_FOLLOW_ROOTS | Always => BFTW_FOLLOW_ALL end
     + bit skip BFTW_SKIP_MOUNTS + bit prune BFTW_PRUNE_MOUNTS + bit sort BFTW_SORT)%N.
  Definition debugN (a0 a1 a2 a3 a4 a5 a6 : bool) : N :=
    (bit a0 1 + bit a1 2 + bit a2 4 + bit a3 8 + bit a4 16 + bit a5 32 + bit a6 64)%N.

  Definition is_one (ns : list string) (c : call) : bool := existsb (fun n => named n c) ns.
  Definition seenf (before : list call) (c : call) : list event :=
    if is_one ["-fls"; "-fprint"; "-fprint0"; "-fprintf"] c then
      [Opened (next c) (cfwrap_colors w (want_use before) (isatty w (next c)))]
    else if is_one ["-regex"; "-iregex"] c then [Compiled (next c) (asked_regex w before)]
    else if (is_one ["-samefile"; "-anewer"; "-Bnewer"; "-cnewer"; "-mnewer"] c ||
             named "-newer" c && (same (hd [] (snd c)) (b "-newer") || negb (Byte.eqb (nth 7 (hd [] (snd c)) x00) "t"%byte)))%bool then
      [Examined (next c) (match asked_links before with Never => false | _ => true end)]
    else if named "-noleaf" c then warns w before "-noleaf"
    else if named "-D" c then
      flat_map (fun v => if unknown_debug v then warns w before "-D" else []) (words (flag_value "D" c))
    else if named "-O" c then
      if same (flag_value "O" c) (b "fast") then []
      else match num (flag_value "O" c) with Some n => if (4 <? n)%Z then warns w before "-O" else [] | None => [] end
    else [].
  Fixpoint eventsf (before cs : list call) : list event :=
    match cs with
    | [] => []
    | c :: cs' => seenf before c ++ eventsf (before ++ [c]) cs'
    end.
  Lemma eventsf_snoc cs : forall before c, eventsf before (cs ++ [c]) = eventsf before cs ++ seenf (before ++ cs) c.
  Proof.
    induction cs as [|d cs IH]; intros before c; cbn [eventsf app].
    - rewrite !app_nil_r. reflexivity.
    - rewrite IH, <- !app_assoc. reflexivity.
  Qed.

  Definition want (cs : list call) : parser :=
    {| context :=
         {| flags := flagsN (asked_links cs) (post_order cs) (given ["-mount"] cs) (given ["-x"; "-xdev"] cs) (given ["-s"] cs);
            search := default BFTW_BFS (said strategy_of cs);
            mindepth := numd 0 (said (option_value "-mindepth") cs);
            maxdepth := numd INT_MAX (said (option_value "-maxdepth") cs);
            optlevel := match said (value_of_flag "-O" "O") cs with Some v => level v | None => 3%Z end;
            threads := numd (Z.min 8 (nproc w)) (said (value_of_flag "-j" "j") cs);
            debug := debugN (debugs "cost" cs) (debugs "exec" cs) (debugs "opt" cs) (debugs "rates" cs)
                            (debugs "search" cs) (debugs "stat" cs) (debugs "tree" cs);
            xargs_safe := given ["-X"] cs; ignore_races := default false (said races_of cs);
            ignore_errors := given ["-noerror"] cs; unique := given ["-unique"] cs; status := given ["-status"] cs;
            warn := asked_warn w cs; posixly_correct := posix_env w;
            interactive := stdin_tty w && stderr_tty w; dangerous := given ["-delete"; "-rm"] cs;
            cout_colors := asked_colors w (stdout_tty w) cs; cerr_colors := asked_colors w (stderr_tty w) cs |};
       regex := asked_regex w cs; use := want_use cs; depth_expr := post_order cs; prune_expr := given ["-prune"] cs;
       mount_expr := given ["-mount"] cs; xdev_expr := given ["-x"; "-xdev"] cs; log := rev (eventsf [] cs) |}.

  Lemma want_nil : init w = want [].
  Proof.
    unfold init, want, init_ctx, initial_color, cfwrap_colors, want_use, no_color_set, asked_warn, asked_colors. cbn.
    f_equal.
    - f_equal.
      + destruct (Z.ltb_spec 8 (nproc w)); lia.
      + unfold asked_warn. cbn. destruct (posix_env w), (stdin_tty w); reflexivity.
      + unfold asked_colors, no_color_set. cbn. destruct (no_color w) as [[|]|], (colors w), (stdout_tty w); reflexivity.
      + unfold asked_colors, no_color_set. cbn. destruct (no_color w) as [[|]|], (colors w), (stderr_tty w); reflexivity.
    - unfold no_color_set. destruct (no_color w) as [[|]|]; reflexivity.
  Qed.

  (** ** One call *)

  Lemma is_parse n args p e : find (fun e => aeq (b n) (b (fst e))) (table w) = Some e -> parse w (b n, args) p = snd e args p.
  Proof. intros H. unfold parse. cbn [fst snd]. rewrite H. destruct e; reflexivity. Qed.

  Definition accept (c : call) : bool :=
    if named "-D" c then negb (existsb (fun v => same v (b "help")) (words (flag_value "D" c)))
    else if named "-O" c then
      same (flag_value "O" c) (b "fast") || match num (flag_value "O" c) with Some _ => true | None => false end
    else if named "-S" c then match lookup strategies (flag_value "S" c) with Some _ => true | None => false end
    else if named "-j" c then match num (flag_value "j" c) with Some n => negb (n =? 0)%Z | None => false end
    else if named "-mindepth" c || named "-maxdepth" c then match num (next c) with Some _ => true | None => false end
    else if named "-regextype" c then match lookup (regexes w) (next c) with Some _ => true | None => false end
    else if named "-color" c then colors w
    else true.
End Proofs.

(** One more call with the name [m], field by field *)
Lemma named_b n m a : named n (b m, a) = String.eqb m n.
Proof.
  unfold named, same, b. cbn [fst].
  destruct (list_eq_dec _ _ _) as [E|E], (String.eqb_spec m n) as [F|F]; try reflexivity.
  - destruct F. rewrite <- (string_of_list_byte_of_string m), E. apply string_of_list_byte_of_string.
  - subst. destruct (E eq_refl).
Qed.
Section More.
  Variables (w : env) (cs : list call) (m : string) (a : list arg).
  Notation c := (b m, a).
  Fixpoint choose {A} (table : list (string * A)) : option A :=
    match table with
    | [] => None
    | (n, x) :: table' => if String.eqb m n then Some x else choose table'
    end.
  Lemma choose_choice {A} (t : list (string * A)) : choice t c = choose t.
  Proof. induction t as [|[n x] t IH]; [reflexivity|]. cbn [choice choose]. rewrite named_b, IH. reflexivity. Qed.
  Definition any_of (ns : list string) : bool := existsb (String.eqb m) ns.
  Lemma any_named ns : existsb (fun n => named n c) ns = any_of ns.
  Proof. unfold any_of. induction ns as [|n ns IH]; [reflexivity|]. cbn [existsb]. rewrite named_b, IH. reflexivity. Qed.

  Definition more {A} (o : option A) (f : call -> option A) : option A := match o with Some x => Some x | None => said f cs end.
  Definition also (ns : list string) : bool := (given ns cs || any_of ns)%bool.
  Definition m_links := more (choose [("-P", Never); ("-H", Roots); ("-L", Always); ("-follow", Always)]) links_of.
  Definition m_colors := more (choose [("-color", true); ("-nocolor", false)]) colors_of.
  Definition m_warn := more (choose [("-warn", true); ("-nowarn", false)]) warn_of.
  Definition m_races := more (choose [("-ignore_readdir_race", true); ("-noignore_readdir_race", false)]) races_of.
  Definition m_strategy := more (if String.eqb m "-S" then lookup strategies (flag_value "S" c) else None) strategy_of.
  Definition m_regex := more (if String.eqb m "-E" then Some BFS_REGEX_POSIX_EXTENDED
                              else if String.eqb m "-regextype" then lookup (regexes w) (next c) else None) (regex_of w).
  Definition m_option n := more (if String.eqb m n then Some (next c) else None) (option_value n).
  Definition m_flag n l := more (if String.eqb m n then Some (flag_value l c) else None) (value_of_flag n l).
  Definition m_debugs n : bool :=
    (debugs n cs || (String.eqb m "-D" && existsb (fun v => same v (b n) || same v (b "all")) (words (flag_value "D" c))))%bool.
  Definition m_post : bool := (post_order cs || any_of ["-d"; "-delete"; "-rm"] || (String.eqb m "-depth" && (length a =? 1)%nat))%bool.
  Definition m_seen : list event :=
    if any_of ["-fls"; "-fprint"; "-fprint0"; "-fprintf"] then
      [Opened (next c) (cfwrap_colors w (want_use w cs) (isatty w (next c)))]
    else if any_of ["-regex"; "-iregex"] then [Compiled (next c) (asked_regex w cs)]
    else if (any_of ["-samefile"; "-anewer"; "-Bnewer"; "-cnewer"; "-mnewer"] ||
             String.eqb m "-newer" && (same (hd [] a) (b "-newer") || negb (Byte.eqb (nth 7 (hd [] a) x00) "t"%byte)))%bool then
      [Examined (next c) (match asked_links cs with Never => false | _ => true end)]
    else if String.eqb m "-noleaf" then warns w cs "-noleaf"
    else if String.eqb m "-D" then
      flat_map (fun v => if unknown_debug v then warns w cs "-D" else []) (words (flag_value "D" c))
    else if String.eqb m "-O" then
      if same (flag_value "O" c) (b "fast") then []
      else match num w (flag_value "O" c) with Some n => if (4 <? n)%Z then warns w cs "-O" else [] | None => [] end
    else [].
  Definition more_want : parser :=
    {| context :=
         {| flags := flagsN (default Never m_links) m_post (also ["-mount"]) (also ["-x"; "-xdev"]) (also ["-s"]);
            search := default BFTW_BFS m_strategy;
            mindepth := numd w 0 (m_option "-mindepth");
            maxdepth := numd w INT_MAX (m_option "-maxdepth");
            optlevel := match m_flag "-O" "O" with Some v => level w v | None => 3%Z end;
            threads := numd w (Z.min 8 (nproc w)) (m_flag "-j" "j");
            debug := debugN (m_debugs "cost") (m_debugs "exec") (m_debugs "opt") (m_debugs "rates")
                            (m_debugs "search") (m_debugs "stat") (m_debugs "tree");
            xargs_safe := also ["-X"]; ignore_races := default false m_races;
            ignore_errors := also ["-noerror"]; unique := also ["-unique"]; status := also ["-status"];
            warn := default (stdin_tty w && negb (posix_env w)) m_warn; posixly_correct := posix_env w;
            interactive := stdin_tty w && stderr_tty w; dangerous := also ["-delete"; "-rm"];
            cout_colors := default (stdout_tty w && colors w && negb (no_color_set w)) m_colors;
            cerr_colors := default (stderr_tty w && colors w && negb (no_color_set w)) m_colors |};
       regex := default BFS_REGEX_POSIX_BASIC m_regex;
       use := match m_colors with
              | Some true => COLOR_ALWAYS
              | Some false => COLOR_NEVER
              | None => if no_color_set w then COLOR_NEVER else COLOR_AUTO
              end;
       depth_expr := m_post; prune_expr := also ["-prune"];
       mount_expr := also ["-mount"]; xdev_expr := also ["-x"; "-xdev"]; log := rev m_seen ++ rev (eventsf w [] cs) |}.
  Lemma want_snoc : want w (cs ++ [c]) = more_want.
  Proof.
    unfold want, more_want, asked_links, asked_warn, asked_colors, asked_regex, want_use.
    rewrite eventsf_snoc, rev_app_distr, !said_snoc, !given_snoc, !debugs_snoc, !post_snoc.
    unfold seenf, is_one, links_of, colors_of, warn_of, races_of, strategy_of, regex_of, option_value, value_of_flag.
    rewrite !choose_choice, !any_named, !named_b. cbn [snd app]. reflexivity.
  Qed.
End More.

(** Computing with concrete names *)
Ltac spread :=
  rewrite want_snoc;
  cbv [more_want m_links m_colors m_warn m_races m_strategy m_regex m_option m_flag m_debugs m_post m_seen more also any_of choose
       existsb String.eqb Ascii.eqb Bool.eqb];
  rewrite ?orb_false_r, ?orb_true_r;
  cbn [orb andb app rev].

Definition link_flag (l : links) : N := match l with Never => 0%N | Roots => BFTW_FOLLOW_ROOTS | Always => BFTW_FOLLOW_ALL end.
Lemma flags_follow l' l p s r t :
  N.lor (N.ldiff (flagsN l p s r t) (N.lor BFTW_FOLLOW_ROOTS BFTW_FOLLOW_ALL)) (link_flag l') = flagsN l' p s r t.
Proof. destruct l', l, p, s, r, t; reflexivity. Qed.
Lemma flags_post l p s r t : N.lor (flagsN l p s r t) BFTW_POST_ORDER = flagsN l true s r t.
Proof. destruct l, p, s, r, t; reflexivity. Qed.
Lemma flags_skip l p s r t : N.lor (flagsN l p s r t) BFTW_SKIP_MOUNTS = flagsN l p true r t.
Proof. destruct l, p, s, r, t; reflexivity. Qed.
Lemma flags_prune l p s r t : N.lor (flagsN l p s r t) BFTW_PRUNE_MOUNTS = flagsN l p s true t.
Proof. destruct l, p, s, r, t; reflexivity. Qed.
Lemma flags_sort l p s r t : N.lor (flagsN l p s r t) BFTW_SORT = flagsN l p s r true.
Proof. destruct l, p, s, r, t; reflexivity. Qed.
Lemma flags_links l p s r t :
  negb (N.land (flagsN l p s r t) (N.lor BFTW_FOLLOW_ROOTS BFTW_FOLLOW_ALL) =? 0)%N = match l with Never => false | _ => true end.
Proof. destruct l, p, s, r, t; reflexivity. Qed.

Section Step.
  Variable w : env.
  Variable cs : list call.
  Notation p := (want w cs).
  Notation stepped n args := (parse w (b n, args) (want w cs) = Ok (want w (cs ++ [(b n, args)]))).

  Lemma step_links n args l :
    In (n, l) [("-P", Never); ("-H", Roots); ("-L", Always); ("-follow", Always)] ->
    stepped n args.
  Proof.
    intros H.
    assert (E : parse w (b n, args) p = Ok (parse_follow (link_flag l) p))
      by (repeat destruct H as [[= <- <-]|H]; [reflexivity..|destruct H]).
    rewrite E. unfold parse_follow. unfold change at 1. cbn [want context flags set_flags]. rewrite flags_follow.
    f_equal. repeat destruct H as [[= <- <-]|H]; [spread; reflexivity..|destruct H].
  Qed.
  Lemma step_set n args f :
    In (n, f) [("-X", change (set_xargs_safe true)); ("-ignore_readdir_race", change (set_ignore_races true));
               ("-noignore_readdir_race", change (set_ignore_races false)); ("-noerror", change (set_ignore_errors true));
               ("-nowarn", change (set_warn false)); ("-warn", change (set_warn true)); ("-status", change (set_status true));
               ("-unique", change (set_unique true)); ("-prune", set_prune_expr true); ("-E", set_regex BFS_REGEX_POSIX_EXTENDED)] ->
    stepped n args.
  Proof.
    intros H.
    assert (E : parse w (b n, args) p = Ok (f p))
      by (repeat destruct H as [[= <- <-]|H]; [reflexivity..|destruct H]).
    rewrite E. f_equal. repeat destruct H as [[= <- <-]|H]; [spread; reflexivity..|destruct H].
  Qed.

  Ltac start f :=
    match goal with |- parse w ?c ?q = _ => change (parse w c q) with f end.
  Ltac flags_by l := unfold parse_depth, add_flag, change; cbn [want context flags set_context]; rewrite l.
  Lemma step_color args : colors w = true -> stepped "-color" args.
  Proof. intros H. start (parse_color w true p). unfold parse_color. rewrite H. cbn [negb]. f_equal. spread. reflexivity. Qed.
  Lemma step_nocolor args : stepped "-nocolor" args.
  Proof. start (parse_color w false p). unfold parse_color. f_equal. spread. reflexivity. Qed.
  Lemma step_post n args : In n ["-d"; "-delete"; "-rm"] -> stepped n args.
  Proof.
    intros [<- | [<- | [<- | []]]].
    - start (Ok (parse_depth p)). f_equal. unfold parse_depth. flags_by flags_post. spread. reflexivity.
    - start (Ok (parse_delete p)). f_equal. unfold parse_delete. flags_by flags_post. spread. reflexivity.
    - start (Ok (parse_delete p)). f_equal. unfold parse_delete. flags_by flags_post. spread. reflexivity.
  Qed.
  Lemma step_depth args : stepped "-depth" args.
  Proof.
    start (Ok (parse_depth_n args p)). f_equal. destruct args as [|x [|y args]].
    - spread. unfold want. destruct (post_order cs); reflexivity.
    - change (parse_depth_n [x] p) with (parse_depth p). flags_by flags_post. spread. unfold want. destruct (post_order cs); reflexivity.
    - spread. unfold want. destruct (post_order cs); reflexivity.
  Qed.
  Lemma step_mounts n args : In n ["-mount"; "-x"; "-xdev"; "-s"] -> stepped n args.
  Proof.
    intros [<- | [<- | [<- | [<- | []]]]].
    - start (Ok (parse_mount p)). f_equal. unfold parse_mount. flags_by flags_skip. spread. reflexivity.
    - start (Ok (parse_xdev p)). f_equal. unfold parse_xdev. flags_by flags_prune. spread. reflexivity.
    - start (Ok (parse_xdev p)). f_equal. unfold parse_xdev. flags_by flags_prune. spread. reflexivity.
    - start (Ok (add_flag BFTW_SORT p)). f_equal. flags_by flags_sort. spread. reflexivity.
  Qed.
  Lemma step_open n args : In n ["-fls"; "-fprint"; "-fprint0"; "-fprintf"; "-regex"; "-iregex"] -> stepped n args.
  Proof.
    intros [<- | [<- | [<- | [<- | [<- | [<- | []]]]]]];
      first [start (Ok (expr_open w args p)) | start (Ok (parse_regex args p))]; f_equal; spread; reflexivity.
  Qed.
  Lemma stat_done args : stat_arg args p = done_ (Examined (value args) (match asked_links cs with Never => false | _ => true end)) p.
  Proof. unfold stat_arg. cbn [want context flags]. rewrite flags_links. reflexivity. Qed.
  Lemma step_stat n args : In n ["-samefile"; "-anewer"; "-Bnewer"; "-cnewer"; "-mnewer"] -> stepped n args.
  Proof.
    intros [<- | [<- | [<- | [<- | [<- | []]]]]];
      start (Ok (stat_arg args p)); f_equal; rewrite stat_done; spread; reflexivity.
  Qed.
  Lemma step_newer args : stepped "-newer" args.
  Proof.
    start (Ok (parse_newerxy args p)). f_equal. unfold parse_newerxy. rewrite stat_done, same_aeq.
    spread. destruct (same (hd [] args) (b "-newer")); [reflexivity|].
    destruct (Byte.eqb (nth 7 (hd [] args) x00) "t"); reflexivity.
  Qed.
  Lemma warned n q : warn (context q) = asked_warn w cs -> warning (b n) q = set_log (rev (warns w cs n) ++ log q) q.
  Proof. intros H. unfold warning, warns. rewrite H. destruct (asked_warn w cs), q; reflexivity. Qed.
  Lemma step_noleaf args : stepped "-noleaf" args.
  Proof.
    start (Ok (warning (b "-noleaf") p)). f_equal. rewrite warned by reflexivity. spread. reflexivity.
  Qed.

  Lemma num_some v n : num w v = Some n -> exists r, parse_int (isspace w) 10 IF_INT true false v = inl (n, r).
  Proof. unfold num. destruct (parse_int _ _ _ _ _ _) as [[k r]|]; [|discriminate]. intros [= ->]. eauto. Qed.
  Lemma step_mindepth args : accept w (b "-mindepth", args) = true -> stepped "-mindepth" args.
  Proof.
    intros A. change (accept w (b "-mindepth", args)) with (match num w (value args) with Some _ => true | None => false end) in A.
    destruct (num w (value args)) as [n|] eqn:E; [clear A|discriminate].
    destruct (num_some _ _ E) as [r F].
    start (parse_depth_limit w true args p). unfold parse_depth_limit. rewrite F. f_equal.
    spread. change (next (b "-mindepth", args)) with (value args). cbn [numd]. rewrite E. reflexivity.
  Qed.
  Lemma step_maxdepth args : accept w (b "-maxdepth", args) = true -> stepped "-maxdepth" args.
  Proof.
    intros A. change (accept w (b "-maxdepth", args)) with (match num w (value args) with Some _ => true | None => false end) in A.
    destruct (num w (value args)) as [n|] eqn:E; [clear A|discriminate].
    destruct (num_some _ _ E) as [r F].
    start (parse_depth_limit w false args p). unfold parse_depth_limit. rewrite F. f_equal.
    spread. change (next (b "-maxdepth", args)) with (value args). cbn [numd]. rewrite E. reflexivity.
  Qed.
  Lemma prefix_flag l n args : prefix_value l args = flag_value l (n, args).
  Proof.
    unfold prefix_value, flag_value. cbn [snd].
    replace (rest_after l (hd [] args)) with (after_flag l (hd [] args)); [reflexivity|].
    induction (hd [] args) as [|d t IH]; [reflexivity|]. cbn [after_flag rest_after]. rewrite IH. reflexivity.
  Qed.
  Lemma step_j args : accept w (b "-j", args) = true -> stepped "-j" args.
  Proof.
    intros A. change (accept w (b "-j", args)) with (match num w (flag_value "j" (b "-j", args)) with Some n => negb (n =? 0)%Z | None => false end) in A.
    start (parse_jobs w args p). unfold parse_jobs. rewrite (prefix_flag _ (b "-j")).
    destruct (num w (flag_value "j" (b "-j", args))) as [n|] eqn:E; [|discriminate].
    destruct (num_some _ _ E) as [r F]. rewrite F. destruct (n =? 0)%Z; [discriminate|]. f_equal.
    spread. cbn [numd]. rewrite E. reflexivity.
  Qed.
  Lemma step_O args : accept w (b "-O", args) = true -> stepped "-O" args.
  Proof.
    intros A. change (accept w (b "-O", args)) with
      (same (flag_value "O" (b "-O", args)) (b "fast") || match num w (flag_value "O" (b "-O", args)) with Some _ => true | None => false end)%bool in A.
    start (parse_optlevel w args p). unfold parse_optlevel. rewrite (prefix_flag _ (b "-O")), same_aeq.
    remember (flag_value "O" (b "-O", args)) as v eqn:V.
    destruct (same v (b "fast")) eqn:S1.
    - f_equal. spread. rewrite <- V. unfold level. rewrite S1. reflexivity.
    - cbn [orb] in A. destruct (num w v) as [n|] eqn:E; [|discriminate].
      destruct (num_some _ _ E) as [r F]. rewrite F. f_equal.
      spread. rewrite <- V. unfold level. rewrite S1, E. unfold default.
      destruct (4 <? n)%Z; [|reflexivity]. rewrite warned by reflexivity. reflexivity.
  Qed.
  Lemma step_S args : accept w (b "-S", args) = true -> stepped "-S" args.
  Proof.
    intros A. change (accept w (b "-S", args)) with
      (match lookup strategies (flag_value "S" (b "-S", args)) with Some _ => true | None => false end) in A.
    start (parse_search_strategy args p). unfold parse_search_strategy. rewrite (prefix_flag _ (b "-S")).
    spread. remember (flag_value "S" (b "-S", args)) as v. unfold lookup, strategies in A |- *. cbn [find fst] in A |- *.
    change aeq with same.
    repeat match type of A with context [same v ?x] => destruct (same v x) end; try reflexivity. discriminate.
  Qed.
  Lemma step_regextype args : accept w (b "-regextype", args) = true -> stepped "-regextype" args.
  Proof.
    intros A. change (accept w (b "-regextype", args)) with
      (match lookup (regexes w) (value args) with Some _ => true | None => false end) in A.
    start (parse_regextype w args p). unfold parse_regextype.
    spread. change (next (b "-regextype", args)) with (value args). remember (value args) as v.
    unfold lookup, regexes, posix_regexes, more_regexes in A |- *.
    destruct (oniguruma w); cbn [find fst app andb orb] in A |- *; change aeq with same;
      repeat match type of A with context [same v ?x] => destruct (same v x); cbn [orb] in A |- * end; try reflexivity; discriminate.
  Qed.
End Step.
