(** * The line of the dump: reading it *)
From Coq Require Import String List Arith NArith ZArith Bool Lia.
From Coq Require Import Init.Byte Strings.Byte.
From Coq Require Import ZifyBool ZifyNat ZifyN.
From Verif Require Import QuoteModel QuoteSpec QuoteProofs PathModel ColModel FmtModel FmtSpec FmtProofs DumpModel DumpSpec DumpProofs DumpLine.
From Verif Require NumSpec.
From Verif Require Import GramModel GramSpec SetupModel SetupSpec SetupSteps SetupProofs.
Import ListNotations.
Local Open Scope list_scope.

(** ** By a shell *)
Lemma dname_ok : forallb (fun k => let n := N.of_nat k in (n =? 0)%N || bareb (dvalue n)) (List.seq 0 128) = true.
Proof. vm_compute. reflexivity. Qed.
Lemma bare_debug n : (n < 128)%N -> n <> 0%N -> bare (dvalue n).
Proof.
  intros H Z. apply bareb_ok. assert (K := dname_ok). rewrite forallb_forall in K. specialize (K (N.to_nat n)). cbv zeta in K. rewrite N2Nat.id in K.
  specialize (K ltac:(apply in_seq; lia)). replace (n =? 0)%N with false in K by lia. exact K.
Qed.

Lemma spaced_out qs : forall q, spaced (q :: qs) = q ++ out qs.
Proof.
  induction qs as [|x qs IH]; intros q; [symmetry; apply app_nil_r|]. change (spaced (q :: x :: qs)) with (q ++ str " " ++ spaced (x :: qs)).
  rewrite IH. unfold out. cbn [map concat]. rewrite <- !app_assoc. reflexivity.
Qed.
Definition reads_as (qs ws : list (list byte)) : Prop := Forall2 (fun q w => shell_word q = Some w) qs ws.
Lemma reads_bare ws : Forall bare ws -> reads_as ws ws.
Proof. induction 1; constructor; [apply bare_word; assumption|assumption]. Qed.
Lemma sel_Forall {A} (P : A -> Prop) xs : Forall (fun e => fst e = true -> P (snd e)) xs -> Forall P (sel xs).
Proof. induction 1 as [|[x a] xs H _ IH]; [constructor|]. rewrite sel_cons. destruct x; [constructor; [apply H; reflexivity|exact IH]|exact IH]. Qed.
Lemma words_bare cs : Forall (fun cl : call => Forall bare (snd cl)) cs -> Forall bare (words_of cs).
Proof. induction 1; [constructor|]. unfold words_of. cbn [map concat]. apply Forall_app. split; assumption. Qed.

Ltac bares := repeat first [apply Forall_cons | apply Forall_nil]; cbn [fst snd word1]; try (let H := fresh in intros H); repeat first [apply Forall_cons | apply Forall_nil]; try (apply bareb_ok; reflexivity).
Section Words.
  Variables (w : SetupModel.env) (s : SetupModel.ctx).
  Hypothesis P : possible w s.
  Lemma pre_bare : Forall (fun cl : call => Forall bare (snd cl)) (sel (pre_calls s)).
  Proof.
    apply sel_Forall. unfold pre_calls. destruct P. bares.
    - apply bare_app; [apply bareb_ok; reflexivity|]. apply bare_d. lia.
    - apply bare_app; [apply bareb_ok; reflexivity|]. apply bare_d. lia.
    - apply bareb_ok. destruct (search s); reflexivity.
    - apply bare_debug; [assumption|]. lia.
  Qed.
  Lemma post_bare : Forall (fun cl : call => Forall bare (snd cl)) (sel (post_calls s)).
  Proof. apply sel_Forall. unfold post_calls. destruct P. bares; apply bare_d; lia. Qed.
End Words.

Definition all_words (s : SetupModel.ctx) (ps : list arg) : list arg :=
  words_of (sel (pre_calls s)) ++ concat (map path_words ps) ++ words_of (sel (post_calls s)).
Lemma line_reads l w c : good_locale l -> possible w (DumpModel.settings c) -> shell_word (argv0 c) = Some (argv0 c) -> Forall (fun p => ~ In x00 p) (paths c) ->
  shell_line (argv0 c ++ out (words_of (sel (pre_calls (DumpModel.settings c)))) ++ concat (map (path_out l) (paths c)) ++ out (words_of (sel (post_calls (DumpModel.settings c)))))
    (argv0 c :: all_words (DumpModel.settings c) (paths c)).
Proof.
  intros G P A Np.
  set (qp := fun p => if dashed p then [b "-f"; quoted_as l true p] else [quoted_as l true p]).
  exists (argv0 c :: words_of (sel (pre_calls (DumpModel.settings c))) ++ concat (map qp (paths c)) ++ words_of (sel (post_calls (DumpModel.settings c)))). split.
  - rewrite spaced_out, !out_app. f_equal. f_equal. f_equal. clear. induction (paths c) as [|p ps IH]; [reflexivity|].
    cbn [map concat]. rewrite out_app, IH. f_equal. unfold qp, path_out, out. destruct (dashed p); cbn [map concat]; rewrite ?app_nil_r, <- ?app_assoc; reflexivity.
  - constructor; [exact A|]. unfold all_words. apply Forall2_app; [apply reads_bare, words_bare; apply (pre_bare w); exact P|].
    apply Forall2_app; [|apply reads_bare, words_bare; apply (post_bare w); exact P].
    clear - G Np. induction Np as [|p ps Np _ IH]; [constructor|]. cbn [map concat]. apply Forall2_app; [|exact IH].
    assert (Q : shell_word (quoted_as l true p) = Some p) by (rewrite quoted_as_eq; apply quoted_reads; assumption).
    unfold qp, path_words. destruct (dashed p); repeat constructor; exact Q.
Qed.

(** ** By bfs: settings *)
Definition all_calls (s : SetupModel.ctx) (ps : list arg) : list call :=
  sel (pre_calls s) ++ concat (map path_calls ps) ++ sel (post_calls s).

Lemma said_app {A} (f : call -> option A) xs ys : said f (xs ++ ys) = match said f ys with Some x => Some x | None => said f xs end.
Proof. induction xs as [|x xs IH]; cbn [app said]; [destruct (said f ys); reflexivity|]. rewrite IH. destruct (said f ys); reflexivity. Qed.
Lemma said_skip {A} (f : call -> option A) x cl xs : f cl = None -> said f (sel ((x, cl) :: xs)) = said f (sel xs).
Proof. intros H. rewrite sel_cons. destruct x; [|reflexivity]. cbn [app said]. rewrite H. destruct (said f (sel xs)); reflexivity. Qed.
Lemma said_cons {A} (f : call -> option A) x cl xs :
  said f (sel ((x, cl) :: xs)) = match said f (sel xs) with Some v => Some v | None => if x then f cl else None end.
Proof. rewrite sel_cons. destruct x; cbn [app said]; [reflexivity|]. destruct (said f (sel xs)); reflexivity. Qed.
Lemma said_none {A} (f : call -> option A) : said f (sel []) = None.
Proof. reflexivity. Qed.
Lemma ex_skip (g : call -> bool) x cl xs : g cl = false -> existsb g (sel ((x, cl) :: xs)) = existsb g (sel xs).
Proof. intros H. rewrite sel_cons. destruct x; [|reflexivity]. cbn [app existsb]. rewrite H. reflexivity. Qed.
Lemma ex_maybe (g : call -> bool) x cl xs : existsb g (sel ((x, cl) :: xs)) = ((x && g cl) || existsb g (sel xs))%bool.
Proof. rewrite sel_cons. destruct x; reflexivity. Qed.

Lemma paths_said {A} (f : call -> option A) ps : (forall p, f (b "-f", [b "-f"; p]) = None) -> said f (concat (map path_calls ps)) = None.
Proof.
  intros H. induction ps as [|p ps IH]; [reflexivity|]. cbn [map concat]. rewrite said_app, IH. unfold path_calls. destruct (dashed p); [apply H|reflexivity].
Qed.
Lemma paths_ex (g : call -> bool) ps : (forall p, g (b "-f", [b "-f"; p]) = false) -> existsb g (concat (map path_calls ps)) = false.
Proof.
  intros H. induction ps as [|p ps IH]; [reflexivity|]. cbn [map concat]. rewrite existsb_app, IH. unfold path_calls. destruct (dashed p); [|reflexivity].
  cbn [existsb]. rewrite H. reflexivity.
Qed.
Lemma all_said {A} (f : call -> option A) s ps : (forall p, f (b "-f", [b "-f"; p]) = None) ->
  said f (all_calls s ps) = match said f (sel (post_calls s)) with Some x => Some x | None => said f (sel (pre_calls s)) end.
Proof. intros H. unfold all_calls. rewrite !said_app, paths_said by exact H. destruct (said f (sel (post_calls s))); reflexivity. Qed.
Lemma all_ex (g : call -> bool) s ps : (forall p, g (b "-f", [b "-f"; p]) = false) ->
  existsb g (all_calls s ps) = (existsb g (sel (pre_calls s)) || existsb g (sel (post_calls s)))%bool.
Proof. intros H. unfold all_calls. rewrite !existsb_app, paths_ex by exact H. reflexivity. Qed.

Ltac skips := repeat first [rewrite said_skip by reflexivity | rewrite said_none | rewrite ex_skip by reflexivity | rewrite said_cons | rewrite ex_maybe].
Ltac saying := rewrite all_said by reflexivity; unfold pre_calls, post_calls; skips; cbv beta iota.
Ltac giving := unfold given; rewrite all_ex by reflexivity; unfold pre_calls, post_calls; skips.

Section Asked.
  Variables (w : SetupModel.env) (s : SetupModel.ctx) (ps : list arg).
  Hypothesis P : possible w s.
  Let ds := all_calls s ps.

  Lemma is_links : asked_links ds = if all_ s then Always else if roots_ s then Roots else Never.
  Proof. unfold asked_links, ds. saying. destruct (all_ s), (roots_ s); reflexivity. Qed.
  Lemma is_colors tty : asked_colors w tty ds = cout_colors s.
  Proof. unfold asked_colors, ds. saying. destruct (cout_colors s); reflexivity. Qed.
  Lemma is_races : default false (said races_of ds) = ignore_races s.
  Proof. unfold ds. saying. destruct (ignore_races s); reflexivity. Qed.
  Lemma is_search : default BFTW_BFS (said strategy_of ds) = search s.
  Proof. unfold ds. saying. destruct (search s); reflexivity. Qed.
  Lemma is_min : said (option_value "-mindepth") ds = if (mindepth s =? 0)%Z then None else Some (d (mindepth s)).
  Proof. unfold ds. saying. destruct (mindepth s =? 0)%Z; reflexivity. Qed.
  Lemma is_max : said (option_value "-maxdepth") ds = if (maxdepth s =? INT_MAX)%Z then None else Some (d (maxdepth s)).
  Proof. unfold ds. saying. destruct (maxdepth s =? INT_MAX)%Z; reflexivity. Qed.
  Lemma j_value n : (0 <= n)%Z -> flag_value "j" (b "-j", [b "-j" ++ d n]) = d n.
  Proof. intros H. change (match d n with [] => next (b "-j", [b "-j" ++ d n]) | v => v end = d n). assert (K := d_some n H). destruct (d n); [contradiction|reflexivity]. Qed.
  Lemma O_value n : (0 <= n)%Z -> flag_value "O" (b "-O", [b "-O" ++ d n]) = d n.
  Proof. intros H. change (match d n with [] => next (b "-O", [b "-O" ++ d n]) | v => v end = d n). assert (K := d_some n H). destruct (d n); [contradiction|reflexivity]. Qed.
  Lemma is_j : said (value_of_flag "-j" "j") ds = Some (d (threads s)).
  Proof. unfold ds. saying. change (Some (flag_value "j" (b "-j", [b "-j" ++ d (threads s)])) = Some (d (threads s))). rewrite j_value; [reflexivity|]. destruct P. lia. Qed.
  Lemma is_O : said (value_of_flag "-O" "O") ds = if (optlevel s =? 3)%Z then None else Some (d (optlevel s)).
  Proof.
    unfold ds. saying. change (value_of_flag "-O" "O" (b "-O", [b "-O" ++ d (optlevel s)])) with (Some (flag_value "O" (b "-O", [b "-O" ++ d (optlevel s)]))).
    rewrite O_value by (destruct P; lia). destruct (optlevel s =? 3)%Z; reflexivity.
  Qed.

  Lemma is_post : post_order ds = DumpModel.has (flags s) BFTW_POST_ORDER.
  Proof.
    unfold post_order, ds. giving. rewrite all_ex by reflexivity. unfold pre_calls, post_calls. skips. cbv beta.
    change (named "-depth" (word1 "-depth") && (length (snd (word1 "-depth")) =? 1)%nat)%bool with true.
    destruct (DumpModel.has (flags s) BFTW_POST_ORDER); reflexivity.
  Qed.
  Ltac gives := unfold ds; giving; match goal with |- _ = ?y => destruct y; reflexivity end.
  Lemma is_sort : given ["-s"] ds = DumpModel.has (flags s) BFTW_SORT.
  Proof. gives. Qed.
  Lemma is_mount : given ["-mount"] ds = DumpModel.has (flags s) BFTW_SKIP_MOUNTS.
  Proof. gives. Qed.
  Lemma is_xdev : given ["-x"; "-xdev"] ds = (N.land (flags s) (N.lor BFTW_SKIP_MOUNTS BFTW_PRUNE_MOUNTS) =? BFTW_PRUNE_MOUNTS)%N.
  Proof. gives. Qed.
  Lemma is_X : given ["-X"] ds = xargs_safe s.
  Proof. gives. Qed.
  Lemma is_unique : given ["-unique"] ds = unique s.
  Proof. gives. Qed.
  Lemma is_status : given ["-status"] ds = status s.
  Proof. gives. Qed.
  Lemma is_prune : given ["-prune"] ds = false.
  Proof. unfold ds; giving. reflexivity. Qed.

  Lemma is_noerror : given ["-noerror"] ds = false.
  Proof. unfold ds; giving. reflexivity. Qed.
  Lemma is_dangerous : given ["-delete"; "-rm"] ds = false.
  Proof. unfold ds; giving. reflexivity. Qed.
  Lemma is_warn : asked_warn w ds = (stdin_tty w && negb (posix_env w))%bool.
  Proof. unfold asked_warn, ds. saying. reflexivity. Qed.

  Definition mentions (n : string) (m : N) : bool := negb (m =? 0)%N && existsb (fun v => same v (b n) || same v (b "all")) (words (dvalue m)).
  Lemma is_debug n : debugs n ds = mentions n (debug s).
  Proof.
    unfold debugs, ds. giving.
    change (named "-D" (b "-D", [b "-D"; dvalue (debug s)])) with true.
    change (flag_value "D" (b "-D", [b "-D"; dvalue (debug s)])) with (dvalue (debug s)). cbn [existsb sel filter map andb orb]. rewrite !orb_false_r. reflexivity.
  Qed.
  Definition mentioned (m : N) : N := (bit (mentions "cost" m) 1 + bit (mentions "exec" m) 2 + bit (mentions "opt" m) 4 + bit (mentions "rates" m) 8
                       + bit (mentions "search" m) 16 + bit (mentions "stat" m) 32 + bit (mentions "tree" m) 64)%N.
  Lemma mentioned_all : forallb (fun k => (mentioned (N.of_nat k) =? N.of_nat k)%N && negb (existsb (same (b "help")) (words (dvalue (N.of_nat k))))) (List.seq 0 128) = true.
  Proof. vm_compute. reflexivity. Qed.
  Lemma mentioned_ok m : (m < 128)%N -> mentioned m = m /\ ~ In (b "help") (words (dvalue m)).
  Proof.
    intros H. assert (K := mentioned_all). rewrite forallb_forall in K. specialize (K (N.to_nat m)). cbv beta in K. rewrite N2Nat.id in K.
    specialize (K ltac:(apply in_seq; lia)). apply andb_true_iff in K. destruct K as [K L]. split; [apply N.eqb_eq; exact K|].
    intros I. apply negb_true_iff in L. rewrite <- not_true_iff_false in L. apply L. apply existsb_exists. exists (b "help"). split; [exact I|reflexivity].
  Qed.
End Asked.
