(** * Proofs about dialogues *)
From Coq Require Import Strings.Byte List Bool Arith ZArith Lia.
From Verif Require Import ExecModel ExecSpec ExecProofs RegexModel RegexSpec RegexProofs FilesModel AskModel AskSpec.
Import ListNotations.

(** ** Reading a line *)
Definition some_line (l : list byte) : option (list byte) := match l with [] => None | c :: l => Some (c :: l) end.
Lemma cut_app_found d s s' a b : cut d s = (a, b, true) -> cut d (s ++ s') = (a, b ++ s', true).
Proof.
  revert a b. induction s as [|c s IH]; intros a b; cbn [cut app]; [discriminate|]. destruct (Byte.eqb c d); [intros [= <- <-]; reflexivity|].
  destruct (cut d s) as ((a' & b') & f). intros [= <- <- ->]. now rewrite (IH _ _ eq_refl).
Qed.
Lemma cut_not_found d s a b : cut d s = (a, b, false) -> a = s /\ b = [].
Proof.
  revert a b. induction s as [|c s IH]; intros a b; cbn [cut]; [now intros [= <- <-]|]. destruct (Byte.eqb c d); [discriminate|].
  destruct (cut d s) as ((a' & b') & f). intros [= <- <- ->]. destruct (IH _ _ eq_refl) as (-> & ->). auto.
Qed.
Lemma cut_app_not d s s' a b : cut d s = (a, b, false) -> cut d (s ++ s') = let '(a', b', f) := cut d s' in (a ++ a', b', f).
Proof.
  revert a b. induction s as [|c s IH]; intros a b; cbn [cut app]; [intros [= <- <-]; destruct (cut d s') as ((? & ?) & ?); reflexivity|].
  destruct (Byte.eqb c d); [discriminate|]. destruct (cut d s) as ((a' & b') & f). intros [= <- <- ->]. rewrite (IH _ _ eq_refl).
  destruct (cut d s') as ((? & ?) & ?). reflexivity.
Qed.

Lemma getline_ok reads : forall fuel k acc buffer kernel, length kernel < fuel ->
  exists buffer' kernel', let '(piece, rest, _) := cut x0a (buffer ++ kernel) in
  buffer' ++ kernel' = rest /\
  getline fuel reads k acc buffer kernel = Some (some_line (acc ++ piece), buffer', kernel').
Proof.
  induction fuel as [|fuel IH]; intros k acc buffer kernel L; [lia|]. cbn [getline].
  destruct (cut x0a buffer) as ((piece & rest) & found) eqn:C. destruct found.
  - exists rest, kernel. rewrite (cut_app_found _ _ kernel _ _ C). split; [reflexivity|].
    assert (P : piece <> []) by (destruct buffer as [|c b]; cbn [cut] in C; [discriminate|]; destruct (Byte.eqb c x0a); [now injection C as <- _|]; destruct (cut x0a b) as ((? & ?) & ?); now injection C as <- _ _).
    destruct (acc ++ piece) eqn:A; [|reflexivity]. now apply app_eq_nil in A.
  - rewrite (cut_app_not _ _ kernel _ _ C). destruct kernel as [|c kernel].
    + exists [], []. cbn [cut]. split; [reflexivity|]. now rewrite (app_nil_r piece).
    + destruct (IH (S k) (acc ++ piece) (firstn (S (reads k)) (c :: kernel)) (skipn (S (reads k)) (c :: kernel))) as (b' & k' & H).
      { rewrite skipn_length. cbn [length] in *. lia. }
      rewrite firstn_skipn in H. exists b', k'. destruct (cut x0a (c :: kernel)) as ((p & r) & f). destruct H as (H1 & H2). split; [exact H1|].
      rewrite <- app_assoc in H2. exact H2.
Qed.

Lemma cut_lines s : let '(piece, rest, _) := cut x0a s in
  hd_error (lines s) = some_line piece /\ tl (lines s) = lines rest.
Proof.
  induction s as [|c s IH]; cbn [cut lines]; [auto|]. destruct (Byte.eqb c x0a) eqn:E; [cbn; auto|].
  destruct (cut x0a s) as ((p & r) & f) eqn:C. destruct IH as (H1 & H2). destruct (lines s) as [|l ls] eqn:L; cbn [hd_error tl] in *.
  - split; [|exact H2]. destruct p; [reflexivity|discriminate].
  - split; [|exact H2]. destruct p; [discriminate|]. now injection H1 as <-.
Qed.

(** ** Asking *)
Lemma format_args_ok mem tmpl path : exists r, format_args mem tmpl path = Some r /\
  (r = None \/ r = Some (command_for tmpl path)) /\ ((forall i, mem i = true) -> r = Some (command_for tmpl path)).
Proof.
  induction tmpl as [|a tmpl (r & E & A & B)]; cbn [format_args command_for map]; [eexists; split; [reflexivity|]; auto|].
  destruct (format_arg_ok mem a path) as (r1 & E1 & A1 & B1). rewrite E1. destruct A1 as [-> | ->].
  - exists None. split; [reflexivity|]. split; [auto|]. intros M. specialize (B1 M). discriminate.
  - rewrite E. destruct A as [-> | ->].
    + exists None. split; [reflexivity|]. split; [auto|]. intros M. specialize (B M). discriminate.
    + eexists. split; [reflexivity|]. auto.
Qed.

Lemma ask_ok e k argv st : exists s, ask e k argv st = (mkState (kernel st) (buffer st) (pending st) (log st ++ map Err s), true) /\ s = question argv \/
  exists s, ask e k argv st = (mkState (kernel st) (buffer st) (pending st) (log st ++ map Err s), false) /\ exists i, e i = false.
Proof.
  revert k st. induction argv as [|a argv IH]; intros k st; cbn [ask].
  - destruct (e k) eqn:E; [exists [x3f; x20]; left; split; reflexivity|]. exists []. right. exists []. rewrite app_nil_r. destruct st; eauto.
  - destruct (e k) eqn:E; [|exists []; right; exists []; rewrite app_nil_r; destruct st; eauto].
    destruct (IH (S k) (say st (a ++ [x20]))) as (s & [(H & ->)|(s' & H & i & I)]); rewrite H; cbn [say kernel buffer pending log].
    + exists (question (a :: argv)). left. split; [|reflexivity]. f_equal. f_equal. rewrite <- app_assoc, <- map_app. unfold question. cbn [map concat].
      now rewrite !app_assoc.
    + exists []. right. eexists (_ ++ _). rewrite <- app_assoc, <- map_app. eauto.
Qed.

Section Dialogue.
  Variable decode : list byte -> option (list char).
  Variable regexec : re -> list byte -> found.
  Variables (oniguruma : bool) (noexpr yesexpr : re).
  Notation files := (ok_files decode regexec oniguruma (Some noexpr) (Some yesexpr)).
  Notation file := (ok_file decode regexec oniguruma (Some noexpr) (Some yesexpr)).

  Lemma answer_ok : dependable decode regexec oniguruma -> forall line,
    if (ynprompt decode regexec oniguruma (Some noexpr) (Some yesexpr) (option_map c_string line) <=? 0)%Z
    then ~ says_yes decode noexpr yesexpr line else says_yes decode noexpr yesexpr line.
  Proof.
    intros (L & R & T & W) line. destruct (Z.leb_spec (ynprompt decode regexec oniguruma (Some noexpr) (Some yesexpr) (option_map c_string line)) 0) as [H|H].
    - intros (l & s & -> & D & A). cbn [option_map] in H.
      pose proof (prompt_all decode regexec R oniguruma noexpr yesexpr (c_string l) s D A (fun r => W r _)) as P. rewrite P in H. lia.
    - assert (Y : ynprompt decode regexec oniguruma (Some noexpr) (Some yesexpr) (option_map c_string line) = 1%Z).
      { revert H. destruct (option_map c_string line) as [l|]; cbn [ynprompt]; [|lia]. unfold xrpmatch.
        repeat match goal with |- context [if ?b then _ else _] => destruct b; try lia end. destruct l as [|c l]; [lia|]. destruct c; lia. }
      destruct (prompt_yes decode regexec R oniguruma _ _ _ Y) as (str & n & y & E & [= <-] & [= <-] & A).
      destruct line as [l|]; [|discriminate]. injection E as <-. destruct (decode (c_string l)) as [s|] eqn:D; [|now destruct (T (c_string l))].
      exists l, s. auto.
  Qed.

  Lemma files_ok tmpl : dependable decode regexec oniguruma -> forall js st, Forall quiet js -> pending st = [] ->
    exists st' es rs, files tmpl js st = Some (st', rs) /\ log st' = log st ++ es /\ dialogue decode noexpr yesexpr tmpl js (lines (buffer st ++ kernel st)) es rs.
  Proof.
    intros DEP. induction js as [|j js IH]; intros st Q P; cbn [ok_files].
    - exists st, [], []. rewrite app_nil_r. split; [reflexivity|]. split; [reflexivity|constructor].
    - inversion Q as [|? ? (QM & QE & QT) QS]; subst. unfold ok_file. destruct (format_args_ok (w_mem j) tmpl (w_path j)) as (r & -> & _ & F). rewrite (F QM). clear F r.
      unfold exec_spawn, ctx_flush. cbn [kernel buffer pending log]. rewrite P. cbn [app].
      set (argv := command_for tmpl (w_path j)).
      destruct (ask_ok (w_err j) 0 argv (mkState (kernel st) (buffer st) [] (log st ++ map Out (w_text j)))) as (s & [(H & ->)|(s' & _ & i & I)]); [|rewrite QE in I; discriminate].
      rewrite H. cbn [negb]. unfold prompt. cbn [kernel buffer pending log].
      destruct (getline_ok (w_read j) (2 + length (kernel st)) 0 [] (buffer st) (kernel st)) as (b' & k' & G); [lia|].
      pose proof (cut_lines (buffer st ++ kernel st)) as C. destruct (cut x0a (buffer st ++ kernel st)) as ((piece & rest) & f). destruct G as (G1 & ->). cbn [app] in *. destruct C as (C1 & C2).
      rewrite <- C1. pose proof (answer_ok DEP (hd_error (lines (buffer st ++ kernel st)))) as A. destruct (_ <=? 0)%Z.
      + destruct (IH (mkState k' b' [] (((log st ++ map Out (w_text j)) ++ map Err (question argv)) ++ [Read (hd_error (lines (buffer st ++ kernel st)))])) QS eq_refl) as (st' & es & rs & E & LG & D).
        rewrite E. cbn [kernel buffer log] in *. eexists st', _, _. split; [reflexivity|]. split; [|apply d_no; [exact A|rewrite C2, <- G1; exact D]].
        rewrite LG, <- !app_assoc. reflexivity.
      + rewrite QT. cbn [skipn kernel buffer pending log].
        destruct (IH (mkState k' b' [] ((((log st ++ map Out (w_text j)) ++ map Err (question argv)) ++ [Read (hd_error (lines (buffer st ++ kernel st)))]) ++ [Ran argv])) QS eq_refl) as (st' & es & rs & E & LG & D).
        rewrite E. cbn [kernel buffer log] in *. eexists st', _, _. split; [reflexivity|]. split; [|apply d_yes; [exact A|rewrite C2, <- G1; exact D]].
        rewrite LG, <- !app_assoc. reflexivity.
  Qed.

  (** ** Whatever fails *)
  Notation asked := (asked decode noexpr yesexpr).

  Lemma asked_app es es' : asked es -> asked es' -> asked (es ++ es').
  Proof.
    intros A B pre argv post E. destruct (app_eq_app es es' pre (Ran argv :: post) E) as (m & [(-> & M)|(-> & M)]).
    - destruct m as [|x m].
      + cbn in M. destruct (B [] argv post (eq_sym M)) as (p & l & X & _). exfalso. destruct p; [|discriminate]. cbn [app] in X. symmetry in X. apply app_eq_nil in X. now destruct X.
      + injection M as <- ->. apply (A _ _ _ eq_refl).
    - destruct (B _ _ _ M) as (p & l & -> & Y). exists (es ++ p), l. rewrite <- app_assoc. auto.
  Qed.
  Lemma asked_none es : (forall argv, ~ In (Ran argv) es) -> asked es.
  Proof. intros N pre argv post ->. exfalso. apply (N argv), in_app_iff. right. now left. Qed.

  Lemma file_asked tmpl : dependable decode regexec oniguruma -> forall j st, exists st' es r, file tmpl j st = Some (st', r) /\ log st' = log st ++ es /\ asked es /\
    (forall argv, In (Ran argv) es -> argv = command_for tmpl (w_path j)) /\ (fst r = true -> In (Ran (command_for tmpl (w_path j))) es).
  Proof.
    intros DEP j st. unfold ok_file. destruct (format_args_ok (w_mem j) tmpl (w_path j)) as (r & -> & [-> | ->] & _).
    { eexists _, [], _. split; [reflexivity|]. rewrite app_nil_r. split; [reflexivity|]. split; [apply asked_none; now intros|]. split; [now intros|discriminate]. }
    unfold exec_spawn, ctx_flush. cbn [kernel buffer pending log]. set (argv := command_for tmpl (w_path j)). set (out := pending st ++ w_text j).
    assert (NO : forall s t, forall argv, ~ In (Ran argv) (map Out s ++ map Err t)).
    { intros s t a I. apply in_app_iff in I. destruct I as [I|I]; apply in_map_iff in I; destruct I as (? & ? & _); discriminate. }
    destruct (ask_ok (w_err j) 0 argv (mkState (kernel st) (buffer st) [] (log st ++ map Out out))) as (s & [(H & ->)|(s' & H & _)]); rewrite H; cbn [negb].
    2: { eexists _, _, _. split; [reflexivity|]. cbn [log]. rewrite <- app_assoc. split; [reflexivity|]. split; [apply asked_none, NO|]. split; [intros a I; now apply NO in I|discriminate]. }
    unfold prompt. cbn [kernel buffer pending log].
    destruct (getline_ok (w_read j) (2 + length (kernel st)) 0 [] (buffer st) (kernel st)) as (b' & k' & G); [lia|].
    destruct (cut x0a (buffer st ++ kernel st)) as ((piece & rest) & f). destruct G as (_ & ->). cbn [app]. set (line := some_line piece).
    pose proof (answer_ok DEP line) as A. destruct (_ <=? 0)%Z.
    - eexists _, _, _. split; [reflexivity|]. cbn [log]. rewrite <- !app_assoc. split; [reflexivity|].
      assert (N : forall a, ~ In (Ran a) (map Out out ++ map Err (question argv) ++ [Read line])).
      { intros a I. rewrite app_assoc in I. apply in_app_iff in I. destruct I as [I|[I|[]]]; [now apply NO in I|discriminate]. }
      split; [apply asked_none, N|]. split; [intros a I; now apply N in I|discriminate].
    - eexists _, _, _. split; [reflexivity|]. cbn [log]. rewrite <- !app_assoc. split; [reflexivity|].
      assert (N : forall a, ~ In (Ran a) (map Out out ++ map Err (question argv) ++ [Read line])).
      { intros a I. rewrite app_assoc in I. apply in_app_iff in I. destruct I as [I|[I|[]]]; [now apply NO in I|discriminate]. }
      rewrite !app_assoc. rewrite <- (app_assoc (map Out out)). split; [|split].
      + intros pre a post E. destruct (app_eq_app _ _ _ _ E) as (m & [(M1 & M2)|(M1 & M2)]).
        * destruct m as [|x m]; cbn [app] in M2.
          -- injection M2 as <- _. rewrite app_nil_r in M1. exists (map Out out), line. split; [now symmetry|exact A].
          -- injection M2 as <- _. exfalso. apply (N a). rewrite M1. apply in_app_iff. right. now left.
        * destruct m as [|x m]; cbn [app] in M2.
          -- injection M2 as <- _. rewrite app_nil_r in M1. exists (map Out out), line. split; [exact M1|exact A].
          -- exfalso. injection M2 as _ M2. destruct m; discriminate.
      + intros a I. apply in_app_iff in I. destruct I as [I|[I|[]]]; [now apply N in I|now injection I].
      + intros _. apply in_app_iff. right. now left.
  Qed.

  Lemma files_asked tmpl : dependable decode regexec oniguruma -> forall js st, exists st' es rs, files tmpl js st = Some (st', rs) /\ log st' = log st ++ es /\ asked es /\
    (forall argv, In (Ran argv) es -> exists j, In j js /\ argv = command_for tmpl (w_path j)) /\
    Forall2 (fun j r => fst r = true -> In (Ran (command_for tmpl (w_path j))) es) js rs.
  Proof.
    intros DEP. induction js as [|j js IH]; intros st; cbn [ok_files].
    - exists st, [], []. rewrite app_nil_r. split; [reflexivity|]. split; [reflexivity|]. split; [apply asked_none; now intros|]. split; [now intros|constructor].
    - destruct (file_asked tmpl DEP j st) as (st1 & es1 & r1 & E1 & L1 & A1 & B1 & C1). rewrite E1.
      destruct (IH st1) as (st2 & es2 & rs & E2 & L2 & A2 & B2 & C2). rewrite E2. exists st2, (es1 ++ es2), (r1 :: rs). split; [reflexivity|].
      split; [now rewrite L2, L1, <- app_assoc|]. split; [now apply asked_app|]. split.
      + intros argv I. apply in_app_iff in I. destruct I as [I|I]; [exists j; split; [now left|now apply B1]|]. destruct (B2 _ I) as (j' & J & ->). exists j'. split; [now right|reflexivity].
      + constructor; [intros F; apply in_app_iff; left; auto|]. clear - C2. induction C2; constructor; auto. intros F. apply in_app_iff. right. auto.
  Qed.
End Dialogue.

(** ** Questions *)
Lemma sub_ind (P : list byte -> Prop) : P [] -> (forall s, P s -> P (x7b :: x7d :: s)) ->
  (forall c s, P s -> (forall p, substitute p (c :: s) = c :: substitute p s) -> ~ (exists t, c :: s = x7b :: x7d :: t) -> P (c :: s)) -> forall s, P s.
Proof.
  intros A B C. assert (G : forall n s, length s <= n -> P s).
  { induction n as [|n IH]; intros s L; [destruct s; [exact A|cbn in L; lia]|]. destruct s as [|c s]; [exact A|]. cbn [length] in L.
    destruct (find_braces (c :: s)) as [[|m]|] eqn:F.
    - destruct s as [|d s]; [discriminate|]. cbn [find_braces] in F.
      destruct (Byte.eqb c lbrace && Byte.eqb d rbrace)%bool eqn:E.
      + apply andb_prop in E. destruct E as (E1 & E2). apply Byte.byte_dec_bl in E1, E2. subst. apply B, IH. cbn in L. lia.
      + destruct (match s with [] => None | _ => _ end); discriminate.
    - assert (N : ~ exists t, c :: s = x7b :: x7d :: t) by (intros (t & [= -> ->]); discriminate).
      apply C; [apply IH; lia| |exact N]. intros p. destruct c; try reflexivity. destruct s as [|d s]; [reflexivity|]. destruct d; try reflexivity. exfalso. apply N. eauto.
    - assert (N : ~ exists t, c :: s = x7b :: x7d :: t) by (intros (t & [= -> ->]); discriminate).
      apply C; [apply IH; lia| |exact N]. intros p. destruct c; try reflexivity. destruct s as [|d s]; [reflexivity|]. destruct d; try reflexivity. exfalso. apply N. eauto. }
  intros s. apply (G _ _ (le_n _)).
Qed.
Lemma sub_length s : exists n m, (forall p, length (substitute p s) = m + n * length p) /\ (has_braces s -> 0 < n).
Proof.
  induction s as [|s (n & m & H & _)|c s (n & m & H & N) E F] using sub_ind.
  - exists 0, 0. split; [reflexivity|]. intros (a & b & X). destruct a; discriminate.
  - exists (S n), m. split; [|lia]. intros p. cbn [substitute]. rewrite app_length, H. lia.
  - exists n, (S m). split; [intros p; rewrite E; cbn [length]; rewrite H; lia|]. intros (a & b & X). apply N. destruct a as [|a0 a]; [exfalso; apply F; exists b; exact X|].
    injection X as _ ->. exists a, b. reflexivity.
Qed.
Lemma question_length tmpl : exists n m, (forall p, length (question (command_for tmpl p)) = m + n * length p) /\ (Exists has_braces tmpl -> 0 < n).
Proof.
  unfold question. induction tmpl as [|w tmpl (n & m & H & N)].
  - exists 0, 2. split; [reflexivity|]. intros X. inversion X.
  - destruct (sub_length w) as (n' & m' & H' & N'). exists (n' + n), (m' + 1 + m). split.
    + intros p. cbn [command_for map concat]. fold (command_for tmpl p). rewrite <- app_assoc, app_length, H, app_length, H'. cbn [length]. lia.
    + intros X. inversion X as [? ? Y|? ? Y]; subst; [specialize (N' Y)|specialize (N Y)]; lia.
Qed.
Lemma sub_inj s p q : length p = length q -> has_braces s -> substitute p s = substitute q s -> p = q.
Proof.
  intros L. induction s as [|s IH|c s IH E F] using sub_ind; intros B.
  - destruct B as (a & b & X). destruct a; discriminate.
  - cbn [substitute]. intros X. apply app_inv_head_iff in X || idtac. apply (f_equal (firstn (length p))) in X. rewrite firstn_app, firstn_all, Nat.sub_diag, firstn_O, app_nil_r in X.
    rewrite L, firstn_app, firstn_all, Nat.sub_diag, firstn_O, app_nil_r in X. exact X.
  - rewrite !E. intros [= X]. apply IH; [|exact X]. destruct B as (a & b & Y). destruct a as [|a0 a]; [exfalso; apply F; exists b; exact Y|]. injection Y as _ ->. exists a, b. reflexivity.
Qed.
Lemma question_inj tmpl p q : Exists has_braces tmpl -> question (command_for tmpl p) = question (command_for tmpl q) -> p = q.
Proof.
  intros B E. assert (L : length p = length q).
  { destruct (question_length tmpl) as (n & m & H & N). specialize (N B). apply (f_equal (@length byte)) in E. rewrite !H in E. nia. }
  unfold question in E. apply app_inv_tail in E. induction tmpl as [|w tmpl IH]; [inversion B|]. cbn [command_for map concat] in E. fold (command_for tmpl p) (command_for tmpl q) in E.
  rewrite <- !app_assoc in E. destruct (sub_length w) as (n & m & H & _).
  assert (X : substitute p w = substitute q w /\ [x20] ++ concat (map (fun a => a ++ [x20]) (command_for tmpl p)) = [x20] ++ concat (map (fun a => a ++ [x20]) (command_for tmpl q))).
  { assert (LL : length (substitute p w) = length (substitute q w)) by (rewrite !H; now rewrite L). revert LL E. generalize (substitute p w) (substitute q w).
    intros a. induction a as [|x a IHa]; intros [|y b] LL E; try discriminate; [auto|]. cbn [app] in E. injection E as -> E. injection LL as LL. destruct (IHa b LL E) as (-> & X). auto. }
  destruct X as (X1 & X2). inversion B as [? ? Y|? ? Y]; subst; [now apply (sub_inj w)|]. apply IH; [exact Y|]. now injection X2.
Qed.
