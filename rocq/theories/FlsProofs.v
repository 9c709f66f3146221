(** * Proofs about -ls *)
From Coq Require Import String List NArith ZArith Bool Lia ZifyN ZifyNat ZifyBool.
From Coq Require Import Init.Byte Strings.Byte.
From Verif Require Import FlsModel FlsSpec ModeModel ModeSpec ModeProofs.
Import ListNotations.
Ltac Zify.zify_post_hook ::= Z.to_euclidean_division_equations.

(** ** Numbers *)
Definition is_digit (c : byte) : Prop := exists d, digit_value c = Some d.
Lemma digit_ok n : (n < 10)%N -> digit_value (digit n) = Some n.
Proof.
  intros H. assert (K : In n [0; 1; 2; 3; 4; 5; 6; 7; 8; 9]%N) by (cbn; lia).
  repeat (destruct K as [<-|K]; [reflexivity|]). destruct K.
Qed.
Lemma print_value fuel : forall n acc, (n < 2 ^ N.of_nat fuel)%N -> value 0 (print_digits fuel n acc) = value n acc.
Proof.
  induction fuel as [|fuel IH]; intros n acc H; cbn [print_digits].
  - cbn in H. replace n with 0%N by lia. reflexivity.
  - replace (N.of_nat (S fuel)) with (N.succ (N.of_nat fuel)) in H by lia. rewrite N.pow_succ_r' in H.
    destruct (n <? 10)%N eqn:E.
    + cbn [value]. rewrite digit_ok by lia. reflexivity.
    + rewrite IH by lia. cbn [value]. rewrite digit_ok by lia. f_equal. lia.
Qed.
Lemma print_digits_all fuel : forall n acc, Forall is_digit acc -> Forall is_digit (print_digits fuel n acc).
Proof.
  induction fuel as [|fuel IH]; intros n acc F; cbn [print_digits]; [exact F|].
  destruct (n <? 10)%N eqn:E.
  - constructor; [|exact F]. exists n. apply digit_ok. lia.
  - apply IH. constructor; [|exact F]. exists (n mod 10)%N. apply digit_ok. lia.
Qed.
Lemma print_nonempty fuel : forall n acc, print_digits (S fuel) n acc <> [].
Proof.
  assert (G : forall fuel n acc, acc <> [] -> print_digits fuel n acc <> []).
  { induction fuel0 as [|f IH]; intros n acc H; cbn [print_digits]; [exact H|]. destruct (n <? 10)%N; [discriminate|]. apply IH. discriminate. }
  intros n acc. cbn [print_digits]. destruct (n <? 10)%N; [discriminate|]. apply G. discriminate.
Qed.
Lemma ju_ok n : number (ju n) n.
Proof.
  unfold number, ju. split; [apply print_nonempty|].
  rewrite print_value; [reflexivity|]. destruct (N.eq_dec n 0) as [->|H]; [reflexivity|].
  replace (N.of_nat (S (N.to_nat (N.log2 n)))) with (N.succ (N.log2 n)) by lia. apply N.log2_spec. lia.
Qed.
Lemma ju_digits n : Forall is_digit (ju n).
Proof. apply print_digits_all. constructor. Qed.

(** ** Words *)
Definition is_word (w : list byte) : Prop := w <> [] /\ ~ In " "%byte w.
Definition blank_next (r : list byte) : Prop := match r with [] => True | c :: _ => c = " "%byte end.

Lemma not_digit c : digit_value c = None -> forall w, Forall is_digit w -> ~ In c w.
Proof. intros H w F I. rewrite Forall_forall in F. destruct (F c I) as [d D]. congruence. Qed.
Lemma ju_word n : is_word (ju n).
Proof. split; [apply ju_ok|]. apply not_digit; [reflexivity|apply ju_digits]. Qed.
Lemma ju_line n : ~ In x0a (ju n).
Proof. apply not_digit; [reflexivity|apply ju_digits]. Qed.

Lemma until_ok w r : ~ In " "%byte w -> blank_next r -> until_blank (w ++ r) = (w, r).
Proof.
  induction w as [|c w IH]; intros N B; cbn [app until_blank].
  - destruct r as [|c r]; [reflexivity|]. cbn in B. subst c. reflexivity.
  - cbn in N. assert (E : Byte.eqb c " " = false).
    { destruct (Byte.eqb c " ") eqn:E; [|reflexivity]. apply byte_dec_bl in E. subst. tauto. }
    rewrite E, IH by tauto. reflexivity.
Qed.
Lemma skip_ok k w r : is_word w -> skip_blanks (blanks k ++ w ++ r) = w ++ r.
Proof.
  intros [NE N]. induction k as [|k IH]; [|exact IH].
  destruct w as [|c w]; [congruence|]. cbn [blanks repeat app skip_blanks].
  destruct (Byte.eqb c " ") eqn:E; [|reflexivity]. apply byte_dec_bl in E. subst. cbn in N. tauto.
Qed.
Lemma words_step n k w r : is_word w -> blank_next r ->
  words (S n) (blanks k ++ w ++ r) = let '(ws, s) := words n r in (w :: ws, s).
Proof. intros W B. cbn [words]. unfold word. rewrite skip_ok by exact W. rewrite until_ok by (try apply W; exact B). reflexivity. Qed.
Lemma words_step1 n k w r : is_word w -> blank_next r ->
  words (S n) (" "%byte :: blanks k ++ w ++ r) = let '(ws, s) := words n r in (w :: ws, s).
Proof. intros W B. exact (words_step n (S k) w r W B). Qed.

(** ** Modes *)
Definition plain (c : byte) : Prop := c <> " "%byte /\ c <> x0a.
Lemma type_plain m : plain (type_char m).
Proof. unfold type_char. repeat (destruct (_ =? _)%N; [split; discriminate|]). split; discriminate. Qed.
Lemma when_plain b c : plain c -> plain (when b c).
Proof. destruct b; [auto|]. intros _. split; discriminate. Qed.
Lemma triple_plain m s x u l : plain u -> plain l -> plain (triple_end m s x u l).
Proof. intros U L. unfold triple_end. destruct (_ =? _)%N; [exact U|]. destruct (has _ _); [exact L|]. destruct (has _ _); split; discriminate. Qed.
Lemma mode_plain m : Forall plain (xstrmode m).
Proof.
  unfold xstrmode. repeat constructor; try apply type_plain; try (apply when_plain; split; discriminate);
    apply triple_plain; split; discriminate.
Qed.
Lemma mode_word m : is_word (xstrmode m) /\ ~ In x0a (xstrmode m).
Proof.
  pose proof (mode_plain m) as F. rewrite Forall_forall in F. split; [split; [discriminate|]|]; intros I; destruct (F _ I); congruence.
Qed.

(** ** A line *)
Ltac norm := unfold right; change (str " ") with [" "%byte]; change (str "+") with ["+"%byte]; change (str ", ") with [","%byte; " "%byte];
  repeat first [rewrite <- app_assoc | progress cbn [app]].
Section Fls.
  Variable posixly_correct : bool.
  Variable now : Z.
  Variable xstrwidth : list byte -> nat.
  Variables getpwuid getgrgid : N -> option (list byte).
  Variables major minor : N -> N.
  Variable tm : Type.
  Variable localtime : Z -> option tm.
  Variable strftime : format -> tm -> list byte.
  Notation eval_fls := (eval_fls posixly_correct now xstrwidth getpwuid getgrgid major minor tm localtime strftime).
  Notation listed := (listed posixly_correct now getpwuid getgrgid major minor tm localtime strftime).
  Notation run := (run posixly_correct now xstrwidth getpwuid getgrgid major minor tm localtime strftime).
  Hypothesis users : forall id s, getpwuid id = Some s -> is_name s.
  Hypothesis groups : forall id s, getgrgid id = Some s -> is_name s.

  Lemma owner_shape names id w : (forall id s, names id = Some s -> is_name s) ->
    exists s p, fst (print_owner xstrwidth (names id) id w) = " "%byte :: s ++ blanks p /\
      s = text_of names id /\ is_word s /\ ~ In x0a s /\ owner names id s /\
      width_of xstrwidth names id + p = max (width_of xstrwidth names id) w /\
      snd (print_owner xstrwidth (names id) id w) = max (width_of xstrwidth names id) w.
  Proof.
    intros N. unfold print_owner, owner, text_of, width_of. destruct (names id) as [s|] eqn:E; cbn [fst snd].
    - destruct (N id s E) as (N1 & N2 & N3). eexists s, _. split; [reflexivity|]. split; [reflexivity|]. split; [split; assumption|].
      split; [exact N3|]. split; [reflexivity|]. destruct (w <? xstrwidth s) eqn:L; lia.
    - exists (ju id), (w - length (ju id)). split; [reflexivity|]. split; [reflexivity|]. split; [apply ju_word|].
      split; [apply ju_line|]. split; [apply ju_ok|]. 
      assert (Lt : length (str " " ++ left w (ju id)) = S (length (ju id) + (w - length (ju id)))).
      { change (S (length (ju id ++ repeat " "%byte (w - length (ju id)))) = S (length (ju id) + (w - length (ju id)))). rewrite app_length, repeat_length. reflexivity. }
      rewrite Lt.
      destruct (w <? S (length (ju id) + (w - length (ju id))) - 1) eqn:L; lia.
  Qed.

  Lemma jd_ok t : (exists n, number (jd t) n /\ (0 <= t)%Z /\ t = Z.of_N n) \/
                  (exists s n, jd t = "-"%byte :: s /\ number s n /\ (t < 0)%Z /\ (- t)%Z = Z.of_N n).
  Proof.
    unfold jd. destruct (t <? 0)%Z eqn:E; [right|left].
    - exists (ju (Z.to_N (- t))), (Z.to_N (- t)). split; [reflexivity|]. split; [apply ju_ok|]. clear - E. lia.
    - exists (Z.to_N t). split; [apply ju_ok|]. clear - E. lia.
  Qed.
  Lemma jd_line t : ~ In x0a (jd t).
  Proof. unfold jd. destruct (t <? 0)%Z; [|apply ju_line]. cbn. intros [H|H]; [discriminate|]. exact (ju_line _ H). Qed.

  Lemma time_ok t : exists s, print_time now tm localtime strftime t = " "%byte :: s /\ date now tm localtime strftime t s /\
    ((forall fmt d, ~ In x0a (strftime fmt d)) -> ~ In x0a s).
  Proof.
    unfold print_time.
    assert (J : (forall d, localtime t = Some d -> recent now t /\ strftime With_time d = [] \/ ~ recent now t /\ strftime With_year d = []) ->
      date now tm localtime strftime t (jd t)).
    { intros H. destruct (jd_ok t) as [(n & Nn & P & E)|(s & n & Q & Nn & P & E)]; [exact (D_number _ _ _ _ _ _ n H Nn P E)|].
      rewrite Q. exact (D_negative _ _ _ _ _ _ n H Nn P E). }
    destruct (localtime t) as [d|] eqn:L.
    2: { exists (jd t). split; [reflexivity|]. split; [apply J; discriminate|]. intros _. apply jd_line. }
    destruct ((t <=? now - 6 * 30 * 24 * 60 * 60)%Z || (now + 24 * 60 * 60 <=? t)%Z) eqn:R.
    - assert (R' : ~ recent now t) by (unfold recent; clear - R; lia).
      destruct (strftime With_year d) as [|c r] eqn:S.
      + exists (jd t). split; [reflexivity|]. split; [apply J; intros d' [= <-]; auto|]. intros _. apply jd_line.
      + exists (c :: r). split; [reflexivity|]. rewrite <- S. split; [|auto]. apply D_year; [exact L|exact R'|congruence].
    - assert (R' : recent now t) by (unfold recent; clear - R; lia).
      destruct (strftime With_time d) as [|c r] eqn:S.
      + exists (jd t). split; [reflexivity|]. split; [apply J; intros d' [= <-]; auto|]. intros _. apply jd_line.
      + exists (c :: r). split; [reflexivity|]. rewrite <- S. split; [|auto]. apply D_time; [exact L|exact R'|congruence].
  Qed.

  Lemma blocks_ok n unit : unit = 512%N \/ unit = 1024%N -> (n < 2 ^ 54)%N ->
    blocks_of n unit (u64 (u64 (u64 (n * BFS_STAT_BLKSIZE) + unit) + (2 ^ 64 - 1)) / unit).
  Proof.
    intros U H. unfold blocks_of, u64, BFS_STAT_BLKSIZE.
    rewrite (N.mod_small (n * 512)) by (clear - H; lia). rewrite (N.mod_small (n * 512 + unit)) by (clear - H U; lia).
    replace (n * 512 + unit + (2 ^ 64 - 1))%N with (n * 512 + (unit - 1) + 1 * 2 ^ 64)%N by (clear - U; lia).
    rewrite N.mod_add by discriminate. rewrite N.mod_small by (clear - H U; lia).
    clear - U. destruct U as [-> | ->]; lia.
  Qed.

  Definition suffix (f : file) : list byte := match type f, target f with Lnk, Some t => str " -> " ++ t | _, _ => [] end.
  Definition ending (f : file) : list byte := match type f, target f with Lnk, None => [] | _, _ => [x0a] end.
  Definition failed (f : file) : nat := match type f, target f with Lnk, None => 1 | _, _ => 0 end.

  Lemma in_blanks c n : In c (blanks n) -> c = " "%byte.
  Proof. intros I. apply repeat_spec in I. exact I. Qed.
  Lemma right_line w n : ~ In x0a (right w (ju n)).
  Proof. unfold right. rewrite in_app_iff. intros [I|I]; [apply in_blanks in I; discriminate|exact (ju_line _ I)]. Qed.
  Lemma blank_cons p s : blank_next s -> blank_next (blanks p ++ s).
  Proof. destruct p; cbn; auto. Qed.

  Lemma line_ok f st : (blocks f < 2 ^ 54)%N ->
    exists line a b p q, eval_fls (Some f) st =
        (true, mkState (max (width_of xstrwidth getpwuid (uid f)) (uwidth st)) (max (width_of xstrwidth getgrgid (gid f)) (gwidth st))
                 (out st ++ line ++ ending f) (failed f + errors st)) /\
      listed f line /\ (one_line tm strftime f -> ~ In x0a line) /\
      line = a ++ " "%byte :: text_of getpwuid (uid f) ++ blanks p ++ " "%byte :: text_of getgrgid (gid f) ++ blanks q ++ " "%byte :: b /\
      width_of xstrwidth getpwuid (uid f) + p = max (width_of xstrwidth getpwuid (uid f)) (uwidth st) /\
      width_of xstrwidth getgrgid (gid f) + q = max (width_of xstrwidth getgrgid (gid f)) (gwidth st).
  Proof.
    intros B. unfold FlsModel.eval_fls. cbv zeta.
    set (unit := if posixly_correct then 512%N else 1024%N).
    assert (Bk := blocks_ok (blocks f) unit ltac:(unfold unit; destruct posixly_correct; auto) B).
    set (bl := (u64 (u64 (u64 (blocks f * BFS_STAT_BLKSIZE) + unit) + (2 ^ 64 - 1)) / unit)%N) in *.
    destruct (owner_shape getpwuid (uid f) (uwidth st) users) as (us & p & Uf & Ut & Uw & Ul & Uo & Up & Us).
    destruct (owner_shape getgrgid (gid f) (gwidth st) groups) as (gs & q & Gf & Gt & Gw & Gl & Go & Gp & Gs).
    destruct (print_owner xstrwidth (getpwuid (uid f)) (uid f) (uwidth st)) as [ow uw].
    destruct (print_owner xstrwidth (getgrgid (gid f)) (gid f) (gwidth st)) as [gw gww]. cbn [fst snd] in *. subst ow gw uw gww.
    destruct (time_ok (mtime f)) as (ts & Te & Td & Tl). rewrite Te.
    set (head := right 9 (ju (ino f)) ++ str " " ++ right 6 (ju bl) ++ str " " ++ xstrmode (mode f) ++
                 (if acl f then str "+" else str " ") ++ str " " ++ right 2 (ju (nlink f))).
    set (sz := match type f with
               | Blk | Chr => blanks (3 - length (ju (major (rdev f)))) ++ ju (major (rdev f)) ++ str ", " ++ right 3 (ju (minor (rdev f)))
               | _ => right 8 (ju (size f)) end).
    set (body := " "%byte :: us ++ blanks p ++ " "%byte :: gs ++ blanks q ++ " "%byte :: sz ++ " "%byte :: ts ++ " "%byte :: path f ++ suffix f).
    exists (head ++ body), head, (sz ++ " "%byte :: ts ++ " "%byte :: path f ++ suffix f), p, q.
    split; [|split; [|split; [|split; [|split]]]]; [| | |subst us gs; reflexivity|exact Up|exact Gp].
    - unfold body, sz, suffix, ending, failed. destruct (type f); try destruct (target f);
        f_equal; f_equal; cbn [Nat.add]; f_equal; norm; rewrite ?app_nil_r; reflexivity.
    - unfold FlsSpec.listed.
      exists (ju (ino f)), (ju bl), (xstrmode (mode f) ++ if acl f then ["+"%byte] else []), (ju (nlink f)), us, gs,
        (blanks q ++ " "%byte :: sz ++ " "%byte :: ts ++ " "%byte :: path f ++ suffix f), bl, (xstrmode (mode f)),
        (" "%byte :: ts ++ " "%byte :: path f ++ suffix f), ts.
      destruct (mode_word (mode f)) as [[Mn Mw] Ml].
      assert (Mw' : is_word (xstrmode (mode f) ++ if acl f then ["+"%byte] else [])).
      { split; [intros E; apply app_eq_nil in E; destruct E; congruence|]. rewrite in_app_iff. intros [I|I]; [exact (Mw I)|].
        destruct (acl f); cbn in I; [intuition discriminate|exact I]. }
      split.
      { assert (Shape : head ++ body = blanks (9 - length (ju (ino f))) ++ ju (ino f) ++ " "%byte :: blanks (6 - length (ju bl)) ++ ju bl ++
          " "%byte :: blanks 0 ++ (xstrmode (mode f) ++ if acl f then ["+"%byte] else []) ++
          " "%byte :: blanks ((if acl f then 0 else 1) + (2 - length (ju (nlink f)))) ++ ju (nlink f) ++
          " "%byte :: blanks 0 ++ us ++ (blanks p ++ " "%byte :: gs ++ (blanks q ++ " "%byte :: sz ++ " "%byte :: ts ++ " "%byte :: path f ++ suffix f))).
        { unfold head, body. destruct (acl f); norm; cbn [blanks repeat Nat.add]; norm; reflexivity. }
        rewrite Shape. rewrite words_step by (try apply ju_word; exact eq_refl).
        rewrite words_step1 by (try apply ju_word; exact eq_refl).
        rewrite words_step1 by (try exact Mw'; exact eq_refl).
        rewrite words_step1 by (try apply ju_word; exact eq_refl).
        rewrite words_step1 by (try exact Uw; apply blank_cons; exact eq_refl).
        replace (blanks p ++ " "%byte :: gs ++ (blanks q ++ " "%byte :: sz ++ " "%byte :: ts ++ " "%byte :: path f ++ suffix f))
          with (blanks (p + 1) ++ gs ++ (blanks q ++ " "%byte :: sz ++ " "%byte :: ts ++ " "%byte :: path f ++ suffix f))
          by (unfold blanks; rewrite repeat_app, <- app_assoc; reflexivity).
        rewrite words_step by (try exact Gw; apply blank_cons; exact eq_refl). reflexivity. }
      split; [apply ju_ok|]. split; [apply ju_ok|]. split; [exact Bk|]. split; [reflexivity|].
      split; [intros K; apply read_back, K|]. split; [apply ju_ok|]. split; [exact Uo|]. split; [exact Go|].
      split; [|split; [exact Td|reflexivity]].
      assert (Q : forall s r, blanks q ++ " "%byte :: (s ++ r) = blanks (q + 1) ++ s ++ r)
        by (intros s r; unfold blanks; rewrite repeat_app, <- app_assoc; reflexivity).
      assert (Sz : forall n, exists w, words 1 (blanks q ++ " "%byte :: right 8 (ju n) ++ " "%byte :: ts ++ " "%byte :: path f ++ suffix f) =
        ([w], " "%byte :: ts ++ " "%byte :: path f ++ suffix f) /\ number w n).
      { intros n. exists (ju n). split; [|apply ju_ok]. unfold right. rewrite <- app_assoc, Q, app_assoc.
        replace (blanks (q + 1) ++ blanks (8 - length (ju n))) with (blanks (q + 1 + (8 - length (ju n)))) by apply repeat_app.
        rewrite words_step by (try apply ju_word; exact eq_refl). reflexivity. }
      assert (Dv : forall n m, exists a b, words 2 (blanks q ++ " "%byte :: (blanks (3 - length (ju n)) ++ ju n ++ str ", " ++ right 3 (ju m)) ++ " "%byte :: ts ++ " "%byte :: path f ++ suffix f) =
        ([a ++ [","%byte]; b], " "%byte :: ts ++ " "%byte :: path f ++ suffix f) /\ number a n /\ number b m).
      { intros n m. exists (ju n), (ju m). split; [|split; apply ju_ok].
        replace (blanks q ++ " "%byte :: (blanks (3 - length (ju n)) ++ ju n ++ str ", " ++ right 3 (ju m)) ++ " "%byte :: ts ++ " "%byte :: path f ++ suffix f)
          with (blanks (q + 1 + (3 - length (ju n))) ++ (ju n ++ [","%byte]) ++ " "%byte :: blanks (3 - length (ju m)) ++ ju m ++ " "%byte :: ts ++ " "%byte :: path f ++ suffix f).
        2: { unfold right, blanks, str. rewrite !repeat_app, <- !app_assoc. reflexivity. }
        rewrite words_step; [|split; [destruct (ju n); discriminate|]|exact eq_refl].
        2: { rewrite in_app_iff. destruct (ju_word n) as [_ J]. intros [I|[I|[]]]; [exact (J I)|discriminate]. }
        rewrite words_step1 by (try apply ju_word; exact eq_refl). reflexivity. }
      unfold sz. destruct (type f); [apply Dv|apply Dv|apply Sz|apply Sz].
    - intros (O1 & O2 & O3). destruct (mode_word (mode f)) as [_ Ml].
      assert (Bl : forall n, ~ In x0a (blanks n)) by (intros n I; apply in_blanks in I; discriminate).
      assert (Nx : forall s t, ~ In x0a s -> ~ In x0a t -> ~ In x0a (s ++ t)) by (intros s t A C; rewrite in_app_iff; tauto).
      assert (Cx : forall c s, c <> x0a -> ~ In x0a s -> ~ In x0a (c :: s)) by (intros c s A C; cbn; intuition congruence).
      assert (St1 : ~ In x0a (str " ")) by (cbn; intuition discriminate).
      assert (St2 : ~ In x0a (str ", ")) by (cbn; intuition discriminate).
      assert (St3 : ~ In x0a (str " -> ")) by (cbn; intuition discriminate).
      assert (Ac : ~ In x0a (if acl f then str "+" else str " ")) by (destruct (acl f); cbn; intuition discriminate).
      assert (Sf : ~ In x0a (suffix f)).
      { unfold suffix. destruct (type f); try (intros []). destruct (target f) as [t|] eqn:T; [|intros []]. apply Nx; [exact St3|apply O2; reflexivity]. }
      assert (Sz : ~ In x0a sz).
      { unfold sz. destruct (type f); try apply right_line; apply Nx; auto; apply Nx; try apply ju_line; apply Nx; auto; apply right_line. }
      specialize (Tl O3). unfold head, body. repeat first [assumption | apply right_line | apply Bl | apply Nx | apply Cx; [discriminate|]].
  Qed.

  Lemma readable_ok f : readable f -> ending f = [x0a] /\ failed f = 0.
  Proof. unfold readable, ending, failed. destruct (type f); auto. destruct (target f); [auto|]. intros H. destruct (H eq_refl eq_refl). Qed.

  Lemma one_ok f st : (blocks f < 2 ^ 54)%N -> readable f -> exists line st', eval_fls (Some f) st = (true, st') /\
    out st' = out st ++ line ++ [x0a] /\ errors st' = errors st /\ listed f line.
  Proof.
    intros B R. destruct (line_ok f st B) as (line & a & b & p & q & E & L & _). destruct (readable_ok f R) as [R1 R2].
    rewrite R1, R2 in E. eexists line, _. split; [exact E|]. auto.
  Qed.
  Lemma failed_ok st : exists st', eval_fls None st = (true, st') /\ out st' = out st /\ errors st' = S (errors st).
  Proof. eexists. split; [reflexivity|]. auto. Qed.

  Lemma run_lines fs : forall st, Forall (fun f => (blocks f < 2 ^ 54)%N /\ readable f /\ one_line tm strftime f) (found fs) ->
    exists ls, out (run fs st) = out st ++ lines ls /\ Forall2 listed (found fs) ls /\ Forall (fun l => ~ In x0a l) ls.
  Proof.
    induction fs as [|[f|] fs IH]; intros st F; cbn [found] in F; cbn [found].
    - exists []. cbn. rewrite app_nil_r. auto.
    - inversion F as [|? ? (B & R & O) F']; subst.
      destruct (line_ok f st B) as (line & a & b & p & q & E & L & N & _). destruct (readable_ok f R) as [R1 R2].
      destruct (IH (snd (eval_fls (Some f) st)) F') as (ls & Q & G & H). exists (line :: ls).
      change (run (Some f :: fs) st) with (run fs (snd (eval_fls (Some f) st))). rewrite Q. rewrite E. cbn [snd out].
      split; [|split; constructor; auto]. unfold lines. cbn [map concat]. rewrite R1, <- !app_assoc. reflexivity.
    - exact (IH (snd (eval_fls None st)) F).
  Qed.

  Lemma found_app fs gs : found (fs ++ gs) = found fs ++ found gs.
  Proof. induction fs as [|[f|] fs IH]; cbn; [reflexivity| |]; rewrite IH; reflexivity. Qed.
  Lemma run_app fs gs st : run (fs ++ gs) st = run gs (run fs st).
  Proof. apply fold_left_app. Qed.
  Lemma widest_app names ids id : widest xstrwidth names (ids ++ [id]) = max (width_of xstrwidth names id) (widest xstrwidth names ids).
  Proof. unfold widest. induction ids as [|i ids IH]; cbn [app map fold_right]; [lia|]. rewrite IH. lia. Qed.

  Lemma run_widths fs : Forall (fun f => (blocks f < 2 ^ 54)%N) (found fs) ->
    uwidth (run fs init) = widest xstrwidth getpwuid (map uid (found fs)) /\
    gwidth (run fs init) = widest xstrwidth getgrgid (map gid (found fs)).
  Proof.
    induction fs as [|f fs IH] using rev_ind; intros F; [split; reflexivity|].
    rewrite found_app in *. apply Forall_app in F. destruct F as [F1 F2]. destruct (IH F1) as [U G].
    rewrite run_app, !map_app. destruct f as [f|]; cbn [found map] in *.
    - inversion F2 as [|? ? B _]; subst. destruct (line_ok f (run fs init) B) as (line & a & b & p & q & E & _).
      cbn [FlsModel.run fold_left]. unfold FlsModel.run in E at 1. rewrite !widest_app, <- U, <- G.
      change (run [Some f] (run fs init)) with (snd (eval_fls (Some f) (run fs init))).
      unfold FlsModel.run in *. cbn [fold_left] in *. rewrite E. split; reflexivity.
    - rewrite !app_nil_r. exact (conj U G).
  Qed.

  Lemma columns_ok fs f : Forall (fun f => (blocks f < 2 ^ 54)%N) (found (fs ++ [Some f])) ->
    exists a p q b, out (run (fs ++ [Some f]) init) =
      out (run fs init) ++ a ++ " "%byte :: text_of getpwuid (uid f) ++ blanks p ++ " "%byte :: text_of getgrgid (gid f) ++ blanks q ++ " "%byte :: b /\
      width_of xstrwidth getpwuid (uid f) + p = widest xstrwidth getpwuid (map uid (found (fs ++ [Some f]))) /\
      width_of xstrwidth getgrgid (gid f) + q = widest xstrwidth getgrgid (map gid (found (fs ++ [Some f]))).
  Proof.
    intros F. rewrite found_app in *. apply Forall_app in F. destruct F as [F1 F2]. inversion F2 as [|? ? B _]; subst.
    destruct (run_widths fs F1) as [U G]. destruct (line_ok f (run fs init) B) as (line & a & b & p & q & E & _ & _ & L & P & Q).
    exists a, p, q, (b ++ ending f). rewrite run_app, !map_app. cbn [found map]. rewrite !widest_app, <- U, <- G. split; [|auto].
    change (run [Some f] (run fs init)) with (snd (eval_fls (Some f) (run fs init))). rewrite E. cbn [snd out]. rewrite L.
    repeat first [rewrite <- app_assoc | progress cbn [app]]. reflexivity.
  Qed.
End Fls.

(** A link in /proc that cannot be read *)
Definition bad_link : file := mkFile (str "/proc/1/exe") Lnk 1 0 0xa1ff 1 0 0 0 0 0 false None.
Definition good : file := mkFile (str "/proc/1/fd") Other 2 0 0x4140 2 0 0 0 0 0 false None.
Lemma link_refuted : exists fs, Forall (one_line unit no_date) (found fs) /\
  forall ls, Forall (fun l => ~ In x0a l) ls ->
    out (run false 0 (@length byte) (fun _ => None) (fun _ => None) (fun _ => 0%N) (fun _ => 0%N) unit (fun _ => Some tt) no_date fs init) = lines ls ->
    length ls <> length (found fs).
Proof.
  exists [Some bad_link; Some good]. split.
  - repeat constructor; cbn; try (intros; intuition discriminate); try (intros ? ?; intuition discriminate).
  - intros ls N E. set (o := out _) in E. assert (C : count_occ Byte.byte_eq_dec o x0a = 1) by (vm_compute; reflexivity).
    assert (K : count_occ Byte.byte_eq_dec (lines ls) x0a = length ls).
    { clear E C o. induction N as [|l ls H N IH]; [reflexivity|]. unfold lines in *. cbn [map concat length].
      rewrite !count_occ_app, IH. apply (count_occ_not_In Byte.byte_eq_dec) in H. rewrite H. reflexivity. }
    rewrite E, K in C. cbn. lia.
Qed.
