(** * Proofs about reading colors *)
From Coq Require Import String List NArith Bool Lia ZifyN ZifyNat ZifyBool.
From Coq Require Import Init.Byte Strings.Byte.
From Verif Require Import LsModel LsSpec.
Import ListNotations.

Definition no_nul (s : list byte) : Prop := ~ In NUL s.
Lemma no_nul_cons c s : no_nul (c :: s) -> c <> NUL /\ no_nul s.
Proof. unfold no_nul. cbn. intuition. Qed.
Lemma no_nul_app s t : no_nul (s ++ t) -> no_nul s /\ no_nul t.
Proof. unfold no_nul. rewrite in_app_iff. intuition. Qed.

Lemma eqb_eq a b : Byte.eqb a b = true <-> a = b.
Proof. split; [apply byte_dec_bl|apply byte_dec_lb]. Qed.
Lemma eqb_neq a b : Byte.eqb a b = false <-> a <> b.
Proof. rewrite <- eqb_eq. destruct (Byte.eqb a b); intuition congruence. Qed.
Lemma eqb_refl a : Byte.eqb a a = true.
Proof. apply eqb_eq. reflexivity. Qed.
Lemma equal_eq s : forall t, equal s t = true <-> s = t.
Proof.
  induction s as [|a s IH]; intros [|b t]; cbn [equal]; try (split; [discriminate|discriminate]); [tauto|].
  rewrite andb_true_iff, eqb_eq, IH. split; [intros [-> ->]; reflexivity|intros [= -> ->]; auto].
Qed.
Lemma equal_neq s t : equal s t = false <-> s <> t.
Proof. rewrite <- equal_eq. destruct (equal s t); intuition congruence. Qed.
Lemma equal_refl s : equal s s = true.
Proof. apply equal_eq. reflexivity. Qed.

(** ** Digits *)

Lemma to_N_lt c : (Byte.to_N c < 256)%N.
Proof. apply Byte.to_N_bounded || (destruct c; reflexivity). Qed.
Lemma uchar_eq n k : Byte.to_N k = (n mod 256)%N -> uchar n = k.
Proof. intros H. unfold uchar. rewrite <- H, Byte.of_to_N. reflexivity. Qed.

Lemma octal_digit c : between "0" "7" c = true <-> exists v, digit_of 8 c v.
Proof.
  unfold between, digit_of, num. change (Byte.to_N "0") with 48%N. change (Byte.to_N "7") with 55%N. split.
  - intros H. exists (Byte.to_N c - 48)%N. lia.
  - intros [v H]. lia.
Qed.
Definition hex_value (d : byte) : option N :=
  (if between "0" "9" d then Some (num d - num "0")
   else if between "A" "F" d then Some (num d - num "A" + 10)
   else if between "a" "f" d then Some (num d - num "a" + 10)
   else None)%N.
Lemma hex_digit c v : hex_value c = Some v <-> digit_of 16 c v.
Proof.
  unfold hex_value, between, digit_of, num. change (Byte.to_N "0") with 48%N. change (Byte.to_N "9") with 57%N.
  change (Byte.to_N "A") with 65%N. change (Byte.to_N "F") with 70%N. change (Byte.to_N "a") with 97%N. change (Byte.to_N "f") with 102%N.
  destruct (_ && _) eqn:A; [split; [intros [= <-]; lia|intros H; f_equal; lia]|].
  destruct (_ && _) eqn:B in |- *; [split; [intros [= <-]; lia|intros H; f_equal; lia]|].
  destruct (_ && _) eqn:C in |- *; [split; [intros [= <-]; lia|intros H; f_equal; lia]|].
  split; [discriminate|]. intros H. lia.
Qed.

Fixpoint upto (n : nat) : list N := match n with O => [] | S n => N.of_nat n :: upto n end.
Lemma upto_in n x : (x < N.of_nat n)%N -> In x (upto n).
Proof. induction n as [|n IH]; intros H; [lia|]. cbn [upto]. destruct (N.eq_dec x (N.of_nat n)) as [->|N]; [left; reflexivity|right; apply IH; lia]. Qed.
Lemma lor_digit base c v : base = 8%N \/ base = 16%N -> (c < 256)%N -> (v < base)%N ->
  N.lor ((c * base) mod 256) v = ((base * c + v) mod 256)%N.
Proof.
  intros B C V.
  assert (K : forallb (fun b => forallb (fun c => forallb (fun v => N.lor ((c * b) mod 256) v =? ((b * c + v) mod 256))%N (upto (N.to_nat b))) (upto 256)) [8; 16]%N = true)
    by (vm_compute; reflexivity).
  rewrite forallb_forall in K. assert (Ib : In base [8; 16]%N) by (destruct B as [-> | ->]; cbn; auto).
  specialize (K _ Ib). rewrite forallb_forall in K. specialize (K c (upto_in 256 c C)). rewrite forallb_forall in K.
  apply N.eqb_eq, K, upto_in. lia.
Qed.
Lemma mod_step base n v : ((base * (n mod 256) + v) mod 256 = (base * n + v) mod 256)%N.
Proof. rewrite <- N.add_mod_idemp_l by discriminate. rewrite N.mul_mod_idemp_r by discriminate. rewrite N.add_mod_idemp_l by discriminate. reflexivity. Qed.

Lemma number_digits base ds n : number base ds n -> Forall (fun c => exists v, digit_of base c v) ds.
Proof. induction 1 as [|ds n c v H IH D]; [constructor|]. apply Forall_app. split; [exact IH|]. constructor; [eauto|constructor]. Qed.

Lemma number_unique base s a b : (base <= 16)%N -> number base s a -> number base s b -> a = b.
Proof.
  intros B16 H. revert b. induction H as [|ds a' c v H IH D]; intros b K.
  - inversion K as [|ds2 b' c2 v2 K' D2 E]; [reflexivity|]. destruct ds2; discriminate.
  - inversion K as [E|ds2 b' c2 v2 K' D2 E]; [destruct ds; discriminate|].
    apply app_inj_tail in E. destruct E as [-> ->]. rewrite (IH _ K'). f_equal. destruct D as [D1 D], D2 as [D3 D2]. clear - B16 D1 D D3 D2. lia.
Qed.

(** ** The loops *)

Lemma octal_run ds : forall fuel c m pre x rest n, Forall (fun c => exists v, digit_of 8 c v) (ds ++ [x]) ->
  stops 8 rest -> length ds < fuel -> number 8 pre m -> c = (m mod 256)%N -> number 8 (pre ++ ds) n ->
  octal fuel c (ds ++ x :: rest) = Done ((n mod 256)%N, x :: rest).
Proof.
  assert (U : forall s a b, number 8 s a -> number 8 s b -> a = b) by (intros s a b; apply number_unique; discriminate).
  induction ds as [|d ds IH]; intros fuel c m pre x rest n F S L P C N0; (destruct fuel as [|fuel]; [cbn in L; lia|]); cbn [octal app].
  - cbn [at1 bind]. assert (E : between "0" "7" (at0 rest) = false).
    { destruct (between "0" "7" (at0 rest)) eqn:B; [|reflexivity]. exfalso. destruct rest as [|r rest]; [discriminate B|].
      apply octal_digit in B. destruct B as [v B]. exact (S v B). }
    rewrite E. rewrite app_nil_r in N0. rewrite (U _ _ _ N0 P), C. reflexivity.
  - cbn [at1 bind]. assert (E : between "0" "7" (at0 (ds ++ x :: rest)) = true).
    { apply octal_digit. cbn [app] in F. inversion F as [|? ? _ F']. destruct ds as [|d' ds]; cbn in *; inversion F'; assumption. }
    rewrite E. cbn [next bind at0 app] in *. inversion F as [|? ? [v D] F']; subst.
    assert (V : (num d - num "0" = v)%N) by (unfold num; change (Byte.to_N "0") with 48%N; destruct D as [D1 D]; lia).
    rewrite V, lor_digit by (try (left; reflexivity); try (apply N.mod_lt; discriminate); apply D).
    apply (IH fuel _ (8 * m + v)%N (pre ++ [d])); [exact F'|exact S|cbn in L; lia|constructor; assumption|apply mod_step|].
    rewrite <- app_assoc. exact N0.
Qed.

Lemma hex_run ds : forall fuel c m pre h rest n, Forall (fun c => exists v, digit_of 16 c v) ds ->
  stops 16 rest -> length ds < fuel -> number 16 pre m -> c = (m mod 256)%N -> number 16 (pre ++ ds) n ->
  exists x, hex fuel c (h :: ds ++ rest) = Done ((n mod 256)%N, x :: rest).
Proof.
  assert (U : forall s a b, number 16 s a -> number 16 s b -> a = b) by (intros s a b; apply number_unique; discriminate).
  induction ds as [|d ds IH]; intros fuel c m pre h rest n F S L P C N0; (destruct fuel as [|fuel]; [cbn in L; lia|]); cbn [hex app].
  - cbn [at1 bind]. fold (hex_value (at0 rest)). assert (E : hex_value (at0 rest) = None).
    { destruct (hex_value (at0 rest)) as [v|] eqn:B; [|reflexivity]. exfalso. destruct rest as [|r rest]; [discriminate B|].
      apply hex_digit in B. exact (S v B). }
    rewrite E. rewrite app_nil_r in N0. rewrite (U _ _ _ N0 P), C. eexists. reflexivity.
  - cbn [at1 bind at0]. fold (hex_value d). inversion F as [|? ? [v D] F']; subst.
    rewrite (proj2 (hex_digit d v) D). cbn [next bind].
    rewrite lor_digit by (try (right; reflexivity); try (apply N.mod_lt; discriminate); apply D).
    apply (IH fuel _ (16 * m + v)%N (pre ++ [d])); [exact F'|exact S|cbn in L; lia|constructor; assumption|apply mod_step|].
    rewrite <- app_assoc. exact N0.
Qed.

(** ** One character *)

Lemma chunk_octal fuel d t : between "0" "7" d = true ->
  chunk_char fuel ("\"%byte :: d :: t) =
    (let* (c, i) := octal fuel 0 (d :: t) in
     Done (uchar (N.lor ((c * 8) mod 256) (num (at0 i) - num "0")), i)%N).
Proof. intros H. destruct d; try discriminate H; reflexivity. Qed.

Lemma snoc_inv {A} (l : list A) : l = [] \/ exists l' x, l = l' ++ [x].
Proof. destruct l as [|x l] using rev_ind; [left; reflexivity|right; eauto]. Qed.

Lemma chunk_written fuel rest w c : written rest w c -> no_nul (w ++ rest) -> length (w ++ rest) <= fuel ->
  exists x, chunk_char fuel (w ++ rest) = Done (c, x :: rest).
Proof.
  intros W N L. destruct W as [c N1 N2|l c I|ds n c NE D S E|x ds n c X D S E|c N1 N2 N3 N4|c k Q E|].
  - exists c. cbn [app] in *. apply no_nul_cons in N. destruct N as [N _]. destruct c; try reflexivity; first [congruence|destruct (N eq_refl)].
  - exists l. cbn in I. repeat (destruct I as [[= <- <-]|I]; [reflexivity|]). destruct I.
  - destruct (snoc_inv ds) as [->|(ds' & x & ->)]; [congruence|].
    assert (F := number_digits _ _ _ D).
    assert (H : exists d t, ds' ++ x :: rest = d :: t /\ between "0" "7" d = true).
    { destruct ds' as [|d ds']; cbn [app] in *; inversion F as [|? ? V _]; subst; eexists _, _; (split; [reflexivity|apply octal_digit, V]). }
    destruct H as (d & t & H & B). cbn [app]. rewrite <- app_assoc. cbn [app]. rewrite H, chunk_octal by exact B. rewrite <- H.
    inversion D as [Q|ds2 m c2 v D' V Q Q2]; [destruct ds'; discriminate|].
    apply app_inj_tail in Q. destruct Q as [-> ->].
    rewrite (octal_run ds' fuel 0 0 [] x rest m);
      [|exact F|exact S| |constructor|reflexivity|exact D'].
    2: { cbn in L. rewrite !app_length in L. cbn in L. lia. }
    cbn [bind at0]. exists x. f_equal. f_equal. apply uchar_eq.
    assert (V' : (num x - num "0" = v)%N) by (unfold num; change (Byte.to_N "0") with 48%N; destruct V as [V1 V]; lia).
    rewrite V', lor_digit by (try (left; reflexivity); try (apply N.mod_lt; discriminate); apply V).
    rewrite mod_step, N.mod_mod by discriminate. rewrite E, <- Q2. reflexivity.
  - cbn [app]. assert (K : chunk_char fuel ("\"%byte :: x :: ds ++ rest) = (let* (c, i) := hex fuel 0 (x :: ds ++ rest) in Done (uchar c, i)))
      by (destruct X as [-> | ->]; reflexivity).
    rewrite K. destruct (hex_run ds fuel 0 0 [] x rest n) as [y H];
      [exact (number_digits _ _ _ D)|exact S| |constructor|reflexivity|exact D|].
    { cbn in L. rewrite app_length in L. lia. }
    rewrite H. cbn [bind]. exists y. f_equal. f_equal. apply uchar_eq. rewrite E, N.mod_mod by discriminate. reflexivity.
  - exists c. cbn [app] in *. apply no_nul_cons in N. destruct N as [_ N]. apply no_nul_cons in N. destruct N as [N _].
    assert (O : between "0" "7" c = false).
    { destruct (between "0" "7" c) eqn:B; [|reflexivity]. apply octal_digit in B. destruct B as [v B]. destruct (N2 v B). }
    destruct c; try reflexivity; try discriminate O; try congruence; try (destruct (N eq_refl)); exfalso; apply N1; cbn; tauto.
  - exists c. cbn [app] in *. apply no_nul_cons in N. destruct N as [_ N]. apply no_nul_cons in N. destruct N as [N _].
    assert (K : chunk_char fuel ("^"%byte :: c :: rest) = Done (uchar (N.land (num c) 31), c :: rest)).
    { destruct c; try reflexivity; first [congruence|destruct (N eq_refl)]. }
    rewrite K. f_equal. f_equal. apply uchar_eq. change 31%N with (N.ones 5). rewrite N.land_ones. change (2 ^ 5)%N with 32%N.
    rewrite E. unfold num. symmetry. apply N.mod_small. pose proof (N.mod_lt (Byte.to_N c) 32). lia.
  - exists "?"%byte. reflexivity.
Qed.

(** The digits at the start of a string *)
Lemma digits_run base (dec : forall c, {exists v, digit_of base c v} + {forall v, ~ digit_of base c v}) s :
  exists ds rest n, s = ds ++ rest /\ number base ds n /\ stops base rest.
Proof.
  assert (G : forall s1 pre m, number base pre m -> exists ds rest n, s1 = ds ++ rest /\ number base (pre ++ ds) n /\ stops base rest).
  { induction s1 as [|c s0 IH]; intros pre m P.
    - exists [], [], m. rewrite (app_nil_r pre). split; [reflexivity|]. split; [exact P|exact I].
    - destruct (dec c) as [D|D].
      + destruct D as [v D]. destruct (IH (pre ++ [c]) _ (N_snoc _ _ _ _ _ P D)) as (ds & rest & n & -> & Q & S).
        exists (c :: ds), rest, n. rewrite <- app_assoc in Q. cbn in Q. auto.
      + exists [], (c :: s0), m. rewrite (app_nil_r pre). split; [reflexivity|]. split; [exact P|exact D]. }
  exact (G s [] 0%N (N_nil base)).
Qed.
Lemma dec8 c : {exists v, digit_of 8 c v} + {forall v, ~ digit_of 8 c v}.
Proof.
  destruct (between "0" "7" c) eqn:B; [left; apply octal_digit, B|right]. intros v D.
  assert (between "0" "7" c = true) by (apply octal_digit; eauto). congruence.
Qed.
Lemma dec16 c : {exists v, digit_of 16 c v} + {forall v, ~ digit_of 16 c v}.
Proof.
  destruct (hex_value c) as [v|] eqn:B; [left; exists v; apply hex_digit, B|right]. intros v D. apply hex_digit in D. congruence.
Qed.
Lemma byte_of n : exists c, Byte.to_N c = (n mod 256)%N.
Proof.
  destruct (Byte.of_N (n mod 256)) as [c|] eqn:E; [exists c; apply Byte.to_of_N, E|].
  apply Byte.of_N_None_iff in E. pose proof (N.mod_lt n 256). lia.
Qed.
Lemma byte_eq_dec (a b : byte) : {a = b} + {a <> b}.
Proof. destruct (Byte.eqb a b) eqn:E; [left; apply eqb_eq, E|right; apply eqb_neq, E]. Qed.

Lemma progress i : i <> [] -> i = ["\"%byte] \/ i = ["^"%byte] \/ exists w rest c, i = w ++ rest /\ w <> [] /\ written rest w c.
Proof.
  intros NE. destruct i as [|a i]; [congruence|]. destruct (byte_eq_dec a "\") as [->|N1].
  - destruct i as [|l i]; [auto|]. right. right.
    destruct (dec8 l) as [D|D].
    { destruct (digits_run 8 dec8 (l :: i)) as (ds & rest & n & E & D' & S). destruct (byte_of n) as [c C].
      exists ("\"%byte :: ds), rest, c. rewrite E. split; [reflexivity|]. split; [discriminate|].
      apply (W_octal _ _ n); [|exact D'|exact S|exact C].
      intros ->. cbn in E. subst rest. destruct D as [v D]. exact (S v D). }
    destruct (byte_eq_dec l "x") as [X|X]; [|destruct (byte_eq_dec l "X") as [X'|X']].
    1, 2: destruct (digits_run 16 dec16 i) as (ds & rest & n & E & D' & S); destruct (byte_of n) as [c C];
      exists ("\"%byte :: l :: ds), rest, c; rewrite E; (split; [reflexivity|]); (split; [discriminate|]);
      apply (W_hex _ _ _ n); auto.
    destruct (in_dec byte_eq_dec l (map fst letters)) as [I|I].
    + apply in_map_iff in I. destruct I as ([l' c] & Q & I). cbn in Q. subst l'.
      exists ["\"%byte; l], i, c. split; [reflexivity|]. split; [discriminate|]. apply W_letter, I.
    + exists ["\"%byte; l], i, l. split; [reflexivity|]. split; [discriminate|]. apply W_other; assumption.
  - destruct (byte_eq_dec a "^") as [->|N2].
    + destruct i as [|l i]; [auto|]. right. right. destruct (byte_eq_dec l "?") as [->|Q].
      * exists ["^"%byte; "?"%byte], i, x7f. split; [reflexivity|]. split; [discriminate|]. apply W_delete.
      * destruct (byte_of (Byte.to_N l mod 32)) as [k K]. exists ["^"%byte; l], i, k.
        split; [reflexivity|]. split; [discriminate|]. apply W_control; [exact Q|]. rewrite K. apply N.mod_small.
        pose proof (N.mod_lt (Byte.to_N l) 32). lia.
    + right. right. exists [a], i, a. split; [reflexivity|]. split; [discriminate|]. apply W_plain; assumption.
Qed.

Lemma written_nonempty rest w c : written rest w c -> w <> [].
Proof. destruct 1; discriminate. Qed.

(** ** Text *)
Section Text.
  Variable fin : byte.
  Hypothesis Fin : fin = "="%byte \/ fin = ":"%byte.

  Lemma fin_nul : Byte.eqb fin NUL = false.
  Proof. destruct Fin as [-> | ->]; reflexivity. Qed.

  Lemma loop_text i v after : text fin i v after -> no_nul i ->
    forall fuel str, length i < fuel -> unescape_loop fuel str i fin = Done (str ++ v, after).
  Proof.
    induction 1 as [|rest|w c rest v after H W T IH]; intros N fuel str L; (destruct fuel as [|fuel]; [lia|]); cbn [unescape_loop].
    - cbn. rewrite app_nil_r. reflexivity.
    - cbn [at0]. rewrite fin_nul, eqb_refl, app_nil_r. reflexivity.
    - assert (NE := written_nonempty _ _ _ W). destruct w as [|a w]; [congruence|].
      destruct (chunk_written (S fuel) rest (a :: w) c W N) as [x X]; [lia|].
      assert (A : at0 ((a :: w) ++ rest) = a) by reflexivity. rewrite A.
      assert (a <> NUL) by (cbn [app] in N; apply no_nul_cons in N; tauto).
      assert (E1 : Byte.eqb a NUL = false) by (apply eqb_neq; assumption).
      assert (E2 : Byte.eqb a fin = false) by (apply eqb_neq; cbn in H; congruence).
      rewrite E1, E2, X. cbn [bind next]. rewrite IH.
      + rewrite <- app_assoc. reflexivity.
      + apply no_nul_app in N. tauto.
      + cbn in L. rewrite app_length in L. lia.
  Qed.

  Lemma loop_total n : forall i, length i <= n -> no_nul i ->
    (exists v after, text fin i v after) \/ (forall fuel str, length i < fuel -> unescape_loop fuel str i fin = Invalid).
  Proof.
    induction n as [|n IH]; intros i L N.
    - destruct i; [|cbn in L; lia]. left. exists [], None. constructor.
    - destruct i as [|a i]; [left; exists [], None; constructor|].
      destruct (byte_eq_dec a fin) as [->|NF]; [left; exists [], (Some i); constructor|].
      assert (E2 : Byte.eqb a fin = false) by (apply eqb_neq; assumption).
      assert (E1 : Byte.eqb a NUL = false) by (apply eqb_neq; apply no_nul_cons in N; tauto).
      destruct (progress (a :: i)) as [E|[E|(w & rest & c & E & NE & W)]]; [discriminate| | |].
      + injection E as -> ->. right. intros [|fuel] str Lf; [cbn in Lf; lia|]. cbn [unescape_loop at0]. rewrite E1, E2. reflexivity.
      + injection E as -> ->. right. intros [|fuel] str Lf; [cbn in Lf; lia|]. cbn [unescape_loop at0]. rewrite E1, E2. reflexivity.
      + rewrite E in *. assert (Lr : length (w ++ rest) = length w + length rest) by apply app_length.
        assert (0 < length w) by (destruct w; [congruence|cbn; lia]).
        destruct (IH rest) as [(v & after & T)|I]; [lia|apply no_nul_app in N; tauto| |].
        * left. exists (c :: v), after. constructor; [|exact W|exact T].
          destruct w as [|b w]; [congruence|]. injection E as <- _. cbn. congruence.
        * right. intros [|fuel] str Lf; [lia|]. cbn [unescape_loop].
          destruct (chunk_written (S fuel) rest w c W N) as [x X]; [lia|]. assert (Lf2 : length rest < fuel) by lia. rewrite <- E in *. cbn [at0]. rewrite E1, E2, X.
          cbn [bind next]. apply I, Lf2.
  Qed.

  Lemma unescape_ok i v after : no_nul i -> (unescape (Some i) fin = Done (v, after) <-> text fin i v after).
  Proof.
    intros N. unfold unescape. split.
    - intros H. destruct (loop_total (length i) i (le_n _) N) as [(v' & after' & T)|I].
      + rewrite (loop_text _ _ _ T N) in H by lia. injection H as <- <-. exact T.
      + rewrite I in H by lia. discriminate.
    - intros T. apply (loop_text _ _ _ T N). lia.
  Qed.
  Lemma unescape_invalid i : no_nul i -> (unescape (Some i) fin = Invalid <-> forall v after, ~ text fin i v after).
  Proof.
    intros N. split.
    - intros H v after T. apply (unescape_ok _ _ _ N) in T. congruence.
    - intros H. unfold unescape. destruct (loop_total (length i) i (le_n _) N) as [(v' & after' & T)|I].
      + destruct (H _ _ T).
      + apply I. lia.
  Qed.
  Lemma unescape_cases i : no_nul i -> unescape (Some i) fin = Invalid \/
    exists v after, unescape (Some i) fin = Done (v, after) /\ text fin i v after.
  Proof.
    intros N. destruct (loop_total (length i) i (le_n _) N) as [(v' & after' & T)|I].
    - right. exists v', after'. split; [apply unescape_ok; assumption|exact T].
    - left. unfold unescape. apply I. lia.
  Qed.

  Lemma text_rest i v rest : text fin i v (Some rest) -> no_nul i -> no_nul rest /\ length rest < length i.
  Proof.
    remember (Some rest) as after eqn:E. induction 1 as [|r|w c r v after H W T IH]; intros N; [discriminate| |].
    - injection E as ->. apply no_nul_cons in N. cbn. split; [tauto|lia].
    - apply no_nul_app in N. destruct (IH E) as [A B]; [tauto|]. split; [exact A|]. rewrite app_length. lia.
  Qed.

  Lemma written_more rest w c more : stops 8 more -> stops 16 more -> written rest w c -> written (rest ++ more) w c.
  Proof.
    intros S8 S16. assert (St : forall b, stops b rest -> stops b more -> stops b (rest ++ more)) by (intros b A B; destruct rest; assumption).
    destruct 1.
    - apply W_plain; assumption.
    - apply W_letter; assumption.
    - eapply W_octal; eauto.
    - eapply W_hex; eauto.
    - apply W_other; assumption.
    - apply W_control; assumption.
    - apply W_delete.
  Qed.
  Lemma text_followed i v : text fin i v None -> forall rest, text fin (i ++ fin :: rest) v (Some rest).
  Proof.
    remember None as after eqn:E. induction 1 as [|r|w c r v after H W T IH]; intros rest; [constructor|discriminate|].
    rewrite <- app_assoc. constructor; [exact H| |apply IH, E].
    apply written_more; [| |exact W]; cbn; destruct Fin as [-> | ->]; intros u [D1 D2]; try change (Byte.to_N "=") with 61%N in D2; try change (Byte.to_N ":") with 58%N in D2; lia.
  Qed.
End Text.

(** ** Settings *)
Lemma equals_fin : "="%byte = "="%byte \/ "="%byte = ":"%byte.
Proof. left. reflexivity. Qed.
Lemma colon_fin : ":"%byte = "="%byte \/ ":"%byte = ":"%byte.
Proof. right. reflexivity. Qed.

Definition apply_item (c : colors) (i : item) : colors :=
  match i with Ext k v => set_ext c k v | Color n v => set_esc c n (esc_of n v) end.

Lemma cut_ok name v : ~ In "="%byte name -> cut (name ++ "="%byte :: v) = Some (name, v).
Proof.
  induction name as [|c name IH]; intros H; cbn [app cut]; [rewrite eqb_refl; reflexivity|].
  cbn in H. assert (E : Byte.eqb c "=" = false) by (apply eqb_neq; intros ->; tauto). rewrite E, IH by tauto. reflexivity.
Qed.
Lemma cut_len s : forall k v, cut s = Some (k, v) -> s = k ++ "="%byte :: v.
Proof.
  induction s as [|c s IH]; cbn [cut]; intros k v H; [discriminate|].
  destruct (Byte.eqb c "=") eqn:E; [injection H as <- <-; apply eqb_eq in E; subst; reflexivity|].
  destruct (cut s) as [[k' v']|]; [|discriminate]. injection H as <- <-. cbn. rewrite (IH _ _ eq_refl). reflexivity.
Qed.

(** One step of the loop.  [more] is what follows the setting. *)
Definition tail (more : option (list byte)) : list byte := match more with Some m => ":"%byte :: m | None => [] end.
Lemma text_tail v value more : text ":" v value None -> text ":" (v ++ tail more) value more.
Proof. intros T. destruct more as [m|]; cbn [tail]; [apply text_followed; [exact colon_fin|exact T]|rewrite app_nil_r; exact T]. Qed.

Lemma step_item s i more fuel c : spelled s i -> no_nul (s ++ tail more) ->
  parse_loop (S fuel) c (Some (s ++ tail more)) = parse_loop fuel (apply_item c i) more.
Proof.
  intros Sp N. destruct Sp as [k key v value K V|name v value N1 N2 N3 V]; cbn [parse_loop].
  - cbn [app at0 next bind]. rewrite eqb_refl. rewrite <- app_assoc. cbn [app].
    assert (N' : no_nul (k ++ "="%byte :: v ++ tail more)).
    { cbn [app] in N. apply no_nul_cons in N. rewrite <- app_assoc in N. exact (proj2 N). }
    assert (T := text_followed "=" equals_fin k key K (v ++ tail more)).
    rewrite (proj2 (unescape_ok _ equals_fin _ _ _ N') T). cbn [bind].
    apply no_nul_app in N'. destruct N' as [_ N']. apply no_nul_cons in N'.
    rewrite (proj2 (unescape_ok _ colon_fin _ _ _ (proj2 N')) (text_tail _ _ _ V)). reflexivity.
  - rewrite <- app_assoc in *. cbn [app] in *.
    assert (E : Byte.eqb (at0 (name ++ "="%byte :: v ++ tail more)) "*" = false).
    { apply eqb_neq. destruct name as [|a name]; cbn in *; [discriminate|congruence]. }
    rewrite E, cut_ok by exact N1. apply no_nul_app in N. destruct N as [_ N]. apply no_nul_cons in N.
    rewrite (proj2 (unescape_ok _ colon_fin _ _ _ (proj2 N)) (text_tail _ _ _ V)). reflexivity.
Qed.

Lemma parse_end fuel c : parse_loop (S fuel) c (Some []) = Done c.
Proof. reflexivity. Qed.

Lemma spelled_nonempty s i : spelled s i -> 0 < length s.
Proof. destruct 1; cbn; rewrite ?app_length; cbn; lia. Qed.

(** [last] is [None], or the empty string after a colon at the end *)
Lemma parse_items ss items : Forall2 spelled ss items -> forall last c fuel, last = None \/ last = Some [] ->
  ss <> [] -> no_nul (joined ss ++ tail last) -> length (joined ss) + 1 < fuel ->
  parse_loop fuel c (Some (joined ss ++ tail last)) = Done (fold_left apply_item items c).
Proof.
  induction 1 as [|s i ss items Sp F IH]; intros last c fuel La NE N L; [congruence|].
  assert (Ls := spelled_nonempty _ _ Sp). destruct fuel as [|fuel]; [lia|].
  destruct ss as [|s2 ss].
  - inversion F; subst. cbn [joined] in *. rewrite (step_item _ _ _ _ _ Sp N). cbn [fold_left].
    destruct fuel as [|fuel]; [lia|]. destruct La as [-> | ->]; reflexivity.
  - assert (J : joined (s :: s2 :: ss) = s ++ ":"%byte :: joined (s2 :: ss)) by reflexivity. rewrite J in *.
    assert (A : (s ++ ":"%byte :: joined (s2 :: ss)) ++ tail last = s ++ tail (Some (joined (s2 :: ss) ++ tail last)))
      by (rewrite <- app_assoc; reflexivity).
    rewrite A in *. rewrite (step_item _ _ _ _ _ Sp N). cbn [fold_left]. apply IH; [exact La|discriminate| |].
    + apply no_nul_app in N. destruct N as [_ N]. cbn [tail] in N. apply no_nul_cons in N. tauto.
    + rewrite app_length in L. cbn [length] in L. lia.
Qed.

Lemma parse_variable s items c : variable s items -> (forall t, s = Some t -> no_nul t) ->
  parse_gnu_ls_colors c s = Done (fold_left apply_item items c).
Proof.
  destruct s as [s|]; cbn [variable]; intros V N; [|subst; reflexivity].
  destruct V as (ss & F & E). specialize (N s eq_refl). unfold parse_gnu_ls_colors. destruct ss as [|s1 ss].
  - inversion F; subst. destruct E as [->|[E _]]; [reflexivity|congruence].
  - destruct E as [->|[_ ->]].
    + rewrite <- (app_nil_r (joined (s1 :: ss))) in N |- *. apply (parse_items _ _ F None); [left; reflexivity|discriminate|exact N|].
      rewrite app_nil_r. lia.
    + apply (parse_items _ _ F (Some [])); [right; reflexivity|discriminate|exact N|]. rewrite app_length. cbn. lia.
Qed.

(** ** The table *)
Lemma get_update_same tab name v : In name (map fst tab) -> get_esc (update tab name v) name = Some v.
Proof.
  induction tab as [|[n old] tab IH]; cbn [map update get_esc]; intros H; [destruct H|].
  destruct (equal n name) eqn:E; cbn [get_esc]; rewrite E; [reflexivity|]. apply IH.
  destruct H as [H|H]; [|exact H]. cbn in H. apply equal_neq in E. congruence.
Qed.
Lemma get_update_other tab name n v : n <> name -> get_esc (update tab n v) name = get_esc tab name.
Proof.
  intros H. induction tab as [|[m old] tab IH]; cbn [update get_esc]; [reflexivity|].
  destruct (equal m n) eqn:E; cbn [get_esc].
  - apply equal_eq in E. subst m. apply equal_neq in H. rewrite H. reflexivity.
  - rewrite IH. reflexivity.
Qed.
Lemma update_names tab name v : map fst (update tab name v) = map fst tab.
Proof.
  induction tab as [|[m old] tab IH]; cbn [update map]; [reflexivity|].
  destruct (equal m name); cbn [map]; [reflexivity|]. rewrite IH. reflexivity.
Qed.
Lemma all_zero_ok v : all_zero v = true <-> Forall (eq "0"%byte) v.
Proof. unfold all_zero. rewrite forallb_forall, Forall_forall. split; intros H x I; apply eqb_eq, H, I. Qed.

Lemma fold_names items : forall c, map fst (names (fold_left apply_item items c)) = map fst (names c).
Proof.
  induction items as [|i items IH]; intros c; cbn [fold_left]; [reflexivity|]. rewrite IH.
  destruct i; cbn [apply_item set_esc set_ext names]; [reflexivity|apply update_names].
Qed.
Lemma fold_exts items : forall c, exts (fold_left apply_item items c) = exts c ++ extensions items.
Proof.
  induction items as [|i items IH]; intros c; cbn [fold_left]; [rewrite app_nil_r; reflexivity|]. rewrite IH.
  unfold extensions. destruct i; cbn [apply_item set_esc set_ext exts flat_map app]; [rewrite <- app_assoc|]; reflexivity.
Qed.
Lemma fold_link items : forall c, link_as_target (fold_left apply_item items c) = link_as_target c.
Proof. induction items as [|i items IH]; intros c; cbn [fold_left]; [reflexivity|]. rewrite IH. destruct i; reflexivity. Qed.

Lemma esc_of_ok name v : esc_of name v = None /\ Forall (eq "0"%byte) v /\ ~ In name codes \/
  esc_of name v = Some v /\ (~ Forall (eq "0"%byte) v \/ In name codes).
Proof.
  unfold esc_of. rewrite <- all_zero_ok. destruct (all_zero v); cbn [andb].
  2: { right. split; [reflexivity|]. left. discriminate. }
  unfold codes. cbn [map In].
  destruct (equal name (bytes "rs")) eqn:E1; [right; split; [reflexivity|]; right; apply equal_eq in E1; auto|].
  destruct (equal name (bytes "lc")) eqn:E2; [right; split; [reflexivity|]; right; apply equal_eq in E2; auto|].
  destruct (equal name (bytes "rc")) eqn:E3; [right; split; [reflexivity|]; right; apply equal_eq in E3; auto|].
  destruct (equal name (bytes "ec")) eqn:E4; [right; split; [reflexivity|]; right; apply equal_eq in E4; auto 6|].
  apply equal_neq in E1, E2, E3, E4. left. split; [reflexivity|]. split; [reflexivity|]. intuition congruence.
Qed.

Lemma fold_setting name d items : forall c, get_esc (names c) name = Some d ->
  exists v, get_esc (names (fold_left apply_item items c)) name = Some v /\ setting name d items v.
Proof.
  induction items as [|i items IH] using rev_ind; intros c G; [exists d; split; [exact G|constructor]|].
  destruct (IH c G) as (v & Gv & Sv). rewrite fold_left_app. cbn [fold_left].
  set (c' := fold_left apply_item items c) in *. destruct i as [k x|n x]; cbn [apply_item set_ext set_esc names].
  - exists v. split; [exact Gv|constructor; exact Sv].
  - destruct (equal n name) eqn:E.
    + apply equal_eq in E. subst n. exists (esc_of name x). split.
      * apply get_update_same. clear - Gv. induction (names c') as [|[m old] tab IH]; cbn in *; [discriminate|].
        destruct (equal m name) eqn:E; [left; apply equal_eq, E|right; apply IH, Gv].
      * destruct (esc_of_ok name x) as [(E & Z & C)|(E & Z)]; rewrite E; [apply Set_zero|apply Set_this]; assumption.
    + apply equal_neq in E. exists v. split; [rewrite get_update_other by exact E; exact Gv|]. apply Set_other; assumption.
Qed.

(** The three parts of the reset sequence are never null. *)
Definition parts (c : colors) : Prop :=
  forall name, In name (map bytes ["lc"; "rs"; "rc"]%string) -> exists v, get_esc (names c) name = Some (Some v).
Lemma in_codes name : In name (map bytes ["lc"; "rs"; "rc"]%string) -> In name codes.
Proof. cbn. tauto. Qed.
Lemma parts_initial : parts (mkColors initial [] false).
Proof. intros name [<-|[<-|[<-|[]]]]; eexists; reflexivity. Qed.
Lemma parts_esc c n v : parts c -> parts (set_esc c n (esc_of n v)).
Proof.
  intros P name I. destruct (P name I) as [w G]. cbn [set_esc names]. destruct (equal n name) eqn:E.
  - apply equal_eq in E. subst n. rewrite get_update_same.
    + destruct (esc_of_ok name v) as [(_ & _ & C)|(E & _)]; [destruct (C (in_codes _ I))|rewrite E; eauto].
    + clear - G. induction (names c) as [|[m old] tab IH]; cbn in *; [discriminate|].
      destruct (equal m name) eqn:E; [left; apply equal_eq, E|right; apply IH, G].
  - apply equal_neq in E. rewrite get_update_other by exact E. eauto.
Qed.
Lemma parts_ext c k v : parts c -> parts (set_ext c k v).
Proof. intros P. exact P. Qed.
Lemma parts_items items : forall c, parts c -> parts (fold_left apply_item items c).
Proof. induction items as [|[] items IH]; intros c P; cbn [fold_left apply_item]; [exact P| |]; apply IH; [apply parts_ext|apply parts_esc]; exact P. Qed.

Lemma neq_names a b : equal (bytes a) (bytes b) = false -> bytes a <> bytes b.
Proof. apply equal_neq. Qed.

Lemma finish_safe c : parts c -> exists c', finish c = Done c'.
Proof.
  intros P. unfold finish.
  assert (K : forall c', parts c' -> exists c'',
    match field c' "ec" with
    | Some _ => Done c'
    | None =>
        let* lc := used (field c' "lc") in
        let* rs := used (field c' "rs") in
        let* rc := used (field c' "rc") in
        Done (set_esc c' (bytes "ec") (Some (lc ++ rs ++ rc)))
    end = Done c'').
  { intros c' P'. destruct (field c' "ec"); [eauto|]. unfold field.
    destruct (P' (bytes "lc")) as [a A]; [cbn; auto|]. destruct (P' (bytes "rs")) as [b B]; [cbn; auto|].
    destruct (P' (bytes "rc")) as [d D]; [cbn; auto|]. rewrite A, B, D. cbn. eauto. }
  destruct (field c "ln") as [v|]; [|apply K, P]. destruct (equal v (bytes "target")); [|apply K, P].
  apply K. intros name I. cbn [names]. destruct (P name I) as [w G]. rewrite get_update_other; [eauto|].
  destruct I as [<-|[<-|[<-|[]]]]; apply neq_names; reflexivity.
Qed.

Lemma get_initial name d : In (name, d) initial -> get_esc initial name = Some d.
Proof.
  intros I. unfold initial in *. cbn [map] in I. cbn [map fst snd] in *.
  repeat (destruct I as [[= <- <-]|I]; [reflexivity|]). destruct I.
Qed.

Lemma finish_colored items c' : finish (fold_left apply_item items (mkColors initial [] false)) = Done c' -> colored items c'.
Proof.
  remember (fold_left apply_item items (mkColors initial [] false)) as c eqn:C. intros F.
  assert (P : parts c) by (subst; apply parts_items, parts_initial).
  assert (St : forall name d, In (name, d) initial -> exists v, get_esc (names c) name = Some v /\ setting name d items v).
  { intros name d I. subst c. apply fold_setting. cbn [names]. apply get_initial, I. }
  assert (Nm : map fst (names c) = map fst initial) by (subst c; rewrite fold_names; reflexivity).
  assert (Ex : exts c = extensions items) by (subst c; rewrite fold_exts; reflexivity).
  assert (Lk : link_as_target c = false) by (subst c; rewrite fold_link; reflexivity).
  clear C. unfold finish in F. cbv zeta in F.
  set (d := match field c "ln" with
            | Some v => if equal v (bytes "target") then mkColors (update (names c) (bytes "ln") (Some [])) (exts c) true else c
            | None => c end) in *.
  assert (Ln : In (bytes "ln", Some (bytes "01;36")) initial) by (unfold initial; cbn; tauto).
  assert (Ie : In (bytes "ec", None) initial) by (unfold initial; cbn; tauto).
  destruct (St _ _ Ln) as (l & Gl & Sl). destruct (St _ _ Ie) as (e & Ge & Se).
  assert (D : (forall name, name <> bytes "ln" -> get_esc (names d) name = get_esc (names c) name) /\
              exts d = exts c /\ map fst (names d) = map fst (names c) /\
              (l = Some (bytes "target") /\ get_esc (names d) (bytes "ln") = Some (Some []) /\ link_as_target d = true \/
               l <> Some (bytes "target") /\ get_esc (names d) (bytes "ln") = Some l /\ link_as_target d = false)).
  { subst d. unfold field. rewrite Gl. destruct l as [l|].
    - destruct (equal l (bytes "target")) eqn:E.
      + apply equal_eq in E. subst l. cbn [names exts link_as_target]. repeat split.
        * intros name H. apply get_update_other. congruence.
        * apply update_names.
        * left. repeat split. apply get_update_same. rewrite Nm. apply (in_map fst) in Ln. exact Ln.
      + apply equal_neq in E. repeat split. right. repeat split; [congruence|exact Gl|exact Lk].
    - repeat split. right. repeat split; [discriminate|exact Gl|exact Lk]. }
  destruct D as (Dn & De & Dm & Dl). clearbody d.
  assert (Pd : parts d).
  { intros name I. rewrite Dn; [apply P, I|]. destruct I as [<-|[<-|[<-|[]]]]; apply neq_names; reflexivity. }
  assert (Ged : get_esc (names d) (bytes "ec") = Some e) by (rewrite Dn; [exact Ge|apply neq_names; reflexivity]).
  unfold field in F. rewrite Ged in F. destruct e as [e|].
  - injection F as <-. constructor.
    + intros name v I N1 N2. rewrite Dn by exact N1. apply St, I.
    + exists (Some (bytes "01;36")), l. auto.
    + exists (Some e). split; [exact Se|]. left. split; [discriminate|exact Ged].
    + congruence.
    + congruence.
  - destruct (Pd (bytes "lc")) as [x X]; [cbn; auto|]. destruct (Pd (bytes "rs")) as [y Y]; [cbn; auto|].
    destruct (Pd (bytes "rc")) as [z Z]; [cbn; auto|]. rewrite X, Y, Z in F. cbn [used bind] in F. injection F as <-.
    assert (O : forall name, name <> bytes "ec" -> get_esc (names (set_esc d (bytes "ec") (Some (x ++ y ++ z)))) name = get_esc (names d) name)
      by (intros name H; apply get_update_other; congruence).
    constructor.
    + intros name v I N1 N2. rewrite O by exact N2. rewrite Dn by exact N1. apply St, I.
    + exists (Some (bytes "01;36")), l. rewrite O by (apply neq_names; reflexivity). auto.
    + exists None. split; [exact Se|]. right. split; [reflexivity|]. exists x, y, z.
      rewrite !O by (apply neq_names; reflexivity). split; [exact X|]. split; [exact Y|]. split; [exact Z|].
      apply get_update_same. rewrite Dm, Nm. apply (in_map fst) in Ie. exact Ie.
    + cbn [set_esc names]. rewrite update_names. congruence.
    + cbn [set_esc exts]. congruence.
Qed.

Lemma colors_ok ls bfs L B : (forall t, ls = Some t -> no_nul t) -> (forall t, bfs = Some t -> no_nul t) ->
  variable ls L -> variable bfs B -> exists c, parse_colors ls bfs = Done c /\ colored (L ++ B) c.
Proof.
  intros N1 N2 V1 V2. unfold parse_colors. rewrite (parse_variable _ _ _ V1 N1). cbn [bind].
  rewrite (parse_variable _ _ _ V2 N2). cbn [bind]. rewrite <- fold_left_app.
  destruct (finish_safe (fold_left apply_item (L ++ B) (mkColors initial [] false))) as [c F]; [apply parts_items, parts_initial|].
  exists c. split; [exact F|]. apply finish_colored, F.
Qed.

(** ** Any string *)
Lemma loop_any n : forall s c fuel, length s < n -> n <= fuel -> no_nul s -> parts c ->
  parse_loop (S fuel) c (Some s) = Invalid \/ exists items, parse_loop (S fuel) c (Some s) = Done (fold_left apply_item items c).
Proof.
  induction n as [|n IH]; intros s c fuel L Lf N P; [lia|]. destruct fuel as [|fuel]; [lia|].
  assert (K : forall i r, no_nul r -> length r < length s ->
    (let* (value, m) := unescape (Some r) ":" in parse_loop (S fuel) (apply_item c (i value)) m) = Invalid \/
    exists items, (let* (value, m) := unescape (Some r) ":" in parse_loop (S fuel) (apply_item c (i value)) m) = Done (fold_left apply_item items c)).
  { intros i r Nr Lr. destruct (unescape_cases _ colon_fin r Nr) as [E|(v & after & E & T)]; rewrite E; cbn [bind]; [left; reflexivity|].
    destruct after as [r'|].
    - destruct (text_rest _ colon_fin _ _ _ T Nr) as [N' L'].
      assert (P' : parts (apply_item c (i v))) by (destruct (i v); [apply parts_ext|apply parts_esc]; exact P).
      destruct (IH r' (apply_item c (i v)) fuel) as [A|[items A]]; [lia|lia|exact N'|exact P'|left; exact A|].
      right. exists (i v :: items). exact A.
    - right. exists [i v]. reflexivity. }
  cbn [parse_loop]. destruct (Byte.eqb (at0 s) "*") eqn:S0.
  - destruct s as [|a s]; [discriminate|]. cbn [next bind]. apply no_nul_cons in N. destruct N as [_ N].
    destruct (unescape_cases _ equals_fin s N) as [E|(k & after & E & T)]; rewrite E; cbn [bind]; [left; reflexivity|].
    destruct after as [r|]; [|left; reflexivity].
    destruct (text_rest _ equals_fin _ _ _ T N) as [N' L'].
    apply (K (Ext k) r); [exact N'|cbn; lia].
  - destruct (cut s) as [[k r]|] eqn:C; [|right; exists []; reflexivity].
    apply cut_len in C. apply (K (Color k) r).
    + subst s. apply no_nul_app in N. destruct N as [_ N]. apply no_nul_cons in N. tauto.
    + rewrite C, app_length. cbn. lia.
Qed.
Lemma parse_any s c : (forall t, s = Some t -> no_nul t) -> parts c ->
  parse_gnu_ls_colors c s = Invalid \/ exists items, parse_gnu_ls_colors c s = Done (fold_left apply_item items c).
Proof.
  intros N P. destruct s as [s|]; [|right; exists []; reflexivity]. unfold parse_gnu_ls_colors.
  apply (loop_any (S (length s))); auto.
Qed.
Lemma colors_safe ls bfs : (forall t, ls = Some t -> no_nul t) -> (forall t, bfs = Some t -> no_nul t) ->
  parse_colors ls bfs = Invalid \/ exists c items, parse_colors ls bfs = Done c /\ colored items c.
Proof.
  intros N1 N2. unfold parse_colors. destruct (parse_any ls _ N1 parts_initial) as [E|[L E]]; rewrite E; cbn [bind]; [auto|].
  destruct (parse_any bfs (fold_left apply_item L (mkColors initial [] false)) N2) as [F|[B F]];
    [apply parts_items, parts_initial| |]; rewrite F; cbn [bind]; [auto|].
  rewrite <- fold_left_app. right.
  destruct (finish_safe (fold_left apply_item (L ++ B) (mkColors initial [] false))) as [c G]; [apply parts_items, parts_initial|].
  exists c, (L ++ B). split; [exact G|]. apply finish_colored, G.
Qed.

(** Colors are determined by the settings. *)
Lemma snoc_eq {A} (l l' : list A) x y : l ++ [x] = l' ++ [y] -> l = l' /\ x = y.
Proof. apply app_inj_tail. Qed.
Lemma setting_unique name d items v w : setting name d items v -> setting name d items w -> v = w.
Proof.
  intros H. revert w.
  induction H as [d|d k x items r H IH|d n x items r Ne H IH|d x items Z C|d x items Z]; intros w K;
    inversion K as [d2 Q1 Q2|d2 k2 x2 items2 r2 K2 Q1 Q2|d2 n2 x2 items2 r2 Ne2 K2 Q1 Q2|d2 x2 items2 Z2 C2 Q1 Q2|d2 x2 items2 Z2 Q1 Q2]; subst;
    try reflexivity;
    try (match goal with Q : [] = _ ++ [_] |- _ => symmetry in Q | _ => idtac end;
         match goal with Q : ?l ++ [_] = [] |- _ => destruct l; discriminate end);
    match goal with Q : _ ++ [_] = _ ++ [_] |- _ => apply app_inj_tail in Q; destruct Q as [? Q] end;
    try discriminate; subst; auto;
    match goal with Q : Color _ _ = Color _ _ |- _ => injection Q; intros; subst | Q : Ext _ _ = Ext _ _ |- _ => idtac end;
    try congruence; auto; tauto.
Qed.

Lemma empty_refuted : exists s items c, c_string s /\ with_empty s items /\
  parse_colors (Some s) None = Done c /\ ~ colored items c.
Proof.
  set (s := bytes "ex=31::di=32"). set (items := [Color (bytes "ex") (bytes "31"); Color (bytes "di") (bytes "32")]).
  destruct (parse_colors (Some s) None) as [c| | |] eqn:E; try (vm_compute in E; discriminate E).
  exists s, items, c. split; [intros H; vm_compute in H; intuition discriminate|]. split.
  { exists [bytes "ex=31"; []; bytes "di=32"]. split; [|reflexivity].
    assert (T : forall a b, a <> "\"%byte -> a <> "^"%byte -> a <> ":"%byte -> b <> "\"%byte -> b <> "^"%byte -> b <> ":"%byte -> text ":" [a; b] [a; b] None).
    { intros a b A1 A2 A3 B1 B2 B3. apply (T_char ":" [a] a [b]); [cbn; congruence|constructor; assumption|].
      apply (T_char ":" [b] b []); [cbn; congruence|constructor; assumption|constructor]. }
    cbn [filter bytes list_byte_of_string]. constructor; [|constructor; [|constructor]].
    - apply (S_color (bytes "ex") (bytes "31")); [cbn; intuition discriminate|cbn; intuition discriminate|discriminate|].
      apply T; discriminate.
    - apply (S_color (bytes "di") (bytes "32")); [cbn; intuition discriminate|cbn; intuition discriminate|discriminate|].
      apply T; discriminate. }
  split; [exact E|]. intros [P _ _ _ _].
  destruct (P (bytes "di") (Some (bytes "01;34"))) as (v & G & St); [unfold initial; cbn; tauto|discriminate|discriminate|].
  assert (V : v = Some (bytes "32")).
  { apply (setting_unique _ _ _ _ _ St). apply (Set_this _ _ (bytes "32") [Color (bytes "ex") (bytes "31")]).
    left. intros F. inversion F. discriminate. }
  assert (W : match parse_colors (Some s) None with Done c => get_esc (names c) (bytes "di") = Some (Some (bytes "01;34")) | _ => True end)
    by (vm_compute; reflexivity).
  rewrite E in W. rewrite G, V in W. discriminate W.
Qed.
