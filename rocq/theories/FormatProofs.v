(** * -printf formats: proofs *)
From Coq Require Import List ZArith NArith Arith Bool Lia.
From Coq Require Import ZifyBool ZifyNat ZifyN.
From Coq Require Import Init.Byte Strings.Byte.
From Verif Require Import NumSpec.
From Verif Require Import FormatModel FormatSpec.
Import ListNotations.

(** ** Characters *)
Lemma octal_digit c : is_octal c = true <-> is_digit_of 8 c.
Proof. unfold is_octal, is_digit_of, num. lia. Qed.
Lemma decimal_digit c : is_decimal c = true <-> is_digit_of 10 c.
Proof. unfold is_decimal, is_digit_of, num. lia. Qed.

Lemma num_chr n : num (chr n) = (n mod 256)%N.
Proof.
  unfold chr, num. pose proof (Byte.of_N_None_iff (n mod 256)) as H. pose proof (N.mod_lt n 256 ltac:(lia)) as L.
  destruct (Byte.of_N (n mod 256)) as [c|] eqn:E; [now apply Byte.to_of_N_iff in E|]. apply H in E || (destruct H as (H & _); specialize (H eq_refl)). lia.
Qed.
Lemma chr_num c : chr (num c) = c.
Proof. destruct c; reflexivity. Qed.
Lemma chr_mod n : chr (n mod 256) = chr n.
Proof. unfold chr. now rewrite N.mod_mod by lia. Qed.

(** ** Octal escapes *)
Definition oct (c : byte) (ds : list byte) : N := fold_left (fun n d => n * 8 + (num d - 48))%N ds (num c).
Lemma octal_loop : forall ds j c s, (length ds <= j)%nat -> Forall (is_digit_of 8) ds ->
  (length ds < j -> match s with c :: _ => ~ is_digit_of 8 c | [] => True end)%nat ->
  octal_escape j c (ds ++ s) = (chr (oct c ds), s).
Proof.
  induction ds as [|d ds IH]; intros j c s L F M; cbn [app length] in *.
  - unfold oct. cbn [fold_left]. rewrite chr_num. destruct j as [|j]; [reflexivity|]. destruct s as [|x s]; [reflexivity|]. cbn [octal_escape].
    specialize (M ltac:(lia)). rewrite <- octal_digit in M. destruct (is_octal x); [exfalso; auto|reflexivity].
  - destruct j as [|j]; [lia|]. cbn [octal_escape]. inversion F as [|? ? F1 F2]; subst. apply octal_digit in F1. rewrite F1.
    rewrite IH; [|lia|assumption|intros; apply M; lia]. f_equal.
    rewrite <- chr_mod, <- (chr_mod (oct c (d :: ds))). f_equal. unfold oct. cbn [fold_left]. rewrite !num_chr.
    assert (G : forall l a b, (a mod 256 = b mod 256)%N -> (fold_left (fun n d => n * 8 + (num d - 48)) l a mod 256 = fold_left (fun n d => n * 8 + (num d - 48)) l b mod 256)%N).
    { clear. induction l as [|x l IH]; intros a b E; cbn [fold_left]; [exact E|]. apply IH.
      rewrite (N.add_mod (a * 8)), (N.add_mod (b * 8)) by lia. rewrite (N.mul_mod a), (N.mul_mod b) by lia. now rewrite E. }
    apply G. rewrite N.mod_mod by lia. rewrite (N.add_mod (_ mod 256)) by lia. rewrite N.mod_mod by lia. symmetry. apply N.add_mod. lia.
Qed.

Lemma oct_value ds : Forall (is_digit_of 8) ds -> Z.of_N (oct x00 ds) = NumSpec.value 8 ds.
Proof.
  assert (G : forall l a, Forall (is_digit_of 8) l -> Z.of_N (fold_left (fun n d => n * 8 + (num d - 48)) l a)%N = (Z.of_N a * 8 ^ Z.of_nat (length l) + NumSpec.value 8 l)%Z).
  { induction l as [|d l IH]; intros a F; cbn [fold_left NumSpec.value length]; [rewrite Z.pow_0_r; lia|]. inversion F as [|? ? F1 F2]; subst. rewrite IH by assumption.
    unfold is_digit_of, digit_value, num in *. rewrite Nat2Z.inj_succ, Z.pow_succ_r by lia.
    assert (E : Z.of_N (a * 8 + (Byte.to_N d - 48)) = (Z.of_N a * 8 + (Z.of_N (Byte.to_N d) - 48))%Z) by lia. rewrite E. ring. }
  intros F. unfold oct. rewrite G by exact F. change (Z.of_N (num x00)) with 0%Z. lia.
Qed.

Lemma octal_byte_ok ds : Forall (is_digit_of 8) ds -> chr (oct x00 ds) = octal_byte ds.
Proof.
  intros F. unfold chr, octal_byte. rewrite <- oct_value by exact F.
  replace (Z.to_N (Z.of_N (oct x00 ds) mod 256)) with (oct x00 ds mod 256)%N; [reflexivity|].
  change 256%Z with (Z.of_N 256). rewrite <- N2Z.inj_mod. symmetry. apply N2Z.id.
Qed.

(** The reverse *)
Lemma octal_split : forall j c s c' s', octal_escape j c s = (c', s') ->
  exists ds, s = ds ++ s' /\ (length ds <= j)%nat /\ Forall (is_digit_of 8) ds /\
             (length ds < j -> match s' with c :: _ => ~ is_digit_of 8 c | [] => True end)%nat.
Proof.
  induction j as [|j IH]; intros c s c' s' H; cbn [octal_escape] in H.
  - injection H as <- <-. exists []. cbn. repeat split; auto. lia.
  - destruct s as [|d s]; [injection H as <- <-; exists []; cbn; repeat split; auto; lia|].
    destruct (is_octal d) eqn:O.
    + destruct (IH _ _ _ _ H) as (ds & -> & L & F & M). exists (d :: ds). cbn. split; [reflexivity|]. split; [lia|].
      split; [constructor; [now apply octal_digit|exact F]|]. intros K. apply M. lia.
    + injection H as <- <-. exists []. cbn. split; [reflexivity|]. split; [lia|]. split; [constructor|]. intros _. rewrite <- octal_digit, O. discriminate.
Qed.

(** ** Directives *)
Definition flag (c : byte) : Prop := In c ["-"; "#"; "0"; "+"; " "]%byte.
Definition flagb (c : byte) : bool := match c with "#" | "0" | "+" | " " | "-" => true | _ => false end%byte.
Lemma flagb_spec c : flagb c = true <-> flag c.
Proof.
  unfold flag. split.
  - destruct c; cbn; intros E; try discriminate; tauto.
  - cbn [In]. intros [<-|[<-|[<-|[<-|[<-|[]]]]]]; reflexivity.
Qed.
Definition minus (c : byte) : bool := match c with "-"%byte => true | _ => false end.

Lemma flags_eq str m s : flags str m s =
  match s with
  | c :: s' => if flagb c then if existsb (Byte.eqb c) str then None else flags (str ++ [c]) (m || negb (minus c)) s' else Some (str, m, s)
  | [] => Some (str, m, s)
  end.
Proof. destruct s as [|c s]; [reflexivity|]. cbn [flags]. destruct c; cbn [flagb minus negb]; rewrite ?orb_true_r, ?orb_false_r; reflexivity. Qed.

Lemma eqb_in c l : existsb (Byte.eqb c) l = true <-> In c l.
Proof.
  rewrite existsb_exists. split; [intros (x & I & E); apply Byte.byte_dec_bl in E; now subst|intros I; exists c; split; [exact I|now apply Byte.byte_dec_lb]].
Qed.
Lemma eqb_notin c l : existsb (Byte.eqb c) l = false <-> ~ In c l.
Proof. rewrite <- eqb_in. destruct (existsb (Byte.eqb c) l); split; auto; try discriminate. intros H. now destruct H. Qed.

Definition not_flag (s : list byte) : Prop := match s with c :: _ => flagb c = false | [] => True end.
Lemma flags_take : forall fl str m s, NoDup (str ++ fl) -> (forall c, In c fl -> flag c) -> not_flag s ->
  flags str m (fl ++ s) = Some (str ++ fl, m || existsb (fun c => negb (minus c)) fl, s).
Proof.
  induction fl as [|c fl IH]; intros str m s ND FL NF; rewrite flags_eq; cbn [app existsb].
  - rewrite app_nil_r, orb_false_r. destruct s as [|c s]; [reflexivity|]. cbn in NF. now rewrite NF.
  - rewrite (proj2 (flagb_spec c)) by (apply FL; now left).
    assert (NI : ~ In c str) by (apply NoDup_remove_2 in ND; intros I; apply ND, in_or_app; now left).
    rewrite (proj2 (eqb_notin c str) NI). rewrite IH.
    + rewrite <- app_assoc. cbn [app]. now rewrite orb_assoc.
    + now rewrite <- app_assoc.
    + intros x I. apply FL. now right.
    + exact NF.
Qed.
Lemma flags_split : forall s str m str' m' s', NoDup str -> flags str m s = Some (str', m', s') ->
  exists fl, s = fl ++ s' /\ str' = str ++ fl /\ NoDup str' /\ (forall c, In c fl -> flag c) /\ not_flag s' /\ m' = m || existsb (fun c => negb (minus c)) fl.
Proof.
  induction s as [|c s IH]; intros str m str' m' s' ND H; rewrite flags_eq in H.
  - injection H as <- <- <-. exists []. cbn [existsb app]. rewrite orb_false_r, app_nil_r. split; [reflexivity|]. split; [reflexivity|]. split; [exact ND|]. split; [intros ? []|]. split; [exact I|reflexivity].
  - destruct (flagb c) eqn:FB.
    + destruct (existsb (Byte.eqb c) str) eqn:E; [discriminate|]. apply eqb_notin in E.
      assert (ND' : NoDup (str ++ [c])) by (apply NoDup_Add with (a := c) (l := str); [apply Add_app with (l2 := []) || (rewrite <- (app_nil_r str) at 1; apply Add_app)|split; auto]).
      destruct (IH _ _ _ _ _ ND' H) as (fl & -> & -> & N & FL & NF & ->). exists (c :: fl). split; [reflexivity|]. split; [now rewrite <- app_assoc|]. split; [exact N|].
      split; [intros x [<-|I]; [now apply flagb_spec|auto]|]. split; [exact NF|]. cbn [existsb]. now rewrite orb_assoc.
    + injection H as <- <- <-. exists []. cbn [existsb app]. rewrite orb_false_r, app_nil_r. split; [reflexivity|]. split; [reflexivity|]. split; [exact ND|]. split; [intros ? []|]. split; [exact FB|reflexivity].
Qed.

Definition not_digit (s : list byte) : Prop := match s with c :: _ => is_decimal c = false | [] => True end.
Lemma digits_take : forall ds str s, Forall (is_digit_of 10) ds -> not_digit s -> digits str (ds ++ s) = (str ++ ds, s).
Proof.
  induction ds as [|d ds IH]; intros str s F N; cbn [app].
  - rewrite app_nil_r. destruct s as [|c s]; [reflexivity|]. cbn [digits]. cbn in N. now rewrite N.
  - inversion F as [|? ? F1 F2]; subst. cbn [digits]. apply decimal_digit in F1. rewrite F1, IH by assumption. now rewrite <- app_assoc.
Qed.
Lemma digits_split : forall s str str' s', digits str s = (str', s') ->
  exists ds, s = ds ++ s' /\ str' = str ++ ds /\ Forall (is_digit_of 10) ds /\ not_digit s'.
Proof.
  induction s as [|c s IH]; intros str str' s' H; cbn [digits] in H.
  - injection H as <- <-. exists []. cbn [app]. rewrite app_nil_r. repeat split; auto.
  - destruct (is_decimal c) eqn:D.
    + destruct (IH _ _ _ H) as (ds & -> & -> & F & N). exists (c :: ds). split; [reflexivity|]. split; [now rewrite <- app_assoc|]. split; [constructor; [now apply decimal_digit|exact F]|exact N].
    + injection H as <- <-. exists []. cbn [app]. rewrite app_nil_r. repeat split; auto.
Qed.

Lemma precision_take p str s : match p with Some ds => Forall (is_digit_of 10) ds | None => True end -> not_digit s -> (p = None -> match s with "."%byte :: _ => False | _ => True end) ->
  precision str (precision_text p ++ s) = (str ++ precision_text p, s).
Proof.
  intros F N D. destruct p as [ds|]; cbn [precision_text app].
  - cbn [precision]. rewrite digits_take by assumption. now rewrite <- app_assoc.
  - rewrite app_nil_r. specialize (D eq_refl). unfold precision. destruct s as [|c s]; [reflexivity|]. destruct c; try reflexivity. destruct D.
Qed.
Lemma precision_split str s str' s' : precision str s = (str', s') ->
  exists p, s = precision_text p ++ s' /\ str' = str ++ precision_text p /\ match p with Some ds => Forall (is_digit_of 10) ds | None => True end.
Proof.
  intros H.
  assert (C : (exists s0, s = "."%byte :: s0 /\ precision str s = digits (str ++ ["."%byte]) s0) \/ precision str s = (str, s)).
  { unfold precision. destruct s as [|c s]; [now right|]. destruct c; try (now right). left. eauto. }
  destruct C as [(s0 & -> & E)|E]; rewrite E in H.
  - destruct (digits_split _ _ _ _ H) as (ds & -> & -> & F & _). exists (Some ds). cbn. split; [reflexivity|]. split; [now rewrite <- app_assoc|exact F].
  - injection H as <- <-. exists None. cbn. rewrite app_nil_r. auto.
Qed.

(** The table of specifiers *)
Lemma specifiers_plain c : plain_letter c -> exists f fld, specifiers c = Some (f, fld, false, conversion c) /\ flagb c = false /\ is_decimal c = false /\ c <> "."%byte.
Proof.
  unfold plain_letter. cbn [In]. intros H.
  repeat (destruct H as [<-|H]; [eexists _, _; split; [reflexivity|repeat split; reflexivity || discriminate]|]). destruct H.
Qed.
Lemma specifiers_time c : time_letter c -> exists fld, specifiers c = Some (Fn_strftime, Some fld, true, ["s"%byte]) /\ time_field c = Some fld /\ conversion c = ["s"%byte] /\ flagb c = false /\ is_decimal c = false /\ c <> "."%byte.
Proof.
  unfold time_letter. cbn [In]. intros H.
  repeat (destruct H as [<-|H]; [eexists; split; [reflexivity|repeat split; reflexivity || discriminate]|]). destruct H.
Qed.
Lemma specifiers_all c f fld timed sp : specifiers c = Some (f, fld, timed, sp) -> sp = conversion c /\ if timed then time_letter c else plain_letter c.
Proof. destruct c; cbn; intros H; try discriminate; injection H as <- <- <- <-; (split; [reflexivity|]); cbv; tauto. Qed.
Lemma strftime_in c : existsb (Byte.eqb c) time_specifiers = true <-> strftime_letter c.
Proof.
  unfold strftime_letter. rewrite <- eqb_in. destruct c; vm_compute; tauto.
Qed.
Lemma numeric_spec c : plain_letter c -> (match conversion c with ["s"%byte] => true | _ => false end = false <-> numeric c).
Proof.
  unfold plain_letter, numeric. cbn [In]. intros H.
  repeat (destruct H as [<-|H]; [cbn; split; intros K; try discriminate; try reflexivity; try tauto; decompose [or] K; try discriminate; contradiction|]). destruct H.
Qed.
Lemma numeric_time c : time_letter c -> ~ numeric c.
Proof.
  unfold time_letter, numeric. cbn [In]. intros H K.
  repeat (destruct H as [<-|H]; [decompose [or] K; try discriminate; contradiction|]). destruct H.
Qed.

(** The directive that is made *)
Definition made (d : directive) : fmt :=
  mkFmt (match specifiers (d_letter d) with Some (f, _, _, _) => f | None => Fn_flush end)
        ("%"%byte :: d_flags d ++ d_width d ++ precision_text (d_precision d) ++ conversion (d_letter d))
        (match specifiers (d_letter d) with Some (_, fld, _, _) => fld | None => None end) (d_time d).

Lemma letter_text d s : directive_ok d -> exists c t, d_letter d :: time_text (d_time d) ++ s = c :: t /\ flagb c = false /\ is_decimal c = false /\ c <> "."%byte.
Proof.
  intros (_ & _ & _ & _ & _ & L & _). exists (d_letter d), (time_text (d_time d) ++ s). split; [reflexivity|].
  destruct (d_time d) as [x|].
  - destruct L as (L & _). destruct (specifiers_time _ L) as (? & _ & _ & _ & H). exact H.
  - destruct (specifiers_plain _ L) as (? & ? & _ & H). exact H.
Qed.

Lemma directive_take d s : directive_ok d -> FormatModel.directive (directive_text d ++ s) = Some (made d, s).
Proof.
  intros OK. destruct (letter_text d s OK) as (c & t & E & C1 & C2 & C3). destruct OK as (ND & FL & W & W0 & P & L & NUM).
  unfold FormatModel.directive, directive_text. rewrite <- !app_assoc. cbn [app].
  assert (NP : not_flag (precision_text (d_precision d) ++ d_letter d :: time_text (d_time d) ++ s)).
  { destruct (d_precision d); [reflexivity|]. cbn [precision_text app]. rewrite E. exact C1. }
  assert (NF : not_flag (d_width d ++ precision_text (d_precision d) ++ d_letter d :: time_text (d_time d) ++ s)).
  { destruct (d_width d) as [|x w]; [exact NP|]. cbn [app hd] in *. inversion W as [|? ? W1 _]; subst. unfold not_flag.
    destruct (flagb x) eqn:FB; [|reflexivity]. apply flagb_spec in FB. unfold flag in FB. cbn [In] in FB.
    destruct FB as [<-|[<-|[<-|[<-|[<-|[]]]]]]; unfold is_digit_of in W1; cbn in W1; try lia. contradiction. }
  rewrite (flags_take (d_flags d) ["%"%byte] false); [|cbn [app]; constructor; [intros I; apply FL in I; cbn [In] in I; decompose [or] I; try discriminate; contradiction|exact ND]|exact FL|exact NF].
  cbn [app orb].
  rewrite digits_take; [|exact W|destruct (d_precision d); [reflexivity|cbn [precision_text app]; rewrite E; exact C2]].
  rewrite precision_take; [|exact P|rewrite E; exact C2|intros _; injection E as E' _; rewrite E'; destruct c; try exact I; now destruct C3].
  set (m := existsb (fun c => negb (minus c)) (d_flags d)).
  assert (MN : m = true -> numeric (d_letter d)).
  { intros M. apply NUM. apply existsb_exists in M. destruct M as (x & I & X). exists x. split; [exact I|]. intros ->. discriminate. }
  unfold made. destruct (d_time d) as [x|] eqn:DT.
  - destruct L as (L & S). destruct (specifiers_time _ L) as (fld & SP & _ & CV & _). rewrite SP, CV. cbn [time_text app].
    apply strftime_in in S. rewrite S. assert (m = false) as -> by (destruct m; [exfalso; now apply (numeric_time _ L), MN|reflexivity]).
    cbn [andb]. rewrite <- !app_assoc. reflexivity.
  - destruct (specifiers_plain _ L) as (f & fld & SP & _). rewrite SP. cbn [time_text app].
    assert (m && (match conversion (d_letter d) with ["s"%byte] => true | _ => false end) = false) as ->.
    { destruct m eqn:M; [cbn [andb]; apply numeric_spec; auto|reflexivity]. }
    rewrite <- !app_assoc. reflexivity.
Qed.

Lemma directive_split s f s' : FormatModel.directive s = Some (f, s') -> exists d, directive_ok d /\ s = directive_text d ++ s' /\ f = made d.
Proof.
  unfold FormatModel.directive. destruct (flags ["%"%byte] false s) as [((str & m) & s1)|] eqn:E1; [|discriminate].
  destruct (flags_split s ["%"%byte] false str m s1 ltac:(constructor; [intros []|constructor]) E1) as (fl & -> & -> & ND & FL & NF & ->). clear E1.
  destruct (digits (["%"%byte] ++ fl) s1) as (str2 & s2) eqn:E2. destruct (digits_split _ _ _ _ E2) as (w & -> & -> & W & _). clear E2.
  destruct (precision ((["%"%byte] ++ fl) ++ w) s2) as (str3 & s3) eqn:E3. destruct (precision_split _ _ _ _ E3) as (p & -> & -> & P). clear E3.
  destruct s3 as [|c s3]; [discriminate|]. destruct (specifiers c) as [(((g & fld) & timed) & sp)|] eqn:SP; [|discriminate].
  destruct (specifiers_all _ _ _ _ _ SP) as (-> & L). cbn [orb].
  set (m := existsb (fun c => negb (minus c)) fl).
  assert (W0 : hd "1"%byte w <> "0"%byte).
  { destruct w as [|x w]; [discriminate|]. cbn in NF. cbn. intros ->. discriminate. }
  assert (ND' : NoDup fl) by (cbn in ND; now inversion ND).
  assert (NUM : m = false \/ numeric c -> (exists x, In x fl /\ x <> "-"%byte) -> numeric c).
  { intros [M|?] (x & I & X); [|assumption]. exfalso. assert (m = true); [|congruence]. apply existsb_exists. exists x. split; [exact I|]. destruct x; try reflexivity. contradiction. }
  destruct timed.
  - destruct s3 as [|tc s3]; [discriminate|]. destruct (existsb (Byte.eqb tc) time_specifiers) eqn:TS; [|discriminate]. apply strftime_in in TS.
    destruct (specifiers_time _ L) as (fld' & SP' & _ & CV & _). rewrite SP in SP'. injection SP' as -> ->. rewrite CV.
    destruct m eqn:M; [discriminate|]. intros [= <- <-]. exists (mkDirective fl w p c (Some tc)).
    split; [|split].
    + unfold directive_ok. cbn [d_flags d_width d_precision d_letter d_time]. repeat (split; [assumption|]). split; [split; assumption|]. apply NUM. now left.
    + unfold directive_text. cbn [d_flags d_width d_precision d_letter d_time time_text]. rewrite <- !app_assoc. reflexivity.
    + unfold made. cbn [d_flags d_width d_precision d_letter d_time]. rewrite SP, CV, <- !app_assoc. reflexivity.
  - destruct (m && match conversion c with ["s"%byte] => true | _ => false end) eqn:K; [discriminate|]. intros [= <- <-]. exists (mkDirective fl w p c None).
    split; [|split].
    + unfold directive_ok. cbn [d_flags d_width d_precision d_letter d_time]. repeat (split; [assumption|]). apply NUM.
      destruct m; [right|now left]. now apply numeric_spec.
    + unfold directive_text. cbn [d_flags d_width d_precision d_letter d_time time_text]. rewrite <- !app_assoc. reflexivity.
    + unfold made. cbn [d_flags d_width d_precision d_letter d_time]. rewrite SP, <- !app_assoc. reflexivity.
Qed.

(** ** Printing *)
Definition both (x y : list event * bool) : list event * bool := (fst x ++ fst y, snd x && snd y).
Lemma both_assoc x y z : both (both x y) z = both x (both y z).
Proof. unfold both. cbn [fst snd]. now rewrite app_assoc, andb_assoc. Qed.
Lemma both_nil x : both x ([], true) = x.
Proof. unfold both. cbn [fst snd]. rewrite app_nil_r, andb_true_r. now destruct x. Qed.

Section Printing.
Variable vfprintf : list byte -> value -> option (list byte).
Variable b : bftw.
Notation print := (bfs_printf vfprintf b).

Lemma print_cons f fmts : print (f :: fmts) = both (print_one vfprintf b f) (print fmts).
Proof. cbn [bfs_printf]. unfold both. destruct (print_one vfprintf b f), (print fmts). reflexivity. Qed.
Lemma print_app x y : print (x ++ y) = both (print x) (print y).
Proof.
  induction x as [|f x IH]; cbn [app].
  - change (print []) with (@nil event, true). unfold both. cbn. now destruct (print y).
  - rewrite !print_cons, IH. symmetry. apply both_assoc.
Qed.
Lemma print_single f : print [f] = print_one vfprintf b f.
Proof. rewrite print_cons. apply both_nil. Qed.

Lemma print_literal fmts lit : print (fst (append_literal fmts lit)) = both (print fmts) (map Put lit, true).
Proof.
  unfold append_literal. destruct lit as [|c lit].
  - cbn [fst map]. now rewrite both_nil.
  - cbn [fst]. now rewrite print_app, print_single.
Qed.
Lemma literal_empty fmts lit : snd (append_literal fmts lit) = [].
Proof. now destruct lit. Qed.
Lemma append_directive_eq fmts lit f : append_directive fmts lit f = (fst (append_literal fmts lit) ++ [f], []).
Proof. unfold append_directive. pose proof (literal_empty fmts lit) as E. destruct (append_literal fmts lit) as (x & y). cbn in *. now subst. Qed.

Hypothesis M : modest b.

Lemma root_skip : forall root path, skipn (match nth_error path (length root) with Some "/"%byte => S (length root) | _ => length root end) path = after_root root path.
Proof.
  induction root as [|r root IH]; intros path.
  - destruct path as [|c path]; [reflexivity|]. cbn [length nth_error after_root]. destruct c; reflexivity.
  - destruct path as [|c path]; [now rewrite skipn_nil|]. cbn [length nth_error after_root]. rewrite <- IH.
    destruct (nth_error path (length root)) as [x|]; [|reflexivity]. destruct x; reflexivity.
Qed.
Lemma leading_ok : (if (0 <? b_nameoff b)%nat then firstn (if (1 <? b_nameoff b)%nat then b_nameoff b - 1 else b_nameoff b) (b_path b)
                    else match b_path b with "/"%byte :: _ => ["/"%byte] | _ => ["."%byte] end) = leading b.
Proof.
  destruct M as (L & _). unfold leading. set (n := b_nameoff b) in *. set (p := b_path b) in *. clearbody n p. clear M.
  destruct n as [|n]; [reflexivity|]. change (0 <? S n)%nat with true. cbv iota.
  destruct p as [|c p]; [cbn in L; lia|]. destruct n as [|n]; [reflexivity|]. change (1 <? S (S n))%nat with true. cbv iota.
  destruct p as [|d p]; [cbn in L; lia|]. cbn [firstn]. cbn [length] in L.
  change (removelast (c :: d :: firstn n p)) with (c :: removelast (d :: firstn n p)).
  replace (S (S n) - 1)%nat with (S n) by lia. cbn [firstn]. f_equal.
  change (d :: firstn n p) with (firstn (S n) (d :: p)). rewrite removelast_firstn; [reflexivity|cbn [length]; lia].
Qed.
Lemma mode_ok n : N.land n 4095 = (n mod 4096)%N.
Proof. change 4095%N with (N.ones 12). now rewrite N.land_ones. Qed.
Lemma blocks_ok z : (0 <= z < 2 ^ 54)%Z -> (u64 (u64 (uz z * 512) + 511) / 512)%N = Z.to_N z.
Proof.
  intros L. unfold u64, uz. rewrite (Z.mod_small z) by lia. assert (K : (Z.to_N z < 2 ^ 54)%N) by lia. revert K. generalize (Z.to_N z). clear. intros n K.
  change (2 ^ 64)%N with (2 ^ 54 * 1024)%N. rewrite !N.mod_small by lia. symmetry. apply N.div_unique with 511%N; lia.
Qed.
Lemma kblocks_ok z : (0 <= z < 2 ^ 54)%Z -> (u64 (u64 (uz z * 512) + 1023) / 1024)%N = Z.to_N ((z + 1) / 2).
Proof.
  intros L. unfold u64, uz. rewrite (Z.mod_small z) by lia. rewrite Z2N.inj_div by lia. rewrite Z2N.inj_add by lia. change (Z.to_N 1) with 1%N. change (Z.to_N 2) with 2%N.
  assert (K : (Z.to_N z < 2 ^ 54)%N) by lia. revert K. generalize (Z.to_N z). clear. intros n K.
  change (2 ^ 64)%N with (2 ^ 54 * 1024)%N. rewrite !N.mod_small by lia.
  symmetry. apply N.div_unique with (512 * ((n + 1) mod 2) + 511)%N.
  - pose proof (N.mod_lt (n + 1) 2 ltac:(lia)). lia.
  - pose proof (N.div_mod (n + 1) 2 ltac:(lia)). lia.
Qed.
Lemma size_ok z : (0 <= z < 2 ^ 63)%Z -> uz z = Z.to_N z.
Proof. intros L. unfold uz. now rewrite Z.mod_small by lia. Qed.

Lemma print_one_eq f str fld c : f <> Fn_literal -> f <> Fn_flush ->
  print_one vfprintf b (mkFmt f str fld c) =
  match directive_value f fld c b with
  | (None, failed) => ([], negb failed)
  | (Some v, failed) => match vfprintf str v with Some t => (map Put t, negb failed) | None => ([], false) end
  end.
Proof. intros A B. unfold print_one. cbn [fmt_fn fmt_str fmt_field fmt_c]. destruct f; try reflexivity; contradiction. Qed.

Lemma made_output d : directive_ok d -> print_one vfprintf b (made d) = directive_output vfprintf b d.
Proof.
  intros (_ & _ & _ & _ & _ & L & _). unfold directive_output, made.
  set (str := "%"%byte :: _). clearbody str.
  pose proof leading_ok as LO. pose proof (root_skip (b_root b) (b_path b)) as RS. destruct M as (_ & ST).
  destruct (d_time d) as [x|].
  - destruct L as (L & _). destruct (specifiers_time _ L) as (fld & SP & TF & _). rewrite SP. rewrite print_one_eq by discriminate.
    unfold denotes. rewrite TF. cbn [directive_value]. unfold with_stat.
    assert (FA : fails (d_letter d) b = false) by (revert L; unfold time_letter, fails; cbn [In]; intros L; decompose [or] L; try contradiction; subst; match goal with E : _ = d_letter d |- _ => rewrite <- E; reflexivity end).
    rewrite FA. destruct (b_stat b) as [st|]; [|reflexivity]. destruct (st_time st fld); reflexivity.
  - unfold plain_letter in L. revert L. generalize (d_letter d). intros c. cbn [In]. intros L.
    unfold denotes, from_stat.
    repeat (destruct L as [<-|L]; [cbn [specifiers]; rewrite print_one_eq by discriminate; cbn [time_field directive_value fails]; unfold with_stat;
      destruct (b_stat b) as [st|] eqn:BS; cbn [option_map];
      rewrite ?LO, ?RS, ?mode_ok, ?blocks_ok, ?kblocks_ok, ?size_ok by tauto;
      try reflexivity;
      try (destruct (b_type b); try reflexivity; destruct (b_link b); reflexivity);
      try (destruct (b_follow b); reflexivity);
      try (destruct (b_context b); reflexivity);
      try (destruct (b_fstype b); reflexivity);
      try (destruct (st_time st _); reflexivity)|]).
    destruct L.
Qed.
End Printing.

(** ** Parsing *)
Lemma loop_char fuel fmts lit c s : c <> "\"%byte -> c <> "%"%byte ->
  parse_loop (S fuel) fmts lit (c :: s) = parse_loop fuel fmts (lit ++ [c]) s.
Proof. intros A B. cbn [parse_loop]. destruct c; try reflexivity; contradiction. Qed.
Lemma loop_percent fuel fmts lit s : parse_loop (S fuel) fmts lit ("%" :: "%" :: s)%byte = parse_loop fuel fmts (lit ++ ["%"%byte]) s.
Proof. reflexivity. Qed.
Lemma loop_directive fuel fmts lit s : match s with "%"%byte :: _ => False | _ => True end ->
  parse_loop (S fuel) fmts lit ("%" :: s)%byte =
  match FormatModel.directive s with
  | None => Some None
  | Some (f, s) => parse_loop fuel (fst (append_literal fmts lit) ++ [f]) [] s
  end.
Proof.
  intros H. assert (E : parse_loop (S fuel) fmts lit ("%" :: s)%byte =
    match FormatModel.directive s with
    | None => Some None
    | Some (f, s) => let '(fmts, literal) := append_directive fmts lit f in parse_loop fuel fmts literal s
    end) by (cbn [parse_loop]; destruct s as [|c s]; [reflexivity|]; destruct c; try reflexivity; destruct H).
  rewrite E. destruct (FormatModel.directive s) as [(f & s')|]; [|reflexivity]. now rewrite append_directive_eq.
Qed.
Lemma loop_escape fuel fmts lit c s : parse_loop (S fuel) fmts lit ("\" :: c :: s)%byte =
  if is_octal c then let '(c, s) := octal_escape 3 x00 (c :: s) in parse_loop fuel fmts (lit ++ [c]) s
  else if Byte.eqb c "c" then Some (Some (fst (append_literal fmts lit) ++ [mkFmt Fn_flush [] None None]))
  else match escape c with Some c => parse_loop fuel fmts (lit ++ [c]) s | None => Some None end.
Proof.
  cbn [parse_loop]. destruct (is_octal c); [reflexivity|]. rewrite append_directive_eq. cbn [append_literal fst]. destruct c; reflexivity.
Qed.
Lemma escape_in c b : escape c = Some b <-> In (c, b) escapes.
Proof.
  split.
  - destruct c; cbn; intros H; try discriminate; injection H as <-; tauto.
  - unfold escapes. cbn [In]. intros H. decompose [or] H; try contradiction; match goal with E : _ = _ |- _ => injection E as <- <-; reflexivity end.
Qed.
Lemma escaped_ok c b : In (c, b) escapes -> escaped c = [Put b].
Proof. unfold escapes. cbn [In]. intros H. decompose [or] H; try contradiction; match goal with E : _ = _ |- _ => injection E as <- <-; reflexivity end. Qed.
Lemma escape_other c b : In (c, b) escapes -> is_octal c = false /\ Byte.eqb c "c" = false.
Proof. unfold escapes. cbn [In]. intros H. decompose [or] H; try contradiction; match goal with E : _ = _ |- _ => injection E as <- <-; split; reflexivity end. Qed.

Lemma output_cons vf b i items e : output vf b (i :: items) e = both (item_output vf b i) (output vf b items e).
Proof. unfold output, both. cbn [flat_map forallb fst snd]. now rewrite app_assoc. Qed.
Lemma directive_not_percent d s : directive_ok d -> match directive_text d ++ s with "%"%byte :: _ => False | _ => True end.
Proof.
  intros OK. destruct (letter_text d [] OK) as (c & t & E & _). destruct OK as (_ & FL & W & _ & _ & L & _). unfold directive_text.
  destruct (d_flags d) as [|x fl]; cbn [app].
  - destruct (d_width d) as [|x w]; cbn [app].
    + destruct (d_precision d); [exact I|]. cbn [precision_text app].
      destruct (d_time d) as [y|]; [destruct L as (L & _)|]; unfold time_letter, plain_letter in L; cbn [In] in L;
        repeat (destruct L as [<-|L]; [exact I|]); destruct L.
    + inversion W as [|? ? W1 _]; subst. destruct x; try exact I. unfold is_digit_of in W1. cbn in W1. lia.
  - specialize (FL x (or_introl eq_refl)). cbn [In] in FL. decompose [or] FL; subst; try exact I. contradiction.
Qed.

Lemma loop_take : forall items e fmts lit fuel, format_ok items e -> (length (format_text items e) < fuel)%nat ->
  exists r, parse_loop fuel fmts lit (format_text items e) = Some (Some r) /\
    forall vf b, modest b -> bfs_printf vf b r = both (both (bfs_printf vf b fmts) (map Put lit, true)) (output vf b items e).
Proof.
  induction items as [|i items IH]; intros e fmts lit fuel OK LF; (destruct fuel as [|fuel]; [lia|]).
  - unfold format_text in *. cbn [flat_map app] in *. destruct e as [|s]; cbn [ending_text] in *.
    + eexists. split; [reflexivity|]. intros vf b M. rewrite print_literal. unfold output. cbn [flat_map forallb app]. now rewrite both_nil.
    + rewrite loop_escape. change (is_octal "c") with false. change (Byte.eqb "c" "c") with true. cbv iota. eexists. split; [reflexivity|].
      intros vf b M. rewrite print_app, print_literal, print_single. reflexivity.
  - destruct OK as (OK & OKS). change (format_text (i :: items) e) with ((item_text i ++ flat_map item_text items) ++ ending_text e) in *.
    rewrite <- app_assoc in *. fold (format_text items e) in *.
    assert (STEP : forall c fuel', (length (format_text items e) < fuel')%nat -> (forall vf b, item_output vf b i = ([Put c], true)) ->
      exists r, parse_loop fuel' fmts (lit ++ [c]) (format_text items e) = Some (Some r) /\
        forall vf b, modest b -> bfs_printf vf b r = both (both (bfs_printf vf b fmts) (map Put lit, true)) (output vf b (i :: items) e)).
    { intros c fuel' L' IO. destruct (IH e fmts (lit ++ [c]) fuel' OKS L') as (r & E & H). exists r. split; [exact E|].
      intros vf b M. rewrite (H vf b M), output_cons, IO, map_app. rewrite <- !both_assoc. f_equal. rewrite both_assoc. f_equal. }
    destruct i as [c|c|ds| |d]; cbn [item_text app item_ok] in *.
    + destruct OK as (A & B). rewrite loop_char by assumption. apply STEP; [cbn [length] in LF; lia|reflexivity].
    + destruct OK as (x & I). rewrite loop_escape. destruct (escape_other _ _ I) as (-> & ->). rewrite (proj2 (escape_in c x) I).
      apply STEP; [cbn [length] in LF; lia|]. intros vf b. cbn [item_output]. now rewrite (escaped_ok _ _ I).
    + destruct OK as (L & F & MX). destruct ds as [|d ds]; [cbn in L; lia|]. cbn [app]. rewrite loop_escape.
      assert (O : is_octal d = true) by (apply octal_digit; now inversion F). rewrite O.
      change (d :: ds ++ format_text items e) with ((d :: ds) ++ format_text items e).
      rewrite octal_loop by (assumption || lia). apply STEP; [cbn [length app] in LF; rewrite app_length in LF; lia|].
      intros vf b. cbn [item_output]. now rewrite octal_byte_ok.
    + rewrite loop_percent. apply STEP; [cbn [length] in LF; lia|reflexivity].
    + rewrite loop_directive by now apply directive_not_percent. rewrite directive_take by exact OK.
      destruct (IH e (fst (append_literal fmts lit) ++ [made d]) [] fuel OKS) as (r & E & H); [cbn [length] in LF; rewrite app_length in LF; lia|].
      exists r. split; [exact E|]. intros vf b M. rewrite (H vf b M), output_cons, print_app, print_literal, print_single, made_output by assumption.
      cbn [map item_output]. rewrite both_nil. apply both_assoc.
Qed.

Lemma loop_split : forall fuel fmts lit s r, parse_loop fuel fmts lit s = Some (Some r) -> exists items e, format_ok items e /\ s = format_text items e.
Proof.
  induction fuel as [|fuel IH]; intros fmts lit s r H; [discriminate|].
  destruct s as [|c s]; [exists [], End; split; [exact I|reflexivity]|].
  assert (ADD : forall i items e, item_ok i (format_text items e) -> format_ok items e -> exists items' e', format_ok items' e' /\ item_text i ++ format_text items e = format_text items' e').
  { intros i items e A B. exists (i :: items), e. split; [split; assumption|]. unfold format_text. cbn [flat_map]. now rewrite app_assoc. }
  destruct (Byte.byte_eq_dec c "\") as [->|NB]; [|destruct (Byte.byte_eq_dec c "%") as [->|NP]].
  - destruct s as [|c s]; [discriminate|]. rewrite loop_escape in H. destruct (is_octal c) eqn:O.
    + destruct (octal_escape 3 x00 (c :: s)) as (x & s') eqn:E. destruct (octal_split _ _ _ _ _ E) as (ds & ES & L & F & MX).
      destruct (IH _ _ _ _ H) as (items & e & OK & ->). rewrite ES.
      change ("\"%byte :: ds ++ format_text items e) with (item_text (Octal ds) ++ format_text items e). apply ADD; [|exact OK].
      split; [|split; assumption]. split; [|exact L]. destruct ds as [|d ds]; [|cbn; lia]. cbn [app] in ES.
      exfalso. cbn [length] in MX. specialize (MX ltac:(lia)). rewrite <- ES in MX. apply octal_digit in O. contradiction.
    + destruct (Byte.eqb c "c") eqn:C.
      * apply Byte.byte_dec_bl in C. subst c. exists [], (Stop s). split; [exact I|reflexivity].
      * destruct (escape c) as [x|] eqn:X; [|discriminate]. apply escape_in in X. destruct (IH _ _ _ _ H) as (items & e & OK & ->).
        apply (ADD (Escape c)); [exists x; exact X|exact OK].
  - assert (K : (exists s', s = "%"%byte :: s') \/ match s with "%"%byte :: _ => False | _ => True end).
    { destruct s as [|x s]; [now right|]. destruct x; try (now right). left. eauto. }
    destruct K as [(s' & ->)|K].
    + rewrite loop_percent in H. destruct (IH _ _ _ _ H) as (items & e & OK & ->). apply (ADD Percent); [exact I|exact OK].
    + rewrite loop_directive in H by exact K. destruct (FormatModel.directive s) as [(f & s')|] eqn:D; [|discriminate].
      destruct (directive_split _ _ _ D) as (d & OKD & -> & ->). destruct (IH _ _ _ _ H) as (items & e & OK & ->). apply (ADD (Directive d)); [exact OKD|exact OK].
  - rewrite loop_char in H by assumption. destruct (IH _ _ _ _ H) as (items & e & OK & ->). apply (ADD (Char c)); [split; assumption|exact OK].
Qed.

Lemma directive_shorter s f s' : FormatModel.directive s = Some (f, s') -> (length s' < length s)%nat.
Proof. intros H. destruct (directive_split _ _ _ H) as (d & _ & -> & _). unfold directive_text. rewrite !app_length. cbn [length]. lia. Qed.

Lemma loop_total : forall fuel fmts lit s, (length s < fuel)%nat -> parse_loop fuel fmts lit s <> None.
Proof.
  induction fuel as [|fuel IH]; intros fmts lit s L; [lia|]. destruct s as [|c s]; [discriminate|]. cbn [length] in L.
  destruct (Byte.byte_eq_dec c "\") as [->|NB]; [|destruct (Byte.byte_eq_dec c "%") as [->|NP]].
  - destruct s as [|c s]; [discriminate|]. rewrite loop_escape. destruct (is_octal c) eqn:O.
    + destruct (octal_escape 3 x00 (c :: s)) as (x & s') eqn:E. destruct (octal_split _ _ _ _ _ E) as (ds & ES & _ & _ & _). apply IH.
      apply (f_equal (@length byte)) in ES. rewrite app_length in ES. cbn [length] in *. lia.
    + destruct (Byte.eqb c "c"); [discriminate|]. destruct (escape c); [|discriminate]. apply IH. cbn [length] in L. lia.
  - assert (K : (exists s', s = "%"%byte :: s') \/ match s with "%"%byte :: _ => False | _ => True end).
    { destruct s as [|x s]; [now right|]. destruct x; try (now right). left. eauto. }
    destruct K as [(s' & ->)|K].
    + rewrite loop_percent. apply IH. cbn [length] in L. lia.
    + rewrite loop_directive by exact K. destruct (FormatModel.directive s) as [(f & s')|] eqn:D; [|discriminate]. apply directive_shorter in D. apply IH. lia.
  - rewrite loop_char by assumption. apply IH. lia.
Qed.

(** ** The theorems *)
Lemma total s : parse s <> None.
Proof. apply loop_total. lia. Qed.
Lemma accepts s : (exists r, parse s = Some (Some r)) <-> exists items e, format_ok items e /\ s = format_text items e.
Proof.
  split.
  - intros (r & H). now apply loop_split in H.
  - intros (items & e & OK & ->). destruct (loop_take items e [] [] (S (length (format_text items e))) OK ltac:(lia)) as (r & E & _). eauto.
Qed.
Lemma prints items e : format_ok items e -> exists r, parse (format_text items e) = Some (Some r) /\
  forall vf b, modest b -> bfs_printf vf b r = output vf b items e.
Proof.
  intros OK. destruct (loop_take items e [] [] (S (length (format_text items e))) OK ltac:(lia)) as (r & E & H). exists r. split; [exact E|].
  intros vf b M. rewrite (H vf b M). unfold both. cbn [bfs_printf map fst snd app andb]. now destruct (output vf b items e).
Qed.
