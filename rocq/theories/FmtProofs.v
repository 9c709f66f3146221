(** * Formatted messages: proofs *)
From Coq Require Import String List Arith NArith ZArith Bool Lia.
From Coq Require Import Init.Byte Strings.Byte.
From Verif Require FlsProofs.
From Verif Require Import QuoteModel QuoteSpec QuoteProofs ColModel ColSpec ColProofs FmtModel FmtSpec.
From Coq Require Import Lia ZifyN ZifyNat ZifyBool.
From Verif Require FlsProofs.
Import ListNotations.

Lemma text_nil o : text [] o = o.
Proof. destruct o. unfold text. cbn [ColModel.buffer ColModel.need_reset]. rewrite app_nil_r. reflexivity. Qed.
Lemma text_text s t o : text t (text s o) = text (s ++ t) o.
Proof. unfold text. cbn [ColModel.buffer ColModel.need_reset]. rewrite app_assoc. reflexivity. Qed.

Definition free (s : list byte) : Prop := ~ In "%"%byte s /\ ~ In "$"%byte s.
Lemma cspn_free s rest : free s -> cspn (str "%$") (s ++ rest) = length s + cspn (str "%$") rest.
Proof.
  intros [A B]. induction s as [|c s IH]; [reflexivity|]. cbn [app cspn length]. cbn [In] in A, B.
  replace (mem c (str "%$")) with false.
  - rewrite IH by tauto. reflexivity.
  - symmetry. destruct (mem c (str "%$")) eqn:E; [|reflexivity]. unfold mem in E. apply existsb_exists in E.
    destruct E as (x & I & E). apply Byte.byte_dec_bl in E. subst x. vm_compute in I. destruct I as [<-|[<-|[]]]; tauto.
Qed.

Section Run.
  Variable l : locale.
  Variable cs : option theme.
  Variable h : byte -> option expr -> cfile -> outcome.
  Notation loop := (loop l cs h).

  Lemma braces_shorter s : forall n r, braces s = Some (n, r) -> length r < length s.
  Proof.
    induction s as [|c s IH]; cbn [braces]; [discriminate|]. intros n r.
    destruct (Byte.eqb c "}"); [intros [= <- <-]; cbn; lia|].
    destruct (braces s) as [[n' r']|]; [|discriminate]. intros [= <- <-]. cbn. specialize (IH _ _ eq_refl). lia.
  Qed.
  Lemma skip_shorter n (i : list byte) c j : skipn n i = c :: j -> length j < length i.
  Proof. intros H. pose proof (skipn_length n i) as L. rewrite H in L. cbn in L. lia. Qed.

  Lemma loop_fuel : forall fuel fuel' i args o, length i <= fuel -> length i <= fuel' -> loop fuel i args o = loop fuel' i args o.
  Proof.
    induction fuel as [|fuel IH]; intros fuel' i args o L L'.
    - destruct i; [|cbn in L; lia]. destruct fuel'; reflexivity.
    - destruct i as [|x i]; [destruct fuel'; reflexivity|]. destruct fuel' as [|fuel']; [cbn in L'; lia|].
      cbn [FmtModel.loop]. destruct (skipn _ (x :: i)) as [|c j] eqn:K; [reflexivity|].
      apply skip_shorter in K. cbn [length] in K, L, L'.
      assert (R : forall j' args o, length j' <= length j -> loop fuel j' args o = loop fuel' j' args o) by (intros; apply IH; lia).
      assert (RB : forall j' args r, length j' <= length j -> bind r (loop fuel j' args) = bind r (loop fuel' j' args)).
      { intros j' a r J. destruct r; [|reflexivity..]. apply R. exact J. }
      destruct (Byte.eqb c "%").
      + destruct j as [|c1 j1]; [reflexivity|].
        destruct c1; try reflexivity;
        first [ apply R; cbn [length]; lia
              | destruct args as [|[] args']; try reflexivity; apply R; cbn [length]; lia
              | idtac ].
        * destruct j1 as [|c2 j2]; [reflexivity|]. destruct (mem c2 _); [|reflexivity].
          destruct args as [|v args']; [reflexivity|]. apply RB. cbn [length]. lia.
        * destruct j1 as [|c2 j2]; [reflexivity|]. destruct c2; try reflexivity.
          destruct args as [|[] args']; try reflexivity; apply R; cbn [length]; lia.
      + destruct j as [|c1 j1]; [reflexivity|]. destruct c1; try reflexivity.
        * apply R. cbn [length]. lia.
        * destruct (braces j1) as [[n r]|] eqn:B; [|reflexivity]. apply braces_shorter in B. apply RB. cbn [length]. lia.
  Qed.

  Definition run (i : list byte) (args : list value) (o : cfile) : outcome := loop (length i) i args o.
  Lemma run_fuel fuel i args o : length i <= fuel -> loop fuel i args o = run i args o.
  Proof. intros L. apply loop_fuel; [exact L|apply le_n]. Qed.
  Lemma run_nil args o : run [] args o = Printed o.
  Proof. reflexivity. Qed.

  Lemma run_text s rest args o : free s -> run (s ++ rest) args o = run rest args (text s o).
  Proof.
    intros F. destruct s as [|x s]; [rewrite text_nil; reflexivity|].
    destruct rest as [|y rest].
    - rewrite app_nil_r. unfold run. cbn [length FmtModel.loop].
      assert (C : cspn (str "%$") (x :: s) = length (x :: s)).
      { pose proof (cspn_free (x :: s) [] F) as C. rewrite app_nil_r in C. rewrite C. apply Nat.add_0_r. }
      rewrite C. rewrite firstn_all, skipn_all. reflexivity.
    - unfold run at 1. rewrite (loop_fuel _ (S (length ((x :: s) ++ y :: rest)))) by lia.
      unfold run. rewrite (loop_fuel _ (S (length ((x :: s) ++ y :: rest))) (y :: rest)) by (rewrite ?app_length; cbn [length]; lia).
      cbn [app]. cbn [FmtModel.loop]. change (x :: s ++ y :: rest) with ((x :: s) ++ y :: rest).
      rewrite cspn_free by exact F. rewrite firstn_app_2, skipn_app.
      rewrite (skipn_all2 (x :: s)) by lia. replace (length (x :: s) + cspn (str "%$") (y :: rest) - length (x :: s)) with (cspn (str "%$") (y :: rest)) by lia.
      rewrite (text_text (x :: s) (firstn (cspn (str "%$") (y :: rest)) (y :: rest)) o). reflexivity.
  Qed.

  Lemma run_with n i args o : length i <= S n -> run i args o = loop (S n) i args o.
  Proof. intros L. symmetry. apply run_fuel. exact L. Qed.
  Ltac start n := rewrite (run_with n) by (cbn [length]; rewrite ?app_length; cbn [length]; lia); cbn [FmtModel.loop];
    match goal with |- context [cspn (str "%$") ?x] => change (cspn (str "%$") x) with 0 end;
    cbn [skipn firstn]; rewrite text_nil;
    match goal with |- context [Byte.eqb ?a ?b] => let v := eval vm_compute in (Byte.eqb a b) in change (Byte.eqb a b) with v end; cbn iota.
  Lemma run_percent rest args o : run (str "%%" ++ rest) args o = run rest args (text (str "%") o).
  Proof.
    change (str "%%" ++ rest) with ("%"%byte :: "%"%byte :: rest). start (length rest + 1). apply run_fuel. lia.
  Qed.
  Lemma run_dollar rest args o : run (str "$$" ++ rest) args o = run rest args (text (str "$") o).
  Proof.
    change (str "$$" ++ rest) with ("$"%byte :: "$"%byte :: rest). start (length rest + 1). apply run_fuel. lia.
  Qed.
  Lemma braces_ok n rest : ~ In "}"%byte n -> braces (n ++ "}"%byte :: rest) = Some (n, rest).
  Proof.
    induction n as [|c n IH]; cbn [app braces]; [reflexivity|]. cbn [In]. intros H.
    destruct (Byte.eqb c "}") eqn:E; [apply Byte.byte_dec_bl in E; destruct H; left; exact E|].
    rewrite IH by tauto. reflexivity.
  Qed.
  Lemma run_color n rest args o : ~ In "}"%byte n ->
    run (str "${" ++ n ++ str "}" ++ rest) args o = bind (print_color cs n o) (run rest args).
  Proof.
    intros N. change (str "${" ++ n ++ str "}" ++ rest) with ("$"%byte :: "{"%byte :: n ++ "}"%byte :: rest).
    start (length n + length rest + 2). rewrite braces_ok by exact N.
    destruct (print_color cs n o); [|reflexivity..]. cbn [bind]. apply run_fuel. lia.
  Qed.

  (** What a conversion does *)
  Definition convert (c : conversion) (v : value) (o : cfile) : outcome :=
    match c, v with
    | Char, VChar c => Printed (text [c] o)
    | Int, VInt n => Printed (text (d n) o)
    | Double, VDouble s | Str, VStr s => Printed (text s o)
    | Size, VSize n => Printed (text (zu n) o)
    | Quoted, _ => print_pointer l cs h "q"%byte v o
    | Visible, _ => print_pointer l cs h "Q"%byte v o
    | Name, _ => print_pointer l cs h "F"%byte v o
    | Path, _ => print_pointer l cs h "P"%byte v o
    | Target, _ => print_pointer l cs h "L"%byte v o
    | Tree, _ => print_pointer l cs h "e"%byte v o
    | Rates, _ => print_pointer l cs h "E"%byte v o
    | Args, _ => print_pointer l cs h "x"%byte v o
    | Arg0, _ => print_pointer l cs h "X"%byte v o
    | _, _ => Undefined
    end.
  Lemma run_conv c rest args o :
    run (str "%" ++ str (letters c) ++ rest) args o =
    match args with [] => Undefined | v :: args => bind (convert c v o) (run rest args) end.
  Proof.
    assert (B : forall fuel r, length rest <= fuel -> forall args, bind r (loop fuel rest args) = bind r (run rest args)).
    { intros fuel r L args'. destruct r; [|reflexivity..]. apply run_fuel. exact L. }
    destruct c;
      match goal with |- run ?x _ _ = _ => let v := eval cbv in x in change x with v end;
      start (length rest + 2);
      try (match goal with |- context [mem ?c (str "qQFPLeExX")] => change (mem c (str "qQFPLeExX")) with true end; cbn iota;
           destruct args as [|v args']; [reflexivity|]; apply B; lia);
      destruct args as [|[] args']; try reflexivity; cbn [convert bind]; apply run_fuel; lia.
  Qed.
End Run.

(** ** Quoting and showing *)
Lemma quoted_as_eq l sh s : quoted_as l sh s = quoted l sh s.
Proof.
  unfold quoted_as. rewrite wordnesc_eq by lia. pose proof (quoted_length l sh s) as Q. rewrite put_fits by lia. reflexivity.
Qed.
Lemma wordesc_ok l o s sh : print_wordesc l o s sh = text (quoted_as l sh s) o.
Proof.
  rewrite quoted_as_eq. unfold print_wordesc, text. rewrite wordnesc_eq by lia. pose proof (quoted_length l sh s) as Q. rewrite put_fits by lia. reflexivity.
Qed.

Definition before (b : list byte) (o : cfile) : cfile := mkCfile (b ++ ColModel.buffer o) (need_reset o).
Lemma before_text b s o : text s (before b o) = before b (text s o).
Proof. unfold text, before. cbn [ColModel.buffer ColModel.need_reset]. rewrite app_assoc. reflexivity. Qed.
Lemma before_chunk b o e : print_esc_chunk (before b o) e = before b (print_esc_chunk o e).
Proof. exact (before_text b (seq e) o). Qed.
Lemma before_esc cs b o e : print_esc cs (before b o) e = before b (print_esc cs o e).
Proof. destruct e as [e|]; [|reflexivity]. unfold print_esc. rewrite <- !before_chunk. reflexivity. Qed.
Lemma before_reset cs b o : print_reset cs (before b o) = before b (print_reset cs o).
Proof. unfold print_reset. cbn [before ColModel.need_reset]. destruct (need_reset o); [|reflexivity]. cbn [negb]. rewrite <- before_chunk. reflexivity. Qed.
Lemma before_colored l cs b o e s : print_colored l cs (before b o) e s = before b (print_colored l cs o e s).
Proof. destruct s as [|c s]; [reflexivity|]. unfold print_colored. rewrite before_esc, !wordesc_ok, before_text, before_reset. reflexivity. Qed.
Lemma before_path l cs b o p own f fl : print_path_colored l cs (before b o) p own f fl = option_map (before b) (print_path_colored l cs o p own f fl).
Proof.
  unfold print_path_colored. destruct (cpath_init p own f fl) as [c|]; [|reflexivity].
  destruct (if c_nameoff c <? c_valid c then _ else _) as [[e n]|]; [|reflexivity]. rewrite !before_colored. reflexivity.
Qed.
Lemma before_show l cs c b o f : show l (Some cs) c (before b o) f = option_map (before b) (show l (Some cs) c o f).
Proof.
  assert (T : print_link_target l (Some cs) (before b o) f = option_map (before b) (print_link_target l (Some cs) o f)).
  { unfold print_link_target. destruct (target f); [|reflexivity]. apply before_path. }
  destruct c; try exact T; unfold show.
  - unfold print_name, print_name_colored. destruct (file_color _ _ _); [rewrite before_colored|]; reflexivity.
  - unfold print_path. apply before_path.
Qed.
Lemma text_before s o : text s o = mkCfile (ColModel.buffer o ++ s) (need_reset o).
Proof. reflexivity. Qed.

(** ** Messages *)
Section Marks.
  Variable l : locale.
  Variable cs : option theme.

  Definition perform (m : mark) (o : cfile) : outcome :=
    match m with
    | Lit s => Printed (text s o)
    | Word sh s => Printed (print_wordesc l o s sh)
    | Hue n => print_color cs n o
    | End => print_color cs (str "rs") o
    | Shown c f => of_option (show l (palette cs) c o f)
    end.
  Fixpoint performs (ms : list mark) (o : cfile) : outcome :=
    match ms with [] => Printed o | m :: ms => bind (perform m o) (performs ms) end.
  Lemma performs_app ms ms' o : performs (ms ++ ms') o = bind (performs ms o) (performs ms').
  Proof.
    revert o. induction ms as [|m ms IH]; intros o; [reflexivity|]. cbn [app performs].
    destruct (perform m o); [|reflexivity..]. cbn [bind]. apply IH.
  Qed.
  Lemma performs_bind r ms ms' : bind (bind r (performs ms)) (performs ms') = bind r (performs (ms ++ ms')).
  Proof. destruct r; [|reflexivity..]. cbn [bind]. symmetry. apply performs_app. Qed.
  Lemma bind_ext r f g : (forall o, f o = g o) -> bind r f = bind r g.
  Proof. intros H. destruct r; [|reflexivity..]. apply H. Qed.
  Lemma bind_Printed r : bind r Printed = r.
  Proof. destruct r; reflexivity. Qed.
  Lemma performs_empty ms o : performs (Lit [] :: ms) o = performs ms o.
  Proof. cbn [performs perform bind]. rewrite text_nil. reflexivity. Qed.

  Lemma rs_eq n : equal n (str "rs") = true <-> n = str "rs".
  Proof. unfold equal. destruct (list_eq_dec _ n (str "rs")); split; auto; discriminate. Qed.

  Lemma run_says h ps : Forall proper_piece ps ->
    (forall c v ms, In (Conv c) ps -> converts c v ms -> forall o, convert l cs h c v o = performs ms o) ->
    forall vs ms o, says ps vs ms -> run l cs h (concat (map written ps)) vs o = performs ms o.
  Proof.
    intros P K vs ms o H. revert o P K. induction H; intros o P K; cbn [map concat].
    - reflexivity.
    - inversion P; subst. cbn [written]. rewrite run_text by assumption. cbn [performs perform bind]. apply IHsays; [assumption|].
      intros. apply K; [right|]; assumption.
    - inversion P; subst. cbn [written]. rewrite run_percent. cbn [performs perform bind]. apply IHsays; [assumption|].
      intros. apply K; [right|]; assumption.
    - inversion P; subst. cbn [written]. rewrite run_dollar. cbn [performs perform bind]. apply IHsays; [assumption|].
      intros. apply K; [right|]; assumption.
    - inversion P as [|x0 y0 PP]; subst. destruct PP as [N _]. cbn [written]. rewrite <- !app_assoc, run_color by exact N. cbn [performs perform]. apply bind_ext. intros o'. apply IHsays; [assumption|].
      intros. apply K; [right|]; assumption.
    - inversion P; subst. cbn [written]. change (str "${rs}" ++ concat (map written ps)) with (str "${" ++ str "rs" ++ str "}" ++ concat (map written ps)).
      rewrite run_color by (vm_compute; intuition discriminate). cbn [performs perform]. apply bind_ext. intros o'. apply IHsays; [assumption|].
      intros. apply K; [right|]; assumption.
    - inversion P; subst. cbn [written]. rewrite <- !app_assoc, run_conv. rewrite (K c v ms) by (try (left; reflexivity); assumption).
      rewrite performs_app. apply bind_ext. intros o'. apply IHsays; [assumption|].
      intros. apply K; [right|]; assumption.
  Qed.

  Definition easy (c : conversion) : Prop := match c with Quoted | Size | Double => True | _ => False end.
  Lemma cbuff_says ps vs ms o : Forall proper_piece ps -> (forall c, In (Conv c) ps -> easy c) -> says ps vs ms ->
    cbuff l cs (concat (map written ps)) vs o = performs ms o.
  Proof.
    intros P K S. unfold cbuff. rewrite run_fuel by apply le_n. apply run_says; [exact P| |exact S].
    intros c v ms' I C o'. apply K in I. destruct C; try destruct I; try (destruct verbose; destruct I); reflexivity.
  Qed.
  Ltac propers := repeat (constructor; [cbn [proper_piece]; try exact I; vm_compute; repeat split; intuition discriminate|]); try (apply Forall_nil).
  Ltac easies := let c := fresh in let H := fresh in intros c H; cbn [In] in H; repeat (destruct H as [H|H]; [try discriminate H; injection H as <-; exact I|]); destruct H.

  Lemma name_ok k argv s e r t ch a more o : argv = a :: more ->
    print_expr_name l cs (Expr k argv s e r t ch) o = performs (first_arg k a) o.
  Proof.
    intros ->. cbn [print_expr_name].
    destruct k.
    - refine (cbuff_says [Color (str "cyn"); Conv Quoted; Reset] _ [Hue (str "cyn"); Word true a; End] o _ _ _); [propers|easies|].
      constructor. apply (s_conv Quoted (VStr a) _ _ [Word true a]); [constructor|]. constructor. constructor.
    - refine (cbuff_says [Color (str "red"); Conv Quoted; Reset] _ [Hue (str "red"); Word true a; End] o _ _ _); [propers|easies|].
      constructor. apply (s_conv Quoted (VStr a) _ _ [Word true a]); [constructor|]. constructor. constructor.
    - refine (cbuff_says [Color (str "blu"); Conv Quoted; Reset] _ [Hue (str "blu"); Word true a; End] o _ _ _); [propers|easies|].
      constructor. apply (s_conv Quoted (VStr a) _ _ [Word true a]); [constructor|]. constructor. constructor.
  Qed.
  Lemma more_ok more : forall o, print_more_args l cs more o = performs (flat_map other_arg more) o.
  Proof.
    induction more as [|a more IH]; intros o; [reflexivity|]. cbn [print_more_args flat_map]. rewrite performs_app.
    assert (A : cbuff l cs (str " ${bld}%pq${rs}") [VStr a] o = performs (other_arg a) o).
    { refine (cbuff_says [Text (str " "); Color (str "bld"); Conv Quoted; Reset] _ _ o _ _ _); [propers|easies|].
      unfold other_arg. constructor. constructor. apply (s_conv Quoted (VStr a) _ _ [Word true a]); [constructor|]. constructor. constructor. }
    rewrite A. apply bind_ext. exact IH.
  Qed.
  Lemma args_ok k argv s e r t ch o : argv <> [] ->
    print_expr_args l cs (Expr k argv s e r t ch) o = performs (arguments k argv) o.
  Proof.
    intros N. destruct argv as [|a more]; [contradiction|]. cbn [print_expr_args tl]. rewrite (name_ok k _ _ _ _ _ _ a more) by reflexivity.
    cbn [arguments]. rewrite performs_app. apply bind_ext. apply more_ok.
  Qed.
  Lemma rates_ok s e r t o :
    cbuff l cs (str " [${ylw}%zu${rs}/${ylw}%zu${rs}=${ylw}%g%%${rs}; ${ylw}%gns${rs}]") [VSize s; VSize e; VDouble r; VDouble t] o
    = performs (rates_of s e r t) o.
  Proof.
    refine (cbuff_says [Text (str " ["); Color (str "ylw"); Conv Size; Reset; Text (str "/"); Color (str "ylw"); Conv Size; Reset;
        Text (str "="); Color (str "ylw"); Conv Double; Percent; Reset; Text (str "; "); Color (str "ylw"); Conv Double; Text (str "ns"); Reset; Text (str "]")] _ _ o _ _ _);
        [propers|easies|].
      do 2 constructor. apply (s_conv Size (VSize s) _ _ [Lit (zu s)]); [constructor|].
      do 3 constructor. apply (s_conv Size (VSize e) _ _ [Lit (zu e)]); [constructor|].
      do 3 constructor. apply (s_conv Double (VDouble r) _ _ [Lit r]); [constructor|].
      do 4 constructor. apply (s_conv Double (VDouble t) _ _ [Lit t]); [constructor|].
      repeat constructor.
  Qed.

  (** ** Expressions *)
  Lemma expr_step levels v k argv s e r t ch (p : expr -> list mark) o : argv <> [] ->
    (forall x o, In x ch -> print_expr l cs levels v (Some x) o = performs (p x) o) ->
    print_expr l cs (S levels) v (Some (Expr k argv s e r t ch)) o = performs (parens v k argv s e r t (inside p ch)) o.
  Proof.
    intros N C. cbn [print_expr]. unfold parens. cbn [app performs perform bind]. rewrite !performs_app, args_ok by exact N.
    apply bind_ext. intros o1. rewrite performs_app.
    replace (if v then _ else Printed o1) with (performs (if v then rates_of s e r t else []) o1) by (destruct v; [symmetry; apply rates_ok|reflexivity]).
    apply bind_ext. intros o2. rewrite performs_app. cbn [performs perform bind].
    match goal with |- bind ?a _ = bind ?b _ => replace a with b; [reflexivity|] end.
    destruct ch as [|a [|b [|c ch]]]; unfold inside.
    - reflexivity.
    - cbn [performs perform bind Nat.leb]. rewrite C by (left; reflexivity). symmetry. apply bind_Printed.
    - cbn [performs perform bind Nat.leb]. rewrite C by (left; reflexivity). rewrite performs_app. apply bind_ext. intros o3.
      cbn [performs perform bind]. rewrite C by (right; left; reflexivity). symmetry. apply bind_Printed.
    - cbn [performs perform bind Nat.leb]. rewrite C by (left; reflexivity). rewrite performs_app. apply bind_ext. intros o3.
      cbn [performs perform bind]. rewrite C by (right; left; reflexivity). rewrite performs_app. apply bind_ext. intros o4.
      cbn [performs perform bind]. rewrite text_text. reflexivity.
  Qed.
  Lemma tree_ok v x o : sound x -> print_expr l cs 2 v (Some x) o = performs (tree v x) o.
  Proof.
    intros S. destruct S as [k argv s e r t ch N F]. cbn [tree]. apply expr_step; [exact N|].
    intros x o1 I. rewrite Forall_forall in F. specialize (F x I). destruct F as [k' argv' s' e' r' t' ch' N' _].
    cbn [child]. apply expr_step; [exact N'|]. intros y o2 _. reflexivity.
  Qed.
  Lemma converts_ok c v ms o : converts c v ms -> convert l cs (on_expr l cs) c v o = performs ms o.
  Proof.
    intros C. destruct C; try reflexivity; try (symmetry; apply bind_Printed).
    - destruct verbose; reflexivity.
    - rewrite <- (tree_ok _ _ _ H). destruct verbose; reflexivity.
    - destruct H as [k argv s e r t ch N _]. apply args_ok. exact N.
    - destruct H as [k argv s e r t ch N _]. destruct argv as [|a more]; [contradiction|].
      cbn [kind_of argv_of hd]. apply (name_ok k _ s e r t ch a more). reflexivity.
  Qed.
  Lemma format_runs ps vs ms on : Forall proper_piece ps -> says ps vs ms ->
    cvfprintf l cs (concat (map written ps)) vs on = performs ms (mkCfile [] on).
  Proof.
    intros P S. unfold cvfprintf, cvbuff. rewrite run_fuel by apply le_n. apply run_says; [exact P| |exact S].
    intros. apply converts_ok. assumption.
  Qed.

  (** ** Understanding formats *)
  Lemma bind_inv r f o : bind r f = Printed o -> exists o1, r = Printed o1 /\ f o1 = Printed o.
  Proof. destruct r; try discriminate. intros H. exists o0. split; [reflexivity|exact H]. Qed.
  Lemma convert_inv c v o o' : fine v -> convert l cs (on_expr l cs) c v o = Printed o' -> exists ms, converts c v ms.
  Proof.
    intros F H.
    destruct c, v as [| | | | | |[e|]]; try discriminate H; eexists; try (constructor; fail); try (constructor; exact F).
    - apply (c_tree false). exact F.
    - apply (c_null false).
    - apply (c_tree true). exact F.
    - apply (c_null true).
  Qed.
  Lemma percent_inv h c1 j vs o o' : run l cs h ("%"%byte :: c1 :: j) vs o = Printed o' ->
    c1 = "%"%byte \/ exists c j', c1 :: j = str (letters c) ++ j'.
  Proof.
    rewrite (run_with l cs h (length j + 1)) by (cbn [length]; lia). cbn [loop].
    change (cspn (str "%$") ("%"%byte :: c1 :: j)) with 0. cbn [skipn firstn]. change (Byte.eqb "%" "%") with true. cbn iota.
    destruct c1; try (intros D; discriminate D); intros H.
    - left. reflexivity.
    - right. exists Char, j. reflexivity.
    - right. exists Int, j. reflexivity.
    - right. exists Double, j. reflexivity.
    - right. destruct j as [|c j]; [discriminate H|]. destruct (mem c (str "qQFPLeExX")) eqn:M; [|discriminate H].
      unfold mem in M. apply existsb_exists in M. destruct M as (x & I & E). apply Byte.byte_dec_bl in E. subst x.
      vm_compute in I. decompose [or] I; subst;
        [exists Quoted|exists Visible|exists Name|exists Path|exists Target|exists Tree|exists Rates|exists Args|exists Arg0|contradiction]; exists j; reflexivity.
    - right. exists Str, j. reflexivity.
    - right. destruct j as [|c j]; [discriminate H|]. destruct c; try discriminate H. exists Size, j. reflexivity.
  Qed.
  Lemma dollar_inv h c1 j vs o o' : run l cs h ("$"%byte :: c1 :: j) vs o = Printed o' ->
    c1 = "$"%byte \/ c1 = "{"%byte /\ exists n j', ~ In "}"%byte n /\ j = n ++ str "}" ++ j'.
  Proof.
    rewrite (run_with l cs h (length j + 1)) by (cbn [length]; lia). cbn [loop].
    change (cspn (str "%$") ("$"%byte :: c1 :: j)) with 0. cbn [skipn firstn]. change (Byte.eqb "$" "%") with false. cbn iota.
    destruct c1; try (intros D; discriminate D); intros H.
    - left. reflexivity.
    - right. split; [reflexivity|]. destruct (braces j) as [[n r]|] eqn:B; [|discriminate H]. exists n, r.
      clear H. revert n B. induction j as [|c j IH]; cbn [braces]; [discriminate|]. intros n.
      destruct (Byte.eqb c "}") eqn:E.
      + apply Byte.byte_dec_bl in E. intros [= <- <-]. subst c. split; [intros []|reflexivity].
      + destruct (braces j) as [[n' r']|]; [|discriminate]. intros [= <- <-]. destruct (IH n' eq_refl) as [A B]. split.
        * intros [->|I]; [discriminate E|exact (A I)].
        * cbn [fst app]. rewrite B at 1. reflexivity.
  Qed.
  Lemma cspn_inv i : exists s rest, i = s ++ rest /\ free s /\ (rest = [] \/ exists c r, rest = c :: r /\ (c = "%"%byte \/ c = "$"%byte)).
  Proof.
    induction i as [|c i IH]; [exists [], []; repeat split; auto|].
    destruct (Byte.byte_eq_dec c "%") as [->|N1]; [exists [], ("%"%byte :: i); repeat split; auto; right; eauto|].
    destruct (Byte.byte_eq_dec c "$") as [->|N2]; [exists [], ("$"%byte :: i); repeat split; auto; right; eauto|].
    destruct IH as (s & rest & -> & [F1 F2] & R). exists (c :: s), rest. repeat split; auto; cbn [In]; intros [E|I]; auto.
  Qed.
  Lemma run_inv : forall n i vs o o', length i <= n -> Forall fine vs -> run l cs (on_expr l cs) i vs o = Printed o' ->
    exists ps ms, Forall proper_piece ps /\ i = concat (map written ps) /\ says ps vs ms.
  Proof.
    induction n as [|n IH]; intros i vs o o' L F H.
    { destruct i; [|cbn in L; lia]. exists [], []. repeat split; constructor. }
    destruct (cspn_inv i) as (s & rest & -> & Fr & [->|(c & r & -> & D)]).
    { exists [Text s], [Lit s]. split; [repeat constructor; apply Fr|]. split; [reflexivity|]. repeat constructor. }
    rewrite run_text in H by exact Fr.
    assert (X : exists ps ms, Forall proper_piece ps /\ c :: r = concat (map written ps) /\ says ps vs ms).
    { rewrite app_length in L. cbn [length] in L. destruct r as [|c1 j].
      { exfalso. destruct D; subst c; discriminate H. }
      cbn [length] in L. destruct D; subst c.
      - destruct (percent_inv _ _ _ _ _ _ H) as [->|(c & j' & E)].
        + change ("%"%byte :: "%"%byte :: j) with (str "%%" ++ j) in H. rewrite run_percent in H.
          apply IH in H; [|lia|exact F]. destruct H as (ps & ms & P & -> & Sy).
          exists (Percent :: ps), (Lit (str "%") :: ms). split; [constructor; [exact I|exact P]|]. split; [reflexivity|]. constructor. exact Sy.
        + rewrite E in H |- *. change ("%"%byte :: str (letters c) ++ j') with (str "%" ++ str (letters c) ++ j') in H. rewrite run_conv in H.
          destruct vs as [|v vs]; [discriminate H|]. apply bind_inv in H. destruct H as (o1 & C & H). inversion F; subst.
          apply convert_inv in C; [|assumption]. destruct C as [ms' C].
          assert (Lj : length j' <= n).
          { assert (1 <= length (str (letters c))) by (destruct c; vm_compute; lia). apply (f_equal (@length _)) in E. rewrite app_length in E. cbn [length] in E. lia. }
          apply IH in H; [|exact Lj|assumption]. destruct H as (ps & ms & P & -> & Sy).
          exists (Conv c :: ps), (ms' ++ ms). split; [constructor; [exact I|exact P]|]. split; [|constructor; assumption].
          cbn [map concat written]. rewrite <- app_assoc. reflexivity.
      - destruct (dollar_inv _ _ _ _ _ _ H) as [->|(-> & nm & j' & Nb & ->)].
        + change ("$"%byte :: "$"%byte :: j) with (str "$$" ++ j) in H. rewrite run_dollar in H.
          apply IH in H; [|lia|exact F]. destruct H as (ps & ms & P & -> & Sy).
          exists (Dollar :: ps), (Lit (str "$") :: ms). split; [constructor; [exact I|exact P]|]. split; [reflexivity|]. constructor. exact Sy.
        + change ("$"%byte :: "{"%byte :: nm ++ str "}" ++ j') with (str "${" ++ nm ++ str "}" ++ j') in H. rewrite run_color in H by exact Nb.
          apply bind_inv in H. destruct H as (o1 & _ & H). rewrite !app_length in L.
          apply IH in H; [|cbn in L; lia|exact F]. destruct H as (ps & ms & P & -> & Sy).
          destruct (list_eq_dec Byte.byte_eq_dec nm (str "rs")) as [->|Ne].
          * exists (Reset :: ps), (End :: ms). split; [constructor; [exact I|exact P]|]. split; [reflexivity|]. constructor. exact Sy.
          * exists (Color nm :: ps), (Hue nm :: ms). split; [constructor; [split; assumption|exact P]|]. split; [|constructor; exact Sy].
            cbn [map concat written]. rewrite <- !app_assoc. reflexivity. }
    destruct X as (ps & ms & P & E & Sy). exists (Text s :: ps), (Lit s :: ms). split; [constructor; [exact Fr|exact P]|].
    split; [cbn [map concat written]; rewrite E; reflexivity|]. constructor. exact Sy.
  Qed.
End Marks.

(** ** Without colors *)
Lemma performs_plain l ms : forall o, performs l None ms o = Printed (text (plain l ms) o).
Proof.
  induction ms as [|m ms IH]; intros o; [unfold plain; cbn [map concat]; rewrite text_nil; reflexivity|].
  assert (M : perform l None m o = Printed (text (plain1 l m) o)).
  { destruct m as [s|sh s|n| |c f]; cbn [perform plain1].
    - reflexivity.
    - rewrite wordesc_ok. reflexivity.
    - rewrite text_nil. reflexivity.
    - rewrite text_nil. reflexivity.
    - destruct c; cbn [show palette option_map]; unfold print_link_target; try reflexivity; destruct (target f); rewrite ?text_nil; reflexivity. }
  cbn [performs]. rewrite M. cbn [bind]. rewrite IH. unfold plain. cbn [map concat]. rewrite text_text. reflexivity.
Qed.

(** ** With colors *)
Lemma equal_rs n : n <> str "rs" -> equal n (str "rs") = false.
Proof. intros N. unfold equal. destruct (list_eq_dec _ n (str "rs")); [contradiction|reflexivity]. Qed.
Definition named (ms : list mark) : Prop := ~ In (Hue (str "rs")) ms.
Lemma esc_eq cs o e : print_esc cs o (Some e) = mkCfile (ColModel.buffer o ++ sequence cs e) (need_reset o || negb (same (Some e) (reset cs))).
Proof.
  unfold print_esc, print_esc_chunk, sequence. cbn [ColModel.buffer ColModel.need_reset].
  rewrite <- !app_assoc. f_equal. destruct (same (Some e) (reset cs)); destruct (need_reset o); reflexivity.
Qed.
Lemma show_from l cs c b on f : show l (Some cs) c (mkCfile b on) f = option_map (before b) (show l (Some cs) c (mkCfile [] on) f).
Proof.
  rewrite <- before_show. unfold before. cbn [ColModel.buffer ColModel.need_reset]. rewrite app_nil_r. reflexivity.
Qed.
Lemma performs_drawn l t ms : named ms -> forall b on b' on',
  performs l (Some t) ms (mkCfile b on) = Printed (mkCfile b' on') <-> exists out, b' = b ++ out /\ drawn l t on ms out on'.
Proof.
  induction ms as [|m ms IH]; intros Nm b on b' on'.
  { cbn [performs]. split.
    - intros [= <- <-]. exists []. rewrite app_nil_r. split; [reflexivity|constructor].
    - intros (out & -> & D). inversion D; subst. rewrite app_nil_r. reflexivity. }
  assert (Nms : named ms) by (intros I; apply Nm; right; exact I). specialize (IH Nms).
  cbn [performs]. destruct m as [s|sh s|n| |c f]; cbn [perform].
  - cbn [bind]. unfold text. cbn [ColModel.buffer ColModel.need_reset]. rewrite IH. split.
    + intros (out & -> & D). exists (s ++ out). rewrite app_assoc. split; [reflexivity|constructor; exact D].
    + intros (out & -> & D). inversion D; subst. eexists. rewrite <- app_assoc. split; [reflexivity|assumption].
  - cbn [bind]. rewrite wordesc_ok. unfold text. cbn [ColModel.buffer ColModel.need_reset]. rewrite IH. split.
    + intros (out & -> & D). exists (quoted_as l sh s ++ out). rewrite app_assoc. split; [reflexivity|constructor; exact D].
    + intros (out & -> & D). inversion D; subst. eexists. rewrite <- app_assoc. split; [reflexivity|assumption].
  - assert (Nn : n <> str "rs") by (intros ->; apply Nm; left; reflexivity).
    unfold print_color. destruct (Nat.leb_spec 4 (length n)) as [L|L].
    { split; [discriminate|]. intros (out & _ & D). inversion D; subst; lia. }
    rewrite equal_rs by exact Nn. destruct (names t n) as [[e|]|] eqn:E.
    + cbn [bind]. rewrite esc_eq. cbn [ColModel.buffer ColModel.need_reset]. rewrite IH. split.
      * intros (out & -> & D). exists (sequence (base t) e ++ out). rewrite app_assoc. split; [reflexivity|]. eapply d_hue; eassumption.
      * intros (out & -> & D). inversion D; subst; [congruence|]. replace e0 with e in * by congruence. eexists. rewrite <- app_assoc. split; [reflexivity|assumption].
    + cbn [bind print_esc]. rewrite IH. split.
      * intros (out & -> & D). exists out. split; [reflexivity|]. apply d_none; assumption.
      * intros (out & -> & D). inversion D; subst; [|congruence]. eexists. split; [reflexivity|assumption].
    + split; [discriminate|]. intros (out & _ & D). inversion D; congruence.
  - unfold print_color. change (4 <=? length (str "rs")) with false. change (equal (str "rs") (str "rs")) with true. cbn iota. cbn [bind].
    unfold print_reset. cbn [ColModel.need_reset]. destruct on; cbn [negb].
    + unfold print_esc_chunk. cbn [ColModel.buffer ColModel.need_reset]. rewrite IH. split.
      * intros (out & -> & D). eexists. rewrite <- app_assoc. split; [reflexivity|]. constructor. exact D.
      * intros (out & -> & D). inversion D; subst. eexists. rewrite <- app_assoc. split; [reflexivity|assumption].
    + rewrite IH. split.
      * intros (out & -> & D). exists out. split; [reflexivity|]. constructor. exact D.
      * intros (out & -> & D). inversion D; subst. eexists. split; [reflexivity|assumption].
  - cbn [palette option_map]. rewrite show_from. destruct (show l (Some (base t)) c (mkCfile [] on) f) as [[new on1]|] eqn:E.
    + cbn [option_map of_option bind]. unfold before. cbn [ColModel.buffer ColModel.need_reset]. rewrite IH. split.
      * intros (out & -> & D). exists (new ++ out). rewrite app_assoc. split; [reflexivity|]. eapply d_shown; eassumption.
      * intros (out & -> & D). inversion D; subst. match goal with H : show _ _ _ _ _ = _ |- _ => rewrite E in H; injection H as <- <- end.
        eexists. rewrite <- app_assoc. split; [reflexivity|assumption].
    + cbn [option_map of_option bind]. split; [discriminate|]. intros (out & _ & D). inversion D; congruence.
Qed.

Lemma named_app ms ms' : named ms -> named ms' -> named (ms ++ ms').
Proof. intros A B I. apply in_app_or in I. destruct I; [apply A|apply B]; assumption. Qed.
Lemma named_in ms : (forall m, In m ms -> m <> Hue (str "rs")) -> named ms.
Proof. intros H I. exact (H _ I eq_refl). Qed.
Lemma named_args k argv : named (arguments k argv).
Proof.
  destruct argv as [|a more]; [intros []|]. apply named_app.
  - apply named_in. intros m I. destruct I as [<-|[<-|[<-|[]]]]; [destruct k; vm_compute; discriminate|discriminate|discriminate].
  - induction more as [|b more IH]; [intros []|]. cbn [flat_map]. apply named_app; [|exact IH].
    apply named_in. intros m I. destruct I as [<-|[<-|[<-|[<-|[]]]]]; vm_compute; discriminate.
Qed.
Ltac lits := apply named_in; let m := fresh in let I := fresh in intros m I; cbn [In app] in I;
  repeat (destruct I as [<-|I]; [vm_compute; discriminate|]); destruct I.
Lemma named_parens v k argv s e r t ins : named ins -> named (parens v k argv s e r t ins).
Proof.
  intros N. unfold parens. apply named_app; [lits|]. apply named_app; [apply named_args|]. apply named_app.
  - destruct v; [|intros []]. unfold rates_of, yellow. lits.
  - apply named_app; [exact N|lits].
Qed.
Lemma named_inside p ch : (forall x, named (p x)) -> named (inside p ch).
Proof.
  intros N. unfold inside. destruct ch as [|a [|b [|c ch]]].
  - intros [].
  - apply (named_app [_]); [lits|apply N].
  - apply (named_app [_]); [lits|]. apply named_app; [apply N|]. apply (named_app [_]); [lits|apply N].
  - apply (named_app [_]); [lits|]. apply named_app; [apply N|]. apply (named_app [_]); [lits|]. apply named_app; [apply N|lits].
Qed.
Lemma named_converts c v ms : converts c v ms -> named ms.
Proof.
  intros C. destruct C; try solve [lits].
  - destruct e as [k argv s e r t ch]. apply named_parens, named_inside. intros [k' argv' s' e' r' t' ch'].
    apply named_parens, named_inside. intros x. lits.
  - apply named_args.
  - unfold first_arg. apply named_in. intros m I. destruct I as [<-|[<-|[<-|[]]]]; [destruct (kind_of e); vm_compute; discriminate|discriminate|discriminate].
Qed.
Lemma named_says ps vs ms : Forall proper_piece ps -> says ps vs ms -> named ms.
Proof.
  intros P S. induction S; try (inversion P as [|p0 ps0 PP PPs]; subst; specialize (IHS PPs)).
  - intros [].
  - apply (named_app [_]); [lits|assumption].
  - apply (named_app [_]); [lits|assumption].
  - apply (named_app [_]); [lits|assumption].
  - destruct PP as [_ N]. intros [E|I]; [injection E as E; exact (N E)|exact (IHS I)].
  - apply (named_app [_]); [lits|assumption].
  - apply named_app; [eapply named_converts; eassumption|assumption].
Qed.

Lemma format_ok : forall l cs vs on f out on', Forall fine vs ->
  (cvfprintf l cs f vs on = Printed (mkCfile out on') <->
   exists ps ms, Forall proper_piece ps /\ f = concat (map written ps) /\ says ps vs ms /\ looks l cs on ms out on').
Proof.
  intros l cs vs on f out on' F.
  assert (X : forall ps ms, Forall proper_piece ps -> says ps vs ms ->
    (cvfprintf l cs (concat (map written ps)) vs on = Printed (mkCfile out on') <-> looks l cs on ms out on')).
  { intros ps ms P S. rewrite (format_runs l cs ps vs ms on P S). destruct cs as [t|]; cbn [looks].
    - rewrite performs_drawn by (eapply named_says; eassumption). split.
      + intros (out' & -> & D). exact D.
      + intros D. exists out. split; [reflexivity|exact D].
    - rewrite performs_plain. unfold text. cbn [ColModel.buffer ColModel.need_reset app]. split.
      + intros [= <- <-]. split; reflexivity.
      + intros [-> ->]. reflexivity. }
  split.
  - intros H. pose proof H as H'. unfold cvfprintf, cvbuff in H'. rewrite run_fuel in H' by apply le_n.
    destruct (run_inv l cs _ _ _ _ _ (le_n _) F H') as (ps & ms & P & -> & S). exists ps, ms. rewrite (X ps ms P S) in H. auto.
  - intros (ps & ms & P & -> & S & K). apply (X ps ms P S). exact K.
Qed.

(** ** Colors end *)
Lemma colored_off l cs e s : forall b, need_reset (print_colored l cs (mkCfile b false) e s) = false.
Proof.
  intros b. destruct s as [|c s]; [reflexivity|]. unfold print_colored, print_reset.
  match goal with |- need_reset (if negb ?r then ?o else _) = false => destruct r eqn:E end; [reflexivity|exact E].
Qed.
Lemma shown_off l cs c b f o : show l (Some cs) c (mkCfile b false) f = Some o -> need_reset o = false.
Proof.
  assert (Pc : forall p own fl, print_path_colored l cs (mkCfile b false) p own f fl = Some o -> need_reset o = false).
  { intros p own fl. unfold print_path_colored. destruct (cpath_init p own f fl) as [x|]; [|discriminate].
    destruct (if c_nameoff x <? c_valid x then _ else _) as [[e n]|]; [|discriminate]. intros [= <-].
    assert (K : forall o e s, need_reset o = false -> need_reset (print_colored l cs o e s) = false).
    { intros [b0 on0] e0 s0 Z. cbn in Z. subst on0. apply colored_off. }
    apply K, K, K. reflexivity. }
  assert (T : print_link_target l (Some cs) (mkCfile b false) f = Some o -> need_reset o = false).
  { unfold print_link_target. destruct (target f); [apply Pc|]. intros [= <-]. reflexivity. }
  destruct c; try exact T; unfold show.
  - unfold print_name, print_name_colored. destruct (file_color _ _ _); [|discriminate]. intros [= <-]. apply colored_off.
  - apply Pc.
Qed.
Lemma reset_ok : forall l t ms out on', closed ms -> drawn l t false ms out on' -> on' = false.
Proof.
  intros l t ms out on' C D.
  assert (X : forall on, drawn l t on ms out on' -> closed ms -> (on = true -> In End ms) -> on' = false).
  { clear C D. intros on D. induction D; intros C E; cbn [closed] in C.
    - destruct on; [destruct (E eq_refl)|reflexivity].
    - apply IHD; [exact C|]. intros O. destruct (E O) as [X|X]; [discriminate X|exact X].
    - apply IHD; [exact C|]. intros O. destruct (E O) as [X|X]; [discriminate X|exact X].
    - destruct C as [_ C]. apply IHD; [exact C|]. intros O. destruct (E O) as [X|X]; [discriminate X|exact X].
    - destruct C as [I C]. apply IHD; [exact C|]. intros _. exact I.
    - apply IHD; [exact C|discriminate].
    - apply IHD; [exact C|discriminate].
    - apply IHD; [exact C|]. intros O. destruct on.
      + destruct (E eq_refl) as [X|X]; [discriminate X|exact X].
      + apply shown_off in H. cbn in H. congruence. }
  apply (X false D C). discriminate.
Qed.

(** ** Colors only add escape sequences *)
Lemma no_shown_tl m ms : no_shown (m :: ms) -> no_shown ms.
Proof. intros H c f I. exact (H c f (or_intror I)). Qed.
Lemma same_ok : forall l t on ms out on', no_shown ms -> drawn l t on ms out on' ->
  exists parts : list (bool * list byte), out = concat (map snd parts) /\ plain l ms = concat (map snd (filter fst parts)) /\
    forall s, In (false, s) parts -> s = seq (endcode (base t)) \/ exists n e, names t n = Some (Some e) /\ s = sequence (base t) e.
Proof.
  intros l t on ms out on' N D. induction D; try (apply no_shown_tl in N as N'; destruct (IHD N') as (ps & -> & P & E)).
  - exists []. repeat split. intros s [].
  - exists ((true, s) :: ps). repeat split; [|intros s' [X|X]; [discriminate X|exact (E _ X)]].
    unfold plain in *. cbn [map concat plain1 filter fst snd]. rewrite P. reflexivity.
  - exists ((true, quoted_as l sh s) :: ps). repeat split; [|intros s' [X|X]; [discriminate X|exact (E _ X)]].
    unfold plain in *. cbn [map concat plain1 filter fst snd]. rewrite P. reflexivity.
  - exists ps. repeat split; assumption.
  - exists ((false, sequence (base t) e) :: ps). repeat split; [exact P|]. intros s' [[= <-]|X]; [right; eauto|exact (E _ X)].
  - exists ((false, seq (endcode (base t))) :: ps). repeat split; [exact P|]. intros s' [[= <-]|X]; [left; reflexivity|exact (E _ X)].
  - exists ps. repeat split; assumption.
  - exfalso. exact (N c f (or_introl eq_refl)).
Qed.

(** ** Control characters *)
Lemma printable_control l s b : control l b -> printable l s -> ~ In b s.
Proof.
  intros (A & Pb & _ & W) P. induction P; cbn [In].
  - tauto.
  - intros [->|I]; tauto.
  - intros [->|I]; [congruence|tauto].
  - rewrite in_app_iff. intros [I|I]; [|tauto]. exact (W _ _ _ _ _ H (or_introl H0) I).
Qed.
Lemma word_control l sh s b : quote_alone l -> control l b -> ~ In b (quoted_as l sh s).
Proof.
  intros Q C. destruct sh.
  - rewrite quoted_as_eq. apply (printable_control l); [exact C|]. apply quoted_printable. exact Q.
  - rewrite quoted_as_eq, <- tty_quoted. apply tty_control. exact C.
Qed.
Lemma safe_ok : forall l cs on ms out on' b, quote_alone l -> no_shown ms -> control l b -> looks l cs on ms out on' -> In b out ->
  (exists s, In (Lit s) ms /\ In b s) \/ exists t, cs = Some t /\ in_theme t b.
Proof.
  intros l cs on ms out on' b Q N C. destruct cs as [t|]; cbn [looks].
  - intros D I. induction D.
    + destruct I.
    + apply no_shown_tl in N as N'. apply in_app_or in I. destruct I as [I|I]; [left; exists s; split; [left; reflexivity|exact I]|].
      destruct (IHD N' I) as [(s' & S & J)|R]; [left; exists s'; split; [right; exact S|exact J]|right; exact R].
    + apply no_shown_tl in N as N'. apply in_app_or in I. destruct I as [I|I]; [destruct (word_control l sh s b Q C I)|].
      destruct (IHD N' I) as [(s' & S & J)|R]; [left; exists s'; split; [right; exact S|exact J]|right; exact R].
    + apply no_shown_tl in N as N'. destruct (IHD N' I) as [(s' & S & J)|R]; [left; exists s'; split; [right; exact S|exact J]|right; exact R].
    + apply no_shown_tl in N as N'. apply in_app_or in I. destruct I as [I|I].
      * right. exists t. split; [reflexivity|]. unfold sequence in I. apply in_app_or in I. destruct I as [I|I]; [left; left; exact I|].
        apply in_app_or in I. destruct I as [I|I]; [right; eauto|left; right; left; exact I].
      * destruct (IHD N' I) as [(s' & S & J)|R]; [left; exists s'; split; [right; exact S|exact J]|right; exact R].
    + apply no_shown_tl in N as N'. apply in_app_or in I. destruct I as [I|I].
      * right. exists t. split; [reflexivity|]. left. right. right. left. exact I.
      * destruct (IHD N' I) as [(s' & S & J)|R]; [left; exists s'; split; [right; exact S|exact J]|right; exact R].
    + apply no_shown_tl in N as N'. destruct (IHD N' I) as [(s' & S & J)|R]; [left; exists s'; split; [right; exact S|exact J]|right; exact R].
    + exfalso. exact (N c f (or_introl eq_refl)).
  - intros [-> _] I. left. unfold plain in I. apply in_concat in I. destruct I as (x & X & I). apply in_map_iff in X.
    destruct X as (m & <- & M). destruct m as [s|sh s|n| |c f]; cbn [plain1] in I.
    + exists s. split; assumption.
    + destruct (word_control l sh s b Q C I).
    + destruct I.
    + destruct I.
    + destruct (N c f M).
Qed.

(** ** Arguments *)
Lemma plain_app l ms ms' : plain l (ms ++ ms') = plain l ms ++ plain l ms'.
Proof. unfold plain. rewrite map_app, concat_app. reflexivity. Qed.
Lemma spaced_more l more : forall q, q ++ plain l (flat_map other_arg more) = spaced (q :: map (quoted_as l true) more).
Proof.
  induction more as [|a more IH]; intros q; [apply app_nil_r|]. cbn [flat_map map]. rewrite plain_app.
  change (plain l (other_arg a)) with (str " " ++ quoted_as l true a ++ []). rewrite app_nil_r, <- app_assoc, IH. reflexivity.
Qed.
Lemma args_line : forall l e on, good_locale l -> sound e -> Forall (fun a => ~ In x00 a) (argv_of e) ->
  exists line, cvfprintf l None (str "%px") [VExpr (Some e)] on = Printed (mkCfile line on) /\ shell_line line (argv_of e).
Proof.
  intros l e on G S N. exists (plain l (arguments (kind_of e) (argv_of e))). split.
  - apply format_ok; [repeat constructor; exact S|]. exists [Conv Args], (arguments (kind_of e) (argv_of e) ++ []).
    split; [repeat constructor|]. split; [reflexivity|]. split; [constructor; [constructor; exact S|constructor]|]. cbn [looks]. rewrite app_nil_r. split; reflexivity.
  - destruct e as [k argv s e r t ch]. cbn [kind_of argv_of] in *. inversion S as [? ? ? ? ? ? ? Ne _]; subst.
    destruct argv as [|a more]; [contradiction|]. exists (map (quoted_as l true) (a :: more)). split.
    + cbn [arguments]. rewrite plain_app. change (plain l (first_arg k a)) with (quoted_as l true a ++ []). rewrite app_nil_r. apply spaced_more.
    + clear S Ne. induction N as [|x xs Nx _ IH]; cbn [map]; constructor; [|exact IH].
      rewrite quoted_as_eq. apply quoted_reads; assumption.
Qed.

(** ** Numbers *)
Lemma digits_zero fuel : forall n acc, (n < 2 ^ N.of_nat fuel)%N -> n <> 0%N -> hd_error (FlsModel.print_digits fuel n acc) <> Some "0"%byte.
Proof.
  induction fuel as [|fuel IH]; intros n acc H Z; cbn [FlsModel.print_digits]; [cbn in H; lia|].
  destruct (n <? 10)%N eqn:E.
  - cbn [hd_error]. intros [= K]. assert (D := FlsProofs.digit_ok n ltac:(lia)). rewrite K in D. vm_compute in D. congruence.
  - apply N.ltb_ge in E. apply IH.
    + replace (N.of_nat (S fuel)) with (N.succ (N.of_nat fuel)) in H by lia. rewrite N.pow_succ_r' in H.
      apply N.div_lt_upper_bound; lia.
    + intros K. apply N.div_small_iff in K; lia.
Qed.
Lemma ju_decimal n : decimal n (FlsModel.ju n).
Proof.
  split; [apply FlsProofs.ju_ok|]. destruct (N.eq_dec n 0) as [->|Z]; [intros _; split; reflexivity|].
  intros K. unfold FlsModel.ju in K. apply digits_zero in K; [destruct K| |exact Z].
  replace (N.of_nat (S (N.to_nat (N.log2 n)))) with (N.succ (N.log2 n)) by lia. apply N.log2_spec. lia.
Qed.
Lemma numbers : forall l cs on,
  (forall n, exists s, cvfprintf l cs (str "%zu") [VSize n] on = Printed (mkCfile s on) /\ decimal n s) /\
  (forall n, exists s, cvfprintf l cs (str "%d") [VInt n] on = Printed (mkCfile s on) /\ signed_decimal n s).
Proof.
  intros l cs on. split; intros n; eexists; (split; [reflexivity|]); cbn [app ColModel.buffer text firstn].
  - apply ju_decimal.
  - unfold signed_decimal, d, FlsModel.jd. destruct (n <? 0)%Z; [eexists; split; [reflexivity|]|]; apply ju_decimal.
Qed.
