(** * Proofs about messages about the command line *)
From Coq Require Import String List Arith NArith ZArith Bool Lia.
From Coq Require Import Init.Byte Strings.Byte.
From Coq Require Import ZifyBool ZifyNat ZifyN.
From Verif Require Import QuoteModel QuoteSpec QuoteProofs BarModel BarSpec BarProofs DiagModel DiagSpec.
Import ListNotations.
Local Open Scope nat_scope.

(** ** Highlighting *)
Lemma set_ok args : forall i, match set args i with
  | Some args' => i < List.length args /\ List.length args' = List.length args /\ forall k, nth k args' false = (i =? k) || nth k args false
  | None => List.length args <= i
  end.
Proof.
  induction args as [|b args IH]; intros i; cbn [set]; [cbn; lia|]. destruct i as [|i].
  - split; [cbn; lia|]. split; [reflexivity|]. intros [|k]; reflexivity.
  - specialize (IH i). destruct (set args i) as [args'|]; cbn [option_map]; [|cbn; lia]. destruct IH as (A & B & C). split; [cbn; lia|]. split; [cbn; lia|].
    intros [|k]; [reflexivity|]. cbn [nth]. rewrite C. reflexivity.
Qed.
Lemma set_range_ok j : forall args i, match set_range args i j with
  | Some args' => i + j <= max i (List.length args) /\ List.length args' = List.length args /\ forall k, nth k args' false = ((i <=? k) && (k <? i + j)) || nth k args false
  | None => List.length args < i + j
  end.
Proof.
  induction j as [|j IH]; intros args i; cbn [set_range].
  - split; [lia|]. split; [reflexivity|]. intros k. destruct (Nat.leb_spec i k); destruct (Nat.ltb_spec k (i + 0)); try lia; reflexivity.
  - pose proof (set_ok args i) as E. destruct (set args i) as [a|]; [|lia]. destruct E as (E1 & E2 & E3).
    specialize (IH a (S i)). destruct (set_range a (S i) j) as [args'|]; [|lia]. destruct IH as (A & B & C). split; [lia|]. split; [lia|].
    intros k. rewrite C, E3. destruct (nth k args false); rewrite ?orb_true_r, ?orb_false_r; [reflexivity|]. lia.
Qed.

Fixpoint each (argc : nat) (ret : bool) (children : list expr) (args : list bool) : option (bool * list bool) :=
  match children with
  | [] => Some (ret, args)
  | child :: rest => match highlight_rec argc child args with Some (r, args) => each argc (ret || r) rest args | None => None end
  end.
Lemma highlight_unfold argc argv n children args : highlight_rec argc (Expr argv n children) args =
  match match argv with
    | Some i => if i <? argc then match set_range args i n with Some args => Some (0 <? n, args) | None => None end else Some (false, args)
    | None => Some (false, args) end with
  | None => None | Some (ret, args) => each argc ret children args end.
Proof.
  cbn [highlight_rec]. match goal with |- match ?a with _ => _ end = _ => destruct a as [[r a']|]; [|reflexivity] end.
  revert r a'. induction children as [|c cs IH]; intros r a'; [reflexivity|]. cbn [each]. destruct (highlight_rec argc c a') as [[r' a'']|]; [apply IH|reflexivity].
Qed.

Definition outcome argc e args (o : option (bool * list bool)) : Prop :=
  match o with
  | Some (r, args') => in_range argc e /\ List.length args' = argc /\ (forall k, nth k args' false = true <-> mentions argc e k \/ nth k args false = true) /\
      (r = true <-> exists k, mentions argc e k)
  | None => ~ in_range argc e
  end.

Fixpoint size (e : expr) : nat := let '(Expr _ _ cs) := e in S (fold_right (fun c n => size c + n) 0 cs).
Lemma size_child c cs : In c cs -> size c <= fold_right (fun c n => size c + n) 0 cs.
Proof. induction cs as [|x cs IH]; [intros []|]. intros [->|I]; cbn [fold_right]; [lia|]. apply IH in I. lia. Qed.

Lemma highlight_rec_ok m : forall argc e args, size e <= m -> List.length args = argc -> outcome argc e args (highlight_rec argc e args).
Proof.
  induction m as [|m IH]; intros argc e args SZ L; [destruct e; cbn in SZ; lia|]. destruct e as [argv n cs]. rewrite highlight_unfold. cbn [size] in SZ.
  (* the children *)
  assert (CH : forall cs' ret a, (forall c, In c cs' -> size c <= m) -> List.length a = argc ->
    match each argc ret cs' a with
    | Some (r, a') => (forall c, In c cs' -> in_range argc c) /\ List.length a' = argc /\ (forall k, nth k a' false = true <-> (exists c, In c cs' /\ mentions argc c k) \/ nth k a false = true) /\
        (r = true <-> ret = true \/ exists c k, In c cs' /\ mentions argc c k)
    | None => exists c, In c cs' /\ ~ in_range argc c
    end).
  { induction cs' as [|c cs' IHc]; intros ret a SZ' La; cbn [each].
    - split; [intros c []|]. split; [exact La|]. split; [intros k; split; [auto|intros [(c & [] & _)|H]; exact H]|]. split; [auto|intros [H|(c & k & [] & _)]; exact H].
    - pose proof (IH argc c a (SZ' c (or_introl eq_refl)) La) as O. destruct (highlight_rec argc c a) as [[r a']|]; cbn [outcome] in O; [|exists c; split; [left; reflexivity|exact O]].
      destruct O as (O1 & O2 & O3 & O4). specialize (IHc (ret || r) a' (fun d I => SZ' d (or_intror I)) O2). destruct (each argc (ret || r) cs' a') as [[r2 a2]|].
      + destruct IHc as (I1 & I2 & I3 & I4). split; [intros d [<-|I]; auto|]. split; [exact I2|]. split.
        * intros k. rewrite I3, O3. split; [intros [(d & D1 & D2)|[D|D]]; [left; exists d; split; [right|]; auto|left; exists c; split; [left|]; auto|auto]|].
          intros [(d & [<-|D1] & D2)|D]; [auto| |auto]. left. exists d. auto.
        * rewrite I4, orb_true_iff, O4. split.
          -- intros [[H|(k & H)]|(d & k & D1 & D2)]; [auto|right; exists c, k; split; [left|]; auto|right; exists d, k; split; [right|]; auto].
          -- intros [H|(d & k & [<-|D1] & D2)]; [auto|left; right; exists k; exact D2|right; exists d, k; auto].
      + destruct IHc as (d & D1 & D2). exists d. split; [right; exact D1|exact D2]. }
  assert (SZC : forall c, In c cs -> size c <= m) by (intros c I; apply size_child in I; lia).
  assert (RANGE : in_range argc (Expr argv n cs) <-> (forall i, argv = Some i -> i < argc -> i + n <= argc) /\ forall c, In c cs -> in_range argc c).
  { split.
    - intros H. split; [intros i -> Hi; apply (H i n cs); [apply po_self|exact Hi]|]. intros c I i n' cs' P. apply (H i n' cs'). eapply po_child; eassumption.
    - intros (H1 & H2) i n' cs' P. inversion P as [E|argv' argc' children' c I P' E]; subst; [apply H1; reflexivity|apply (H2 c I i n' cs' P')]. }
  assert (MENT : forall k, mentions argc (Expr argv n cs) k <-> (exists i, argv = Some i /\ i < argc /\ i <= k < i + n) \/ exists c, In c cs /\ mentions argc c k).
  { intros k. split.
    - intros (i & n' & cs' & P & B & K). inversion P as [E|argv' argc' children' c I P' E]; subst; [left; exists i; auto|right; exists c; split; [exact I|exists i, n', cs'; auto]].
    - intros [(i & -> & B & K)|(c & I & i & n' & cs' & P & B & K)]; [exists i, n, cs; split; [apply po_self|auto]|exists i, n', cs'; split; [eapply po_child; eassumption|auto]]. }
  (* the node *)
  assert (FIN : forall (own : nat -> Prop) ret a1, List.length a1 = argc -> (forall i, argv = Some i -> i < argc -> i + n <= argc) ->
     (forall k, own k <-> exists i, argv = Some i /\ i < argc /\ i <= k < i + n) ->
     (forall k, nth k a1 false = true <-> own k \/ nth k args false = true) -> (ret = true <-> exists k, own k) -> outcome argc (Expr argv n cs) args (each argc ret cs a1)).
  { intros own ret a1 La Hr Ho Ha Hret. specialize (CH cs ret a1 SZC La). destruct (each argc ret cs a1) as [[r a']|]; cbn [outcome].
    - destruct CH as (C1 & C2 & C3 & C4). split; [apply RANGE; auto|]. split; [exact C2|]. split.
      + intros k. rewrite C3, Ha, MENT, <- Ho. tauto.
      + rewrite C4, Hret. split.
        * intros [(k & H)|(c & k & H)]; exists k; apply MENT; [left; apply Ho; exact H|right; exists c; exact H].
        * intros (k & H). apply MENT in H. destruct H as [H|(c & H)]; [left; exists k; apply Ho; exact H|right; exists c, k; exact H].
    - intros H. apply RANGE in H. destruct CH as (c & C1 & C2). apply C2. apply H. exact C1. }
  destruct argv as [i|].
  2: { apply (FIN (fun _ => False)); [exact L|discriminate| | |].
       - intros k. split; [intros []|intros (i & E & _); discriminate E].
       - intros k. tauto.
       - split; [discriminate|intros (k & [])]. }
  destruct (Nat.ltb_spec i argc) as [LT|GE].
  2: { apply (FIN (fun _ => False)); [exact L| | | |].
       - intros j E H. injection E as <-. lia.
       - intros k. split; [intros []|intros (j & E & H & _); injection E as <-; lia].
       - intros k. tauto.
       - split; [discriminate|intros (k & [])]. }
  pose proof (set_range_ok n args i) as R. destruct (set_range args i n) as [a1|].
  - destruct R as (R1 & R2 & R3). apply (FIN (fun k => i <= k < i + n)); [lia| | | |].
    + intros j E H. injection E as <-. lia.
    + intros k. split; [intros H; exists i; auto|intros (j & E & _ & H); injection E as <-; exact H].
    + intros k. rewrite R3, orb_true_iff, andb_true_iff, Nat.leb_le, Nat.ltb_lt. tauto.
    + rewrite Nat.ltb_lt. split; [intros H; exists i; lia|intros (k & H); lia].
  - cbn [outcome]. intros H. apply RANGE in H. destruct H as (H & _). specialize (H i eq_refl LT). lia.
Qed.

Lemma nth_false k n : nth k (repeat false n) false = false.
Proof. revert k. induction n as [|n IH]; intros [|k]; cbn; auto. Qed.
Lemma highlight_ok argc e : in_range argc e -> exists r args, highlight_expr argc e = Some (r, args) /\ List.length args = argc /\
  (forall k, nth_error args k = Some true <-> mentions argc e k) /\ (r = true <-> exists k, mentions argc e k).
Proof.
  intros H. unfold highlight_expr. pose proof (highlight_rec_ok (size e) argc e (repeat false argc) (le_n _) (repeat_length _ _)) as O.
  destruct (highlight_rec argc e (repeat false argc)) as [[r args]|]; cbn [outcome] in O; [|contradiction]. destruct O as (_ & O2 & O3 & O4).
  exists r, args. split; [reflexivity|]. split; [exact O2|]. split; [|exact O4]. intros k. specialize (O3 k). rewrite nth_false in O3. split.
  - intros E. apply nth_error_nth with (d := false) in E. rewrite E in O3. destruct O3 as (O3 & _). destruct (O3 eq_refl) as [X|X]; [exact X|discriminate X].
  - intros M. assert (E : nth k args false = true) by (apply O3; auto). rewrite <- E. apply nth_error_nth'. destruct (Nat.lt_ge_cases k (List.length args)); [assumption|]. rewrite nth_overflow in E by assumption. discriminate E.
Qed.

(** ** Rendering *)
Lemma render_app a : forall st b, render st (a ++ b) = render st a ++ render (final st a) b.
Proof. induction a as [|[s|c|] a IH]; intros st b; cbn [app render final]; rewrite ?IH, ?app_assoc; reflexivity. Qed.
Lemma final_app a : forall st b, final st (a ++ b) = final (final st a) b.
Proof. induction a as [|[s|c|] a IH]; intros st b; cbn [app final]; auto. Qed.
Lemma prefix_final cmd w st : final st (prefix cmd w) = None.
Proof. destruct w; reflexivity. Qed.
Lemma prefix_render cmd w : render None (prefix cmd w) = heading cmd w.
Proof. unfold prefix, heading. cbn [app render]. destruct w; reflexivity. Qed.
Lemma render_repeat c n st : render st (repeat (Lit [c]) n) = repeat (c, st) n.
Proof. induction n as [|n IH]; [reflexivity|]. cbn [repeat render map app]. rewrite IH. reflexivity. Qed.
Lemma final_repeat s n st : final st (repeat (Lit s) n) = st.
Proof. induction n; auto. Qed.

(** The first line *)
Fixpoint last_marked (i m : nat) (args : list bool) : nat :=
  match args with [] => m | hl :: args => last_marked (S i) (if hl then i + 1 else m) args end.
Lemma print_args_ok words : forall args i m, List.length args = List.length words ->
  snd (print_args i m words args) = last_marked i m args /\
  final None (fst (print_args i m words args)) = None /\
  render None (fst (print_args i m words args)) = (match words with [] => [] | _ => if 0 <? i then [(x20, None)] else [] end) ++ command_line words args.
Proof.
  induction words as [|w words IH]; intros [|hl args] i m L; try discriminate L; [repeat split; reflexivity|]. cbn [print_args last_marked].
  specialize (IH args (S i) (if hl then i + 1 else m) ltac:(injection L; auto)). destruct (print_args (S i) (if hl then i + 1 else m) words args) as [rest mx]. cbn [fst snd] in *.
  destruct IH as (A & B & C). split; [exact A|]. split.
  - rewrite !final_app. destruct (0 <? i); destruct hl; cbn [final]; exact B.
  - rewrite !render_app. cbn [command_line].
    assert (R1 : render None (if 0 <? i then [Lit (str " ")] else []) = if 0 <? i then [(x20, None)] else []) by (destruct (0 <? i); reflexivity).
    assert (F1 : final None (if 0 <? i then [Lit (str " ")] else []) = None) by (destruct (0 <? i); reflexivity).
    rewrite R1, F1. clear R1 F1. f_equal.
    assert (R2 : render None (if hl then [On Bld; Lit w; Rs] else [Lit w]) = map (fun b => (b, if hl then Some Bld else None)) w) by (destruct hl; cbn [render]; rewrite app_nil_r; reflexivity).
    assert (F2 : final None (if hl then [On Bld; Lit w; Rs] else [Lit w]) = None) by (destruct hl; reflexivity).
    rewrite R2, F2, C. f_equal. destruct words as [|w' words]; [destruct args; [reflexivity|discriminate L]|]. reflexivity.
Qed.
Lemma last_marked_bound args : forall i m, m <= i -> last_marked i m args <= i + List.length args /\
  (last_marked i m args = m /\ (forall k, nth k args false = false) \/ exists k, last_marked i m args = i + k + 1 /\ nth k args false = true /\ forall j, k < j -> nth j args false = false).
Proof.
  induction args as [|hl args IH]; intros i m L; cbn [last_marked List.length].
  - split; [lia|]. left. split; [reflexivity|]. intros [|k]; reflexivity.
  - destruct (IH (S i) (if hl then i + 1 else m) ltac:(destruct hl; lia)) as (A & B). split; [lia|]. destruct B as [(B1 & B2)|(k & B1 & B2 & B3)].
    + destruct hl.
      * right. exists 0. split; [lia|]. split; [reflexivity|]. intros [|j] J; [lia|]. apply B2.
      * left. split; [exact B1|]. intros [|k]; [reflexivity|apply B2].
    + right. exists (S k). split; [lia|]. split; [exact B2|]. intros [|j] J; [lia|]. apply B3. lia.
Qed.

Section Under.
  Variable widths : list nat.
  Variable args : list bool.
  Variable c : style.
  Notation hl := (arg_at args).
  Definition mark (b : bool) : byte * option style := if b then ("~"%byte, Some c) else (x20, None).
  Definition cell (i : nat) : list (byte * option style) := (if 0 <? i then [mark (hl (i - 1) && hl i)] else []) ++ repeat (mark (hl i)) (nth i widths 0).
  Fixpoint cells (n i : nat) : list (byte * option style) := match n with O => [] | S n => cell i ++ cells n (S i) end.
  Definition off (i : nat) : nat := start widths i - (if 0 <? i then 1 else 0).

  Lemma start_succ i : i < List.length widths -> start widths (S i) = start widths i + nth i widths 0 + 1.
  Proof.
    revert i. induction widths as [|w ws IH]; intros i L; [cbn in L; lia|]. destruct i as [|i]; [destruct ws; cbn; lia|].
    cbn [start nth]. cbn [List.length] in L. change (match ws with [] => 0 | w0 :: widths0 => w0 + 1 + start widths0 i end) with (start ws (S i)). rewrite IH by lia. lia.
  Qed.
  Lemma start_mono i j : i < j -> j <= List.length widths -> start widths i + nth i widths 0 + 1 <= start widths j.
  Proof. intros L B. induction j as [|j IH]; [lia|]. rewrite start_succ by lia. destruct (Nat.eq_dec i j) as [->|N]; [lia|]. specialize (IH ltac:(lia) ltac:(lia)). lia. Qed.
  Lemma off_0 : off 0 = 0.
  Proof. unfold off. destruct widths; reflexivity. Qed.
  Lemma cell_length i : List.length (cell i) = (if 0 <? i then 1 else 0) + nth i widths 0.
  Proof. unfold cell. rewrite app_length, repeat_length. destruct (0 <? i); reflexivity. Qed.
  Lemma off_succ i : i < List.length widths -> off (S i) = off i + List.length (cell i).
  Proof.
    intros L. unfold off. rewrite cell_length, start_succ by exact L. change (0 <? S i) with true. cbv iota. destruct (Nat.ltb_spec 0 i); [|lia].
    pose proof (start_mono 0 i ltac:(lia) ltac:(lia)). lia.
  Qed.
  Lemma cells_length n : forall i, i + n <= List.length widths -> off i + List.length (cells n i) = off (i + n).
  Proof.
    induction n as [|n IH]; intros i L; cbn [cells]; [cbn [List.length]; rewrite !Nat.add_0_r; reflexivity|]. rewrite app_length. specialize (IH (S i) ltac:(lia)). rewrite off_succ in IH by lia.
    rewrite <- Nat.add_succ_comm. lia.
  Qed.
  Lemma nth_error_repeat_some {A} (x y : A) n k : nth_error (repeat x n) k = Some y -> y = x /\ k < n.
  Proof. revert k. induction n as [|n IH]; intros [|k] H; cbn in H; try discriminate H; [injection H as <-; split; [reflexivity|lia]|]. apply IH in H. destruct H. split; [assumption|lia]. Qed.
  Lemma cells_nth n : forall i col x, i + n <= List.length widths -> nth_error (cells n i) col = Some x ->
    exists k, i <= k < i + n /\ (x = mark (hl k) /\ start widths k <= off i + col < start widths k + nth k widths 0 \/ 0 < k /\ x = mark (hl (k - 1) && hl k) /\ off i + col + 1 = start widths k).
  Proof.
    induction n as [|n IH]; intros i col x L H; cbn [cells] in H; [destruct col; discriminate H|].
    destruct (Nat.lt_ge_cases col (List.length (cell i))) as [C|C].
    - rewrite nth_error_app1 in H by exact C. exists i. split; [lia|]. rewrite cell_length in C. unfold cell in H. unfold off. destruct (Nat.ltb_spec 0 i) as [P|P]; cbn [app] in H.
      + pose proof (start_mono 0 i P ltac:(lia)). destruct col as [|col]; cbn [nth_error] in H.
        * injection H as <-. right. split; [exact P|]. split; [reflexivity|lia].
        * apply nth_error_repeat_some in H. destruct H as (-> & H). left. split; [reflexivity|lia].
      + apply nth_error_repeat_some in H. destruct H as (-> & H). left. split; [reflexivity|lia].
    - rewrite nth_error_app2 in H by exact C. apply (IH (S i)) in H; [|lia]. destruct H as (k & K & H). exists k. split; [lia|]. rewrite off_succ in H by lia. 
      replace (off i + List.length (cell i) + (col - List.length (cell i))) with (off i + col) in H by lia. exact H.
  Qed.

  Lemma marked_iff col : List.length args = List.length widths -> marked widths args col <->
    exists k, k < List.length widths /\ hl k = true /\ (start widths k <= col < start widths k + nth k widths 0 \/ col = start widths k + nth k widths 0 /\ hl (S k) = true).
  Proof.
    intros L. unfold marked, arg_at.
    assert (T : forall k, nth_error args k = Some true <-> nth k args false = true).
    { intros k. split; [intros H; apply nth_error_nth; exact H|]. intros H. rewrite <- H. apply nth_error_nth'. destruct (Nat.lt_ge_cases k (List.length args)); [assumption|]. rewrite nth_overflow in H by assumption. discriminate H. }
    split.
    - intros (k & w & A & B & C). exists k. rewrite <- !T. assert (K : k < List.length widths) by (apply nth_error_Some; congruence). apply nth_error_nth with (d := 0) in A. subst w. auto.
    - intros (k & K & B & C). rewrite <- !T in *. exists k, (nth k widths 0). split; [apply nth_error_nth'; exact K|]. auto.
  Qed.

  (** the two descriptions agree *)
  Lemma region_unique k k' col : k < List.length widths -> k' < List.length widths ->
    start widths k <= col <= start widths k + nth k widths 0 -> start widths k' <= col <= start widths k' + nth k' widths 0 -> k = k'.
  Proof.
    intros K K' A B. destruct (Nat.lt_trichotomy k k') as [H|[H|H]]; [|exact H|].
    - pose proof (start_mono k k' H ltac:(lia)). lia.
    - pose proof (start_mono k' k H ltac:(lia)). lia.
  Qed.
  Lemma cells_marked n col x : n <= List.length widths -> List.length args = List.length widths -> nth_error (cells n 0) col = Some x ->
    marked widths args col /\ x = ("~"%byte, Some c) \/ ~ marked widths args col /\ x = (x20, None).
  Proof.
    intros L LA H. apply cells_nth in H; [|lia]. rewrite off_0 in H. cbn [Nat.add] in H. rewrite marked_iff by exact LA.
    destruct H as (k & K & [(-> & H)|(P & -> & H)]).
    - unfold mark. destruct (hl k) eqn:E; [left; split; [|reflexivity]; exists k; repeat split; auto; lia|]. right. split; [|reflexivity].
      intros (k' & K' & E' & H'). assert (k = k') by (apply (region_unique k k' col); try lia). subst k'. congruence.
    - assert (SK : start widths k = start widths (k - 1) + nth (k - 1) widths 0 + 1) by (replace k with (S (k - 1)) at 1 by lia; apply start_succ; lia).
      assert (KS : S (k - 1) = k) by lia. unfold mark. destruct (hl (k - 1) && hl k) eqn:E.
      + left. split; [|reflexivity]. apply andb_true_iff in E. destruct E as (E1 & E2). exists (k - 1). split; [lia|]. split; [exact E1|]. right. split; [lia|]. rewrite KS. exact E2.
      + right. split; [|reflexivity]. intros (k' & K' & E' & H'). assert (k - 1 = k') by (apply (region_unique _ _ col); lia). subst k'. rewrite E', KS in *. cbn [andb] in E. destruct H' as [H'|(_ & H')]; [lia|congruence].
  Qed.
  Lemma marked_short n col : n <= List.length widths -> List.length args = List.length widths -> (forall k, n <= k -> hl k = false) -> marked widths args col -> col < List.length (cells n 0).
  Proof.
    intros L LA F M. rewrite marked_iff in M by exact LA. destruct M as (k & K & E & H). pose proof (cells_length n 0 ltac:(lia)) as CL. rewrite off_0 in CL. cbn [Nat.add] in CL.
    assert (KN : k < n) by (destruct (Nat.lt_ge_cases k n); [assumption|]; rewrite F in E by assumption; discriminate E).
    unfold off in CL. rewrite (proj2 (Nat.ltb_lt 0 n)) in CL by lia. destruct H as [H|(H & E2)].
    - pose proof (start_mono k n KN ltac:(lia)). lia.
    - assert (KN2 : S k < n) by (destruct (Nat.lt_ge_cases (S k) n); [assumption|]; rewrite F in E2 by assumption; discriminate E2).
      pose proof (start_mono k (S k) ltac:(lia) ltac:(lia)). pose proof (start_mono (S k) n KN2 ltac:(lia)). lia.
  Qed.
End Under.

Section Lines.
  Variable l : locale.
  Variable wcwidth : wc l -> Z.
  Hypothesis S : sane l wcwidth.

  Lemma underline_ok (words : list (list byte)) (args : list bool) (warning : bool) (m n : nat) : forall i (st : option style), i + n = m -> m <= List.length words -> List.length args = List.length words ->
    let c := if warning then Wrn else Err in
    st = (if (0 <? i) && (0 <? n) && arg_at args (i - 1) && arg_at args i then Some c else None) ->
    render st (underline l wcwidth n i m warning words args) = cells (map (xstrwidth l wcwidth) words) args c n i /\
    final st (underline l wcwidth n i m warning words args) = None.
  Proof.
    induction n as [|n IH]; intros i st E M L c ST.
    - cbn [underline render final cells]. rewrite ST. cbn [Nat.ltb Nat.leb]. rewrite andb_false_r. auto.
    - cbn [underline cells]. rewrite !render_app, !final_app. unfold cell. rewrite <- !app_assoc.
      replace (nth i (map (xstrwidth l wcwidth) words) 0) with (xstrwidth l wcwidth (nth i words [])).
      2: { rewrite (nth_indep _ 0 (xstrwidth l wcwidth [])) by (rewrite map_length; lia). rewrite map_nth. reflexivity. }
      set (w := xstrwidth l wcwidth (nth i words [])). fold c.
      change (0 <? Datatypes.S n) with true in ST. rewrite andb_true_r in ST.
      set (h := arg_at args i) in *. set (p := arg_at args (i - 1)) in *. set (nx := arg_at args (i + 1)).
      (* the separator *)
      assert (A1 : render st (if 0 <? i then [Lit (if p && h then str "~" else str " ")] else []) = (if 0 <? i then [mark c (p && h)] else []) /\
                   final st (if 0 <? i then [Lit (if p && h then str "~" else str " ")] else []) = st).
      { rewrite ST. destruct (0 <? i); [|auto]. cbn [andb]. destruct p, h; auto. }
      destruct A1 as (A1 & A2). rewrite A1, A2. clear A1 A2.
      (* the start of the color *)
      set (on := if h && ((i =? 0) || negb p) then [On c] else []).
      assert (B1 : render st on = [] /\ final st on = if h then Some c else None).
      { rewrite ST. unfold on. destruct i as [|i]; cbn [Nat.ltb Nat.leb Nat.eqb andb orb]; destruct p, h; auto. }
      destruct B1 as (B1 & B2). rewrite B1, B2. clear B1 B2. cbn [app].
      assert (C1 : render (if h then Some c else None) (repeat (Lit (if h then str "~" else str " ")) w) = repeat (mark c h) w).
      { destruct h; apply render_repeat. }
      rewrite C1, final_repeat. clear C1.
      (* the end of the color *)
      set (rs := if h && ((m <=? i + 1) || negb nx) then [Rs] else []).
      assert (D1 : render (if h then Some c else None) rs = [] /\ final (if h then Some c else None) rs = if (0 <? n) && h && nx then Some c else None).
      { unfold rs. destruct (Nat.leb_spec m (i + 1)); destruct (Nat.ltb_spec 0 n); try lia; destruct h, nx; auto. }
      destruct D1 as (D1 & D2). rewrite D1, D2. clear D1 D2. cbn [app].
      destruct (IH (Datatypes.S i) (if (0 <? n) && h && nx then Some c else None) ltac:(lia) M L) as (R & F).
      { fold c. change (0 <? Datatypes.S i) with true. cbn [andb]. replace (Datatypes.S i - 1) with i by lia. fold h. replace (Datatypes.S i) with (i + 1) by lia. fold nx. reflexivity. }
      fold c in R. rewrite R, F. auto.
  Qed.

  Lemma diag_ok : good_locale l -> quote_alone l -> forall cmd argv args warning, List.length args = List.length argv -> Forall (fun a => ~ In x00 a) argv ->
    exists words widths pre line1 line2,
      bfs_argv_diag l wcwidth cmd argv args warning = pre ++ line1 ++ [Lit [x0a]] ++ pre ++ line2 ++ [Lit [x0a]] /\
      render None pre = heading cmd warning /\ final None pre = None /\
      Forall2 (fun w a => shell_word w = Some a) words argv /\ Forall2 (fills l wcwidth) words widths /\
      render None line1 = command_line words args /\ final None line1 = None /\
      (forall col, marked widths args col <-> nth_error (render None line2) col = Some ("~"%byte, Some (if warning then Wrn else Err))) /\
      (forall col x, nth_error (render None line2) col = Some x -> ~ marked widths args col -> x = (x20, None)) /\
      final None line2 = None /\
      (List.length (render None line2) = 0 \/ exists i w, nth_error args i = Some true /\ nth_error widths i = Some w /\ List.length (render None line2) = start widths i + w).
  Proof.
    intros G Q cmd argv args warning L Z. unfold bfs_argv_diag. set (words := map (escape l) argv).
    assert (LW : List.length args = List.length words) by (unfold words; rewrite map_length; exact L).
    pose proof (print_args_ok words args 0 0 LW) as P. destruct (print_args 0 0 words args) as [line m]. cbn [fst snd] in P. destruct P as (P1 & P2 & P3).
    destruct (last_marked_bound args 0 0 (le_n _)) as (B1 & B2). rewrite <- P1 in B1, B2. cbn [Nat.add] in B1, B2.
    destruct (underline_ok words args warning m m 0 None (eq_refl _) ltac:(lia) LW (eq_refl _)) as (U1 & U2).
    set (widths := map (xstrwidth l wcwidth) words) in *. set (c := if warning then Wrn else Err) in *.
    assert (LM : List.length args = List.length widths) by (unfold widths; rewrite map_length; exact LW).
    assert (ES : forall a, escape l a = quoted l true a).
    { intros a. unfold escape. rewrite wordnesc_eq by lia. pose proof (quoted_length l true a). rewrite put_fits by lia. reflexivity. }
    assert (NM : forall k, m <= k -> arg_at args k = false).
    { unfold arg_at. destruct B2 as [(_ & B2)|(k & B2 & _ & B4)]; [intros k _; apply B2|]. intros j J. apply B4. lia. }
    exists words, widths, (prefix cmd warning), line, (underline l wcwidth m 0 m warning words args). split; [reflexivity|].
    split; [apply prefix_render|]. split; [apply prefix_final|].
    split. { unfold words. clear - G Z ES. induction Z as [|a argv Za Z IH]; [constructor|]. cbn [map]. constructor; [|exact IH]. rewrite ES. apply quoted_reads; assumption. }
    split. { unfold widths, words. clear - S Q ES. induction argv as [|a argv IH]; [constructor|]. cbn [map]. constructor; [|exact IH]. rewrite ES.
      destruct (printable_shows l wcwidth S _ (quoted_printable l Q a)) as (cs & A & B). exists cs. split; [exact A|]. split; [exact B|]. symmetry. apply xstrwidth_eq; assumption. }
    split. { rewrite P3. destruct words; reflexivity. }
    split; [exact P2|]. rewrite U1.
    assert (MK : m <= List.length widths) by lia.
    split. { intros col. split.
      - intros M. pose proof (marked_short widths args c m col MK LM NM M) as LT. destruct (nth_error (cells widths args c m 0) col) as [x|] eqn:E; [|apply nth_error_None in E; lia].
        destruct (cells_marked widths args c m col x MK LM E) as [(_ & ->)|(N & _)]; [reflexivity|contradiction].
      - intros E. destruct (cells_marked widths args c m col _ MK LM E) as [(M & _)|(_ & X)]; [exact M|discriminate X]. }
    split. { intros col x E N. destruct (cells_marked widths args c m col x MK LM E) as [(M & _)|(_ & X)]; [contradiction|exact X]. }
    split; [exact U2|].
    pose proof (cells_length widths args c m 0 ltac:(lia)) as CL. rewrite off_0 in CL. cbn [Nat.add] in CL. rewrite CL.
    destruct B2 as [(B2 & _)|(k & B2 & B3 & _)].
    - left. rewrite B2. apply off_0.
    - right. exists k, (nth k widths 0). assert (K : k < List.length widths) by lia.
      split; [rewrite <- B3; apply nth_error_nth'; lia|]. split; [apply nth_error_nth'; exact K|]. unfold off. rewrite (proj2 (Nat.ltb_lt 0 m)) by lia. replace m with (Datatypes.S k) by lia. rewrite start_succ by exact K. lia.
  Qed.
End Lines.

Lemma demo_is_good : good_locale demo /\ quote_alone demo.
Proof.
  split.
  - split; [|split; [|split; reflexivity]].
    + intros mb s n c mb' Z D. apply (sn_length _ _ demo_is_sane mb s n c mb' Z); [intros ->; discriminate D|exact D].
    + intros mb s n c mb' D P. apply demo_cases in D. destruct D as [(s' & -> & -> & ->)|[(b & s' & -> & NZ & L & -> & ->)|(y & s' & -> & Y & -> & ->)]].
      * discriminate P.
      * cbn [firstn]. split; intros [->|[]]; discriminate P.
      * cbn [firstn]. split; (intros [E|[E|[E|[]]]]; [discriminate E|discriminate E|subst y; cbn in Y; lia]).
  - intros mb s n c mb' D I. apply demo_cases in D. destruct D as [(s' & -> & -> & ->)|[(b & s' & -> & NZ & L & -> & ->)|(y & s' & -> & Y & -> & ->)]].
    + destruct I.
    + reflexivity.
    + exfalso. cbn [firstn] in I. destruct I as [E|[E|[E|[]]]]; [discriminate E|discriminate E|subst y; cbn in Y; lia].
Qed.
