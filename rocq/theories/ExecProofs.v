From Coq Require Import List Arith Bool Lia.
From Coq Require Import Init.Byte.
From Coq Require Strings.Byte.
From Verif Require Import PathModel PathSpec ExecModel ExecSpec.
Import ListNotations.

(** ** Substitution *)

Lemma eqb_true a b : Byte.eqb a b = true <-> a = b.
Proof. split; [apply Byte.byte_dec_bl|apply Byte.byte_dec_lb]. Qed.


Lemma substitute_cons path a s : find_braces (a :: s) <> Some 0 -> substitute path (a :: s) = a :: substitute path s.
Proof.
  intros H. destruct a; try reflexivity. destruct s as [|b s]; [reflexivity|]. destruct b; try reflexivity.
  exfalso. apply H. reflexivity.
Qed.

Lemma find_none path s : find_braces s = None -> substitute path s = s.
Proof.
  induction s as [|a s IH]; [reflexivity|]. intros H. rewrite substitute_cons by congruence. f_equal. apply IH.
  cbn in H. destruct s as [|b s]; [reflexivity|]. destruct (Byte.eqb a lbrace && Byte.eqb b rbrace); [discriminate|].
  destruct (find_braces (b :: s)); [discriminate|reflexivity].
Qed.

Lemma find_some path s : forall m, find_braces s = Some m ->
  substitute path s = firstn m s ++ path ++ substitute path (skipn (m + 2) s) /\ m + 2 <= length s.
Proof.
  induction s as [|a s IH]; [discriminate|]. intros m H.
  destruct (Nat.eq_dec m 0) as [->|NZ].
  - cbn in H. destruct s as [|b s]; [discriminate|].
    destruct (Byte.eqb a lbrace && Byte.eqb b rbrace) eqn:E.
    + apply andb_true_iff in E. destruct E as (E1 & E2). apply eqb_true in E1, E2. subst. cbn. split; [reflexivity|lia].
    + destruct (find_braces (b :: s)); discriminate.
  - rewrite substitute_cons by congruence.
    cbn in H. destruct s as [|b s]; [discriminate|]. destruct (Byte.eqb a lbrace && Byte.eqb b rbrace); [congruence|].
    destruct (find_braces (b :: s)) as [k|] eqn:E; [|discriminate]. injection H as <-.
    destruct (IH k eq_refl) as (-> & L). cbn [firstn Nat.add skipn app]. split; [reflexivity|cbn [length] in *; lia].
Qed.

Lemma format_loop_ok mem path : forall fuel k last ret m, length last < fuel -> find_braces last = Some m ->
  exists r, format_loop fuel mem k path last ret m = Some r /\
    (r = None \/ r = Some (ret ++ substitute path last)) /\
    ((forall i, mem i = true) -> r = Some (ret ++ substitute path last)).
Proof.
  induction fuel as [|fuel IH]; intros k last ret m L F; [lia|]. cbn [format_loop].
  destruct (find_some path last m F) as (E & LE).
  destruct (mem k) eqn:M1; cbn [negb]; [|exists None; split; [reflexivity|]; split; [auto|]; intros A; rewrite A in M1; discriminate].
  destruct (mem (k + 1)) eqn:M2; cbn [negb]; [|exists None; split; [reflexivity|]; split; [auto|]; intros A; rewrite A in M2; discriminate].
  destruct (find_braces (skipn (m + 2) last)) as [m'|] eqn:F'.
  - destruct (IH (k + 2) (skipn (m + 2) last) ((ret ++ firstn m last) ++ path) m') as (r & -> & A & B); [rewrite skipn_length; lia|exact F'|].
    exists r. rewrite E. rewrite <- !app_assoc in *. auto.
  - rewrite E, (find_none path _ F'). destruct (mem (k + 2)) eqn:M3.
    + eexists. split; [reflexivity|]. rewrite <- !app_assoc. auto.
    + exists None. split; [reflexivity|]. split; [auto|]. intros A. rewrite A in M3. discriminate.
Qed.

Lemma format_arg_ok mem tmpl path : exists r, format_arg mem tmpl path = Some r /\
  (r = None \/ r = Some (substitute path tmpl)) /\ ((forall i, mem i = true) -> r = Some (substitute path tmpl)).
Proof.
  unfold format_arg. destruct (find_braces tmpl) as [m|] eqn:F.
  - destruct (mem 0) eqn:M0.
    + apply (format_loop_ok mem path (S (length tmpl)) 1 tmpl [] m); [lia|exact F].
    + exists None. split; [reflexivity|]. split; [auto|]. intros A. rewrite A in M0. discriminate.
  - rewrite (find_none path tmpl F). eexists. split; [reflexivity|]. auto.
Qed.

(** ** Parsing *)

Definition last_of (l : list arg) : option arg := match rev l with [] => None | a :: _ => Some a end.
Lemma last_of_app l a : last_of (l ++ [a]) = Some a.
Proof. unfold last_of. now rewrite rev_app_distr. Qed.
Lemma last_of_braces l : last_of l = Some braces <-> exists l', l = l' ++ [braces].
Proof.
  split.
  - unfold last_of. intros H. destruct (rev l) as [|a r] eqn:E; [discriminate|]. injection H as ->.
    exists (rev r). rewrite <- (rev_involutive l), E. reflexivity.
  - intros (l' & ->). apply last_of_app.
Qed.

(** The test for the final plus sign *)
Definition ends_here (confirm : bool) (pre : list arg) (a : arg) : bool :=
  (if list_eq_dec Byte.byte_eq_dec a [x2b] then true else false) && negb confirm &&
  match last_of pre with Some p => if list_eq_dec Byte.byte_eq_dec p [lbrace; rbrace] then true else false | None => false end.
Lemma ends_here_iff confirm pre a : ends_here confirm pre a = true <-> a = plus /\ confirm = false /\ exists l, pre = l ++ [braces].
Proof.
  unfold ends_here. rewrite <- last_of_braces. unfold plus, braces. destruct (list_eq_dec Byte.byte_eq_dec a [x2b]) as [->|N].
  - cbn [andb]. destruct confirm; cbn [andb negb]; [split; [discriminate|intros (_ & D & _); discriminate]|].
    destruct (last_of pre) as [p|]; [|split; [discriminate|intros (_ & _ & D); discriminate]].
    destruct (list_eq_dec Byte.byte_eq_dec p [lbrace; rbrace]) as [->|NP]; [tauto|].
    split; [discriminate|]. intros (_ & _ & D). injection D as ->. contradiction.
  - cbn [andb]. split; [discriminate|]. intros (D & _). contradiction.
Qed.

Lemma scan_cons confirm pre n a rest : exec_scan confirm (last_of pre) n (a :: rest) =
  if list_eq_dec Byte.byte_eq_dec a semicolon then Some (n, false)
  else if ends_here confirm pre a then Some (n, true) else exec_scan confirm (last_of (pre ++ [a])) (S n) rest.
Proof. rewrite last_of_app. reflexivity. Qed.

Lemma unterminated_snoc confirm l a : unterminated confirm (l ++ [a]) <->
  unterminated confirm l /\ a <> semicolon /\ ends_here confirm l a = false.
Proof.
  split.
  - intros H. remember (l ++ [a]) as m eqn:E. destruct H as [|l' a' U N P]; [now destruct l|].
    apply app_inj_tail in E. destruct E as (-> & ->). split; [exact U|]. split; [exact N|].
    destruct (ends_here confirm l a) eqn:X; [|reflexivity]. apply ends_here_iff in X. destruct X as (-> & C & l' & ->).
    now contradiction (P C l').
  - intros (U & N & X). constructor; auto. intros C l' -> ->. assert (Y : ends_here confirm (l' ++ [braces]) plus = true).
    { apply ends_here_iff. eauto. } congruence.
Qed.
Lemma unterminated_app confirm l m : unterminated confirm (l ++ m) -> unterminated confirm l.
Proof.
  induction m as [|a m IH] using rev_ind; [now rewrite app_nil_r|]. rewrite app_assoc, unterminated_snoc. tauto.
Qed.

Lemma scan_skip confirm : forall mid pre n rest, unterminated confirm (pre ++ mid) ->
  exec_scan confirm (last_of pre) n (mid ++ rest) = exec_scan confirm (last_of (pre ++ mid)) (n + length mid) rest.
Proof.
  induction mid as [|a mid IH]; intros pre n rest U; [cbn; now rewrite app_nil_r, Nat.add_0_r|].
  cbn [app]. rewrite scan_cons. replace (pre ++ a :: mid) with ((pre ++ [a]) ++ mid) in * by now rewrite <- app_assoc.
  pose proof (unterminated_app confirm _ _ U) as U1. apply unterminated_snoc in U1. destruct U1 as (_ & N & X).
  destruct (list_eq_dec Byte.byte_eq_dec a semicolon); [contradiction|]. rewrite X, IH by exact U. f_equal. cbn. lia.
Qed.

Lemma scan_some confirm : forall args pre n k multi, unterminated confirm pre ->
  exec_scan confirm (last_of pre) n args = Some (k, multi) ->
  exists mid rest, k = n + length mid /\ unterminated confirm (pre ++ mid) /\
    ((multi = false /\ args = mid ++ semicolon :: rest) \/
     (multi = true /\ args = mid ++ plus :: rest /\ confirm = false /\ exists l, pre ++ mid = l ++ [braces])).
Proof.
  induction args as [|a args IH]; intros pre n k multi U E; [discriminate|]. rewrite scan_cons in E.
  destruct (list_eq_dec Byte.byte_eq_dec a semicolon) as [->|N].
  - injection E as <- <-. exists [], args. rewrite app_nil_r. split; [cbn; lia|]. auto.
  - destruct (ends_here confirm pre a) eqn:X.
    + injection E as <- <-. apply ends_here_iff in X. destruct X as (-> & C & L). exists [], args. rewrite app_nil_r. split; [cbn; lia|]. split; [auto|].
      right. auto.
    + destruct (IH (pre ++ [a]) (S n) k multi) as (mid & rest & K & U2 & H); [apply unterminated_snoc; auto|exact E|].
      exists (a :: mid), rest. rewrite <- app_assoc in *. cbn [app length] in *. split; [lia|]. split; [exact U2|].
      destruct H as [(-> & ->)|(-> & -> & H)]; auto.
Qed.

Lemma has_braces_find s : has_braces s <-> find_braces s <> None.
Proof.
  split.
  - intros (a & b & ->). induction a as [|c a IH]; [discriminate|]. cbn [app find_braces].
    destruct (a ++ braces ++ b) as [|d r] eqn:E; [destruct a; discriminate|].
    destruct (Byte.eqb c lbrace && Byte.eqb d rbrace); [discriminate|]. destruct (find_braces (d :: r)); [discriminate|contradiction].
  - induction s as [|c s IH]; [contradiction|]. cbn [find_braces]. destruct s as [|d r]; [contradiction|].
    destruct (Byte.eqb c lbrace && Byte.eqb d rbrace) eqn:E.
    + apply andb_true_iff in E. destruct E as (E1 & E2). apply eqb_true in E1, E2. subst. intros _. exists [], r. reflexivity.
    + intros H. destruct IH as (a & b & ->); [intros X; rewrite X in H; contradiction|]. exists (c :: a), b. reflexivity.
Qed.

Lemma firstn_exact {A} (l m : list A) : firstn (length l) (l ++ m) = l.
Proof. now rewrite firstn_app, Nat.sub_diag, firstn_all, app_nil_r. Qed.

Lemma exec_parse_ok confirm args t multi : exec_parse confirm args = Some (t, multi) <-> command confirm args t multi.
Proof.
  unfold exec_parse. split.
  - destruct (exec_scan confirm None 0 args) as [[k m]|] eqn:E; [|discriminate].
    destruct (scan_some confirm args [] 0 k m (u_nil _) E) as (mid & rest & K & U & H). cbn [app Nat.add] in *. subst k.
    destruct H as [(-> & ->)|(-> & -> & C & l & ->)].
    + destruct (length mid) as [|n] eqn:L; [discriminate|]. cbn [andb]. rewrite <- L, firstn_exact. intros [= <- <-].
      constructor; [|exact U]. intros ->. discriminate.
    + rewrite app_length, Nat.add_1_r. cbn [length andb Nat.sub]. rewrite Nat.sub_0_r.
      rewrite <- (app_assoc l [braces]), firstn_exact.
      destruct (existsb (fun a => match find_braces a with Some _ => true | None => false end) l) eqn:X; [discriminate|].
      replace (S (length l)) with (length (l ++ [braces])) by (rewrite app_length; cbn; lia).
      rewrite (app_assoc l [braces]), firstn_exact, <- app_assoc. intros [= <- <-]. constructor; [exact C|exact U|].
      intros a I B. apply has_braces_find in B.
      assert (Y : existsb (fun a => match find_braces a with Some _ => true | None => false end) l = true).
      { apply existsb_exists. exists a. split; [exact I|]. destruct (find_braces a); [reflexivity|contradiction]. }
      congruence.
  - intros [cmd rest N U|cmd rest C U B].
    + pose proof (scan_skip confirm cmd [] 0 (semicolon :: rest) U) as E. cbn [app Nat.add] in E. change (last_of []) with (@None arg) in E.
      rewrite E, scan_cons. destruct (list_eq_dec Byte.byte_eq_dec semicolon semicolon); [|contradiction].
      destruct (length cmd) as [|n] eqn:L; [destruct cmd; [contradiction|discriminate]|]. cbn [andb]. now rewrite <- L, firstn_exact.
    + pose proof (scan_skip confirm (cmd ++ [braces]) [] 0 (plus :: rest) U) as E. cbn [app Nat.add] in E. change (last_of []) with (@None arg) in E.
      rewrite <- app_assoc in E. cbn [app] in E. rewrite E, scan_cons.
      assert (X : ends_here confirm (cmd ++ [braces]) plus = true) by (apply ends_here_iff; eauto).
      destruct (list_eq_dec Byte.byte_eq_dec plus semicolon); [discriminate|]. rewrite X.
      rewrite app_length, Nat.add_1_r. cbn [length andb Nat.sub]. rewrite Nat.sub_0_r, firstn_exact.
      destruct (existsb (fun a => match find_braces a with Some _ => true | None => false end) cmd) eqn:Y.
      * exfalso. apply existsb_exists in Y. destruct Y as (a & I & F). apply (B a I). apply has_braces_find. destruct (find_braces a); discriminate.
      * f_equal. f_equal. replace (S (length cmd)) with (length (cmd ++ [braces])) by (rewrite app_length; cbn; lia).
        change (cmd ++ braces :: plus :: rest) with (cmd ++ [braces] ++ plus :: rest). now rewrite app_assoc, firstn_exact.
Qed.
