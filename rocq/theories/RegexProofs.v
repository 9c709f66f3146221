(** * Proofs about regular expressions *)
From Coq Require Import List Bool Arith ZArith Lia Init.Byte.
From Verif Require Import RegexModel RegexSpec.
Import ListNotations.

(** ** The matcher tries exactly the matches *)

Lemma matches_bounds r s i j : matches r s i j -> i <= length s -> i <= j <= length s.
Proof.
  induction 1; intros L; try lia.
  assert (i < length s) by (apply nth_error_Some; congruence). lia.
Qed.

Definition loop (a : re) (s : list char) : nat -> nat -> list nat :=
  fix loop (fuel i : nat) : list nat :=
    match fuel with
    | O => []
    | S fuel => flat_map (loop fuel) (filter (fun j => i <? j) (ends a s i)) ++ [i]
    end.
Lemma ends_star a s i : ends (Star a) s i = loop a s (S (length s - i)) i.
Proof. reflexivity. Qed.
Lemma loop_S a s fuel i : loop a s (S fuel) i = flat_map (loop a s fuel) (filter (fun j => i <? j) (ends a s i)) ++ [i].
Proof. reflexivity. Qed.

Lemma ends_sound r : forall s i j, i <= length s -> In j (ends r s i) -> matches r s i j.
Proof.
  induction r as [|f|a IHa b IHb|a IHa b IHb|a IHa| |]; intros s i j L I.
  - destruct I as [<- | []]. constructor.
  - cbn in I. destruct (nth_error s i) as [c|] eqn:E; [|destruct I]. destruct (f c) eqn:F; [|destruct I]. destruct I as [<- | []]. econstructor; eauto.
  - cbn in I. apply in_flat_map in I. destruct I as (k & I & J). apply IHa in I; [|exact L]. pose proof (matches_bounds _ _ _ _ I L). apply IHb in J; [|lia]. econstructor; eauto.
  - cbn in I. apply in_app_iff in I. destruct I as [I|I]; [apply m_left; auto|apply m_right; auto].
  - rewrite ends_star in I. remember (S (length s - i)) as fuel. clear Heqfuel. revert i L I. induction fuel as [|fuel IH]; intros i L I; [destruct I|].
    rewrite loop_S in I. apply in_app_iff in I. destruct I as [I | [<- | []]]; [|constructor].
    apply in_flat_map in I. destruct I as (k & I & J). apply filter_In in I. destruct I as (I & _). apply IHa in I; [|exact L].
    pose proof (matches_bounds _ _ _ _ I L). apply IH in J; [|lia]. econstructor; eauto.
  - cbn in I. destruct (Nat.eqb_spec i 0) as [->|]; [|destruct I]. destruct I as [<- | []]. constructor.
  - cbn in I. destruct (Nat.eqb_spec i (length s)) as [->|]; [|destruct I]. destruct I as [<- | []]. constructor.
Qed.

Lemma loop_complete a s : (forall i j, i <= length s -> matches a s i j -> In j (ends a s i)) ->
  forall i k, matches (Star a) s i k -> i <= length s -> forall fuel, length s - i < fuel -> In k (loop a s fuel i).
Proof.
  intros C i k M. remember (Star a) as r eqn:R. induction M; try discriminate R.
  - intros L fuel F. destruct fuel as [|fuel]; [lia|]. rewrite loop_S. apply in_app_iff. right. left. reflexivity.
  - injection R as ->. intros L fuel F. pose proof (matches_bounds _ _ _ _ M1 L) as B.
    destruct (Nat.eq_dec i j) as [<- | N]; [apply IHM2; auto; lia|].
    destruct fuel as [|fuel]; [lia|]. rewrite loop_S. apply in_app_iff. left. apply in_flat_map. exists j. split.
    + apply filter_In. split; [apply C; auto|]. apply Nat.ltb_lt. lia.
    + apply IHM2; auto; lia.
Qed.

Lemma ends_complete r : forall s i j, i <= length s -> matches r s i j -> In j (ends r s i).
Proof.
  induction r as [|f|a IHa b IHb|a IHa b IHb|a IHa| |]; intros s i j L M.
  - inversion M; subst. left. reflexivity.
  - inversion M as [|g t k c E F| | | | | | |]; subst. cbn. rewrite E, F. left. reflexivity.
  - inversion M as [| |a' b' t i' k j' A B| | | | | |]; subst. cbn. apply in_flat_map. exists k. split; [auto|]. pose proof (matches_bounds _ _ _ _ A L). apply IHb; auto; lia.
  - cbn. apply in_app_iff. inversion M; subst; auto.
  - rewrite ends_star. apply loop_complete; auto; lia.
  - inversion M; subst. left. reflexivity.
  - inversion M; subst. cbn. rewrite Nat.eqb_refl. left. reflexivity.
Qed.

(** ** Offsets *)

Lemma concat_length (s : list char) : Forall (fun c => c <> []) s -> length s <= length (concat s).
Proof. induction 1 as [|c s C F IH]; cbn; [lia|]. rewrite app_length. destruct c; [congruence|]. cbn. lia. Qed.
Lemma off_end s : off s (length s) = length (concat s).
Proof. unfold off. rewrite firstn_all. reflexivity. Qed.
Lemma off_inj s i : Forall (fun c => c <> []) s -> i <= length s -> off s i = length (concat s) -> i = length s.
Proof.
  intros F L E. unfold off in E. rewrite <- (firstn_skipn i s) in E at 2. rewrite concat_app, app_length in E.
  assert (G : Forall (fun c => c <> []) (skipn i s)).
  { rewrite <- (firstn_skipn i s) in F. apply Forall_app in F. apply F. }
  pose proof (concat_length _ G) as K. rewrite skipn_length in K. lia.
Qed.
Lemma off_zero s i : Forall (fun c => c <> []) s -> i <= length s -> off s i = 0 -> i = 0.
Proof.
  intros F L E. unfold off in E. assert (G : Forall (fun c => c <> []) (firstn i s)).
  { rewrite <- (firstn_skipn i s) in F. apply Forall_app in F. apply F. }
  pose proof (concat_length _ G) as K. rewrite firstn_length in K. lia.
Qed.

(** ** POSIX *)
Section Posix.
  Variable decode : list byte -> option (list char).
  Variable regexec : re -> list byte -> found.
  Hypothesis LOC : locale decode.
  Hypothesis POS : posix_regexec decode regexec.

  Lemma posix_anchored r str s : decode str = Some s ->
    (bfs_regexec_posix regexec r str true = 1%Z -> whole r s) /\
    (bfs_regexec_posix regexec r str true = 0%Z -> ~ whole r s).
  Proof.
    intros D. destruct (LOC _ _ D) as (C & NE). pose proof (POS r _ _ D) as P. unfold bfs_regexec_posix. destruct (regexec r str) as [so eo| |code].
    - destruct P as (i & j & -> & -> & L & M & B). pose proof (matches_bounds _ _ _ _ M L) as BJ.
      destruct (Nat.eqb_spec (off s i) 0) as [Z|Z]; [destruct (Nat.eqb_spec (off s j) (length str)) as [E|E]|]; cbn; (split; [intros T|intros T W]); try discriminate T.
      + apply off_zero in Z; auto. subst i. rewrite <- C in E. apply off_inj in E; auto; [|apply BJ]. subst j. exact M.
      + destruct (B 0 (length s) (Nat.le_0_l _) W) as [K | (K & K')]; [lia|]. subst i. assert (j = length s) by lia. subst j. rewrite off_end, C in E. congruence.
      + destruct (B 0 (length s) (Nat.le_0_l _) W) as [K | (K & K')]; [lia|]. subst i. cbn in Z. congruence.
    - split; [discriminate|]. intros _ W. apply P. exists 0, (length s). split; [lia|exact W].
    - split; discriminate.
  Qed.
  Lemma posix_search r str s : decode str = Some s ->
    (bfs_regexec_posix regexec r str false = 1%Z -> somewhere r s) /\
    (bfs_regexec_posix regexec r str false = 0%Z -> ~ somewhere r s).
  Proof.
    intros D. pose proof (POS r _ _ D) as P. unfold bfs_regexec_posix. destruct (regexec r str) as [so eo| |code].
    - destruct P as (i & j & _ & _ & L & M & _). split; [intros _; exists i, j; auto|discriminate].
    - split; [discriminate|auto].
    - split; discriminate.
  Qed.
End Posix.

(** ** Oniguruma *)
Section Onig.
  Variable decode : list byte -> option (list char).
  Hypothesis LOC : locale decode.

  Lemma onig_anchored r str s : decode str = Some s ->
    (bfs_regexec_onig decode r str true = 1%Z -> whole r s) /\ (bfs_regexec_onig decode r str true = 1%Z \/ bfs_regexec_onig decode r str true = 0%Z).
  Proof.
    intros D. destruct (LOC _ _ D) as (C & NE). unfold bfs_regexec_onig. rewrite D. unfold onig_match. destruct (ends r s 0) as [|j l] eqn:E.
    - split; [discriminate|auto].
    - rewrite Nat.sub_0_r. assert (M : matches r s 0 j) by (apply ends_sound; [lia|rewrite E; left; reflexivity]).
      destruct (Nat.eqb_spec (off s j) (length str)) as [Z|Z]; split; auto; [|discriminate].
      intros _. rewrite <- C in Z. apply off_inj in Z; auto; [subst; exact M|]. apply matches_bounds in M; lia.
  Qed.
  Lemma onig_dollar r str s : decode str = Some s ->
    (bfs_regexec_onig decode (Cat r Eol) str true = 1%Z <-> whole (Cat r Eol) s).
  Proof.
    intros D. destruct (LOC _ _ D) as (C & NE). split; [apply onig_anchored; exact D|]. intros W. unfold bfs_regexec_onig. rewrite D. unfold onig_match.
    apply ends_complete in W; [|lia]. destruct (ends (Cat r Eol) s 0) as [|j l] eqn:E; [destruct W|].
    assert (I : In j (ends (Cat r Eol) s 0)) by (rewrite E; left; reflexivity). apply ends_sound in I; [|lia]. inversion I as [| |a' b' t i' k j' A B| | | | | |]; subst. inversion B; subst.
    rewrite Nat.sub_0_r, off_end, Nat.eqb_refl. reflexivity.
  Qed.
  Lemma onig_search_right r str s : decode str = Some s ->
    (bfs_regexec_onig decode r str false = 1%Z -> somewhere r s) /\ (bfs_regexec_onig decode r str false = 0%Z -> ~ somewhere r s).
  Proof.
    intros D. unfold bfs_regexec_onig. rewrite D. unfold onig_search. set (f := fun i => _).
    destruct (find f (seq 0 (S (length s)))) as [i|] eqn:F.
    - apply find_some in F. destruct F as (I & F). apply in_seq in I. unfold f in F. destruct (ends r s i) as [|j l] eqn:E; [discriminate|].
      split; [|discriminate]. intros _. exists i, j. split; [lia|]. apply ends_sound; [lia|]. rewrite E. left. reflexivity.
    - split; [discriminate|]. intros _ (i & j & L & M). assert (I : In i (seq 0 (S (length s)))) by (apply in_seq; lia).
      pose proof (find_none _ _ F _ I) as N. unfold f in N. apply ends_complete in M; [|exact L]. destruct (ends r s i); [destruct M|discriminate].
  Qed.
End Onig.

(** ** Answers *)
Section Prompt.
  Variable decode : list byte -> option (list char).
  Variable regexec : re -> list byte -> found.
  Hypothesis LOC : locale decode.
  Hypothesis POS : posix_regexec decode regexec.

  Lemma xrpregex_right onig r str s : decode str = Some s ->
    (xrpregex decode regexec onig (Some r) str = 1%Z -> somewhere r s) /\ (xrpregex decode regexec onig (Some r) str = 0%Z -> ~ somewhere r s).
  Proof. intros D. cbn. destruct onig; [apply onig_search_right|apply (posix_search decode regexec POS)]; exact D. Qed.
  Lemma xrpregex_range onig r str : xrpregex decode regexec onig r str = 1%Z \/ xrpregex decode regexec onig r str = 0%Z \/ xrpregex decode regexec onig r str = (-1)%Z.
  Proof.
    destruct r as [r|]; cbn; [|auto]. destruct onig; [unfold bfs_regexec_onig; destruct (decode str); auto; destruct (onig_search r l); auto|].
    unfold bfs_regexec_posix. destruct (regexec r str); auto.
  Qed.

  Lemma prompt_yes onig noexpr yesexpr line : ynprompt decode regexec onig noexpr yesexpr line = 1%Z ->
    exists str n y, line = Some str /\ noexpr = Some n /\ yesexpr = Some y /\ forall s, decode str = Some s -> affirmative n y str s.
  Proof.
    destruct line as [str|]; [|discriminate]. cbn [ynprompt]. unfold xrpmatch. intros Y.
    destruct (xrpregex_range onig noexpr str) as [E|[E|E]]; rewrite E in Y; cbn [Z.ltb Z.compare] in Y; try discriminate Y.
    destruct noexpr as [n|]; [|discriminate E]. destruct (xrpregex_range onig yesexpr str) as [F|[F|F]]; rewrite F in Y; cbn [Z.ltb Z.compare] in Y; try discriminate Y.
    - destruct yesexpr as [y|]; [|discriminate F]. exists str, n, y. repeat split; auto; intros; [apply (xrpregex_right onig n str s H); exact E|]. left. apply (xrpregex_right onig y str s H). exact F.
    - destruct yesexpr as [y|]; [|discriminate F]. exists str, n, y. repeat split; auto; intros; [apply (xrpregex_right onig n str s H); exact E|]. right.
      destruct str as [|c l]; [discriminate|]. exists l. destruct c; try discriminate Y; auto.
  Qed.
  Lemma prompt_all onig n y str s : decode str = Some s -> affirmative n y str s ->
    (forall r, xrpregex decode regexec onig (Some r) str <> (-1)%Z) -> ynprompt decode regexec onig (Some n) (Some y) (Some str) = 1%Z.
  Proof.
    intros D (N & Y) NE. cbn [ynprompt]. unfold xrpmatch.
    destruct (xrpregex_range onig (Some n) str) as [E|[E|E]]; [exfalso; apply N; apply (xrpregex_right onig n str s D); exact E| |exfalso; exact (NE _ E)].
    rewrite E. cbn [Z.ltb Z.compare]. destruct (xrpregex_range onig (Some y) str) as [F|[F|F]]; [rewrite F; reflexivity| |exfalso; exact (NE _ F)].
    rewrite F. cbn [Z.ltb Z.compare]. destruct Y as [Y | (l & [-> | ->])]; try reflexivity. exfalso. exact (proj2 (xrpregex_right onig y str s D) F Y).
  Qed.
End Prompt.

(** ** (a|ab) *)
Definition a_or_ab : re := Alt (Chr (fun c => match c with ["a"%byte] => true | _ => false end))
  (Cat (Chr (fun c => match c with ["a"%byte] => true | _ => false end)) (Chr (fun c => match c with ["b"%byte] => true | _ => false end))).
Lemma onig_short : exists decode r str s, locale decode /\ decode str = Some s /\ whole r s /\ fst (eval_regex decode (fun _ _ => Mismatch) true r str) = false.
Proof.
  exists (fun str => Some (map (fun c => [c]) str)), a_or_ab, ["a"; "b"]%byte, [["a"]; ["b"]]%byte. split; [|split; [reflexivity|split; [|reflexivity]]].
  - intros str s [= <-]. split; [induction str; cbn; congruence|]. apply Forall_forall. intros c I. apply in_map_iff in I. destruct I as (x & <- & _). discriminate.
  - apply m_right. eapply m_cat; econstructor; reflexivity.
Qed.

Lemma eval_posix decode regexec r str s : locale decode -> posix_regexec decode regexec -> decode str = Some s ->
  let '(result, error) := eval_regex decode regexec false r str in
  (result = true -> whole r s) /\ (result = false -> error = false -> ~ whole r s) /\ (result = true -> error = false) /\
  (error = true <-> exists code, regexec r str = Error code).
Proof.
  intros L P D. unfold eval_regex. pose proof (posix_anchored decode regexec L P r str s D) as (A & B). unfold bfs_regexec_posix in *. destruct (regexec r str) as [so eo| |c].
  - destruct ((so =? 0) && (eo =? length str)); cbn; repeat split; auto; try discriminate; intros (code & E); discriminate.
  - cbn; repeat split; auto; try discriminate. intros (code & E). discriminate.
  - cbn; repeat split; auto; try discriminate. intros _. exists c. reflexivity.
Qed.
Lemma eval_invalid decode regexec r str : decode str = None -> eval_regex decode regexec true r str = (false, false).
Proof. intros D. unfold eval_regex, bfs_regexec_onig. rewrite D. reflexivity. Qed.
Lemma eval_onig decode regexec r str s : locale decode -> decode str = Some s ->
  let '(result, error) := eval_regex decode regexec true r str in
  error = false /\ (result = true -> whole r s) /\ (forall q, r = Cat q Eol -> whole r s -> result = true).
Proof.
  intros L D. unfold eval_regex. destruct (onig_anchored decode L r str s D) as (A & B).
  split; [destruct B as [B | B]; rewrite B; reflexivity|]. split.
  - destruct B as [B | B]; rewrite B; [auto|discriminate].
  - intros q -> W. rewrite (proj2 (onig_dollar decode L q str s D) W). reflexivity.
Qed.

(** ** A regexec() as POSIX says, to show that there is one *)
Definition longest (l : list nat) : nat := fold_right Nat.max 0 l.
Definition model_regexec (decode : list byte -> option (list char)) (r : re) (str : list byte) : found :=
  match decode str with
  | None => Mismatch
  | Some s =>
      match find (fun i => match ends r s i with [] => false | _ => true end) (seq 0 (S (length s))) with
      | Some i => Match (off s i) (off s (longest (ends r s i)))
      | None => Mismatch
      end
  end.
Lemma longest_in l : l <> [] -> In (longest l) l.
Proof.
  induction l as [|x l IH]; [congruence|]. intros _. cbn. destruct l as [|y l]; [left; cbn; lia|].
  destruct (Nat.max_spec x (longest (y :: l))) as [(_ & E)|(_ & E)]; cbn [longest fold_right] in *; rewrite E; [right; apply IH; discriminate|left; reflexivity].
Qed.
Lemma longest_max l x : In x l -> x <= longest l.
Proof. induction l as [|y l IH]; [intros []|]. intros [-> | I]; cbn; [lia|]. specialize (IH I). unfold longest in IH. lia. Qed.
Lemma find_seq f n m i : find f (seq n m) = Some i -> forall k, n <= k -> k < i -> f k = false.
Proof.
  revert n. induction m as [|m IH]; intros n F k A B; [discriminate|]. cbn in F. destruct (f n) eqn:E.
  - injection F as ->. lia.
  - destruct (Nat.eq_dec k n) as [->|]; [exact E|]. apply (IH _ F); lia.
Qed.
Lemma model_posix decode : posix_regexec decode (model_regexec decode).
Proof.
  intros r str s D. unfold model_regexec. rewrite D. set (f := fun i => _). destruct (find f (seq 0 (S (length s)))) as [i|] eqn:F.
  - pose proof (find_some _ _ F) as (I & T). apply in_seq in I. exists i, (longest (ends r s i)). split; [reflexivity|]. split; [reflexivity|]. split; [lia|].
    split; [apply ends_sound; [lia|]; apply longest_in; intros E; unfold f in T; rewrite E in T; discriminate|].
    intros i' j' L M. apply ends_complete in M; [|exact L]. destruct (lt_eq_lt_dec i' i) as [[H| ->]|H]; [exfalso| |auto].
    + assert (Z : f i' = false) by (apply (find_seq _ _ _ _ F); lia). unfold f in Z. destruct (ends r s i'); [destruct M|discriminate].
    + right. split; [reflexivity|]. apply longest_max. exact M.
  - intros (i & j & L & M). assert (I : In i (seq 0 (S (length s)))) by (apply in_seq; lia). pose proof (find_none _ _ F _ I) as N. unfold f in N.
    apply ends_complete in M; [|exact L]. destruct (ends r s i); [destruct M|discriminate].
Qed.
