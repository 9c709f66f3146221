(** * Proofs about output files and the exit status *)
From Coq Require Import List Arith ZArith Bool Init.Byte Lia ZifyNat ZifyBool.
From Verif Require Import OutModel OutSpec.
Import ListNotations.
Local Open Scope nat_scope.

(** ** Streams *)
Lemma nth_set {A} (l : list A) k x j d : k < length l -> nth j (firstn k l ++ x :: skipn (S k) l) d = if j =? k then x else nth j l d.
Proof.
  intros L. destruct (Nat.eqb_spec j k) as [->|Ne].
  - rewrite app_nth2; rewrite firstn_length; [|lia]. replace (k - Nat.min k (length l)) with 0 by lia. reflexivity.
  - destruct (Nat.lt_ge_cases j k) as [H|H].
    + rewrite app_nth1 by (rewrite firstn_length; lia). rewrite <- (firstn_skipn k l) at 2. rewrite app_nth1 by (rewrite firstn_length; lia). reflexivity.
    + rewrite app_nth2; rewrite firstn_length; [|lia]. destruct (j - Nat.min k (length l)) as [|i] eqn:E; [lia|]. cbn [nth].
      rewrite <- (firstn_skipn (S k) l) at 2. rewrite app_nth2; rewrite firstn_length; [|lia]. f_equal. lia.
Qed.
Lemma length_set {A} (l : list A) k x : k < length l -> length (firstn k l ++ x :: skipn (S k) l) = length l.
Proof. intros L. rewrite app_length, firstn_length. cbn [length]. rewrite skipn_length. lia. Qed.
Lemma stream_set c k s j : k < length (streams c) -> stream_of (set_stream c k s) j = if j =? k then s else stream_of c j.
Proof. intros L. unfold stream_of, set_stream. cbn [streams]. apply nth_set, L. Qed.
Lemma len_set c k s : k < length (streams c) -> length (streams (set_stream c k s)) = length (streams c).
Proof. intros L. unfold set_stream. cbn [streams]. apply length_set, L. Qed.

Definition total (s : stream) : list byte := accepted s ++ pending s.
Lemma fwrite_total s d o : succeeds o = true -> total (fwrite s d o) = total s ++ d.
Proof. destruct o as [n|]; [|discriminate]. intros _. unfold total. cbn. rewrite <- !app_assoc, firstn_skipn. reflexivity. Qed.
Lemma fwrite_error s d o : ferror s = true \/ succeeds o = false -> ferror (fwrite s d o) = true.
Proof. destruct o; cbn; intros [H|H]; congruence. Qed.
Lemma fwrite_keeps s d o : succeeds o = true -> ferror (fwrite s d o) = ferror s.
Proof. destruct o; [reflexivity|discriminate]. Qed.
Lemma fflush_total s o : succeeds o = true -> total (fflush s o) = total s /\ pending (fflush s o) = [] /\ ferror (fflush s o) = ferror s.
Proof. destruct o; [|discriminate]. intros _. unfold total. cbn. rewrite app_nil_r. auto. Qed.
Lemma fflush_error s o : ferror s = true -> ferror (fflush s o) = true.
Proof. destruct o; cbn; auto. Qed.

(** ** Opening *)
Record shaped (c : ctx) (out err : nat) (opened : list (nat * nat)) : Prop := {
  sh_len : 2 <= length (streams c);
  sh_ids : NoDup (map fst (files c));
  sh_cfs : NoDup (map (fun x => cfile (snd x)) (files c));
  sh_lt : forall id f, In (id, f) (files c) -> cfile f < length (streams c);
  sh_out : exists f, In (out, f) (files c) /\ cfile f = cout;
  sh_err : exists f, In (err, f) (files c) /\ (cfile f = cerr \/ err = out);
  sh_path : forall id f, In (id, f) (files c) -> is_some (path f) || (cfile f =? cout) = true ->
    cfile f = cout \/ exists id', In (cfile f, id') opened;
  sh_open : forall k id, In (k, id) opened -> exists f, In (id, f) (files c) /\ cfile f = k /\ is_some (path f) = true;
  sh_all : forall id f, In (id, f) (files c) -> id = out \/ id = err \/ exists k, In (k, id) opened;
  sh_empty : forall k, stream_of c k = empty;
  sh_noerr : forall id f, In (id, f) (files c) -> error f = false;
  sh_std : forall id f, In (id, f) (files c) -> cfile f = cout /\ id = out \/ cfile f = cerr /\ id = err \/ 2 <= cfile f /\ id <> out /\ id <> err;
  sh_nfiles : nfiles c + (if out =? err then 1 else 2) = length (files c)
}.

Lemma set_path_none l id p : set_path l id p = None -> ~ In id (map fst l).
Proof.
  induction l as [|[i f] l IH]; cbn; [auto|]. destruct (Nat.eqb_spec i id); [discriminate|]. destruct (set_path l id p) as [[]|] eqn:E; [discriminate|]. intros _ [H|H]; [congruence|]. apply IH; auto.
Qed.
Lemma set_path_some l id p k l' : set_path l id p = Some (k, l') ->
  map fst l' = map fst l /\ map (fun x => cfile (snd x)) l' = map (fun x => cfile (snd x)) l /\
  (exists f, In (id, f) l /\ cfile f = k /\ In (id, mkFile k p (error f)) l') /\
  (forall i f, In (i, f) l' -> exists g, In (i, g) l /\ cfile g = cfile f /\ error g = error f /\ (path f = path g \/ path f = p /\ i = id)) /\
  (forall i f, In (i, f) l -> exists g, In (i, g) l' /\ cfile g = cfile f /\ (path g = path f \/ path g = p)) /\ length l' = length l.
Proof.
  revert l'. induction l as [|[i f] l IH]; intros l' H; cbn in H; [discriminate|]. destruct (Nat.eqb_spec i id) as [->|Ne].
  - injection H as <- <-. cbn. split; [reflexivity|]. split; [reflexivity|]. split; [exists f; auto|]. split; [|split; [|reflexivity]].
    + intros j g [E|I]; [injection E as <- <-; exists f; cbn; split; [left; reflexivity|auto]|]. exists g. auto 8.
    + intros j g [E|I]; [injection E as <- <-; exists (mkFile (cfile f) p (error f)); cbn; auto|]. exists g. auto 8.
  - destruct (set_path l id p) as [[k1 l1]|] eqn:E; [|discriminate]. injection H as <- <-. destruct (IH l1 eq_refl) as (A & B & (f1 & C1 & C2 & C3) & D & G & L). cbn. rewrite A, B, L.
    split; [reflexivity|]. split; [reflexivity|]. split; [exists f1; auto|]. split; [|split; [|reflexivity]].
    + intros j g [X|I]; [injection X as <- <-; exists f; auto|]. destruct (D j g I) as (h & X & Y). exists h. auto.
    + intros j g [X|I]; [injection X as <- <-; exists f; auto|]. destruct (G j g I) as (h & X & Y). exists h. auto.
Qed.

Lemma nodup_snoc {A} (l : list A) x : NoDup l -> ~ In x l -> NoDup (l ++ [x]).
Proof.
  intros N I. induction l as [|y l IH]; cbn; [constructor; auto|]. inversion N; subst. constructor.
  - rewrite in_app_iff. intros [H|[H|[]]]; [auto|]. subst. apply I. left. reflexivity.
  - apply IH; [assumption|]. intros H. apply I. right. exact H.
Qed.
Lemma stream_snoc c j fs n ig : stream_of (mkCtx (streams c ++ [empty]) fs n ig) j = stream_of c j.
Proof.
  unfold stream_of. cbn [streams]. destruct (Nat.lt_ge_cases j (length (streams c))) as [L|L].
  - apply app_nth1, L.
  - rewrite app_nth2 by exact L. rewrite (nth_overflow (streams c)) by exact L. destruct (j - length (streams c)) as [|[|n']]; reflexivity.
Qed.
Lemma open_ok c out err opened id p : shaped c out err opened -> let (c', k) := expr_open c id p in shaped c' out err (opened ++ [(k, id)]) /\ ignore_errors c' = ignore_errors c.
Proof.
  intros S. unfold expr_open, dedup. cbn [files nfiles ignore_errors streams]. destruct (set_path (files c) id (Some p)) as [[k l]|] eqn:E.
  - destruct (set_path_some _ _ _ _ _ E) as (A & B & (f & C1 & C2 & C3) & D & G & L). split; [|reflexivity]. constructor; cbn [streams files nfiles].
    + rewrite app_length. pose proof (sh_len _ _ _ _ S). cbn. lia.
    + rewrite A. apply S.
    + rewrite B. apply S.
    + intros i g I. destruct (D i g I) as (h & X & Y & _). rewrite app_length. pose proof (sh_lt _ _ _ _ S i h X). cbn. lia.
    + destruct (sh_out _ _ _ _ S) as (g & I & X). destruct (G _ _ I) as (h & I' & Y & _). exists h. split; [exact I'|congruence].
    + destruct (sh_err _ _ _ _ S) as (g & I & X). destruct (G _ _ I) as (h & I' & Y & _). exists h. split; [exact I'|]. rewrite Y. exact X.
    + intros i g I P. destruct (D i g I) as (h & X & Y & _ & [Z|[Z ->]]).
      * rewrite Z in P. rewrite <- Y in *. destruct (sh_path _ _ _ _ S i h X P) as [W|(j & W)]; [auto|]. right. exists j. apply in_or_app. auto.
      * right. exists id. apply in_or_app. right. left. f_equal. rewrite <- Y. assert (h = f); [|congruence].
        clear -S C1 X. pose proof (sh_ids _ _ _ _ S) as N. induction (files c) as [|[a b] q IH]; [destruct X|]. cbn in N. inversion N; subst.
        destruct X as [X|X], C1 as [C|C]; [congruence| | |auto].
        -- injection X as -> ->. exfalso. apply H1. apply in_map_iff. exists (id, f). auto.
        -- injection C as -> ->. exfalso. apply H1. apply in_map_iff. exists (id, h). auto.
    + intros k' i I. apply in_app_iff in I. destruct I as [I|[I|[]]].
      * destruct (sh_open _ _ _ _ S _ _ I) as (g & X & Y & Z). destruct (G _ _ X) as (h & X' & Y' & [Z'|Z']); exists h; (split; [exact X'|split; [congruence|]]).
        -- rewrite Z'. exact Z.
        -- rewrite Z'. reflexivity.
      * injection I as <- <-. eexists. split; [exact C3|]. auto.
    + intros i g I. destruct (D i g I) as (h & X & _). destruct (sh_all _ _ _ _ S _ _ X) as [->|[->|(k' & I')]]; [auto|auto|]. right. right. exists k'. apply in_or_app. auto.
    + intros j. rewrite stream_snoc. apply S.
    + intros i g I. destruct (D i g I) as (h & X & _ & Y & _). rewrite <- Y. eapply S, X.
    + intros i g I. destruct (D i g I) as (h & X & Y & _). rewrite <- Y. eapply S, X.
    + rewrite L. apply S.
  - pose proof (set_path_none _ _ _ E) as Nn. pose proof (sh_len _ _ _ _ S) as Ln. set (k := length (streams c)) in *. split; [|reflexivity].
    assert (Fr : forall i f, In (i, f) (files c) -> cfile f <> k) by (intros i f I X; pose proof (sh_lt _ _ _ _ S i f I); unfold k in X; lia).
    assert (No : id <> out) by (intros ->; destruct (sh_out _ _ _ _ S) as (f & I & _); apply Nn, in_map_iff; exists (out, f); auto).
    assert (Ne : id <> err) by (intros ->; destruct (sh_err _ _ _ _ S) as (f & I & _); apply Nn, in_map_iff; exists (err, f); auto).
    constructor; cbn [streams files nfiles].
    + rewrite app_length. cbn. lia.
    + rewrite map_app. apply nodup_snoc; [apply S|exact Nn].
    + rewrite map_app. apply nodup_snoc; [apply S|]. cbn. intros I. apply in_map_iff in I. destruct I as ((i & f) & X & I). exact (Fr _ _ I X).
    + intros i f I. rewrite app_length. cbn [length]. apply in_app_iff in I. destruct I as [I|[I|[]]]; [pose proof (sh_lt _ _ _ _ S i f I); lia|]. injection I as <- <-. cbn. unfold k. lia.
    + destruct (sh_out _ _ _ _ S) as (f & I & X). exists f. split; [apply in_or_app; auto|exact X].
    + destruct (sh_err _ _ _ _ S) as (f & I & X). exists f. split; [apply in_or_app; auto|exact X].
    + intros i f I P. apply in_app_iff in I. destruct I as [I|[I|[]]].
      * destruct (sh_path _ _ _ _ S i f I P) as [W|(j & W)]; [auto|]. right. exists j. apply in_or_app. auto.
      * injection I as <- <-. right. exists id. apply in_or_app. right. left. reflexivity.
    + intros k' i I. apply in_app_iff in I. destruct I as [I|[I|[]]].
      * destruct (sh_open _ _ _ _ S _ _ I) as (g & X & Y). exists g. split; [apply in_or_app; auto|exact Y].
      * injection I as <- <-. eexists. split; [apply in_or_app; right; left; reflexivity|]. auto.
    + intros i f I. apply in_app_iff in I. destruct I as [I|[I|[]]].
      * destruct (sh_all _ _ _ _ S _ _ I) as [->|[->|(k' & I')]]; [auto|auto|]. right. right. exists k'. apply in_or_app. auto.
      * injection I as <- <-. right. right. exists k. apply in_or_app. right. left. reflexivity.
    + intros j. rewrite stream_snoc. apply S.
    + intros i f I. apply in_app_iff in I. destruct I as [I|[I|[]]]; [eapply S, I|]. injection I as <- <-. reflexivity.
    + intros i f I. apply in_app_iff in I. destruct I as [I|[I|[]]]; [eapply S, I|]. injection I as <- <-. cbn. right. right. auto.
    + rewrite app_length. pose proof (sh_nfiles _ _ _ _ S). destruct (Nat.eqb_spec k cout); [unfold cout in *; lia|]. destruct (Nat.eqb_spec k cerr); [unfold cerr in *; lia|]. cbn. lia.
Qed.

Lemma new_ok ig out err : shaped (ctx_new ig out err) out err [] /\ ignore_errors (ctx_new ig out err) = ig.
Proof.
  unfold ctx_new, dedup. cbn. destruct (Nat.eqb_spec out err) as [->|Ne]; cbn; (split; [|reflexivity]); constructor; cbn; try lia.
  - repeat constructor; cbn; tauto.
  - repeat constructor; cbn; tauto.
  - intros id f [E|[]]. injection E as <- <-. cbn. unfold cout; lia.
  - eexists. split; [left; reflexivity|reflexivity].
  - eexists. split; [left; reflexivity|]. auto.
  - intros id f [E|[]]. injection E as <- <-. auto.
  - intros id f [E|[]]. injection E as <- <-. auto.
  - intros [|[|k]]; try reflexivity. unfold stream_of. cbn. destruct k; reflexivity.
  - intros id f [E|[]]. injection E as <- <-. reflexivity.
  - intros id f [E|[]]. injection E as <- <-. auto.
  - rewrite Nat.eqb_refl. reflexivity.
  - repeat constructor; cbn; [|tauto]. intros [H|[]]. congruence.
  - repeat constructor; cbn; [|tauto]. intros [H|[]]. discriminate.
  - intros id f [E|[E|[]]]; injection E as <- <-; cbn; unfold cout, cerr; lia.
  - eexists. split; [left; reflexivity|reflexivity].
  - eexists. split; [right; left; reflexivity|]. auto.
  - intros id f [E|[E|[]]]; injection E as <- <-; [auto|discriminate].
  - intros id f [E|[E|[]]]; injection E as <- <-; auto.
  - intros [|[|k]]; try reflexivity. unfold stream_of. cbn. destruct k; reflexivity.
  - intros id f [E|[E|[]]]; injection E as <- <-; reflexivity.
  - intros id f [E|[E|[]]]; injection E as <- <-; auto.
  - destruct (Nat.eqb_spec out err); [congruence|reflexivity].
Qed.
Lemma open_all_ok l : forall c out err opened, shaped c out err opened ->
  let (c', ks) := open_all c l in length ks = length l /\ shaped c' out err (opened ++ combine ks (map snd l)) /\ ignore_errors c' = ignore_errors c.
Proof.
  induction l as [|[p id] l IH]; intros c out err opened S; cbn [open_all].
  - cbn. rewrite app_nil_r. auto.
  - pose proof (open_ok c out err opened id p S) as O. destruct (expr_open c id p) as [c1 k]. destruct O as [O Ig].
    specialize (IH c1 out err _ O). destruct (open_all c1 l) as [c2 ks]. destruct IH as (L & S2 & Ig2). cbn. rewrite <- app_assoc in S2. cbn in S2.
    split; [congruence|]. split; [exact S2|congruence].
Qed.

(** ** Running *)
Definition skel (x : nat * ctx_file) : nat * nat * bool := (fst x, cfile (snd x), is_some (path (snd x)) || (cfile (snd x) =? cout)).
Definition err_of (c : ctx) (k : nat) : Prop := exists id f, In (id, f) (files c) /\ cfile f = k /\ error f = true.

Section Run.
  Variables (sk : list (nat * nat * bool)) (N : nat) (A : list nat) (ig : bool).
  Hypothesis N2 : 2 <= N.
  Hypothesis ids : NoDup (map (fun x => fst (fst x)) sk).
  Hypothesis cfs : NoDup (map (fun x => snd (fst x)) sk).
  Hypothesis lts : forall i k b, In (i, k, b) sk -> k < N.
  Hypothesis inA : forall i k, In (i, k, true) sk -> In k A.
  Hypothesis Ain : forall k, In k A -> exists i, In (i, k, true) sk.

  Record wf (c : ctx) : Prop := { wf_len : length (streams c) = N; wf_sk : map skel (files c) = sk; wf_ig : ignore_errors c = ig }.
  Definition Bad (c : ctx) : Prop := exists k, In k A /\ (err_of c k \/ ferror (stream_of c k) = true).
  Definition Fine (c : ctx) (w : nat -> list byte) : Prop := forall k, In k A -> total (stream_of c k) = w k.
  Definition OK (c : ctx) (w : nat -> list byte) : Prop := Bad c \/ Fine c w.

  Lemma cf_unique i k b i' b' : In (i, k, b) sk -> In (i', k, b') sk -> i = i' /\ b = b'.
  Proof.
    clear -cfs. induction sk as [|[[a x] d] q IH]; cbn; [intros []|]. cbn in cfs. inversion cfs as [|? ? H1 H2]; subst. intros [E|I] [E'|I'].
    - split; congruence.
    - injection E as -> -> ->. exfalso. apply H1, in_map_iff. exists (i', k, b'). auto.
    - injection E' as -> -> ->. exfalso. apply H1, in_map_iff. exists (i, k, b). auto.
    - auto.
  Qed.
  Lemma A_lt k : In k A -> k < N.
  Proof. intros H. destruct (Ain k H) as (i & I). eapply lts, I. Qed.
  Lemma wf_set c k s : wf c -> k < N -> wf (set_stream c k s).
  Proof. intros W L. destruct W as [W1 W2 W3]. constructor; [rewrite len_set by lia; exact W1|exact W2|exact W3]. Qed.
  Lemma wf_say c m : wf c -> wf (say c m).
  Proof. intros W. apply wf_set; [exact W|]. unfold cerr. lia. Qed.

  Lemma write_ok c w k d o : wf c -> k < N -> OK c w ->
    OK (set_stream c k (fwrite (stream_of c k) d o)) (fun j => w j ++ if j =? k then d else []).
  Proof.
    intros W L H. assert (Lk : k < length (streams c)) by (rewrite (wf_len _ W); exact L). destruct H as [(j & I & H)|H].
    - left. exists j. split; [exact I|]. destruct H as [H|H]; [left; exact H|]. right. rewrite stream_set by exact Lk. destruct (Nat.eqb_spec j k) as [->|]; [|exact H]. apply fwrite_error. auto.
    - destruct (in_dec Nat.eq_dec k A) as [I|I].
      + destruct (succeeds o) eqn:So.
        * right. intros j J. rewrite stream_set by exact Lk. destruct (Nat.eqb_spec j k) as [->|]; [|rewrite app_nil_r; apply H, J]. rewrite fwrite_total by exact So. rewrite (H k I). reflexivity.
        * left. exists k. split; [exact I|]. right. rewrite stream_set by exact Lk. rewrite Nat.eqb_refl. apply fwrite_error. auto.
      + right. intros j J. rewrite stream_set by exact Lk. destruct (Nat.eqb_spec j k) as [->|]; [contradiction|]. rewrite app_nil_r. apply H, J.
  Qed.
  Lemma say_ok c w m : wf c -> OK c w -> OK (say c m) (fun j => w j ++ if j =? cerr then fst m else []).
  Proof. intros W H. apply write_ok; [exact W|unfold cerr; lia|exact H]. Qed.

  Lemma write_all_wf k l : k < N -> forall c, wf c -> wf (fst (write_all c k l)).
  Proof.
    intros L. induction l as [|[d o] l IH]; intros c W; [exact W|]. cbn [write_all]. destruct (succeeds o); [apply IH|cbn [fst]]; apply wf_set; auto.
  Qed.
  Lemma write_all_ok k l : k < N -> forall c w, wf c -> OK c w -> snd (write_all c k l) = true ->
    OK (fst (write_all c k l)) (fun j => w j ++ if j =? k then concat (map fst l) else []).
  Proof.
    intros L. induction l as [|[d o] l IH]; intros c w W H E; cbn [write_all] in *.
    - cbn. destruct H as [H|H]; [left; exact H|]. right. intros j J. rewrite (H j J). destruct (j =? k); rewrite app_nil_r; reflexivity.
    - destruct (succeeds o) eqn:So; [|discriminate]. specialize (IH _ _ (wf_set c k (fwrite (stream_of c k) d o) W L) (write_ok c w k d o W L H) E). clear E. rename IH into E.
      destruct E as [E|E]; [left; exact E|]. right. intros j J. rewrite (E j J). cbn [map concat fst]. destruct (j =? k); [rewrite <- app_assoc; reflexivity|rewrite !app_nil_r; reflexivity].
  Qed.
  Lemma write_all_fine c k l : Forall (fun x => succeeds (snd x) = true) l -> snd (write_all c k l) = true.
  Proof. revert c. induction l as [|[d o] l IH]; intros c F; [reflexivity|]. inversion F; subst. cbn [write_all]. cbn in H1. rewrite H1. apply IH. assumption. Qed.

  Lemma set_error_sk l id : map skel (set_error l id) = map skel l.
  Proof. induction l as [|[i f] l IH]; [reflexivity|]. cbn [set_error]. destruct (i =? id); cbn [map]; [reflexivity|]. rewrite IH. reflexivity. Qed.
  Lemma set_error_mono l id i f : In (i, f) l -> exists g, In (i, g) (set_error l id) /\ cfile g = cfile f /\ (error f = true \/ i = id /\ NoDup (map fst l) -> error g = true).
  Proof.
    induction l as [|[a b] l IH]; intros I; [destruct I|]. cbn [set_error]. destruct (Nat.eqb_spec a id) as [->|Ne]; destruct I as [E|I].
    - injection E as -> ->. eexists. split; [left; reflexivity|]. cbn. auto.
    - exists f. split; [right; exact I|]. split; [reflexivity|]. intros [H|[-> H]]; [exact H|]. cbn in H. inversion H; subst. exfalso. apply H2, in_map_iff. exists (id, f). auto.
    - injection E as -> ->. exists f. split; [left; reflexivity|]. split; [reflexivity|]. intros [H|[-> _]]; [exact H|congruence].
    - destruct (IH I) as (g & J & C & D). exists g. split; [right; exact J|]. split; [exact C|]. intros [H|[-> H]]; apply D; [auto|]. right. split; [reflexivity|]. cbn in H. inversion H; assumption.
  Qed.

  Lemma wf_flush l o m : (forall x, In x l -> In (skel x) sk) -> forall c, wf c -> wf (flush_files c l o m).
  Proof.
    induction l as [|[id f] l IH]; intros Sub c W; [exact W|]. cbn [flush_files]. apply IH; [intros x I; apply Sub; right; exact I|].
    assert (L : cfile f < N) by (eapply lts, (Sub (id, f)); left; reflexivity).
    destruct (succeeds (o (cfile f))); [apply wf_set; auto|].
    assert (W2 : wf (set_stream (mkCtx (streams (set_stream c (cfile f) (fflush (stream_of c (cfile f)) (o (cfile f))))) (set_error (files (set_stream c (cfile f) (fflush (stream_of c (cfile f)) (o (cfile f))))) id)
       (nfiles (set_stream c (cfile f) (fflush (stream_of c (cfile f)) (o (cfile f))))) (ignore_errors (set_stream c (cfile f) (fflush (stream_of c (cfile f)) (o (cfile f)))))) (cfile f)
       (clearerr (stream_of (mkCtx (streams (set_stream c (cfile f) (fflush (stream_of c (cfile f)) (o (cfile f))))) (set_error (files (set_stream c (cfile f) (fflush (stream_of c (cfile f)) (o (cfile f))))) id)
       (nfiles (set_stream c (cfile f) (fflush (stream_of c (cfile f)) (o (cfile f))))) (ignore_errors (set_stream c (cfile f) (fflush (stream_of c (cfile f)) (o (cfile f)))))) (cfile f))))).
    { apply wf_set; [|exact L]. pose proof (wf_set c (cfile f) (fflush (stream_of c (cfile f)) (o (cfile f))) W L) as [W1 W3 W4].
      constructor; cbn [streams files ignore_errors]; [exact W1| |exact W4]. rewrite set_error_sk. exact W3. }
    destruct (is_some (path f) || _); [apply wf_say, W2|exact W2].
  Qed.

  Lemma nodup_files c : wf c -> NoDup (map fst (files c)).
  Proof. intros W. rewrite <- (wf_sk _ W) in ids. rewrite map_map in ids. exact ids. Qed.
  Lemma file_sk c x : wf c -> In x (files c) -> In (skel x) sk.
  Proof. intros W I. rewrite <- (wf_sk _ W). apply in_map, I. Qed.

  Lemma flush_step c w id f o m : wf c -> In (skel (id, f)) sk -> OK c w ->
    let k := cfile f in
    let c1 := set_stream c k (fflush (stream_of c k) o) in
    let c2 := mkCtx (streams c1) (set_error (files c1) id) (nfiles c1) (ignore_errors c1) in
    let c3 := set_stream c2 k (clearerr (stream_of c2 k)) in
    OK (if succeeds o then c1 else if is_some (path f) || (k =? cout) then say c3 m else c3) w.
  Proof.
    intros W I H. cbv zeta. set (k := cfile f). set (c1 := set_stream c k (fflush (stream_of c k) o)).
    set (c2 := mkCtx (streams c1) (set_error (files c1) id) (nfiles c1) (ignore_errors c1)). set (c3 := set_stream c2 k (clearerr (stream_of c2 k))).
    assert (L : k < N) by (eapply lts, I). assert (Lk : k < length (streams c)) by (rewrite (wf_len _ W); exact L).
    assert (S1 : forall j, stream_of c1 j = if j =? k then fflush (stream_of c k) o else stream_of c j) by (intros j; apply stream_set, Lk).
    assert (W1 : wf c1) by (apply wf_set; auto). destruct (succeeds o) eqn:So.
    - destruct H as [(j & J & H)|H].
      + left. exists j. split; [exact J|]. destruct H as [H|H]; [left; exact H|]. right. rewrite S1. destruct (Nat.eqb_spec j k) as [->|]; [|exact H]. apply fflush_error, H.
      + right. intros j J. rewrite S1. destruct (Nat.eqb_spec j k) as [->|]; [|apply H, J]. destruct (fflush_total (stream_of c k) o So) as (-> & _). apply H, J.
    - assert (S3 : forall j, j <> k -> stream_of c3 j = stream_of c j).
      { intros j Ne. unfold c3. rewrite stream_set by (unfold c2; cbn [streams]; rewrite (wf_len _ W1); exact L). destruct (Nat.eqb_spec j k); [contradiction|].
        change (stream_of c2 j) with (stream_of c1 j). rewrite S1. destruct (Nat.eqb_spec j k); [contradiction|reflexivity]. }
      destruct (is_some (path f) || (k =? cout)) eqn:P.
      + left. exists k. split.
        * apply inA with (i := id). unfold skel in I. cbn [fst snd] in I. fold k in I. rewrite P in I. exact I.
        * left. assert (X : exists g, In (id, g) (files c) /\ cfile g = k).
          { rewrite <- (wf_sk _ W) in I. apply in_map_iff in I. destruct I as ((i & g) & E & I). unfold skel in E. cbn [fst snd] in E. injection E as -> E _. exists g. auto. }
          destruct X as (g & X & Y). destruct (set_error_mono (files c) id id g X) as (h & J & C & D). exists id, h. split; [exact J|]. split; [congruence|]. apply D. right. split; [reflexivity|]. apply nodup_files, W.
      + assert (NA : ~ In k A).
        { intros J. destruct (Ain k J) as (i & J'). unfold skel in I. cbn [fst snd] in I. fold k in I. rewrite P in I. destruct (cf_unique _ _ _ _ _ I J'). discriminate. }
        destruct H as [(j & J & H)|H].
        * left. exists j. split; [exact J|]. assert (j <> k) by (intros ->; contradiction). rewrite S3 by assumption. destruct H as [(i & g & G1 & G2 & G3)|H]; [left|right; exact H].
          destruct (set_error_mono (files c) id i g G1) as (h & J1 & C & D). exists i, h. split; [exact J1|]. split; [congruence|]. apply D. auto.
        * right. intros j J. assert (j <> k) by (intros ->; contradiction). rewrite S3 by assumption. apply H, J.
  Qed.
  Lemma flush_ok l o m : (forall x, In x l -> In (skel x) sk) -> forall c w, wf c -> OK c w -> OK (flush_files c l o m) w.
  Proof.
    induction l as [|[id f] l IH]; intros Sub c w W H; [exact H|].
    assert (Sub1 : forall x, In x [(id, f)] -> In (skel x) sk) by (intros x [<-|[]]; apply Sub; left; reflexivity).
    pose proof (wf_flush [(id, f)] o m Sub1 c W) as W'. cbn [flush_files] in W' |- *. apply IH; [intros x I; apply Sub; right; exact I|exact W'|].
    apply (flush_step c w id f (o (cfile f)) (m (cfile f)) W); [apply Sub; left; reflexivity|exact H].
  Qed.
  Lemma flush_fine l o m : (forall k, succeeds (o k) = true) -> (forall x, In x l -> In (skel x) sk) -> forall c, wf c -> let c' := flush_files c l o m in
    files c' = files c /\
    (forall k, total (stream_of c' k) = total (stream_of c k) /\ ferror (stream_of c' k) = ferror (stream_of c k) /\ (pending (stream_of c k) = [] -> pending (stream_of c' k) = [])) /\
    forall id f, In (id, f) l -> pending (stream_of c' (cfile f)) = [].
  Proof.
    intros So. induction l as [|[id f] l IH]; intros Sub c W; cbv zeta; [cbn; split; [reflexivity|]; split; [auto|intros ? ? []]|]. cbn [flush_files]. cbv zeta. rewrite So.
    assert (L : cfile f < N) by (eapply lts, (Sub (id, f)); left; reflexivity). assert (Lk : cfile f < length (streams c)) by (rewrite (wf_len _ W); exact L).
    destruct (IH (fun x I => Sub x (or_intror I)) _ (wf_set c (cfile f) (fflush (stream_of c (cfile f)) (o (cfile f))) W L)) as (E & T & P).
    destruct (fflush_total (stream_of c (cfile f)) _ (So (cfile f))) as (F1 & F2 & F3). split; [exact E|]. split.
    - intros k. destruct (T k) as (T1 & T2 & T3). pose proof (stream_set c (cfile f) (fflush (stream_of c (cfile f)) (o (cfile f))) k Lk) as Q. rewrite Q in T1. rewrite Q in T2. rewrite Q in T3. clear Q. destruct (Nat.eqb_spec k (cfile f)) as [Ek|Ek]; [|auto]. rewrite Ek in *. rewrite T1, T2. auto.
    - intros i g [X|I]; [|eapply P, I]. injection X as <- <-. apply T. rewrite stream_set by exact Lk. rewrite Nat.eqb_refl. exact F2.
  Qed.

  (** A failed print on [k] is reported. *)
  Lemma io_error_wf s k m : wf (context s) -> k < N -> wf (context (eval_io_error s k m)).
  Proof.
    intros W L. unfold eval_io_error, eval_error. destruct (ignore_errors (context s)); cbn [context]; apply wf_set; auto. apply wf_say, W.
  Qed.

  Definition usesA (e : event) : Prop := match e with Print k _ _ => In k A | _ => True end.
  Lemma step_wf s e : wf (context s) -> usesA e -> wf (context (step s e)).
  Proof.
    intros W U. destruct e; cbn [step].
    - unfold eval_print. pose proof (write_all_wf k l (A_lt _ U) _ W) as W'. destruct (write_all (context s) k l) as [c [|]]; [exact W'|]. apply io_error_wf; [exact W'|apply A_lt, U].
    - unfold eval_error. destruct (ignore_errors (context s)); [exact W|apply wf_say, W].
    - apply wf_say, W.
    - apply wf_say, W.
    - apply wf_flush; [|exact W]. intros x I. eapply file_sk; eauto.
    - exact W.
  Qed.
  Lemma OK_ext c w w' : (forall k, w k = w' k) -> OK c w -> OK c w'.
  Proof. intros E [H|H]; [left; exact H|right]. intros k K. rewrite <- E. apply H, K. Qed.

  Hypothesis noig : ig = false.
  Lemma step_ok s e w : wf (context s) -> usesA e -> prints_fine e -> OK (context s) w -> OK (context (step s e)) (fun k => w k ++ prints k e).
  Proof.
    intros W U F H. destruct e; cbn [step prints].
    - unfold eval_print. pose proof (write_all_ok k l (A_lt _ U) (context s) w W H (write_all_fine _ _ _ F)) as X. pose proof (write_all_fine (context s) k l F) as Y.
      destruct (write_all (context s) k l) as [c [|]]; [|discriminate]. cbn [fst context] in *. eapply OK_ext, X. intros j. cbn. rewrite Nat.eqb_sym. reflexivity.
    - unfold eval_error. rewrite (wf_ig _ W), noig. cbn [context]. apply say_ok; auto.
    - cbn [context]. apply say_ok; auto.
    - cbn [context]. apply say_ok; auto.
    - cbn [context]. apply OK_ext with w; [intros; symmetry; apply app_nil_r|]. apply flush_ok; auto. intros x I. eapply file_sk; eauto.
    - cbn [context]. apply OK_ext with w; [intros; symmetry; apply app_nil_r|]. exact H.
  Qed.

  Definition dead (s : state) : Prop := (ret s mod 256 <> 0)%Z.
  Definition inv (s : state) (done : list event) : Prop :=
    wf (context s) /\ (dead s \/ OK (context s) (fun k => written k done)) /\ (Forall prints_fine done -> OK (context s) (fun k => written k done)) /\
    ((ret s mod 256 = 0)%Z -> ret s = EXIT_SUCCESS).
  Lemma written_snoc k l e : written k (l ++ [e]) = written k l ++ prints k e.
  Proof. unfold written. rewrite map_app, concat_app. cbn. rewrite app_nil_r. reflexivity. Qed.
  Lemma failure_dead : (EXIT_FAILURE mod 256 <> 0)%Z. Proof. discriminate. Qed.

  Lemma prints_dec e : {prints_fine e} + {~ prints_fine e}.
  Proof.
    destruct e; cbn; auto. induction l as [|[d o] l IH]; [left; constructor|]. destruct (succeeds o) eqn:So.
    - destruct IH; [left; constructor; auto|right]. intros H. inversion H. auto.
    - right. intros H. inversion H. cbn in *. congruence.
  Qed.
  Lemma write_all_bad c k l : ~ Forall (fun x => succeeds (snd x) = true) l -> snd (write_all c k l) = false.
  Proof.
    revert c. induction l as [|[d o] l IH]; intros c F; [exfalso; apply F; constructor|]. cbn [write_all]. destruct (succeeds o) eqn:So; [|reflexivity]. apply IH. intros H. apply F. constructor; auto.
  Qed.
  Lemma inv_step s done e : inv s done -> usesA e -> (forall n, e = Exit n -> (n mod 256 = 0)%Z -> n = EXIT_SUCCESS /\ Forall prints_fine done) -> inv (step s e) (done ++ [e]).
  Proof.
    intros (W & B & G & Z) U Hx. split; [apply step_wf; auto|].
    assert (E : forall c, OK c (fun k => written k done ++ prints k e) -> OK c (fun k => written k (done ++ [e]))).
    { intros c. apply OK_ext. intros k. symmetry. apply written_snoc. }
    assert (G' : Forall prints_fine (done ++ [e]) -> OK (context (step s e)) (fun k => written k (done ++ [e]))).
    { intros F. apply Forall_app in F. destruct F as [F1 F2]. inversion F2; subst. apply E, step_ok; auto. }
    destruct (prints_dec e) as [F|F].
    - pose proof (fun X => E _ (step_ok s e (fun k => written k done) W U F X)) as X.
      assert (D : dead s \/ OK (context (step s e)) (fun k => written k (done ++ [e]))) by (destruct B as [B|B]; auto). clear X.
      destruct e as [k l m|m|m|m|o m|n]; cbn [step] in *.
      + unfold eval_print in *. pose proof (write_all_fine (context s) k l F) as Y. destruct (write_all (context s) k l) as [c [|]]; [|discriminate]. split; [|split; [exact G'|exact Z]].
        destruct D; [left; exact H|right; exact H].
      + unfold eval_error in *. rewrite (wf_ig _ W), noig in *. split; [left; exact failure_dead|]. split; [exact G'|]. cbn. discriminate.
      + split; [|split; [exact G'|exact Z]]. exact D.
      + split; [left; exact failure_dead|]. split; [exact G'|]. cbn. discriminate.
      + split; [|split; [exact G'|exact Z]]. exact D.
      + destruct (Z.eq_dec (n mod 256) 0) as [Nz|Nz].
        * destruct (Hx n eq_refl Nz) as [-> Fd]. split; [right|split; [exact G'|reflexivity]]. apply G'. apply Forall_app. split; [exact Fd|]. constructor; [exact I|constructor].
        * split; [left; exact Nz|]. split; [exact G'|]. cbn. intros. contradiction.
    - destruct e as [k l m|m|m|m|o m|n]; try (exfalso; apply F; exact I). cbn [step] in *. unfold eval_print in *. pose proof (write_all_bad (context s) k l F) as Y.
      destruct (write_all_wf k l (A_lt _ U) _ W) as [_ _ Wi]. destruct (write_all (context s) k l) as [c [|]]; [discriminate|]. cbn [fst] in Wi.
      unfold eval_io_error, eval_error in *. cbn [context ret] in *. rewrite Wi, noig in *. cbn [context ret] in *. split; [left; exact failure_dead|]. split; [exact G'|]. discriminate.
  Qed.
  Lemma inv_all l : forall done s, inv s done -> Forall usesA l ->
    (forall before n after, done ++ l = before ++ Exit n :: after -> (n mod 256 = 0)%Z -> n = EXIT_SUCCESS /\ Forall prints_fine before) ->
    inv (fold_left step l s) (done ++ l).
  Proof.
    induction l as [|e l IH]; intros done s I U H; cbn [fold_left]; [rewrite app_nil_r; exact I|]. inversion U; subst.
    replace (done ++ e :: l) with ((done ++ [e]) ++ l) in * by (rewrite <- app_assoc; reflexivity). apply IH; [|assumption|exact H].
    apply inv_step; [exact I|assumption|]. intros n -> Nz. apply (H done n l); [|exact Nz]. rewrite <- app_assoc. reflexivity.
  Qed.

  (** *** The end *)
  Lemma fclose_ok c id f o o' m : wf c -> In (skel (id, f)) sk -> snd (ctx_fclose c f o o' m) = true ->
    let c' := fst (ctx_fclose c f o o' m) in
    wf c' /\ files c' = files c /\ (forall j, j <> cfile f -> stream_of c' j = stream_of c j) /\
    (In (cfile f) A -> error f = false /\ ferror (stream_of c (cfile f)) = false /\ accepted (stream_of c' (cfile f)) = total (stream_of c (cfile f)) /\ pending (stream_of c' (cfile f)) = []).
  Proof.
    intros W I. unfold ctx_fclose. set (k := cfile f).
    assert (L : k < N) by (eapply lts, I). assert (Lk : k < length (streams c)) by (rewrite (wf_len _ W); exact L).
    set (c1 := set_stream c k (fflush (stream_of c k) o)). assert (W1 : wf c1) by (apply wf_set; auto). assert (Lk1 : k < length (streams c1)) by (rewrite (wf_len _ W1); exact L).
    assert (S1 : forall j, stream_of c1 j = if j =? k then fflush (stream_of c k) o else stream_of c j) by (intros j; apply stream_set, Lk).
    assert (NS : In k A -> (k =? cerr) && negb (is_some (path f)) = false).
    { intros J. destruct (Ain k J) as (i & J'). unfold skel in I. cbn [fst snd] in I. fold k in I. destruct (cf_unique _ _ _ _ _ I J') as [_ P].
      destruct (is_some (path f)); [apply andb_false_r|]. cbn in P. apply Nat.eqb_eq in P. rewrite P. reflexivity. }
    destruct (negb (k =? cout) && negb (k =? cerr)) eqn:Std; cbv zeta.
    - assert (Ce : (k =? cerr) = false) by (destruct (k =? cerr); [rewrite andb_false_r in Std; discriminate|reflexivity]). rewrite Ce. cbn [andb].
      set (bad := (error f || ferror (stream_of c k) || negb (succeeds o)) || negb (succeeds o')). cbn [snd fst].
      destruct bad eqn:B; [cbn; discriminate|]. intros _. cbn [andb]. unfold bad in B. apply orb_false_iff in B. destruct B as [B B4]. apply orb_false_iff in B. destruct B as [B B3]. apply orb_false_iff in B. destruct B as [B1 B2].
      apply negb_false_iff in B3, B4. split; [apply wf_set; auto|]. split; [reflexivity|]. split.
      + intros j Ne. rewrite stream_set by exact Lk1. destruct (Nat.eqb_spec j k); [contradiction|]. rewrite S1. destruct (Nat.eqb_spec j k); [contradiction|reflexivity].
      + intros _. split; [exact B1|]. split; [exact B2|]. rewrite stream_set by exact Lk1. rewrite Nat.eqb_refl. rewrite S1, Nat.eqb_refl.
        destruct (fflush_total (stream_of c k) o B3) as (T1 & P1 & _). destruct (fflush_total (fflush (stream_of c k) o) o' B4) as (T2 & P2 & _).
        split; [|exact P2]. rewrite <- T1, <- T2. unfold total. rewrite P2, app_nil_r. reflexivity.
    - cbn [snd fst]. set (bad := (error f || ferror (stream_of c k)) || negb (succeeds o)). destruct (if (k =? cerr) && negb (is_some (path f)) then false else bad) eqn:B; [cbn; discriminate|]. intros _. cbn [andb].
      split; [exact W1|]. split; [reflexivity|]. split.
      + intros j Ne. rewrite S1. destruct (Nat.eqb_spec j k); [contradiction|reflexivity].
      + intros J. rewrite (NS J) in B. unfold bad in B. apply orb_false_iff in B. destruct B as [B B3]. apply orb_false_iff in B. destruct B as [B1 B2]. apply negb_false_iff in B3.
        split; [exact B1|]. split; [exact B2|]. rewrite S1, Nat.eqb_refl. destruct (fflush_total (stream_of c k) o B3) as (T1 & P1 & _). split; [|exact P1].
        rewrite <- T1. unfold total. rewrite P1, app_nil_r. reflexivity.
  Qed.
  Lemma close_ok l o o' m : (forall x, In x l -> In (skel x) sk) -> NoDup (map (fun x => cfile (snd x)) l) -> forall c, wf c -> snd (close_files c l o o' m) = true ->
    let c' := fst (close_files c l o o' m) in
    (forall j, (forall id f, In (id, f) l -> cfile f <> j) -> stream_of c' j = stream_of c j) /\
    forall id f, In (id, f) l -> In (cfile f) A -> error f = false /\ ferror (stream_of c (cfile f)) = false /\ accepted (stream_of c' (cfile f)) = total (stream_of c (cfile f)).
  Proof.
    induction l as [|[id f] l IH]; intros Sub Nd c W E; cbv zeta.
    - cbn. split; [auto|intros ? ? []].
    - cbn [close_files] in *. pose proof (fclose_ok c id f (o (cfile f)) (o' (cfile f)) (m (cfile f)) W (Sub _ (or_introl eq_refl))) as F.
      destruct (ctx_fclose c f (o (cfile f)) (o' (cfile f)) (m (cfile f))) as [c1 ok]. cbn in Nd. inversion Nd as [|? ? Nd1 Nd2]; subst.
      specialize (IH (fun x I => Sub x (or_intror I)) Nd2 c1). destruct (close_files c1 l o o' m) as [c2 ok2]. cbn [fst snd] in *. apply andb_true_iff in E. destruct E as [-> ->].
      destruct (F eq_refl) as (W1 & Fl & S1 & K). destruct (IH W1 eq_refl) as (S2 & K2).
      assert (Ot : forall i g, In (i, g) l -> cfile g <> cfile f).
      { intros i g I X. apply Nd1. rewrite <- X. change (cfile g) with ((fun x : nat * ctx_file => cfile (snd x)) (i, g)). apply in_map, I. }
      split.
      + intros j Hj. rewrite S2 by (intros i g I; apply (Hj i g); right; exact I). apply S1. intros ->. exact (Hj id f (or_introl eq_refl) eq_refl).
      + intros i g [X|I] Ia.
        * injection X as <- <-. destruct (K Ia) as (K1 & K3 & K4 & _). split; [exact K1|]. split; [exact K3|]. rewrite S2 by exact Ot. exact K4.
        * destruct (K2 i g I Ia) as (X1 & X2 & X3). rewrite S1 in X2, X3 by (eapply Ot, I). auto.
  Qed.
  Lemma nodup_cfs c : wf c -> NoDup (map (fun x => cfile (snd x)) (files c)).
  Proof. intros W. rewrite <- (wf_sk _ W) in cfs. rewrite map_map in cfs. exact cfs. Qed.

  Theorem run_complete c l o o' m c' : wf c -> Fine c (fun _ => []) -> Forall usesA l -> honest l -> run c l o o' m = (c', 0%Z) ->
    forall k, In k A -> accepted (stream_of c' k) = written k l.
  Proof.
    intros W F U H R k K. pose proof (inv_all l [] (mkState c EXIT_SUCCESS)) as I. cbn [app] in I.
    assert (I0 : inv (mkState c EXIT_SUCCESS) []). { split; [exact W|]. split; [right; right; exact F|]. split; [intros _; right; exact F|reflexivity]. }
    specialize (I I0 U H). clear I0. unfold run, bfs_eval in R. set (s := fold_left step l (mkState c EXIT_SUCCESS)) in *. destruct I as (W' & B & _ & Z).
    unfold ctx_free in R. pose proof (close_ok (files (context s)) o o' m (fun x I => file_sk _ x W' I) (nodup_cfs _ W') (context s) W') as C.
    destruct (close_files (context s) (files (context s)) o o' m) as [c1 ok]. cbn [fst snd] in C.
    assert (R2 : ((if negb ok && (ret s =? EXIT_SUCCESS)%Z then EXIT_FAILURE else ret s) mod 256 = 0)%Z) by congruence. assert (c1 = c') by congruence. subst c1. clear R.
    assert (Ok : ok = true).
    { destruct ok; [reflexivity|]. cbn [negb andb] in R2. destruct (Z.eqb_spec (ret s) EXIT_SUCCESS); [discriminate R2|]. specialize (Z R2). contradiction. }
    subst ok. cbn [negb andb] in R2. destruct (C eq_refl) as (_ & C2). destruct B as [B|B]; [contradiction|].
    assert (In_ : forall j, In j A -> exists id f, In (id, f) (files (context s)) /\ cfile f = j).
    { intros j J. destruct (Ain j J) as (i & X). rewrite <- (wf_sk _ W') in X. apply in_map_iff in X. destruct X as ((i' & f) & E & X). unfold skel in E. cbn [fst snd] in E. injection E as -> E _. exists i, f. auto. }
    destruct B as [(j & J & X)|B].
    - exfalso. destruct X as [(id & f & X1 & X2 & X3)|X].
      + subst j. destruct (C2 id f X1 J) as (E & _). congruence.
      + destruct (In_ j J) as (id & f & X1 & <-). destruct (C2 id f X1 J) as (_ & E & _). congruence.
    - destruct (In_ k K) as (id & f & X1 & X2). subst k. destruct (C2 id f X1 K) as (_ & _ & E). rewrite E. apply B, K.
  Qed.
End Run.

(** ** Without failures *)
Section Clean.
  Variables (sk : list (nat * nat * bool)) (N : nat) (A : list nat) (ig : bool).
  Hypothesis N2 : 2 <= N.
  Hypothesis ids : NoDup (map (fun x => fst (fst x)) sk).
  Hypothesis cfs : NoDup (map (fun x => snd (fst x)) sk).
  Hypothesis lts : forall i k b, In (i, k, b) sk -> k < N.
  Hypothesis inA : forall i k, In (i, k, true) sk -> In k A.
  Hypothesis Ain : forall k, In k A -> exists i, In (i, k, true) sk.
  Notation wf := (wf sk N ig).
  Definition calm (c : ctx) (w : nat -> list byte) : Prop :=
    (forall k, ferror (stream_of c k) = false) /\ (forall id f, In (id, f) (files c) -> error f = false) /\ forall k, In k A -> total (stream_of c k) = w k.

  Lemma calm_write c w k d o : wf c -> k < N -> succeeds o = true -> calm c w -> calm (set_stream c k (fwrite (stream_of c k) d o)) (fun j => w j ++ if j =? k then d else []).
  Proof.
    intros W L So (H1 & H2 & H3). assert (Lk : k < length (streams c)) by (rewrite (wf_len _ _ _ _ W); exact L). split; [|split; [exact H2|]].
    - intros j. rewrite stream_set by exact Lk. destruct (Nat.eqb_spec j k) as [Ej|]; [|apply H1]. rewrite fwrite_keeps by exact So. apply H1.
    - intros j J. rewrite stream_set by exact Lk. destruct (Nat.eqb_spec j k) as [Ej|]; [|rewrite app_nil_r; apply H3, J]. rewrite fwrite_total by exact So. subst j. rewrite (H3 k J). reflexivity.
  Qed.
  Lemma calm_ext c w w' : (forall k, w k = w' k) -> calm c w -> calm c w'.
  Proof. intros E (H1 & H2 & H3). split; [exact H1|]. split; [exact H2|]. intros k K. rewrite <- E. apply H3, K. Qed.
  Lemma calm_all k l : k < N -> Forall (fun x => succeeds (snd x) = true) l -> forall c w, wf c -> calm c w ->
    calm (fst (write_all c k l)) (fun j => w j ++ if j =? k then concat (map fst l) else []).
  Proof.
    intros L. induction l as [|[d o] l IH]; intros F c w W C; cbn [write_all].
    - cbn. eapply calm_ext, C. intros j. destruct (j =? k); symmetry; apply app_nil_r.
    - inversion F as [|? ? F1 F2]; subst. cbn [snd] in F1. rewrite F1. eapply calm_ext, IH; [|exact F2|apply (wf_set sk N A ig N2 lts inA Ain c k); auto|apply calm_write; eauto].
      intros j. cbn [map concat fst]. destruct (j =? k); [rewrite <- app_assoc; reflexivity|rewrite !app_nil_r; reflexivity].
  Qed.
  Lemma calm_step s e w : wf (context s) -> usesA A e -> fine e -> ret s = EXIT_SUCCESS -> calm (context s) w ->
    ret (step s e) = EXIT_SUCCESS /\ calm (context (step s e)) (fun k => w k ++ prints k e).
  Proof.
    intros W U F R C. destruct e; cbn [fine] in F; cbn [step prints]; try contradiction.
    - unfold eval_print. pose proof (calm_all k l (A_lt sk N A lts Ain k U) F (context s) w W C) as X. pose proof (write_all_fine (context s) k l F) as Y.
      destruct (write_all (context s) k l) as [c [|]]; [|discriminate]. cbn [fst context ret] in *. split; [exact R|]. eapply calm_ext, X. intros j. cbn. rewrite Nat.eqb_sym. reflexivity.
    - cbn [context ret]. split; [exact R|]. apply calm_write; auto.
    - cbn [context ret]. split; [exact R|]. destruct (flush_fine sk N A ig N2 lts inA Ain (files (context s)) o m F (fun x I => file_sk sk N ig _ x W I) _ W) as (E & T & _).
      fold (ctx_flush (context s) o m) in E, T. destruct C as (C1 & C2 & C3). split; [intros k; destruct (T k) as (_ & -> & _); apply C1|]. split; [rewrite E; exact C2|].
      intros k K. destruct (T k) as (-> & _). rewrite app_nil_r. apply C3, K.
    - cbn [context ret]. split; [exact F|]. eapply calm_ext, C. intros. symmetry. apply app_nil_r.
  Qed.
  Lemma calm_run l : forall done s, wf (context s) -> Forall (usesA A) l -> Forall fine l -> ret s = EXIT_SUCCESS -> calm (context s) (fun k => written k done) ->
    let s' := fold_left step l s in wf (context s') /\ ret s' = EXIT_SUCCESS /\ calm (context s') (fun k => written k (done ++ l)).
  Proof.
    induction l as [|e l IH]; intros done s W U F R C; cbv zeta; cbn [fold_left]; [rewrite app_nil_r; auto|]. inversion U; inversion F; subst.
    destruct (calm_step s e _ W H1 H5 R C) as [R' C']. destruct (IH (done ++ [e]) (step s e)) as (X & Y & Z); auto.
    - apply (step_wf sk N A ig N2 lts inA Ain); auto.
    - eapply calm_ext, C'. intros k. symmetry. apply written_snoc.
    - rewrite <- app_assoc in Z. auto.
  Qed.
  Lemma calm_close l o o' m : (forall k, succeeds (o k) = true) -> (forall k, succeeds (o' k) = true) -> (forall x, In x l -> In (skel x) sk) ->
    (forall id f, In (id, f) l -> error f = false) -> forall c, wf c -> (forall k, ferror (stream_of c k) = false) -> snd (close_files c l o o' m) = true.
  Proof.
    intros So So'. induction l as [|[id f] l IH]; intros Sub Er c W Fe; [reflexivity|]. cbn [close_files]. unfold ctx_fclose at 1. set (k := cfile f).
    assert (L : k < N) by (eapply lts, (Sub (id, f)); left; reflexivity). assert (Lk : k < length (streams c)) by (rewrite (wf_len _ _ _ _ W); exact L).
    rewrite (Er id f) by (left; reflexivity). rewrite Fe, So. cbn [negb orb].
    set (c1 := set_stream c k (fflush (stream_of c k) (o k))). assert (W1 : wf c1) by (apply (wf_set sk N A ig N2 lts inA Ain); auto).
    assert (F1 : forall j, ferror (stream_of c1 j) = false).
    { intros j. unfold c1. rewrite stream_set by exact Lk. destruct (Nat.eqb_spec j k) as [Ej|]; [|apply Fe]. destruct (fflush_total (stream_of c k) (o k) (So k)) as (_ & _ & ->). apply Fe. }
    rewrite So'. cbn [negb orb].
    set (c2 := set_stream c1 k (fflush (stream_of c1 k) (o' k))). assert (W2 : wf c2) by (apply (wf_set sk N A ig N2 lts inA Ain); auto).
    assert (F2 : forall j, ferror (stream_of c2 j) = false).
    { intros j. unfold c2. rewrite stream_set by (rewrite (wf_len _ _ _ _ W1); exact L). destruct (Nat.eqb_spec j k) as [Ej|]; [|apply F1]. destruct (fflush_total (stream_of c1 k) (o' k) (So' k)) as (_ & _ & ->). apply F1. }
    assert (R1 : snd (close_files c1 l o o' m) = true) by (apply IH; auto; [intros x I; apply Sub; right; exact I|intros i g I; apply (Er i g); right; exact I]).
    assert (R2 : snd (close_files c2 l o o' m) = true) by (apply IH; auto; [intros x I; apply Sub; right; exact I|intros i g I; apply (Er i g); right; exact I]).
    destruct (negb (k =? cout) && negb (k =? cerr)); destruct ((k =? cerr) && negb (is_some (path f))); cbn [andb negb];
      (destruct (close_files c2 l o o' m); destruct (close_files c1 l o o' m); cbn in *; assumption).
  Qed.
End Clean.

(** ** Together *)
Definition the_sk (c : ctx) := map skel (files c).
Lemma facts c out err opened : shaped c out err opened -> let A := cout :: map fst opened in
  2 <= length (streams c) /\ NoDup (map (fun x => fst (fst x)) (the_sk c)) /\ NoDup (map (fun x => snd (fst x)) (the_sk c)) /\
  (forall i k b, In (i, k, b) (the_sk c) -> k < length (streams c)) /\ (forall i k, In (i, k, true) (the_sk c) -> In k A) /\
  (forall k, In k A -> exists i, In (i, k, true) (the_sk c)).
Proof.
  intros S A. unfold the_sk. rewrite !map_map. split; [apply S|]. split; [apply S|]. split; [apply S|]. split; [|split].
  - intros i k b I. apply in_map_iff in I. destruct I as ((i' & f) & E & I). unfold skel in E. cbn [fst snd] in E. injection E as _ <- _. eapply S, I.
  - intros i k I. apply in_map_iff in I. destruct I as ((i' & f) & E & I). unfold skel in E. cbn [fst snd] in E. injection E as _ E1 E2. subst k.
    destruct (sh_path _ _ _ _ S _ _ I E2) as [->|(id & J)]; [left; reflexivity|]. right. apply in_map_iff. exists (cfile f, id). auto.
  - intros k [<-|I].
    + destruct (sh_out _ _ _ _ S) as (f & I & E). exists out. apply in_map_iff. exists (out, f). split; [|exact I]. unfold skel. cbn [fst snd]. rewrite E, Nat.eqb_refl, orb_true_r. reflexivity.
    + apply in_map_iff in I. destruct I as ((k' & id) & E & I). cbn in E. subst k'. destruct (sh_open _ _ _ _ S _ _ I) as (f & J & E & P).
      exists id. apply in_map_iff. exists (id, f). split; [|exact J]. unfold skel. cbn [fst snd]. rewrite E, P. reflexivity.
Qed.
Lemma map_fst_combine {X Y} (a : list X) : forall b : list Y, length a = length b -> map fst (combine a b) = a.
Proof. induction a as [|x a IH]; intros [|y b] L; try discriminate; [reflexivity|]. cbn. f_equal. apply IH. cbn in L. lia. Qed.
Lemma opened_ok ig out err paths c ks : open_all (ctx_new ig out err) paths = (c, ks) ->
  length ks = length paths /\ shaped c out err (combine ks (map snd paths)) /\ ignore_errors c = ig /\ map fst (combine ks (map snd paths)) = ks.
Proof.
  intros E. destruct (new_ok ig out err) as [S I]. pose proof (open_all_ok paths _ out err [] S) as O. rewrite E in O. cbn [app] in O. destruct O as (L & S' & I').
  split; [exact L|]. split; [exact S'|]. split; [congruence|]. apply map_fst_combine. rewrite map_length. exact L.
Qed.
Lemma uses_A ks l : uses ks l -> Forall (usesA (cout :: ks)) l.
Proof. intros U. apply Forall_forall. intros e I. destruct e; cbn; auto. destruct (U _ _ _ I) as [->|J]; auto. Qed.

Theorem output_complete : forall out err paths c ks, open_all (ctx_new false out err) paths = (c, ks) ->
  forall l o o' m c', uses ks l -> honest l -> run c l o o' m = (c', 0%Z) ->
  forall k, k = cout \/ In k ks -> accepted (stream_of c' k) = written k l.
Proof.
  intros out err paths c ks E l o o' m c' U H R k K. destruct (opened_ok _ _ _ _ _ _ E) as (L & S & Ig & Mf). destruct (facts c out err _ S) as (F1 & F2 & F3 & F4 & F5 & F6). rewrite Mf in *.
  apply (run_complete (the_sk c) (length (streams c)) (cout :: ks) false F1 F2 F3 F4 F5 F6 eq_refl c l o o' m c'); auto.
  - constructor; auto.
  - intros j _. rewrite (sh_empty _ _ _ _ S). reflexivity.
  - apply uses_A, U.
  - destruct K as [->|K]; [left; reflexivity|right; exact K].
Qed.
Theorem no_false_alarm : forall ig out err paths c ks, open_all (ctx_new ig out err) paths = (c, ks) ->
  forall l o o' m, uses ks l -> Forall fine l -> (forall k, succeeds (o k) = true) -> (forall k, succeeds (o' k) = true) -> snd (run c l o o' m) = 0%Z.
Proof.
  intros ig out err paths c ks E l o o' m U F So So'. destruct (opened_ok _ _ _ _ _ _ E) as (L & S & Ig & Mf). destruct (facts c out err _ S) as (F1 & F2 & F3 & F4 & F5 & F6). rewrite Mf in *.
  destruct (calm_run (the_sk c) (length (streams c)) (cout :: ks) ig F1 F4 F5 F6 l [] (mkState c EXIT_SUCCESS)) as (W & R & C); auto.
  - constructor; auto.
  - apply uses_A, U.
  - split; [intros k; cbn [context]; rewrite (sh_empty _ _ _ _ S); reflexivity|]. split; [intros id f I; eapply S, I|]. intros k _. cbn [context]. rewrite (sh_empty _ _ _ _ S). reflexivity.
  - unfold run, bfs_eval. set (s := fold_left step l (mkState c EXIT_SUCCESS)) in *. unfold ctx_free. destruct C as (C1 & C2 & _).
    pose proof (calm_close (the_sk c) (length (streams c)) (cout :: ks) ig F1 F4 F5 F6 (files (context s)) o o' m So So' (fun x I => file_sk _ _ _ _ x W I) C2 (context s) W C1) as X.
    destruct (close_files (context s) (files (context s)) o o' m) as [c' ok]. cbn [snd] in *. rewrite X, R. reflexivity.
Qed.
Theorem commands_see : forall ig out err paths c ks, open_all (ctx_new ig out err) paths = (c, ks) ->
  forall l o m, uses ks l -> Forall fine (l ++ [Command o m]) ->
  forall k, k = cout \/ In k ks -> accepted (stream_of (context (bfs_eval c (l ++ [Command o m]))) k) = written k l.
Proof.
  intros ig out err paths c ks E l o m U F k K. destruct (opened_ok _ _ _ _ _ _ E) as (L & S & Ig & Mf). destruct (facts c out err _ S) as (F1 & F2 & F3 & F4 & F5 & F6). rewrite Mf in *.
  apply Forall_app in F. destruct F as [Fl Fc]. inversion Fc; subst. cbn [fine] in H1.
  destruct (calm_run (the_sk c) (length (streams c)) (cout :: ks) (ignore_errors c) F1 F4 F5 F6 l [] (mkState c EXIT_SUCCESS)) as (W & R & C); auto.
  - constructor; auto.
  - apply uses_A, U.
  - split; [intros j; cbn [context]; rewrite (sh_empty _ _ _ _ S); reflexivity|]. split; [intros id f I; eapply S, I|]. intros j _. cbn [context]. rewrite (sh_empty _ _ _ _ S). reflexivity.
  - unfold bfs_eval. rewrite fold_left_app. cbn [fold_left step context]. set (s := fold_left step l (mkState c EXIT_SUCCESS)) in *. destruct C as (_ & _ & C3).
    destruct (flush_fine (the_sk c) _ (cout :: ks) _ F1 F4 F5 F6 (files (context s)) o m H1 (fun x I => file_sk _ _ _ _ x W I) (context s) W) as (_ & T & P). fold (ctx_flush (context s) o m) in T, P.
    assert (Ka : In k (cout :: ks)) by (destruct K as [->|K]; [left; reflexivity|right; exact K]).
    destruct (F6 k Ka) as (i & J). rewrite <- (wf_sk _ _ _ _ W) in J. apply in_map_iff in J. destruct J as ((i' & f) & X & J). unfold skel in X. cbn [fst snd] in X. injection X as _ Ek _. subst k.
    specialize (P _ _ J). destruct (T (cfile f)) as (T1 & _). change (written (cfile f) l) with (written (cfile f) ([] ++ l)). rewrite <- (C3 _ Ka), <- T1. unfold total. rewrite P, app_nil_r. reflexivity.
Qed.

Lemma same_id c out err opened k id k' id' : shaped c out err opened -> In (k, id) opened -> In (k', id') opened -> (k = k' <-> id = id').
Proof.
  intros S I I'. destruct (sh_open _ _ _ _ S _ _ I) as (f & J & E & _). destruct (sh_open _ _ _ _ S _ _ I') as (f' & J' & E' & _).
  pose proof (sh_ids _ _ _ _ S) as Ni. pose proof (sh_cfs _ _ _ _ S) as Nc. subst k k'. clear S I I'. induction (files c) as [|[a b] q IH]; [destruct J|]. cbn in Ni, Nc. inversion Ni; inversion Nc; subst.
  destruct J as [X|J], J' as [X'|J'].
  - injection X as -> ->. injection X' as -> ->. tauto.
  - injection X as -> ->. split; [intros E|intros ->]; exfalso.
    + apply H5. rewrite E. change (cfile f') with ((fun x : nat * ctx_file => cfile (snd x)) (id', f')). apply in_map, J'.
    + apply H1. change id' with (fst (id', f')). apply in_map, J'.
  - injection X' as -> ->. split; [intros E|intros <-]; exfalso.
    + apply H5. rewrite <- E. change (cfile f) with ((fun x : nat * ctx_file => cfile (snd x)) (id, f)). apply in_map, J.
    + apply H1. change id with (fst (id, f)). apply in_map, J.
  - auto.
Qed.
Theorem files_shared : forall ig out err paths c ks, open_all (ctx_new ig out err) paths = (c, ks) ->
  length ks = length paths /\
  (forall i k p id, nth_error ks i = Some k -> nth_error paths i = Some (p, id) ->
     (k = cout <-> id = out) /\ (k = cerr <-> id = err /\ err <> out) /\
     forall j k' p' id', nth_error ks j = Some k' -> nth_error paths j = Some (p', id') -> (k = k' <-> id = id')) /\
  nfiles c = length (nodup Nat.eq_dec (filter (fun id => negb (id =? out) && negb (id =? err)) (map snd paths))).
Proof.
  intros ig out err paths c ks E. destruct (opened_ok _ _ _ _ _ _ E) as (L & S & Ig & Mf). split; [exact L|].
  assert (Cm : forall i k p id, nth_error ks i = Some k -> nth_error paths i = Some (p, id) -> In (k, id) (combine ks (map snd paths))).
  { clear. revert paths. induction ks as [|x ks IH]; intros [|[q j] paths] [|i] k p id H H'; try discriminate; cbn in *.
    - left. congruence.
    - right. eapply IH; eauto. }
  split.
  - intros i k p id H H'. pose proof (Cm _ _ _ _ H H') as I. destruct (sh_open _ _ _ _ S _ _ I) as (f & J & Ek & _).
    pose proof (sh_std _ _ _ _ S _ _ J) as Sd. split; [|split].
    + split; [intros ->|intros ->].
      * destruct Sd as [[_ X]|[[X _]|[X _]]]; [exact X| |]; rewrite Ek in X; unfold cout, cerr in X; lia.
      * destruct (sh_out _ _ _ _ S) as (g & Jg & Eg). rewrite <- Ek, <- Eg.
        assert (f = g); [|congruence]. pose proof (sh_ids _ _ _ _ S) as Ni. clear -J Jg Ni. induction (files c) as [|[a b] q IH]; [destruct J|]. cbn in Ni. inversion Ni; subst. destruct J as [X|J], Jg as [X'|J'].
        -- congruence.
        -- injection X as -> ->. exfalso. apply H1. change out with (fst (out, g)). apply in_map, J'.
        -- injection X' as -> ->. exfalso. apply H1. change out with (fst (out, f)). apply in_map, J.
        -- auto.
    + split; [intros ->|intros [-> Ne]].
      * destruct Sd as [[X _]|[[_ X]|[X _]]]; [rewrite Ek in X; discriminate| |rewrite Ek in X; unfold cerr in X; lia]. subst id. split; [reflexivity|]. intros ->.
        destruct (sh_out _ _ _ _ S) as (g & Jg & Eg). assert (f = g); [|subst g; rewrite Eg in Ek; discriminate].
        pose proof (sh_ids _ _ _ _ S) as Ni. clear -J Jg Ni. induction (files c) as [|[a b] q IH]; [destruct J|]. cbn in Ni. inversion Ni; subst. destruct J as [X|J], Jg as [X'|J'].
        -- congruence.
        -- injection X as -> ->. exfalso. apply H1. change out with (fst (out, g)). apply in_map, J'.
        -- injection X' as -> ->. exfalso. apply H1. change out with (fst (out, f)). apply in_map, J.
        -- auto.
      * destruct Sd as [[_ X]|[[X _]|[_ [_ X]]]]; congruence.
    + intros j k' p' id' Hj Hj'. eapply same_id; eauto.
  - pose proof (sh_nfiles _ _ _ _ S) as Nf. pose proof (sh_ids _ _ _ _ S) as Ni.
    set (X := nodup Nat.eq_dec (filter (fun id => negb (id =? out) && negb (id =? err)) (map snd paths))).
    set (B := if out =? err then [out] else [out; err]).
    assert (P : length (B ++ X) = length (map fst (files c))).
    { assert (NB : NoDup (B ++ X)).
      { assert (In_ : forall x, In x X -> x <> out /\ x <> err).
        { intros x I. apply nodup_In, filter_In in I. destruct I as [_ I]. apply andb_true_iff in I. rewrite !negb_true_iff, !Nat.eqb_neq in I. exact I. }
        assert (NX : NoDup X) by apply NoDup_nodup. unfold B. destruct (Nat.eqb_spec out err); cbn; repeat constructor; auto; cbn.
        - intros I. apply In_ in I. tauto.
        - intros [I|I]; [congruence|]. apply In_ in I. tauto.
        - intros I. apply In_ in I. tauto. }
      apply Nat.le_antisymm; apply NoDup_incl_length; auto.
      - intros x I. apply in_app_iff in I. destruct I as [I|I].
        + unfold B in I. destruct (sh_out _ _ _ _ S) as (g & Jg & _). destruct (sh_err _ _ _ _ S) as (g' & Jg' & _).
          assert (x = out \/ x = err) as [-> | ->] by (destruct (out =? err); cbn in I; intuition).
          * change out with (fst (out, g)). apply in_map, Jg.
          * change err with (fst (err, g')). apply in_map, Jg'.
        + apply nodup_In, filter_In in I. destruct I as [I _]. apply in_map_iff in I. destruct I as ((p & id) & <- & I). apply In_nth_error in I. destruct I as (i & I).
          assert (Lt : i < length ks) by (rewrite L; apply nth_error_Some; rewrite I; discriminate). apply nth_error_Some in Lt. destruct (nth_error ks i) as [k|] eqn:Ek; [|congruence].
          destruct (sh_open _ _ _ _ S _ _ (Cm _ _ _ _ Ek I)) as (f & J & _). cbn. change id with (fst (id, f)). apply in_map, J.
      - intros x I. apply in_map_iff in I. destruct I as ((id & f) & <- & I). cbn [fst]. apply in_app_iff.
        destruct (Nat.eq_dec id out) as [->|No]; [left; unfold B; destruct (out =? err); left; reflexivity|].
        destruct (Nat.eq_dec id err) as [->|Ne]; [left; unfold B; destruct (Nat.eqb_spec out err); [congruence|right; left; reflexivity]|]. right.
        apply nodup_In, filter_In. split.
        + destruct (sh_all _ _ _ _ S _ _ I) as [->|[->|(k & J)]]; [congruence|congruence|]. eapply in_combine_r, J.
        + apply andb_true_iff. rewrite !negb_true_iff, !Nat.eqb_neq. auto. }
    rewrite app_length, map_length in P. unfold B in P. destruct (out =? err); cbn in P; lia.
Qed.

(** ** Where the exit status says nothing *)
Definition lose : event := Print cout [([x61], Refuse 0 false)] ([], Accept 0).
Lemma noerror_hides : exists l c', let c := fst (open_all (ctx_new true 0 1) []) in
  uses [] l /\ (forall n, ~ In (Exit n) l) /\ run c l (fun _ => Accept 0) (fun _ => Accept 0) (fun _ => ([], Accept 0)) = (c', 0%Z) /\ written cout l <> [] /\ accepted (stream_of c' cout) = [].
Proof.
  exists [lose]. eexists. cbv zeta. split; [intros k d m [E|[]]; injection E as <- _ _; auto|]. split; [intros n [E|[]]; discriminate|]. split; [reflexivity|]. split; [discriminate|reflexivity].
Qed.
Lemma exit_hides : exists l c', let c := fst (open_all (ctx_new false 0 1) []) in
  uses [] l /\ (forall n, In (Exit n) l -> n = 0%Z) /\ run c l (fun _ => Accept 0) (fun _ => Accept 0) (fun _ => ([], Accept 0)) = (c', 0%Z) /\ written cout l <> [] /\ accepted (stream_of c' cout) = [].
Proof.
  exists [lose; Exit 0]. eexists. cbv zeta. split; [intros k d m [E|[E|[]]]; [injection E as <- _ _; auto|discriminate]|]. split; [intros n [E|[E|[]]]; [discriminate|congruence]|]. split; [reflexivity|]. split; [discriminate|reflexivity].
Qed.
Lemma exit_256_hides : exists l o c', let c := fst (open_all (ctx_new false 0 1) []) in
  uses [] l /\ Forall prints_fine l /\ In (Exit 256) l /\ run c l o (fun _ => Accept 0) (fun _ => ([], Accept 0)) = (c', 0%Z) /\ written cout l <> [] /\ accepted (stream_of c' cout) = [].
Proof.
  exists [Print cout [([x61], Accept 0)] ([], Accept 0); Exit 256], (fun _ => Refuse 0 false). eexists. cbv zeta. split; [intros k d m [E|[E|[]]]; [injection E as <- _ _; auto|discriminate]|].
  split; [repeat constructor|]. split; [right; left; reflexivity|]. split; [reflexivity|]. split; [discriminate|reflexivity].
Qed.

(** ** Nothing else is written *)
Lemma so_refl l : some_of l l. Proof. induction l; constructor; auto. Qed.
Lemma so_none l : some_of [] l. Proof. induction l; constructor; auto. Qed.
Lemma so_app a b a' b' : some_of a a' -> some_of b b' -> some_of (a ++ b) (a' ++ b').
Proof. intros H K. induction H; cbn; [exact K| |]; constructor; assumption. Qed.
Lemma so_trans a b c : some_of b c -> some_of a b -> some_of a c.
Proof.
  intros H. revert a. induction H; intros a K; [exact K| |constructor; auto]. inversion K; subst; [apply so_keep|apply so_skip]; auto.
Qed.
Lemma so_left a a' b : some_of a a' -> some_of a (a' ++ b).
Proof. intros H. rewrite <- (app_nil_r a). apply so_app; [exact H|apply so_none]. Qed.
Lemma fwrite_some s d o w : some_of (total s) w -> some_of (total (fwrite s d o)) (w ++ d).
Proof.
  intros H. eapply so_trans; [apply so_app; [exact H|apply so_refl]|]. unfold total, fwrite. rewrite <- app_assoc. set (all := pending s ++ d).
  destruct o as [n|n [|]]; cbn [accepted pending]; rewrite <- app_assoc; apply so_app; try apply so_refl; rewrite ?firstn_skipn; try apply so_refl.
  rewrite app_nil_r. rewrite <- (firstn_skipn n all) at 2. apply so_left, so_refl.
Qed.
Lemma fflush_some s o w : some_of (total s) w -> some_of (total (fflush s o)) w.
Proof.
  intros H. eapply so_trans; [exact H|]. unfold total, fflush. destruct o as [n|n [|]]; cbn [accepted pending]; rewrite <- app_assoc, ?app_nil_r; apply so_app; try apply so_refl; rewrite ?firstn_skipn; try apply so_refl.
  rewrite <- (firstn_skipn n (pending s)) at 2. apply so_left, so_refl.
Qed.
Lemma clear_total s : total (clearerr s) = total s. Proof. reflexivity. Qed.

Section Some.
  Variables (sk : list (nat * nat * bool)) (N : nat) (A : list nat) (ig : bool).
  Hypothesis N2 : 2 <= N.
  Hypothesis lts : forall i k b, In (i, k, b) sk -> k < N.
  Hypothesis inA : forall i k, In (i, k, true) sk -> In k A.
  Hypothesis Ain : forall k, In k A -> exists i, In (i, k, true) sk.
  Notation wf := (wf sk N ig).
  Notation wf_set := (wf_set sk N A ig N2 lts inA Ain).
  Definition part (c : ctx) (w : nat -> list byte) : Prop := forall k, k <> cerr -> some_of (total (stream_of c k)) (w k).
  Lemma part_set c w k s : wf c -> k < N -> (k <> cerr -> some_of (total s) (w k)) -> part c w -> part (set_stream c k s) w.
  Proof.
    intros W L H P j J. rewrite stream_set by (rewrite (wf_len _ _ _ _ W); exact L). destruct (Nat.eqb_spec j k) as [Ej|]; [rewrite Ej in *; auto|apply P, J].
  Qed.
  Lemma part_more c w w' : part c w -> part c (fun k => w k ++ w' k).
  Proof. intros P k K. apply so_left, P, K. Qed.
  Lemma part_ext c w w' : (forall k, k <> cerr -> w k = w' k) -> part c w -> part c w'.
  Proof. intros E P k K. rewrite <- E by exact K. apply P, K. Qed.
  Lemma part_say c w m : wf c -> part c w -> part (say c m) w.
  Proof. intros W P. unfold say. apply part_set; [exact W|unfold cerr; lia|congruence|exact P]. Qed.
  Lemma part_all k l : k < N -> forall c w, wf c -> part c w -> part (fst (write_all c k l)) (fun j => w j ++ if j =? k then concat (map fst l) else []).
  Proof.
    intros L. induction l as [|[d o] l IH]; intros c w W P; cbn [write_all].
    - apply part_more, P.
    - set (c1 := set_stream c k (fwrite (stream_of c k) d o)). assert (W1 : wf c1) by (apply wf_set; auto).
      assert (P1 : part c1 (fun j => w j ++ if j =? k then d else [])).
      { apply part_set; auto; [|apply part_more, P]. intros K. rewrite Nat.eqb_refl. apply fwrite_some, P, K. }
      destruct (succeeds o).
      + eapply part_ext, (IH c1 _ W1 P1). intros j _. cbn [map concat fst]. destruct (j =? k); [rewrite <- app_assoc; reflexivity|rewrite !app_nil_r; reflexivity].
      + cbn [fst]. eapply part_ext, (part_more _ _ (fun j => if j =? k then concat (map fst l) else []) P1). intros j _. cbn [map concat fst]. destruct (j =? k); [rewrite <- app_assoc; reflexivity|rewrite !app_nil_r; reflexivity].
  Qed.
  Lemma part_flush l o m : (forall x, In x l -> In (skel x) sk) -> forall c w, wf c -> part c w -> part (flush_files c l o m) w.
  Proof.
    induction l as [|[id f] l IH]; intros Sub c w W P; [exact P|].
    assert (L : cfile f < N) by (eapply lts, (Sub (id, f)); left; reflexivity).
    pose proof (wf_flush sk N A ig N2 lts inA Ain [(id, f)] o m) as W'. specialize (W' (fun x I => Sub x (match I with or_introl E => or_introl E | or_intror F => match F with end end)) c W).
    cbn [flush_files] in *. apply IH; [intros x I; apply Sub; right; exact I|exact W'|]. clear W' IH. set (k := cfile f) in *.
    assert (P1 : part (set_stream c k (fflush (stream_of c k) (o k))) w) by (apply part_set; auto; intros K; apply fflush_some, P, K).
    set (c1 := set_stream c k (fflush (stream_of c k) (o k))) in *. assert (W1 : wf c1) by (apply wf_set; auto).
    destruct (succeeds (o k)); [exact P1|]. set (c2 := mkCtx (streams c1) (set_error (files c1) id) (nfiles c1) (ignore_errors c1)).
    assert (W2 : wf c2) by (destruct W1 as [H1 H2 H3]; constructor; cbn [streams files ignore_errors c2]; auto; rewrite set_error_sk; exact H2).
    assert (P2 : part c2 w) by exact P1.
    assert (P3 : part (set_stream c2 k (clearerr (stream_of c2 k))) w) by (apply part_set; auto; intros K; rewrite clear_total; apply P2, K).
    destruct (is_some (path f) || (k =? cout)); [apply part_say; [apply wf_set; auto|exact P3]|exact P3].
  Qed.
  Lemma part_step s e w : wf (context s) -> usesA A e -> part (context s) w -> part (context (step s e)) (fun k => w k ++ prints k e).
  Proof.
    intros W U P. destruct e; cbn [step prints].
    - unfold eval_print. assert (L : k < N) by (apply (A_lt sk N A lts Ain), U). pose proof (part_all k l L (context s) w W P) as X. pose proof (write_all_wf sk N A ig N2 lts inA Ain k l L _ W) as W'.
      assert (E : part (fst (write_all (context s) k l)) (fun j => w j ++ (if k =? j then concat (map fst l) else []))) by (eapply part_ext, X; intros j _; cbn; rewrite Nat.eqb_sym; reflexivity). clear X.
      destruct (write_all (context s) k l) as [c [|]]; [exact E|]. cbn [fst] in *. unfold eval_io_error. cbn [context].
      assert (W2 : wf (context (eval_error (mkState c (ret s)) m))) by (unfold eval_error; cbn [context]; destruct (ignore_errors c); [exact W'|apply (wf_say sk N A ig N2 lts inA Ain), W']).
      assert (P2 : part (context (eval_error (mkState c (ret s)) m)) (fun j => w j ++ (if k =? j then concat (map fst l) else []))) by (unfold eval_error; cbn [context]; destruct (ignore_errors c); [exact E|apply part_say; auto]).
      apply part_set; auto. intros K. rewrite clear_total. apply P2, K.
    - unfold eval_error. apply part_more. destruct (ignore_errors (context s)); [exact P|cbn [context]; apply part_say; auto].
    - cbn [context]. apply part_more, part_say; auto.
    - cbn [context]. apply part_more, part_say; auto.
    - cbn [context]. apply part_more. apply part_flush; auto. intros x I. eapply file_sk; eauto.
    - cbn [context]. apply part_more, P.
  Qed.
  Lemma part_run l : forall done s, wf (context s) -> Forall (usesA A) l -> part (context s) (fun k => written k done) ->
    let s' := fold_left step l s in wf (context s') /\ part (context s') (fun k => written k (done ++ l)).
  Proof.
    induction l as [|e l IH]; intros done s W U P; cbv zeta; cbn [fold_left]; [rewrite app_nil_r; auto|]. inversion U; subst.
    destruct (IH (done ++ [e]) (step s e)) as (X & Y); auto.
    - apply (step_wf sk N A ig N2 lts inA Ain); auto.
    - eapply part_ext, (part_step s e _ W H1 P). intros k _. symmetry. apply written_snoc.
    - rewrite <- app_assoc in Y. auto.
  Qed.
  Lemma part_close l o o' m : (forall x, In x l -> In (skel x) sk) -> forall c w, wf c -> part c w -> part (fst (close_files c l o o' m)) w.
  Proof.
    induction l as [|[id f] l IH]; intros Sub c w W P; [exact P|]. cbn [close_files]. unfold ctx_fclose at 1. set (k := cfile f).
    assert (L : k < N) by (eapply lts, (Sub (id, f)); left; reflexivity).
    set (c1 := set_stream c k (fflush (stream_of c k) (o k))). assert (W1 : wf c1) by (apply wf_set; auto).
    assert (P1 : part c1 w) by (apply part_set; auto; intros K; apply fflush_some, P, K).
    set (c2 := set_stream c1 k (fflush (stream_of c1 k) (o' k))). assert (W2 : wf c2) by (apply wf_set; auto).
    assert (P2 : part c2 w) by (apply part_set; auto; intros K; apply fflush_some, P1, K).
    assert (G : forall c3, wf c3 -> part c3 w -> part (fst (close_files c3 l o o' m)) w) by (intros c3 W3 P3; apply IH; auto; intros x I; apply Sub; right; exact I).
    assert (Gs : forall c3, wf c3 -> part c3 w -> part (fst (close_files (say c3 (m k)) l o o' m)) w) by (intros c3 W3 P3; apply G; [apply (wf_say sk N A ig N2 lts inA Ain), W3|apply part_say; auto]).
    destruct (negb (k =? cout) && negb (k =? cerr)).
    - match goal with |- context [if ?b && (is_some (path f) || (k =? cout)) then _ else _] => destruct (b && (is_some (path f) || (k =? cout))) end.
      + specialize (Gs c2 W2 P2). destruct (close_files (say c2 (m k)) l o o' m). exact Gs.
      + specialize (G c2 W2 P2). destruct (close_files c2 l o o' m). exact G.
    - match goal with |- context [if ?b && (is_some (path f) || (k =? cout)) then _ else _] => destruct (b && (is_some (path f) || (k =? cout))) end.
      + specialize (Gs c1 W1 P1). destruct (close_files (say c1 (m k)) l o o' m). exact Gs.
      + specialize (G c1 W1 P1). destruct (close_files c1 l o o' m). exact G.
  Qed.
End Some.
Theorem nothing_else : forall ig out err paths c ks, open_all (ctx_new ig out err) paths = (c, ks) ->
  forall l o o' m, uses ks l -> forall k, k <> cerr -> some_of (accepted (stream_of (fst (run c l o o' m)) k)) (written k l).
Proof.
  intros ig out err paths c ks E l o o' m U k K. destruct (opened_ok _ _ _ _ _ _ E) as (L & S & Ig & Mf). destruct (facts c out err _ S) as (F1 & F2 & F3 & F4 & F5 & F6). rewrite Mf in *.
  destruct (part_run (the_sk c) (length (streams c)) (cout :: ks) ig F1 F4 F5 F6 l [] (mkState c EXIT_SUCCESS)) as (W & P).
  - constructor; auto.
  - apply uses_A, U.
  - intros j _. cbn [context]. rewrite (sh_empty _ _ _ _ S). apply so_nil.
  - unfold run, bfs_eval. set (s := fold_left step l (mkState c EXIT_SUCCESS)) in *. unfold ctx_free.
    pose proof (part_close (the_sk c) (length (streams c)) (cout :: ks) ig F1 F4 F5 F6 (files (context s)) o o' m (fun x I => file_sk _ _ _ _ x W I) (context s) _ W P k K) as X.
    destruct (close_files (context s) (files (context s)) o o' m) as [c' ok]. cbn [fst] in *. eapply so_trans; [exact X|]. unfold total. apply so_left, so_refl.
Qed.
