(** * Commands that run in the directories of files *)
From Coq Require Import List Arith Bool Lia.
From Coq Require Import Init.Byte Strings.Byte.
From Verif Require Import PathModel PathSpec PathProofs ExecModel ExecSpec ExecProofs ExecRuns.
Import ListNotations.
Local Opaque Nat.div Nat.modulo Nat.ltb Nat.leb.

Lemma firstn_slashes n l : firstn n (slashes n ++ l) = slashes n.
Proof.
  rewrite firstn_app. rewrite (firstn_all2 (n := n) (slashes n)) by (unfold slashes; rewrite repeat_length; lia).
  unfold slashes at 2. rewrite repeat_length, Nat.sub_diag. apply app_nil_r.
Qed.

(** The part of a path up to its last slash *)
Lemma dir_part_cases p :
  (p = [slash] /\ dir_part p = [slash] /\ xbaseoff p = 0) \/
  p <> [slash] /\ dir_part p = firstn (xbaseoff p) p /\ length (firstn (xbaseoff p) p) = xbaseoff p /\
  (xbaseoff p = 0 -> is_slash (at_ p 0) = false) /\ (xbaseoff p <> 0 -> exists q, firstn (xbaseoff p) p = q ++ [slash]).
Proof.
  unfold dir_part. destruct (path_functions p) as [|n|b n (NB & IB)|b m n (NB & IB)|d c b m n (NB & IB) NC].
  - right. cbn. repeat split; auto; try discriminate. intros K. now destruct K.
  - destruct n as [|n]; [left; auto|right]. split; [discriminate|]. cbn [Nat.eqb andb].
    assert (F : firstn (S n) (slashes (S (S n))) = slashes (S n)).
    { rewrite (slashes_snoc (S n)). apply firstn_slashes. }
    rewrite F. split; [reflexivity|]. split; [apply repeat_length|]. split; [discriminate|]. intros _. exists (slashes n). apply slashes_snoc.
  - destruct b as [|c b]; [contradiction|]. assert (H : is_slash c = false).
    { destruct (is_slash_spec c) as [->|]; [|reflexivity]. exfalso. apply IB. now left. }
    right. cbn [app at_ nth Nat.eqb]. unfold at_. cbn [app nth]. rewrite H. cbn. split; [|repeat split; auto; intros K; now destruct K].
    intros [= -> _]. discriminate H.
  - right. split.
    { destruct b as [|c b]; [contradiction|]. intros E. apply (f_equal (@length byte)) in E. rewrite !app_length in E. cbn in E. lia. }
    cbn [Nat.eqb andb]. assert (F : firstn (S m) (slashes (S m) ++ b ++ slashes n) = slashes (S m)).
    { apply firstn_slashes. }
    rewrite F. split; [reflexivity|]. split; [apply repeat_length|]. split; [discriminate|]. intros _. exists (slashes m). apply slashes_snoc.
  - right. split.
    { destruct b as [|z b]; [contradiction|]. intros E. apply (f_equal (@length byte)) in E. rewrite !app_length in E. cbn in E. lia. }
    assert (Z : Nat.eqb (length (d ++ [c]) + S m) 0 = false) by (apply Nat.eqb_neq; lia). rewrite Z. cbn [andb].
    assert (F : firstn (length (d ++ [c]) + S m) ((d ++ [c]) ++ slashes (S m) ++ b ++ slashes n) = (d ++ [c]) ++ slashes (S m)).
    { rewrite firstn_app_2. f_equal. apply firstn_slashes. }
    rewrite F. split; [reflexivity|]. split; [rewrite (app_length (d ++ [c]) (slashes _)); f_equal; apply repeat_length|]. split; [lia|].
    intros _. exists ((d ++ [c]) ++ slashes m). rewrite slashes_snoc. now rewrite app_assoc.
Qed.

Section Dirs.
Context (dir : Type) (place : list byte -> dir) (tmpl : list arg) (kernel : nat -> list arg -> outcome).
Notation exec := (exec dir).
Notation fmt := (format_path dir true).
Notation Rep := (Rep dir tmpl).
Notation file := (file dir).

Definition fresh (seen : list file) (f : file) : Prop := reported place f /\ forall g, In g seen -> ~ confused g f.

Notation wd_fd := (wd_fd dir).
Notation wd_path := (wd_path dir).
Notation wd_len := (wd_len dir).
Notation tries := (tries dir).
Notation failed := (failed dir).

(** The directory that is open is that of the files whose arguments are stored, and of some file [seen] before. *)
Inductive Where (seen : list file) (e : exec) (gs : list file) : Prop :=
| w_start : wd_path e = None -> wd_len e = 0 -> wd_fd e = None -> gs = [] -> Where seen e gs
| w_here g0 : wd_path e = None -> wd_len e = 0 -> (wd_fd e = None \/ wd_fd e = Some (place [])) ->
    In g0 seen -> dir_part (f_path dir g0) = [] ->
    (forall g, In g gs -> dir_part (f_path dir g) = []) -> Where seen e gs
| w_there q g0 : wd_path e = Some (q ++ [slash]) -> wd_len e = length (q ++ [slash]) -> wd_fd e = Some (place (q ++ [slash])) ->
    In g0 seen -> dir_part (f_path dir g0) = q ++ [slash] ->
    (forall g, In g gs -> dir_part (f_path dir g) = q ++ [slash]) -> Where seen e gs
| w_failed q : wd_path e = Some (q ++ [slash]) -> wd_len e = length (q ++ [slash]) -> wd_fd e = None -> gs = [] -> Where seen e gs.

Lemma where_same seen e e' gs : same_wd dir e e' -> Where seen e gs -> Where seen e' gs.
Proof.
  intros (A & B & C & _) W. destruct W as [W1 W2 W3 W4|g0 W1 W2 W3 W4 W5 W6|q g0 W1 W2 W3 W4 W5 W6|q W1 W2 W3 W4].
  - apply w_start; congruence.
  - apply (w_here _ _ _ g0); rewrite ?A, ?B, ?C; auto.
  - apply (w_there _ _ _ q g0); rewrite ?A, ?B, ?C; auto.
  - apply (w_failed _ _ _ q); congruence.
Qed.
Lemma where_failed seen e gs : Where seen e gs -> Where seen (set_failed dir e) gs.
Proof.
  intros W. destruct W as [W1 W2 W3 W4|g0 W1 W2 W3 W4 W5 W6|q g0 W1 W2 W3 W4 W5 W6|q W1 W2 W3 W4];
    [apply w_start|apply (w_here _ _ _ g0)|apply (w_there _ _ _ q g0)|apply (w_failed _ _ _ q)]; auto.
Qed.
Lemma where_incl seen e gs gs' : incl gs' gs -> Where seen e gs -> Where seen e gs'.
Proof.
  intros I W. assert (N : gs = [] -> gs' = []) by (intros ->; destruct gs' as [|g gs']; [reflexivity|]; destruct (I g); now left).
  destruct W as [W1 W2 W3 W4|g0 W1 W2 W3 W4 W5 W6|q g0 W1 W2 W3 W4 W5 W6|q W1 W2 W3 W4];
    [apply w_start|apply (w_here _ _ _ g0)|apply (w_there _ _ _ q g0)|apply (w_failed _ _ _ q)]; auto.
Qed.
Lemma where_seen seen seen' e gs : incl seen seen' -> Where seen e gs -> Where seen' e gs.
Proof.
  intros I W. destruct W as [W1 W2 W3 W4|g0 W1 W2 W3 W4 W5 W6|q g0 W1 W2 W3 W4 W5 W6|q W1 W2 W3 W4];
    [apply w_start|apply (w_here _ _ _ g0)|apply (w_there _ _ _ q g0)|apply (w_failed _ _ _ q)]; auto.
Qed.

Lemma where_cwd seen e gs : Where seen e gs -> forall g, In g gs -> match wd_fd e with Some d => d | None => place [] end = place (dir_part (f_path dir g)).
Proof.
  intros W g I. destruct W as [W1 W2 W3 W4|g0 W1 W2 W3 W4 W5 W6|q g0 W1 W2 W3 W4 W5 W6|q W1 W2 W3 W4].
  - subst. destruct I.
  - rewrite W6 by exact I. destruct W3 as [-> | ->]; reflexivity.
  - rewrite W6, W3 by exact I. reflexivity.
  - subst. destruct I.
Qed.

Lemma seg_in_place seen e gs a : Where seen e gs -> seg_attempt dir tmpl e (map fmt gs) a -> in_place place tmpl gs a.
Proof.
  intros W (C & pre & qs & rest & E & T).
  apply map_eq_app in E. destruct E as (g1 & g2 & -> & <- & E). apply map_eq_app in E. destruct E as (g3 & g4 & -> & <- & <-).
  exists g3. split; [intros g I; apply in_or_app; right; apply in_or_app; now left|]. split; [exact T|].
  intros g I. rewrite C. apply (where_cwd seen e _ W). apply in_or_app; right; apply in_or_app; now left.
Qed.

Lemma in_place_incl gs fs a : incl gs fs -> in_place place tmpl gs a -> in_place place tmpl fs a.
Proof. intros I (hs & J & K). exists hs. split; [eapply incl_tran; eauto|exact K]. Qed.

Lemma set_wd_rep e ps fd p n : Rep e ps -> Rep (set_wd dir e fd p n) ps.
Proof. intros (A & B & C & D & E & G). unfold ExecRuns.Rep, Mid. cbn. auto 8. Qed.

(** What opening a directory does if none is open *)
Lemma reopen_ok w e f seen : reported place f -> opens place w -> wd_path e = None -> wd_len e = 0 -> wd_fd e = None ->
  exists e' ok, openwd dir true w e f = Some (e', ok) /\
    (exists fd p n, e' = set_wd dir e fd p n) /\ Where (seen ++ [f]) e' [] /\ (ok = true -> Where (seen ++ [f]) e' [f]).
Proof.
  intros (RO & RA) OP P L F. unfold openwd. rewrite F, P. cbn [negb]. rewrite RO.
  assert (IF : In f (seen ++ [f])) by (apply in_or_app; right; now left).
  assert (NIL : Where (seen ++ [f]) (set_wd dir e None None 0) []) by (apply w_start; auto).
  assert (HERE : dir_part (f_path dir f) = [] -> forall fd, (fd = None \/ fd = Some (place [])) -> Where (seen ++ [f]) (set_wd dir e fd None 0) [f]).
  { intros DE fd HF. apply (w_here _ _ _ f); auto. intros g [<-|[]]. auto. }
  assert (THERE : forall q, dir_part (f_path dir f) = q ++ [slash] ->
     Where (seen ++ [f]) (set_wd dir e (Some (place (q ++ [slash]))) (Some (q ++ [slash])) (length (q ++ [slash]))) [f]).
  { intros q DE. apply (w_there _ _ _ q f); auto. intros g [<-|[]]. auto. }
  assert (TI : forall e, Where (seen ++ [f]) e [f] -> Where (seen ++ [f]) e []) by (intros x; apply where_incl; intros g []).
  destruct (dir_part_cases (f_path dir f)) as [(EP & DP & Z)|(NP & DP & DL & D0 & D1)].
  - (* the root *)
    rewrite Z. cbn [Nat.eqb]. replace (is_slash (at_ (f_path dir f) 0)) with true by now rewrite EP. cbn [andb negb].
    specialize (THERE [] DP). cbn [app length] in THERE.
    assert (E1 : firstn 1 (f_path dir f) = [slash]) by now rewrite EP. rewrite E1.
    destruct (f_at dir f) as [d|] eqn:FA.
    + specialize (RA d eq_refl). rewrite DP in RA. destruct (w_dup dir w); cbn [negb].
      * do 2 eexists. split; [reflexivity|]. split; [eauto|]. subst d. split; [now apply TI|]. intros _. exact THERE.
      * do 2 eexists. split; [reflexivity|]. split; [eauto|]. rewrite L. split; [exact NIL|discriminate].
    + do 2 eexists. split; [reflexivity|]. split; [eauto|]. specialize (OP [slash]).
      destruct (w_open dir w [slash]) as [d|].
      * rewrite (OP d eq_refl). split; [now apply TI|]. intros _. exact THERE.
      * split; [|discriminate]. apply (w_failed _ _ _ []); auto.
  - destruct (Nat.eqb_spec (xbaseoff (f_path dir f)) 0) as [Z|Z].
    + rewrite (D0 Z). cbn [negb andb]. assert (DE : dir_part (f_path dir f) = []) by (rewrite DP, Z; reflexivity).
      destruct (f_at dir f) as [d|] eqn:FA.
      * specialize (RA d eq_refl). rewrite DE in RA. destruct (w_dup dir w); cbn [negb].
        -- do 2 eexists. split; [reflexivity|]. split; [eauto|]. split; [apply TI|intros _]; apply HERE; auto; subst d; auto.
        -- do 2 eexists. split; [reflexivity|]. split; [eauto|]. rewrite L. split; [exact NIL|discriminate].
      * do 2 eexists. split; [reflexivity|]. split; [eauto|]. split; [exact NIL|]. intros _. apply HERE; auto.
    + cbn [negb andb]. destruct (D1 Z) as (q & E). rewrite E in DL, DP. specialize (THERE q DP). rewrite DL in THERE.
      destruct (f_at dir f) as [d|] eqn:FA.
      * specialize (RA d eq_refl). rewrite DP in RA. destruct (w_dup dir w); cbn [negb].
        -- do 2 eexists. split; [reflexivity|]. split; [eauto|]. rewrite E, RA. split; [now apply TI|]. intros _. exact THERE.
        -- do 2 eexists. split; [reflexivity|]. split; [eauto|]. rewrite L. split; [exact NIL|discriminate].
      * do 2 eexists. split; [reflexivity|]. split; [eauto|]. rewrite E. specialize (OP (q ++ [slash])).
        destruct (w_open dir w (q ++ [slash])) as [d|].
        -- rewrite (OP d eq_refl). split; [now apply TI|]. intros _. exact THERE.
        -- split; [|discriminate]. apply (w_failed _ _ _ q); auto.
Qed.

(** Files that are not confused with those [seen] before *)
Lemma here_again e f g0 : reported place f -> ~ confused g0 f -> dir_part (f_path dir g0) = [] -> wd_path e = None -> wd_len e = 0 ->
  changed_dirs dir true e f = false -> dir_part (f_path dir f) = [] /\ xbaseoff (f_path dir f) = 0 /\ is_slash (at_ (f_path dir f) 0) = false.
Proof.
  intros (RO & _) NC D P L CH. unfold changed_dirs in CH. rewrite P, L, RO in CH. cbn [andb] in CH. rewrite orb_false_r in CH. apply Nat.ltb_ge in CH.
  destruct (dir_part_cases (f_path dir f)) as [(EP & _ & _)|(NP & DP & DL & D0 & D1)].
  - exfalso. apply NC. left. auto.
  - assert (Z : xbaseoff (f_path dir f) = 0) by lia. split; [rewrite DP, Z; reflexivity|]. auto.
Qed.

Lemma openwd_ok w e f gs seen : fresh seen f -> opens place w -> Where seen e gs -> wd_fd e = None -> changed_dirs dir true e f = false ->
  forall e' ok, openwd dir true w e f = Some (e', ok) ->
    (exists fd p n, e' = set_wd dir e fd p n) /\ Where (seen ++ [f]) e' gs /\ (ok = true -> Where (seen ++ [f]) e' (gs ++ [f])).
Proof.
  intros ((RO & RA) & NC) OP W NF CH e' ok.
  destruct W as [P L F G|g0 P L F I0 D0 G|q g0 P L F I0 D0 G|q P L F G].
  - subst gs. destruct (reopen_ok w e f seen (conj RO RA) OP P L F) as (e2 & ok2 & -> & X & Y & Z). intros [= <- <-]. auto.
  - destruct (here_again e f g0 (conj RO RA) (NC g0 I0) D0 P L CH) as (DE & Z & S0).
    unfold openwd. rewrite NF, P, RO, Z, S0. cbn [Nat.eqb negb andb].
    assert (H : forall fd, (fd = None \/ fd = Some (place [])) -> Where (seen ++ [f]) (set_wd dir e fd None 0) (gs ++ [f])).
    { intros fd HF. apply (w_here _ _ _ f); auto; [apply in_or_app; right; now left|]. intros g I. apply in_app_or in I. destruct I as [I|[<-|[]]]; auto. }
    assert (I : incl gs (gs ++ [f])) by (intros g I; apply in_or_app; auto).
    destruct (f_at dir f) as [d|] eqn:FA.
    + destruct (w_dup dir w); intros [= <- <-].
      * specialize (RA d eq_refl). rewrite DE in RA. split; [eauto|]. split; [|intros _]; [eapply where_incl; [exact I|]|]; apply H; subst d; auto.
      * split; [eauto|]. split; [|discriminate]. rewrite L. eapply where_incl; [exact I|]. apply H. auto.
    + intros [= <- <-]. split; [eauto|]. split; [eapply where_incl; [exact I|]|intros _]; apply H; auto.
  - congruence.
  - unfold openwd. rewrite NF, P. discriminate.
Qed.

Lemma closewd_ok e gs seen : Where seen e gs -> closewd dir e = set_wd dir e None None 0.
Proof.
  intros W. unfold closewd. destruct W as [P L F G|g0 P L F I0 D0 G|q g0 P L F I0 D0 G|q P L F G]; rewrite P; try rewrite L; reflexivity.
Qed.

(** Files in the same directory do not need another one. *)
Lemma unchanged_ok e gs f d seen : fresh seen f -> Where seen e gs -> changed_dirs dir true e f = false -> wd_fd e = Some d -> Where seen e (gs ++ [f]).
Proof.
  intros (RP & NC) W CH FD. destruct W as [P L F G|g0 P L F I0 D0 G|q g0 P L F I0 D0 G|q P L F G]; [congruence| | |congruence].
  - destruct (here_again e f g0 RP (NC g0 I0) D0 P L CH) as (DE & Z & S0).
    apply (w_here _ _ _ g0); auto. intros g I. apply in_app_or in I. destruct I as [I|[<-|[]]]; auto.
  - destruct RP as (RO & _). unfold changed_dirs in CH. cbn [andb] in CH. rewrite RO in CH. apply orb_false_iff in CH. destruct CH as (C1 & C2). apply Nat.ltb_ge in C1.
    rewrite P in C2. destruct (list_eq_dec _ _ _) as [E|] in C2; [|discriminate]. rewrite L, firstn_all in E. 
    assert (XB : xbaseoff (f_path dir f) = length (q ++ [slash])).
    { destruct (Nat.lt_ge_cases (xbaseoff (f_path dir f)) (length (q ++ [slash]))) as [LT|]; [|lia]. exfalso. apply (NC g0 I0). right. rewrite D0.
      split; [|exact LT]. exists (skipn (length (q ++ [slash])) (f_path dir f)). rewrite <- E at 1. symmetry. apply firstn_skipn. }
    apply (w_there _ _ _ q g0); auto. intros g I. apply in_app_or in I. destruct I as [I|[<-|[]]]; [auto|].
    destruct (dir_part_cases (f_path dir f)) as [(EP & DP & Z)|(NP & DP & _)].
    + rewrite app_length in XB. cbn in XB. lia.
    + rewrite DP, XB. exact E.
Qed.

Lemma dir_step w e f gs seen e' : fresh seen f -> opens place w -> Rep e (map fmt gs) -> Where seen e gs ->
  exec_file dir true tmpl kernel w e f = Some e' ->
  exists gs' new, Rep e' (map fmt gs') /\ Where (seen ++ [f]) e' gs' /\ incl gs' (gs ++ [f]) /\ tries e' = tries e ++ new /\
    Forall (in_place place tmpl gs) new /\
    subseq (executed tmpl new ++ map fmt gs') (map fmt (gs ++ [f])) /\
    (failed e' = false -> failed e = false /\ executed tmpl new ++ map fmt gs' = map fmt (gs ++ [f])).
Proof.
  intros PL OP R W. unfold exec_file, exec_multi. rewrite map_app. cbn [map]. set (a := fmt f).
  assert (IS : incl seen (seen ++ [f])) by (intros g I; apply in_or_app; auto).
  assert (I0 : incl gs (gs ++ [f])) by (intros g I; apply in_or_app; auto).
  destruct (w_arg dir w) eqn:WA; cbn [negb].
  2:{ intros [= <-]. exists gs, []. rewrite app_nil_r. split; [now apply set_failed_rep|]. split; [apply where_failed; now apply (where_seen seen)|].
      split; [exact I0|]. split; [reflexivity|]. split; [constructor|]. cbn [executed flat_map app].
      split; [rewrite <- (app_nil_r (map fmt gs)) at 1; apply subseq_app; [apply subseq_refl|apply subseq_nil]|]. discriminate. }
  destruct (changed_dirs dir true e f) eqn:CH.
  - (* another directory *)
    destruct (flush_all_ok dir tmpl kernel (S (argc dir e)) e (map fmt gs) true R) as (e1 & ok & new & -> & R1 & T1 & A1 & W1 & S1 & O1 & _ & _).
    { destruct R as (A & _). rewrite A. lia. }
    pose proof (where_same seen e e1 gs W1 W) as W2. rewrite (closewd_ok e1 gs seen W2).
    cbn [andb set_wd ExecModel.wd_fd].
    destruct (reopen_ok w (set_wd dir e1 None None 0) f seen (proj1 PL) OP eq_refl eq_refl eq_refl) as (e2 & ok2 & -> & (fd & p & n & E2) & W3 & W4).
    assert (R2 : Rep e2 []) by (subst e2; now do 2 apply set_wd_rep).
    assert (T2 : tries e2 = tries e ++ new) by (subst e2; exact T1).
    assert (F2 : failed e2 = failed e) by (subst e2; destruct W1 as (?&?&?&?); cbn; congruence).
    assert (AI : Forall (in_place place tmpl gs) new) by (eapply Forall_impl; [|exact A1]; intros x; now apply (seg_in_place seen e)).
    destruct ok2.
    + destruct (push_ok dir tmpl w e2 [] a R2) as (e3 & pushed & -> & R3 & T3 & L3 & W5 & G3).
      intros E. injection E as <-. specialize (W4 eq_refl). cbn [app] in R3.
      exists (if pushed then [f] else []), new.
      assert (WW : Where (seen ++ [f]) e3 (if pushed then [f] else [])).
      { eapply where_same; [exact W5|]. destruct pushed; [exact W4|exact W3]. }
      assert (RR : Rep e3 (map fmt (if pushed then [f] else []))) by (destruct pushed; exact R3).
      assert (TT : tries (if ok && pushed then e3 else set_failed dir e3) = tries e ++ new) by (destruct (ok && pushed); cbn; congruence).
      split; [destruct (ok && pushed); [exact RR|now apply set_failed_rep]|].
      split; [destruct (ok && pushed); [exact WW|]; now apply where_failed|].
      split; [destruct pushed; [intros g [<-|[]]; apply in_or_app; right; now left|intros g []]|].
      split; [exact TT|]. split; [exact AI|].
      split; [apply subseq_app; [exact S1|destruct pushed; [apply subseq_refl|apply subseq_nil]]|].
      destruct ok, pushed; cbn [andb]; try discriminate. intros F. destruct W5 as (?&?&?&?). split; [congruence|].
      rewrite (proj2 (O1 eq_refl)). reflexivity.
    + intros [= <-]. exists [], new. split; [now apply set_failed_rep|].
      split; [now apply where_failed|].
      split; [intros g []|]. split; [exact T2|]. split; [exact AI|]. split; [apply subseq_app; [exact S1|apply subseq_nil]|]. discriminate.
  - (* the same directory *)
    destruct (handled dir tmpl kernel e (map fmt gs) (would_overflow dir e a) R) as (e1 & ok & q & new & -> & R1 & T1 & A1 & W1 & S1 & O1 & P1 & _ & _).
    assert (EQ : exists hs, q = map fmt hs /\ incl hs gs).
    { destruct P1 as (pre & [E | ->]); [|exists []; split; [reflexivity|intros g []]].
      apply map_eq_app in E. destruct E as (g1 & g2 & -> & _ & <-). exists g2. split; [reflexivity|]. intros g I. apply in_or_app; auto. }
    destruct EQ as (hs & -> & IH). pose proof (where_incl seen e1 gs hs IH (where_same seen e e1 gs W1 W)) as W2.
    assert (AI : Forall (in_place place tmpl gs) new) by (eapply Forall_impl; [|exact A1]; intros x; now apply (seg_in_place seen e)).
    assert (CH1 : changed_dirs dir true e1 f = false) by (unfold changed_dirs in *; destruct W1 as (_ & -> & -> & _); exact CH).
    set (op := if true && match ExecModel.wd_fd dir e1 with None => true | Some _ => false end then openwd dir true w e1 f else Some (e1, true)).
    assert (HO : forall e2 ok2, op = Some (e2, ok2) -> Rep e2 (map fmt hs) /\ tries e2 = tries e1 /\ failed e2 = failed e1 /\
               Where (seen ++ [f]) e2 hs /\ (ok2 = true -> Where (seen ++ [f]) e2 (hs ++ [f]))).
    { intros e2 ok2. unfold op. destruct (ExecModel.wd_fd dir e1) as [d|] eqn:FD; cbn [andb].
      - intros [= <- <-]. split; [exact R1|]. split; [reflexivity|]. split; [reflexivity|]. split; [now apply (where_seen seen)|]. intros _. apply (where_seen seen); [exact IS|]. now apply (unchanged_ok e1 hs f d).
      - intros E. destruct (openwd_ok w e1 f hs seen PL OP W2 FD CH1 e2 ok2 E) as ((fd & p & n & ->) & X & Y).
        split; [now apply set_wd_rep|]. auto. }
    destruct op as [[e2 ok2]|]; [|discriminate]. destruct (HO e2 ok2 eq_refl) as (R2 & T2 & F2 & W3 & W4). clear HO.
    assert (IG : incl hs (gs ++ [f])) by (eapply incl_tran; eauto).
    destruct ok2.
    + destruct (push_ok dir tmpl w e2 (map fmt hs) a R2) as (e3 & pushed & -> & R3 & T3 & L3 & W5 & G3).
      intros E. injection E as <-. specialize (W4 eq_refl).
      exists (if pushed then hs ++ [f] else hs), new.
      assert (WW : Where (seen ++ [f]) e3 (if pushed then hs ++ [f] else hs)).
      { eapply where_same; [exact W5|]. destruct pushed; [exact W4|exact W3]. }
      assert (RR : Rep e3 (map fmt (if pushed then hs ++ [f] else hs))) by (destruct pushed; [rewrite map_app|]; exact R3).
      assert (TT : tries (if ok && pushed then e3 else set_failed dir e3) = tries e ++ new) by (destruct (ok && pushed); cbn; congruence).
      split; [destruct (ok && pushed); [exact RR|now apply set_failed_rep]|].
      split; [destruct (ok && pushed); [exact WW|]; now apply where_failed|].
      split; [destruct pushed; [apply incl_app; [exact IG|intros g [<-|[]]; apply in_or_app; right; now left]|exact IG]|].
      split; [exact TT|]. split; [exact AI|].
      split.
      { destruct pushed; [rewrite map_app, app_assoc; apply subseq_app; [exact S1|apply subseq_refl]|].
        rewrite <- (app_nil_r (executed tmpl new ++ map fmt hs)). apply subseq_app; [exact S1|apply subseq_nil]. }
      destruct ok, pushed; cbn [andb]; try discriminate. intros F. destruct W5 as (?&?&?&?), W1 as (?&?&?&?). split; [congruence|].
      rewrite map_app, app_assoc, O1 by reflexivity. reflexivity.
    + intros [= <-]. exists hs, new. split; [now apply set_failed_rep|].
      split; [now apply where_failed|].
      split; [exact IG|]. split; [cbn; congruence|]. split; [exact AI|].
      split; [rewrite <- (app_nil_r (executed tmpl new ++ map fmt hs)); apply subseq_app; [exact S1|apply subseq_nil]|]. discriminate.
Qed.

Lemma dir_files : forall fs e gs seen e', (forall g f, In g seen -> In f (map fst fs) -> ~ confused g f) ->
  ForallOrdPairs (fun g f => ~ confused g f) (map fst fs) ->
  Forall (fun fw => reported place (fst fw) /\ opens place (snd fw)) fs -> Rep e (map fmt gs) -> Where seen e gs ->
  exec_files dir true tmpl kernel e fs = Some e' ->
  exists new, tries e' = tries e ++ new /\ Forall (in_place place tmpl (gs ++ map fst fs)) new /\
    subseq (executed tmpl new) (map fmt (gs ++ map fst fs)) /\
    (failed e' = false -> failed e = false /\ executed tmpl new = map fmt (gs ++ map fst fs)).
Proof.
  induction fs as [|[f w] fs IH]; intros e gs seen e' NC OP2 A R W; cbn [exec_files map fst].
  - intros E. rewrite app_nil_r. destruct (finish_ok dir tmpl kernel e (map fmt gs) R) as (e1 & new & E1 & _ & T & AT & S & O & _).
    rewrite E in E1. injection E1 as <-. exists new. split; [exact T|]. split; [|split; [exact S|exact O]].
    eapply Forall_impl; [|exact AT]. intros x. now apply (seg_in_place seen e).
  - inversion A as [|? ? (RP & OP) A']; subst. inversion OP2 as [|? ? OF OP3]; subst. cbn [fst snd] in RP, OP, OF, OP3.
    destruct (exec_file dir true tmpl kernel w e f) as [e1|] eqn:E1; [|discriminate]. intros E.
    assert (FR : fresh seen f) by (split; [exact RP|]; intros g I; apply NC; [exact I|now left]).
    destruct (dir_step w e f gs seen e1 FR OP R W E1) as (gs' & new & R1 & W1 & I1 & T1 & A1 & S1 & O1).
    destruct (IH e1 gs' (seen ++ [f]) e') as (new' & T2 & A2 & S2 & O2); auto.
    { intros g h I J. apply in_app_or in I. destruct I as [I|[<-|[]]]; [apply NC; [exact I|now right]|]. rewrite Forall_forall in OF. now apply OF. }
    exists (new ++ new'). split; [rewrite T2, T1; now rewrite app_assoc|].
    assert (RW : gs ++ f :: map fst fs = (gs ++ [f]) ++ map fst fs) by now rewrite <- app_assoc.
    split.
    { apply Forall_app. split; [eapply Forall_impl; [|exact A1]; intros x; apply in_place_incl; intros g I; apply in_or_app; auto|].
      eapply Forall_impl; [|exact A2]. intros x. apply in_place_incl. rewrite RW. apply incl_app; [|intros g I; apply in_or_app; auto].
      intros g I. apply in_or_app. left. auto. }
    split.
    { rewrite executed_app, RW, (map_app fmt (gs ++ [f])). eapply subseq_trans; [apply subseq_app; [apply subseq_refl|exact S2]|].
      rewrite map_app, app_assoc. apply subseq_app; [exact S1|apply subseq_refl]. }
    intros F. destruct (O2 F) as (F1 & X1). destruct (O1 F1) as (F2 & X2). split; [exact F2|].
    rewrite executed_app, X1, RW, (map_app fmt (gs ++ [f])), <- X2, <- app_assoc, map_app. reflexivity.
Qed.

(** ** Directories that can be opened *)
Definition openable (w : world dir) : Prop := forall p, w_open dir w p <> None.

Lemma dir_step_total w e f ps : openable w -> Rep e ps -> (wd_fd e = None -> wd_path e = None) ->
  exists e' ps', exec_file dir true tmpl kernel w e f = Some e' /\ Rep e' ps' /\ (wd_fd e' = None -> wd_path e' = None).
Proof.
  intros OA R NF. unfold exec_file, exec_multi. set (a := fmt f).
  assert (FIN : forall e ps (ok : bool), Rep e ps -> (wd_fd e = None -> wd_path e = None) ->
            exists e' ps', Some (if ok then e else set_failed dir e) = Some e' /\ Rep e' ps' /\ (wd_fd e' = None -> wd_path e' = None)).
  { intros x xs ok RX H. eexists. exists xs. split; [reflexivity|]. destruct ok; split; auto; now apply set_failed_rep. }
  destruct (w_arg dir w) eqn:WA; cbn [negb]; [|now apply (FIN e ps false)].
  assert (OPEN : forall e1 ok q, Rep e1 q -> (wd_fd e1 = None -> wd_path e1 = None) ->
    exists e' ps', match match (if true && match wd_fd e1 with None => true | Some _ => false end then openwd dir true w e1 f else Some (e1, true)) with
                     | None => None
                     | Some (e, false) => Some (e, false)
                     | Some (e, true) => match push dir w e a with None => None | Some (e, pushed) => Some (e, ok && pushed) end
                     end with None => None | Some (e, ok) => Some (if ok then e else set_failed dir e) end = Some e' /\ Rep e' ps' /\
               (wd_fd e' = None -> wd_path e' = None)).
  { intros e1 ok q R1 N1.
    assert (H : exists fd p n ok2, (if true && match wd_fd e1 with None => true | Some _ => false end then openwd dir true w e1 f else Some (e1, true)) = Some (set_wd dir e1 fd p n, ok2) /\
               (fd = None -> p = None)).
    { destruct (wd_fd e1) as [d|] eqn:FD; cbn [andb].
      - exists (Some d), (wd_path e1), (wd_len e1), true. split; [|discriminate]. rewrite <- FD. destruct e1; reflexivity.
      - unfold openwd. rewrite FD, (N1 eq_refl). destruct (f_at dir f); [cbn [negb]; destruct (w_dup dir w); cbn [negb];
          [destruct (Nat.eqb _ 0); [destruct (is_slash _)|]|]; do 4 eexists; (split; [reflexivity|auto; discriminate])|].
        destruct (_ && _); [do 4 eexists; split; [reflexivity|auto]|].
        do 4 eexists. split; [reflexivity|]. intros Z. now apply OA in Z. }
    destruct H as (fd & p & n & ok2 & -> & H). pose proof (set_wd_rep e1 q fd p n R1) as R2.
    destruct ok2; [|apply (FIN _ q false); [exact R2|exact H]].
    destruct (push_ok dir tmpl w (set_wd dir e1 fd p n) q a R2) as (e3 & pushed & -> & R3 & _ & _ & (Wa & Wb & _) & _).
    apply (FIN _ _ (ok && pushed) R3). rewrite Wa, Wb. exact H. }
  destruct (changed_dirs dir true e f) eqn:CH.
  - destruct (flush_all_ok dir tmpl kernel (S (argc dir e)) e ps true R) as (e1 & ok & new & -> & R1 & _ & _ & W1 & _).
    { destruct R as (A & _). rewrite A. lia. }
    apply (OPEN (closewd dir e1) ok []).
    + unfold closewd. destruct (ExecModel.wd_path dir e1); now apply set_wd_rep.
    + unfold closewd. destruct (ExecModel.wd_path dir e1); auto.
  - destruct (handled dir tmpl kernel e ps (would_overflow dir e a) R) as (e1 & ok & q & new & -> & R1 & _ & _ & (Wa & Wb & _) & _).
    apply (OPEN e1 ok q R1). rewrite Wa, Wb. exact NF.
Qed.

Lemma dir_files_total : forall fs e ps, Forall (fun fw => openable (snd fw)) fs -> Rep e ps -> (wd_fd e = None -> wd_path e = None) ->
  exists e', exec_files dir true tmpl kernel e fs = Some e'.
Proof.
  induction fs as [|[f w] fs IH]; intros e ps OA R NF; cbn [exec_files].
  - destruct (finish_ok dir tmpl kernel e ps R) as (e1 & new & E1 & _). eauto.
  - inversion OA as [|? ? O1 O2]; subst. cbn [fst snd] in *.
    destruct (dir_step_total w e f ps O1 R NF) as (e1 & ps' & -> & R1 & N1). now apply (IH e1 ps').
Qed.
End Dirs.

Lemma init_where dir place tmpl limit : Where dir place [] (exec_init dir tmpl limit) [].
Proof. apply w_start; auto. Qed.

Lemma dirs_in_place dir (place : list byte -> dir) tmpl kernel limit fs e :
  Forall (fun fw => reported place (fst fw) /\ opens place (snd fw)) fs ->
  ForallOrdPairs (fun g f => ~ confused g f) (map fst fs) ->
  exec_files dir true tmpl kernel (exec_init dir tmpl limit) fs = Some e ->
  Forall (in_place place tmpl (map fst fs)) (tries dir e) /\
  subseq (executed tmpl (tries dir e)) (map (format_path dir true) (map fst fs)) /\
  (failed dir e = false -> executed tmpl (tries dir e) = map (format_path dir true) (map fst fs)).
Proof.
  intros A NC E. destruct (dir_files dir place tmpl kernel fs (exec_init dir tmpl limit) [] [] e) with (2 := NC) (3 := A) (4 := init_rep dir tmpl limit) (5 := init_where dir place tmpl limit) (6 := E)
    as (new & T & I & S & O).
  { intros g f []. }
  cbn in T. rewrite T. split; [exact I|]. split; [exact S|]. intros F. now apply O.
Qed.

Lemma dirs_total dir tmpl kernel limit fs : Forall (fun fw => forall p, w_open dir (snd fw) p <> None) fs ->
  exists e, exec_files dir true tmpl kernel (exec_init dir tmpl limit) fs = Some e.
Proof. intros O. apply (dir_files_total dir tmpl kernel fs _ [] O (init_rep dir tmpl limit)). reflexivity. Qed.

(** ** Names *)
Lemma same_dir X r n : same_path (X ++ slash :: dot :: slash :: r ++ slashes n) (X ++ slash :: r ++ slashes n).
Proof.
  split; [destruct X; reflexivity|]. change (nt (X ++ slash :: dot :: slash :: r ++ slashes n) = nt (X ++ slash :: r ++ slashes n)).
  change (dot :: slash :: r ++ slashes n) with ([dot] ++ slash :: r ++ slashes n). rewrite nt_app, nt_app, nt_app. reflexivity.
Qed.

Lemma name_resolves dir (f : file dir) : f_nameoff dir f = xbaseoff (f_path dir f) ->
  same_path (from (dir_part (f_path dir f)) (format_path dir true f)) (f_path dir f).
Proof.
  intros NO. unfold from, format_path. rewrite NO. set (p := f_path dir f).
  assert (SP : forall b, same_path b b) by (split; reflexivity).
  destruct (dir_part_cases p) as [(EP & DP & Z)|(NP & DP & DL & D0 & D1)].
  - rewrite EP. rewrite EP in Z. rewrite Z. cbn. apply SP.
  - destruct (is_slash (at_ (skipn (xbaseoff p) p) 0)) eqn:S0.
    + rewrite S0. (* only slashes *)
      assert (E : p = firstn (xbaseoff p) p ++ skipn (xbaseoff p) p) by (symmetry; apply firstn_skipn).
      revert S0 E. destruct (path_functions p) as [|n|b n (NB & IB)|b m n (NB & IB)|d c b m n (NB & IB) NC]; intros S0 E.
      * discriminate S0.
      * rewrite slashes_snoc in *. assert (SK : skipn n (slashes n ++ [slash]) = [slash]).
        { rewrite skipn_app. rewrite skipn_all2 by (unfold slashes; rewrite repeat_length; lia). unfold slashes. rewrite repeat_length, Nat.sub_diag. reflexivity. }
        rewrite SK. rewrite <- slashes_snoc. split; [reflexivity|]. change (nt ([] ++ slashes 1) = nt ([] ++ slashes (S n))). now rewrite !nt_slashes.
      * exfalso. destruct b as [|x b]; [contradiction|]. cbn in S0. destruct (is_slash_spec x); [subst; apply IB; now left|discriminate].
      * exfalso. rewrite skipn_app in S0. rewrite skipn_all2 in S0 by (unfold slashes; rewrite repeat_length; lia).
        unfold slashes at 1 in S0. rewrite repeat_length, Nat.sub_diag in S0.
        destruct b as [|x b]; [contradiction|]. cbn in S0. destruct (is_slash_spec x); [subst; apply IB; now left|discriminate].
      * exfalso. rewrite app_assoc, skipn_app in S0. rewrite skipn_all2 in S0 by (rewrite app_length; unfold slashes; rewrite repeat_length; lia).
        rewrite (app_length (d ++ [c]) (slashes _)) in S0. unfold slashes at 1 in S0. rewrite repeat_length, Nat.sub_diag in S0.
        destruct b as [|x b]; [contradiction|]. cbn in S0. destruct (is_slash_spec x); [subst; apply IB; now left|discriminate].
    + cbn [at_ nth]. change (is_slash (at_ (dot :: slash :: skipn (xbaseoff p) p) 0)) with false. cbn iota. rewrite DP.
      destruct (Nat.eq_dec (xbaseoff p) 0) as [Z|Z].
      * rewrite Z. cbn [firstn skipn app]. split; [rewrite (D0 Z); reflexivity|].
        change (nt ([dot] ++ slash :: p) = nt p). rewrite nt_app. reflexivity.
      * destruct (D1 Z) as (q & E). rewrite E. pose proof (same_dir q (skipn (xbaseoff p) p) 0) as H. cbn [slashes repeat] in H. rewrite app_nil_r in H.
        rewrite <- app_assoc. cbn [app]. assert (EP : q ++ slash :: skipn (xbaseoff p) p = p).
        { change (q ++ [slash] ++ skipn (xbaseoff p) p = p). rewrite app_assoc, <- E. apply firstn_skipn. }
        rewrite EP in H. exact H.
Qed.

(** ** One file *)
Lemma single_ok dir chdir kernel full w mem f : exists r, exec_single dir chdir kernel full w mem (exec_init dir [] 0) f = Some r /\
  (r = None \/ exists t, r = Some t /\ t_argv dir t = map (substitute (format_path dir chdir f)) full /\ t_outcome dir t = kernel 0 (t_argv dir t) /\
    (chdir = false -> t_cwd dir t = None) /\
    (chdir = true -> forall place, reported place f -> opens place w ->
       match t_cwd dir t with Some d => d | None => place [] end = place (dir_part (f_path dir f)))) /\
  (w_arg dir w = true -> (forall i, mem i = true) -> (chdir = true -> forall p, w_open dir w p <> None) -> r <> None).
Proof.
  unfold exec_single. destruct (w_arg dir w) eqn:WA; cbn [negb]; [|exists None; split; [reflexivity|]; split; [auto|discriminate]].
  set (go := fix go (l : list arg) : option (option (list arg)) := _).
  assert (G : exists r, go full = Some r /\ (r = None \/ r = Some (map (substitute (format_path dir chdir f)) full)) /\
     ((forall i, mem i = true) -> r = Some (map (substitute (format_path dir chdir f)) full))).
  { induction full as [|a full (r & E & C & M)]; [exists (Some []); cbn; auto|].
    cbn [go map]. fold go. destruct (format_arg_ok mem a (format_path dir chdir f)) as (r1 & E1 & C1 & M1). rewrite E1.
    destruct r1 as [x|].
    - assert (x = substitute (format_path dir chdir f) a) as -> by (destruct C1 as [|[= ->]]; [discriminate|reflexivity]).
      rewrite E. destruct r as [l|].
      + eexists. split; [reflexivity|]. assert (l = map (substitute (format_path dir chdir f)) full) as -> by (destruct C as [|[= ->]]; [discriminate|reflexivity]). auto.
      + exists None. split; [reflexivity|]. split; [auto|]. intros K. now specialize (M K).
    - exists None. split; [reflexivity|]. split; [auto|]. intros K. now specialize (M1 K). }
  destruct G as (r & -> & C & M). destruct r as [args|]; [|exists None; split; [reflexivity|]; split; [auto|]; intros _ K; now specialize (M K)].
  assert (args = map (substitute (format_path dir chdir f)) full) as -> by (destruct C as [|[= ->]]; [discriminate|reflexivity]). clear C M.
  destruct chdir.
  - unfold openwd. cbn [exec_init wd_fd wd_path].
    destruct (f_at dir f) as [d|] eqn:FA.
    + cbn [negb]. eexists. split; [reflexivity|]. split; [|discriminate]. right. eexists. split; [reflexivity|]. cbn. split; [reflexivity|]. split; [reflexivity|].
      split; [discriminate|]. intros _ place (_ & H) _. apply H; (exact FA || reflexivity).
    + destruct (Nat.eqb (f_nameoff dir f) 0 && negb (is_slash (at_ (f_path dir f) 0))) eqn:Z.
      * eexists. split; [reflexivity|]. split; [|discriminate]. right. eexists. split; [reflexivity|]. cbn. split; [reflexivity|]. split; [reflexivity|].
        split; [discriminate|]. intros _ place (H & _) _. apply andb_true_iff in Z. destruct Z as (Z1 & Z2). apply Nat.eqb_eq in Z1. apply negb_true_iff in Z2.
        unfold dir_part. rewrite H in Z1. rewrite Z1, Z2. reflexivity.
      * set (n := if Nat.eqb (f_nameoff dir f) 0 then 1 else f_nameoff dir f). destruct (w_open dir w (firstn n (f_path dir f))) as [d|] eqn:O.
        -- eexists. split; [reflexivity|]. split; [|discriminate]. right. eexists. split; [reflexivity|]. cbn [t_argv t_cwd t_outcome wd_fd set_wd]. split; [reflexivity|]. split; [reflexivity|].
           split; [discriminate|]. intros _ place (H & _) OP. rewrite (OP _ _ O). f_equal. unfold dir_part, n. rewrite <- H.
           destruct (Nat.eqb_spec (f_nameoff dir f) 0) as [Z0|Z0]; [|reflexivity]. cbn [andb] in Z. apply negb_false_iff in Z. rewrite Z. cbn [andb].
           unfold at_ in Z. destruct (f_path dir f) as [|c p]; [discriminate|]. cbn in *. destruct (is_slash_spec c); [subst; reflexivity|discriminate].
        -- exists None. split; [reflexivity|]. split; [auto|]. intros _ _ K. now apply (K eq_refl) in O.
  - eexists. split; [reflexivity|]. split; [|discriminate]. right. eexists. split; [reflexivity|]. cbn. split; [reflexivity|]. split; [reflexivity|].
    split; [reflexivity|discriminate].
Qed.
