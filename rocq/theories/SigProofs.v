From Coq Require Import List Arith Bool Lia.
From Verif Require Import ListModel ListProofs SigModel SigSpec.
Import ListNotations.
Local Opaque Nat.modulo.

(** ** One pointer *)
Definition quiet (r : rcu) (v : option nat) : Prop :=
  slot r (active r) = mkArc 1 (Some v) /\ refs (slot r (negb (active r))) = 0.
Definition busy (r : rcu) (i : bool) (v : option nat) : Prop :=
  active r = i /\ slot r i = mkArc 2 (Some v) /\ refs (slot r (negb i)) = 0.

Lemma init_quiet v : quiet (rcu_init v) v.
Proof. split; reflexivity. Qed.
Lemma eqb_negb b : Bool.eqb b (negb b) = false.
Proof. now destruct b. Qed.
Lemma eqb_negb' b : Bool.eqb (negb b) b = false.
Proof. now destruct b. Qed.
Lemma update_quiet r v w : quiet r v -> exists r', rcu_update r w = Some r' /\ quiet r' w.
Proof.
  intros (A & B). unfold rcu_update, arc_set. rewrite B. cbn. rewrite eqb_negb, A. cbn.
  eexists. split; [reflexivity|]. split; cbn.
  - rewrite eqb_negb', eqb_reflx. reflexivity.
  - rewrite negb_involutive, eqb_reflx. reflexivity.
Qed.
Lemma peek_quiet r v : quiet r v -> rcu_peek r = Some v.
Proof. intros (A & _). unfold rcu_peek. now rewrite A. Qed.
Lemma destroy_quiet r v : quiet r v -> rcu_destroy r = Some tt.
Proof. intros (A & B). unfold rcu_destroy. rewrite A, B. reflexivity. Qed.
Lemma read_quiet r v : quiet r v -> exists r' i, rcu_read r = Some (r', i, v) /\ busy r' i v.
Proof.
  intros (A & B). unfold rcu_read, arc_get. rewrite A. cbn. do 2 eexists. split; [reflexivity|].
  split; [reflexivity|]. cbn. rewrite eqb_reflx, eqb_negb', B. auto.
Qed.
Lemma put_busy r i v : busy r i v -> quiet (set_slot r i (arc_put (slot r i))) v.
Proof.
  intros (A & B & C). subst. split; cbn.
  - rewrite eqb_reflx, B. reflexivity.
  - now rewrite eqb_negb'.
Qed.

(** ** Lists *)
Lemma rcus_same s c r : rcus (set_rcu s c r) c = r.
Proof. cbn. destruct (ceqb_spec c c); congruence. Qed.
Lemma rcus_other s c r x : x <> c -> rcus (set_rcu s c r) x = rcus s x.
Proof. cbn. destruct (ceqb_spec x c); congruence. Qed.

Fixpoint path (s : state) (c : cursor) (xs : list nat) : Prop :=
  match xs with
  | [] => quiet (rcus s c) None
  | x :: r => quiet (rcus s c) (Some x) /\ self s x = c /\ path s (Next x) r
  end.

Lemma path_frame s s' xs : forall c,
  (forall x v, In x (cursors c xs) -> quiet (rcus s x) v -> quiet (rcus s' x) v) ->
  (forall x, In x xs -> self s' x = self s x) -> path s c xs -> path s' c xs.
Proof.
  induction xs as [|x r IH]; cbn; intros c F G P.
  - apply F; auto.
  - destruct P as (A & B & C). split; [apply F; auto|]. split; [rewrite G; auto|].
    apply IH; auto. 
Qed.

Lemma path_app s a b : forall c,
  path s c (a ++ b) -> path s (endl c a) b.
Proof. induction a as [|x r IH]; cbn; intros c P; [auto|]. apply IH, P. Qed.

(** Replacing what follows [a] *)
Lemma path_replace s s' a b b' : forall c,
  NoDup (srcs c a ++ [endl c a]) ->
  (forall x v, In x (srcs c a) -> quiet (rcus s x) v -> quiet (rcus s' x) v) ->
  (forall x, In x a -> self s' x = self s x) ->
  path s c (a ++ b) -> path s' (endl c a) b' -> path s' c (a ++ b').
Proof.
  induction a as [|x r IH]; cbn; intros c N F G P Q; [auto|].
  destruct P as (A & B & C). inversion N as [|? ? M N']; subst.
  split; [apply F; auto|]. split; [rewrite G; auto|]. apply IH; auto.
Qed.

Lemma path_quiet s xs : forall c x, path s c xs -> In x (cursors c xs) -> exists v, quiet (rcus s x) v.
Proof.
  induction xs as [|y r IH]; intros c x P I.
  - destruct I as [<-|[]]. exists None. exact P.
  - destruct P as (A & _ & C). destruct I as [<-|I]; [eauto|]. apply (IH (Next y) x C I).
Qed.
Lemma path_hd s xs c : path s c xs -> quiet (rcus s c) (nth_error xs 0).
Proof. destruct xs; cbn; tauto. Qed.

(** ** The state and the registered hooks *)
Definition inv (s : state) (R : regs) (stale : nat -> bool) : Prop :=
  NoDup (map id R) /\
  (forall r, In r R -> hooks s (id r) = mkHook (on r) (once r) (cont r) /\
                       (once r = true -> armed s (id r) = negb (spent r)) /\
                       (on r = 0 -> once r = false /\ cont r = false)) /\
  (forall l, path s (Head l) (sharing l R)) /\
  (forall l, tail s l = if stale l then Head l else endl (Head l) (sharing l R)).

Lemma init_inv : inv init [] (fun _ => false).
Proof.
  split; [constructor|]. split; [easy|]. split; [|reflexivity].
  intros l. apply init_quiet.
Qed.

Lemma sharing_in l R n : In n (sharing l R) <-> exists r, In r R /\ id r = n /\ on r mod 64 = l.
Proof.
  unfold sharing. rewrite in_map_iff. split.
  - intros (r & E & I). apply filter_In in I. destruct I as (I & J). apply Nat.eqb_eq in J. eauto.
  - intros (r & I & E & J). exists r. split; [auto|]. apply filter_In. split; [auto|]. now apply Nat.eqb_eq.
Qed.
Lemma sharing_app l R r : sharing l (R ++ [r]) = sharing l R ++ (if Nat.eqb (on r mod 64) l then [id r] else []).
Proof.
  unfold sharing. rewrite filter_app, map_app. cbn. now destruct (Nat.eqb (on r mod 64) l).
Qed.
Lemma nodup_filter {A B} (g : A -> B) (p : A -> bool) l : NoDup (map g l) -> NoDup (map g (filter p l)).
Proof.
  induction l as [|x r IH]; cbn; intros N; [constructor|]. inversion N as [|? ? M N']; subst.
  destruct (p x); cbn; [|auto]. constructor; [|auto]. intros I. apply M.
  apply in_map_iff in I. destruct I as (y & E & I). apply filter_In in I. apply in_map_iff. exists y. tauto.
Qed.
Lemma sharing_nodup l R : NoDup (map id R) -> NoDup (sharing l R).
Proof. apply nodup_filter. Qed.
Lemma unique_id R r r' : NoDup (map id R) -> In r R -> In r' R -> id r = id r' -> r = r'.
Proof.
  induction R as [|x R IH]; cbn; intros N I J E; [easy|]. inversion N as [|? ? M N']; subst.
  destruct I as [->|I], J as [->|J]; auto.
  - exfalso. apply M. rewrite E. now apply in_map.
  - exfalso. apply M. rewrite <- E. now apply in_map.
Qed.
Lemma sharing_one R n l m : NoDup (map id R) -> In n (sharing l R) -> In n (sharing m R) -> l = m.
Proof.
  intros N A B. apply sharing_in in A, B. destruct A as (r & I & E & J), B as (r' & I' & E' & J').
  assert (r = r') by (apply (unique_id R); auto; congruence). congruence.
Qed.
Lemma cursor_one R c l m : NoDup (map id R) -> In c (cursors (Head l) (sharing l R)) -> In c (cursors (Head m) (sharing m R)) -> l = m.
Proof.
  intros N A B. apply in_cursors in A, B. destruct A as [->|(i & -> & I)], B as [E|(j & E & J)]; try discriminate.
  - congruence.
  - injection E as <-. eapply sharing_one; eauto.
Qed.

(** Appending *)
Lemma append_ok s R stale n sg os ct : inv s R stale -> ~ In n (map id R) -> (sg = 0 -> os = false /\ ct = false) ->
  stale (sg mod 64) = false ->
  exists s', sighook_impl s n sg os ct = Some s' /\ inv s' (R ++ [mkReg n sg os ct false]) stale.
Proof.
  intros (N & H & P & T) NI FL ST. unfold sighook_impl, siglist. set (l := sg mod 64) in *.
  set (s1 := set_armed _ n true).
  unfold rcu_list_append. change (tail s1 l) with (tail s l). rewrite (T l), ST.
  set (e := endl (Head l) (sharing l R)). cbn zeta. set (s2 := set_tail (set_self s1 n e) l (Next n)).
  set (s3 := set_rcu s2 (Next n) (rcu_init None)).
  assert (SN : self s3 n = e) by (cbn; now rewrite Nat.eqb_refl).
  rewrite SN.
  assert (NS : forall m, ~ In n (sharing m R)).
  { intros m I. apply NI. apply sharing_in in I. destruct I as (r & I & <- & _). now apply in_map. }
  assert (EI : In e (cursors (Head l) (sharing l R))) by apply in_end.
  assert (EN : e <> Next n).
  { intros E. rewrite E in EI. apply in_cursors in EI. destruct EI as [D|(i & D & I)]; [discriminate|].
    injection D as <-. now apply (NS l). }
  assert (R3 : forall x, x <> Next n -> rcus s3 x = rcus s x) by (intros; unfold s3; rewrite rcus_other; auto).
  destruct (path_quiet s _ _ e (P l) EI) as (v & Q).
  destruct (update_quiet (rcus s3 e) v (Some n)) as (r' & E & Q'); [now rewrite R3|]. rewrite E.
  eexists. split; [reflexivity|]. set (s' := set_rcu s3 e r').
  assert (RN : quiet (rcus s' (Next n)) None).
  { unfold s'. rewrite rcus_other by auto. unfold s3. rewrite rcus_same. apply init_quiet. }
  assert (RE : quiet (rcus s' e) (Some n)) by (unfold s'; now rewrite rcus_same).
  assert (RO : forall x, x <> e -> x <> Next n -> rcus s' x = rcus s x).
  { intros x A B. unfold s'. rewrite rcus_other by auto. auto. }
  assert (SO : forall x, x <> n -> self s' x = self s x).
  { intros x A. cbn. destruct (Nat.eqb_spec x n); congruence. }
  split; [|split; [|split]].
  - rewrite map_app. cbn. apply (nodup_insert (map id R) [] [n]).
    + now rewrite app_nil_r.
    + constructor; [easy|constructor].
    + intros y [<-|[]]. now rewrite app_nil_r.
  - intros r I. apply in_app_or in I. destruct I as [I|[<-|[]]].
    + assert (D : id r <> n) by (intros E'; apply NI; rewrite <- E'; now apply in_map).
      cbn. destruct (Nat.eqb_spec (id r) n); [contradiction|]. now apply H.
    + cbn. rewrite Nat.eqb_refl. auto.
  - intros m. rewrite sharing_app. cbn [on id]. fold l. destruct (Nat.eqb_spec l m) as [<-|NM].
    + apply path_replace with s []; auto.
      * rewrite <- cursors_srcs. apply nodup_cursors, sharing_nodup, N.
      * intros x w I. rewrite RO; auto.
        -- intros ->. pose proof (proj1 (nodup_cursors l _) (sharing_nodup l R N)) as ND. rewrite cursors_srcs in ND.
           eapply nodup_disj; [exact ND|exact I|now left].
        -- intros ->. assert (J : In (Next n) (cursors (Head l) (sharing l R))) by (rewrite cursors_srcs; apply in_or_app; auto).
           apply in_cursors in J. destruct J as [D|(i & D & J)]; [discriminate|]. injection D as <-. now apply (NS l).
      * intros x I. apply SO. intros ->. now apply (NS l).
      * rewrite app_nil_r. apply P.
      * fold e. cbn. split; [exact RE|]. split; [exact SN|]. exact RN.
    + rewrite app_nil_r. eapply path_frame; [| |apply P].
      * intros x w I. rewrite RO; auto.
        -- intros ->. apply NM. exact (cursor_one R e l m N EI I).
        -- intros ->. apply in_cursors in I. destruct I as [D|(i & D & J)]; [discriminate|]. injection D as <-. now apply (NS m).
      * intros x I. apply SO. intros ->. now apply (NS m).
  - intros m. rewrite sharing_app. cbn [on id]. fold l. cbn. destruct (Nat.eqb_spec m l) as [->|NM].
    + rewrite ST, Nat.eqb_refl, endl_app. reflexivity.
    + destruct (Nat.eqb_spec l m); [congruence|]. rewrite app_nil_r. apply T.
Qed.

(** Removing *)
Lemma sharing_unhook l R n : sharing l (filter (fun r => negb (Nat.eqb (id r) n)) R) =
  filter (fun x => negb (Nat.eqb x n)) (sharing l R).
Proof.
  unfold sharing. induction R as [|r R IH]; [reflexivity|]. cbn.
  destruct (Nat.eqb_spec (id r) n) as [E|NE]; cbn.
  - destruct (Nat.eqb (on r mod 64) l); cbn; [|exact IH]. rewrite E, Nat.eqb_refl. exact IH.
  - destruct (Nat.eqb (on r mod 64) l); cbn; [|exact IH]. destruct (Nat.eqb_spec (id r) n); [contradiction|].
    cbn. f_equal. exact IH.
Qed.
Lemma filter_absent n xs : ~ In n xs -> filter (fun x => negb (Nat.eqb x n)) xs = xs.
Proof.
  induction xs as [|x r IH]; cbn; intros N; [auto|]. destruct (Nat.eqb_spec x n); cbn; [exfalso; auto|].
  f_equal. auto.
Qed.

Lemma remove_ok s R stale n : inv s R stale -> In n (map id R) ->
  exists s', sigunhook s n = Some s' /\ inv s' (after (Unhook n) R) (stale_after (Unhook n) R stale).
Proof.
  intros (N & H & P & T) I. apply in_map_iff in I. destruct I as (r & IDR & IR).
  destruct (H r IR) as (HK & _). unfold sigunhook, siglist. rewrite IDR in HK. rewrite HK. cbn [sig].
  set (l := on r mod 64).
  assert (IL : In n (sharing l R)) by (apply sharing_in; eauto).
  pose proof (sharing_nodup l R N) as ND.
  destruct (in_split _ _ IL) as (a & b & AB).
  pose proof (P l) as PL. rewrite AB in PL, ND. pose proof PL as PL0. apply path_app in PL0.
  set (e := endl (Head l) a) in *. destruct PL0 as (QE & SE & PB).
  pose proof (proj1 (nodup_cursors l _) ND) as NC. rewrite cursors_app in NC. fold e in NC.
  assert (NA : ~ In n a).
  { intros J. eapply nodup_disj; [exact ND|exact J|now left]. }
  assert (NB : ~ In n b).
  { apply nodup_right in ND. now inversion ND. }
  assert (EN : e <> Next n).
  { apply nodup_right in NC. inversion NC as [|? ? M _]; subst. intros E. apply M. left. auto. }
  assert (EI : In e (cursors (Head l) (sharing l R))).
  { rewrite AB, cursors_app. apply in_or_app. right. now left. }
  unfold rcu_list_remove. rewrite (peek_quiet _ _ (path_hd _ _ _ PB)). rewrite SE.
  destruct (update_quiet _ _ (nth_error b 0) QE) as (r' & E & Q'). rewrite E. cbn zeta.
  change (self (set_rcu s e r') n) with (self s n). rewrite SE.
  set (s1 := match nth_error b 0 with Some m => _ | None => _ end).
  assert (RC : rcus s1 = rcus (set_rcu s e r')) by (unfold s1; destruct (nth_error b 0); reflexivity).
  assert (RN : rcus s1 (Next n) = rcus s (Next n)).
  { rewrite RC. apply rcus_other. auto. }
  rewrite RN, (destroy_quiet _ _ (path_hd _ _ _ PB)).
  exists s1. split; [reflexivity|].
  assert (R1 : forall x, x <> e -> rcus s1 x = rcus s x).
  { intros x A. rewrite RC. now apply rcus_other. }
  assert (R1E : quiet (rcus s1 e) (nth_error b 0)).
  { rewrite RC, rcus_same. exact Q'. }
  assert (HK1 : hooks s1 = hooks s /\ armed s1 = armed s) by (unfold s1; destruct (nth_error b 0); auto).
  assert (S1 : forall x, nth_error b 0 <> Some x -> self s1 x = self s x).
  { intros x A. unfold s1. destruct (nth_error b 0) as [m|] eqn:EB; cbn; [|reflexivity]. destruct (Nat.eqb_spec x m); congruence. }
  assert (S1E : forall x, nth_error b 0 = Some x -> self s1 x = e).
  { intros x A. unfold s1. rewrite A. cbn. rewrite Nat.eqb_refl. reflexivity. }
  assert (T1 : forall m, tail s1 m = if Nat.eqb m l then (match b with [] => Head l | _ => tail s l end) else tail s m).
  { intros m. unfold s1. destruct b as [|y b']; cbn; destruct (Nat.eqb_spec m l); congruence. }
  assert (SH : forall m, sharing m (after (Unhook n) R) = if Nat.eqb m l then a ++ b else sharing m R).
  { intros m. cbn [after]. rewrite sharing_unhook. destruct (Nat.eqb_spec m l) as [->|NM].
    - rewrite AB, filter_app. cbn. rewrite Nat.eqb_refl. cbn. now rewrite !filter_absent.
    - apply filter_absent. intros J. apply NM. eapply sharing_one; eauto. }
  destruct HK1 as (HK1 & AR1). split; [|split; [|split]].
  - cbn. apply nodup_filter, N.
  - intros r0 I. cbn in I. apply filter_In in I. rewrite HK1, AR1. apply H, I.
  - intros m. rewrite SH. destruct (Nat.eqb_spec m l) as [->|NM].
    + apply path_replace with s (n :: b).
      * unfold cursors in NC. fold e. revert NC.
        generalize (srcs (Head l) a) as u. generalize (map Next (n :: b)) as w. intros w u NC.
        clear -NC. induction u as [|y u IH]; cbn in *; [constructor; [easy|constructor]|].
        inversion NC as [|? ? M N']; subst. constructor; [|auto]. rewrite in_app_iff in *. cbn in *. tauto.
      * intros x w J. rewrite R1; auto. intros ->. eapply nodup_disj; [exact NC|exact J|now left].
      * intros x J. apply S1. intros EB. apply (nodup_disj a (n :: b) x ND J). right. eapply nth_error_In, EB.
      * exact PL.
      * fold e. destruct b as [|y b']; [exact R1E|]. cbn. split; [exact R1E|]. split; [now apply S1E|].
        destruct PB as (_ & _ & PB). eapply path_frame; [| |exact PB].
        -- intros x w J. rewrite R1; auto. intros ->. apply nodup_right in NC. inversion NC as [|? ? M _]; subst. apply M.
           cbn. right. exact J.
        -- intros x J. apply S1. cbn. intros EB. injection EB as <-. apply nodup_right in ND.
           inversion ND as [|? ? _ ND']; subst. now inversion ND'.
    + eapply path_frame; [| |apply P].
      * intros x w J. rewrite R1; auto. intros ->. apply NM. exact (cursor_one R e m l N J EI).
      * intros x J. apply S1. intros EB. apply NM. eapply sharing_one; [exact N|exact J|].
        rewrite AB. apply in_or_app. right. right. eapply nth_error_In, EB.
  - intros m. rewrite T1. cbn [stale_after]. rewrite SH. destruct (Nat.eqb_spec m l) as [->|NM].
    + destruct b as [|y b'].
      * rewrite app_nil_r. destruct a as [|x a']; [reflexivity|].
        rewrite AB. unfold is_last. rewrite rev_app_distr. cbn. rewrite Nat.eqb_refl, orb_true_r. reflexivity.
      * rewrite T, AB.
        assert (IL0 : is_last n (a ++ n :: y :: b') = false).
        { unfold is_last. destruct (@exists_last _ (y :: b')) as (ys & z & EZ); [discriminate|]. rewrite EZ.
          rewrite rev_app_distr. cbn. rewrite rev_app_distr. cbn. apply Nat.eqb_neq. intros ->. apply NB. rewrite EZ.
          apply in_or_app. right. now left. }
        rewrite IL0, orb_false_r.
        assert (EE : match a ++ y :: b' with [] => false | _ :: _ => stale l end = stale l) by (destruct a; reflexivity).
        rewrite EE. destruct (stale l); [reflexivity|]. rewrite !endl_app. reflexivity.
    + rewrite T. assert (IL0 : is_last n (sharing m R) = false).
      { unfold is_last. destruct (rev (sharing m R)) as [|z zs] eqn:EZ; [reflexivity|]. apply Nat.eqb_neq. intros ->.
        apply NM. eapply sharing_one; [exact N| |exact IL]. apply in_rev. rewrite EZ. now left. }
      rewrite IL0, orb_false_r. destruct (sharing m R); [destruct (stale m)|]; reflexivity.
Qed.

(** ** Dispatch *)
Definition matches (s : state) (sg n : nat) : bool := Nat.eqb (sig (hooks s n)) sg || Nat.eqb (sig (hooks s n)) 0.
Definition runs (s : state) (sg n : nat) : bool := matches s sg n && (negb (oneshot (hooks s n)) || armed s n).
Definition disarms (s : state) (sg n : nat) : bool := matches s sg n && oneshot (hooks s n).

Lemma should_run_ok s sg n : exists s',
  should_run s sg n = (s', runs s sg n) /\ rcus s' = rcus s /\ tail s' = tail s /\ self s' = self s /\ hooks s' = hooks s /\
  (forall m, armed s' m = if Nat.eqb m n && disarms s sg n then false else armed s m).
Proof.
  unfold should_run, runs, disarms, matches.
  destruct (Nat.eqb (sig (hooks s n)) sg) eqn:A, (Nat.eqb (sig (hooks s n)) 0) eqn:B; cbn;
    try (destruct (oneshot (hooks s n)) eqn:O; cbn); eexists; repeat split; intros m; cbn;
    try (rewrite andb_true_r; reflexivity); try (rewrite andb_false_r; reflexivity).
Qed.

Lemma nth0 (A : Type) (x : A) r : nth_error (x :: r) 0 = Some x.
Proof. reflexivity. Qed.

Lemma run_nodes_ok sg xs : forall fuel s c i, length xs <= fuel -> NoDup (cursors c xs) ->
  busy (rcus s c) i (nth_error xs 0) -> (forall x r, xs = x :: r -> path s (Next x) r) ->
  exists s', run_nodes fuel s sg (c, i) (nth_error xs 0) =
      Some (s', filter (runs s sg) xs, existsb (fun n => continue (hooks s n)) (filter (runs s sg) xs)) /\
    quiet (rcus s' c) (nth_error xs 0) /\
    (forall x v, x <> c -> quiet (rcus s x) v -> quiet (rcus s' x) v) /\
    tail s' = tail s /\ self s' = self s /\ hooks s' = hooks s /\
    (forall m, armed s' m = if existsb (Nat.eqb m) xs && disarms s sg m then false else armed s m).
Proof.
  induction xs as [|x r IH]; intros fuel s c i FU ND B P.
  - destruct fuel; cbn; eexists; (split; [reflexivity|]); unfold put_slot; cbn [fst snd];
      (split; [rewrite rcus_same; now apply put_busy|]);
      (split; [intros y v NE Q; rewrite rcus_other by auto; exact Q|]); auto.
  - destruct fuel as [|fuel]; [cbn in FU; lia|].
    specialize (P x r eq_refl). rewrite nth0 in *. cbn [run_nodes].
    destruct (should_run_ok s sg x) as (s1 & -> & R1 & T1 & S1 & H1 & A1).
    assert (P1 : path s1 (Next x) r).
    { eapply path_frame; [| |exact P]; intros; congruence. }
    destruct (read_quiet (rcus s1 (Next x)) _ (path_hd _ _ _ P1)) as (r' & j & E & BJ).
    unfold read_cell. rewrite E. cbn zeta.
    set (s2 := set_rcu s1 (Next x) r'). set (s3 := put_slot s2 (c, i)).
    inversion ND as [|? ? NC ND']; subst. change (map Next (x :: r)) with (cursors (Next x) r) in *.
    assert (CX : c <> Next x) by (intros ->; apply NC; now left).
    assert (R2 : forall y, y <> Next x -> rcus s2 y = rcus s y) by (intros; unfold s2; rewrite rcus_other; congruence).
    assert (R3 : forall y, y <> c -> rcus s3 y = rcus s2 y) by (intros; unfold s3, put_slot; rewrite rcus_other; auto).
    assert (Q3 : quiet (rcus s3 c) (Some x)).
    { unfold s3, put_slot. cbn [fst snd]. rewrite rcus_same, R2 by auto. now apply put_busy. }
    destruct (IH fuel s3 (Next x) j) as (s' & E' & QX & F & T' & S' & H' & A').
    + cbn in FU. lia.
    + exact ND'.
    + rewrite R3 by auto. unfold s2. rewrite rcus_same. exact BJ.
    + intros y t ->. destruct P1 as (_ & _ & P1). eapply path_frame; [| |exact P1].
      * intros z v I Q.
        assert (z <> c). { intros ->. apply NC. right. exact I. }
        assert (z <> Next x). { intros ->. inversion ND' as [|? ? M _]; subst. exact (M I). }
        rewrite R3, R2 by auto. now rewrite <- R1.
      * reflexivity.
    + assert (RUN : forall m, m <> x -> runs s3 sg m = runs s sg m).
      { intros m NE. unfold runs, matches. change (hooks s3) with (hooks s1). rewrite H1.
        change (armed s3 m) with (armed s1 m). rewrite A1. destruct (Nat.eqb_spec m x); [contradiction|]. reflexivity. }
      assert (NX : ~ In x r).
      { intros I. inversion ND' as [|? ? M _]; subst. apply M. now apply in_map. }
      assert (FR : filter (runs s3 sg) r = filter (runs s sg) r).
      { apply filter_ext_in. intros m I. apply RUN. intros ->. auto. }
      rewrite E'. exists s'. split.
      { f_equal. f_equal; [f_equal|].
        - rewrite FR. cbn. now destruct (runs s sg x).
        - rewrite FR. change (hooks s3) with (hooks s1). change (hooks s2) with (hooks s1). rewrite H1. cbn.
          destruct (runs s sg x); reflexivity. }
      split; [apply F; [auto|exact Q3]|]. split; [|split; [|split; [|split]]].
      * intros y v NE Q. destruct (ceqb_spec y (Next x)) as [->|NE2].
        -- pose proof (path_hd _ _ _ P1) as Q0. rewrite R1 in Q0.
           assert (EV : v = nth_error r 0).
           { destruct Q as (Qa & _), Q0 as (Qb & _). congruence. }
           subst. exact QX.
        -- apply F; [auto|]. rewrite R3, R2 by auto. exact Q.
      * rewrite T'. exact T1.
      * rewrite S'. exact S1.
      * rewrite H'. exact H1.
      * intros m. rewrite A'. change (armed s3 m) with (armed s1 m). rewrite A1.
        assert (DI : disarms s3 sg m = disarms s sg m).
        { unfold disarms, matches. change (hooks s3) with (hooks s1). now rewrite H1. }
        rewrite DI. cbn [existsb]. destruct (Nat.eqb_spec m x) as [->|NE]; cbn.
        -- destruct (disarms s sg x); [|now rewrite andb_false_r]. now destruct (existsb (Nat.eqb x) r && true).
        -- reflexivity.
Qed.

Lemma run_hooks_ok sg s l xs fuel : path s (Head l) xs -> NoDup xs -> length xs <= fuel ->
  exists s', run_hooks fuel s l sg =
      Some (s', filter (runs s sg) xs, existsb (fun n => continue (hooks s n)) (filter (runs s sg) xs)) /\
    (forall x v, quiet (rcus s x) v -> quiet (rcus s' x) v) /\
    tail s' = tail s /\ self s' = self s /\ hooks s' = hooks s /\
    (forall m, armed s' m = if existsb (Nat.eqb m) xs && disarms s sg m then false else armed s m).
Proof.
  intros P N FU. unfold run_hooks, read_cell.
  destruct (read_quiet _ _ (path_hd _ _ _ P)) as (r & i & E & B). rewrite E.
  set (s1 := set_rcu s (Head l) r).
  pose proof (proj1 (nodup_cursors l xs) N) as NC.
  destruct (run_nodes_ok sg xs fuel s1 (Head l) i FU NC) as (s' & E' & Q & F & T & SF & H & A).
  - unfold s1. now rewrite rcus_same.
  - intros x t ->. destruct P as (_ & _ & P). eapply path_frame; [| |exact P].
    + intros y v I QY. unfold s1. rewrite rcus_other; [exact QY|]. intros ->. inversion NC as [|? ? M _]; subst. exact (M I).
    + reflexivity.
  - exists s'. split; [exact E'|]. split; [|auto].
    intros x v QX. destruct (ceqb_spec x (Head l)) as [->|NE].
    + pose proof (path_hd _ _ _ P) as Q0. assert (EV : v = nth_error xs 0) by (destruct QX as (Qa & _), Q0 as (Qb & _); congruence).
      subst. exact Q.
    + apply F; [auto|]. unfold s1. rewrite rcus_other by auto. exact QX.
Qed.

Lemma filter_map_id (p : nat -> bool) (q d : reg -> bool) R :
  (forall r, In r R -> q r && p (id r) = d r) -> filter p (map id (filter q R)) = map id (filter d R).
Proof.
  induction R as [|r R IH]; cbn; intros H; [reflexivity|].
  pose proof (H r (or_introl eq_refl)) as HR. assert (IH' := IH (fun r I => H r (or_intror I))).
  destruct (q r); cbn in *.
  - rewrite HR. destruct (d r); cbn; [f_equal|]; exact IH'.
  - rewrite <- HR. exact IH'.
Qed.
Lemma existsb_map {A B} (g : A -> B) p l : existsb p (map g l) = existsb (fun x => p (g x)) l.
Proof. induction l; cbn; congruence. Qed.
Lemma existsb_ext_in {A} (p q : A -> bool) l : (forall x, In x l -> p x = q x) -> existsb p l = existsb q l.
Proof. induction l; cbn; intros H; [auto|]. rewrite H, IHl; auto. Qed.
Lemma existsb_eqb m xs : existsb (Nat.eqb m) xs = true <-> In m xs.
Proof.
  rewrite existsb_exists. split.
  - intros (x & I & E). apply Nat.eqb_eq in E. now subst.
  - intros I. exists m. split; [auto|apply Nat.eqb_refl].
Qed.

Lemma use_id sg R : map id (map (use sg) R) = map id R.
Proof.
  rewrite map_map. apply map_ext. intros r. unfold use. now destruct (Nat.eqb (on r) sg).
Qed.
Lemma use_sharing sg l R : sharing l (map (use sg) R) = sharing l R.
Proof.
  unfold sharing. induction R as [|r R IH]; [reflexivity|]. cbn.
  assert (O : on (use sg r) = on r) by (unfold use; now destruct (Nat.eqb (on r) sg)).
  assert (I : id (use sg r) = id r) by (unfold use; now destruct (Nat.eqb (on r) sg)).
  rewrite O. destruct (Nat.eqb (on r mod 64) l); cbn; [rewrite I; f_equal|]; exact IH.
Qed.

Lemma signal_ok fuel s R stale sg fatal fault : inv s R stale -> length R <= fuel -> sg mod 64 <> 0 ->
  exists s', sigdispatch fuel s sg fatal fault = Some (s', happens sg fatal fault R) /\
    ((exists a b, happens sg fatal fault R = Died a b) \/ inv s' (after (Signal sg fatal fault) R) stale).
Proof.
  intros (N & H & P & T) FU SG. unfold sigdispatch, happens. destruct fault.
  { exists s. split; [reflexivity|]. right. split; auto. }
  set (l := siglist sg).
  assert (LEN : forall m, length (sharing m R) <= fuel).
  { intros m. unfold sharing. rewrite map_length. etransitivity; [|exact FU].
    clear. induction R as [|r R IH]; cbn; [lia|]. destruct (Nat.eqb (on r mod 64) m); cbn; lia. }
  destruct (run_hooks_ok sg s l (sharing l R) fuel (P l) (sharing_nodup l R N) (LEN l)) as (s1 & E & F & T1 & S1 & H1 & A1).
  rewrite E.
  assert (DUE : forall r, In r R -> Nat.eqb (on r mod 64) l && runs s sg (id r) = due sg r).
  { intros r I. destruct (H r I) as (HK & AR & Z). unfold runs, matches, due. rewrite HK. cbn [sig oneshot].
    unfold l, siglist. destruct (Nat.eqb_spec (on r) sg) as [->|NE]; cbn.
    - rewrite Nat.eqb_refl. cbn. destruct (once r); cbn; [apply AR; reflexivity|reflexivity].
    - destruct (Nat.eqb_spec (on r) 0) as [E0|]; cbn; [|apply andb_false_r].
      rewrite E0. change (0 mod 64) with 0. destruct (Nat.eqb_spec 0 (sg mod 64)); [congruence|]. reflexivity. }
  assert (RAN : filter (runs s sg) (sharing l R) = ran sg R) by (apply filter_map_id, DUE).
  rewrite RAN.
  assert (CO : existsb (fun n => continue (hooks s n)) (ran sg R) = existsb cont (filter (due sg) R)).
  { unfold ran. rewrite existsb_map. apply existsb_ext_in. intros r I. apply filter_In in I.
    destruct (H r (proj1 I)) as (HK & _). now rewrite HK. }
  rewrite CO. rewrite andb_comm. destruct (fatal && negb (existsb cont (filter (due sg) R))) eqn:DI.
  - assert (P1 : path s1 (Head (siglist 0)) (sharing (siglist 0) R)).
    { eapply path_frame; [| |apply P]; [intros x v _; apply F|intros; now rewrite S1]. }
    destruct (run_hooks_ok sg s1 (siglist 0) (sharing (siglist 0) R) fuel P1 (sharing_nodup _ R N) (LEN _)) as (s2 & E2 & _).
    rewrite E2. exists s2. split; [|left; eauto]. f_equal. f_equal. f_equal.
    apply filter_map_id. intros r I. destruct (H r I) as (HK & AR & Z). unfold runs, matches, due. rewrite H1, HK. cbn [sig oneshot].
    change (siglist 0) with 0. destruct (Nat.eqb_spec (on r) 0) as [E0|NE]; cbn.
    + rewrite E0. change (0 mod 64) with 0. rewrite Nat.eqb_refl, orb_true_r. cbn. destruct (Z E0) as (-> & _). reflexivity.
    + rewrite orb_false_r. destruct (Nat.eqb_spec (on r) sg) as [->|]; cbn; [|apply andb_false_r].
      destruct (Nat.eqb_spec (sg mod 64) 0); [contradiction|reflexivity].
  - exists s1. split; [reflexivity|]. right. cbn [after]. split; [|split; [|split]].
    + now rewrite use_id.
    + intros r I. apply in_map_iff in I. destruct I as (r0 & <- & I). destruct (H r0 I) as (HK & AR & Z).
      assert (UI : id (use sg r0) = id r0) by (unfold use; now destruct (Nat.eqb (on r0) sg)).
      rewrite UI, H1, HK, A1.
      assert (FI : mkHook (on r0) (once r0) (cont r0) = mkHook (on (use sg r0)) (once (use sg r0)) (cont (use sg r0))).
      { unfold use. now destruct (Nat.eqb (on r0) sg). }
      split; [exact FI|]. split; [|injection FI as <- <- <-; exact Z].
      injection FI as _ <- _. intros O. specialize (AR O).
      unfold disarms, matches. rewrite HK. cbn [sig oneshot]. rewrite O, andb_true_r.
      unfold use. destruct (Nat.eqb_spec (on r0) sg) as [EO|NO]; cbn [spent orb].
      * assert (IN : existsb (Nat.eqb (id r0)) (sharing l R) = true).
        { apply existsb_eqb, sharing_in. exists r0. rewrite EO. auto. }
        rewrite IN. reflexivity.
      * destruct (Nat.eqb_spec (on r0) 0) as [E0|]; [|rewrite andb_false_r; exact AR].
        destruct (Z E0); congruence.
    + intros m. rewrite use_sharing. eapply path_frame; [| |apply P]; [intros x v _; apply F|intros; now rewrite S1].
    + intros m. rewrite use_sharing, T1. apply T.
Qed.

Lemma history_ok os : forall fuel s R stale, inv s R stale -> length R + length os <= fuel -> allowed_all os R stale ->
  run_all fuel os s = Some (seen_all os R).
Proof.
  induction os as [|o os IH]; intros fuel s R stale I FU A; [reflexivity|].
  destruct A as (A & C & AA). cbn [run_all seen_all]. destruct o as [n sg on ct ok|n|sg fatal fault]; cbn [run seen].
  - unfold sighook. destruct ok; cbn in *.
    + destruct (append_ok s R stale n sg on ct I) as (s' & -> & I'); [tauto|tauto|auto|]. cbn.
      rewrite (IH _ _ _ _ I'); [reflexivity|rewrite app_length; cbn; lia|exact AA].
    + rewrite (IH _ _ _ _ I); [reflexivity|lia|exact AA].
  - destruct (remove_ok s R stale n I A) as (s' & -> & I'). cbn [option_map].
    rewrite (IH _ _ _ _ I'); [reflexivity| |exact AA].
    cbn in *. assert (LE : length (filter (fun r => negb (Nat.eqb (id r) n)) R) <= length R).
    { clear. induction R as [|r R IH]; cbn; [lia|]. destruct (negb (Nat.eqb (id r) n)); cbn; lia. }
    lia.
  - destruct (signal_ok fuel s R stale sg fatal fault I) as (s' & -> & D); [cbn in FU; lia|exact A|]. cbn [option_map].
    destruct D as [(a & b & ->)|I']; [reflexivity|].
    assert (E : run_all fuel os s' = Some (seen_all os (after (Signal sg fatal fault) R))).
    { apply (IH _ _ _ _ I'); [|exact AA]. cbn in *. destruct fault; rewrite ?map_length; lia. }
    destruct (happens sg fatal fault R); [rewrite E; reflexivity|rewrite E; reflexivity|reflexivity].
Qed.

Lemma histories os fuel : length os <= fuel -> allowed_all os [] (fun _ => false) ->
  run_all fuel os init = Some (seen_all os []).
Proof. intros L A. apply history_ok with (fun _ => false); [apply init_inv|cbn; lia|exact A]. Qed.
