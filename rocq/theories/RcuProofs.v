(** * Safety of read-copy-update for signal hooks *)
From Coq Require Import List Arith Bool Lia.
From Verif Require Import RcuModel RcuSpec.
Import ListNotations.

(** ** Counting *)
Definition same (p h : slot) : bool := (fst p =? fst h) && Bool.eqb (snd p) (snd h).
Lemma same_spec p h : reflect (p = h) (same p h).
Proof.
  destruct p as (a & b), h as (c & d). unfold same. cbn [fst snd]. destruct (Nat.eqb_spec a c), b, d; cbn; constructor; congruence.
Qed.
Definition eqs (p h : slot) : nat := if same p h then 1 else 0.
Definition helds (o : option slot) (h : slot) : nat := match o with None => 0 | Some p => eqs p h end.
Definition nexth (k : next) (h : slot) : nat := match k with Done => 0 | Fin p => eqs p h | AtN _ p => eqs p h end.
Definition holdc (h : slot) (p : rpc) : nat :=
  match p with
  | Idle => 0
  | Load _ o | Get _ _ o => helds o h
  | Ptr c s o => helds o h + eqs (c, s) h
  | Put q k => eqs q h + nexth k h
  | Post _ k => nexth k h
  | At _ q | Run _ q => eqs q h
  end.
Definition postc (h : slot) (p : rpc) : nat := match p with Post q _ => eqs q h | _ => 0 end.
Definition total (f : rpc -> nat) (l : list reader) : nat := list_sum (map (fun r => f (pc r)) l).
Definition holders (st : state) (h : slot) : nat := total (holdc h) (rs st).
Definition posts (st : state) (h : slot) : nat := total (postc h) (rs st).

Lemma total_upd f : forall l i r r', nth_error l i = Some r -> total f (set_nth i r' l) + f (pc r) = total f l + f (pc r').
Proof.
  unfold total. induction l as [|x l IH]; intros [|i] r r' E; try discriminate.
  - injection E as ->. cbn [set_nth map list_sum fold_right]. unfold list_sum. cbn [map fold_right]. lia.
  - cbn [nth_error] in E. specialize (IH i r r' E). unfold list_sum in *. cbn [set_nth map fold_right]. lia.
Qed.
Lemma total_in f l r : In r l -> f (pc r) <= total f l.
Proof.
  unfold total, list_sum. induction l as [|x l IH]; intros []; cbn [map fold_right]; [subst; lia|]. specialize (IH H). lia.
Qed.
Lemma total_pos f l : 0 < total f l -> exists r, In r l /\ 0 < f (pc r).
Proof.
  unfold total, list_sum. induction l as [|x l IH]; cbn [map fold_right]; intros H; [lia|].
  destruct (f (pc x)) eqn:E; [destruct IH as (r & I & L); [lia|exists r; split; [right; exact I|exact L]]|].
  exists x. split; [left; reflexivity|lia].
Qed.
Lemma set_nth_in {A} (l : list A) i x r y : nth_error l i = Some r -> In y (set_nth i x l) -> y = x \/ In y l.
Proof.
  revert i. induction l as [|z l IH]; intros [|i] E I; try discriminate; cbn [set_nth] in I.
  - destruct I as [<- | I]; [left; reflexivity|right; right; exact I].
  - destruct I as [<- | I]; [right; left; reflexivity|]. destruct (IH i E I) as [-> | J]; [left; reflexivity|right; right; exact J].
Qed.

(** ** The writer's reference *)
Definition own (st : state) (h : slot) : bool :=
  let act := Bool.eqb (snd h) (active st (fst h)) in
  match w st with
  | WSwap c _ _ _ => (fst h =? c) || act
  | WSub c _ (KDestroy _ _) => act
  | WSub c _ _ => (fst h =? c) || act
  | WWait c _ (KDestroy _ _) | WTake c _ (KDestroy _ _) => negb (fst h =? c) && act
  | WDestroy x _ | WFree x _ => negb (fst h =? x) && act
  | _ => act
  end.
Definition waits (st : state) (h : slot) : bool := match w st with WWait c s _ => same (c, s) h | _ => false end.
Definition b2n (b : bool) : nat := if b then 1 else 0.

(** ** The structure of the list *)
Definition pt (st : state) (h : slot) : val := ptr (arc_at st h).
Definition act (st : state) (c : nat) : slot := (c, active st c).
Definition rem (p : wpc) : option (nat * val) :=
  match kont_of p with Some (KRemove x nx) | Some (KDestroy x nx) => Some (x, nx) | _ => None end.
(** Not linked yet, or not any more *)
Definition unlinked (p : wpc) (n : nat) : bool :=
  match p with
  | WLoad _ _ (KAppend m) | WRefs _ _ _ (KAppend m) | WSwap _ _ _ (KAppend m) => m =? n
  | WSub _ _ (KRemove m _) | WWait _ _ (KRemove m _) | WTake _ _ (KRemove m _) | WFix m _ => m =? n
  | WSub _ _ (KDestroy m _) | WWait _ _ (KDestroy m _) | WTake _ _ (KDestroy m _) | WDestroy m _ | WFree m _ => m =? n
  | _ => false
  end.

Definition kval (k : kont) : val := match k with KAppend n => NODE n | KRemove _ nx | KDestroy _ nx => nx end.
Definition kinv (st : state) (c : nat) (k : kont) : Prop :=
  match k with
  | KAppend n => 1 <= n /\ alive st n = true /\ self st n = c /\ tail st = n /\ S n = fresh st /\
      (forall m, alive st m = true -> 1 <= m -> 1 <= c -> self st m = c -> m = n)
  | KRemove x nx => 1 <= x /\ alive st x = true /\ self st x = c /\ pt st (act st x) = nx /\ match nx with NODE p => self st p = x | _ => True end
  | KDestroy _ _ => False
  end.
Definition dinv (st : state) (x : nat) (nx : val) : Prop :=
  1 <= x /\ alive st x = true /\ tail st <> x /\ pt st (act st (self st x)) = nx /\
  (forall n, alive st n = true -> 1 <= n -> self st n <> x) /\
  match nx with NODE p => alive st p = true /\ self st p = self st x /\ x < p | _ => True end.
Definition stale (st : state) (h : slot) : Prop := pt st h <> NULL /\ forall n, pt st h = NODE n -> alive st n = true /\ fst h < n.
Definition winv (st : state) : Prop :=
  match w st with
  | WIdle => True
  | WLoad c v k => kinv st c k /\ v = kval k
  | WRefs c i v k | WSwap c i v k => kinv st c k /\ v = kval k /\ active st c = i /\ pt st (c, negb i) = v
  | WSub c s (KDestroy x nx) | WWait c s (KDestroy x nx) | WTake c s (KDestroy x nx) => c = x /\ s = active st x /\ stale st (c, s) /\ dinv st x nx
  | WSub c s k | WWait c s k | WTake c s k => kinv st c k /\ active st c = negb s /\ pt st (c, negb s) = kval k /\ stale st (c, s)
  | WFix x nx => kinv st (self st x) (KRemove x nx) /\ pt st (act st (self st x)) = nx
  | WDestroy x nx | WFree x nx => dinv st x nx
  end.

Record str (st : state) : Prop := {
  s_head : alive st 0 = true;
  s_fresh : forall c, alive st c = true -> c < fresh st;
  s_self : forall n, alive st n = true -> 1 <= n -> alive st (self st n) = true /\ self st n < n;
  s_ptr : forall h, alive st (fst h) = true -> own st h = true -> pt st h <> NULL;
  s_node : forall h n, alive st (fst h) = true -> own st h = true -> pt st h = NODE n ->
    alive st n = true /\ fst h < n /\ (self st n = fst h \/ exists x, rem (w st) = Some (x, NODE n) /\ (fst h = x \/ fst h = self st x));
  s_list : forall n, alive st n = true -> 1 <= n -> 1 <= self st n -> unlinked (w st) n = false -> pt st (act st (self st n)) = NODE n;
  s_tail : alive st (tail st) = true /\ (1 <= tail st -> pt st (act st (tail st)) = RCU_NULL);
  s_w : winv st }.

(** ** Readers *)
Definition nextpos (st : state) (k : next) : Prop := match k with AtN n h => pt st h = NODE n | _ => True end.
Definition atpos (st : state) (c : nat) (o : option slot) : Prop := match o with None => c = 0 | Some h => pt st h = NODE c end.
Definition rpos (st : state) (p : rpc) : Prop :=
  match p with
  | Idle => True
  | Load c o | Get c _ o | Ptr c _ o => atpos st c o
  | Put _ k | Post _ k => nextpos st k
  | At n h | Run n h => pt st h = NODE n
  end.
Definition good (st : state) (h : slot) : Prop := alive st (fst h) = true /\ (own st h = true \/ waits st h = true).

Record inv (cfg : config) (st : state) : Prop := {
  i_str : str st;
  i_cnt : forall h, alive st (fst h) = true -> refs (arc_at st h) = b2n (own st h) + holders st h;
  i_good : forall h, 0 < holders st h -> good st h;
  i_sem : cfg = Sem -> forall h, alive st (fst h) = true -> posts st h + sem (arc_at st h) = if waits st h && (holders st h =? 0) then 1 else 0;
  i_post : forall h, 0 < posts st h -> cfg = Sem /\ waits st h = true;
  i_pos : forall r, In r (rs st) -> rpos st (pc r) }.

(** ** Facts *)
Lemma arc_put st h a h' : arc_at (put_arc h a st) h' = if same h' h then a else arc_at st h'.
Proof. reflexivity. Qed.

Lemma waits_w st h : waits st h = true -> exists k, w st = WWait (fst h) (snd h) k.
Proof.
  unfold waits. destruct (w st) as [| | | | |c s k| | | |]; try discriminate. intros E. destruct (same_spec (c, s) h) as [<- | N]; [exists k; reflexivity|discriminate].
Qed.

Lemma own_not_waits st h : str st -> own st h = true -> waits st h = false.
Proof.
  intros S O. destruct (waits st h) eqn:W; [|reflexivity]. destruct (waits_w _ _ W) as (k & E). exfalso.
  pose proof (s_w _ S) as I. unfold winv in I. unfold own in O. rewrite E in I, O.
  destruct k as [n|x nx|x nx].
  - destruct I as (_ & A & _). rewrite A in O. destruct (snd h); discriminate.
  - destruct I as (_ & A & _). rewrite A in O. destruct (snd h); discriminate.
  - rewrite Nat.eqb_refl in O. discriminate.
Qed.

(** What is held exists, and so does what it points to. *)
Lemma good_ptr st h : str st -> good st h -> stale st h.
Proof.
  intros S (A & [O | W]).
  - split; [exact (s_ptr _ S h A O)|]. intros n E. destruct (s_node _ S h n A O E) as (B & C & _). split; assumption.
  - destruct (waits_w _ _ W) as (k & E). pose proof (s_w _ S) as I. unfold winv in I. rewrite E in I.
    destruct h as (c & s). cbn [fst snd] in *. destruct k as [n|x nx|x nx].
    + apply I.
    + apply I.
    + apply I.
Qed.

(** ** Steps of handlers *)
Definition keeps (st st' : state) : Prop :=
  active st' = active st /\ alive st' = alive st /\ self st' = self st /\ tail st' = tail st /\ fresh st' = fresh st /\ w st' = w st /\
  forall h, pt st' h = pt st h.

Lemma keeps_own st st' : keeps st st' -> forall h, own st' h = own st h.
Proof. intros (A & _ & _ & _ & _ & W & _) h. unfold own. rewrite A, W. reflexivity. Qed.
Lemma keeps_waits st st' : keeps st st' -> forall h, waits st' h = waits st h.
Proof. intros (_ & _ & _ & _ & _ & W & _) h. unfold waits. rewrite W. reflexivity. Qed.
Lemma keeps_stale st st' : keeps st st' -> forall h, stale st h -> stale st' h.
Proof. intros (A & L & _ & _ & _ & W & P) h (S & N). unfold stale. rewrite P, L. split; assumption. Qed.
Lemma keeps_kinv st st' : keeps st st' -> forall c k, kinv st c k -> kinv st' c k.
Proof. intros (A & L & F & T & FR & W & P) c k. unfold kinv, act. rewrite A, L, F, T, FR. destruct k; rewrite ?P; exact (fun H => H). Qed.
Lemma keeps_dinv st st' : keeps st st' -> forall x nx, dinv st x nx -> dinv st' x nx.
Proof. intros (A & L & F & T & FR & W & P) x nx. unfold dinv, act. rewrite A, L, F, T, !P. exact (fun H => H). Qed.
Lemma keeps_winv st st' : keeps st st' -> winv st -> winv st'.
Proof.
  intros K. pose proof K as (A & L & F & T & FR & W & P). unfold winv. rewrite W, A, F.
  destruct (w st) as [|c v k|c i v k|c i v k|c s k|c s k|c s k|x nx|x nx|x nx].
  - exact (fun H => H).
  - intros (H & Q). split; [exact (keeps_kinv _ _ K _ _ H)|exact Q].
  - intros (H & Q). split; [exact (keeps_kinv _ _ K _ _ H)|]. rewrite P. exact Q.
  - intros (H & Q). split; [exact (keeps_kinv _ _ K _ _ H)|]. rewrite P. exact Q.
  - destruct k; [| |intros (X & Y & Z & V); repeat (split; [assumption|]); split; [exact (keeps_stale _ _ K _ Z)|exact (keeps_dinv _ _ K _ _ V)]];
      (intros (H & Q & R & Z); split; [exact (keeps_kinv _ _ K _ _ H)|]; rewrite P; split; [exact Q|]; split; [exact R|exact (keeps_stale _ _ K _ Z)]).
  - destruct k; [| |intros (X & Y & Z & V); repeat (split; [assumption|]); split; [exact (keeps_stale _ _ K _ Z)|exact (keeps_dinv _ _ K _ _ V)]];
      (intros (H & Q & R & Z); split; [exact (keeps_kinv _ _ K _ _ H)|]; rewrite P; split; [exact Q|]; split; [exact R|exact (keeps_stale _ _ K _ Z)]).
  - destruct k; [| |intros (X & Y & Z & V); repeat (split; [assumption|]); split; [exact (keeps_stale _ _ K _ Z)|exact (keeps_dinv _ _ K _ _ V)]];
      (intros (H & Q & R & Z); split; [exact (keeps_kinv _ _ K _ _ H)|]; rewrite P; split; [exact Q|]; split; [exact R|exact (keeps_stale _ _ K _ Z)]).
  - intros (H & Q). split; [exact (keeps_kinv _ _ K _ _ H)|]. unfold act in *. rewrite P, A. exact Q.
  - apply (keeps_dinv _ _ K).
  - apply (keeps_dinv _ _ K).
Qed.

Lemma keeps_str st st' : keeps st st' -> str st -> str st'.
Proof.
  intros K S. pose proof K as (A & L & F & T & FR & W & P). constructor.
  - rewrite L. apply S.
  - rewrite L, FR. apply S.
  - rewrite L, F. apply S.
  - intros h. rewrite L, (keeps_own _ _ K), P. apply S.
  - intros h n. rewrite L, (keeps_own _ _ K), P, F, W. apply S.
  - intros n. unfold act. rewrite L, F, W, A, P. apply S.
  - unfold act. rewrite L, T, A, P. apply S.
  - exact (keeps_winv _ _ K (s_w _ S)).
Qed.

Lemma keeps_rpos st st' : keeps st st' -> forall p, rpos st p -> rpos st' p.
Proof.
  intros (_ & _ & _ & _ & _ & _ & P) [|c o|c s o|c s o|h k|h k|n h|n h]; unfold rpos, atpos, nextpos; try (destruct o); try (destruct k); rewrite ?P; exact (fun H => H).
Qed.

Lemma reader_inv cfg st st' i r r' : inv cfg st -> nth_error (rs st) i = Some r -> rs st' = set_nth i r' (rs st) -> keeps st st' ->
  rpos st (pc r') ->
  (forall h, alive st (fst h) = true -> refs (arc_at st' h) + holdc h (pc r) = refs (arc_at st h) + holdc h (pc r')) ->
  (forall h, 0 < holdc h (pc r') -> good st h) ->
  (cfg = Sem -> forall h, alive st (fst h) = true -> forall H' N',
     H' + holdc h (pc r) = holders st h + holdc h (pc r') -> N' + postc h (pc r) = posts st h + postc h (pc r') ->
     N' + sem (arc_at st' h) = if waits st h && (H' =? 0) then 1 else 0) ->
  (forall h, 0 < postc h (pc r') -> cfg = Sem /\ waits st h = true) ->
  inv cfg st'.
Proof.
  intros V E R K RP RF GD SE PO. pose proof (keeps_own _ _ K) as OW. pose proof (keeps_waits _ _ K) as WA.
  pose proof K as (A & L & _ & _ & _ & _ & P).
  assert (HU : forall f, total f (rs st') + f (pc r) = total f (rs st) + f (pc r')) by (intros f; rewrite R; exact (total_upd f _ _ _ r' E)).
  constructor.
  - exact (keeps_str _ _ K (i_str _ _ V)).
  - intros h. rewrite L, OW. intros AL. specialize (RF h AL). pose proof (i_cnt _ _ V h AL). pose proof (HU (holdc h)). unfold holders in *. lia.
  - intros h H. unfold good. rewrite L, OW, WA. apply total_pos in H as (x & I & G). rewrite R in I.
    apply (set_nth_in _ _ _ _ _ E) in I as [-> | I]; [exact (GD h G)|]. apply (i_good _ _ V). pose proof (total_in (holdc h) _ _ I). unfold holders. lia.
  - intros C h. rewrite L, WA. intros AL. apply (SE C h AL); apply HU.
  - intros h H. rewrite WA. apply total_pos in H as (x & I & G). rewrite R in I.
    apply (set_nth_in _ _ _ _ _ E) in I as [-> | I]; [exact (PO h G)|]. apply (i_post _ _ V). pose proof (total_in (postc h) _ _ I). unfold posts. lia.
  - intros x I. rewrite R in I. apply (keeps_rpos _ _ K). apply (set_nth_in _ _ _ _ _ E) in I as [-> | I]; [exact RP|exact (i_pos _ _ V _ I)].
Qed.

Lemma keeps_refl_rs st l : keeps st (set_rs l st).
Proof. repeat split. Qed.

(** A step that changes no reference *)
Lemma quiet cfg st i r r' : inv cfg st -> nth_error (rs st) i = Some r ->
  rpos st (pc r') -> (forall h, holdc h (pc r') = holdc h (pc r)) -> (forall h, postc h (pc r') = 0) -> (forall h, postc h (pc r) = 0) ->
  forall st', keeps st st' -> (forall h, arc_at st' h = arc_at st h) -> rs st' = set_nth i r' (rs st) -> inv cfg st'.
Proof.
  intros V E RP HC PC PC' st' K AR R. apply (reader_inv cfg st st' i r r' V E R K RP).
  - intros h _. rewrite AR, HC. reflexivity.
  - intros h G. rewrite HC in G. apply (i_good _ _ V). pose proof (total_in (holdc h) _ _ (nth_error_In _ _ E)). unfold holders. lia.
  - intros C h AL H' N'. rewrite HC, PC, PC', AR. intros H1 H2. rewrite <- (i_sem _ _ V C h AL) || idtac.
    pose proof (i_sem _ _ V C h AL) as Q. replace H' with (holders st h) by lia. lia.
  - intros h G. rewrite PC in G. lia.
Qed.

Lemma held_good cfg st i r h : inv cfg st -> nth_error (rs st) i = Some r -> 0 < holdc h (pc r) -> good st h /\ 0 < holders st h.
Proof.
  intros V E H. pose proof (total_in (holdc h) _ _ (nth_error_In _ _ E)) as T. assert (P : 0 < holders st h) by (unfold holders; lia).
  split; [exact (i_good _ _ V h P)|exact P].
Qed.

Lemma eqs_self h : eqs h h = 1.
Proof. unfold eqs. destruct (same_spec h h); congruence. Qed.
Lemma eqs_pos p h : 0 < eqs p h -> p = h.
Proof. unfold eqs. destruct (same_spec p h); [auto|lia]. Qed.

(** Where a handler is exists. *)
Lemma at_alive cfg st i r c o : inv cfg st -> nth_error (rs st) i = Some r -> atpos st c o -> (forall h, helds o h <= holdc h (pc r)) -> alive st c = true.
Proof.
  intros V E P H. destruct o as [h|]; cbn in P.
  - destruct (held_good cfg st i r h V E) as (G & _). { specialize (H h). cbn [helds] in H. rewrite eqs_self in H. lia. }
    destruct (good_ptr st h (i_str _ _ V) G) as (_ & N). apply (N c P).
  - subst c. apply (s_head _ (i_str _ _ V)).
Qed.

Lemma keeps_put st h a : ptr a = pt st h -> keeps st (put_arc h a st).
Proof.
  intros E. repeat (split; [reflexivity|]). intros h'. unfold pt. rewrite arc_put. destruct (same_spec h' h) as [-> |]; [exact E|reflexivity].
Qed.
Lemma keeps_trans a b c : keeps a b -> keeps b c -> keeps a c.
Proof.
  intros (A1 & A2 & A3 & A4 & A5 & A6 & A7) (B1 & B2 & B3 & B4 & B5 & B6 & B7).
  repeat (split; [congruence|]). intros h. rewrite B7. apply A7.
Qed.

Lemma go_hold h k : holdc h (go k) = nexth k h.
Proof. destruct k; cbn; lia. Qed.
Lemma go_post h k : postc h (go k) = 0.
Proof. destruct k; reflexivity. Qed.
Lemma go_pos st k : nextpos st k -> rpos st (go k).
Proof. destruct k; exact (fun H => H). Qed.

Lemma read_ok cfg st i r : cfg <> Spin -> inv cfg st -> nth_error (rs st) i = Some r ->
  match read_step cfg i r st with Next st' => inv cfg st' | Blocked => pc r = Idle | Bad => False end.
Proof.
  intros NS V E. pose proof (i_pos _ _ V r (nth_error_In _ _ E)) as RP. pose proof (i_str _ _ V) as S. unfold read_step.
  destruct (pc r) as [|c o|c s o|c s o|h k|h k|n h|n h] eqn:PC; cbn [rpos] in RP.
  - reflexivity.
  - (* Load *)
    rewrite (at_alive cfg st i r c o V E RP) by (rewrite PC; cbn; lia).
    refine (quiet cfg st i r _ V E _ _ _ _ _ (keeps_refl_rs _ _) (fun h => eq_refl) eq_refl); rewrite ?PC; try reflexivity. exact RP.
  - (* Get *)
    pose proof (at_alive cfg st i r c o V E RP ltac:(rewrite PC; cbn; lia)) as AL. rewrite AL.
    destruct (refs (arcs st c s)) as [|m] eqn:RF.
    { refine (quiet cfg st i r _ V E _ _ _ _ _ (keeps_refl_rs _ _) (fun h => eq_refl) eq_refl); rewrite ?PC; try reflexivity. exact RP. }
    assert (GO : good st (c, s)).
    { pose proof (i_cnt _ _ V (c, s) AL) as C. unfold arc_at in C. cbn [fst snd] in C. rewrite RF in C. destruct (own st (c, s)) eqn:O; [split; [exact AL|left; exact O]|].
      apply (i_good _ _ V). cbn [b2n] in C. lia. }
    eapply (reader_inv cfg st _ i r _ V E); [reflexivity| |..]; rewrite ?PC; cbn [pc holdc postc].
    + unfold set_pc. eapply keeps_trans; [|apply keeps_refl_rs]. apply keeps_put. reflexivity.
    + exact RP.
    + intros h A. unfold set_pc. change (arc_at (set_rs _ ?x) h) with (arc_at x h). rewrite arc_put. unfold eqs.
      destruct (same_spec h (c, s)) as [-> | N1]; try (destruct (same_spec (c, s) (c, s)); [|congruence]); try (destruct (same_spec (c, s) h); [congruence|]); cbn [refs].
      * unfold arc_at. cbn [fst snd]. lia.
      * lia.
    + intros h H. destruct (helds o h) eqn:HO; [apply (fun H => eqs_pos (c, s) h H) in H; rewrite <- H; exact GO|].
      destruct (held_good cfg st i r h V E) as (G & _); [rewrite PC; cbn [holdc]; lia|exact G].
    + intros C h A H' N' HH NN. unfold set_pc. change (arc_at (set_rs _ ?x) h) with (arc_at x h). rewrite arc_put.
      pose proof (i_sem _ _ V C h A) as Q.
      assert (SQ : sem (if same h (c, s) then mkArc (Datatypes.S (Datatypes.S m)) (ptr (arcs st c s)) (sem (arcs st c s)) else arc_at st h) = sem (arc_at st h)).
      { destruct (same_spec h (c, s)) as [-> |]; reflexivity. }
      rewrite ?RF. rewrite SQ. replace N' with (posts st h) by lia. rewrite Q.
      destruct (waits st h) eqn:W; [|reflexivity]. cbn [andb].
      destruct (Nat.eqb_spec (holders st h) 0) as [Z | Z]; destruct (Nat.eqb_spec H' 0) as [Z' | Z']; try reflexivity; try lia.
      exfalso. assert (EH : (c, s) = h) by (apply eqs_pos; lia). subst h.
      pose proof (i_cnt _ _ V (c, s) A) as CN. unfold arc_at in CN. cbn [fst snd] in CN. rewrite RF in CN.
      destruct (own st (c, s)) eqn:O; [rewrite (own_not_waits _ _ S O) in W; discriminate|]. cbn [b2n] in CN. lia.
    + intros h H. lia.
  - (* Ptr *)
    rewrite (at_alive cfg st i r c o V E RP) by (rewrite PC; cbn; lia).
    destruct (held_good cfg st i r (c, s) V E) as (G & _). { rewrite PC. cbn [holdc]. rewrite eqs_self. lia. }
    destruct (good_ptr st (c, s) S G) as (NN & _). unfold pt, arc_at in NN. cbn [fst snd] in NN.
    destruct (ptr (arcs st c s)) as [| |n] eqn:PT; [contradiction| |].
    + refine (quiet cfg st i r _ V E _ _ _ _ _ (keeps_refl_rs _ _) (fun h => eq_refl) eq_refl); rewrite ?PC; cbn [pc].
      * destruct o; exact I.
      * intros h. destruct o; cbn [holdc helds nexth]; lia.
      * intros h. destruct o; reflexivity.
      * reflexivity.
    + refine (quiet cfg st i r _ V E _ _ _ _ _ (keeps_refl_rs _ _) (fun h => eq_refl) eq_refl); rewrite ?PC; cbn [pc].
      * destruct o; exact PT.
      * intros h. destruct o; cbn [holdc helds nexth]; lia.
      * intros h. destruct o; reflexivity.
      * reflexivity.
  - (* Put *)
    destruct (held_good cfg st i r h V E) as (G & HP). { rewrite PC. cbn [holdc]. rewrite eqs_self. lia. }
    pose proof G as (AL & OW). rewrite AL. cbn zeta.
    pose proof (i_cnt _ _ V h AL) as CN. set (a := arc_at st h) in *.
    set (p := match cfg with NoSem => go k | _ => if refs a =? 1 then Post h k else go k end).
    assert (HC : forall h', holdc h' p = nexth k h').
    { intros h'. unfold p. destruct cfg; rewrite ?go_hold; try reflexivity; destruct (refs a =? 1); rewrite ?go_hold; reflexivity. }
    eapply (reader_inv cfg st _ i r _ V E); [reflexivity| |..]; rewrite ?PC; cbn [pc].
    + unfold set_pc. eapply keeps_trans; [|apply keeps_refl_rs]. apply keeps_put. reflexivity.
    + unfold p. destruct cfg; try (apply go_pos; exact RP); destruct (refs a =? 1); try (apply go_pos; exact RP); exact RP.
    + intros h' A'. rewrite HC. unfold set_pc. change (arc_at (set_rs _ ?x) h') with (arc_at x h'). rewrite arc_put. cbn [holdc]. unfold eqs.
      destruct (same_spec h' h) as [-> | N1]; [destruct (same_spec h h); [|congruence]|destruct (same_spec h h'); [congruence|]]; cbn [refs]; fold a; lia.
    + intros h' H. rewrite HC in H. destruct (held_good cfg st i r h' V E) as (G' & _); [rewrite PC; cbn [holdc]; lia|exact G'].
    + intros C h' A' H' N' HH NN. rewrite HC in HH. cbn [holdc postc] in HH, NN. unfold set_pc. change (arc_at (set_rs _ ?x) h') with (arc_at x h'). rewrite arc_put.
      pose proof (i_sem _ _ V C h' A') as Q.
      assert (SQ : sem (if same h' h then mkArc (refs a - 1) (ptr a) (sem a) else arc_at st h') = sem (arc_at st h')).
      { destruct (same_spec h' h) as [-> |]; reflexivity. }
      rewrite SQ. unfold p in NN. rewrite C in NN. destruct (same_spec h h') as [<- | NE].
      * rewrite eqs_self in HH. destruct (Nat.eqb_spec (refs a) 1) as [R1 | R1].
        -- cbn [postc] in NN. rewrite eqs_self in NN. assert (O : own st h = false) by (destruct (own st h); [cbn [b2n] in CN; lia|reflexivity]).
           rewrite O in CN. cbn [b2n] in CN. destruct OW as [OW | OW]; [congruence|]. rewrite OW in Q |- *. cbn [andb] in Q |- *.
           destruct (Nat.eqb_spec (holders st h) 0); [lia|]. destruct (Nat.eqb_spec H' 0); lia.
        -- rewrite go_post in NN. destruct (waits st h) eqn:W; cbn [andb] in Q |- *; [|lia].
           destruct (own st h) eqn:O; [rewrite (own_not_waits _ _ S O) in W; discriminate|]. cbn [b2n] in CN.
           destruct (Nat.eqb_spec (holders st h) 0); [lia|]. destruct (Nat.eqb_spec H' 0); lia.
      * unfold eqs in HH. destruct (same_spec h h'); [congruence|].
        assert (NN' : N' = posts st h').
        { destruct (refs a =? 1); [|rewrite go_post in NN; lia]. cbn [postc] in NN. unfold eqs in NN. destruct (same_spec h h'); [congruence|lia]. }
        rewrite NN', Q. replace H' with (holders st h') by lia. reflexivity.
    + intros h' H. unfold p in H. destruct cfg; [|contradiction|rewrite go_post in H; lia].
      destruct (Nat.eqb_spec (refs a) 1) as [R1 | R1]; [|rewrite go_post in H; lia]. cbn [postc] in H. apply eqs_pos in H. subst h'. split; [reflexivity|].
      destruct OW as [OW | OW]; [|exact OW]. rewrite OW in CN. cbn [b2n] in CN. lia.
  - (* Post *)
    assert (PP : 0 < posts st h). { pose proof (total_in (postc h) _ _ (nth_error_In _ _ E)) as T. rewrite PC in T. cbn [postc] in T. rewrite eqs_self in T. exact T. }
    destruct (i_post _ _ V h PP) as (C & W).
    assert (AL : alive st (fst h) = true).
    { destruct (waits_w _ _ W) as (kk & WE). pose proof (s_w _ S) as WI. unfold winv in WI. rewrite WE in WI. destruct kk as [n|x nx|x nx].
      - destruct WI as ((N1 & A & SF & _) & _). rewrite <- SF. apply (s_self _ S n A N1).
      - destruct WI as ((N1 & A & SF & _) & _). rewrite <- SF. apply (s_self _ S x A N1).
      - destruct WI as (-> & _ & _ & D). apply D. }
    rewrite AL. cbn zeta. rewrite C.
    eapply (reader_inv Sem st _ i r (mkReader (go k) (ran r))); [subst cfg; exact V|exact E|reflexivity| |..]; rewrite ?PC; cbn [pc].
    + unfold set_pc. eapply keeps_trans; [|apply keeps_refl_rs]. apply keeps_put. reflexivity.
    + apply go_pos. exact RP.
    + intros h' A'. rewrite go_hold. unfold set_pc. change (arc_at (set_rs _ ?x) h') with (arc_at x h'). rewrite arc_put. cbn [holdc].
      destruct (same_spec h' h) as [-> |]; cbn [refs]; lia.
    + intros h' H. rewrite go_hold in H. destruct (held_good cfg st i r h' V E) as (G' & _); [rewrite PC; cbn [holdc]; lia|exact G'].
    + intros _ h' A' H' N' HH NN. rewrite go_hold in HH. rewrite go_post in NN. cbn [holdc postc] in HH, NN. unfold set_pc.
      change (arc_at (set_rs _ ?x) h') with (arc_at x h'). rewrite arc_put.
      pose proof (i_sem _ _ V C h' A') as Q. replace H' with (holders st h') by lia. rewrite <- Q. unfold eqs in NN.
      destruct (same_spec h' h) as [-> | NE]; [destruct (same_spec h h); [|congruence]|destruct (same_spec h h'); [congruence|]]; cbn [sem]; lia.
    + intros h' H. rewrite go_post in H. lia.
  - (* At *)
    destruct (held_good cfg st i r h V E) as (G & _). { rewrite PC. cbn [holdc]. rewrite eqs_self. lia. }
    destruct (good_ptr st h S G) as (_ & N). destruct (N n RP) as (AL & _). rewrite AL.
    destruct (oneshot st n && negb (armed st n)).
    + refine (quiet cfg st i r _ V E _ _ _ _ _ (keeps_refl_rs _ _) (fun h => eq_refl) eq_refl); rewrite ?PC; try reflexivity. exact RP.
    + apply (quiet cfg st i r (mkReader (Run n h) (n :: ran r)) V E); rewrite ?PC; cbn [pc].
      * exact RP.
      * reflexivity.
      * reflexivity.
      * reflexivity.
      * destruct (oneshot st n); repeat split.
      * intros h'. destruct (oneshot st n); reflexivity.
      * destruct (oneshot st n); reflexivity.
  - (* Run *)
    destruct (held_good cfg st i r h V E) as (G & _). { rewrite PC. cbn [holdc]. rewrite eqs_self. lia. }
    destruct (good_ptr st h S G) as (_ & N). destruct (N n RP) as (AL & _). rewrite AL.
    refine (quiet cfg st i r _ V E _ _ _ _ _ (keeps_refl_rs _ _) (fun h => eq_refl) eq_refl); rewrite ?PC; try reflexivity. exact RP.
Qed.

(** ** Steps of the writer *)
Lemma rpos_held st st' p : (forall h, 0 < holdc h p -> pt st' h = pt st h) -> rpos st p -> rpos st' p.
Proof.
  intros H. assert (E : forall h, 0 < holdc h p -> forall n, pt st h = NODE n -> pt st' h = NODE n) by (intros h L n; rewrite (H h L); exact (fun x => x)).
  destruct p as [|c o|c s o|c s o|h k|h k|n h|n h]; cbn [rpos]; try (destruct o); try (destruct k); cbn [atpos nextpos]; try exact (fun x => x);
    apply E; cbn [holdc helds nexth]; rewrite eqs_self; lia.
Qed.

Lemma writer_inv cfg st st' : inv cfg st -> rs st' = rs st -> str st' ->
  (forall h, alive st' (fst h) = true -> refs (arc_at st' h) = b2n (own st' h) + holders st h) ->
  (forall h, 0 < holders st h -> good st' h /\ pt st' h = pt st h) ->
  (cfg = Sem -> forall h, alive st' (fst h) = true -> posts st h + sem (arc_at st' h) = if waits st' h && (holders st h =? 0) then 1 else 0) ->
  (forall h, 0 < posts st h -> cfg = Sem /\ waits st' h = true) -> inv cfg st'.
Proof.
  intros V R S C G E P. assert (HH : forall h, holders st' h = holders st h) by (intros h; unfold holders; rewrite R; reflexivity).
  assert (PP : forall h, posts st' h = posts st h) by (intros h; unfold posts; rewrite R; reflexivity).
  constructor.
  - exact S.
  - intros h. rewrite HH. apply C.
  - intros h. rewrite HH. apply G.
  - intros Q h. rewrite HH, PP. apply E. exact Q.
  - intros h. rewrite PP. apply P.
  - intros r I. rewrite R in I. apply (rpos_held st); [|exact (i_pos _ _ V r I)]. intros h H. apply G.
    pose proof (total_in (holdc h) _ _ I). unfold holders. lia.
Qed.

Lemma pt_put st h a h' : pt (put_arc h a st) h' = if same h' h then ptr a else pt st h'.
Proof. unfold pt. rewrite arc_put. destruct (same h' h); reflexivity. Qed.
Lemma same_refl h : same h h = true.
Proof. destruct (same_spec h h); congruence. Qed.
Lemma same_neq h h' : h <> h' -> same h h' = false.
Proof. destruct (same_spec h h'); congruence. Qed.
Lemma no_posts cfg st : inv cfg st -> (forall c s k, w st <> WWait c s k) -> forall h, posts st h = 0.
Proof.
  intros V N h. destruct (posts st h) eqn:E; [reflexivity|]. destruct (i_post _ _ V h) as (_ & W); [lia|]. destruct (waits_w _ _ W) as (k & F). destruct (N _ _ _ F).
Qed.
Lemma no_waits st : (forall c s k, w st <> WWait c s k) -> forall h, waits st h = false.
Proof. intros N h. destruct (waits st h) eqn:E; [|reflexivity]. destruct (waits_w _ _ E) as (k & F). destruct (N _ _ _ F). Qed.
Lemma no_sem st : inv Sem st -> (forall c s k, w st <> WWait c s k) -> forall h, alive st (fst h) = true -> sem (arc_at st h) = 0.
Proof. intros V N h A. pose proof (i_sem _ _ V eq_refl h A) as Q. rewrite (no_waits _ N) in Q. cbn [andb] in Q. lia. Qed.

(** The writer's steps at which nobody waits before or after *)
Lemma writer_quiet cfg st st' : inv cfg st -> (forall c s k, w st <> WWait c s k) -> (forall c s k, w st' <> WWait c s k) -> rs st' = rs st -> str st' ->
  (forall h, alive st' (fst h) = true -> refs (arc_at st' h) = b2n (own st' h) + holders st h) ->
  (forall h, 0 < holders st h -> alive st' (fst h) = true /\ own st' h = true /\ pt st' h = pt st h) ->
  (forall h, alive st' (fst h) = true -> (alive st (fst h) = true /\ sem (arc_at st' h) = sem (arc_at st h)) \/ sem (arc_at st' h) = 0) -> inv cfg st'.
Proof.
  intros V N N' R S C G E. apply (writer_inv cfg st st' V R S C).
  - intros h H. destruct (G h H) as (A & B & D). split; [split; [exact A|left; exact B]|exact D].
  - intros Q h A. rewrite (no_posts cfg st V N), (no_waits _ N'). cbn [andb]. destruct (E h A) as [(B & ->) | ->]; [|reflexivity].
    subst cfg. rewrite (no_sem st V N h B). reflexivity.
  - intros h H. rewrite (no_posts cfg st V N) in H. lia.
Qed.

Lemma held_own cfg st h : inv cfg st -> (forall c s k, w st <> WWait c s k) -> 0 < holders st h -> alive st (fst h) = true /\ own st h = true.
Proof. intros V N H. destruct (i_good _ _ V h H) as (A & [O | W]); [auto|]. rewrite (no_waits _ N) in W. discriminate. Qed.

Lemma kinv_alive st c k : str st -> kinv st c k -> alive st c = true.
Proof.
  intros S. destruct k as [n|x nx|x nx]; cbn [kinv]; [| |contradiction].
  - intros (N1 & A & <- & _). apply (s_self _ S n A N1).
  - intros (N1 & A & <- & _). apply (s_self _ S x A N1).
Qed.
Lemma kinv_lt st c x nx : str st -> kinv st c (KRemove x nx) -> c < x.
Proof. intros S (N1 & A & <- & _). apply (s_self _ S x A N1). Qed.
Lemma kinv_lt' st c x : str st -> kinv st c (KAppend x) -> c < x.
Proof. intros S (N1 & A & <- & _). apply (s_self _ S x A N1). Qed.

(** 1. *)
Lemma w_load cfg st c v k : inv cfg st -> w st = WLoad c v k -> match write_step cfg st with Next st' => inv cfg st' | _ => False end.
Proof.
  intros V W. pose proof (i_str _ _ V) as S. pose proof (s_w _ S) as WI. unfold winv in WI. rewrite W in WI. destruct WI as (KI & ->).
  assert (NW : forall a b d, w st <> WWait a b d) by (intros a b d; rewrite W; discriminate).
  pose proof (kinv_alive _ _ _ S KI) as AL. unfold write_step. rewrite W, AL. cbn zeta.
  set (h0 := (c, negb (active st c))).
  assert (OF : own st h0 = false) by (unfold own, h0; rewrite W; cbn [fst snd]; destruct (active st c); reflexivity).
  assert (HF : holders st h0 = 0).
  { destruct (holders st h0) eqn:E; [reflexivity|]. destruct (held_own cfg st h0 V NW) as (_ & O); [lia|congruence]. }
  assert (RF : refs (arcs st c (negb (active st c))) = 0).
  { pose proof (i_cnt _ _ V h0 AL) as Q. rewrite OF, HF in Q. exact Q. }
  rewrite RF. cbn [Nat.eqb]. set (st' := set_w _ _).
  assert (OW : forall h, own st' h = own st h) by (intros h; unfold own, st'; rewrite W; reflexivity).
  assert (PT : forall h, h <> h0 -> pt st' h = pt st h) by (intros h N; change (pt st' h) with (pt (put_arc h0 (mkArc 0 (kval k) (sem (arcs st c (negb (active st c))))) st) h); rewrite pt_put, (same_neq _ _ N); reflexivity).
  assert (PA : forall d, pt st' (act st' d) = pt st (act st d)).
  { intros d. apply PT. unfold act, h0. change (active st') with (active st). intros E. injection E as -> E. destruct (active st c); discriminate. }
  assert (PO : forall h, own st h = true -> pt st' h = pt st h) by (intros h O; apply PT; intros ->; congruence).
  apply (writer_quiet cfg st st' V NW); [discriminate|reflexivity| | | |].
  - constructor.
    + apply S.
    + exact (s_fresh _ S).
    + exact (s_self _ S).
    + intros h A. rewrite OW. intros O. rewrite (PO h O). exact (s_ptr _ S h A O).
    + intros h n A. rewrite OW. intros O. rewrite (PO h O). intros E. destruct (s_node _ S h n A O E) as (B & C & D). rewrite W in D. split; [exact B|]. split; [exact C|exact D].
    + intros n A N1 N2 U. rewrite PA. apply (s_list _ S n A N1 N2). rewrite W. exact U.
    + rewrite PA. exact (s_tail _ S).
    + unfold winv, st'. cbn [w set_w]. split; [|split; [reflexivity|split; [reflexivity|]]].
      * destruct k as [n|x nx|]; [exact KI| |destruct KI]. destruct KI as (K1 & K2 & K3 & K4 & K5). split; [exact K1|]. split; [exact K2|]. split; [exact K3|]. split; [|exact K5].
        exact (eq_trans (PA x) K4).
      * change (pt (put_arc h0 (mkArc 0 (kval k) (sem (arcs st c (negb (active st c))))) st) h0 = kval k). rewrite pt_put, same_refl. reflexivity.
  - intros h A. rewrite OW, <- (i_cnt _ _ V h A). change (arc_at st' h) with (arc_at (put_arc h0 (mkArc 0 (kval k) (sem (arcs st c (negb (active st c))))) st) h).
    rewrite arc_put. destruct (same_spec h h0) as [-> |]; [symmetry; exact RF|reflexivity].
  - intros h H. destruct (held_own cfg st h V NW H) as (A & O). split; [exact A|]. split; [rewrite OW; exact O|exact (PO h O)].
  - intros h A. left. split; [exact A|]. change (arc_at st' h) with (arc_at (put_arc h0 (mkArc 0 (kval k) (sem (arcs st c (negb (active st c))))) st) h).
    rewrite arc_put. destruct (same_spec h h0) as [-> |]; reflexivity.
Qed.

(** 2. *)
Lemma w_refs cfg st c i v k : inv cfg st -> w st = WRefs c i v k -> match write_step cfg st with Next st' => inv cfg st' | _ => False end.
Proof.
  intros V W. pose proof (i_str _ _ V) as S. pose proof (s_w _ S) as WI. unfold winv in WI. rewrite W in WI. destruct WI as (KI & -> & AC & PV).
  assert (NW : forall a b d, w st <> WWait a b d) by (intros a b d; rewrite W; discriminate).
  pose proof (kinv_alive _ _ _ S KI) as AL. unfold write_step. rewrite W, AL. cbn zeta.
  set (h0 := (c, negb i)) in *.
  assert (OF : own st h0 = false) by (unfold own, h0; rewrite W; cbn [fst snd]; rewrite AC; destruct i; reflexivity).
  assert (HF : holders st h0 = 0).
  { destruct (holders st h0) eqn:E; [reflexivity|]. destruct (held_own cfg st h0 V NW) as (_ & O); [lia|congruence]. }
  set (a := arcs st c (negb i)). set (st' := set_w _ _).
  assert (AT : forall h, arc_at st' h = if same h h0 then mkArc 1 (ptr a) (sem a) else arc_at st h) by (intros h; exact (arc_put st h0 _ h)).
  assert (PT : forall h, pt st' h = pt st h) by (intros h; unfold pt; rewrite AT; destruct (same_spec h h0) as [-> |]; reflexivity).
  assert (OW : forall h, own st' h = same h h0 || own st h).
  { intros (d & s). unfold own, st', same, h0. rewrite W. cbn [fst snd w set_w set_arcs put_arc active]. destruct (Nat.eqb_spec d c) as [-> |]; [rewrite AC; destruct s, i; reflexivity|reflexivity]. }
  assert (KV : forall m, kval k = NODE m -> alive st m = true /\ c < m /\ (self st m = c \/ exists x, rem (w st') = Some (x, NODE m) /\ (c = x \/ c = self st x))).
  { destruct k as [n|x nx|]; cbn [kval]; [| |destruct KI].
    - intros m E. injection E as <-. destruct KI as (K1 & K2 & K3 & _). split; [exact K2|]. destruct (s_self _ S n K2 K1) as (_ & L). split; [lia|left; exact K3].
    - intros m ->. destruct KI as (K1 & K2 & K3 & K4 & K5). destruct (s_node _ S (act st x) m K2) as (B & C & _); [unfold own; rewrite W; apply Bool.eqb_reflx|exact K4|].
      destruct (s_self _ S x K2 K1) as (_ & L). cbn [fst act] in C. split; [exact B|]. split; [lia|]. right. exists x. split; [reflexivity|right; symmetry; exact K3]. }
  assert (KN : kval k <> NULL).
  { destruct k as [n|x nx|]; cbn [kval]; [discriminate| |destruct KI]. destruct KI as (K1 & K2 & K3 & K4 & K5). rewrite <- K4. apply (s_ptr _ S (act st x) K2). unfold own. rewrite W. apply Bool.eqb_reflx. }
  apply (writer_quiet cfg st st' V NW); [discriminate|reflexivity| | | |].
  - constructor.
    + apply S.
    + exact (s_fresh _ S).
    + exact (s_self _ S).
    + intros h A. rewrite OW, PT. destruct (same_spec h h0) as [-> |]; [intros _; rewrite PV; exact KN|]. intros O. exact (s_ptr _ S h A O).
    + intros h n A. rewrite OW, PT. destruct (same_spec h h0) as [-> |]; [intros _; rewrite PV; apply KV|]. intros O E.
      destruct (s_node _ S h n A O E) as (B & C & D). rewrite W in D. split; [exact B|]. split; [exact C|exact D].
    + intros n A N1 N2 U. rewrite PT. apply (s_list _ S n A N1 N2). rewrite W. exact U.
    + rewrite PT. exact (s_tail _ S).
    + unfold winv, st'. cbn [w set_w]. split; [|split; [reflexivity|split; [exact AC|exact (eq_trans (PT h0) PV)]]].
      destruct k as [n|x nx|]; [exact KI| |destruct KI]. destruct KI as (K1 & K2 & K3 & K4 & K5). split; [exact K1|]. split; [exact K2|]. split; [exact K3|]. split; [|exact K5].
      exact (eq_trans (PT _) K4).
  - intros h A. rewrite OW, AT. destruct (same_spec h h0) as [-> |]; [rewrite HF; reflexivity|exact (i_cnt _ _ V h A)].
  - intros h H. destruct (held_own cfg st h V NW H) as (A & O). split; [exact A|]. split; [rewrite OW, O; apply orb_true_r|apply PT].
  - intros h A. left. split; [exact A|]. rewrite AT. destruct (same_spec h h0) as [-> |]; reflexivity.
Qed.

(** 3. *)
Lemma upd_eq {A} (f : nat -> A) n x : upd f n x n = x.
Proof. unfold upd. rewrite Nat.eqb_refl. reflexivity. Qed.
Lemma upd_neq {A} (f : nat -> A) n x m : m <> n -> upd f n x m = f m.
Proof. unfold upd. destruct (Nat.eqb_spec m n); [congruence|reflexivity]. Qed.

Lemma w_swap cfg st c i v k : inv cfg st -> w st = WSwap c i v k -> match write_step cfg st with Next st' => inv cfg st' | _ => False end.
Proof.
  intros V W. pose proof (i_str _ _ V) as S. pose proof (s_w _ S) as WI. unfold winv in WI. rewrite W in WI. destruct WI as (KI & -> & AC & PV).
  assert (NW : forall a b d, w st <> WWait a b d) by (intros a b d; rewrite W; discriminate).
  pose proof (kinv_alive _ _ _ S KI) as AL. unfold write_step. rewrite W, AL. set (st' := set_w _ _).
  assert (AA : forall d, d <> c -> act st' d = act st d) by (intros d N; unfold act, st'; cbn [active set_w set_active]; rewrite (upd_neq _ _ _ _ N); reflexivity).
  assert (AA' : act st' c = (c, negb i)) by (unfold act, st'; cbn [active set_w set_active]; rewrite upd_eq; reflexivity).
  assert (NK : forall x nx, k <> KDestroy x nx) by (intros x nx ->; exact KI).
  assert (OW : forall h, own st' h = own st h).
  { intros (d & s). unfold own, st'. rewrite W. cbn [fst snd w set_w set_active active]. destruct (Nat.eqb_spec d c) as [-> | N].
    - destruct k as [n|x nx|x nx]; [reflexivity|reflexivity|destruct (NK x nx eq_refl)].
    - rewrite (upd_neq _ _ _ _ N). destruct k as [n|x nx|x nx]; [reflexivity|reflexivity|destruct (NK x nx eq_refl)]. }
  assert (OI : own st (c, i) = true) by (unfold own; rewrite W; cbn [fst]; rewrite Nat.eqb_refl; reflexivity).
  apply (writer_quiet cfg st st' V NW); [discriminate|reflexivity| | | |].
  - constructor.
    + apply S.
    + exact (s_fresh _ S).
    + exact (s_self _ S).
    + intros h A. rewrite OW. exact (s_ptr _ S h A).
    + intros h n A. rewrite OW. intros O E. destruct (s_node _ S h n A O E) as (B & C & D). rewrite W in D. split; [exact B|]. split; [exact C|exact D].
    + intros n A N1 N2 U. change (self st' n) with (self st n) in *. change (pt st' ?x) with (pt st x).
      destruct (Nat.eq_dec (self st n) c) as [E | N].
      * rewrite E, AA', PV. destruct k as [m|x nx|]; [| |destruct KI]; cbn [kval].
        -- destruct KI as (_ & _ & _ & _ & _ & Q). f_equal. symmetry. apply (Q n A N1); [lia|exact E].
        -- exfalso. destruct KI as (K1 & K2 & K3 & K4 & _). cbn in U. apply Nat.eqb_neq in U. apply U.
           assert (Q : pt st (act st (self st n)) = NODE n) by (apply (s_list _ S n A N1 N2); rewrite W; reflexivity).
           assert (Q' : pt st (act st (self st x)) = NODE x) by (apply (s_list _ S x K2 K1); [lia|rewrite W; reflexivity]). congruence.
      * rewrite (AA _ N). apply (s_list _ S n A N1 N2). rewrite W. destruct k as [m|x nx|]; [|reflexivity|destruct KI]. cbn [unlinked].
        destruct (Nat.eqb_spec m n) as [-> |]; [|reflexivity]. destruct KI as (_ & _ & Q & _). congruence.
    + change (tail st') with (tail st). change (alive st') with (alive st). change (pt st' ?x) with (pt st x). destruct (s_tail _ S) as (T1 & T2). split; [exact T1|]. intros T3.
      destruct (Nat.eq_dec (tail st) c) as [E | N]; [|rewrite (AA _ N); exact (T2 T3)]. exfalso. destruct k as [m|x nx|]; [| |destruct KI].
      * pose proof (kinv_lt' _ _ _ S KI). destruct KI as (_ & _ & _ & Q & _). lia.
      * destruct KI as (K1 & K2 & K3 & _). specialize (T2 T3). rewrite E in T2.
        assert (Q' : pt st (act st (self st x)) = NODE x) by (apply (s_list _ S x K2 K1); [lia|rewrite W; reflexivity]). congruence.
    + assert (KI' : kinv st' c k).
      { destruct k as [n|x nx|]; [exact KI| |destruct KI]. pose proof (kinv_lt _ _ _ _ S KI) as L. destruct KI as (K1 & K2 & K3 & K4 & K5).
        split; [exact K1|]. split; [exact K2|]. split; [exact K3|]. split; [|exact K5]. rewrite AA by lia. exact K4. }
      assert (ST : stale st' (c, i)).
      { split; [exact (s_ptr _ S (c, i) AL OI)|]. intros n E. destruct (s_node _ S (c, i) n AL OI E) as (B & C & _). split; assumption. }
      assert (QQ : active st' c = negb i) by (unfold st'; cbn [active set_w set_active]; apply upd_eq).
      unfold winv. change (w st') with (WSub c i k). destruct k as [n|x nx|x nx]; [| |destruct (NK x nx eq_refl)]; (split; [exact KI'|split; [exact QQ|split; [exact PV|exact ST]]]).
  - intros h A. rewrite OW. exact (i_cnt _ _ V h A).
  - intros h H. destruct (held_own cfg st h V NW H) as (A & O). split; [exact A|]. split; [rewrite OW; exact O|reflexivity].
  - intros h A. left. split; [exact A|reflexivity].
Qed.

(** 4. *)
Lemma kinv_ext st st' c k : active st' = active st -> alive st' = alive st -> self st' = self st -> tail st' = tail st -> fresh st' = fresh st ->
  (forall h, pt st' h = pt st h) -> kinv st c k -> kinv st' c k.
Proof. intros A L F T FR P. unfold kinv, act. rewrite A, L, F, T, FR. destruct k; rewrite ?P; exact (fun H => H). Qed.
Lemma dinv_ext st st' x nx : active st' = active st -> alive st' = alive st -> self st' = self st -> tail st' = tail st ->
  (forall d, d <> x -> pt st' (act st d) = pt st (act st d)) -> str st -> dinv st x nx -> dinv st' x nx.
Proof.
  intros A L F T P S (D1 & D2 & D3 & D4 & D5 & D6). unfold dinv, act. rewrite A, L, F, T.
  split; [exact D1|]. split; [exact D2|]. split; [exact D3|]. split; [|split; [exact D5|exact D6]].
  destruct (s_self _ S x D2 D1) as (_ & Q). rewrite <- D4. apply (P (self st x)). lia.
Qed.

Lemma w_sub cfg st c s k : inv cfg st -> w st = WSub c s k -> match write_step cfg st with Next st' => inv cfg st' | _ => False end.
Proof.
  intros V W. pose proof (i_str _ _ V) as S. pose proof (s_w _ S) as WI. unfold winv in WI. rewrite W in WI.
  assert (NW : forall a b d, w st <> WWait a b d) by (intros a b d; rewrite W; discriminate).
  assert (AL : alive st c = true).
  { destruct k as [n|x nx|x nx]; [destruct WI as (KI & _); exact (kinv_alive _ _ _ S KI)|destruct WI as (KI & _); exact (kinv_alive _ _ _ S KI)|].
    destruct WI as (-> & _ & _ & D). apply D. }
  unfold write_step. rewrite W, AL. cbn zeta. set (h0 := (c, s)) in *. set (a := arcs st c s).
  assert (OI : own st h0 = true).
  { unfold own, h0. rewrite W. cbn [fst snd]. destruct k as [n|x nx|x nx]; [rewrite Nat.eqb_refl; reflexivity|rewrite Nat.eqb_refl; reflexivity|].
    destruct WI as (-> & -> & _). apply Bool.eqb_reflx. }
  pose proof (i_cnt _ _ V h0 AL) as CN. rewrite OI in CN. change (arc_at st h0) with a in CN. cbn [b2n] in CN.
  destruct (refs a) as [|n0] eqn:RF; [lia|]. assert (n0 = holders st h0) by lia. subst n0.
  set (w' := match holders st h0 with O => WTake c s k | Datatypes.S _ => WWait c s k end). set (st' := set_w w' _).
  assert (AT : forall h, arc_at st' h = if same h h0 then mkArc (holders st h0) (ptr a) (sem a) else arc_at st h) by (intros h; exact (arc_put st h0 _ h)).
  assert (PT : forall h, pt st' h = pt st h) by (intros h; unfold pt; rewrite AT; destruct (same_spec h h0) as [-> |]; reflexivity).
  assert (OW : forall h, own st' h = negb (same h h0) && own st h).
  { intros (d & b). unfold own at 1. change (w st') with w'. change (active st') with (active st). unfold own. rewrite W. unfold same, h0. cbn [fst snd].
    assert (Q : match w' with WSwap c0 _ _ _ => (d =? c0) || Bool.eqb b (active st d) | WSub _ _ (KDestroy _ _) => Bool.eqb b (active st d) | WSub c0 _ _ => (d =? c0) || Bool.eqb b (active st d)
      | WWait c0 _ (KDestroy _ _) | WTake c0 _ (KDestroy _ _) => negb (d =? c0) && Bool.eqb b (active st d) | WDestroy x _ | WFree x _ => negb (d =? x) && Bool.eqb b (active st d) | _ => Bool.eqb b (active st d) end
      = match k with KDestroy _ _ => negb (d =? c) && Bool.eqb b (active st d) | _ => Bool.eqb b (active st d) end) by (unfold w'; destruct (holders st h0); destruct k; reflexivity).
    rewrite Q. destruct k as [n|x nx|x nx].
    - destruct WI as (_ & AC & _). destruct (Nat.eqb_spec d c) as [-> |]; [rewrite AC; destruct b, s; reflexivity|reflexivity].
    - destruct WI as (_ & AC & _). destruct (Nat.eqb_spec d c) as [-> |]; [rewrite AC; destruct b, s; reflexivity|reflexivity].
    - destruct WI as (-> & -> & _). destruct (Nat.eqb_spec d x) as [-> |]; [destruct b, (active st x); reflexivity|reflexivity]. }
  assert (RM : rem w' = rem (w st)) by (unfold w'; rewrite W; destruct (holders st h0); reflexivity).
  assert (UN : forall n, unlinked w' n = unlinked (w st) n) by (intros n; unfold w'; rewrite W; destruct (holders st h0); destruct k; reflexivity).
  assert (STR : str st').
  { constructor.
    + apply S.
    + exact (s_fresh _ S).
    + exact (s_self _ S).
    + intros h A. rewrite OW, PT. intros O. apply andb_true_iff in O as (_ & O). exact (s_ptr _ S h A O).
    + intros h n A. rewrite OW, PT. intros O E. apply andb_true_iff in O as (_ & O). change (w st') with w'. rewrite RM. exact (s_node _ S h n A O E).
    + intros n A N1 N2. change (w st') with w'. rewrite UN, PT. apply (s_list _ S n A N1 N2).
    + rewrite PT. exact (s_tail _ S).
    + assert (ST : forall h, stale st h -> stale st' h) by (intros h (S1 & S2); unfold stale; rewrite PT; split; assumption).
      assert (KE : forall c k, kinv st c k -> kinv st' c k) by (intros c' k'; apply kinv_ext; try reflexivity; exact PT).
      assert (DE : forall x nx, dinv st x nx -> dinv st' x nx) by (intros x nx; apply dinv_ext; try reflexivity; try exact S; intros; apply PT).
      unfold winv. change (w st') with w'. unfold w'. destruct (holders st h0) as [|hn]; (destruct k as [n|x nx|x nx];
        [destruct WI as (W1 & W2 & W3 & W4); split; [exact (KE _ _ W1)|split; [exact W2|split; [exact (eq_trans (PT _) W3)|exact (ST _ W4)]]]
        |destruct WI as (W1 & W2 & W3 & W4); split; [exact (KE _ _ W1)|split; [exact W2|split; [exact (eq_trans (PT _) W3)|exact (ST _ W4)]]]
        |destruct WI as (W1 & W2 & W3 & W4); split; [exact W1|split; [exact W2|split; [exact (ST _ W3)|exact (DE _ _ W4)]]]]). }
  assert (WT : forall h, waits st' h = same h0 h && negb (holders st h =? 0)).
  { intros h. unfold waits. change (w st') with w'. unfold w'. destruct (same_spec h0 h) as [<- | N]; [|destruct (holders st h0); [reflexivity|]].
    - destruct (holders st h0); [reflexivity|]. fold h0. rewrite same_refl. reflexivity.
    - fold h0. rewrite (same_neq _ _ N). reflexivity. }
  apply (writer_inv cfg st st' V); [reflexivity|exact STR| | | |].
  - intros h A. rewrite OW, AT. destruct (same_spec h h0) as [-> |]; [cbn [negb andb b2n refs]; reflexivity|exact (i_cnt _ _ V h A)].
  - intros h H. destruct (held_own cfg st h V NW H) as (A & O). split; [|apply PT]. split; [exact A|]. rewrite OW, WT, O.
    destruct (same_spec h h0) as [-> |]; [right|left; reflexivity]. rewrite same_refl. destruct (Nat.eqb_spec (holders st h0) 0); [lia|reflexivity].
  - intros Q h A. rewrite (no_posts cfg st V NW), WT. subst cfg. assert (E : sem (arc_at st' h) = 0).
    { rewrite AT. destruct (same_spec h h0) as [-> |]; [exact (no_sem st V NW h0 A)|exact (no_sem st V NW h A)]. }
    rewrite E. destruct (same h0 h); [|reflexivity]. cbn [andb]. destruct (holders st h =? 0); reflexivity.
  - intros h H. rewrite (no_posts cfg st V NW) in H. lia.
Qed.

(** 5. *)
Lemma w_wait cfg st c s k : cfg <> Spin -> inv cfg st -> w st = WWait c s k ->
  match write_step cfg st with Next st' => inv cfg st' | Blocked => 0 < holders st (c, s) \/ 0 < posts st (c, s) | Bad => False end.
Proof.
  intros NS V W. pose proof (i_str _ _ V) as S. pose proof (s_w _ S) as WI. unfold winv in WI. rewrite W in WI.
  assert (AL : alive st c = true).
  { destruct k as [n|x nx|x nx]; [destruct WI as (KI & _); exact (kinv_alive _ _ _ S KI)|destruct WI as (KI & _); exact (kinv_alive _ _ _ S KI)|].
    destruct WI as (-> & _ & _ & D). apply D. }
  unfold write_step. rewrite W, AL. cbn zeta. set (h0 := (c, s)) in *. set (a := arcs st c s).
  assert (WH : waits st h0 = true) by (unfold waits; rewrite W; apply same_refl).
  assert (WN : forall h, h <> h0 -> waits st h = false) by (intros h N; unfold waits; rewrite W; apply same_neq; intros F; apply N; symmetry; exact F).
  assert (OI : own st h0 = false) by (destruct (own st h0) eqn:O; [rewrite (own_not_waits _ _ S O) in WH; discriminate|reflexivity]).
  pose proof (i_cnt _ _ V h0 AL) as CN. rewrite OI in CN. change (arc_at st h0) with a in CN. cbn [b2n] in CN.
  assert (MAIN : forall m, holders st h0 = 0 -> posts st h0 = 0 -> (cfg = Sem -> m = 0) ->
    inv cfg (set_w (WTake c s k) (put_arc h0 (mkArc (refs a) (ptr a) m) st))).
  { intros m HZ PZ MZ. set (st' := set_w _ _).
    assert (AT : forall h, arc_at st' h = if same h h0 then mkArc (refs a) (ptr a) m else arc_at st h) by (intros h; exact (arc_put st h0 _ h)).
    assert (PT : forall h, pt st' h = pt st h) by (intros h; unfold pt; rewrite AT; destruct (same_spec h h0) as [-> |]; reflexivity).
    assert (OW : forall h, own st' h = own st h) by (intros h; unfold own, st'; rewrite W; destruct k; reflexivity).
    apply (writer_inv cfg st st' V); [reflexivity| | | | |].
    - constructor.
      + apply S.
      + exact (s_fresh _ S).
      + exact (s_self _ S).
      + intros h A. rewrite OW, PT. exact (s_ptr _ S h A).
      + intros h n A. rewrite OW, PT. intros O E. pose proof (s_node _ S h n A O E) as Q. rewrite W in Q. exact Q.
      + intros n A N1 N2 U. rewrite PT. apply (s_list _ S n A N1 N2). rewrite W. exact U.
      + rewrite PT. exact (s_tail _ S).
      + assert (ST : forall h, stale st h -> stale st' h) by (intros h (S1 & S2); unfold stale; rewrite PT; split; assumption).
        assert (KE : forall c k, kinv st c k -> kinv st' c k) by (intros c' k'; apply kinv_ext; try reflexivity; exact PT).
        assert (DE : forall x nx, dinv st x nx -> dinv st' x nx) by (intros x nx; apply dinv_ext; try reflexivity; try exact S; intros; apply PT).
        unfold winv. change (w st') with (WTake c s k). destruct k as [n|x nx|x nx];
          [destruct WI as (W1 & W2 & W3 & W4); split; [exact (KE _ _ W1)|split; [exact W2|split; [exact (eq_trans (PT _) W3)|exact (ST _ W4)]]]
          |destruct WI as (W1 & W2 & W3 & W4); split; [exact (KE _ _ W1)|split; [exact W2|split; [exact (eq_trans (PT _) W3)|exact (ST _ W4)]]]
          |destruct WI as (W1 & W2 & W3 & W4); split; [exact W1|split; [exact W2|split; [exact (ST _ W3)|exact (DE _ _ W4)]]]].
    - intros h A. rewrite OW, AT. destruct (same_spec h h0) as [-> |]; [rewrite OI; exact CN|exact (i_cnt _ _ V h A)].
    - intros h H. destruct (i_good _ _ V h H) as (A & O). split; [|apply PT]. split; [exact A|]. left. rewrite OW.
      destruct (same_spec h h0) as [-> | N]; [lia|]. rewrite (WN h N) in O. destruct O as [O | O]; [exact O|discriminate].
    - intros Q h A. change (waits st' h) with false. cbn [andb]. rewrite AT. destruct (same_spec h h0) as [-> | N]; [cbn [sem]; rewrite PZ, (MZ Q); reflexivity|].
      pose proof (i_sem _ _ V Q h A) as E. rewrite (WN h N) in E. exact E.
    - intros h H. destruct (i_post _ _ V h H) as (_ & B). destruct (same_spec h h0) as [-> | N]; [lia|]. rewrite (WN h N) in B. discriminate. }
  destruct cfg; [|contradiction|].
  - pose proof (i_sem _ _ V eq_refl h0 AL) as Q. rewrite WH in Q. cbn [andb] in Q. change (arc_at st h0) with a in Q.
    destruct (sem a) as [|m] eqn:SA.
    + destruct (Nat.eqb_spec (holders st h0) 0); [right; lia|left; lia].
    + destruct (Nat.eqb_spec (holders st h0) 0) as [Z|Z]; [|lia]. rewrite Z in CN. rewrite CN in MAIN |- *. cbn [Nat.eqb Nat.add] in MAIN |- *.
      assert (m = 0) by lia. subst m. apply MAIN; [exact Z|lia|reflexivity].
  - destruct (Nat.eqb_spec (refs a) 0) as [Z|Z]; [|left; lia].
    assert (E : put_arc h0 (mkArc (refs a) (ptr a) (sem a)) st = put_arc h0 a st) by (destruct a; reflexivity).
    assert (PZ : posts st h0 = 0) by (destruct (posts st h0) eqn:PZ; [reflexivity|]; destruct (i_post _ _ V h0) as (X & _); [lia|discriminate]).
    pose proof (MAIN (sem a) ltac:(lia) PZ ltac:(discriminate)) as Q. revert Q.
    assert (X : forall d b, arcs (put_arc h0 (mkArc (refs a) (ptr a) (sem a)) st) d b = arcs st d b).
    { intros d b. change (arc_at (put_arc h0 (mkArc (refs a) (ptr a) (sem a)) st) (d, b) = arcs st d b). rewrite arc_put. destruct (same_spec (d, b) h0) as [F | _]; [|reflexivity].
      unfold h0 in F. injection F as -> ->. unfold a. destruct (arcs st c s); reflexivity. }
    intros Q.
    assert (PT : forall h, pt (set_w (WTake c s k) (put_arc h0 (mkArc (refs a) (ptr a) (sem a)) st)) h = pt (set_w (WTake c s k) st) h).
    { intros h. unfold pt, arc_at. exact (f_equal ptr (X (fst h) (snd h))). }
    apply (writer_inv NoSem _ _ Q); [reflexivity| | | | |].
    + refine (keeps_str _ _ _ (i_str _ _ Q)). repeat (split; [reflexivity|]). intros h. symmetry. apply PT.
    + intros h A. pose proof (i_cnt _ _ Q h A) as CQ. unfold arc_at in CQ |- *. change (arcs (set_w ?p ?x)) with (arcs x) in CQ. rewrite X in CQ. exact CQ.
    + intros h H. split; [exact (i_good _ _ Q h H)|]. symmetry. apply PT.
    + discriminate.
    + intros h H. exact (i_post _ _ Q h H).
Qed.

(** 6. *)
Lemma w_take cfg st c s k : inv cfg st -> w st = WTake c s k -> match write_step cfg st with Next st' => inv cfg st' | _ => False end.
Proof.
  intros V W. pose proof (i_str _ _ V) as S. pose proof (s_w _ S) as WI. unfold winv in WI. rewrite W in WI.
  assert (NW : forall a b d, w st <> WWait a b d) by (intros a b d; rewrite W; discriminate).
  assert (AL : alive st c = true).
  { destruct k as [n|x nx|x nx]; [destruct WI as (KI & _); exact (kinv_alive _ _ _ S KI)|destruct WI as (KI & _); exact (kinv_alive _ _ _ S KI)|].
    destruct WI as (-> & _ & _ & D). apply D. }
  unfold write_step. rewrite W, AL. cbn zeta. set (h0 := (c, s)) in *. set (a := arcs st c s).
  assert (NN : ptr a <> NULL).
  { change (pt st h0 <> NULL). destruct k as [n|x nx|x nx]; apply WI. }
  set (w' := match k with KAppend _ => WIdle | KRemove x nx => WFix x nx | KDestroy x nx => WDestroy x nx end).
  assert (OI : own st h0 = false).
  { unfold own, h0. rewrite W. cbn [fst snd]. destruct k as [n|x nx|x nx]; [destruct WI as (_ & -> & _); destruct s; reflexivity|destruct WI as (_ & -> & _); destruct s; reflexivity|].
    rewrite Nat.eqb_refl. reflexivity. }
  assert (HZ : forall h, 0 < holders st h -> h <> h0) by (intros h H ->; destruct (held_own cfg st h0 V NW H) as (_ & O); congruence).
  assert (MAIN : inv cfg (set_w w' (put_arc h0 (mkArc (refs a) NULL (sem a)) st))).
  { set (st' := set_w w' _).
    assert (AT : forall h, arc_at st' h = if same h h0 then mkArc (refs a) NULL (sem a) else arc_at st h) by (intros h; exact (arc_put st h0 _ h)).
    assert (PT : forall h, h <> h0 -> pt st' h = pt st h) by (intros h N; unfold pt; rewrite AT, (same_neq _ _ N); reflexivity).
    assert (OW : forall h, own st' h = own st h).
    { intros h. unfold own. change (w st') with w'. change (active st') with (active st). rewrite W. unfold w'. destruct k as [n|x nx|x nx]; [reflexivity|reflexivity|].
      destruct WI as (-> & _). reflexivity. }
    assert (PO : forall h, own st h = true -> pt st' h = pt st h) by (intros h O; apply PT; intros ->; congruence).
    assert (PA : forall d, (forall x nx, k = KDestroy x nx -> d <> x) -> pt st' (act st d) = pt st (act st d)).
    { intros d H. apply PO. unfold own, act. rewrite W. cbn [fst snd]. rewrite Bool.eqb_reflx. destruct k as [n|x nx|x nx]; [reflexivity|reflexivity|].
      rewrite andb_true_r. apply negb_true_iff, Nat.eqb_neq. destruct WI as (-> & _). exact (H x nx eq_refl). }
    assert (RM : rem w' = rem (w st)) by (rewrite W; unfold w'; destruct k; reflexivity).
    assert (UN : forall n, unlinked w' n = unlinked (w st) n) by (intros n; rewrite W; unfold w'; destruct k; reflexivity).
    apply (writer_quiet cfg st st' V NW); [intros; change (w st') with w'; unfold w'; destruct k; discriminate|reflexivity| | | |].
    - constructor.
      + apply S.
      + exact (s_fresh _ S).
      + exact (s_self _ S).
      + intros h A. rewrite OW. intros O. rewrite (PO h O). exact (s_ptr _ S h A O).
      + intros h n A. rewrite OW. intros O. rewrite (PO h O). change (w st') with w'. rewrite RM. exact (s_node _ S h n A O).
      + intros n A N1 N2. change (w st') with w'. rewrite UN. change (self st') with (self st). change (act st') with (act st). intros U. rewrite PA; [exact (s_list _ S n A N1 N2 U)|].
        intros x nx ->. destruct WI as (_ & _ & _ & D). apply D; [exact A|exact N1].
      + change (tail st') with (tail st). change (act st') with (act st). rewrite PA; [exact (s_tail _ S)|]. intros x nx ->. destruct WI as (_ & _ & _ & D). apply D.
      + unfold winv. change (w st') with w'. unfold w'. destruct k as [n|x nx|x nx]; [exact I| |].
        * assert (PA' : forall d, pt st' (act st d) = pt st (act st d)) by (intros d; apply PA; discriminate).
          destruct WI as (KI & AC & PV & ST). destruct KI as (K1 & K2 & K3 & K4 & K5). split.
          -- split; [exact K1|]. split; [exact K2|]. split; [reflexivity|]. split; [exact (eq_trans (PA' x) K4)|exact K5].
          -- change (self st') with (self st). change (act st') with (act st). rewrite PA', K3. unfold act. rewrite AC. exact PV.
        * destruct WI as (_ & _ & _ & D). revert D. apply dinv_ext; try reflexivity; [|exact S]. intros d N. apply PA. intros x' nx' E. injection E as <- <-. exact N.
    - intros h A. rewrite OW, AT. destruct (same_spec h h0) as [-> |]; [exact (i_cnt _ _ V h0 AL)|exact (i_cnt _ _ V h A)].
    - intros h H. destruct (held_own cfg st h V NW H) as (A & O). split; [exact A|]. split; [rewrite OW; exact O|exact (PO h O)].
    - intros h A. left. split; [exact A|]. rewrite AT. destruct (same_spec h h0) as [-> |]; reflexivity. }
  destruct (ptr a); [contradiction| |]; exact MAIN.
Qed.

(** 7. *)
Lemma w_fix cfg st x nx : inv cfg st -> w st = WFix x nx -> match write_step cfg st with Next st' => inv cfg st' | _ => False end.
Proof.
  intros V W. pose proof (i_str _ _ V) as S. pose proof (s_w _ S) as WI. unfold winv in WI. rewrite W in WI. destruct WI as ((K1 & K2 & _ & K4 & K5) & PV).
  assert (NW : forall a b d, w st <> WWait a b d) by (intros a b d; rewrite W; discriminate).
  assert (OA : forall d, own st (act st d) = true) by (intros d; unfold own, act; rewrite W; apply Bool.eqb_reflx).
  assert (STL : stale st (x, active st x)).
  { split; [exact (s_ptr _ S (act st x) K2 (OA x))|]. intros n E. destruct (s_node _ S (act st x) n K2 (OA x) E) as (B & C & _). split; assumption. }
  destruct (s_self _ S x K2 K1) as (SA & SL).
  assert (NS : forall n, alive st n = true -> 1 <= n -> self st n = x -> nx = NODE n).
  { intros n A N1 E. assert (SN : self st n < n) by (apply (s_self _ S n A N1)).
    rewrite <- K4, <- E. apply (s_list _ S n A N1); [lia|]. rewrite W. cbn [unlinked]. apply Nat.eqb_neq. lia. }
  assert (TX : forall p, nx = NODE p -> tail st <> x).
  { intros p -> E. destruct (s_tail _ S) as (_ & T). rewrite E in T. rewrite (T K1) in K4. discriminate. }
  unfold write_step. rewrite W. destruct nx as [| |p].
  - destruct (s_ptr _ S (act st x) K2 (OA x) K4).
  - rewrite K2. set (st' := set_w _ _).
    assert (OW : forall h, own st' h = own st h) by (intros h; unfold own, st'; rewrite W; reflexivity).
    apply (writer_quiet cfg st st' V NW); [discriminate|reflexivity| | | |].
    + constructor.
      * apply S.
      * exact (s_fresh _ S).
      * exact (s_self _ S).
      * intros h A. rewrite OW. exact (s_ptr _ S h A).
      * intros h n A. rewrite OW. intros O E. pose proof (s_node _ S h n A O E) as Q. rewrite W in Q. exact Q.
      * intros n A N1 N2 U. apply (s_list _ S n A N1 N2). rewrite W. exact U.
      * split; [apply S|]. cbn. lia.
      * unfold winv. change (w st') with (WSub x (active st x) (KDestroy x RCU_NULL)). split; [reflexivity|]. split; [reflexivity|]. split; [exact STL|].
        split; [exact K1|]. split; [exact K2|]. split; [cbn; lia|]. split; [exact PV|]. split; [|exact I]. intros n A N1 E. discriminate (NS n A N1 E).
    + intros h A. rewrite OW. exact (i_cnt _ _ V h A).
    + intros h H. destruct (held_own cfg st h V NW H) as (A & O). split; [exact A|]. split; [rewrite OW; exact O|reflexivity].
    + intros h A. left. split; [exact A|reflexivity].
  - destruct (STL) as (_ & ST2). destruct (ST2 p K4) as (PA & PL). cbn [fst] in PL. rewrite K2, PA. cbn [andb]. set (st' := set_w _ _).
    assert (OW : forall h, own st' h = own st h) by (intros h; unfold own, st'; rewrite W; reflexivity).
    assert (SP : self st' p = self st x) by (unfold st'; cbn [self set_w set_self]; apply upd_eq).
    assert (SN : forall n, n <> p -> self st' n = self st n) by (intros n N; unfold st'; cbn [self set_w set_self]; apply upd_neq; exact N).
    apply (writer_quiet cfg st st' V NW); [discriminate|reflexivity| | | |].
    + constructor.
      * apply S.
      * exact (s_fresh _ S).
      * intros n A N1. change (alive st') with (alive st) in *. destruct (Nat.eq_dec n p) as [-> | N]; [rewrite SP; split; [exact SA|lia]|rewrite (SN n N); exact (s_self _ S n A N1)].
      * intros h A. rewrite OW. exact (s_ptr _ S h A).
      * intros h n A. rewrite OW. intros O E. pose proof (s_node _ S h n A O E) as (B & C & D). rewrite W in D. split; [exact B|]. split; [exact C|].
        assert (Q : forall q, q = n -> ((exists x', Some (x, NODE p) = Some (x', NODE q) /\ (fst h = x' \/ fst h = self st x')) -> exists x', rem (w st') = Some (x', NODE q) /\ (fst h = x' \/ fst h = self st' x'))).
        { intros q -> (x' & X1 & X2). injection X1 as <- <-. exists x. split; [reflexivity|]. rewrite (SN x) by lia. exact X2. }
        destruct D as [D | D]; [|right; exact (Q n eq_refl D)].
        destruct (Nat.eq_dec n p) as [-> | N]; [|left; rewrite (SN n N); exact D].
        right. apply (Q p eq_refl). exists x. split; [reflexivity|left; congruence].
      * intros n A N1 N2 U. change (pt st' ?h) with (pt st h). change (act st') with (act st). destruct (Nat.eq_dec n p) as [-> | N].
        -- rewrite SP. exact PV.
        -- rewrite (SN n N) in *. apply (s_list _ S n A N1 N2). rewrite W. exact U.
      * exact (s_tail _ S).
      * unfold winv. change (w st') with (WSub x (active st x) (KDestroy x (NODE p))). split; [reflexivity|]. split; [reflexivity|]. split; [exact STL|].
        split; [exact K1|]. split; [exact K2|]. split; [exact (TX p eq_refl)|]. split; [rewrite (SN x) by lia; exact PV|]. split.
        -- intros n A N1 E. destruct (Nat.eq_dec n p) as [-> | N]; [rewrite SP in E; lia|]. rewrite (SN n N) in E. specialize (NS n A N1 E). congruence.
        -- split; [exact PA|]. rewrite SP, (SN x) by lia. split; [reflexivity|exact PL].
    + intros h A. rewrite OW. exact (i_cnt _ _ V h A).
    + intros h H. destruct (held_own cfg st h V NW H) as (A & O). split; [exact A|]. split; [rewrite OW; exact O|reflexivity].
    + intros h A. left. split; [exact A|reflexivity].
Qed.

(** 8. *)
Lemma w_destroy cfg st x nx : inv cfg st -> w st = WDestroy x nx -> match write_step cfg st with Next st' => inv cfg st' | _ => False end.
Proof.
  intros V W. pose proof (i_str _ _ V) as S. pose proof (s_w _ S) as WI. unfold winv in WI. rewrite W in WI.
  assert (NW : forall a b d, w st <> WWait a b d) by (intros a b d; rewrite W; discriminate).
  pose proof WI as (D1 & D2 & _).
  assert (RZ : forall b, refs (arcs st x b) = 0).
  { intros b. pose proof (i_cnt _ _ V (x, b) D2) as C. assert (O : own st (x, b) = false) by (unfold own; rewrite W; cbn [fst]; rewrite Nat.eqb_refl; reflexivity).
    rewrite O in C. destruct (holders st (x, b)) eqn:H; [exact C|]. destruct (held_own cfg st (x, b) V NW) as (_ & Q); [lia|congruence]. }
  unfold write_step. rewrite W, D2, !RZ. cbn [Nat.eqb andb]. set (st' := set_w _ _).
  assert (OW : forall h, own st' h = own st h) by (intros h; unfold own, st'; rewrite W; reflexivity).
  apply (writer_quiet cfg st st' V NW); [discriminate|reflexivity| | | |].
  - constructor.
    + apply S.
    + exact (s_fresh _ S).
    + exact (s_self _ S).
    + intros h A. rewrite OW. exact (s_ptr _ S h A).
    + intros h n A. rewrite OW. intros O E. pose proof (s_node _ S h n A O E) as Q. rewrite W in Q. exact Q.
    + intros n A N1 N2 U. apply (s_list _ S n A N1 N2). rewrite W. exact U.
    + exact (s_tail _ S).
    + exact WI.
  - intros h A. rewrite OW. exact (i_cnt _ _ V h A).
  - intros h H. destruct (held_own cfg st h V NW H) as (A & O). split; [exact A|]. split; [rewrite OW; exact O|reflexivity].
  - intros h A. left. split; [exact A|reflexivity].
Qed.

(** 9. *)
Lemma w_free cfg st x nx : inv cfg st -> w st = WFree x nx -> match write_step cfg st with Next st' => inv cfg st' | _ => False end.
Proof.
  intros V W. pose proof (i_str _ _ V) as S. pose proof (s_w _ S) as WI. unfold winv in WI. rewrite W in WI.
  assert (NW : forall a b d, w st <> WWait a b d) by (intros a b d; rewrite W; discriminate).
  destruct WI as (D1 & D2 & D3 & D4 & D5 & D6). unfold write_step. rewrite W, D2. set (st' := set_w _ _).
  assert (LV : forall d, alive st' d = true -> alive st d = true /\ d <> x).
  { intros d. unfold st'. cbn [alive set_w set_alive]. unfold upd. destruct (Nat.eqb_spec d x); [discriminate|auto]. }
  assert (LV' : forall d, alive st d = true -> d <> x -> alive st' d = true).
  { intros d A N. unfold st'. cbn [alive set_w set_alive]. rewrite (upd_neq _ _ _ _ N). exact A. }
  assert (OW : forall h, fst h <> x -> own st' h = own st h).
  { intros h N. unfold own, st'. rewrite W. cbn [w set_w]. destruct (Nat.eqb_spec (fst h) x); [contradiction|reflexivity]. }
  assert (NX : forall n, nx = NODE n -> x < n /\ self st n = self st x) by (intros n ->; destruct D6 as (_ & B & C); auto).
  assert (PX : forall h, alive st (fst h) = true -> fst h <> x -> own st h = true -> pt st h <> NODE x).
  { intros h A N O E. destruct (s_node _ S h x A O E) as (_ & _ & D). rewrite W in D. destruct D as [D | (x' & D & _)].
    - assert (Q : h = act st (self st x)).
      { destruct h as (d & b). unfold own in O. rewrite W in O. cbn [fst snd] in *. apply andb_true_iff in O as (_ & O). apply Bool.eqb_prop in O. unfold act. rewrite D, O. reflexivity. }
      rewrite Q, D4 in E. destruct (NX x E). lia.
    - cbn in D. injection D as <- D. destruct (NX x D). lia. }
  apply (writer_quiet cfg st st' V NW); [discriminate|reflexivity| | | |].
  - constructor.
    + apply LV'; [apply S|lia].
    + intros c A. apply (s_fresh _ S). apply LV. exact A.
    + intros n A N1. destruct (LV n A) as (A' & N). destruct (s_self _ S n A' N1) as (B & C). split; [|exact C]. apply LV'; [exact B|exact (D5 n A' N1)].
    + intros h A. destruct (LV _ A) as (A' & N). rewrite (OW h N). exact (s_ptr _ S h A').
    + intros h n A. destruct (LV _ A) as (A' & N). rewrite (OW h N). intros O E. change (pt st' h) with (pt st h) in E. destruct (s_node _ S h n A' O E) as (B & C & D). rewrite W in D.
      split; [apply LV'; [exact B|intros ->; exact (PX h A' N O E)]|]. split; [exact C|]. left. destruct D as [D | (x' & D & D')]; [exact D|].
      cbn in D. injection D as <- D. destruct D' as [D' | D']; [contradiction|]. destruct (NX n D) as (_ & Q). change (self st' n) with (self st n). congruence.
    + intros n A N1 N2 _. destruct (LV n A) as (A' & N). apply (s_list _ S n A' N1 N2). rewrite W. cbn [unlinked]. apply Nat.eqb_neq. congruence.
    + destruct (s_tail _ S) as (T1 & T2). split; [|exact T2]. apply LV'; [exact T1|exact D3].
    + exact I.
  - intros h A. destruct (LV _ A) as (A' & N). rewrite (OW h N). exact (i_cnt _ _ V h A').
  - intros h H. destruct (held_own cfg st h V NW H) as (A & O).
    assert (N : fst h <> x) by (unfold own in O; rewrite W in O; apply andb_true_iff in O as (O & _); apply negb_true_iff, Nat.eqb_neq in O; exact O).
    split; [exact (LV' _ A N)|]. split; [rewrite (OW h N); exact O|reflexivity].
  - intros h A. left. destruct (LV _ A) as (A' & _). split; [exact A'|reflexivity].
Qed.

(** ** Adding and removing *)
Lemma append_ok cfg os st : inv cfg st -> w st = WIdle -> inv cfg (start_append os st).
Proof.
  intros V W. pose proof (i_str _ _ V) as S. assert (NW : forall a b d, w st <> WWait a b d) by (intros a b d; rewrite W; discriminate).
  set (n := fresh st). set (st' := start_append os st).
  assert (FN : alive st n = false) by (destruct (alive st n) eqn:A; [pose proof (s_fresh _ S n A); unfold n in *; lia|reflexivity]).
  assert (N1 : 1 <= n) by (pose proof (s_fresh _ S 0 (s_head _ S)); unfold n; lia).
  destruct (s_tail _ S) as (T1 & T2). pose proof (s_fresh _ S _ T1) as T3. fold n in T3.
  assert (LN : alive st' n = true) by (apply upd_eq).
  assert (LV : forall d, d <> n -> alive st' d = alive st d) by (intros d N; apply upd_neq; exact N).
  assert (SN : self st' n = tail st) by apply upd_eq. assert (SO : forall d, d <> n -> self st' d = self st d) by (intros d N; apply upd_neq; exact N).
  assert (AC : active st' n = false) by apply upd_eq. assert (AO : forall d, d <> n -> act st' d = act st d) by (intros d N; unfold act; f_equal; apply upd_neq; exact N).
  assert (AT : forall h, arc_at st' h = if fst h =? n then (if snd h then empty_arc else mkArc 1 RCU_NULL 0) else arc_at st h).
  { intros (d & b). unfold arc_at, st'. cbn [fst snd arcs start_append]. unfold upd_arc. cbn [fst snd]. fold n. destruct (Nat.eqb_spec d n) as [-> |]; [destruct b; reflexivity|reflexivity]. }
  assert (PO : forall h, fst h <> n -> pt st' h = pt st h) by (intros h N; unfold pt; rewrite AT; destruct (Nat.eqb_spec (fst h) n); [contradiction|reflexivity]).
  assert (OO : forall h, fst h <> n -> own st' h = own st h).
  { intros h N. unfold own. rewrite W. cbn [w st' start_append]. f_equal. exact (f_equal snd (AO _ N)). }
  assert (ON : forall b, own st' (n, b) = negb b) by (intros b; unfold own; cbn [w st' start_append fst snd]; change (active (start_append os st)) with (active st'); rewrite AC; destruct b; reflexivity).
  assert (HN : forall h, 0 < holders st h -> fst h <> n /\ alive st (fst h) = true /\ own st h = true).
  { intros h H. destruct (held_own cfg st h V NW H) as (A & O). split; [intros E; congruence|auto]. }
  apply (writer_quiet cfg st st' V NW); [discriminate|reflexivity| | | |].
  - constructor.
    + rewrite LV by lia. apply S.
    + intros c A. change (fresh st') with (Datatypes.S n). destruct (Nat.eq_dec c n) as [-> | N]; [lia|]. rewrite (LV c N) in A. pose proof (s_fresh _ S c A). fold n in H. lia.
    + intros m A M1. destruct (Nat.eq_dec m n) as [-> | N].
      * rewrite SN. split; [rewrite LV by lia; exact T1|lia].
      * rewrite (LV m N) in A. rewrite (SO m N). destruct (s_self _ S m A M1) as (B & C). split; [|exact C]. rewrite LV; [exact B|]. intros F. congruence.
    + intros h A O. destruct (Nat.eq_dec (fst h) n) as [E | N].
      * destruct h as (d & b). cbn [fst] in E. subst d. rewrite ON in O. unfold pt. rewrite AT. cbn [fst snd]. rewrite Nat.eqb_refl. destruct b; discriminate.
      * rewrite (LV _ N) in A. rewrite (OO h N) in O. rewrite (PO h N). exact (s_ptr _ S h A O).
    + intros h m A O E. destruct (Nat.eq_dec (fst h) n) as [F | N].
      * destruct h as (d & b). cbn [fst] in F. subst d. rewrite ON in O. unfold pt in E. rewrite AT in E. cbn [fst snd] in E. rewrite Nat.eqb_refl in E. destruct b; discriminate.
      * rewrite (LV _ N) in A. rewrite (OO h N) in O. rewrite (PO h N) in E. destruct (s_node _ S h m A O E) as (B & C & D). rewrite W in D.
        assert (M : m <> n) by (intros ->; congruence). rewrite (LV m M), (SO m M). split; [exact B|]. split; [exact C|]. destruct D as [D | (x & D & _)]; [left; exact D|discriminate].
    + intros m A M1 M2 U. cbn [unlinked w st' start_append] in U. fold n in U. apply Nat.eqb_neq in U. assert (M : m <> n) by congruence.
      rewrite (LV m M) in A. rewrite (SO m M) in *. destruct (s_self _ S m A M1) as (B & _). assert (Q : self st m <> n) by (intros E; congruence).
      rewrite (AO _ Q), (PO (act st (self st m)) Q). apply (s_list _ S m A M1 M2). rewrite W. reflexivity.
    + change (tail st') with n. split; [exact LN|]. intros _. unfold pt. rewrite AT. unfold act. cbn [fst snd]. rewrite Nat.eqb_refl, AC. reflexivity.
    + unfold winv. change (w st') with (WLoad (tail st) (NODE n) (KAppend n)). split; [|reflexivity]. split; [exact N1|]. split; [exact LN|]. split; [exact SN|]. split; [reflexivity|]. split; [reflexivity|].
      intros m A M1 M2 E. destruct (Nat.eq_dec m n) as [F | M]; [exact F|]. exfalso. rewrite (LV m M) in A. rewrite (SO m M) in E.
      assert (Q : pt st (act st (self st m)) = NODE m) by (apply (s_list _ S m A M1); [lia|rewrite W; reflexivity]). rewrite E, (T2 M2) in Q. discriminate.
  - intros h A. rewrite AT. destruct (Nat.eqb_spec (fst h) n) as [E | N].
    + assert (Z : holders st h = 0) by (destruct (holders st h) eqn:H; [reflexivity|]; destruct (HN h); [lia|contradiction]).
      destruct h as (d & b). cbn [fst snd] in *. subst d. rewrite ON, Z. destruct b; reflexivity.
    + rewrite (OO h N). rewrite (LV _ N) in A. exact (i_cnt _ _ V h A).
  - intros h H. destruct (HN h H) as (N & A & O). split; [rewrite (LV _ N); exact A|]. split; [rewrite (OO h N); exact O|exact (PO h N)].
  - intros h A. rewrite AT. destruct (Nat.eqb_spec (fst h) n) as [E | N]; [right; destruct (snd h); reflexivity|left]. rewrite (LV _ N) in A. split; [exact A|reflexivity].
Qed.

Lemma remove_ok cfg st n : inv cfg st -> w st = WIdle -> registered st n -> match start_remove n st with Next st' => inv cfg st' | _ => False end.
Proof.
  intros V W (N1 & A & _). pose proof (i_str _ _ V) as S. assert (NW : forall a b d, w st <> WWait a b d) by (intros a b d; rewrite W; discriminate).
  assert (OA : own st (act st n) = true) by (unfold own, act; rewrite W; apply Bool.eqb_reflx).
  pose proof (s_ptr _ S (act st n) A OA) as NN. pose proof (fun m => s_node _ S (act st n) m A OA) as ND. unfold start_remove. rewrite A.
  change (ptr (arcs st n (active st n))) with (pt st (act st n)). destruct (pt st (act st n)) as [| |p] eqn:P; [contradiction| |];
    (set (st' := set_w _ _); assert (OW : forall h, own st' h = own st h) by (intros h; unfold own, st'; rewrite W; reflexivity);
     apply (writer_quiet cfg st st' V NW); [discriminate|reflexivity| | | |];
     [constructor;
       [apply S|exact (s_fresh _ S)|exact (s_self _ S)|intros h B; rewrite OW; exact (s_ptr _ S h B)
       |intros h m B; rewrite OW; intros O E; pose proof (s_node _ S h m B O E) as (Q1 & Q2 & Q3); rewrite W in Q3; (split; [exact Q1|split; [exact Q2|left; destruct Q3 as [Q3 | (x & Q3 & _)]; [exact Q3|discriminate]]])
       |intros m B M1 M2 _; apply (s_list _ S m B M1 M2); rewrite W; reflexivity|exact (s_tail _ S)|]
     |intros h B; rewrite OW; exact (i_cnt _ _ V h B)
     |intros h H; destruct (held_own cfg st h V NW H) as (B & O); split; [exact B|]; split; [rewrite OW; exact O|reflexivity]
     |intros h B; left; split; [exact B|reflexivity]]).
  - split; [|reflexivity]. split; [exact N1|]. split; [exact A|]. split; [reflexivity|]. split; [exact P|exact I].
  - split; [|reflexivity]. split; [exact N1|]. split; [exact A|]. split; [reflexivity|]. split; [exact P|].
    destruct (ND p eq_refl) as (_ & _ & D). rewrite W in D. destruct D as [D | (x & D & _)]; [exact D|discriminate].
Qed.

Lemma write_ok cfg st : cfg <> Spin -> inv cfg st ->
  match write_step cfg st with
  | Next st' => inv cfg st'
  | Blocked => w st = WIdle \/ exists c s k, w st = WWait c s k /\ (0 < holders st (c, s) \/ 0 < posts st (c, s))
  | Bad => False
  end.
Proof.
  intros NS V. destruct (w st) as [|c v k|c i v k|c i v k|c s k|c s k|c s k|x nx|x nx|x nx] eqn:W.
  - unfold write_step. rewrite W. left. reflexivity.
  - pose proof (w_load cfg st c v k V W) as Q. destruct (write_step cfg st); try contradiction; exact Q.
  - pose proof (w_refs cfg st c i v k V W) as Q. destruct (write_step cfg st); try contradiction; exact Q.
  - pose proof (w_swap cfg st c i v k V W) as Q. destruct (write_step cfg st); try contradiction; exact Q.
  - pose proof (w_sub cfg st c s k V W) as Q. destruct (write_step cfg st); try contradiction; exact Q.
  - pose proof (w_wait cfg st c s k NS V W) as Q. destruct (write_step cfg st); try contradiction; [exact Q|]. right. exists c, s, k. split; [reflexivity|exact Q].
  - pose proof (w_take cfg st c s k V W) as Q. destruct (write_step cfg st); try contradiction; exact Q.
  - pose proof (w_fix cfg st x nx V W) as Q. destruct (write_step cfg st); try contradiction; exact Q.
  - pose proof (w_destroy cfg st x nx V W) as Q. destruct (write_step cfg st); try contradiction; exact Q.
  - pose proof (w_free cfg st x nx V W) as Q. destruct (write_step cfg st); try contradiction; exact Q.
Qed.

Lemma step_ok cfg e st : cfg <> Spin -> inv cfg st -> allowed st e -> match step cfg e st with Next st' => inv cfg st' | Blocked => True | Bad => False end.
Proof.
  intros NS V AL. destruct e as [i|i| |os|n]; cbn [step].
  - destruct (nth_error (rs st) i) as [[p l]|] eqn:E; [|exact I]. destruct p; try exact I.
    refine (quiet cfg st i _ _ V E _ _ _ _ _ (keeps_refl_rs _ _) (fun h => eq_refl) eq_refl); reflexivity.
  - destruct (nth_error (rs st) i) as [r|] eqn:E; [|exact I]. pose proof (read_ok cfg st i r NS V E) as Q. destruct (read_step cfg i r st); [exact Q|exact I|exact Q].
  - pose proof (write_ok cfg st NS V) as Q. destruct (write_step cfg st); [exact Q|exact I|exact Q].
  - destruct (w st) eqn:W; try exact I. exact (append_ok cfg os st V W).
  - destruct (w st) eqn:W; try exact I. pose proof (remove_ok cfg st n V W AL) as Q. destruct (start_remove n st); [exact Q|exact I|exact Q].
Qed.

Lemma total_idle f n : f Idle = 0 -> total f (repeat (mkReader Idle []) n) = 0.
Proof. intros Z. unfold total, list_sum. induction n as [|n IH]; cbn [repeat map fold_right]; [reflexivity|]. cbn [pc]. rewrite Z. exact IH. Qed.

Lemma init_inv cfg n : inv cfg (init n).
Proof.
  assert (H : forall h, holders (init n) h = 0) by (intros h; apply total_idle; reflexivity).
  assert (P : forall h, posts (init n) h = 0) by (intros h; apply total_idle; reflexivity).
  assert (AR : forall h, arc_at (init n) h = if (fst h =? 0) && negb (snd h) then mkArc 1 RCU_NULL 0 else empty_arc) by reflexivity.
  constructor.
  - constructor.
    + reflexivity.
    + intros c A. cbn in A. apply Nat.eqb_eq in A. subst c. cbn. lia.
    + intros m A M. cbn in A. apply Nat.eqb_eq in A. lia.
    + intros (d & b) A O. cbn in A. apply Nat.eqb_eq in A. subst d. destruct b; [discriminate|]. discriminate.
    + intros (d & b) m A O E. cbn in A. apply Nat.eqb_eq in A. subst d. destruct b; discriminate.
    + intros m A M. cbn in A. apply Nat.eqb_eq in A. lia.
    + split; [reflexivity|]. cbn. lia.
    + exact I.
  - intros (d & b) A. rewrite H. cbn in A. apply Nat.eqb_eq in A. subst d. destruct b; reflexivity.
  - intros h G. rewrite H in G. lia.
  - intros _ h A. rewrite P, AR. destruct ((fst h =? 0) && negb (snd h)); reflexivity.
  - intros h G. rewrite P in G. lia.
  - intros r I. apply repeat_spec in I. subst r. exact Logic.I.
Qed.

Lemma runs_inv cfg (ok : state -> event -> Prop) : cfg <> Spin -> (forall st e, ok st e -> allowed st e) -> forall st es st', runs_to cfg ok st es st' -> inv cfg st -> inv cfg st'.
Proof.
  intros NS OK st es st' R. induction R as [|st e st1 es st2 AL E R IH]; intros V; [exact V|]. apply IH. pose proof (step_ok cfg e st NS V (OK _ _ AL)) as Q. rewrite E in Q. exact Q.
Qed.
Lemma orderly_allowed st e : orderly st e -> allowed st e.
Proof. destruct e; cbn; try exact (fun _ => I). intros (R & _). exact R. Qed.
Lemma reach_inv cfg n st : cfg <> Spin -> reachable cfg n st -> inv cfg st.
Proof. intros NS (es & R). exact (runs_inv cfg allowed NS (fun _ _ H => H) _ _ _ R (init_inv cfg n)). Qed.
