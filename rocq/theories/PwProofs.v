From Coq Require Import List ZArith NArith Arith Bool Lia ZifyBool ZifyNat ZifyN.
From Coq Require Import Init.Byte.
From Coq Require Strings.Byte.
From Verif Require Import TrieModel TrieSpec TrieRefine PwModel PwSpec.
Import ListNotations.

Lemma byte_of_value n : Byte.to_N (byte_of n) = (n mod 256)%N.
Proof.
  unfold byte_of. pose proof (N.mod_upper_bound n 256 ltac:(lia)).
  destruct (Byte.of_N (n mod 256)) as [b|] eqn:E; [now apply Byte.to_of_N|].
  apply Byte.of_N_None_iff in E. lia.
Qed.

Section Proofs.
Variable account : Type.
Variable omax : nat.
Hypothesis Homax : 1 <= omax.

Definition prefix_free_keys (K : key -> Prop) : Prop :=
  (forall k, K k -> k <> []) /\ (forall a b, K a -> K b -> prefix a b -> a = b).

(** What a leaf says agrees with [P]. *)
Definition agrees (P : key -> option account) (st : list account) (e : entry) : Prop :=
  e_val e = 0%N \/ (e_val e = MISSING /\ P (e_key e) = None) \/
  (exists i x, e_val e = pointer i /\ nth_error st i = Some x /\ P (e_key e) = Some x).

Definition Tinv (K : key -> Prop) (P : key -> option account) (st : list account) (tr : trie) (es : list entry) : Prop :=
  Inv omax tr es /\ (forall e, In e es -> K (e_key e)) /\ (forall e, In e es -> agrees P st e).

Definition keeps (es es' : list entry) : Prop := forall e, In e es -> e_val e <> 0%N -> In e es'.

Definition no_mem (a : allocs) : Prop := a_leaf a = false \/ (exists n, a_jump a n = false) \/ a_node a = false.

Lemma insert_case K P st tr es a k : prefix_free_keys K -> Tinv K P st tr es -> K k ->
  exists tr' es' r, insert_mem omax a tr k = (tr', r) /\ Tinv K P st tr' es' /\ keeps es es' /\ keeps es' es /\
    ((exists e, r = Found (to_leaf e) /\ In e es' /\ e_key e = k /\ (forall e0, In e0 es -> e_key e0 = k -> e = e0)) \/
     (r = Null /\ no_mem a /\ forall e0, In e0 es -> e_key e0 <> k)).
Proof.
  intros (NE & PF) (I & KE & A) KK.
  destruct (insert_mem_ok omax Homax a tr es k I) as (tr' & es' & r & E & I' & S & FD & NL).
  exists tr', es', r. split; [exact E|].
  assert (NC : forall e0, In e0 es -> e_key e0 = k -> ~ compatible es k).
  { intros e0 I0 E0 C. destruct (C e0 I0) as (X & _). apply X. rewrite E0. apply prefix_refl. }
  assert (INV : (exists e, In e es /\ e_key e = k /\ es' = es /\ out_of r = RLeaf (e_id e) k) \/
    (exists id, es' = es ++ [TrieSpec.Entry id k 0%N] /\ compatible es k /\ out_of r = RLeaf id k) \/
    (es' = es /\ compatible es k /\ no_mem a /\ out_of r = RNull) \/ k = [] \/
    (exists e, In e es /\ (prefix (e_key e) k \/ prefix k (e_key e)) /\ e_key e <> k)).
  { clear -S. inversion S; subst; unfold no_mem.
    - left. exists e. auto.
    - right. left. exists id. auto.
    - right. right. left. auto.
    - right. right. right. left. auto.
    - right. right. right. right. exists e. auto.
    - right. right. right. right. exists e. auto. }
  clear S. destruct INV as [(e & IE & EK & -> & O)|[(id & -> & C & O)|[(-> & C & RF & O)|[->|(e & IE & PX & NEQ)]]]].
  - (* there already *)
    destruct r as [l| |]; try discriminate. destruct (FD l eq_refl) as (e' & IE' & <-).
    cbn in O. assert (E2 : e_key e' = k) by congruence.
    split; [split; auto|]. do 2 (split; [intros x X _; exact X|]). left. exists e'. split; [reflexivity|]. split; [auto|]. split; [auto|].
    intros e0 I0 E0. apply (Inv_unique omax Homax tr' es); auto. rewrite E0, E2. apply prefix_refl.
  - (* new *)
    destruct r as [l| |]; try discriminate. destruct (FD l eq_refl) as (e' & IE' & <-).
    cbn in O. assert (E2 : e_key e' = k) by congruence.
    split.
    { split; [exact I'|]. split.
      - intros e X. apply in_app_or in X. destruct X as [X|[<-|[]]]; auto.
      - intros e X. apply in_app_or in X. destruct X as [X|[<-|[]]]; auto. left. reflexivity. }
    split; [intros x X _; apply in_or_app; auto|].
    split; [intros x X NZ; apply in_app_or in X; destruct X as [X|[<-|[]]]; [exact X|now contradiction NZ]|]. left. exists e'. split; [reflexivity|]. split; [auto|]. split; [auto|].
    intros e0 I0 E0. exfalso. eapply NC; eauto.
  - destruct r as [l| |]; try discriminate. split; [split; auto|]. do 2 (split; [intros x X _; exact X|]).
    right. split; [reflexivity|]. split; [exact RF|]. intros e0 I0 E0. eapply NC; eauto.
  - exfalso. exact (NE [] KK eq_refl).
  - exfalso. apply NEQ. destruct PX as [PX|PX]; [|symmetry]; apply PF; auto.
Qed.

Definition set_id (i : nat) (v : N) (es : list entry) : list entry :=
  map (fun e => if Nat.eqb (e_id e) i then TrieSpec.Entry (e_id e) (e_key e) v else e) es.

Lemma set_leaf_inv K P st st' tr es e v : Tinv K P st tr es -> In e es ->
  (forall x, In x es -> e_id x <> e_id e -> agrees P st' x) ->
  agrees P st' (TrieSpec.Entry (e_id e) (e_key e) v) -> e_val e = 0%N ->
  Tinv K P st' (set_leaf tr (to_leaf e) v) (set_id (e_id e) v es) /\ keeps es (set_id (e_id e) v es) /\
  In (TrieSpec.Entry (e_id e) (e_key e) v) (set_id (e_id e) v es).
Proof.
  intros (I & KE & A) IE A' AV V0. destruct I as (Ho & Ht & Hv & ND).
  assert (UN : forall x, In x es -> e_id x = e_id e -> x = e).
  { clear -ND IE. induction es as [|y es IH]; intros x I E; [easy|]. cbn in ND. inversion ND as [|? ? M N]; subst.
    destruct IE as [->|IE], I as [->|I]; auto.
    - exfalso. apply M. rewrite <- E. now apply in_map.
    - exfalso. apply M. rewrite E. now apply in_map. }
  split; [|split].
  - split; [split; [|split; [|split]]|split].
    + cbn. rewrite Ho. unfold set_id. rewrite map_map. apply map_ext. intros x. now destruct (Nat.eqb (e_id x) (e_id e)).
    + exact Ht.
    + intros x X. unfold set_id in X. apply in_map_iff in X. destruct X as (y & E & IY). destruct (Hv y IY) as (H1 & H2).
      cbn. destruct (Nat.eqb_spec (e_id y) (e_id e)) as [EY|NY]; subst x; cbn.
      * rewrite EY, Nat.eqb_refl. split; [congruence|reflexivity].
      * destruct (Nat.eqb_spec (e_id y) (e_id e)); [contradiction|]. auto.
    + unfold set_id. rewrite map_map. erewrite map_ext; [exact ND|]. intros x. cbn. now destruct (Nat.eqb (e_id x) (e_id e)).
    + intros x X. unfold set_id in X. apply in_map_iff in X. destruct X as (y & E & IY).
      destruct (Nat.eqb (e_id y) (e_id e)); subst x; cbn; auto.
    + intros x X. unfold set_id in X. apply in_map_iff in X. destruct X as (y & E & IY).
      destruct (Nat.eqb_spec (e_id y) (e_id e)) as [EY|NY]; subst x; auto.
      rewrite (UN y IY EY). exact AV.
  - intros x X NX. unfold set_id. apply in_map_iff. exists x. split; [|auto].
    destruct (Nat.eqb_spec (e_id x) (e_id e)) as [EX|]; [|reflexivity]. rewrite (UN x X EX) in NX. congruence.
  - unfold set_id. apply in_map_iff. exists e. rewrite Nat.eqb_refl. auto.
Qed.

Lemma agrees_app P st x e : agrees P st e -> agrees P (st ++ [x]) e.
Proof.
  intros [A|[A|(i & y & V & N & E)]]; [left; auto|right; left; auto|]. right. right. exists i, y.
  split; [auto|]. split; [|auto]. rewrite nth_error_app1; [auto|]. apply nth_error_Some. congruence.
Qed.
Lemma Tinv_app K P st x tr es : Tinv K P st tr es -> Tinv K P (st ++ [x]) tr es.
Proof. intros (I & KE & A). split; [auto|]. split; [auto|]. intros e IE. apply agrees_app, A, IE. Qed.

(** What a definite answer means *)
Definition says (st : list account) (v : N) : option (result account) :=
  if N.eqb v 0 then None else if N.eqb v MISSING then Some Miss
  else match deref account st v with Some x => Some (Hit x) | None => None end.

Lemma deref_pointer st i : deref account st (pointer i) = nth_error st i.
Proof. unfold deref, pointer. f_equal. lia. Qed.

Lemma says_app st x v r : says st v = Some r -> says (st ++ [x]) v = Some r.
Proof.
  unfold says. destruct (N.eqb v 0); [easy|]. destruct (N.eqb v MISSING); [easy|]. unfold deref.
  destruct (nth_error st (N.to_nat (v - 2))) as [y|] eqn:E; [|easy]. intros <-.
  rewrite nth_error_app1; [now rewrite E|]. apply nth_error_Some. congruence.
Qed.

Lemma loop_ok K P st tr es e ask : Tinv K P st tr es -> In e es -> e_val e = 0%N ->
  faithful account (P (e_key e)) ask ->
  exists tr' st' r es', getent_loop account ask tr st (to_leaf e) = Some (tr', st', r) /\
    Tinv K P st' tr' es' /\ keeps es es' /\ (st' = st \/ exists x, st' = st ++ [x]) /\
    match r with
    | Hit x => P (e_key e) = Some x
    | Miss => P (e_key e) = None
    | Failed => In (Small false) ask \/ In Error ask
    end /\
    (r <> Failed -> exists e', In e' es' /\ e_key e' = e_key e /\ says st' (e_val e') = Some r).
Proof.
  intros T IE V0. induction ask as [|q ask IH]; intros (F1 & F2 & F3); [destruct F3 as (r & [] & _)|].
  cbn [getent_loop]. destruct q as [x| |[|]|].
  - assert (PX : P (e_key e) = Some x) by (apply F1; now left).
    destruct (set_leaf_inv K P st (st ++ [x]) tr es e (pointer (length st)) T IE) as (T' & KP & IN).
    + intros y IY _. apply agrees_app. apply T, IY.
    + right. right. exists (length st), x. cbn. split; [auto|]. split; [|exact PX].
      rewrite nth_error_app2, Nat.sub_diag by lia. reflexivity.
    + exact V0.
    + do 4 eexists. split; [reflexivity|]. split; [exact T'|]. split; [exact KP|]. split; [eauto|]. split; [exact PX|].
      intros _. eexists. split; [exact IN|]. split; [reflexivity|]. cbn [e_val]. unfold says.
      destruct (N.eqb_spec (pointer (length st)) 0); [unfold pointer in *; lia|].
      destruct (N.eqb_spec (pointer (length st)) MISSING); [unfold pointer, MISSING in *; lia|].
      rewrite deref_pointer, nth_error_app2, Nat.sub_diag by lia. reflexivity.
  - assert (PX : P (e_key e) = None) by (apply F2; now left).
    destruct (set_leaf_inv K P st st tr es e MISSING T IE) as (T' & KP & IN).
    + intros y IY _. apply T, IY.
    + right. left. auto.
    + exact V0.
    + do 4 eexists. split; [reflexivity|]. split; [exact T'|]. split; [exact KP|]. split; [eauto|]. split; [exact PX|].
      intros _. eexists. split; [exact IN|]. split; reflexivity.
  - destruct IH as (tr' & st' & r & es' & E & A & B & C & D & G).
    { split; [intros x I; apply F1; now right|]. split; [intros I; apply F2; now right|].
      destruct F3 as (r & [<-|I] & N); [congruence|]. eauto. }
    do 4 eexists. split; [exact E|]. split; [exact A|]. split; [exact B|]. split; [exact C|]. split; [|exact G].
    destruct r; auto. cbn. tauto.
  - do 4 eexists. split; [reflexivity|]. split; [exact T|]. split; [intros y Y _; exact Y|]. split; [auto|].
    split; [left; now left|]. congruence.
  - do 4 eexists. split; [reflexivity|]. split; [exact T|]. split; [intros y Y _; exact Y|]. split; [auto|].
    split; [right; now left|]. congruence.
Qed.

Lemma value_of K P st tr es e : Tinv K P st tr es -> In e es -> values tr (lid (to_leaf e)) = e_val e.
Proof. intros ((_ & _ & Hv & _) & _) IE. now apply Hv. Qed.

Lemma says_agrees P st e : agrees P st e -> e_val e <> 0%N ->
  exists r, says st (e_val e) = Some r /\ r <> Failed /\
    match r with Hit x => P (e_key e) = Some x | Miss => P (e_key e) = None | Failed => False end.
Proof.
  intros [A|[(A & B)|(i & x & A & B & C)]] NZ; [contradiction| |].
  - exists Miss. unfold says. rewrite A. split; [reflexivity|]. split; [discriminate|exact B].
  - exists (Hit x). unfold says. rewrite A.
    destruct (N.eqb_spec (pointer i) 0); [unfold pointer in *; lia|].
    destruct (N.eqb_spec (pointer i) MISSING); [unfold pointer, MISSING in *; lia|].
    rewrite deref_pointer, B. split; [reflexivity|]. split; [discriminate|exact C].
Qed.

Lemma getent_says mem ask tr st l v r : values tr (lid l) = v -> says st v = Some r ->
  bfs_getent account mem ask tr st l = Some (tr, st, r).
Proof.
  intros V E. unfold bfs_getent, says in *. rewrite V. destruct (N.eqb v 0); [discriminate|]. cbn.
  destruct (N.eqb v MISSING); [congruence|]. destruct (deref account st v); [congruence|discriminate].
Qed.

(** One lookup, in one of the tries *)
Definition lookup (a : allocs) (mem : bool) (ask : list (answer account)) (tr : trie) (st : list account) (k : key) :=
  match insert_mem omax a tr k with
  | (tr, Found l) => bfs_getent account mem ask tr st l
  | (tr, Null) => Some (tr, st, Failed)
  | (_, Assert) => None
  end.

Lemma lookup_ok K P st tr es a mem ask k : prefix_free_keys K -> Tinv K P st tr es -> K k ->
  faithful account (P k) ask ->
  exists tr' st' r es', lookup a mem ask tr st k = Some (tr', st', r) /\
    Tinv K P st' tr' es' /\ keeps es es' /\ (st' = st \/ exists x, st' = st ++ [x]) /\
    match r with
    | Hit x => P k = Some x
    | Miss => P k = None
    | Failed => no_mem a \/ mem = false \/ In (Small false) ask \/ In Error ask
    end /\
    (r <> Failed -> exists e', In e' es' /\ e_key e' = k /\ says st' (e_val e') = Some r).
Proof.
  intros PF T KK F. unfold lookup.
  destruct (insert_case K P st tr es a k PF T KK) as (tr1 & es1 & r1 & -> & T1 & KP & _ & [(e & -> & IE & EK & _)|(-> & NM & _)]).
  - pose proof (value_of K P st tr1 es1 e T1 IE) as V.
    destruct (N.eq_dec (e_val e) 0) as [V0|NZ].
    + unfold bfs_getent. rewrite V, V0. cbn [N.eqb negb]. destruct mem.
      * rewrite <- EK in F. destruct (loop_ok K P st tr1 es1 e ask T1 IE V0 F) as (tr' & st' & r & es' & E & A & B & C & D & G).
        rewrite E. exists tr', st', r, es'. split; [reflexivity|]. split; [exact A|]. split; [intros x X N; apply B; auto|].
        split; [exact C|]. rewrite EK in D. split; [destruct r; tauto|]. rewrite <- EK. exact G.
      * exists tr1, st, Failed, es1. do 4 (split; [auto|]). split; [tauto|]. congruence.
    + destruct (says_agrees P st e (proj2 (proj2 T1) e IE) NZ) as (r & S & NF & M).
      rewrite (getent_says _ _ _ _ _ _ _ V S). exists tr1, st, r, es1. do 4 (split; [auto|]).
      rewrite EK in M. split; [destruct r; tauto|]. intros _. exists e. auto.
  - exists tr1, st, Failed, es1. do 4 (split; [auto|]). split; [auto|]. congruence.
Qed.

(** A lookup of what is cached does not depend on the system. *)
Lemma lookup_again K P st tr es a mem ask k e r : prefix_free_keys K -> Tinv K P st tr es -> K k ->
  In e es -> e_key e = k -> says st (e_val e) = Some r ->
  exists tr', lookup a mem ask tr st k = Some (tr', st, r).
Proof.
  intros PF T KK IE EK S. unfold lookup.
  destruct (insert_case K P st tr es a k PF T KK) as (tr1 & es1 & r1 & -> & T1 & KP & _ & [(e' & -> & IE' & EK' & U)|(-> & NM & U)]).
  - rewrite (U e IE EK) in *. exists tr1.
    apply getent_says with (e_val e); [apply (value_of K P st tr1 es1); auto|exact S].
  - exfalso. eapply U; eauto.
Qed.

(** ** The two tries *)
Variable db : database account.

Definition Kn (k : key) : Prop := exists s, nul_free s /\ k = cstr s.
Definition Pn (k : key) : option account := named account db (removelast k).
Definition Ki (k : key) : Prop := length k = 4.
Definition decode (k : key) : N :=
  match k with
  | [a; b; c; d] => Byte.to_N a + 256 * (Byte.to_N b + 256 * (Byte.to_N c + 256 * Byte.to_N d))
  | _ => 0
  end%N.
Definition Pi (k : key) : option account := numbered account db (decode k).

Lemma Kn_ok : prefix_free_keys Kn.
Proof.
  split.
  - intros k (s & _ & ->) E. now destruct s.
  - intros a b (s & NS & ->) (t & NT & ->) (c & E). unfold cstr in *.
    destruct c as [|x c _] using rev_ind; [now rewrite app_nil_r in E|]. exfalso.
    rewrite app_assoc in E. apply app_inj_tail in E. destruct E as (E & _). apply NT. rewrite E.
    apply in_or_app. left. apply in_or_app. right. now left.
Qed.
Lemma Ki_ok : prefix_free_keys Ki.
Proof.
  split; [intros k L ->; discriminate|]. intros a b LA LB P. apply (prefix_eq_len omax); [lia|auto|]. unfold Ki in *. lia.
Qed.
Lemma Pn_cstr n : Pn (cstr n) = named account db n.
Proof. unfold Pn, cstr. now rewrite removelast_last. Qed.

Lemma Pi_key i : (i < 2 ^ 32)%N -> Pi (id_key i) = numbered account db i.
Proof.
  intros L. unfold Pi. f_equal. cbn [decode id_key]. rewrite !byte_of_value.
  assert (L3 : (i / 256 / 256 / 256 < 256)%N).
  { rewrite !N.div_div by lia. apply N.div_lt_upper_bound; [lia|]. exact L. }
  rewrite (N.mod_small _ _ L3).
  pose proof (N.div_mod i 256 ltac:(lia)). pose proof (N.div_mod (i / 256) 256 ltac:(lia)).
  pose proof (N.div_mod (i / 256 / 256) 256 ltac:(lia)). lia.
Qed.

Definition Cinv (c : cache account) (en ei : list entry) : Prop :=
  Tinv Kn Pn (store account c) (by_name account c) en /\ Tinv Ki Pi (store account c) (by_id account c) ei.

Lemma empty_Tinv K P st tr : root tr = None -> order tr = [] -> Tinv K P st tr [].
Proof.
  intros R O. split; [|split; easy]. split; [exact O|]. split; [rewrite R; exact O|]. split; [easy|constructor].
Qed.

Definition es_of (o : op account) (en ei : list entry) : list entry :=
  match o with ByName _ _ _ _ _ => en | _ => ei end.
Definition key_of (o : op account) : key :=
  match o with ByName _ _ _ _ n => cstr n | ById _ _ _ _ i => id_key i | Flush _ => [] end.
Definition is_flush (o : op account) : bool := match o with Flush _ => true | _ => false end.

Lemma run_name a mem ask n c : run account omax (ByName account a mem ask n) c =
  match lookup a mem ask (by_name account c) (store account c) (cstr n) with
  | Some (tr, st, r) => Some (mkCache account tr (by_id account c) st, r)
  | None => None
  end.
Proof.
  cbn. unfold lookup_name, lookup. destruct (insert_mem omax a (by_name account c) (cstr n)) as [tr [l| |]]; reflexivity.
Qed.
Lemma run_id a mem ask i c : run account omax (ById account a mem ask i) c =
  match lookup a mem ask (by_id account c) (store account c) (id_key i) with
  | Some (tr, st, r) => Some (mkCache account (by_name account c) tr st, r)
  | None => None
  end.
Proof.
  cbn. unfold lookup_id, lookup. destruct (insert_mem omax a (by_id account c) (id_key i)) as [tr [l| |]]; reflexivity.
Qed.

Lemma Tinv_store K P st st' tr es : Tinv K P st tr es -> (st' = st \/ exists x, st' = st ++ [x]) -> Tinv K P st' tr es.
Proof. intros T [->|(x & ->)]; [auto|now apply Tinv_app]. Qed.

Lemma step_ok c en ei o : Cinv c en ei -> valid account db o ->
  exists c' r en' ei', run account omax o c = Some (c', r) /\ Cinv c' en' ei' /\ correct account db o r /\
    (is_flush o = false -> keeps en en' /\ keeps ei ei' /\
       (store account c' = store account c \/ exists x, store account c' = store account c ++ [x]) /\
       (r <> Failed -> exists e, In e (es_of o en' ei') /\ e_key e = key_of o /\ says (store account c') (e_val e) = Some r)).
Proof.
  intros (TN & TI) V. destruct o as [a mem ask n|a mem ask i|].
  - destruct V as (NF & F). cbn [truth] in F. rewrite <- Pn_cstr in F.
    destruct (lookup_ok Kn Pn _ _ en a mem ask (cstr n) Kn_ok TN) as (tr' & st' & r & es' & E & A & B & C & D & G);
      [exists n; auto|exact F|].
    rewrite run_name, E. do 4 eexists. split; [reflexivity|]. cbn [store by_name by_id].
    split; [split; [exact A|eapply Tinv_store; eauto]|]. split.
    + unfold correct. cbn [truth]. rewrite Pn_cstr in D. destruct r; auto.
    + intros _. split; [exact B|]. split; [intros x X _; exact X|]. split; [exact C|exact G].
  - destruct V as (LI & F). cbn [truth] in F. rewrite <- Pi_key in F by exact LI.
    destruct (lookup_ok Ki Pi _ _ ei a mem ask (id_key i) Ki_ok TI) as (tr' & st' & r & es' & E & A & B & C & D & G);
      [reflexivity|exact F|].
    rewrite run_id, E. do 4 eexists. split; [reflexivity|]. cbn [store by_name by_id].
    split; [split; [eapply Tinv_store; eauto|exact A]|]. split.
    + unfold correct. cbn [truth]. rewrite Pi_key in D by exact LI. destruct r; auto.
    + intros _. split; [intros x X _; exact X|]. split; [exact B|]. split; [exact C|exact G].
  - exists (flush account c), Miss, [], []. split; [reflexivity|]. split.
    + split; apply empty_Tinv; reflexivity.
    + split; [reflexivity|discriminate].
Qed.

Lemma new_Cinv : Cinv (cache_new account) [] [].
Proof. split; apply empty_Tinv; reflexivity. Qed.

Lemma run_all_ok os : forall c en ei, Cinv c en ei -> Forall (valid account db) os ->
  exists c' rs, run_all account omax os c = Some (c', rs) /\ Forall2 (correct account db) os rs.
Proof.
  induction os as [|o os IH]; intros c en ei I V; [cbn; eauto|]. inversion V as [|? ? V1 V2]; subst.
  destruct (step_ok c en ei o I V1) as (c1 & r & en1 & ei1 & E & I1 & C & _).
  destruct (IH c1 en1 ei1 I1 V2) as (c2 & rs & E2 & C2).
  cbn [run_all]. rewrite E, E2. eauto.
Qed.

Lemma history_Cinv c : history account omax db c -> exists en ei, Cinv c en ei.
Proof.
  induction 1 as [|c o c' r H (en & ei & I) V E]; [exists [], []; apply new_Cinv|].
  destruct (step_ok c en ei o I V) as (c1 & r1 & en1 & ei1 & E1 & I1 & _). rewrite E in E1. injection E1 as <- <-. eauto.
Qed.

Lemma says_store st st' v r : says st v = Some r -> (st' = st \/ exists x, st' = st ++ [x]) -> says st' v = Some r.
Proof. intros S [->|(x & ->)]; [auto|now apply says_app]. Qed.
Lemma says_nonzero st v r : says st v = Some r -> v <> 0%N.
Proof. unfold says. intros S ->. discriminate. Qed.

Lemma run_all_keeps os : forall c en ei, Cinv c en ei -> Forall (valid account db) os -> existsb is_flush os = false ->
  forall c' rs, run_all account omax os c = Some (c', rs) ->
  exists en' ei', Cinv c' en' ei' /\ keeps en en' /\ keeps ei ei' /\
    (forall v r, says (store account c) v = Some r -> says (store account c') v = Some r).
Proof.
  induction os as [|o os IH]; intros c en ei I V NF c' rs E.
  - cbn in E. injection E as <- <-. exists en, ei. split; [auto|]. split; [intros x X _; auto|]. split; [intros x X _; auto|auto].
  - inversion V as [|? ? V1 V2]; subst. cbn [existsb] in NF. apply orb_false_iff in NF. destruct NF as (NF1 & NF2).
    destruct (step_ok c en ei o I V1) as (c1 & r & en1 & ei1 & E1 & I1 & C & KP).
    destruct (KP NF1) as (K1 & K2 & ST & _). cbn [run_all] in E. rewrite E1 in E.
    destruct (run_all account omax os c1) as [[c2 rs2]|] eqn:E2; [|discriminate]. injection E as <- <-.
    destruct (IH c1 en1 ei1 I1 V2 NF2 c2 rs2 E2) as (en2 & ei2 & I2 & K3 & K4 & S2).
    exists en2, ei2. split; [auto|]. split; [intros x X Z; auto|]. split; [intros x X Z; auto|].
    intros v w S. apply S2. eapply says_store; eauto.
Qed.

Lemma again_ok c o c1 r os c2 rs o' : history account omax db c -> valid account db o ->
  run account omax o c = Some (c1, r) -> r <> Failed ->
  Forall (valid account db) os -> existsb is_flush os = false -> run_all account omax os c1 = Some (c2, rs) ->
  same_lookup account o o' -> exists c3, run account omax o' c2 = Some (c3, r).
Proof.
  intros H V E NF VS FS ES SL. destruct (history_Cinv c H) as (en & ei & I).
  destruct (step_ok c en ei o I V) as (c1' & r' & en1 & ei1 & E1 & I1 & C & KP). rewrite E in E1. injection E1 as <- <-.
  assert (FL : is_flush o = false) by (destruct o; cbn in *; [reflexivity|reflexivity|contradiction]).
  destruct (KP FL) as (_ & _ & _ & G). destruct (G NF) as (e & IE & EK & S).
  destruct (run_all_keeps os c1 en1 ei1 I1 VS FS c2 rs ES) as (en2 & ei2 & (TN & TI) & K1 & K2 & S2).
  pose proof (says_nonzero _ _ _ S) as NZ. apply S2 in S.
  destruct o as [a mem ask n|a mem ask i|], o' as [a' mem' ask' n'|a' mem' ask' i'|]; cbn in SL; try contradiction; subst; cbn [es_of key_of] in *.
  - destruct (lookup_again Kn Pn _ _ en2 a' mem' ask' (cstr n') e r Kn_ok TN) as (tr' & L); auto.
    { exists n'. destruct V; auto. }
    rewrite run_name, L. eauto.
  - destruct (lookup_again Ki Pi _ _ ei2 a' mem' ask' (id_key i') e r Ki_ok TI) as (tr' & L); auto.
    { reflexivity. }
    rewrite run_id, L. eauto.
Qed.
End Proofs.

Lemma lookups_ok account omax : 1 <= omax -> forall db os, Forall (valid account db) os ->
  exists c rs, run_all account omax os (cache_new account) = Some (c, rs) /\ Forall2 (correct account db) os rs.
Proof. intros H db os V. eapply run_all_ok; [exact H|apply new_Cinv|exact V]. Qed.

Lemma cached_ok account omax : 1 <= omax -> forall db c o c1 r os c2 rs o',
  history account omax db c -> valid account db o ->
  run account omax o c = Some (c1, r) -> r <> Failed ->
  Forall (valid account db) os -> ~ In (Flush account) os -> run_all account omax os c1 = Some (c2, rs) ->
  same_lookup account o o' -> exists c3, run account omax o' c2 = Some (c3, r).
Proof.
  intros H db c o c1 r os c2 rs o' HI V E NF VS FS ES SL.
  eapply again_ok; eauto. destruct (existsb (is_flush account) os) eqn:X; [|reflexivity].
  apply existsb_exists in X. destruct X as (x & I & F). destruct x; try discriminate. contradiction.
Qed.
