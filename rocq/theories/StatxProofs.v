From Coq Require Import List NArith ZArith Bool Lia.
From Verif Require Import StatxModel StatxSpec.
Import ListNotations.
Local Open Scope N_scope.

(** ** Device numbers *)
Lemma high_bits a k n : a < 2 ^ k -> k <= n -> N.testbit a n = false.
Proof.
  intros L H. destruct (N.eq_dec a 0) as [->|Z]; [apply N.bits_0|]. apply N.bits_above_log2.
  apply N.log2_lt_pow2 in L; lia.
Qed.
Lemma lor_sum a b k : a < 2 ^ k -> N.lor a (N.shiftl b k) = a + 2 ^ k * b.
Proof.
  intros L. assert (D : N.land a (N.shiftl b k) = 0).
  { apply N.bits_inj_0. intros n. rewrite N.land_spec. destruct (N.ltb_spec n k).
    - rewrite N.shiftl_spec_low by lia. apply andb_false_r.
    - rewrite (high_bits a k n) by lia. reflexivity. }
  rewrite <- N.lxor_lor by exact D. rewrite <- N.add_nocarry_lxor by exact D. rewrite N.shiftl_mul_pow2. lia.
Qed.

Lemma makedev d : real_device d -> xmakedev (major d) (minor d) = number d.
Proof.
  destruct d as [ma mi]. unfold real_device, xmakedev, number. cbn [major minor]. intros (A & B).
  assert (E1 : N.land ma 0x00000fff = ma) by (change 0xfff with (N.ones 12); rewrite N.land_ones; apply N.mod_small; exact A).
  assert (E2 : N.land ma 0xfffff000 = 0).
  { apply N.bits_inj_0. intros n. rewrite N.land_spec. destruct (N.ltb_spec n 12); [|rewrite (high_bits ma 12 n) by assumption; reflexivity].
    change 0xfffff000 with (N.shiftl (N.ones 20) 12). rewrite N.shiftl_spec_low by lia. apply andb_false_r. }
  assert (E3 : N.land mi 0xff = mi mod 256) by (change 0xff with (N.ones 8); rewrite N.land_ones; reflexivity).
  assert (E4 : N.land mi 0xffffff00 = N.shiftl (mi / 256) 8).
  { apply N.bits_inj. intros n. rewrite N.land_spec. change 0xffffff00 with (N.shiftl (N.ones 24) 8). change 256 with (2 ^ 8). rewrite <- N.shiftr_div_pow2.
    destruct (N.ltb_spec n 8); [rewrite !N.shiftl_spec_low by lia; apply andb_false_r|]. rewrite !N.shiftl_spec_high' by lia. rewrite N.shiftr_spec by lia.
    replace (n - 8 + 8) with n by lia. destruct (N.ltb_spec (n - 8) 24).
    - rewrite N.ones_spec_low by lia. apply andb_true_r.
    - rewrite (high_bits mi 20 n) by lia. reflexivity. }
  rewrite E1, E2, E3, E4. rewrite N.shiftl_0_l, N.lor_0_r, N.shiftl_shiftl. change (8 + 12) with 20.
  assert (M : mi mod 256 < 2 ^ 8) by (apply N.mod_lt; discriminate).
  rewrite (N.lor_comm (N.shiftl ma 8)). rewrite (lor_sum (mi mod 256) ma 8 M). rewrite lor_sum; [|change (2 ^ 20) with (256 * 2 ^ 12); change (2 ^ 8) with 256 in *; lia].
  change (2 ^ 8) with 256. lia.
Qed.

Lemma signed n : n < 2 ^ 63 -> to_signed n = Z.of_N n.
Proof. intros H. unfold to_signed. cbv zeta. destruct (Z.ltb_spec (Z.of_N n) (2 ^ 63)); lia. Qed.

(** ** Masks *)
Lemma has_bit x k : has x (2 ^ k) = N.testbit x k.
Proof.
  unfold has. destruct (N.testbit x k) eqn:T.
  - destruct (N.eqb_spec (N.land x (2 ^ k)) 0) as [E|E]; [|reflexivity]. exfalso.
    assert (X : N.testbit (N.land x (2 ^ k)) k = true) by (rewrite N.land_spec, T, N.pow2_bits_true; reflexivity). rewrite E, N.bits_0 in X. discriminate.
  - destruct (N.eqb_spec (N.land x (2 ^ k)) 0) as [E|E]; [reflexivity|]. exfalso. apply E. apply N.bits_inj_0. intros n. rewrite N.land_spec.
    destruct (N.eq_dec k n) as [->|NE]; [now rewrite T|]. rewrite N.pow2_bits_false by exact NE. apply andb_false_r.
Qed.
Lemma has_two x j k : has x (N.lor (2 ^ j) (2 ^ k)) = (N.testbit x j || N.testbit x k)%bool.
Proof.
  rewrite <- !has_bit. unfold has. rewrite N.land_lor_distr_r. destruct (N.eqb_spec (N.land x (2 ^ j)) 0) as [->|E].
  - rewrite N.lor_0_l. reflexivity.
  - destruct (N.eqb_spec (N.lor (N.land x (2 ^ j)) (N.land x (2 ^ k))) 0) as [F|F]; [|reflexivity]. apply N.lor_eq_0_iff in F. tauto.
Qed.

Lemma marked_all b m : mask b = m -> m < 2 ^ 15 ->
  forallb (fun bit => Bool.eqb (N.testbit m bit) (match bit with
    | 9 => if attrs b then true else false | 10 => if atime b then true else false | 11 => if btime b then true else false
    | 12 => if ctime b then true else false | 13 => if mtime b then true else false | _ => bit <? 15 end))
    [0; 1; 2; 3; 4; 5; 6; 7; 8; 9; 10; 11; 12; 13; 14] = true -> marked b.
Proof.
  intros E L F bit. rewrite E. assert (H : bit < 15 \/ 15 <= bit) by lia. destruct H as [H|H].
  - rewrite forallb_forall in F. apply eqb_prop. apply F.
    assert (C : bit = 0 \/ bit = 1 \/ bit = 2 \/ bit = 3 \/ bit = 4 \/ bit = 5 \/ bit = 6 \/ bit = 7 \/ bit = 8 \/ bit = 9 \/ bit = 10 \/ bit = 11 \/ bit = 12 \/ bit = 13 \/ bit = 14) by lia.
      cbn. repeat (destruct C as [C|C]; [now rewrite C; tauto|]). rewrite C. tauto.
  - rewrite (high_bits m 15 bit) by lia. destruct bit as [|p]; [lia|]. do 4 (destruct p as [p|p|]; try lia; try reflexivity).
    all: destruct (N.ltb_spec _ 15); [lia|reflexivity].
Qed.

(** ** Conversions *)
Lemma convert f : describes f (bfs_stat_convert (mkStat (f_mode f) (number (f_dev f)) (f_ino f) (f_nlink f) (f_gid f) (f_uid f) (Z.of_N (f_size f)) (Z.of_N (f_blocks f))
    (number (f_rdev f)) (f_atime f) (f_ctime f) (f_mtime f))) /\
  forall s, marked (bfs_stat_convert s) /\ forall g, st_dev s = number (f_dev g) -> scantily g (bfs_stat_convert s).
Proof.
  split; [repeat split; reflexivity|]. intros s. split; [|intros g E; repeat split; exact E].
  eapply marked_all; [reflexivity|vm_compute; reflexivity|]. destruct s. vm_compute. reflexivity.
Qed.

Lemma convert_x f x : tells bfs_statx_mask f x -> real f -> exists b, bfs_statx_convert x = inl b /\ describes f b /\ marked b /\ fully f b.
Proof.
  intros (M & Mo & DM & Dm & I & NL & G & U & S & B & RM & Rm & AT & TA & TC & TM & BT & MN) (RD & RR & RS & RB).
  change (N.land bfs_statx_mask 0x7ff) with 0x7ff in M.
  assert (BITS : forall k, k < 11 -> N.testbit (stx_mask x) k = true).
  { intros k H. assert (X : N.testbit (N.land (stx_mask x) 0x7ff) k = true) by (rewrite M; change 0x7ff with (N.ones 11); apply N.ones_spec_low; exact H).
    rewrite N.land_spec in X. now apply andb_prop in X. }
  unfold bfs_statx_convert. cbv zeta.
  replace (N.land (stx_mask x) (N.ldiff STATX_BASIC_STATS (N.lor (N.lor STATX_ATIME STATX_CTIME) STATX_MTIME))) with (N.ldiff STATX_BASIC_STATS (N.lor (N.lor STATX_ATIME STATX_CTIME) STATX_MTIME)).
  2: { change (N.ldiff STATX_BASIC_STATS (N.lor (N.lor STATX_ATIME STATX_CTIME) STATX_MTIME)) with (N.land 0x7ff 0x71f) at 2.
       rewrite N.land_assoc, M. reflexivity. }
  rewrite N.eqb_refl. cbn [negb].
  change STATX_ATIME with (2 ^ 5). change STATX_CTIME with (2 ^ 7). change STATX_MTIME with (2 ^ 6). change STATX_BTIME with (2 ^ 11).
  change STATX_MNT_ID with (2 ^ 12). change STATX_MNT_ID_UNIQUE with (2 ^ 14).
  rewrite has_two, !has_bit, (BITS 5), (BITS 6), (BITS 7) by lia.
  rewrite DM, Dm, RM, Rm, S, B, !makedev, !signed by assumption.
  change (N.testbit bfs_statx_mask 11) with true in BT. change (N.testbit bfs_statx_mask 12 || N.testbit bfs_statx_mask 14)%bool with true in MN.
  assert (MO : (if (N.testbit (stx_mask x) 12 || N.testbit (stx_mask x) 14)%bool then stx_mnt_id x else number (f_dev f)) = match f_mount f with Some m => m | None => number (f_dev f) end).
  { destruct (f_mount f); [destruct MN as (E & ->); rewrite E; reflexivity|]. destruct MN as (-> & ->). reflexivity. }
  rewrite MO. rewrite Mo, I, NL, G, U, AT, TA, TC, TM.
  destruct (f_btime f) as [t|] eqn:FB; [destruct BT as (-> & ->)|rewrite BT].
  all: eexists; split; [reflexivity|]; split; [repeat split; reflexivity|]; split; [|repeat split; cbn; congruence].
  all: eapply marked_all; [reflexivity|vm_compute; reflexivity|vm_compute; reflexivity].
Qed.

(** ** Calls *)
Section Call.
  Variable path : Type.
  Variable look : target path -> facts + N.
  Variable refused : option N.
  Variable sys_fstatat : option path -> N -> stat + N.
  Variable sys_statx : option path -> N -> N -> statx + N.
  Hypothesis FR : fstatat_right path look sys_fstatat.
  Hypothesis XR : statx_right path look refused sys_statx.
  Hypothesis REAL : forall t f, look t = inl f -> real f.

  Definition told (full : bool) (want : facts + N) (r : bfs_stat + N) : Prop :=
    match want with
    | inl f => exists b, r = inl b /\ describes f b /\ marked b /\ if full then fully f b else scantily f b
    | inr e => r = inr e
    end.

  Definition xflags (fl : N) : Prop := known fl (0x100 + 0x800 + 0x1000 + 0x4000) = true /\ known (N.ldiff fl AT_STATX_DONT_SYNC) (0x100 + 0x800 + 0x1000) = true.

  Lemma looks_sync p fl : looks_at path look p (N.ldiff fl AT_STATX_DONT_SYNC) = looks_at path look p fl.
  Proof.
    unfold looks_at. change AT_STATX_DONT_SYNC with (2 ^ 14). rewrite !N.ldiff_spec, !N.pow2_bits_false by discriminate.
    cbn [negb]. rewrite !andb_true_r. reflexivity.
  Qed.

  Lemma impl_ok p fl : xflags fl -> told false (looks_at path look p fl) (bfs_stat_impl path sys_fstatat p (N.ldiff fl AT_STATX_DONT_SYNC)).
  Proof.
    intros (_ & K). unfold bfs_stat_impl. rewrite FR, K, looks_sync. cbn [negb]. destruct (looks_at path look p fl) as [f|e]; [|reflexivity].
    destruct (convert f) as (D & M). destruct (M (mkStat (f_mode f) (number (f_dev f)) (f_ino f) (f_nlink f) (f_gid f) (f_uid f) (Z.of_N (f_size f)) (Z.of_N (f_blocks f))
      (number (f_rdev f)) (f_atime f) (f_ctime f) (f_mtime f))) as (M1 & M2).
    eexists. split; [reflexivity|]. split; [exact D|]. split; [exact M1|]. apply M2. reflexivity.
  Qed.

  Lemma looks_real p fl f : looks_at path look p fl = inl f -> real f.
  Proof. unfold looks_at. destruct p; [apply REAL|]. destruct (N.testbit fl 12); [apply REAL|discriminate]. Qed.

  Lemma like_nosys e : error_is_like e ENOSYS = true -> e = 38 \/ e = 1.
  Proof.
    unfold error_is_like, ENOSYS, ENOENT, EPERM, ENOTDIR. destruct (N.eqb_spec e 38); [auto|]. cbn [N.eqb Pos.eqb]. destruct (N.eqb_spec e 1); [auto|discriminate].
  Qed.

  (** One system call with its fallback *)
  Lemma explicit_ok hx p fl : xflags fl ->
    let '(r, hx') := bfs_stat_explicit path sys_fstatat sys_statx hx p fl in
    told (hx && match refused with None => true | _ => false end) (looks_at path look p fl) r /\
    (hx' = true -> hx = true /\ refused = None) /\
    (hx = true -> refused = None -> looks_at path look p fl <> inr 1 -> looks_at path look p fl <> inr 38 -> hx' = true).
  Proof.
    intros K. pose proof (impl_ok p fl K) as I. unfold bfs_stat_explicit. destruct hx; cbn [andb].
    2: { split; [exact I|]. split; discriminate. }
    unfold bfs_statx_impl. specialize (XR p fl bfs_statx_mask). destruct refused as [e|].
    - destruct XR as (E & ->). replace (error_is_like e ENOSYS) with true by (destruct E as [-> | ->]; reflexivity).
      split; [exact I|]. split; discriminate.
    - destruct K as (K & K'). rewrite K in XR. cbn [negb] in XR. destruct (looks_at path look p fl) as [f|e] eqn:L.
      + destruct XR as (x & -> & T). destruct (convert_x f x T (looks_real _ _ _ L)) as (b & -> & D & M & F).
        split; [exists b; auto|]. split; auto.
      + rewrite XR. destruct (error_is_like e ENOSYS) eqn:LI.
        * cbn in I |- *. split; [exact I|]. split; [discriminate|]. intros _ _ N1 N38. destruct (like_nosys e LI); subst; congruence.
        * cbn. split; [reflexivity|]. split; auto.
  Qed.

  Lemma flags_ok flags : let fl := bfs_statx_flags flags in
    xflags fl /\ xflags (N.lor fl AT_SYMLINK_NOFOLLOW) /\ xflags (N.lor fl AT_EMPTY_PATH) /\
    N.testbit fl 8 = N.testbit flags 0 /\ N.testbit fl 12 = false.
  Proof.
    unfold bfs_statx_flags, bfs_fstatat_flags. cbv zeta. change BFS_STAT_NOFOLLOW with (2 ^ 0). change BFS_STAT_NOSYNC with (2 ^ 2). rewrite !has_bit.
    destruct (N.testbit flags 0), (N.testbit flags 2); repeat split; reflexivity.
  Qed.

  Lemma like_noent e : error_is_like e ENOENT = ((e =? 2) || (e =? 20)).
  Proof.
    unfold error_is_like, ENOSYS, ENOENT, EPERM, ENOTDIR. destruct (N.eqb_spec e 2); [reflexivity|]. reflexivity.
  Qed.
  Lemma try_bits flags : (N.land flags (N.lor BFS_STAT_NOFOLLOW BFS_STAT_TRYFOLLOW) =? BFS_STAT_TRYFOLLOW) = (N.testbit flags 1 && negb (N.testbit flags 0)).
  Proof.
    change (N.lor BFS_STAT_NOFOLLOW BFS_STAT_TRYFOLLOW) with (N.ones 2). change BFS_STAT_TRYFOLLOW with 2.
    assert (B : forall n, N.testbit (N.land flags (N.ones 2)) n = N.testbit flags n && (n <? 2)).
    { intros n. rewrite N.land_spec. destruct (N.ltb_spec n 2); [rewrite N.ones_spec_low by lia|rewrite N.ones_spec_high by lia]; reflexivity. }
    destruct (N.eqb_spec (N.land flags (N.ones 2)) 2) as [E|E].
    - pose proof (B 0) as B0. pose proof (B 1) as B1. rewrite E in B0, B1. cbn in B0, B1. rewrite andb_true_r in B0, B1. rewrite <- B0, <- B1. reflexivity.
    - destruct (N.testbit flags 1) eqn:T1; [|reflexivity]. destruct (N.testbit flags 0) eqn:T0; [reflexivity|]. exfalso. apply E. apply N.bits_inj. intros n. rewrite B.
      destruct (N.eq_dec n 0) as [->|]; [now rewrite T0|]. destruct (N.eq_dec n 1) as [->|]; [now rewrite T1|].
      destruct (N.ltb_spec n 2); [lia|]. rewrite andb_false_r. symmetry. apply (high_bits 2 2 n); [reflexivity|lia].
  Qed.

  Definition fine_errors : Prop := forall t e, look t = inr e -> e <> 1 /\ e <> 38.

  Lemma call_ok hx p flags :
    let '(r, hx') := bfs_stat_call path sys_fstatat sys_statx hx p flags in
    match meant path look p flags with
    | inl f => exists b, r = inl b /\ describes f b /\ marked b /\
        (if hx && match refused with None => true | _ => false end then fully f b else scantily f b)
    | inr e => r = inr e
    end /\
    (hx' = true -> hx = true /\ refused = None) /\
    (hx = true -> refused = None -> fine_errors -> hx' = true).
  Proof.
    destruct (flags_ok flags) as (K1 & K2 & K3 & B8 & B12). unfold bfs_stat_call. cbv zeta. destruct p as [p|].
    2: { pose proof (explicit_ok hx None _ K3) as E. destruct (bfs_stat_explicit _ _ _ _ _ _) as (r & hx'). destruct E as (T & H1 & H2).
         unfold looks_at in T, H2. rewrite N.lor_spec, B12 in T, H2. change (N.testbit AT_EMPTY_PATH 12) with true in T, H2. cbn [orb] in T, H2. cbn [meant].
         split; [|split; [exact H1|]].
         - destruct (look Itself); [|exact T]. destruct T as (b & A & B & C & D). exists b. auto.
         - intros A B F. apply H2; auto; intros X; now destruct (F _ _ X). }
    unfold bfs_stat_tryfollow. rewrite try_bits. pose proof (explicit_ok hx p _ K1) as E.
    destruct (bfs_stat_explicit _ _ _ hx p (bfs_statx_flags flags)) as (r & hx'). destruct E as (T & H1 & H2).
    assert (H2' : hx = true -> refused = None -> fine_errors -> hx' = true).
    { intros A B F. apply H2; auto; intros X; unfold looks_at in X; (destruct p; [now destruct (F _ _ X)|rewrite B12 in X; discriminate]). }
    destruct p as [p|].
    2: { unfold looks_at in T. rewrite B12 in T. cbn [meant told] in *. subst r. change (error_is_like 2 ENOENT) with true.
         destruct (N.testbit flags 1 && negb (N.testbit flags 0)) eqn:TB; cbn [andb].
         - pose proof (explicit_ok hx' None _ K2) as E. destruct (bfs_stat_explicit _ _ _ hx' None _) as (r & hx''). destruct E as (T & H3 & H4).
           unfold looks_at in T, H4. rewrite N.lor_spec, B12 in T, H4. change (N.testbit AT_SYMLINK_NOFOLLOW 12) with false in T, H4. cbn [orb told] in T, H4.
           split; [exact T|]. split; [intros A; destruct (H3 A); auto|]. intros A B F. apply H4; auto; discriminate.
         - split; [reflexivity|]. split; auto. }
    cbn [looks_at] in *. rewrite B8 in *. cbn [meant]. destruct (N.testbit flags 0).
    { cbn [negb]. rewrite andb_false_r. cbn [andb]. replace (match r with inl b => (inl b, hx') | inr e => (inr e, hx') end) with (r, hx') by (destruct r; reflexivity).
      split; [|auto]. destruct (look (Where p true)); [|exact T]. destruct T as (b & A & B & C & D). exists b. auto. }
    cbn [negb]. rewrite andb_true_r. destruct (look (Where p false)) as [f|e] eqn:L.
    { destruct T as (b & -> & B & C & D). split; [|auto]. exists b. auto. }
    cbn [told] in T. subst r. rewrite like_noent. destruct (N.testbit flags 1 && ((e =? 2) || (e =? 20))) eqn:TB; [|split; [reflexivity|auto]].
    pose proof (explicit_ok hx' (Some p) _ K2) as E. destruct (bfs_stat_explicit _ _ _ hx' (Some p) _) as (r & hx''). destruct E as (T & H3 & H4).
    cbn [looks_at] in T, H4. rewrite N.lor_spec in T, H4. change (N.testbit AT_SYMLINK_NOFOLLOW 8) with true in T, H4. rewrite orb_true_r in T, H4.
    split; [|split; [intros A; destruct (H3 A); auto|intros A B F; apply H4; auto; intros X; now destruct (F _ _ X)]].
    destruct (look (Where p true)); [|exact T]. destruct T as (b & A & B & C & D). exists b. split; [exact A|]. split; [exact B|]. split; [exact C|].
    destruct hx' eqn:HX.
    - destruct (H1 eq_refl) as (-> & ->). cbn [andb] in *. exact D.
    - cbn [andb] in D. destruct hx, refused; cbn [andb]; auto. exfalso. apply andb_prop in TB. destruct TB as (_ & TB). apply orb_prop in TB.
      assert (X : false = true) by (apply H2; auto; intros [= ->]; destruct TB as [TB|TB]; discriminate TB). discriminate.
  Qed.
End Call.

(** ** Any number of calls *)
Lemma calls_ok : forall l hx, Forall (fun c => exists look refused, system_of c look refused) l ->
  Forall2 (fun c r => forall look refused, system_of c look refused -> answered (fun f b => fully f b \/ scantily f b) (meant (c_path c) look (c_at c) (c_flags c)) r) l (calls hx l).
Proof.
  induction l as [|c l IH]; intros hx F; cbn [calls]; [constructor|]. inversion F as [|? ? (look & refused & FR & XR & RE) FS]; subst.
  destruct (bfs_stat_call _ _ _ hx (c_at c) (c_flags c)) as (r & hx') eqn:E. constructor; [|apply IH, FS].
  intros look' refused' (FR' & XR' & RE'). pose proof (call_ok _ look' refused' _ _ FR' XR' RE' hx (c_at c) (c_flags c)) as C. rewrite E in C. destruct C as (C & _).
  unfold answered. destruct (meant _ _ _ _); [|exact C]. destruct C as (b & A & B & D & G). exists b. repeat (split; [assumption|]). destruct (hx && _); auto.
Qed.

Lemma calls_full : forall l, Forall (fun c => exists look, system_of c look None /\ forall t e, look t = inr e -> e <> 1 /\ e <> 38) l ->
  Forall2 (fun c r => forall look, system_of c look None -> answered fully (meant (c_path c) look (c_at c) (c_flags c)) r) l (calls true l).
Proof.
  induction l as [|c l IH]; intros F; cbn [calls]; [constructor|]. inversion F as [|? ? (look & (FR & XR & RE) & FE) FS]; subst.
  destruct (bfs_stat_call _ _ _ true (c_at c) (c_flags c)) as (r & hx') eqn:E.
  pose proof (call_ok _ look None _ _ FR XR RE true (c_at c) (c_flags c)) as C. rewrite E in C. destruct C as (_ & _ & C). rewrite (C eq_refl eq_refl FE).
  constructor; [|apply IH, FS].
  intros look' (FR' & XR' & RE'). pose proof (call_ok _ look' None _ _ FR' XR' RE' true (c_at c) (c_flags c)) as C'. rewrite E in C'. destruct C' as (C' & _).
  unfold answered. destruct (meant _ _ _ _); [|exact C']. destruct C' as (b & A & B & D & G). exists b. auto.
Qed.

Lemma time_ok f b : describes f b -> marked b -> forall k, 10 <= k <= 13 ->
  bfs_stat_time b (2 ^ k) = if N.testbit (mask b) k then Some (if k =? 11 then btime b else field_time f (2 ^ k)) else None.
Proof.
  intros (_ & _ & _ & _ & _ & _ & _ & _ & _ & A & C & M) MK k K. unfold bfs_stat_time. rewrite has_bit. destruct (N.testbit (mask b) k); [|reflexivity]. cbn [negb].
  assert (X : k = 10 \/ k = 11 \/ k = 12 \/ k = 13) by lia. destruct X as [-> |[-> |[-> | ->]]]; cbn; congruence.
Qed.
Lemma time_right f b : describes f b -> marked b -> fully f b \/ scantily f b -> forall field t, In field [0x400; 0x800; 0x1000; 0x2000] ->
  (bfs_stat_time b field = Some t -> t <> None /\ t = field_time f field) /\
  (fully f b -> bfs_stat_time b field = match field_time f field with Some t => Some (Some t) | None => None end).
Proof.
  intros D MK FS field t I. assert (X : exists k, 10 <= k <= 13 /\ field = 2 ^ k).
  { destruct I as [<-|[<-|[<-|[<-|[]]]]]; [exists 10|exists 11|exists 12|exists 13]; (split; [lia|reflexivity]). }
  destruct X as (k & K & ->). rewrite (time_ok f b D MK k K). pose proof (MK k) as B.
  destruct D as (_ & _ & _ & _ & _ & _ & _ & _ & _ & A & C & M).
  assert (X : k = 10 \/ k = 11 \/ k = 12 \/ k = 13) by lia. destruct X as [-> |[-> |[-> | ->]]]; rewrite B; cbn -[N.testbit]; rewrite ?A, ?C, ?M.
  2: { destruct FS as [(F & _)|(F & _)].
       - rewrite F. destruct (f_btime f); split; [intros [= <-]; now split|reflexivity|discriminate|reflexivity].
       - rewrite F. split; [discriminate|]. intros (F' & _). rewrite F in F'. rewrite <- F'. reflexivity. }
  all: split; [intros [= <-]; split; [discriminate|reflexivity]|reflexivity].
Qed.
