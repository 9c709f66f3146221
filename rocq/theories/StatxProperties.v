(** * C72: what is said about files is what the system knows *)
From Coq Require Import List NArith ZArith Bool Lia.
From Verif Require Import StatxModel StatxSpec StatxProofs.
Import ListNotations.
Open Scope N_scope.

(** Any calls, on systems that have statx() or refuse it: each result is about the file that is meant, the mask says which values
    there are, and what is known is right.  Creation times, attributes and mounts may be missing. *)
Theorem C72_calls : forall l has_statx, Forall (fun c => exists look refused, system_of c look refused) l ->
  Forall2 (fun c r => forall look refused, system_of c look refused -> answered (fun f b => fully f b \/ scantily f b) (meant (c_path c) look (c_at c) (c_flags c)) r) l (calls has_statx l).
Proof. exact calls_ok. Qed.
Print Assumptions C72_calls.

(** They are not missing on a system with statx(), if no file gives one of the two errors EPERM and ENOSYS. *)
Theorem C72_full : forall l, Forall (fun c => exists look, system_of c look None /\ forall t e, look t = inr e -> e <> 1 /\ e <> 38) l ->
  Forall2 (fun c r => forall look, system_of c look None -> answered fully (meant (c_path c) look (c_at c) (c_flags c)) r) l (calls true l).
Proof. exact calls_full. Qed.
Print Assumptions C72_full.

(** A time that is given is the one in the file's metadata, never an indeterminate one; with everything that is known, it is given
    if there is one. *)
Theorem C72_time : forall f b, describes f b -> marked b -> fully f b \/ scantily f b -> forall field t, In field [0x400; 0x800; 0x1000; 0x2000] ->
  (bfs_stat_time b field = Some t -> t <> None /\ t = field_time f field) /\
  (fully f b -> bfs_stat_time b field = match field_time f field with Some t => Some (Some t) | None => None end).
Proof. exact time_right. Qed.
Print Assumptions C72_time.

(** A system with two files on two mounts, and one that must not be looked at *)
Module System.
  Definition at_ (n : Z) : timespec := mkTime n 0%Z.
  Definition one : facts := mkFacts 33188 (mkDevice 0 35) 7 1 0 0 12 8 (mkDevice 0 0) 0 (Some 61) (at_ 3) (Some (at_ 1)) (at_ 2) (at_ 2).
  Definition two : facts := mkFacts 33188 (mkDevice 8 300) 9 1 0 0 5 8 (mkDevice 0 0) 0 (Some 35) (at_ 6) None (at_ 5) (at_ 4).
  Definition look (t : target nat) : facts + N :=
    match t with
    | Where 0%nat _ => inl one
    | Where 1%nat _ => inl two
    | Where 2%nat _ => inr 1
    | Where 3%nat true => inl two
    | Where _ _ => inr 2
    | Itself => inl one
    end.
  Definition fstatat (p : option nat) (flags : N) : stat + N :=
    if negb (known flags (0x100 + 0x800 + 0x1000)) then inr 22
    else match looks_at nat look p flags with
         | inl f => inl (mkStat (f_mode f) (number (f_dev f)) (f_ino f) (f_nlink f) (f_gid f) (f_uid f) (Z.of_N (f_size f)) (Z.of_N (f_blocks f))
                                (number (f_rdev f)) (f_atime f) (f_ctime f) (f_mtime f))
         | inr e => inr e
         end.
  Definition fill (asked : N) (f : facts) : statx :=
    mkStatx (N.lor (N.lor (N.land asked 0x7ff) (if f_btime f then N.land asked 0x800 else 0)) (if f_mount f then if N.testbit asked 12 || N.testbit asked 14 then 0x1000 else 0 else 0))
            (f_mode f) (major (f_dev f)) (minor (f_dev f)) (f_ino f) (f_nlink f) (f_gid f) (f_uid f) (f_size f) (f_blocks f) (major (f_rdev f)) (minor (f_rdev f))
            (f_attrs f) (match f_mount f with Some m => m | None => 0 end) (f_atime f) (match f_btime f with Some t => t | None => at_ 0 end) (f_ctime f) (f_mtime f).
  Definition statx (p : option nat) (flags asked : N) : StatxModel.statx + N :=
    if negb (known flags (0x100 + 0x800 + 0x1000 + 0x4000)) then inr 22
    else match looks_at nat look p flags with inl f => inl (fill asked f) | inr e => inr e end.

  Lemma fill_tells asked f : tells asked f (fill asked f).
  Proof.
    unfold tells. split.
    { apply N.bits_inj. intros i. change (stx_mask (fill asked f)) with (N.lor (N.lor (N.land asked (N.ones 11)) (if f_btime f then N.land asked (2 ^ 11) else 0)) (if f_mount f then if N.testbit asked 12 || N.testbit asked 14 then 2 ^ 12 else 0 else 0)).
      change 0x7ff with (N.ones 11). rewrite !N.land_spec, !N.lor_spec. assert (H : i < 11 \/ 11 <= i) by lia. destruct H.
      - rewrite (N.ones_spec_low 11 i) by assumption. rewrite !Bool.andb_true_r, N.land_spec, (N.ones_spec_low 11 i), Bool.andb_true_r by assumption.
        assert (A : N.testbit (if f_btime f then N.land asked (2 ^ 11) else 0) i = false).
        { destruct (f_btime f); [|apply N.bits_0]. rewrite N.land_spec, N.pow2_bits_false by lia. apply Bool.andb_false_r. }
        assert (B : N.testbit (if f_mount f then if N.testbit asked 12 || N.testbit asked 14 then 2 ^ 12 else 0 else 0) i = false).
        { destruct (f_mount f); [|apply N.bits_0]. destruct (_ || _)%bool; [|apply N.bits_0]. apply N.pow2_bits_false. lia. }
        rewrite A, B. now rewrite !Bool.orb_false_r.
      - rewrite (N.ones_spec_high 11 i) by assumption. now rewrite !Bool.andb_false_r. }
    repeat (split; [reflexivity|]). unfold fill. cbn [stx_mask stx_btime stx_mnt_id]. rewrite !N.lor_spec, !N.land_spec.
    change (N.testbit 0x7ff 11) with false. change (N.testbit 0x7ff 12) with false. change (N.testbit 0x7ff 14) with false. rewrite !Bool.andb_false_r. cbn [orb].
    split.
    - assert (B : N.testbit (if f_mount f then if N.testbit asked 12 || N.testbit asked 14 then 0x1000 else 0 else 0) 11 = false).
      { destruct (f_mount f); [|reflexivity]. destruct (_ || _)%bool; reflexivity. }
      rewrite B, Bool.orb_false_r. destruct (f_btime f); [|reflexivity]. split; [|reflexivity]. rewrite N.land_spec. change (N.testbit 0x800 11) with true. apply Bool.andb_true_r.
    - assert (B : forall k, k = 12 \/ k = 14 -> N.testbit (if f_btime f then N.land asked 0x800 else 0) k = false).
      { intros k [-> | ->]; (destruct (f_btime f); [|reflexivity]); rewrite N.land_spec; [change (N.testbit 0x800 12) with false|change (N.testbit 0x800 14) with false]; apply Bool.andb_false_r. }
      rewrite (B 12), (B 14) by auto. cbn [orb]. destruct (f_mount f); [|now split]. split; [|reflexivity]. destruct (N.testbit asked 12 || N.testbit asked 14)%bool; reflexivity.
  Qed.

  Definition ask (n : nat) (flags : N) : call := mkCall nat fstatat statx (Some (Some n)) flags.
  Lemma looks_real t f : look t = inl f -> real f.
  Proof.
    assert (A : real one) by (unfold real, real_device; cbn; lia). assert (B : real two) by (unfold real, real_device; cbn; lia).
    destruct t as [[|[|[|[|n]]]] []|]; cbn; intros [= <-]; assumption.
  Qed.
  Lemma sound n flags : system_of (ask n flags) look None.
  Proof.
    split; [intros p f; reflexivity|]. split; [|exact looks_real]. intros p f asked. cbn [ask c_statx]. unfold statx. destruct (negb _); [reflexivity|].
    change (c_path (ask n flags)) with nat. destruct (looks_at nat look p f) as [g|e]; [|reflexivity]. exists (fill asked g). split; [reflexivity|apply fill_tells].
  Qed.
End System.

(** The full statement is wrong: on a system with statx(), one file that gives EPERM is taken for a sign that there is no statx().  From
    then on, creation times are missing, and the number of a mount is the number of the device, which can be that of another mount. *)
Theorem C72_eperm_refuted : exists path fstatat statx (look : target path -> facts + N) (p q bad : path),
  let ask p := mkCall path fstatat statx (Some (Some p)) 0 in
  (forall p, system_of (ask p) look None) /\
  exists before other after, calls true [ask p; ask q; ask bad; ask p] = [inl before; inl other; inr 1; inl after] /\
  btime before <> None /\ btime after = None /\ dev before = dev after /\ dev other <> dev after /\
  mnt_id before <> mnt_id other /\ mnt_id after = mnt_id other.
Proof.
  exists nat, System.fstatat, System.statx, System.look, 0%nat, 1%nat, 2%nat. intros ask. split; [intros p; apply (System.sound p 0)|].
  eexists _, _, _. split; [vm_compute; reflexivity|]. vm_compute. repeat split; discriminate.
Qed.
Print Assumptions C72_eperm_refuted.

Module Examples.
  Import System.
  (** The hypotheses hold for calls on this system, whatever their flags. *)
  Example meets : Forall (fun c => exists look refused, system_of c look refused) [ask 0 0; ask 2 4; ask 3 2; ask 4 1].
  Proof. repeat constructor; exists look, None; apply sound. Qed.
  (** A link that leads nowhere, followed if possible; a file without a creation time *)
  Example tries : meant nat look (Some (Some 3%nat)) 2 = inl two /\ meant nat look (Some (Some 3%nat)) 0 = inr 2.
  Proof. split; reflexivity. Qed.
  Example broken : exists b, calls true [ask 3 2; ask 3 0] = [inl b; inr 2] /\ ino b = 9 /\ dev b = 0x10082c /\ mnt_id b = 35 /\
    bfs_stat_time b 0x800 = None /\ bfs_stat_time b 0x2000 = Some (Some (at_ 4)).
  Proof. eexists. split; [vm_compute; reflexivity|]. vm_compute. auto. Qed.
  (** All files but the third give other errors. *)
  Definition polite (t : target nat) : facts + N := match t with Where 2%nat _ => inr 13 | t => look t end.
  Example no_eperm t e : polite t = inr e -> e <> 1 /\ e <> 38.
  Proof. destruct t as [[|[|[|[|n]]]] []|]; cbn; intros [= <-]; split; discriminate. Qed.
  Example described : exists b, calls true [ask 0 0] = [inl b] /\ describes one b /\ fully one b.
  Proof. eexists. split; [vm_compute; reflexivity|]. vm_compute. auto 20. Qed.
End Examples.
