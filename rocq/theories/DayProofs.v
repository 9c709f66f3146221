(** * Proofs about reference points of time tests *)
From Coq Require Import String List ZArith NArith Bool Lia.
From Coq Require Import Init.Byte Strings.Byte.
From Verif Require Import NumModel NumSpec NumProofs TsModel TsSpec TmSpec TmProofs AgeModel AgeSpec AgeProofs DayModel DaySpec.
From Verif Require TmModel.
Import TmModel.
Import ListNotations.
Local Open Scope Z_scope.
Ltac Zify.zify_post_hook ::= Z.to_euclidean_division_equations.

(** ** xmktime() *)

Definition same_fields (t u : tm) : Prop :=
  tm_year t = tm_year u /\ tm_yday t = tm_yday u /\ tm_hour t = tm_hour u /\ tm_min t = tm_min u /\ tm_sec t = tm_sec u.

Lemma xmktime_ok localtime (mktime : ltm -> option (Z * ltm)) l :
  (forall r l', mktime l = Some (r, l') -> localtime r = Some l') ->
  (forall m, localtime (-1) = Some m -> mktime l = None -> ~ same_fields (l_tm l) (l_tm m)) ->
  forall r, xmktime localtime mktime l = Some r <-> exists l', mktime l = Some (r, l').
Proof.
  intros M N r. unfold xmktime. destruct (mktime l) as [[time t]|] eqn:E.
  - specialize (M _ _ eq_refl). destruct (time =? -1) eqn:T.
    + apply Z.eqb_eq in T. subst time. rewrite M, !Z.eqb_refl. cbn [negb orb].
      split; [intros [= <-]; eauto|intros [l' [= <- _]]; reflexivity].
    + split; [intros [= <-]; eauto|intros [l' [= <- _]]; reflexivity].
  - cbn [Z.eqb]. change (-1 =? -1) with true. cbn iota. split; [|intros [l' [=]]].
    destruct (localtime (-1)) as [m|] eqn:L; [|discriminate]. specialize (N _ eq_refl eq_refl).
    destruct (_ || _) eqn:B; [discriminate|]. exfalso. apply N. unfold same_fields.
    rewrite !orb_false_iff, !negb_false_iff, !Z.eqb_eq in B. tauto.
Qed.

(** What xmktime() does not check does not matter if it succeeds. *)
Lemma xmktime_some localtime mktime l r : xmktime localtime mktime l = Some r ->
  (exists l', mktime l = Some (r, l')) \/
  (mktime l = None /\ r = -1 /\ exists m, localtime (-1) = Some m /\ same_fields (l_tm l) (l_tm m)).
Proof.
  unfold xmktime. destruct (mktime l) as [[time t]|] eqn:E.
  - intros H. left. exists t. destruct (time =? -1).
    + destruct (localtime time); [|discriminate]. destruct (_ || _); [discriminate|]. congruence.
    + congruence.
  - change (-1 =? -1) with true. cbn iota. destruct (localtime (-1)) as [m|] eqn:L; [|discriminate].
    destruct (_ || _) eqn:B; [discriminate|]. intros [= <-]. right. split; [reflexivity|]. split; [reflexivity|].
    exists m. split; [reflexivity|]. unfold same_fields. rewrite !orb_false_iff, !negb_false_iff, !Z.eqb_eq in B. tauto.
Qed.

(** ** -daystart *)
Section Daystart.
  Variable z : timezone.
  Variable localtime : Z -> option ltm.
  Variable gmtime : Z -> option tm.
  Variable mktime : ltm -> option (Z * ltm).
  Hypothesis L : library z localtime gmtime mktime.

  Lemma daystart_ok (now now' : timespec) : normal now ->
    parse_daystart localtime mktime now = Some now' ->
    normal now' /\ tv_nsec now' = 0 /\ (tv_sec now' + offset z (tv_sec now)) mod 86400 = 0 /\
    instant now' - a_day < instant now <= instant now'.
  Proof.
    intros [N1 N2] H. unfold parse_daystart in H. destruct (localtime (tv_sec now)) as [l|] eqn:E; [|discriminate].
    destruct (lib_localtime _ _ _ _ L _ _ E) as (F & S & D & _).
    destruct F as (F1 & F2 & F3 & _).
    set (b := negb _ || _ || _ || _) in H.
    destruct (xmktime _ _ _) as [time|] eqn:X; [|discriminate]. injection H as <-. cbn [tv_sec tv_nsec].
    apply xmktime_some in X. destruct X as [[l' X]|(X & _ & m & Y & [W _])]; [|destruct (lib_fails _ _ _ _ L _ _ X Y W)].
    destruct (lib_mktime _ _ _ _ L _ _ _ X) as (R & _ & P1 & P2 & _). cbn [l_isdst l_tm] in P1, P2.
    assert (Q : time = second_of (mkTm 0 0 0 (if b then tm_mday (l_tm l) + 1 else tm_mday (l_tm l)) (tm_mon (l_tm l))
      (tm_year (l_tm l)) (tm_wday (l_tm l)) (tm_yday (l_tm l))) - offset z (tv_sec now)).
    { unfold offset. rewrite D in P1, P2. destruct (z_summer z (tv_sec now)).
      - apply P1; lia.
      - apply P2; reflexivity. }
    split; [split; cbn [tv_sec tv_nsec]; lia|].
    clear P1 P2 R. unfold second_of, day_of in *. cbn [tm_sec tm_min tm_hour tm_mday tm_mon tm_year] in Q.
    set (d := days_to _) in *. clearbody d. unfold instant, a_day, second. cbn [tv_sec tv_nsec].
    set (o := offset z (tv_sec now)) in *. clearbody o.
    assert (B : b = false -> tm_hour (l_tm l) = 0 /\ tm_min (l_tm l) = 0 /\ tm_sec (l_tm l) = 0 /\ tv_nsec now = 0).
    { unfold b. rewrite !orb_false_iff, !negb_false_iff, !Z.eqb_eq. tauto. }
    assert (B' : b = true -> ~ (tm_hour (l_tm l) = 0 /\ tm_min (l_tm l) = 0 /\ tm_sec (l_tm l) = 0 /\ tv_nsec now = 0)).
    { unfold b. intros C (H1 & H2 & H3 & H4). rewrite H1, H2, H3, H4 in C. discriminate C. }
    clearbody b. destruct b.
    - specialize (B' eq_refl). split; [reflexivity|]. split; lia.
    - destruct (B eq_refl) as (B1 & B2 & B3 & B4). split; [reflexivity|]. split; lia.
  Qed.

  Lemma daystart_midnight (now now' : timespec) : normal now ->
    parse_daystart localtime mktime now = Some now' ->
    offset z (tv_sec now') = offset z (tv_sec now) ->
    midnight z now' /\ instant now' - a_day < instant now <= instant now'.
  Proof.
    intros N H O. destruct (daystart_ok _ _ N H) as (N' & A & B & C). split; [|exact C].
    unfold midnight, wall, instant, a_day, second. rewrite A, O. lia.
  Qed.

  Lemma daystart_again (now now' : timespec) : normal now -> midnight z now ->
    parse_daystart localtime mktime now = Some now' -> now' = now.
  Proof.
    intros N M H. destruct (daystart_ok _ _ N H) as (N' & A & B & C).
    unfold midnight, wall in M. unfold instant, a_day, second in *. destruct N as [N1 N2].
    destruct now as [s n], now' as [s'' n'']. cbn [tv_sec tv_nsec] in *. subst n''.
    set (o := offset z s) in *. clearbody o.
    apply Z.mod_divide in M; [|lia]. apply Z.mod_divide in B; [|lia]. destruct M as [k M], B as [j B].
    clear H. assert (n = 0) by lia. subst n. assert (s + o = k * 86400) by lia.
    assert (j = k) by lia. assert (s'' = s) by lia. congruence.
  Qed.

  (** With the same offset from then on, days are counted. *)
  Lemma daystart_days (now now' : timespec) : normal now ->
    parse_daystart localtime mktime now = Some now' ->
    offset z (tv_sec now') = offset z (tv_sec now) ->
    forall cmp num t, normal t -> apart now' t -> instant t <= instant now' ->
    offset z (tv_sec t) = offset z (tv_sec now) ->
    exists b, eval_time BFS_DAYS cmp num now' t = Some b /\
      (b = true <-> comparison cmp (day_ending z now - day_ending z t) num).
  Proof.
    intros N H O cmp num t Nt Ap Le Ot. destruct (daystart_ok _ _ N H) as (N' & A & B & C).
    destruct (time_past BFS_DAYS cmp num now' t N' Nt Ap Le) as (b & E & I).
    exists b. split; [exact E|].
    assert (Q : forall n, passed BFS_DAYS (instant t) (instant now') n <->
                n = day_ending z now - day_ending z t).
    { intros n. unfold passed, day_ending, wall, length_of. rewrite Ot.
      unfold a_day, second, instant in *. rewrite A in *.
      set (o := offset z (tv_sec now)) in *. clearbody o. clear E I H N' Nt Ap O Ot L.
      destruct N as [_ N]. set (s := tv_sec now) in *. set (s' := tv_sec now') in *. set (ns := tv_nsec now) in *.
      set (st := tv_sec t) in *. set (nt := tv_nsec t) in *. clearbody s s' ns st nt.
      apply Z.mod_divide in B; [|lia]. destruct B as [j B].
      assert (E1 : (s * 1000000000 + ns + o * 1000000000 - 1) / (86400 * 1000000000) = j - 1).
      { symmetry. apply (Z.div_unique _ _ _ (s * 1000000000 + ns + o * 1000000000 - 1 - (j - 1) * (86400 * 1000000000))); lia. }
      rewrite E1. set (w := st * 1000000000 + nt) in *. clearbody w.
      set (q := (w + o * 1000000000 - 1) / (86400 * 1000000000)) in *.
      assert (E2 : q * (86400 * 1000000000) <= w + o * 1000000000 - 1 < (q + 1) * (86400 * 1000000000)) by (unfold q; lia).
      clearbody q. split; lia. }
    rewrite I. split.
    - intros (n & P & K). apply Q in P. rewrite <- P. exact K.
    - intros K. exists (day_ending z now - day_ending z t). split; [apply Q; reflexivity|exact K].
  Qed.
End Daystart.

(** ** Words *)

Lemma strcmp0_eq s : forall t, strcmp0 s t = true <-> s = t.
Proof.
  induction s as [|a s IH]; intros [|b t]; cbn [strcmp0]; try (split; [discriminate|discriminate]); [split; reflexivity|].
  rewrite andb_true_iff, IH. split.
  - intros [E ->]. apply byte_dec_bl in E. congruence.
  - intros [= -> ->]. split; [apply byte_dec_lb|]; reflexivity.
Qed.
Lemma strncmp0_eq p : forall s, strncmp0 p s = true <-> exists r, s = p ++ r.
Proof.
  induction p as [|a p IH]; intros s; [cbn; split; eauto|]. destruct s as [|b s]; cbn [strncmp0].
  - split; [discriminate|intros [r [=]]].
  - rewrite andb_true_iff, IH. split.
    + intros [E [r ->]]. apply byte_dec_bl in E. exists r. subst; reflexivity.
    + intros [r [= -> ->]]. split; [apply byte_dec_lb; reflexivity|eauto].
Qed.

Lemma field_letter c f : parse_newerxy_field c = Some f <-> c = letter f.
Proof.
  split.
  - unfold parse_newerxy_field. destruct c; intros [=]; subst; reflexivity.
  - intros ->. destruct f; reflexivity.
Qed.
Lemma letter_not_t f : Byte.eqb (letter f) "t" = false.
Proof. destruct f; reflexivity. Qed.

Section Words.
  Variable isspace : byte -> bool.
  Variable localtime : Z -> option ltm.
  Variable mktime : ltm -> option (Z * ltm).
  Variable bfs_stat : bool -> list byte -> option stat.
  Hypothesis Sane : sane isspace.
  Let xmk := xmktime_date localtime mktime.

  Lemma reftime_ok s ts : parse_reftime isspace localtime mktime s = Some ts <-> denotes xmk s ts.
  Proof. exact (xgetdate_ok isspace xmk Sane s ts). Qed.

  Lemma reftime_newer s f g ts : option_map (Newer f) (parse_reftime isspace localtime mktime s) = Some (Newer g ts) <->
    f = g /\ denotes xmk s ts.
  Proof.
    rewrite <- reftime_ok. destruct (parse_reftime _ _ _ s) as [t|]; cbn [option_map]; split.
    - intros [= -> ->]. split; reflexivity.
    - intros [-> [= ->]]. reflexivity.
    - discriminate.
    - intros [_ [=]].
  Qed.

  Lemma newerxy_ok follow word arg f ts : (exists r, word = bytes "-newer" ++ r) ->
    parse_newerxy isspace localtime mktime bfs_stat follow word arg = Some (Newer f ts) <->
    (exists g sb, word = bytes "-newer" ++ [letter f; letter g] /\ bfs_stat follow arg = Some sb /\ s_mask sb g = true /\
       ts = s_time sb g) \/
    (word = bytes "-newer" ++ [letter f; "t"%byte] /\ denotes xmk arg ts).
  Proof.
    intros [r ->]. change (bytes "-newer" ++ r) with ("-" :: "n" :: "e" :: "w" :: "e" :: "r" :: r)%byte.
    assert (Inj : forall r', (("-" :: "n" :: "e" :: "w" :: "e" :: "r" :: r)%byte = bytes "-newer" ++ r' <-> r = r')).
    { intros r'. change (bytes "-newer" ++ r') with ("-" :: "n" :: "e" :: "w" :: "e" :: "r" :: r')%byte.
      split; [intros [=]; assumption|intros ->; reflexivity]. }
    transitivity ((exists g sb, r = [letter f; letter g] /\ bfs_stat follow arg = Some sb /\ s_mask sb g = true /\
       ts = s_time sb g) \/ (r = [letter f; "t"%byte] /\ denotes xmk arg ts)).
    2: { split; (intros [(g & sb & E & K)|[E K]]; [left; exists g, sb; split; [apply Inj, E|exact K]|right; split; [apply Inj, E|exact K]]). }
    clear Inj. unfold parse_newerxy. destruct r as [|x [|y [|c r]]]; try (split; [discriminate|]).
    1, 2, 4: intros [(g & sb & [=] & _)|[[=] _]].
    destruct (parse_newerxy_field x) as [f'|] eqn:X.
    2: { split; [discriminate|]. intros [(g & sb & [= E E'] & _)|[[= E E'] _]];
         subst x; rewrite (proj2 (field_letter _ f) eq_refl) in X; discriminate. }
    apply field_letter in X. subst x. assert (LI : forall a b, letter a = letter b -> a = b) by (intros [] []; cbn; congruence).
    destruct (Byte.eqb y "t") eqn:Y.
    - apply byte_dec_bl in Y. subst y. rewrite reftime_newer. split.
      + intros [-> D]. right. split; [reflexivity|exact D].
      + intros [(g & sb & [= E E'] & _)|[[= E] D]].
        * pose proof (letter_not_t g) as N. rewrite <- E' in N. discriminate N.
        * split; [apply LI, E|exact D].
    - destruct (parse_newerxy_field y) as [g|] eqn:G.
      2: { split; [discriminate|]. intros [(g & sb & [= E E'] & _)|[[= E E'] _]].
           - subst y. rewrite (proj2 (field_letter _ g) eq_refl) in G. discriminate.
           - subst y. discriminate Y. }
      apply field_letter in G. subst y. unfold stat_arg, bfs_stat_time.
      destruct (bfs_stat follow arg) as [sb|].
      2: { split; [discriminate|]. intros [(g' & sb' & _ & [=] & _)|[[= E E'] _]]. rewrite E' in Y. discriminate Y. }
      destruct (s_mask sb g) eqn:M; cbn [option_map]; split; try discriminate.
      + intros [= -> <-]. left. exists g, sb. auto.
      + intros [(g' & sb' & [= E E'] & [= <-] & M' & ->)|[[= E E'] _]].
        * apply LI in E, E'. subst f' g'. reflexivity.
        * rewrite E' in Y. discriminate Y.
      + intros [(g' & sb' & [= E E'] & [= <-] & M' & ->)|[[= E E'] _]].
        * apply LI in E'. subst g'. congruence.
        * rewrite E' in Y. discriminate Y.
  Qed.

  (** The entry that a word finds *)
  Inductive finds (word : list byte) : parser -> field -> Prop :=
  | F_newer f : named word f "newer" -> finds word P_newer f
  | F_since f : named word f "since" -> finds word P_since f
  | F_min f : word = with_letter f "min" -> finds word P_min f
  | F_time f : word = with_letter f "time" -> finds word P_time f
  | F_xy r : r <> [] -> word = bytes "-newer" ++ r -> finds word P_newerxy BFS_STAT_MTIME.

  Lemma find_sound word n b p f : find (matches word) parse_table = Some (n, b, p, f) -> finds word p f.
  Proof.
    unfold parse_table. cbn [find matches].
    repeat match goal with
    | |- (if strcmp0 ?a ?b then _ else _) = _ -> _ =>
        let E := fresh "E" in destruct (strcmp0 a b) eqn:E;
        [apply strcmp0_eq in E; intros [= <- <- <- <-]; subst word;
         solve [apply F_newer; (left; reflexivity) || (right; split; reflexivity)
               |apply F_since; (left; reflexivity) || (right; split; reflexivity)
               |apply F_min; reflexivity | apply F_time; reflexivity]|]
    | |- (if strncmp0 ?a ?b then _ else _) = _ -> _ =>
        let E := fresh "E" in destruct (strncmp0 a b) eqn:E;
        [apply strncmp0_eq in E; intros [= <- <- <- <-]|]
    end.
    - destruct E16 as [r ->]. apply (F_xy _ r); [|reflexivity].
      intros ->. cbn [app] in E15. rewrite app_nil_r in E15.
      rewrite (proj2 (strcmp0_eq _ _) eq_refl) in E15. discriminate.
    - discriminate.
  Qed.

  Lemma find_complete word p f : finds word p f ->
    exists n b, find (matches word) parse_table = Some (n, b, p, f).
  Proof.
    intros [g [->|[-> ->]]|g [->|[-> ->]]|g ->|g ->|r N ->]; try (destruct g; eexists _, _; reflexivity);
      try (eexists _, _; reflexivity).
    destruct r as [|c r]; [congruence|]. eexists _, _. reflexivity.
  Qed.

  Lemma reference_ok follow now word arg f ts :
    parse_test isspace localtime mktime bfs_stat follow now word arg = Some (Newer f ts) <->
    reference xmk (bfs_stat follow) word arg f ts.
  Proof.
    split.
    - unfold parse_test. destruct (find _ _) as [[[[n b] p] g]|] eqn:E; [|discriminate].
      apply find_sound in E. destruct E as [g W|g W|g W|g W|r N W].
      + unfold parse_newer, stat_arg. destruct (bfs_stat follow arg) as [sb|] eqn:S; [|discriminate].
        intros [= -> <-]. eapply Ref_newer; eassumption.
      + unfold parse_since. rewrite reftime_newer. intros [-> D]. apply Ref_since; assumption.
      + unfold parse_min, aged. destruct (AgeModel.parse_min _ _); discriminate.
      + unfold parse_time, aged. destruct (AgeModel.parse_time _ _); discriminate.
      + intros H. apply newerxy_ok in H; [|eauto]. destruct H as [(g & sb & W' & S & M & ->)|[W' D]].
        * eapply Ref_xy; eassumption.
        * apply Ref_xt; assumption.
    - unfold parse_test. intros [g sb W S|g h sb W S M|g t W D|g t W D].
      + destruct (find_complete word P_newer g (F_newer _ _ W)) as (n & b & ->).
        unfold parse_newer, stat_arg. rewrite S. reflexivity.
      + destruct (find_complete word P_newerxy BFS_STAT_MTIME) as (n & b & ->).
        { eapply F_xy; [|exact W]. discriminate. }
        apply newerxy_ok; [eauto|]. left. exists h, sb. auto.
      + destruct (find_complete word P_newerxy BFS_STAT_MTIME) as (n & b & ->).
        { eapply F_xy; [|exact W]. discriminate. }
        apply newerxy_ok; [eauto|]. right. auto.
      + destruct (find_complete word P_since g (F_since _ _ W)) as (n & b & ->).
        unfold parse_since. apply reftime_newer. auto.
  Qed.

  Lemma ages_ok follow now word arg f u cmp num ref :
    parse_test isspace localtime mktime bfs_stat follow now word arg = Some (Age f u cmp num ref) <->
    ref = now /\ (word = with_letter f "min" /\ AgeModel.parse_min isspace arg = TimeArg cmp num u \/
                  word = with_letter f "time" /\ AgeModel.parse_time isspace arg = TimeArg cmp num u).
  Proof.
    split.
    - unfold parse_test. destruct (find _ _) as [[[[n b] p] g]|] eqn:E; [|discriminate].
      apply find_sound in E. destruct E as [g W|g W|g W|g W|r N W].
      + unfold parse_newer. destruct (stat_arg _ _ _); discriminate.
      + unfold parse_since. destruct (parse_reftime _ _ _ _); discriminate.
      + unfold parse_min, aged. destruct (AgeModel.parse_min _ _); try discriminate. intros [= -> -> -> -> ->]. auto.
      + unfold parse_time, aged. destruct (AgeModel.parse_time _ _); try discriminate. intros [= -> -> -> -> ->]. auto.
      + unfold parse_newerxy. intros H.
        destruct word as [|? [|? [|? [|? [|? [|? [|x [|y [|? ?]]]]]]]]]; try discriminate H.
        destruct (parse_newerxy_field x); [|discriminate H]. destruct (Byte.eqb y "t").
        * destruct (parse_reftime _ _ _ _); discriminate H.
        * destruct (parse_newerxy_field y); [|discriminate H]. destruct (stat_arg _ _ _); [|discriminate H].
          destruct (bfs_stat_time _ _); discriminate H.
    - intros [-> [[W E]|[W E]]]; unfold parse_test.
      + destruct (find_complete word P_min f (F_min _ _ W)) as (n & b & ->). unfold parse_min. rewrite E. reflexivity.
      + destruct (find_complete word P_time f (F_time _ _ W)) as (n & b & ->). unfold parse_time. rewrite E. reflexivity.
  Qed.
End Words.

Lemma newer_test f ref sb : normal ref -> (forall f, normal (s_time sb f)) ->
  exists b, eval_test (Newer f ref) sb = Some b /\
    (b = true <-> s_mask sb f = true /\ instant ref < instant (s_time sb f)).
Proof.
  intros N S. unfold eval_test, bfs_stat_time. destruct (s_mask sb f).
  - eexists. split; [reflexivity|]. rewrite newer_ok; [|exact N|apply S]. split; [intros H; split; [reflexivity|exact H]|tauto].
  - eexists. split; [reflexivity|]. split; [discriminate|intros [[=] _]].
Qed.

(** ** The message about invalid timestamps *)

Definition checks (n : nat) (v : Z) : bool :=
  let s := printf_d n false v in
  Nat.eqb (length s) n && forallb (fun c => (48 <=? Z.of_N (Byte.to_N c)) && (Z.of_N (Byte.to_N c) <? 58)) s && (value 10 s =? v).
Lemma checks_field n v : checks n v = true -> AgeSpec.field n (printf_d n false v) v.
Proof.
  unfold checks, AgeSpec.field. rewrite !andb_true_iff, Nat.eqb_eq, Z.eqb_eq, forallb_forall.
  intros [[A B] C]. split; [exact A|]. split; [|congruence]. apply Forall_forall. intros c I.
  apply B in I. unfold is_digit_of. rewrite andb_true_iff in I. lia.
Qed.
Lemma all_below (P : Z -> bool) n : forallb P (map Z.of_nat (seq 0 n)) = true -> forall v, 0 <= v < Z.of_nat n -> P v = true.
Proof.
  rewrite forallb_forall. intros A v R. apply A. apply in_map_iff. exists (Z.to_nat v). split; [lia|].
  apply in_seq. lia.
Qed.
Lemma two_digits v : 0 <= v < 100 -> AgeSpec.field 2 (printf_d 2 false v) v.
Proof. intros R. apply checks_field. revert v R. apply (all_below (checks 2) 100). vm_compute. reflexivity. Qed.
Lemma four_digits v : 0 <= v < 10000 -> AgeSpec.field 4 (printf_d 4 false v) v.
Proof.
  intros R. apply checks_field. revert v R. change 10000 with (Z.of_nat (100 * 100)).
  apply (all_below (checks 4) (100 * 100)). vm_compute. reflexivity.
Qed.
Definition signs (v : Z) : bool :=
  forallb (fun v => strcmp0 (printf_d 3 true v) ((if v <? 0 then "-"%byte else "+"%byte) :: printf_d 2 false (Z.abs v))) [v; - v].
Lemma signed_digits v : -100 < v < 100 ->
  printf_d 3 true v = (if v <? 0 then "-"%byte else "+"%byte) :: printf_d 2 false (Z.abs v).
Proof.
  intros R. assert (A : forall v, 0 <= v < 100 -> signs v = true) by (apply (all_below signs 100); vm_compute; reflexivity).
  assert (B : signs (Z.abs v) = true) by (apply A; lia). unfold signs in B. cbn [forallb] in B.
  rewrite !andb_true_iff, !strcmp0_eq in B. destruct B as (B1 & B2 & _).
  destruct (Z_le_gt_dec 0 v) as [C|C].
  - rewrite (Z.abs_eq v C) in B1 at 1 2. rewrite B1. rewrite ?(Z.abs_eq v C). reflexivity.
  - assert (D : Z.abs v = - v) by lia. rewrite D, Z.opp_involutive, D in B2. rewrite D. exact B2.
Qed.

Section Suggestions.
  Variable z : timezone.
  Variable localtime : Z -> option ltm.
  Variable gmtime : Z -> option tm.
  Variable mktime : ltm -> option (Z * ltm).
  Hypothesis L : library z localtime gmtime mktime.

  Lemma mday_range t : normalised t -> 1 <= tm_mday t <= 31.
  Proof. intros (_ & _ & _ & _ & D & _). pose proof (days_in_bound (12 * (1900 + tm_year t) + tm_mon t)). lia. Qed.

  Let p (w : nat) (v : Z) := printf_d w false v.
  Let day (t : tm) := p 4 (tm_year t + 1900) ++ bytes "-" ++ p 2 (tm_mon t + 1) ++ bytes "-" ++ p 2 (tm_mday t).
  Let clk (t : tm) := bytes "T" ++ p 2 (tm_hour t) ++ bytes ":" ++ p 2 (tm_min t) ++ bytes ":" ++ p 2 (tm_sec t).
  Lemma dated t zs o : normalised t -> 0 <= tm_year t + 1900 < 10000 -> zone zs o ->
    date (day t ++ clk t ++ zs)
      (mkParsed (tm_year t + 1900) (tm_mon t + 1) (tm_mday t) (tm_hour t) (tm_min t) (tm_sec t) o).
  Proof.
    intros F Y Z0. pose proof (mday_range _ F) as D. destruct F as (F1 & F2 & F3 & F4 & _).
    replace (day t ++ clk t ++ zs) with (p 4 (tm_year t + 1900) ++ bytes "-" ++ p 2 (tm_mon t + 1) ++ bytes "-" ++
      p 2 (tm_mday t) ++ bytes "T" ++ (p 2 (tm_hour t) ++ bytes ":" ++ p 2 (tm_min t) ++ bytes ":" ++ p 2 (tm_sec t)) ++ zs).
    2: { unfold day, clk. rewrite <- !app_assoc. reflexivity. }
    apply Time; [apply four_digits; lia|right; reflexivity|apply two_digits; lia|right; reflexivity|apply two_digits; lia|left; right; reflexivity| |exact Z0].
    apply Seconds; [apply two_digits; lia|right; reflexivity|apply two_digits; lia|right; reflexivity|apply two_digits; lia].
  Qed.
  Lemma dated_second t off o :
    utc_second (mkParsed (tm_year t + 1900) (tm_mon t + 1) (tm_mday t) (tm_hour t) (tm_min t) (tm_sec t) o) off =
    second_of t - off.
  Proof.
    unfold utc_second, second_of, day_of. cbn [p_sec p_min p_hour p_mday p_mon p_year tm_sec tm_min tm_hour tm_mday tm_mon tm_year].
    replace (tm_mon t + 1 - 1) with (tm_mon t) by lia.
    replace (tm_year t + 1900 - 1900) with (tm_year t) by lia. reflexivity.
  Qed.

  Lemma zone_digits off : 0 <= off < 360000 \/ -360000 < off <= -3600 -> off mod 60 = 0 ->
    zone (printf_d 3 true (Z.quot off 3600) ++ bytes ":" ++ p 2 (Z.rem (Z.quot (Z.abs off) 60) 60)) (Some off).
  Proof.
    intros R M. rewrite signed_digits by lia.
    set (h := Z.abs (Z.quot off 3600)). set (m := Z.rem (Z.quot (Z.abs off) 60) 60).
    assert (Q : off = (if Z.quot off 3600 <? 0 then -1 else 1) * (h * 3600 + m * 60)).
    { unfold h, m. destruct (Z.quot off 3600 <? 0) eqn:B; [apply Z.ltb_lt in B|apply Z.ltb_ge in B]; lia. }
    match goal with |- zone ?a _ => replace (Some off) with (Some ((if Z.quot off 3600 <? 0 then -1 else 1) * (h * 3600 + m * 60))) by congruence end.
    rewrite <- app_comm_cons. apply Offset_min.
    - destruct (Z.quot off 3600 <? 0); auto.
    - apply two_digits. unfold h. lia.
    - right; reflexivity.
    - apply two_digits. unfold m. lia.
  Qed.

  Lemma suggestions_ok now l u : localtime (tv_sec now) = Some l -> gmtime (tv_sec now) = Some u ->
    0 <= tm_year (l_tm l) + 1900 < 10000 -> 0 <= tm_year u + 1900 < 10000 ->
    let off := offset z (tv_sec now) in
    off mod 60 = 0 -> 0 <= off < 360000 \/ -360000 < off <= -3600 ->
    exists s1 s2 s3 s4, suggestions localtime gmtime now = Some [s1; s2; s3; s4] /\
      (exists p, date s1 p /\ p_zone p = None /\ utc_second p 0 = (tv_sec now + off) / 86400 * 86400) /\
      (exists p, date s2 p /\ p_zone p = None /\ utc_second p 0 = tv_sec now + off) /\
      (exists p o, date s3 p /\ p_zone p = Some o /\ utc_second p o = tv_sec now) /\
      (exists p o, date s4 p /\ p_zone p = Some o /\ utc_second p o = tv_sec now).
  Proof.
    intros E U Y1 Y2 off O1 O2. destruct (lib_localtime _ _ _ _ L _ _ E) as (F & S & _ & G).
    destruct (lib_gmtime _ _ _ _ L _ _ U) as (F' & S').
    unfold suggestions. rewrite E, U. rewrite G. fold off. fold off in S.
    change (fun w v => printf_d w false v) with p.
    exists (day (l_tm l)), (day (l_tm l) ++ clk (l_tm l)),
      (day (l_tm l) ++ clk (l_tm l) ++ printf_d 3 true (Z.quot off 3600) ++ bytes ":" ++ p 2 (Z.rem (Z.quot (Z.abs off) 60) 60)),
      (day u ++ clk u ++ bytes "Z").
    split; [reflexivity|]. split; [|split; [|split]].
    - eexists. split.
      + pose proof (mday_range _ F). destruct F as (F1 & F2 & F3 & F4 & _).
        apply Day; [apply four_digits; lia|right; reflexivity|apply two_digits; lia|right; reflexivity|apply two_digits; lia].
      + split; [reflexivity|]. destruct F as (F1 & F2 & F3 & F4 & _). unfold utc_second, second_of, day_of in *.
        cbn [p_sec p_min p_hour p_mday p_mon p_year tm_sec tm_min tm_hour tm_mday tm_mon tm_year].
        replace (tm_mon (l_tm l) + 1 - 1) with (tm_mon (l_tm l)) by lia.
        replace (tm_year (l_tm l) + 1900 - 1900) with (tm_year (l_tm l)) by lia.
        set (d := days_to _) in *. clearbody d. lia.
    - eexists. split; [|split; [|rewrite dated_second]].
      + rewrite <- (app_nil_r (clk (l_tm l))). apply dated; [exact F|exact Y1|constructor].
      + reflexivity.
      + lia.
    - eexists _, off. split; [|split; [|rewrite dated_second]].
      + apply dated; [exact F|exact Y1|apply zone_digits; assumption].
      + reflexivity.
      + lia.
    - eexists _, 0. split; [|split; [|rewrite dated_second]].
      + apply dated; [exact F'|exact Y2|apply Utc].
      + reflexivity.
      + lia.
  Qed.

  (** ** Dates without a zone *)
  Lemma local_date isspace : sane isspace -> forall s p ts, date s p -> p_zone p = None ->
    xgetdate isspace (xmktime_date localtime mktime) s = Some ts ->
    tv_nsec ts = 0 /\ forall x, x + offset z x = utc_second p 0 -> tv_sec ts + offset z (tv_sec ts) = utc_second p 0.
  Proof.
    intros Sane s q ts Dq Zq H. apply (xgetdate_ok isspace _ Sane) in H. destruct H as [N H]. split; [exact N|].
    intros x X. destruct H as [(t & -> & _)|[(q' & o & D' & Z' & _)|(q' & D' & Z' & M)]].
    - exfalso. apply get_date_ok in Dq. cbn in Dq. discriminate.
    - exfalso. apply get_date_ok in Dq, D'. rewrite Dq in D'. injection D' as <-. congruence.
    - apply get_date_ok in Dq, D'. rewrite Dq in D'. injection D' as <-.
      unfold xmktime_date in M. apply xmktime_some in M. destruct M as [[l' M]|(M & _ & m & M' & [W _])].
      + destruct (lib_mktime _ _ _ _ L _ _ _ M) as (_ & _ & _ & _ & P). cbn [l_isdst l_tm] in P.
        assert (Q : second_of (tm_of q) = utc_second q 0) by (unfold utc_second, tm_of; lia).
        rewrite Q in P. apply (P ltac:(lia) x X).
      + destruct (lib_fails _ _ _ _ L _ _ M M' W).
  Qed.
End Suggestions.

(** ** A C library that knows some instants *)

Definition lookup {A} (tab : list (Z * A)) (s : Z) : option A := option_map snd (find (fun e => fst e =? s) tab).
Lemma lookup_in {A} tab s (a : A) : lookup tab s = Some a -> In (s, a) tab.
Proof.
  unfold lookup. destruct (find _ tab) as [[k v]|] eqn:E; [|discriminate]. intros [= <-].
  apply find_some in E. destruct E as [I E]. cbn [fst] in E. apply Z.eqb_eq in E. subst k. exact I.
Qed.
Definition table_mktime (z : timezone) (tab : list (Z * ltm)) (l : ltm) : option (Z * ltm) :=
  if l_isdst l <? 0 then None
  else let r := second_of (l_tm l) - (if 0 <? l_isdst l then z_dst z else z_std z) in
       option_map (fun l' => (r, l')) (lookup tab r).
Definition good_entry (z : timezone) (e : Z * ltm) : Prop :=
  - 2 ^ 63 <= fst e < 2 ^ 63 /\ fst e <> -1 /\
  normalised (l_tm (snd e)) /\ second_of (l_tm (snd e)) = fst e + offset z (fst e) /\
  l_isdst (snd e) = (if z_summer z (fst e) then 1 else 0) /\ l_gmtoff (snd e) = offset z (fst e).
Lemma table_library z tab utab : Forall (good_entry z) tab ->
  Forall (fun e => normalised (snd e) /\ second_of (snd e) = fst e) utab ->
  library z (lookup tab) (lookup utab) (table_mktime z tab).
Proof.
  rewrite !Forall_forall. intros T U. constructor.
  - intros s l H. apply lookup_in, T in H. unfold good_entry in H. cbn [fst snd] in H. tauto.
  - intros s u H. apply lookup_in, U in H. exact H.
  - intros l r l'. unfold table_mktime. destruct (l_isdst l <? 0) eqn:D; [discriminate|]. apply Z.ltb_ge in D.
    destruct (lookup tab _) as [m|] eqn:E; [|discriminate]. intros [= <- <-].
    pose proof (T _ (lookup_in _ _ _ E)) as (R & _). cbn [fst] in R. split; [exact R|]. split; [exact E|].
    split; [|split].
    + intros P. apply Z.ltb_lt in P. rewrite P. reflexivity.
    + intros ->. reflexivity.
    + lia.
  - intros l m _ H. apply lookup_in, T in H. destruct H as (_ & N & _). exfalso. apply N. reflexivity.
Qed.

(** New York in 2024 *)
Definition new_york : timezone := mkZone (-18000) (-14400) (fun s => (1710054000 <=? s) && (s <? 1730613600)).
Definition new_york_times : list (Z * ltm) :=
  [(1710050400, mkLtm (mkTm 0 0 1 10 2 124 0 69) 0 (-18000));
   (1710086400, mkLtm (mkTm 0 0 12 10 2 124 0 69) 1 (-14400));
   (1710129600, mkLtm (mkTm 0 0 0 11 2 124 1 70) 1 (-14400));
   (1710133200, mkLtm (mkTm 0 0 1 11 2 124 1 70) 1 (-14400));
   (1720000000, mkLtm (mkTm 40 46 5 3 6 124 3 184) 1 (-14400));
   (1720065600, mkLtm (mkTm 0 0 0 4 6 124 4 185) 1 (-14400))].
Definition utc_times : list (Z * tm) :=
  [(1720000000, mkTm 40 46 9 3 6 124 3 184)].
Lemma new_york_library : library new_york (lookup new_york_times) (lookup utc_times) (table_mktime new_york new_york_times).
Proof.
  apply table_library; unfold new_york_times, utc_times;
    repeat (apply Forall_cons; [unfold good_entry, normalised; vm_compute; repeat split; congruence|]); apply Forall_nil.
Qed.

(** Half an hour behind UTC *)
Definition half : timezone := mkZone (-1800) (-1800) (fun _ => false).
Definition half_times : list (Z * ltm) :=
  [(1720000000, mkLtm (mkTm 40 16 9 3 6 124 3 184) 0 (-1800))].
Lemma half_library : library half (lookup half_times) (lookup utc_times) (table_mktime half half_times).
Proof.
  apply table_library; unfold half_times, utc_times;
    repeat (apply Forall_cons; [unfold good_entry, normalised; vm_compute; repeat split; congruence|]); apply Forall_nil.
Qed.

Lemma daystart_summer : exists z localtime gmtime mktime now now', library z localtime gmtime mktime /\
  normal now /\ parse_daystart localtime mktime now = Some now' /\ ~ midnight z now'.
Proof.
  exists new_york, (lookup new_york_times), (lookup utc_times), (table_mktime new_york new_york_times), (mkTs 1710050400 0), (mkTs 1710133200 0).
  split; [exact new_york_library|]. split; [split; cbn; lia|]. split; [vm_compute; reflexivity|].
  vm_compute. discriminate.
Qed.

Lemma days_summer : exists z localtime gmtime mktime now now' t, library z localtime gmtime mktime /\
  normal now /\ normal t /\ parse_daystart localtime mktime now = Some now' /\ midnight z now' /\
  ~ midnight z now /\ ~ midnight z t /\
  eval_time BFS_DAYS BFS_INT_EQUAL 0 now' t = Some true /\ calendar_day z t = calendar_day z now - 1.
Proof.
  exists new_york, (lookup new_york_times), (lookup utc_times), (table_mktime new_york new_york_times),
    (mkTs 1710086400 0), (mkTs 1710129600 0), (mkTs (1710129600 - 86400 + 1800) 0).
  split; [exact new_york_library|]. split; [split; cbn; lia|]. split; [split; cbn; lia|].
  split; [vm_compute; reflexivity|]. split; [vm_compute; reflexivity|].
  split; [vm_compute; discriminate|]. split; [vm_compute; discriminate|]. split; vm_compute; reflexivity.
Qed.

Lemma days_midnight : exists z localtime gmtime mktime now now' t, library z localtime gmtime mktime /\
  normal now /\ normal t /\ parse_daystart localtime mktime now = Some now' /\ midnight z now' /\
  (forall s, tv_sec t <= s <= tv_sec now' -> offset z s = offset z (tv_sec now)) /\
  calendar_day z t = calendar_day z now /\ eval_time BFS_DAYS BFS_INT_EQUAL 0 now' t = Some false.
Proof.
  exists new_york, (lookup new_york_times), (lookup utc_times), (table_mktime new_york new_york_times),
    (mkTs 1720000000 0), (mkTs 1720065600 0), (mkTs (1720065600 - 86400) 0).
  split; [exact new_york_library|]. split; [split; cbn; lia|]. split; [split; cbn; lia|].
  split; [vm_compute; reflexivity|]. split; [vm_compute; reflexivity|].
  split; [|split; vm_compute; reflexivity].
  cbn [tv_sec]. intros s R. unfold offset, new_york. cbn [z_summer z_dst z_std].
  replace ((1710054000 <=? s) && (s <? 1730613600)) with true by (symmetry; apply andb_true_iff; split; [apply Z.leb_le|apply Z.ltb_lt]; lia).
  reflexivity.
Qed.

Lemma suggestion_wrong : exists z localtime gmtime mktime now s1 s2 s3 s4 p o, library z localtime gmtime mktime /\
  normal now /\ suggestions localtime gmtime now = Some [s1; s2; s3; s4] /\
  date s3 p /\ p_zone p = Some o /\ utc_second p o = tv_sec now - 3600.
Proof.
  exists half, (lookup half_times), (lookup utc_times), (table_mktime half half_times), (mkTs 1720000000 0).
  eexists _, _, _, _, _, _. split; [exact half_library|]. split; [split; cbn; lia|].
  split; [vm_compute; reflexivity|]. split; [apply get_date_ok; vm_compute; reflexivity|].
  split; [reflexivity|]. vm_compute. reflexivity.
Qed.

Lemma mktime_ok z localtime gmtime mktime : library z localtime gmtime mktime ->
  forall l r, xmktime localtime mktime l = Some r <-> exists l', mktime l = Some (r, l').
Proof.
  intros L l r. apply xmktime_ok.
  - intros r' l' H. apply (lib_mktime _ _ _ _ L _ _ _ H).
  - intros m E F [Y _]. exact (lib_fails _ _ _ _ L _ _ F E Y).
Qed.
