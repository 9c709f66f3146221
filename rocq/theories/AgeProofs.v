(** * Proofs about timestamps and dates *)
From Coq Require Import List ZArith NArith Bool Lia.
From Coq Require Import Init.Byte Strings.Byte.
From Verif Require Import NumModel NumSpec NumProofs TsModel TsSpec TmSpec TmProofs AgeModel AgeSpec.
From Verif Require TmModel.
Import ListNotations.
Local Open Scope Z_scope.
Ltac Zify.zify_post_hook ::= Z.to_euclidean_division_equations.

(** ** Tests *)

Lemma diff_floor a b : normal a -> normal b -> apart a b ->
  timespec_diff a b = Some ((instant a - instant b) / second).
Proof.
  unfold normal, apart, timespec_diff, timespec_sub, instant, s64, NS, second.
  intros [A1 A2] [B1 B2] H.
  replace (_ && _) with true by (symmetry; apply andb_true_iff; split; [apply Z.leb_le|apply Z.ltb_lt]; lia).
  cbn [bind].
  replace (_ && _) with true by (symmetry; apply andb_true_iff; split; [apply Z.leb_le|apply Z.ltb_lt]; lia).
  cbn [bind]. destruct (tv_nsec a - tv_nsec b <? 0) eqn:N.
  - apply Z.ltb_lt in N.
    replace (_ && _) with true by (symmetry; apply andb_true_iff; split; [apply Z.leb_le|apply Z.ltb_lt]; lia).
    cbn [bind option_map tv_sec]. f_equal.
    apply (Z.div_unique _ _ _ (tv_nsec a - tv_nsec b + 1000000000)); lia.
  - apply Z.ltb_ge in N. cbn [option_map tv_sec]. f_equal.
    apply (Z.div_unique _ _ _ (tv_nsec a - tv_nsec b)); lia.
Qed.

Lemma newer_ok ref t : normal ref -> normal t -> (eval_newer ref t = true <-> instant ref < instant t).
Proof.
  unfold normal, eval_newer, timespec_cmp, instant. intros [A1 A2] [B1 B2]. rewrite Z.gtb_ltb.
  destruct (tv_sec t <? tv_sec ref) eqn:E1; [apply Z.ltb_lt in E1; split; [discriminate|lia]|apply Z.ltb_ge in E1].
  destruct (tv_sec ref <? tv_sec t) eqn:E2; [apply Z.ltb_lt in E2; split; [lia|reflexivity]|apply Z.ltb_ge in E2].
  destruct (tv_nsec t <? tv_nsec ref) eqn:E3; [apply Z.ltb_lt in E3; split; [discriminate|lia]|apply Z.ltb_ge in E3].
  destruct (tv_nsec ref <? tv_nsec t) eqn:E4; [apply Z.ltb_lt in E4; split; [lia|reflexivity]|apply Z.ltb_ge in E4].
  split; [discriminate|lia].
Qed.

Lemma secs_length u : length_of u = secs u * second.
Proof. destruct u; reflexivity. Qed.

Lemma time_quot u cmp num ref t : normal ref -> normal t -> apart ref t ->
  eval_time u cmp num ref t =
  Some (bfs_expr_cmp cmp num (Z.quot ((instant ref - instant t) / second) (secs u))).
Proof.
  intros A B H. unfold eval_time. rewrite diff_floor by assumption. cbn [bind]. do 2 f_equal.
  destruct u; cbn [secs].
  - rewrite Z.quot_1_r. reflexivity.
  - reflexivity.
  - rewrite Z.quot_quot by lia. reflexivity.
Qed.

Lemma time_past u cmp num ref t : normal ref -> normal t -> apart ref t -> instant t <= instant ref ->
  exists b, eval_time u cmp num ref t = Some b /\
    (b = true <-> exists n, passed u (instant t) (instant ref) n /\ comparison cmp n num).
Proof.
  intros A B H P. eexists. split; [apply time_quot; assumption|].
  rewrite bfs_expr_cmp_ok. unfold passed. rewrite secs_length.
  set (d := instant ref - instant t). assert (D : 0 <= d) by (unfold d; lia). clearbody d.
  assert (S : 0 < secs u) by (destruct u; reflexivity).
  assert (Q : Z.quot (d / second) (secs u) = d / (secs u * second)).
  { rewrite Z.quot_div_nonneg; [|apply Z.div_pos; [exact D|reflexivity]|exact S].
    rewrite Z.div_div by (try discriminate; unfold second; lia). f_equal. lia. }
  rewrite Q. clear Q. assert (L : 0 < secs u * second) by (unfold second; lia).
  set (w := secs u * second) in *. clearbody w. clear - L.
  split.
  - intros C. exists (d / w). split; [|exact C].
    pose proof (Z.mul_div_le d w L). pose proof (Z.mul_succ_div_gt d w L). lia.
  - intros (n & [N1 N2] & C). replace (d / w) with n; [exact C|].
    apply (Z.div_unique d w n (d - n * w)); lia.
Qed.

Lemma time_future u cmp num ref t : normal ref -> normal t -> apart ref t -> instant ref < instant t ->
  exists b, eval_time u cmp num ref t = Some b /\
    (b = true <-> exists k n, at_most BFS_SECONDS (instant ref) (instant t) k /\
                   n * secs u <= k < (n + 1) * secs u /\ comparison cmp (- n) num).
Proof.
  intros A B H P. eexists. split; [apply time_quot; assumption|].
  rewrite bfs_expr_cmp_ok. unfold at_most. rewrite secs_length. cbn [secs]. rewrite Z.mul_1_l.
  set (d := instant t - instant ref). assert (D : 0 < d) by (unfold d; lia).
  replace (instant ref - instant t) with (- d) by (unfold d; lia). clearbody d.
  assert (S : 0 < secs u) by (destruct u; reflexivity).
  set (k := - (- d / second)).
  assert (K : (k - 1) * second < d <= k * second).
  { unfold k. pose proof (Z.mul_div_le (- d) second eq_refl). pose proof (Z.mul_succ_div_gt (- d) second eq_refl).
    unfold second in *. lia. }
  replace (- d / second) with (- k) by (unfold k; lia). clearbody k.
  assert (K0 : 0 < k) by (unfold second in K; lia).
  rewrite Z.quot_opp_l by lia. rewrite Z.quot_div_nonneg by lia.
  set (w := secs u) in *. clearbody w. clear - S K K0.
  split.
  - intros C. exists k, (k / w). split; [exact K|]. split; [|exact C].
    pose proof (Z.mul_div_le k w S). pose proof (Z.mul_succ_div_gt k w S). lia.
  - intros (k' & n & K' & [N1 N2] & C). assert (k' = k) by (unfold second in *; lia). subst k'.
    replace (k / w) with n; [exact C|]. apply (Z.div_unique k w n (k - n * w)); lia.
Qed.

Lemma used_ok cmp num atime ctime : normal atime -> normal ctime -> apart atime ctime ->
  tv_sec atime - tv_sec ctime < 2 ^ 62 ->
  exists b, eval_used cmp num atime ctime = Some b /\
    (b = true <-> exists s n, 0 <= s /\ passed BFS_SECONDS (instant ctime) (instant atime) s /\
                   (n - 1) * 86400 < s <= n * 86400 /\ comparison cmp n num).
Proof.
  intros A B H L. unfold eval_used. rewrite diff_floor by assumption. cbn [bind].
  set (s := (instant atime - instant ctime) / second).
  assert (S : s * second <= instant atime - instant ctime < (s + 1) * second).
  { unfold s. pose proof (Z.mul_div_le (instant atime - instant ctime) second eq_refl).
    pose proof (Z.mul_succ_div_gt (instant atime - instant ctime) second eq_refl). lia. }
  assert (U : s < 2 ^ 62 + 1).
  { unfold normal, instant, second in *. lia. }
  clearbody s. unfold passed. cbn [length_of]. destruct (s <? 0) eqn:N.
  - apply Z.ltb_lt in N. exists false. split; [reflexivity|]. split; [discriminate|].
    intros (s' & n & S0 & S1 & _). unfold second in *. lia.
  - apply Z.ltb_ge in N. unfold s64.
    replace (_ && _) with true by (symmetry; apply andb_true_iff; split; [apply Z.leb_le|apply Z.ltb_lt]; lia).
    cbn [bind]. eexists. split; [reflexivity|]. rewrite bfs_expr_cmp_ok.
    rewrite Z.quot_div_nonneg by lia.
    split.
    + intros C. exists s, ((s + 60 * 60 * 24 - 1) / (60 * 60 * 24)). split; [exact N|]. split; [exact S|].
      split; [|exact C]. lia.
    + intros (s' & n & S0 & S1 & S2 & C). assert (s' = s) by (unfold second in *; lia). subst s'.
      replace ((s + 60 * 60 * 24 - 1) / (60 * 60 * 24)) with n by lia. exact C.
Qed.

(** ** Durations *)

Lemma signed_range n : - 2 ^ 63 <= signed n < 2 ^ 63.
Proof. unfold signed. pose proof (Z.mod_pos_bound (n + 2 ^ 63) (2 ^ 64) eq_refl). lia. Qed.
Lemma signed_eq n : exists k, signed n = n + k * 2 ^ 64.
Proof.
  unfold signed. exists (- ((n + 2 ^ 63) / 2 ^ 64)).
  pose proof (Z.div_mod (n + 2 ^ 63) (2 ^ 64) ltac:(discriminate)). lia.
Qed.
Lemma signed_add x y : signed ((signed (x mod 2 ^ 64) + y) mod 2 ^ 64) = signed ((x + y) mod 2 ^ 64).
Proof.
  f_equal. destruct (signed_eq (x mod 2 ^ 64)) as [k ->].
  rewrite (Z.mod_eq x (2 ^ 64)) by discriminate.
  replace (x - 2 ^ 64 * (x / 2 ^ 64) + k * 2 ^ 64 + y) with (x + y + (k - x / 2 ^ 64) * 2 ^ 64) by lia.
  apply Z.mod_add. discriminate.
Qed.
Lemma signed_wrapped total : 
  wrapped total (signed (total mod 2 ^ 64)).
Proof.
  split; [apply signed_range|]. destruct (signed_eq (total mod 2 ^ 64)) as [k ->].
  exists (k - total / 2 ^ 64). rewrite Z.mod_eq by discriminate. lia.
Qed.
Lemma wrapped_unique total m n : wrapped total m -> wrapped total n -> m = n.
Proof. intros [A [k ->]] [B [l ->]]. assert (k = l) by lia. congruence. Qed.
Lemma wrapped_small total num : 0 <= total < 2 ^ 63 -> wrapped total num -> num = total.
Proof. intros H W. apply (wrapped_unique total); [exact W|]. split; [lia|]. exists 0. lia. Qed.

Lemma in_seconds_ok c time t : 0 <= time < 2 ^ 63 ->
  (in_seconds c time = Some t <-> exists k, unit_seconds c k /\ t = (time * k) mod 2 ^ 64).
Proof.
  intros H. unfold unit_seconds. split.
  - unfold in_seconds. intros E.
    destruct c; try discriminate; injection E as <-;
      (eexists; split; [repeat (try (left; reflexivity); right)|]); rewrite <- ?Z.mul_assoc; try reflexivity.
    symmetry. rewrite Z.mul_1_r. apply Z.mod_small. lia.
  - intros (k & I & ->). cbn [In] in I.
    destruct I as [I|[I|[I|[I|[I|[]]]]]]; injection I as <- <-; cbn [in_seconds]; f_equal;
      rewrite <- ?Z.mul_assoc; try reflexivity.
    rewrite Z.mul_1_r, Z.mod_small; lia.
Qed.

Section Durations.
  Variable isspace : byte -> bool.
  Hypothesis S : sane isspace.

  (** The number [n] followed by [tail] is a duration. *)
  Inductive goes_on (n : Z) : list byte -> Z -> Prop :=
  | Goes_last unit k : unit_seconds unit k -> goes_on n [unit] (n * k)
  | Goes_more unit k rest total : unit_seconds unit k -> duration rest total ->
      goes_on n (unit :: rest) (n * k + total).

  Lemma duration_split s total : duration s total <->
    exists n tail, numeral 10 s n tail /\ 0 <= n < 2 ^ 63 /\ goes_on n tail total.
  Proof.
    split.
    - intros D. inversion D; subst; do 2 eexists; (split; [eassumption|]; split; [assumption|]); econstructor; eassumption.
    - intros (n & tail & N & H & G). inversion G; subst; [eapply Last|eapply More]; eassumption.
  Qed.
  Lemma duration_nonempty s total : duration s total -> s <> [].
  Proof.
    intros D. apply duration_split in D. destruct D as (n & tail & (sgn & ds & -> & Dn & _) & _).
    destruct sgn, ds; try discriminate. congruence.
  Qed.

  Lemma int_numeral s v rest : parse_int isspace 10 IF_LONG_LONG true true s = inl (v, rest) <->
    numeral 10 s v rest /\ 0 <= v < 2 ^ 63.
  Proof.
    rewrite (parse_int_ok isspace S) by lia. unfold size_min, size_max, LLONG_MIN, LLONG_MAX. split.
    - intros (N & _ & P & R). specialize (P eq_refl). split; [exact N|lia].
    - intros (N & R). split; [exact N|]. split; [auto|]. lia.
  Qed.

  Lemma time_loop_ok fuel : forall num n tail, (length tail <= fuel)%nat -> tail <> [] -> 0 <= n < 2 ^ 63 ->
    time_loop isspace fuel num n tail <> Fuel /\
    forall v, time_loop isspace fuel num n tail = Accepted v <->
      exists total, goes_on n tail total /\ v = signed ((num + total) mod 2 ^ 64).
  Proof.
    induction fuel as [|fuel IH]; intros num n tail L NE H.
    { destruct tail; [congruence|cbn in L; lia]. }
    destruct tail as [|c tail]; [congruence|]. cbn [length] in L. cbn [time_loop].
    destruct (in_seconds c n) as [t|] eqn:U.
    2:{ split; [discriminate|]. intros v. split; [discriminate|].
        intros (total & G & _). exfalso. inversion G; subst;
          match goal with Hk : unit_seconds c ?k |- _ =>
            assert (X : in_seconds c n = Some ((n * k) mod 2 ^ 64)) by (apply in_seconds_ok; eauto); congruence end. }
    apply in_seconds_ok in U; [|exact H]. destruct U as (k & Uk & ->).
    assert (Uniq : forall k', unit_seconds c k' -> k' = k).
    { clear - Uk. intros k' Uk'. unfold unit_seconds in *. cbn [In] in Uk, Uk'.
      destruct Uk as [E|[E|[E|[E|[E|[]]]]]], Uk' as [E'|[E'|[E'|[E'|[E'|[]]]]]]; congruence. }
    assert (Sum : forall m, (num + (n * k) mod 2 ^ 64) mod 2 ^ 64 = m -> (num + n * k) mod 2 ^ 64 = m).
    { intros m <-. symmetry. apply Z.add_mod_idemp_r. discriminate. }
    rewrite <- (Sum _ eq_refl). clear Sum.
    destruct tail as [|d tail].
    { split; [discriminate|]. intros v. split.
      - intros E. injection E as <-. exists (n * k). split; [constructor; exact Uk|reflexivity].
      - intros (total & G & ->). inversion G; subst; [rewrite (Uniq k0) by assumption; reflexivity|].
        exfalso. eapply duration_nonempty; [eassumption|reflexivity]. }
    set (tl := d :: tail) in *.
    destruct (parse_int isspace 10 IF_LONG_LONG true true tl) as [[m rest]|e] eqn:P.
    - pose proof P as P1. apply int_numeral in P1. destruct P1 as [N M].
      pose proof (numeral_shorter _ _ _ _ N) as Sh.
      destruct rest as [|r rest].
      + split; [discriminate|]. intros v. split; [discriminate|].
        intros (total & G & _). exfalso. inversion G as [|? ? ? ? ? D]; subst.
        apply duration_split in D. destruct D as (n' & tail' & N' & _ & G').
        destruct (numeral_unique 10 _ _ _ _ _ ltac:(lia) N N') as [-> <-]. inversion G'.
      + destruct (IH (signed ((num + n * k) mod 2 ^ 64)) m (r :: rest)) as [F1 F2]; [cbn in *; lia|discriminate|exact M|].
        split; [exact F1|]. intros v. rewrite F2. split.
        * intros (total & G & ->). exists (n * k + total). split.
          -- apply Goes_more; [exact Uk|]. apply duration_split. eauto.
          -- rewrite signed_add. f_equal. f_equal. lia.
        * intros (total & G & ->). inversion G as [|? k' ? total' Uk' D]; subst.
          rewrite (Uniq k' Uk'). apply duration_split in D. destruct D as (n' & tail' & N' & M' & G').
          destruct (numeral_unique 10 _ _ _ _ _ ltac:(lia) N N') as [<- <-].
          exists total'. split; [exact G'|]. rewrite signed_add. f_equal. f_equal. lia.
    - split; [discriminate|]. intros v. split; [discriminate|].
      intros (total & G & _). exfalso. inversion G as [|? k' ? total' Uk' D]; subst.
      apply duration_split in D. destruct D as (n' & tail' & N' & M' & _).
      assert (X : parse_int isspace 10 IF_LONG_LONG true true tl = inl (n', tail')) by (apply int_numeral; auto).
      congruence.
  Qed.

  Lemma prefixed_length s cmp t : prefixed s cmp t -> (length t <= length s)%nat.
  Proof. destruct cmp; cbn; [intros [-> _]|intros ->|intros ->]; cbn; lia. Qed.

  Lemma parse_time_ok s cmp num u : parse_time isspace s = TimeArg cmp num u <->
    exists t, prefixed s cmp t /\
      (u = BFS_DAYS /\ numeral 10 t num [] /\ 0 <= num < 2 ^ 63 \/
       u = BFS_SECONDS /\ exists total, duration t total /\ wrapped total num).
  Proof.
    unfold parse_time. destruct (parse_icmp isspace true s) as [[[cmp' n] tail]|e] eqn:P.
    - pose proof P as P1. apply (parse_icmp_ok isspace S) in P1. destruct P1 as (t & Pf & N & _ & R). unfold LLONG_MAX in R.
      assert (Once : forall cmp2 t2 n2 tail2, prefixed s cmp2 t2 -> numeral 10 t2 n2 tail2 -> 0 <= n2 < 2 ^ 63 ->
                cmp2 = cmp' /\ n2 = n /\ tail2 = tail).
      { intros cmp2 t2 n2 tail2 Pf2 N2 R2.
        assert (X : parse_icmp isspace true s = inl (cmp2, n2, tail2)).
        { apply (parse_icmp_ok isspace S). exists t2. split; [exact Pf2|]. split; [exact N2|]. split; [auto|unfold LLONG_MAX; lia]. }
        rewrite P in X. injection X as -> -> ->. auto. }
      pose proof (prefixed_length _ _ _ Pf) as Lt. pose proof (numeral_shorter _ _ _ _ N) as Ls.
      destruct tail as [|c tail].
      + split.
        * intros E. injection E as <- <- <-. exists t. split; [exact Pf|]. left. split; [reflexivity|]. split; [exact N|lia].
        * intros (t2 & Pf2 & [(-> & N2 & R2)|(-> & total & D & _)]).
          -- destruct (Once _ _ _ _ Pf2 N2 R2) as (-> & -> & _). reflexivity.
          -- apply duration_split in D. destruct D as (n2 & tail2 & N2 & R2 & G).
             destruct (Once _ _ _ _ Pf2 N2 R2) as (_ & _ & ->). inversion G.
      + destruct (time_loop_ok (length s) 0 n (c :: tail)) as [F1 F2]; [cbn in *; lia|discriminate|lia|].
        destruct (time_loop isspace (length s) 0 n (c :: tail)) as [v| |] eqn:L; [| |congruence].
        * pose proof (proj1 (F2 v) eq_refl) as (total & G & ->). rewrite Z.add_0_l in *. split.
          -- intros E. injection E as <- <- <-. exists t. split; [exact Pf|]. right. split; [reflexivity|].
             exists total. split; [|apply signed_wrapped]. apply duration_split. exists n, (c :: tail). split; [exact N|]. split; [lia|exact G].
          -- intros (t2 & Pf2 & [(-> & N2 & R2)|(-> & total2 & D & W)]).
             ++ destruct (Once _ _ _ _ Pf2 N2 R2) as (_ & _ & X). discriminate.
             ++ apply duration_split in D. destruct D as (n2 & tail2 & N2 & R2 & G2).
                destruct (Once _ _ _ _ Pf2 N2 R2) as (-> & -> & ->).
                assert (X : Accepted (signed (total mod 2 ^ 64)) = Accepted num).
                { apply F2. exists total2. split; [exact G2|]. rewrite Z.add_0_l.
                  apply (wrapped_unique total2); [exact W|apply signed_wrapped]. }
                exact (f_equal (fun r => match r with Accepted v => TimeArg cmp' v BFS_SECONDS | _ => BadTime end) X).
        * split; [discriminate|]. intros (t2 & Pf2 & [(-> & N2 & R2)|(-> & total2 & D & W)]).
          -- destruct (Once _ _ _ _ Pf2 N2 R2) as (_ & _ & X). discriminate.
          -- apply duration_split in D. destruct D as (n2 & tail2 & N2 & R2 & G2).
             destruct (Once _ _ _ _ Pf2 N2 R2) as (-> & -> & ->).
             assert (X : Rejected = Accepted (signed ((0 + total2) mod 2 ^ 64))) by (apply F2; eauto). discriminate.
    - split; [discriminate|]. intros (t & Pf & [(_ & N & R)|(_ & total & D & _)]).
      + assert (X : parse_icmp isspace true s = inl (cmp, num, [])).
        { apply (parse_icmp_ok isspace S). exists t. split; [exact Pf|]. split; [exact N|]. split; [auto|unfold LLONG_MAX; lia]. }
        congruence.
      + apply duration_split in D. destruct D as (n & tail & N & R & _).
        assert (X : parse_icmp isspace true s = inl (cmp, n, tail)).
        { apply (parse_icmp_ok isspace S). exists t. split; [exact Pf|]. split; [exact N|]. split; [auto|unfold LLONG_MAX; lia]. }
        congruence.
  Qed.

  Lemma parse_time_ends s : parse_time isspace s <> TimeFuel.
  Proof.
    unfold parse_time. destruct (parse_icmp isspace true s) as [[[cmp' n] tail]|e] eqn:P; [|discriminate].
    destruct tail as [|c tail]; [discriminate|].
    apply (parse_icmp_ok isspace S) in P. destruct P as (t & Pf & N & _ & R). unfold LLONG_MAX in R.
    pose proof (prefixed_length _ _ _ Pf) as Lt. pose proof (numeral_shorter _ _ _ _ N) as Ls.
    destruct (time_loop_ok (length s) 0 n (c :: tail)) as [F1 _]; [cbn in *; lia|discriminate|lia|].
    destruct (time_loop isspace (length s) 0 n (c :: tail)); congruence || discriminate.
  Qed.

  Lemma parse_min_ok s cmp num u : parse_min isspace s = TimeArg cmp num u <->
    u = BFS_MINUTES /\ exists t, prefixed s cmp t /\ numeral 10 t num [] /\ 0 <= num < 2 ^ 63.
  Proof.
    unfold parse_min. destruct (parse_icmp isspace false s) as [[[cmp' n] tail]|e] eqn:P.
    - pose proof P as P1. apply (parse_icmp_ok isspace S) in P1. destruct P1 as (t & Pf & N & [X| ->] & R); [discriminate|]. unfold LLONG_MAX in R.
      split.
      + intros E. injection E as <- <- <-. split; [reflexivity|]. exists t. split; [exact Pf|]. split; [exact N|lia].
      + intros (-> & t2 & Pf2 & N2 & R2).
        assert (X : parse_icmp isspace false s = inl (cmp, num, [])).
        { apply (parse_icmp_ok isspace S). exists t2. split; [exact Pf2|]. split; [exact N2|]. split; [auto|unfold LLONG_MAX; lia]. }
        rewrite P in X. injection X as -> ->. reflexivity.
    - split; [discriminate|]. intros (-> & t2 & Pf2 & N2 & R2).
      assert (X : parse_icmp isspace false s = inl (cmp, num, [])).
      { apply (parse_icmp_ok isspace S). exists t2. split; [exact Pf2|]. split; [exact N2|]. split; [auto|unfold LLONG_MAX; lia]. }
      congruence.
  Qed.
End Durations.

(** ** Dates *)

Lemma value_app base a b : value base (a ++ b) = value base a * base ^ Z.of_nat (length b) + value base b.
Proof.
  induction a as [|x a IH]; cbn [app value length]; [lia|].
  rewrite IH, app_length, Nat2Z.inj_add, Z.pow_add_r by lia. lia.
Qed.

Lemma xgetpart_ok n : forall acc s v rest, xgetpart n acc s = Some (v, rest) <->
  exists w, s = w ++ rest /\ field n w (v - acc * 10 ^ Z.of_nat n).
Proof.
  unfold field. induction n as [|n IH]; intros acc s v rest; cbn [xgetpart].
  - split.
    + intros E. injection E as <- <-. exists []. split; [reflexivity|]. cbn. split; [reflexivity|]. split; [constructor|lia].
    + intros (w & -> & L & _ & V). destruct w; [|discriminate]. cbn in *. replace v with acc by lia. reflexivity.
  - assert (P : 10 ^ Z.of_nat (S n) = 10 * 10 ^ Z.of_nat n) by (rewrite Nat2Z.inj_succ, Z.pow_succ_r; lia).
    destruct s as [|c s].
    + split; [discriminate|]. intros (w & E & L & _). destruct w; discriminate.
    + destruct (digit 10 c) as [d|] eqn:D.
      * apply digit_some in D. destruct D as [D ->]. rewrite IH. split.
        -- intros (w & -> & L & F & V). exists (c :: w). split; [reflexivity|]. split; [cbn; lia|].
           split; [constructor; assumption|]. cbn [value]. rewrite L, P, <- V. lia.
        -- intros (w & E & L & F & V). destruct w as [|c' w]; [discriminate|]. injection E as <- ->.
           injection L as L. inversion F; subst. exists w. split; [reflexivity|]. split; [reflexivity|]. split; [assumption|].
           cbn [value] in V. rewrite P in V. lia.
      * apply digit_none in D. split; [discriminate|]. intros (w & E & L & F & V).
        destruct w as [|c' w]; [discriminate|]. injection E as <- ->. inversion F; subst. contradiction.
Qed.

Lemma part_field n w v rest : field n w v -> xgetpart n 0 (w ++ rest) = Some (v, rest).
Proof. intros F. apply xgetpart_ok. exists w. split; [reflexivity|]. rewrite Z.mul_0_l, Z.sub_0_r. exact F. Qed.
Lemma field_part n s v rest : xgetpart n 0 s = Some (v, rest) -> exists w, s = w ++ rest /\ field n w v.
Proof. intros E. apply xgetpart_ok in E. rewrite Z.mul_0_l, Z.sub_0_r in E. exact E. Qed.

Lemma field_head n w v rest : field (S n) w v -> exists c t, w ++ rest = c :: t /\ is_digit_of 10 c.
Proof.
  intros (L & F & _). destruct w as [|c w]; [discriminate|]. inversion F; subst. exists c, (w ++ rest). auto.
Qed.

Lemma skip_one c s : exists o, optional c o /\ s = o ++ skip [c] s.
Proof.
  unfold optional, skip. destruct s as [|d s]; [exists []; auto|]. cbn [existsb]. rewrite orb_false_r.
  destruct (Byte.eqb d c) eqn:E; [|exists []; auto]. apply Byte.byte_dec_bl in E. subst. exists [c]. auto.
Qed.
Lemma skip_two c d s : exists o, (optional c o \/ optional d o) /\ s = o ++ skip [c; d] s.
Proof.
  unfold optional, skip. destruct s as [|x s]; [exists []; auto|]. cbn [existsb]. rewrite orb_false_r.
  destruct (Byte.eqb x c) eqn:E; cbn [orb].
  - apply Byte.byte_dec_bl in E. subst. exists [c]. auto.
  - destruct (Byte.eqb x d) eqn:E'; [|exists []; auto]. apply Byte.byte_dec_bl in E'. subst. exists [d]. auto.
Qed.

Lemma not_digit c d : is_digit_of 10 c -> ~ is_digit_of 10 d -> Byte.eqb c d = false.
Proof.
  intros H N. destruct (Byte.eqb c d) eqn:E; [|reflexivity]. apply Byte.byte_dec_bl in E. subst. contradiction.
Qed.
Ltac nd := unfold is_digit_of; cbn; lia.

Lemma skip_field cs n o w v rest : field (S n) w v -> (forall c, In c cs -> ~ is_digit_of 10 c) ->
  o = [] \/ (exists c, o = [c] /\ In c cs) -> skip cs (o ++ w ++ rest) = w ++ rest.
Proof.
  intros F N O. destruct O as [-> |(c & -> & I)].
  - destruct (field_head _ _ _ rest F) as (c & t & E & D). cbn [app]. rewrite E. unfold skip.
    replace (existsb (Byte.eqb c) cs) with false; [reflexivity|]. symmetry. apply not_true_iff_false. intros X.
    apply existsb_exists in X. destruct X as (d & I & X). rewrite (not_digit _ _ D (N d I)) in X. discriminate.
  - cbn [app skip]. replace (existsb (Byte.eqb c) cs) with true; [reflexivity|]. symmetry.
    apply existsb_exists. exists c. split; [exact I|]. apply Byte.byte_dec_lb. reflexivity.
Qed.

Lemma skip_opt c n o w v rest : field (S n) w v -> ~ is_digit_of 10 c -> optional c o ->
  skip [c] (o ++ w ++ rest) = w ++ rest.
Proof.
  intros F N O. eapply skip_field; [exact F|intros d [<-|[]]; exact N|].
  destruct O as [-> | ->]; [auto|right; exists c; split; [reflexivity|left; reflexivity]].
Qed.

Lemma get_zone_ok s z : get_zone s = Some z <-> zone s z.
Proof.
  split.
  - assert (G : forall c k s, (c = "+"%byte /\ k = 1 \/ c = "-"%byte /\ k = -1) ->
      forall r, match xgetpart 2 0 s with
        | None => None
        | Some (tz_hour, []) => Some (Some (k * ((tz_hour * 60 + 0) * 60)))
        | Some (tz_hour, s) =>
            match xgetpart 2 0 (skip [":"%byte] s) with
            | Some (tz_min, []) => Some (Some (k * ((tz_hour * 60 + tz_min) * 60)))
            | _ => None
            end
        end = Some r -> zone (c :: s) r).
    { clear. intros c k s H r E. destruct (xgetpart 2 0 s) as [[h rest]|] eqn:P; [|discriminate].
      apply field_part in P. destruct P as (w & -> & F). destruct rest as [|x rest].
      - injection E as <-. rewrite app_nil_r. replace (k * ((h * 60 + 0) * 60)) with (k * (h * 3600)) by lia.
        eapply Offset; eassumption.
      - set (y := x :: rest) in *. clearbody y. clear x rest.
        destruct (skip_one ":" y) as (o & O & Ey).
        destruct (xgetpart 2 0 (skip [":"%byte] y)) as [[m rest]|] eqn:P2; [|discriminate].
        destruct rest; [|discriminate]. injection E as <-.
        apply field_part in P2. destruct P2 as (w2 & E2 & F2). rewrite app_nil_r in E2. rewrite Ey, E2.
        replace (k * ((h * 60 + m) * 60)) with (k * (h * 3600 + m * 60)) by lia.
        eapply Offset_min; eassumption. }
    intros E. destruct s as [|c s]; [injection E as <-; constructor|].
    destruct c; try discriminate.
    + apply (G "+"%byte 1); [auto|]. rewrite <- E. cbn [get_zone Byte.eqb Byte.to_N].
      change (Byte.eqb "+" "-") with false. cbv iota beta.
      destruct (xgetpart 2 0 s) as [[h [|x rest]]|]; [do 2 f_equal; lia| |reflexivity].
      destruct (xgetpart 2 0 (skip [":"%byte] (x :: rest))) as [[m [|? ?]]|]; [do 2 f_equal; lia|reflexivity|reflexivity].
    + apply (G "-"%byte (-1)); [auto|]. rewrite <- E. cbn [get_zone Byte.eqb Byte.to_N].
      change (Byte.eqb "-" "-") with true. cbv iota beta.
      destruct (xgetpart 2 0 s) as [[h [|x rest]]|]; [do 2 f_equal; lia| |reflexivity].
      destruct (xgetpart 2 0 (skip [":"%byte] (x :: rest))) as [[m [|? ?]]|]; [do 2 f_equal; lia|reflexivity|reflexivity].
    + destruct s; [injection E as <-; constructor|discriminate].
  - intros Z. inversion Z as [| |sgn k h vh K Fh|sgn k h vh c m vm K Fh O Fm]; subst; try reflexivity.
    + pose proof (part_field _ _ _ [] Fh) as P. rewrite app_nil_r in P.
      destruct K as [[-> ->]|[-> ->]]; cbn [get_zone]; rewrite P; [change (Byte.eqb "+" "-") with false|change (Byte.eqb "-" "-") with true];
        cbv iota beta; do 2 f_equal; lia.
    + assert (G : exists x y, c ++ m = x :: y).
      { destruct c; [|eexists; eexists; reflexivity]. destruct (field_head _ _ _ [] Fm) as (x & y & E & _).
        rewrite app_nil_r in E. eauto. }
      destruct G as (x & y & G).
      pose proof (part_field _ _ _ (c ++ m) Fh) as P.
      assert (Sk : skip [":"%byte] (c ++ m) = m).
      { pose proof (skip_opt ":" _ c m vm [] Fm ltac:(nd) O) as X. rewrite app_nil_r in X. exact X. }
      pose proof (part_field _ _ _ [] Fm) as P2. rewrite app_nil_r in P2.
      destruct K as [[-> ->]|[-> ->]]; cbn [get_zone]; rewrite P, G, <- G, Sk, P2;
        [change (Byte.eqb "+" "-") with false|change (Byte.eqb "-" "-") with true];
        cbv iota beta; do 2 f_equal; lia.
Qed.

Lemma zone_head z vz : zone z vz -> match z with [] => True | c :: _ => c <> ":"%byte /\ ~ is_digit_of 10 c end.
Proof.
  intros Z. inversion Z as [| |sgn k h vh K Fh|sgn k h vh c m vm K Fh O Fm]; subst; [exact I|split; [discriminate|nd]| |];
    destruct K as [[-> _]|[-> _]]; (split; [discriminate|nd]).
Qed.

(** A field that is there, and one that is not *)
Lemma get_field_there o w v rest k zn : optional ":" o -> field 2 w v -> get_field (o ++ w ++ rest) k zn = k v rest.
Proof.
  intros O F. destruct (field_head _ _ _ rest F) as (x & y & E & D).
  assert (Hd : exists c t, o ++ w ++ rest = c :: t /\ (c = ":"%byte \/ is_digit_of 10 c)).
  { destruct O as [-> | ->]; [exists x, y; auto|]. eexists; eexists; split; [reflexivity|auto]. }
  destruct Hd as (c & t & Ec & Hc). unfold get_field. rewrite Ec.
  replace (Byte.eqb c ":" || _) with true.
  - rewrite <- Ec. rewrite (skip_opt ":" _ _ _ _ _ F ltac:(nd) O). rewrite (part_field _ _ _ _ F). reflexivity.
  - symmetry. destruct Hc as [-> |Hc]; [reflexivity|]. apply orb_true_iff. right.
    destruct (digit 10 c) eqn:X; [reflexivity|]. apply digit_none in X. contradiction.
Qed.
Lemma get_field_absent z vz k zn : zone z vz -> get_field z k zn = zn z.
Proof.
  intros Z. apply zone_head in Z. unfold get_field. destruct z as [|c z]; [reflexivity|]. destruct Z as [Z1 Z2].
  replace (Byte.eqb c ":" || _) with false; [reflexivity|]. symmetry. apply orb_false_iff. split.
  - destruct (Byte.eqb c ":") eqn:E; [|reflexivity]. apply Byte.byte_dec_bl in E. contradiction.
  - apply digit_none in Z2. rewrite Z2. reflexivity.
Qed.
Lemma get_field_inv s k zn p : get_field s k zn = Some p ->
  (exists o w v rest, optional ":" o /\ field 2 w v /\ s = o ++ w ++ rest /\ k v rest = Some p) \/ zn s = Some p.
Proof.
  unfold get_field. destruct s as [|c s]; [auto|]. destruct (_ || _); [|auto].
  destruct (xgetpart 2 0 (skip [":"%byte] (c :: s))) as [[v rest]|] eqn:P; [|discriminate].
  intros E. left. apply field_part in P. destruct P as (w & Ew & F). destruct (skip_one ":" (c :: s)) as (o & O & Eo).
  exists o, w, v, rest. rewrite <- Ew. auto.
Qed.

Lemma get_date_sound s p : get_date s = Some p -> date s p.
Proof.
  unfold get_date. destruct (xgetpart 4 0 s) as [[year s1]|] eqn:P1; [|discriminate].
  apply field_part in P1. destruct P1 as (y & -> & Fy).
  destruct (skip_one "-" s1) as (o1 & O1 & E1).
  destruct (xgetpart 2 0 (skip ["-"%byte] s1)) as [[mon s2]|] eqn:P2; [|discriminate].
  apply field_part in P2. destruct P2 as (m & E2 & Fm). rewrite E2 in E1. subst s1. clear E2.
  destruct (skip_one "-" s2) as (o2 & O2 & E3).
  destruct (xgetpart 2 0 (skip ["-"%byte] s2)) as [[mday s3]|] eqn:P3; [|discriminate].
  apply field_part in P3. destruct P3 as (d & E4 & Fd). rewrite E4 in E3. subst s2. clear E4.
  destruct s3 as [|x s3].
  { cbn [get_zone option_map]. intros E. injection E as <-. rewrite app_nil_r. apply Day; assumption. }
  set (t := x :: s3) in *. clearbody t. clear x s3.
  destruct (skip_two "T" " " t) as (o3 & O3 & E5).
  destruct (xgetpart 2 0 (skip ["T"; " "]%byte t)) as [[hour s4]|] eqn:P4; [|discriminate].
  apply field_part in P4. destruct P4 as (h & E6 & Fh). rewrite E6 in E5. subst t. clear E6.
  assert (Z : forall hh mm ss s, option_map (mkParsed year mon mday hh mm ss) (get_zone s) = Some p ->
            exists vz, zone s vz /\ p = mkParsed year mon mday hh mm ss vz).
  { clear. intros hh mm ss s E. destruct (get_zone s) as [vz|] eqn:Z; [|discriminate]. injection E as <-.
    apply get_zone_ok in Z. eauto. }
  intros E. apply get_field_inv in E. destruct E as [(o4 & w & min & s5 & O4 & Fw & -> & E)|E].
  - apply get_field_inv in E. destruct E as [(o5 & w2 & sec & s6 & O5 & Fw2 & -> & E)|E].
    + apply Z in E. destruct E as (vz & Hz & ->).
      replace (o3 ++ h ++ o4 ++ w ++ o5 ++ w2 ++ s6) with (o3 ++ (h ++ o4 ++ w ++ o5 ++ w2) ++ s6) by (rewrite <- !app_assoc; reflexivity).
      apply Time; try assumption. apply Seconds; assumption.
    + apply Z in E. destruct E as (vz & Hz & ->).
      replace (o3 ++ h ++ o4 ++ w ++ s5) with (o3 ++ (h ++ o4 ++ w) ++ s5) by (rewrite <- !app_assoc; reflexivity).
      apply Time; try assumption. apply Minutes; assumption.
  - apply Z in E. destruct E as (vz & Hz & ->). apply Time; try assumption. apply Hours; assumption.
Qed.

Lemma get_date_complete s p : date s p -> get_date s = Some p.
Proof.
  intros D. unfold get_date. inversion D as
    [y vy c m vm d md vd Fy Oc Fm Od Fd|y vy c m vm d md vd t k vh vmi vs z vz Fy Oc Fm Od Fd Ot K Z]; subst.
  - rewrite (part_field _ _ _ _ Fy). rewrite (skip_opt "-" _ _ _ _ _ Fm ltac:(nd) Oc).
    rewrite (part_field _ _ _ _ Fm). pose proof (skip_opt "-" _ _ _ _ [] Fd ltac:(nd) Od) as Sk.
    rewrite app_nil_r in Sk. rewrite Sk. pose proof (part_field _ _ _ [] Fd) as P. rewrite app_nil_r in P. rewrite P.
    reflexivity.
  - rewrite (part_field _ _ _ _ Fy). rewrite (skip_opt "-" _ _ _ _ _ Fm ltac:(nd) Oc).
    rewrite (part_field _ _ _ _ Fm). rewrite (skip_opt "-" _ _ _ _ _ Fd ltac:(nd) Od).
    rewrite (part_field _ _ _ _ Fd).
    assert (H : exists h rest, k ++ z = h ++ rest /\ field 2 h vh /\
      get_field rest (fun min s => get_field s (fun sec s => option_map (mkParsed vy vm vd vh min sec) (get_zone s))
          (fun s => option_map (mkParsed vy vm vd vh min 0) (get_zone s)))
        (fun s => option_map (mkParsed vy vm vd vh 0 0) (get_zone s)) = Some (mkParsed vy vm vd vh vmi vs vz)).
    { pose proof Z as Z'. apply get_zone_ok in Z'.
      inversion K as [h vh' Fh|h vh' c' m' vm' Fh Oc' Fm'|h vh' c' m' vm' d' s' vs' Fh Oc' Fm' Od' Fs']; subst.
      - exists k, z. split; [reflexivity|]. split; [assumption|]. rewrite (get_field_absent _ _ _ _ Z), Z'. reflexivity.
      - exists h, (c' ++ m' ++ z). split; [rewrite <- !app_assoc; reflexivity|]. split; [assumption|].
        rewrite (get_field_there _ _ _ _ _ _ Oc' Fm'), (get_field_absent _ _ _ _ Z), Z'. reflexivity.
      - exists h, (c' ++ m' ++ d' ++ s' ++ z). split; [rewrite <- !app_assoc; reflexivity|]. split; [assumption|].
        rewrite (get_field_there _ _ _ _ _ _ Oc' Fm'), (get_field_there _ _ _ _ _ _ Od' Fs'), Z'. reflexivity. }
    destruct H as (h & rest & E & Fh & G). rewrite E.
    assert (Sk : skip ["T"; " "]%byte (t ++ h ++ rest) = h ++ rest).
    { eapply skip_field; [exact Fh|intros x [<-|[<-|[]]]; nd|].
      destruct Ot as [[-> | ->]|[-> | ->]]; eauto; right; [exists "T"%byte|exists " "%byte]; cbn; auto. }
    rewrite Sk, (part_field _ _ _ _ Fh).
    destruct (t ++ h ++ rest) eqn:X; [|exact G].
    destruct (field_head _ _ _ rest Fh) as (c0 & t0 & E0 & _). rewrite E0 in X. destruct t; discriminate.
Qed.

Lemma get_date_ok s p : get_date s = Some p <-> date s p.
Proof. split; [apply get_date_sound|apply get_date_complete]. Qed.

Lemma field_bound n w v : field n w v -> 0 <= v < 10 ^ Z.of_nat n.
Proof.
  intros (<- & F & ->). induction F as [|c w D F IH]; cbn [value length]; [cbn; lia|].
  rewrite Nat2Z.inj_succ, Z.pow_succ_r by lia. unfold is_digit_of, digit_value in *. nia.
Qed.

Lemma date_bounds s p : date s p -> 0 <= p_year p < 10000 /\ 0 <= p_mon p < 100 /\ 0 <= p_mday p < 100 /\
  0 <= p_hour p < 100 /\ 0 <= p_min p < 100 /\ 0 <= p_sec p < 100.
Proof.
  intros D. inversion D as
    [y vy c m vm d md vd Fy Oc Fm Od Fd|y vy c m vm d md vd t k vh vmi vs z vz Fy Oc Fm Od Fd Ot K Z]; subst;
    cbn [p_year p_mon p_mday p_hour p_min p_sec];
    apply field_bound in Fy, Fm, Fd; cbn in Fy, Fm, Fd; [lia|].
  inversion K as [h vh' Fh|h vh' c' m' vm' Fh Oc' Fm'|h vh' c' m' vm' d' s' vs' Fh Oc' Fm' Od' Fs']; subst;
    repeat match goal with H : field _ _ _ |- _ => apply field_bound in H; cbn in H end; lia.
Qed.

Lemma date_timegm s p : date s p -> exists t, TmModel.xtimegm 64 (tm_of p) = TmModel.Ok (t, utc_second p 0).
Proof.
  intros D. apply date_bounds in D. unfold utc_second. fold (tm_of p).
  assert (W : fields_within (2 ^ 30) (tm_of p)) by (unfold fields_within, tm_of; cbn; lia).
  destruct (xtimegm_total _ W) as ([t sec] & E). exists t. rewrite E. do 2 f_equal.
  apply xtimegm_correct in E. rewrite Z.sub_0_r. apply E.
Qed.

Lemma xgetdate_ok isspace xmktime : sane isspace -> forall s ts,
  xgetdate isspace xmktime s = Some ts <->
  tv_nsec ts = 0 /\
  ((exists t, s = "@"%byte :: t /\ numeral 10 t (tv_sec ts) [] /\ - 2 ^ 63 <= tv_sec ts < 2 ^ 63) \/
   (exists p offset, date s p /\ p_zone p = Some offset /\ tv_sec ts = utc_second p offset) \/
   (exists p, date s p /\ p_zone p = None /\ xmktime (tm_of p) = Some (tv_sec ts))).
Proof.
  intros S s ts.
  assert (At : forall t p, ~ date ("@"%byte :: t) p).
  { intros t p D. apply get_date_ok in D. discriminate. }
  assert (G : match get_date s with
    | None => None
    | Some p =>
        match p_zone p with
        | None => option_map (fun t => mkTs t 0) (xmktime (tm_of p))
        | Some offset =>
            match TmModel.xtimegm 64 (tm_of p) with
            | TmModel.Ok (_, t) => Some (mkTs (t - offset) 0)
            | _ => None
            end
        end
    end = Some ts <->
    tv_nsec ts = 0 /\
    ((exists p offset, date s p /\ p_zone p = Some offset /\ tv_sec ts = utc_second p offset) \/
     (exists p, date s p /\ p_zone p = None /\ xmktime (tm_of p) = Some (tv_sec ts)))).
  { destruct (get_date s) as [p|] eqn:E.
    - apply get_date_ok in E.
      assert (One : forall p', date s p' -> p' = p).
      { intros p' D'. apply get_date_ok in E, D'. congruence. }
      destruct (p_zone p) as [offset|] eqn:Z.
      + destruct (date_timegm _ _ E) as (t & ->). split.
        * intros X. injection X as <-. cbn [tv_nsec tv_sec]. split; [reflexivity|]. left. exists p, offset.
          split; [exact E|]. split; [exact Z|]. unfold utc_second. lia.
        * intros (N & [(p' & o' & D' & Z' & T)|(p' & D' & Z' & T)]); rewrite (One p' D') in *; [|congruence].
          assert (o' = offset) by congruence. subst o'. f_equal. destruct ts as [ts0 tn]. cbn in *. subst tn. f_equal.
          rewrite T. unfold utc_second. lia.
      + split.
        * destruct (xmktime (tm_of p)) as [t|] eqn:M; [|discriminate]. intros X. injection X as <-.
          cbn [tv_nsec tv_sec]. split; [reflexivity|]. right. exists p. auto.
        * intros (N & [(p' & o' & D' & Z' & T)|(p' & D' & Z' & T)]); rewrite (One p' D') in *; [congruence|].
          rewrite T. cbn [option_map]. destruct ts as [ts0 tn]. cbn in *. subst tn. reflexivity.
    - split; [discriminate|]. intros (N & [(p' & o' & D' & _)|(p' & D' & _)]); apply get_date_ok in D'; congruence. }
  destruct s as [|c s].
  { cbn [xgetdate]. rewrite G. split; intros (N & H); (split; [exact N|]); [tauto|].
    destruct H as [(t & X & _)|H]; [discriminate|exact H]. }
  destruct (Byte.byte_eq_dec c "@") as [->|NE].
  - cbn [xgetdate]. clear G. split.
    + destruct (xstrtoll isspace false 10 s) as [[v r]|e] eqn:X; [|discriminate]. intros E. injection E as <-.
      apply (xstrtoll_ok isspace S) in X; [|lia]. destruct X as (N & [Y| ->] & R); [discriminate|].
      unfold LLONG_MIN, LLONG_MAX in R. cbn [tv_nsec tv_sec]. split; [reflexivity|]. left. exists s. split; [reflexivity|]. split; [exact N|lia].
    + intros (N & [(t & E & M & R)|[(p & o & D & _)|(p & D & _)]]); try (exfalso; eapply At; eassumption).
      injection E as <-.
      assert (X : xstrtoll isspace false 10 s = inl (tv_sec ts, [])).
      { apply (xstrtoll_ok isspace S); [lia|]. unfold LLONG_MIN, LLONG_MAX. split; [exact M|]. split; [auto|lia]. }
      rewrite X. destruct ts as [ts0 tn]. cbn in *. subst tn. reflexivity.
  - transitivity (tv_nsec ts = 0 /\
      ((exists p offset, date (c :: s) p /\ p_zone p = Some offset /\ tv_sec ts = utc_second p offset) \/
       (exists p, date (c :: s) p /\ p_zone p = None /\ xmktime (tm_of p) = Some (tv_sec ts)))).
    + rewrite <- G. unfold xgetdate. destruct c; try reflexivity. congruence.
    + split; intros (N & H); (split; [exact N|]); [tauto|].
      destruct H as [(t & X & _)|H]; [congruence|exact H].
Qed.

(** ** Statements for the properties *)

Lemma parse_time_days isspace : sane isspace -> forall s cmp num,
  parse_time isspace s = TimeArg cmp num BFS_DAYS <->
  exists t, prefixed s cmp t /\ numeral 10 t num [] /\ 0 <= num < 2 ^ 63.
Proof.
  intros S s cmp num. rewrite (parse_time_ok isspace S). split; intros (t & P & H).
  - destruct H as [(_ & H)|(H & _)]; [eauto|discriminate].
  - exists t. split; [exact P|]. left. auto.
Qed.
Lemma parse_time_seconds isspace : sane isspace -> forall s cmp num,
  parse_time isspace s = TimeArg cmp num BFS_SECONDS <->
  exists t total, prefixed s cmp t /\ duration t total /\ wrapped total num.
Proof.
  intros S s cmp num. rewrite (parse_time_ok isspace S). split.
  - intros (t & P & [(H & _)|(_ & total & D & W)]); [discriminate|]. eauto.
  - intros (t & total & P & D & W). exists t. split; [exact P|]. right. eauto.
Qed.
Lemma parse_time_exact isspace : sane isspace -> forall s cmp t total,
  prefixed s cmp t -> duration t total -> 0 <= total < 2 ^ 63 ->
  parse_time isspace s = TimeArg cmp total BFS_SECONDS.
Proof.
  intros S s cmp t total P D R. apply (parse_time_seconds isspace S). exists t, total. split; [exact P|].
  split; [exact D|]. split; [lia|]. exists 0. lia.
Qed.
Lemma parse_time_minutes isspace : sane isspace -> forall s cmp num, parse_time isspace s <> TimeArg cmp num BFS_MINUTES.
Proof.
  intros S s cmp num. rewrite (parse_time_ok isspace S). intros (t & P & [(H & _)|(H & _)]); discriminate.
Qed.
Lemma parse_time_wraps isspace : sane isspace ->
  exists s t total num, prefixed s BFS_INT_GREATER t /\ duration t total /\
    parse_time isspace s = TimeArg BFS_INT_GREATER num BFS_SECONDS /\ num < 0 < total.
Proof.
  intros S.
  set (t := ["9";"2";"2";"3";"3";"7";"2";"0";"3";"6";"8";"5";"4";"7";"7";"5";"8";"0";"7";"w"]%byte).
  exists ("+"%byte :: t), t, (9223372036854775807 * (7 * 24 * 60 * 60)), (-604800).
  assert (P : prefixed ("+"%byte :: t) BFS_INT_GREATER t) by (unfold prefixed; tauto).
  assert (D : duration t (9223372036854775807 * (7 * 24 * 60 * 60))).
  { apply (Last t 9223372036854775807 "w").
    - exists [], (firstn 19 t). split; [reflexivity|]. split; [discriminate|]. split; [|split].
      + cbn [firstn t]. repeat apply Forall_cons; try apply Forall_nil; unfold is_digit_of; cbn; lia.
      + unfold is_digit_of. cbn. lia.
      + left. split; reflexivity.
    - lia.
    - unfold unit_seconds. cbn. tauto. }
  split; [exact P|]. split; [exact D|]. split; [|lia].
  apply (parse_time_seconds isspace S). exists t. eexists. split; [exact P|]. split; [exact D|].
  split; [lia|]. exists (-302400). lia.
Qed.
Lemma future_truncates : exists ref t b, normal ref /\ normal t /\ apart ref t /\
  (86400 - 1) * second < instant t - instant ref < 86400 * second /\
  eval_time BFS_DAYS BFS_INT_LESS 0 ref t = Some b /\ b = true.
Proof.
  exists (mkTs 0 1), (mkTs 86400 0). eexists. vm_compute. repeat split; try discriminate; reflexivity.
Qed.
