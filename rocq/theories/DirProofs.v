(** * Proofs about reading directories *)
From Coq Require Import List NArith Arith Bool Init.Byte Lia.
From Coq Require Import Strings.Byte.
From Verif Require Import DirModel DirSpec.
Import ListNotations.
Local Open Scope N_scope.

Definition holds (b : N -> byte) (p : N) (l : list byte) : Prop := forall i, (i < length l)%nat -> b (p + N.of_nat i) = nth i l x00.
Notation len l := (N.of_nat (length l)).
Lemma holds_app b p l l' : holds b p (l ++ l') <-> holds b p l /\ holds b (p + len l) l'.
Proof.
  split.
  - intros H. split; intros i L.
    + rewrite H by (rewrite app_length; lia). apply app_nth1, L.
    + replace (p + len l + N.of_nat i) with (p + N.of_nat (length l + i)) by lia. rewrite H by (rewrite app_length; lia). rewrite app_nth2 by lia. f_equal. lia.
  - intros [H H'] i L. rewrite app_length in L. destruct (Nat.lt_ge_cases i (length l)) as [G|G].
    + rewrite app_nth1 by exact G. apply H, G.
    + rewrite app_nth2 by lia. rewrite <- H' by lia. f_equal. lia.
Qed.
Lemma holds_one b p c : holds b p [c] <-> b p = c.
Proof.
  split; [intros H; specialize (H O); cbn in H; rewrite N.add_0_r in H; apply H; lia|]. intros H i L. cbn in L. assert (i = O) by lia. subst i. cbn. rewrite N.add_0_r. exact H.
Qed.
Lemma holds_cons b p c l : holds b p (c :: l) <-> b p = c /\ holds b (p + 1) l.
Proof. change (c :: l) with ([c] ++ l). rewrite holds_app, holds_one. reflexivity. Qed.
Lemma fill_here b p l : holds (fill b p l) p l.
Proof.
  intros i L. unfold fill. destruct (N.leb_spec p (p + N.of_nat i)); [|lia]. destruct (N.ltb_spec (p + N.of_nat i) (p + len l)); [|lia]. cbn. f_equal. lia.
Qed.
Lemma fill_before b p q l l' : holds b p l -> p + len l <= q -> holds (fill b q l') p l.
Proof. intros H L i I. unfold fill. destruct (N.leb_spec q (p + N.of_nat i)); [lia|]. apply H, I. Qed.

Lemma byte_neq c d : c <> d -> Byte.eqb c d = false.
Proof. intros H. destruct (Byte.eqb c d) eqn:E; [apply Byte.byte_dec_bl in E; congruence|reflexivity]. Qed.
Lemma byte_of_N n : n < 256 -> exists b, Byte.of_N n = Some b /\ Byte.to_N b = n.
Proof.
  intros H. destruct (Byte.of_N n) as [b|] eqn:E; [exists b; split; [reflexivity|apply Byte.to_of_N, E]|]. apply Byte.of_N_None_iff in E. lia.
Qed.
Lemma little_ok n : N.of_nat n < 65536 -> exists a b, little n = [a; b] /\ Byte.to_N a + 256 * Byte.to_N b = N.of_nat n.
Proof.
  intros H. unfold little. destruct (byte_of_N (N.of_nat n mod 256)) as (a & -> & Ea); [apply N.mod_lt; lia|].
  destruct (byte_of_N (N.of_nat n / 256)) as (b & -> & Eb); [apply N.div_lt_upper_bound; [lia|]; lia|]. exists a, b. split; [reflexivity|].
  rewrite Ea, Eb. pose proof (N.div_mod (N.of_nat n) 256). lia.
Qed.
Lemma small n : (n <= 280)%nat -> N.of_nat n < 65536.
Proof. lia. Qed.
Lemma encode_len e : proper e -> length (encode e) = reclen e.
Proof.
  intros (H1 & H2 & _ & _ & _ & H3 & _). unfold encode. destruct (little_ok (reclen e) (small _ H3)) as (a & b & -> & _). rewrite !app_length. cbn [length]. unfold reclen. lia.
Qed.

Section Fields.
  Variables (b : N -> byte) (p : N) (e : entry).
  Hypothesis P : proper e.
  Hypothesis H : holds b p (encode e).
  Lemma parts : exists x y, Byte.to_N x + 256 * Byte.to_N y = N.of_nat (reclen e) /\ b (p + 16) = x /\ b (p + 17) = y /\ b (p + 18) = etype e /\ holds b (p + 19) (name e ++ [x00]).
  Proof.
    destruct P as (H1 & H2 & _ & _ & _ & H3 & _). destruct (little_ok (reclen e) (small _ H3)) as (x & y & E & S). exists x, y. split; [exact S|]. revert H. unfold encode. rewrite E.
    rewrite holds_app, H1. intros [_ G]. rewrite holds_app, H2 in G. destruct G as [_ G]. cbn [app] in G. rewrite !holds_cons in G. destruct G as (G1 & G2 & G3 & G4).
    replace (p + N.of_nat 8 + N.of_nat 8) with (p + 16) in * by lia. replace (p + 16 + 1) with (p + 17) in * by lia. replace (p + 17 + 1) with (p + 18) in * by lia. replace (p + 18 + 1) with (p + 19) in * by lia.
    repeat split; auto. change (name e ++ x00 :: pad e) with (name e ++ [x00] ++ pad e) in G4. rewrite app_assoc in G4. apply holds_app in G4. apply G4.
  Qed.
  Lemma reclen_ok : d_reclen b p = N.of_nat (reclen e).
  Proof. unfold d_reclen. destruct parts as (x & y & S & E1 & E2 & _). rewrite E1, E2. exact S. Qed.
  Lemma type_ok : d_type b p = Byte.to_N (etype e).
  Proof. unfold d_type. destruct parts as (x & y & _ & _ & _ & -> & _). reflexivity. Qed.
  Lemma cstr_ok l : forall fuel q, holds b q (l ++ [x00]) -> ~ In x00 l -> (length l < fuel)%nat -> cstr fuel b q = Some l.
  Proof.
    induction l as [|c l IH]; intros [|fuel] q G N L; cbn [length] in L; try lia; cbn [cstr app] in *.
    - apply holds_one in G. rewrite G. reflexivity.
    - apply holds_cons in G. destruct G as [-> G]. destruct (Byte.eqb c x00) eqn:E; [apply Byte.byte_dec_bl in E; subst; cbn in N; tauto|]. rewrite (IH fuel (q + 1) G); [reflexivity| |lia]. cbn in N. tauto.
  Qed.
  Lemma name_ok : d_name b p = Some (name e).
  Proof.
    unfold d_name. destruct P as (_ & _ & N & _ & L & _). destruct parts as (x & y & _ & _ & _ & _ & G). apply cstr_ok; [exact G|exact N|lia].
  Qed.
  Lemma skip_ok w eo po si : bfs_skipdent (mkDir eo w po si b) p = negb (listed w e).
  Proof.
    unfold bfs_skipdent, listed. cbn [buf whiteouts]. rewrite type_ok. destruct P as (_ & _ & N & Ne & _). destruct parts as (x & y & _ & _ & _ & _ & G). change DT_WHT with 14.
    destruct (Byte.to_N (etype e) =? 14); cbn [andb negb]; [destruct w; cbn [orb negb]|]; rewrite ?andb_false_r, ?orb_true_r, ?andb_true_r; cbn [negb]; try reflexivity.
    all: destruct (name e) as [|c l]; [congruence|]; cbn [app] in G; apply holds_cons in G; destruct G as [-> G]; replace (p + 19 + 1) with (p + 20) in G by lia.
    all: assert (Ec : Byte.eqb c x00 = false) by (apply byte_neq; intros ->; cbn in N; tauto).
    all: destruct l as [|c' l]; cbn [app] in G; [apply holds_one in G; rewrite G; change (Byte.eqb x00 x00) with true; cbn [orb]; rewrite andb_true_r|].
    1,3: destruct (Byte.eqb c x2e) eqn:E; [apply Byte.byte_dec_bl in E; subst; reflexivity|]; destruct (list_eq_dec Byte.byte_eq_dec [c] [x2e]) as [X|X]; [injection X as ->; discriminate|]; destruct (list_eq_dec Byte.byte_eq_dec [c] [x2e; x2e]); [discriminate|reflexivity].
    all: apply holds_cons in G; destruct G as [-> G]; replace (p + 20 + 1) with (p + 21) in G by lia; assert (Ec' : Byte.eqb c' x00 = false) by (apply byte_neq; intros ->; cbn in N; tauto); rewrite Ec'; cbn [orb].
    all: destruct (list_eq_dec Byte.byte_eq_dec (c :: c' :: l) [x2e]) as [X|_]; [discriminate|]; cbn [negb andb].
    all: destruct l as [|c2 l]; cbn [app] in G.
    1,3: apply holds_one in G; rewrite G; change (Byte.eqb x00 x00) with true; rewrite andb_true_r; destruct (list_eq_dec Byte.byte_eq_dec [c; c'] [x2e; x2e]) as [X|X]; [injection X as -> ->; reflexivity|]; cbn [negb]; apply andb_false_iff; destruct (Byte.eqb c x2e) eqn:E1; auto; right; destruct (Byte.eqb c' x2e) eqn:E2; auto; apply Byte.byte_dec_bl in E1, E2; congruence.
    all: apply holds_cons in G; destruct G as [-> _]; assert (E2 : Byte.eqb c2 x00 = false) by (apply byte_neq; intros ->; cbn in N; tauto); rewrite E2, !andb_false_r; destruct (list_eq_dec Byte.byte_eq_dec (c :: c' :: c2 :: l) [x2e; x2e]); [discriminate|reflexivity].
  Qed.
  Lemma d_type_ok w eo po si : bfs_d_type (mkDir eo w po si b) p = type_of (etype e).
  Proof.
    unfold bfs_d_type. cbn [buf]. rewrite type_ok. destruct P as (_ & _ & _ & _ & _ & _ & T). destruct (etype e); try reflexivity; vm_compute in T; discriminate.
  Qed.
End Fields.

Lemma BUF_val : BUF_SIZE = 65520.
Proof. reflexivity. Qed.

Section Reading.
  Variables (K : Type) (getdents : K -> N -> K * answer) (left_ : K -> list entry).
  Hypothesis L : lists getdents left_.
  Notation polldir := (bfs_polldir K getdents).
  Notation readdir := (bfs_readdir K getdents).

  Definition bytes (es : list entry) : list byte := concat (map encode es).
  Record Inv (k : K) (d : dir) (es : list entry) : Prop := {
    i_size : size d = pos d + len (bytes es);
    i_buf : size d <= BUF_SIZE;
    i_holds : holds (buf d) (pos d) (bytes es);
    i_proper : Forall proper es;
    i_eof : eof d = true -> left_ k = []
  }.
  Lemma bytes_nil es : Forall proper es -> bytes es = [] -> es = [].
  Proof.
    destruct es as [|e es]; [reflexivity|]. intros F E. inversion F; subst. apply (f_equal (@length _)) in E. unfold bytes in E. cbn [map concat] in E. rewrite app_length, encode_len in E by assumption. unfold reclen in E. cbn in E. lia.
  Qed.
  Lemma left_part k es k' : left_ k = es ++ left_ k' -> Forall proper es.
  Proof. intros E. pose proof (l_proper _ _ L k) as F. rewrite E in F. apply Forall_app in F. apply F. Qed.

  Lemma poll_ok k d es : Inv k d es -> let '(k', d', r) := polldir k d in whiteouts d' = whiteouts d /\
    exists es', Inv k' d' es' /\ es ++ left_ k = es' ++ left_ k' /\
      match r with Ready => es' <> [] | Eof => es = [] /\ es' = [] /\ left_ k' = [] /\ eof d' = true | PollError => es' = [] /\ ~ reliable getdents end.
  Proof.
    intros I. pose proof (i_size _ _ _ I) as Is. unfold bfs_polldir. destruct (N.ltb_spec (pos d) (size d)) as [G|G].
    - split; [reflexivity|]. exists es. split; [exact I|]. split; [reflexivity|]. intros ->. cbn in Is. lia.
    - assert (Z : length (bytes es) = O) by lia. apply length_zero_iff_nil in Z. apply (bytes_nil _ (i_proper _ _ _ I)) in Z. subst es. cbn [app].
      destruct (eof d) eqn:Ee.
      { split; [reflexivity|]. exists []. split; [exact I|]. split; [reflexivity|]. auto using (i_eof _ _ _ I). }
      destruct (getdents k BUF_SIZE) as [k1 [l|]] eqn:E1.
      2: { split; [reflexivity|]. exists []. pose proof (l_fail _ _ L _ _ _ E1) as X. split; [|split; [cbn; congruence|]].
           - constructor; try apply I. rewrite Ee. discriminate.
           - split; [reflexivity|]. intros R. specialize (R k BUF_SIZE). rewrite E1 in R. apply R; [rewrite BUF_val; lia|reflexivity]. }
      destruct l as [|c l].
      { destruct (l_end _ _ L _ _ _ E1) as [X Y]. split; [reflexivity|]. exists []. split; [|split; [cbn; congruence|auto]].
        constructor; cbn [eof whiteouts pos size buf]; try apply I. auto. }
      set (l1 := c :: l) in *. destruct (l_some _ _ L _ _ _ _ E1) as (es1 & X1 & Y1 & Z1); [discriminate|]. fold (bytes es1) in Y1.
      pose proof (left_part _ _ _ X1) as P1. cbv zeta. rewrite BUF_val in *.
      assert (U : ushort (len l1) = len l1) by (apply N.mod_small; lia).
      assert (N1 : es1 <> []) by (intros ->; discriminate Y1).
      assert (I1 : Inv k1 (mkDir (eof d) (whiteouts d) 0 (ushort (len l1)) (fill (buf d) 0 l1)) es1).
      { constructor; cbn [eof whiteouts pos size buf].
        - rewrite U, <- Y1. reflexivity.
        - rewrite U, BUF_val. lia.
        - rewrite <- Y1. apply fill_here.
        - exact P1.
        - rewrite Ee. discriminate. }
      destruct (sizeof_dirent <=? 65520 - len l1) eqn:Es.
      2: { split; [reflexivity|]. exists es1. rewrite Ee in I1. auto. }
      rewrite Ee in I1. cbn [eof whiteouts pos size buf]. destruct (getdents k1 (65520 - len l1)) as [k2 [l2|]] eqn:E2.
      2: { split; [reflexivity|]. exists es1. pose proof (l_fail _ _ L _ _ _ E2) as X2. split; [|split; [congruence|exact N1]].
           constructor; try apply I1. cbn. discriminate. }
      destruct l2 as [|c2 l2].
      { destruct (l_end _ _ L _ _ _ E2) as [X2 Y2]. split; [reflexivity|]. exists es1. split; [|split; [congruence|exact N1]].
        constructor; cbn [eof whiteouts pos size buf]; try apply I1. auto. }
      set (l2' := c2 :: l2) in *. destruct (l_some _ _ L _ _ _ _ E2) as (es2 & X2 & Y2 & Z2); [discriminate|]. fold (bytes es2) in Y2.
      split; [reflexivity|]. exists (es1 ++ es2). assert (B : bytes (es1 ++ es2) = l1 ++ l2') by (unfold bytes; rewrite map_app, concat_app; fold (bytes es1); fold (bytes es2); congruence).
      assert (U2 : ushort (ushort (len l1) + len l2') = len l1 + len l2') by (rewrite U; apply N.mod_small; lia).
      split; [|split].
      + constructor; cbn [eof whiteouts pos size buf].
        * rewrite U2, B, app_length. lia.
        * rewrite U2, BUF_val. lia.
        * rewrite B. apply holds_app. split; [apply fill_before; [apply fill_here|lia]|]. apply fill_here.
        * apply Forall_app. split; [exact P1|exact (left_part _ _ _ X2)].
        * discriminate.
      + rewrite X1, X2. apply app_assoc.
      + destruct es1; [congruence|discriminate].
  Qed.

  Lemma read_ok fuel : forall k d es, Inv k d es -> (length (es ++ left_ k) < fuel)%nat -> let '(k', d', o) := readdir fuel k d in whiteouts d' = whiteouts d /\
    exists es', Inv k' d' es' /\ (length (es' ++ left_ k') <= length (es ++ left_ k))%nat /\
      let w := whiteouts d in
      match o with
      | Entry n t => contents w (es ++ left_ k) = Entry n t :: contents w (es' ++ left_ k')
      | End => contents w (es ++ left_ k) = [] /\ es' = [] /\ left_ k' = [] /\ eof d' = true
      | Error => contents w (es ++ left_ k) = contents w (es' ++ left_ k') /\ ~ reliable getdents
      | Stuck => False
      end.
  Proof.
    induction fuel as [|fuel IH]; intros k d es I Lt; [lia|]. cbn [bfs_readdir]. unfold bfs_getdent. pose proof (poll_ok k d es I) as P. destruct (polldir k d) as [[k1 d1] [| |]]; destruct P as (W & es1 & I1 & E & P).
    - destruct es1 as [|e es1]; [congruence|]. destruct d1 as [eo w po si b]. cbn [eof whiteouts pos size buf] in *.
      pose proof (i_proper _ _ _ I1) as F. pose proof (Forall_inv F) as Pe. pose proof (Forall_inv_tail F) as Pes. pose proof (i_holds _ _ _ I1) as Ho. unfold bytes in Ho. cbn [map concat buf pos] in Ho. apply holds_app in Ho. destruct Ho as [H1 H2]. fold (bytes es1) in H2.
      pose proof (i_size _ _ _ I1) as Is. pose proof (i_buf _ _ _ I1) as Ib. unfold bytes in Is. cbn [map concat size pos] in Is, Ib. fold (bytes es1) in Is. rewrite app_length, (encode_len e Pe) in Is. rewrite (encode_len e Pe) in H2. rewrite BUF_val in Ib.
      assert (U : ushort (po + d_reclen b po) = po + N.of_nat (reclen e)) by (rewrite (reclen_ok b po e Pe H1); apply N.mod_small; lia).
      assert (I2 : Inv k1 (mkDir eo w (ushort (po + d_reclen b po)) si b) es1).
      { constructor; cbn [eof whiteouts pos size buf]; rewrite ?U; [lia|rewrite BUF_val; lia|exact H2|exact Pes|exact (i_eof _ _ _ I1)]. }
      rewrite (skip_ok b po e Pe H1). rewrite (d_type_ok b po e Pe H1), (name_ok b po e Pe H1).
      assert (Ll : length (es ++ left_ k) = S (length (es1 ++ left_ k1))) by (rewrite E; reflexivity).
      destruct (listed w e) eqn:Ls; cbn [negb].
      + split; [exact W|]. exists es1. split; [exact I2|]. split; [lia|]. cbv zeta. rewrite E, <- W. unfold contents. cbn [app filter]. rewrite Ls. reflexivity.
      + specialize (IH _ _ _ I2). destruct (bfs_readdir K getdents fuel k1 _) as [[k2 d2] o]. destruct IH as (W2 & es2 & J & Jl & Jo); [lia|]. cbn [whiteouts] in *. rewrite W2. split; [exact W|]. exists es2. split; [exact J|]. split; [lia|].
        cbv zeta in *. assert (C : contents (whiteouts d) (es ++ left_ k) = contents w (es1 ++ left_ k1)) by (rewrite E, <- W; unfold contents; cbn [app filter]; rewrite Ls; reflexivity). rewrite C, <- W. exact Jo.
    - split; [exact W|]. exists es1. split; [exact I1|]. destruct P as (-> & -> & P1 & P2). split; [rewrite E; lia|]. rewrite E, P1. auto.
    - split; [exact W|]. exists es1. split; [exact I1|]. destruct P as (-> & P1). split; [rewrite E; lia|]. rewrite E. auto.
  Qed.

  Lemma opened w b k : Inv k (bfs_opendir w b) [].
  Proof. constructor; cbn [eof whiteouts pos size buf bfs_opendir]; [reflexivity|rewrite BUF_val; lia|intros i I; cbn in I; lia|constructor|discriminate]. Qed.

  Definition good (w : bool) (all outs : list outcome) (l : list op) : Prop :=
    ~ In Stuck outs /\ (exists tail, all = filter is_entry outs ++ tail) /\
    (forall a b, outs = a ++ End :: b -> filter is_entry a = all /\ Forall (eq End) b) /\
    (reliable getdents -> outs = firstn (reads l) (all ++ repeat End (reads l))).
  Lemma contents_entry w l : Forall (fun o => is_entry o = true) (contents w l).
  Proof. unfold contents. apply Forall_forall. intros o I. apply in_map_iff in I. destruct I as (e & <- & _). reflexivity. Qed.

  Lemma at_end fuel l : forall k d, pos d = size d -> eof d = true -> (0 < fuel)%nat -> run K getdents fuel k d l = repeat End (reads l).
  Proof.
    induction l as [|[|] l IH]; intros k d E1 E2 Lt; [reflexivity| |]; cbn [run].
    - unfold bfs_polldir. rewrite E1, N.ltb_irrefl, E2. rewrite IH; auto.
    - destruct fuel as [|fuel]; [lia|]. cbn [bfs_readdir]. unfold bfs_getdent, bfs_polldir. rewrite E1, N.ltb_irrefl, E2. rewrite IH; auto.
  Qed.
  Lemma filter_End n : filter is_entry (repeat End n) = [].
  Proof. induction n; auto. Qed.
  Lemma repeat_split n a b : repeat End n = a ++ End :: b -> filter is_entry a = [] /\ Forall (eq End) b.
  Proof.
    intros E. assert (F : Forall (eq End) (a ++ End :: b)) by (rewrite <- E; apply Forall_forall; intros x I; symmetry; apply repeat_spec in I; exact I).
    apply Forall_app in F. destruct F as [F1 F2]. inversion F2; subst. split; [|assumption]. clear -F1. induction F1; [reflexivity|]. subst. cbn. assumption.
  Qed.
  Lemma firstn_End n : firstn n (repeat End n) = repeat End n.
  Proof. rewrite <- (repeat_length End n) at 1. apply firstn_all. Qed.

  Lemma run_ok fuel l : forall k d es, Inv k d es -> (length (es ++ left_ k) < fuel)%nat -> good (whiteouts d) (contents (whiteouts d) (es ++ left_ k)) (run K getdents fuel k d l) l.
  Proof.
    induction l as [|[|] l IH]; intros k d es I Lt.
    - cbn. split; [tauto|]. split; [eexists; reflexivity|]. split; [intros [|] b E; discriminate|reflexivity].
    - cbn [run]. pose proof (poll_ok k d es I) as P. destruct (polldir k d) as [[k1 d1] r]. destruct P as (W & es1 & I1 & E & _). specialize (IH _ _ _ I1). rewrite W, <- E in IH. apply IH, Lt.
    - cbn [run]. pose proof (read_ok fuel k d es I Lt) as P. destruct (readdir fuel k d) as [[k1 d1] o]. destruct P as (W & es1 & I1 & Le & P). cbv zeta in P.
      assert (Lt1 : (length (es1 ++ left_ k1) < fuel)%nat) by lia. specialize (IH _ _ _ I1 Lt1). rewrite W in IH. set (outs := run K getdents fuel k1 d1 l) in *.
      destruct o as [n t| | |]; [| | |contradiction].
      + rewrite P. destruct IH as (H1 & (tail & H2) & H3 & H4). split; [intros [X|X]; [discriminate|tauto]|]. split; [exists tail; cbn [filter is_entry app]; rewrite H2; reflexivity|]. split.
        * intros [|x a] b X; [discriminate|]. cbn [app] in X. injection X as <- X. destruct (H3 a b X) as [Y Z]. split; [cbn [filter is_entry]; rewrite Y; reflexivity|exact Z].
        * intros R. specialize (H4 R). unfold reads. cbn [filter length]. fold (reads l). cbn [firstn app repeat]. f_equal. rewrite H4 at 1.
          set (all := contents (whiteouts d) (es1 ++ left_ k1)). rewrite !firstn_app. f_equal. destruct (reads l - length all)%nat eqn:En; [reflexivity|].
          assert (Hx : forall (a : nat) b, (a <= b)%nat -> firstn a (repeat End b) = repeat End a).
          { clear. induction a; intros [|b] Hab; [reflexivity|reflexivity|lia|]. cbn. f_equal. apply IHa. lia. }
          rewrite Hx by lia. change (End :: repeat End (reads l)) with (repeat End (S (reads l))). rewrite Hx by lia. reflexivity.
      + destruct P as (C & -> & Lk & Ef). rewrite C. assert (Ro : outs = repeat End (reads l)).
        { apply at_end; [|exact Ef|lia]. pose proof (i_size _ _ _ I1) as Is. cbn in Is. lia. }
        rewrite Ro. change (End :: repeat End (reads l)) with (repeat End (S (reads l))). split; [intros X; apply repeat_spec in X; discriminate|]. split; [exists []; rewrite filter_End; reflexivity|]. split.
        * intros a b X. exact (repeat_split _ _ _ X).
        * intros _. cbn [app]. unfold reads at 2 3. cbn [filter length]. fold (reads l). rewrite (firstn_End (S (reads l))). reflexivity.
      + destruct P as (C & R). rewrite C. destruct IH as (H1 & (tail & H2) & H3 & H4). split; [intros [X|X]; [discriminate|tauto]|]. split; [exists tail; exact H2|]. split; [|tauto].
        intros [|x a] b X; [discriminate|]. cbn [app] in X. injection X as <- X. exact (H3 a b X).
  Qed.
End Reading.

Theorem listing : forall K getdents left_, lists getdents left_ -> forall (k : K) w b l fuel, (length (left_ k) < fuel)%nat ->
  let outs := run K getdents fuel k (bfs_opendir w b) l in
  ~ In Stuck outs /\ (exists tail, contents w (left_ k) = filter is_entry outs ++ tail) /\
  (forall before after, outs = before ++ End :: after -> filter is_entry before = contents w (left_ k) /\ Forall (eq End) after).
Proof.
  intros K getdents left_ L k w b l fuel Lt. destruct (run_ok K getdents left_ L fuel l k (bfs_opendir w b) [] (opened K left_ w b k) Lt) as (H1 & H2 & H3 & _). auto.
Qed.
Theorem exact_listing : forall K getdents left_, lists getdents left_ -> reliable getdents -> forall (k : K) w b l fuel, (length (left_ k) < fuel)%nat ->
  run K getdents fuel k (bfs_opendir w b) l = firstn (reads l) (contents w (left_ k) ++ repeat End (reads l)).
Proof.
  intros K getdents left_ L R k w b l fuel Lt. destruct (run_ok K getdents left_ L fuel l k (bfs_opendir w b) [] (opened K left_ w b k) Lt) as (_ & _ & _ & H). exact (H R).
Qed.
Theorem empty_ok : forall K getdents left_, lists getdents left_ -> forall (k : K) b fuel, (length (left_ k) < fuel)%nat ->
  exists r e, eval_empty K getdents fuel k b = Some (r, e) /\ (r = true -> contents false (left_ k) = []) /\
    (contents false (left_ k) = [] -> r = true \/ e = true) /\ (e = true -> ~ reliable getdents).
Proof.
  intros K getdents left_ L k b fuel Lt. unfold eval_empty. pose proof (read_ok K getdents left_ L fuel k (bfs_opendir false b) [] (opened K left_ false b k) Lt) as P.
  destruct (bfs_readdir K getdents fuel k (bfs_opendir false b)) as [[k' d'] o]. destruct P as (_ & es' & _ & _ & P). cbv zeta in P. cbn [whiteouts bfs_opendir app] in P.
  destruct o; [| | |contradiction]; do 2 eexists; (split; [reflexivity|]).
  - split; [discriminate|]. split; [intros X; rewrite X in P; discriminate|discriminate].
  - split; [intros _; apply P|]. split; [auto|discriminate].
  - split; [discriminate|]. split; [auto|]. intros _. apply P.
Qed.
