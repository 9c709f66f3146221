(** * The terminal with a status bar *)
From Coq Require Import String List Arith NArith ZArith Bool Lia.
From Coq Require Import Init.Byte Strings.Byte.
From Coq Require Import ZifyBool ZifyNat ZifyN.
From Verif Require Import QuoteModel BarModel BarSpec BarProofs TtyModel TtySpec.
From Verif Require FlsModel FlsSpec FlsProofs.
Import ListNotations.

Section Proofs.
  Variable l : locale.
  Variable wcwidth : wc l -> Z.
  Variable W : nat.
  Notation term := (term l).
  Notation act := (act l wcwidth W).
  Notation line := (list (cell l)).
  Notation blanks := (blanks l).

  Lemma mid_firstn T (A : list T) x B : firstn (List.length A) (A ++ x :: B) = A.
  Proof. rewrite firstn_app, Nat.sub_diag, firstn_all, firstn_O, app_nil_r. reflexivity. Qed.
  Lemma mid_firstn_S T (A : list T) x B : firstn (S (List.length A)) (A ++ x :: B) = A ++ [x].
  Proof. rewrite firstn_app, firstn_all2 by lia. replace (S (List.length A) - List.length A) with 1 by lia. reflexivity. Qed.
  Lemma mid_skipn T (A : list T) x B : skipn (S (List.length A)) (A ++ x :: B) = B.
  Proof. rewrite skipn_app, skipn_all2 by lia. replace (S (List.length A) - List.length A) with 1 by lia. reflexivity. Qed.
  Lemma mid_nth T (A : list T) x B d : nth (List.length A) (A ++ x :: B) d = x.
  Proof. rewrite app_nth2, Nat.sub_diag by lia. reflexivity. Qed.
  Lemma blanks_add a b : blanks (a + b) = blanks a ++ blanks b.
  Proof. apply repeat_app. Qed.
  Lemma blanks_length n : List.length (blanks n) = n.
  Proof. apply repeat_length. Qed.

  (** The lines above the cursor, what is on its line, and what is below the region *)
  Record placed (t : term) (A : list line) (cur : line) (a : attr) (bot : nat) (C : list line) : Prop := {
    pl_rows : rows l t = A ++ (cur ++ blanks (W - List.length cur)) :: repeat (blanks W) (bot - List.length A) ++ C;
    pl_row : row l t = List.length A;
    pl_col : col l t = List.length cur;
    pl_attrs : attrs l t = a;
    pl_bottom : bottom l t = bot;
    pl_fits : List.length A <= bot;
    pl_width : List.length cur <= W;
    pl_above : Forall (fun x => List.length x = W) A;
    pl_below : Forall (fun x => List.length x = W) C }.

  (** What text does, wherever the lines are *)
  Definition st : Type := list line * line * attr.
  Definition end_line (s : st) : st := let '(d, cur, a) := s in (d ++ [cur ++ blanks (W - List.length cur)], [], a).
  Definition ink (a : action l) (s : st) : st :=
    match a with
    | Newline _ => end_line s
    | Sgr _ ps => let '(d, cur, a) := s in (d, cur, fold_left sgr ps a)
    | Print _ c =>
        let w := Z.to_nat (wcwidth c) in
        if w =? 0 then
          let '(d, cur, a) := s in
          if List.length cur =? 0 then s else (d, firstn (List.length cur - 1) cur ++ [Marked l (nth (List.length cur - 1) cur (Blank l)) c], a)
        else
          let '(d, cur, a) := (let '(d, cur, a) := s in if W <? List.length cur + w then end_line s else s) in
          (d, firstn W (cur ++ glyph l wcwidth c a), a)
    | _ => s
    end.

  Definition at_ (t : term) (s : st) (bot : nat) (C : list line) : Prop :=
    exists A, placed t A (snd (fst s)) (snd s) bot C /\ history l t ++ A = fst (fst s).

  Lemma down_ok t d cur a bot C : at_ t (d, cur, a) bot C -> at_ (newline l W t) (end_line (d, cur, a)) bot C.
  Proof.
    intros (A & P & HD). cbn [fst snd] in *. destruct t as [h rs r c sv b at']. destruct P as [P1 P2 P3 P4 P5 P6 P7 P8 P9]. cbn [rows row col attrs bottom history] in *. subst rs r c at' b d.
    unfold newline, down, end_line. cbn [rows row col attrs bottom history saved].
    assert (LX : List.length (cur ++ blanks (W - List.length cur)) = W) by (rewrite app_length, blanks_length; lia).
    destruct (Nat.eqb_spec (List.length A) bot) as [E|E].
    - rewrite <- E, Nat.sub_diag. cbn [repeat app]. rewrite mid_firstn_S, mid_skipn. unfold move. cbn [rows row col attrs bottom history saved].
      set (x := cur ++ blanks (W - List.length cur)) in *.
      exists (skipn 1 (A ++ [x])). cbn [fst snd]. split.
      + assert (LL : List.length (skipn 1 (A ++ [x])) = List.length A) by (rewrite skipn_length, app_length; cbn; lia).
        constructor; cbn [rows row col attrs bottom history]; try reflexivity; try lia.
        * rewrite LL, Nat.sub_diag. cbn [repeat app List.length]. rewrite Nat.sub_0_r. reflexivity.
        * cbn [List.length]. lia.
        * apply Forall_forall. intros y I. assert (F : Forall (fun z => List.length z = W) (A ++ [x])) by (apply Forall_app; split; [exact P8|constructor; [exact LX|constructor]]).
          rewrite Forall_forall in F. apply F. rewrite <- (firstn_skipn 1 (A ++ [x])). apply in_or_app. right. exact I.
        * exact P9.
      + cbn [history]. replace (firstn 1 (A ++ x :: C)) with (firstn 1 (A ++ [x])) by (destruct A; reflexivity). rewrite <- app_assoc, firstn_skipn, <- app_assoc. reflexivity.
    - rewrite !app_length. cbn [List.length]. rewrite app_length, repeat_length. destruct (Nat.eqb_spec (S (List.length A)) (List.length A + S (bot - List.length A + List.length C))) as [X|_]; [lia|].
      unfold move. cbn [rows row col attrs bottom history saved]. exists (A ++ [cur ++ blanks (W - List.length cur)]). cbn [fst snd]. split; [|rewrite app_assoc; reflexivity].
      constructor; cbn [rows row col attrs bottom history]; rewrite ?app_length; cbn [List.length]; try reflexivity; try lia; try exact P9.
      + replace (bot - List.length A) with (S (bot - (List.length A + 1))) by lia. cbn [repeat app]. rewrite <- app_assoc. cbn [app]. rewrite Nat.sub_0_r. reflexivity.
      + apply Forall_app. split; [exact P8|]. constructor; [exact LX|constructor].
  Qed.

  Lemma firstn_cur (cur x : line) : firstn (List.length cur) (cur ++ x) = cur.
  Proof. rewrite firstn_app, Nat.sub_diag, firstn_all, firstn_O, app_nil_r. reflexivity. Qed.
  Lemma skipn_blanks n k : skipn n (blanks k) = blanks (k - n).
  Proof. revert k. induction n as [|n IH]; intros [|k]; try reflexivity. cbn [TtySpec.blanks repeat skipn]. exact (IH k). Qed.
  Lemma firstn_blanks n k : firstn n (blanks k) = blanks (Nat.min n k).
  Proof. revert k. induction n as [|n IH]; intros [|k]; try reflexivity. cbn [TtySpec.blanks repeat firstn Nat.min]. f_equal. exact (IH k). Qed.
  Lemma glyph_length c a : 0 < Z.to_nat (wcwidth c) -> List.length (glyph l wcwidth c a) = Z.to_nat (wcwidth c).
  Proof. intros H. unfold glyph. cbn [List.length]. rewrite repeat_length. lia. Qed.

  (** A character on a line *)
  Lemma write_ok (cur : line) (g : line) : List.length cur <= W ->
    firstn W (firstn (List.length cur) (cur ++ blanks (W - List.length cur)) ++ g ++ skipn (List.length cur + List.length g) (cur ++ blanks (W - List.length cur))) =
    firstn W (cur ++ g) ++ blanks (W - List.length (firstn W (cur ++ g))) /\ List.length (firstn W (cur ++ g)) = Nat.min W (List.length cur + List.length g).
  Proof.
    intros L. rewrite firstn_cur. assert (LL : List.length (firstn W (cur ++ g)) = Nat.min W (List.length cur + List.length g)) by (rewrite firstn_length, app_length; reflexivity).
    split; [|exact LL]. rewrite LL. rewrite skipn_app, (skipn_all2 cur) by lia. cbn [app]. replace (List.length cur + List.length g - List.length cur) with (List.length g) by lia.
    rewrite skipn_blanks, app_assoc, firstn_app, app_length, firstn_blanks. f_equal. f_equal. lia.
  Qed.

  Lemma plain_ok t s bot C a : plain l a -> at_ t s bot C -> at_ (act a t) (ink a s) bot C.
  Proof.
    intros PL AT. destruct s as ((d, cur), ar). destruct a; try contradiction; cbn [TtySpec.act ink].
    - (* Print *) unfold print. cbn zeta. destruct (Nat.eqb_spec (Z.to_nat (wcwidth c)) 0) as [Z|Z].
      + destruct AT as (A & P & HD). cbn [fst snd] in *. destruct t as [h rs r cl sv b at']. destruct P as [P1 P2 P3 P4 P5 P6 P7 P8 P9]. cbn [rows row col attrs bottom history] in *. subst rs r cl at' b d.
        destruct (Nat.eqb_spec (List.length cur) 0) as [E|E]; [exists A; cbn [fst snd history]; split; [constructor; auto|reflexivity]|].
        unfold set_line. cbn [rows row col attrs bottom history saved]. rewrite mid_firstn, mid_nth, mid_skipn. exists A. cbn [fst snd history]. split; [|reflexivity].
        assert (N : List.length (firstn (List.length cur - 1) cur ++ [Marked l (nth (List.length cur - 1) cur (Blank l)) c]) = List.length cur) by (rewrite app_length, firstn_length; cbn; lia).
        constructor; cbn [rows row col attrs bottom history]; auto; try lia. f_equal. f_equal. rewrite N.
        rewrite firstn_app, app_nth1 by lia. replace (List.length cur - 1 - List.length cur) with 0 by lia. rewrite firstn_O, app_nil_r, <- app_assoc. cbn [app]. f_equal. f_equal.
        rewrite skipn_app, skipn_all, Nat.sub_diag. reflexivity.
      + assert (AT' : at_ (if W <? col l t + Z.to_nat (wcwidth c) then newline l W t else t) (if W <? List.length cur + Z.to_nat (wcwidth c) then end_line (d, cur, ar) else (d, cur, ar)) bot C).
        { assert (EC : col l t = List.length cur) by (destruct AT as (A & P & _); apply (pl_col _ _ _ _ _ _ P)). rewrite EC. destruct (W <? List.length cur + Z.to_nat (wcwidth c)); [apply down_ok|]; exact AT. }
        destruct (if W <? List.length cur + Z.to_nat (wcwidth c) then end_line (d, cur, ar) else (d, cur, ar)) as ((d', cur'), ar') eqn:ES.
        set (t1 := if W <? col l t + Z.to_nat (wcwidth c) then newline l W t else t) in *. clearbody t1. clear AT t.
        destruct AT' as (A & P & HD). cbn [fst snd] in *. destruct t1 as [h rs r cl sv b at']. destruct P as [P1 P2 P3 P4 P5 P6 P7 P8 P9]. cbn [rows row col attrs bottom history] in *. subst rs r cl at' b d'.
        unfold set_line, move. cbn [rows row col attrs bottom history saved]. rewrite mid_firstn, mid_nth, mid_skipn. exists A. cbn [fst snd history]. split; [|reflexivity].
        pose proof (glyph_length c ar' ltac:(lia)) as GL. destruct (write_ok cur' (glyph l wcwidth c ar') P7) as (W1 & W2). rewrite GL in W1, W2.
        constructor; cbn [rows row col attrs bottom history]; auto; try lia. rewrite W1. reflexivity.
    - apply down_ok. exact AT.
    - destruct AT as (A & P & HD). cbn [fst snd] in *. exists A. unfold color. cbn [fst snd history]. split; [|exact HD]. destruct P as [P1 P2 P3 P4 P5 P6 P7 P8 P9]. constructor; cbn [rows row col attrs bottom history]; auto. rewrite P4. reflexivity.
  Qed.

  (** ** Sequences of the bar *)
  Definition reset_acts : list (action l) := [Save l; Region l None; Restore l; EraseBelow l].
  Definition resize_acts (n : N) : list (action l) := [Index l; Up l 1; Save l; Region l (Some n); Restore l; EraseBelow l].
  Definition run (acts : list (action l)) (t : term) : term := fold_left (fun t a => act a t) acts t.

  (** What is above the cursor and to the left of it *)
  Record seen (H : nat) (t : term) (A : list line) (x : line) (B : list line) : Prop := {
    se_rows : rows l t = A ++ x :: B;
    se_row : row l t = List.length A;
    se_lines : List.length (rows l t) = H;
    se_columns : Forall (fun y => List.length y = W) (rows l t) }.

  (** Erasing everything after the cursor, with another region *)
  Lemma erase_ok H (h A : list line) (x : line) (B : list line) c sv bot a :
    List.length A + S (List.length B) = H -> c < W ->
    act (EraseBelow l) (mkTerm l h (A ++ x :: B) (List.length A) c sv bot a) =
    mkTerm l h (A ++ (firstn c x ++ blanks (W - c)) :: repeat (blanks W) (List.length B)) (List.length A) c sv bot a.
  Proof.
    intros LH LC. cbn [TtySpec.act]. unfold erase_line, set_line. cbn [rows row col attrs bottom history saved]. rewrite mid_firstn, mid_nth, mid_skipn, mid_firstn_S, app_length. cbn [List.length].
    rewrite Nat.min_l by lia. rewrite <- app_assoc. cbn [app]. replace (List.length A + S (List.length B) - S (List.length A)) with (List.length B) by lia. reflexivity.
  Qed.

  Lemma reset_run (h A : list line) (x : line) (B : list line) c sv bot a : c < W ->
    exists sv', run reset_acts (mkTerm l h (A ++ x :: B) (List.length A) c sv bot a) =
    mkTerm l h (A ++ (firstn c x ++ blanks (W - c)) :: repeat (blanks W) (List.length B)) (List.length A) c sv' (List.length A + List.length B) a.
  Proof.
    intros LC. unfold run, reset_acts. cbn [fold_left]. cbn [TtySpec.act]. unfold color, move. cbn [rows row col attrs bottom history saved]. fold (act (EraseBelow l)).
    exists (List.length A, c, a). 
    match goal with |- ?u = _ => change u with (act (EraseBelow l) (mkTerm l h (A ++ x :: B) (List.length A) c (List.length A, c, a) (List.length (A ++ x :: B) - 1) a)) end.
    rewrite (erase_ok (List.length A + S (List.length B))) by auto. f_equal. rewrite app_length. cbn [List.length]. lia.
  Qed.

  Lemma resize_run H (h A : list line) (x : line) (B : list line) c sv bot a : 3 <= H -> List.length A + S (List.length B) = H -> List.length A <= bot -> 1 <= bot -> bot < H -> c < W ->
    exists sv' (h' A' : list line), run (resize_acts (N.of_nat (H - 1))) (mkTerm l h (A ++ x :: B) (List.length A) c sv bot a) =
    mkTerm l h' (A' ++ (firstn c x ++ blanks (W - c)) :: repeat (blanks W) (H - S (List.length A'))) (List.length A') c sv' (H - 2) a /\
    h' ++ A' = h ++ A /\ List.length A' <= H - 2 /\ (Forall (fun y => List.length y = W) A -> Forall (fun y => List.length y = W) A').
  Proof.
    intros H3 LH LA B1 BH LC. unfold run, resize_acts. cbn [fold_left].
    assert (FIN : forall (h1 A1 B1 : list line) sv1, List.length A1 + S (List.length B1) = H -> forall t1, t1 = mkTerm l h1 (A1 ++ x :: B1) (List.length A1) c sv1 bot a ->
      exists sv', act (EraseBelow l) (act (Restore l) (act (Region l (Some (N.of_nat (H - 1)))) (act (Save l) t1))) =
      mkTerm l h1 (A1 ++ (firstn c x ++ blanks (W - c)) :: repeat (blanks W) (H - S (List.length A1))) (List.length A1) c sv' (H - 2) a).
    { intros h1 A1 B2 sv1 L1 t1 ->. exists (List.length A1, c, a). 
      assert (ES : act (Save l) (mkTerm l h1 (A1 ++ x :: B2) (List.length A1) c sv1 bot a) = mkTerm l h1 (A1 ++ x :: B2) (List.length A1) c (List.length A1, c, a) bot a) by reflexivity. rewrite ES.
      assert (ER : act (Region l (Some (N.of_nat (H - 1)))) (mkTerm l h1 (A1 ++ x :: B2) (List.length A1) c (List.length A1, c, a) bot a) =
        mkTerm l h1 (A1 ++ x :: B2) 0 0 (List.length A1, c, a) (H - 2) a).
      { cbn [TtySpec.act rows history saved attrs]. rewrite app_length. cbn [List.length]. rewrite L1. 
        assert (K : ((2 <=? N.of_nat (H - 1)) && (N.of_nat (H - 1) <=? N.of_nat H))%N = true) by lia. rewrite K. f_equal. lia. }
      rewrite ER. assert (EX : act (Restore l) (mkTerm l h1 (A1 ++ x :: B2) 0 0 (List.length A1, c, a) (H - 2) a) = mkTerm l h1 (A1 ++ x :: B2) (List.length A1) c (List.length A1, c, a) (H - 2) a) by reflexivity. rewrite EX.
      rewrite (erase_ok H) by auto. replace (H - S (List.length A1)) with (List.length B2) by lia. reflexivity. }
    destruct (Nat.eq_dec (List.length A) bot) as [E|E].
    - destruct A as [|y A]; [cbn in E; lia|].
      destruct (FIN (h ++ [y]) A (blanks W :: B) sv ltac:(cbn [List.length] in *; lia) (act (Up l 1) (act (Index l) (mkTerm l h ((y :: A) ++ x :: B) (List.length (y :: A)) c sv bot a)))) as (sv' & R).
      { cbn [TtySpec.act]. unfold down. cbn [rows row col attrs bottom history saved]. rewrite E, Nat.eqb_refl. rewrite <- E, mid_firstn_S, mid_skipn. unfold move. cbn [rows row col attrs bottom history saved List.length app skipn firstn].
        rewrite <- app_assoc. cbn [app]. f_equal; cbn [List.length]; lia. }
      exists sv', (h ++ [y]), A. split; [exact R|]. split; [rewrite <- app_assoc; reflexivity|]. split; [cbn [List.length] in *; lia|]. intros F. inversion F; auto.
    - destruct (FIN h A B sv LH (act (Up l 1) (act (Index l) (mkTerm l h (A ++ x :: B) (List.length A) c sv bot a)))) as (sv' & R).
      { cbn [TtySpec.act]. unfold down. cbn [rows row col attrs bottom history saved]. destruct (Nat.eqb_spec (List.length A) bot); [lia|]. rewrite app_length. cbn [List.length].
        destruct (Nat.eqb_spec (S (List.length A)) (List.length A + S (List.length B))) as [X|X]; [lia|]. unfold move. cbn [rows row col attrs bottom history saved]. f_equal. lia. }
      exists sv', h, A. split; [exact R|]. split; [reflexivity|]. split; [lia|auto].
  Qed.

  (** ** The text of the bar *)
  Definition ink_line (a : attr) (x : line) (c : wc l) : line :=
    if Z.to_nat (wcwidth c) =? 0 then match rev x with [] => x | y :: x' => rev x' ++ [Marked l y c] end else x ++ glyph l wcwidth c a.
  Lemma paint_step a x c cs : paint l wcwidth a x (c :: cs) = paint l wcwidth a (ink_line a x c) cs.
  Proof. cbn [paint]. unfold ink_line. destruct (Z.to_nat (wcwidth c) =? 0); [|reflexivity]. destruct (rev x); reflexivity. Qed.
  Lemma ink_length a (x : line) c : List.length (ink_line a x c) = List.length x + Z.to_nat (wcwidth c).
  Proof.
    unfold ink_line. destruct (Nat.eqb_spec (Z.to_nat (wcwidth c)) 0) as [E|E].
    - pose proof (rev_length x) as RL. destruct (rev x) as [|y x'] eqn:R; [lia|]. rewrite app_length, rev_length. cbn [List.length] in *. lia.
    - rewrite app_length, glyph_length by lia. reflexivity.
  Qed.
  Lemma print_line h D x sv bot a c : bot < List.length D -> List.length x + Z.to_nat (wcwidth c) <= W ->
    print l wcwidth W c (mkTerm l h (D ++ [x ++ blanks (W - List.length x)]) (List.length D) (List.length x) sv bot a) =
    mkTerm l h (D ++ [ink_line a x c ++ blanks (W - List.length (ink_line a x c))]) (List.length D) (List.length (ink_line a x c)) sv bot a.
  Proof.
    intros B L. pose proof (ink_length a x c) as IL. unfold print. cbn zeta. cbn [col]. destruct (Nat.eqb_spec (Z.to_nat (wcwidth c)) 0) as [Z|Z].
    - destruct (Nat.eqb_spec (List.length x) 0) as [E|E].
      + apply length_zero_iff_nil in E. subst x. unfold ink_line. rewrite Z. reflexivity.
      + rewrite Z, Nat.add_0_r in IL. rewrite IL. unfold set_line. cbn [rows row col attrs bottom history saved]. rewrite mid_firstn, mid_nth, mid_skipn. f_equal. f_equal. f_equal.
        unfold ink_line. rewrite Z. cbn [Nat.eqb]. destruct (rev x) as [|y x'] eqn:R; [apply (f_equal (@rev _)) in R; rewrite rev_involutive in R; subst x; cbn in E; lia|].
        apply (f_equal (@rev _)) in R. rewrite rev_involutive in R. cbn [rev] in R. subst x. rewrite app_length. cbn [List.length].
        replace (List.length (rev x') + 1 - 1) with (List.length (rev x')) by lia. rewrite <- !app_assoc. cbn [app]. rewrite mid_firstn, mid_nth, Nat.add_1_r, mid_skipn. reflexivity.
    - destruct (Nat.ltb_spec W (List.length x + Z.to_nat (wcwidth c))) as [X|_]; [lia|]. unfold set_line, move. cbn [rows row col attrs bottom history saved]. rewrite mid_firstn, mid_nth, mid_skipn.
      pose proof (glyph_length c a ltac:(lia)) as GL. destruct (write_ok x (glyph l wcwidth c a) ltac:(lia)) as (W1 & W2). rewrite GL in W1, W2. rewrite W1.
      assert (FE : firstn W (x ++ glyph l wcwidth c a) = x ++ glyph l wcwidth c a) by (apply firstn_all2; rewrite app_length, GL; lia).
      rewrite FE. unfold ink_line. destruct (Nat.eqb_spec (Z.to_nat (wcwidth c)) 0) as [X|_]; [lia|]. rewrite FE in W2. rewrite W2. reflexivity.
  Qed.
  Lemma print_text h D sv bot a : bot < List.length D -> forall cs (x : line), List.length x + columns l wcwidth cs <= W ->
    run (map (Print l) cs) (mkTerm l h (D ++ [x ++ blanks (W - List.length x)]) (List.length D) (List.length x) sv bot a) =
    mkTerm l h (D ++ [paint l wcwidth a x cs ++ blanks (W - List.length (paint l wcwidth a x cs))]) (List.length D) (List.length (paint l wcwidth a x cs)) sv bot a.
  Proof.
    intros B. induction cs as [|c cs IH]; intros x L; [reflexivity|]. unfold columns in L. cbn [fold_right] in L. fold (columns l wcwidth cs) in L.
    unfold run. cbn [map fold_left TtySpec.act]. rewrite print_line by (auto; lia). rewrite paint_step. apply IH. rewrite ink_length. lia.
  Qed.
  Lemma paint_length a : forall cs (x : line), List.length (paint l wcwidth a x cs) = List.length x + columns l wcwidth cs.
  Proof. induction cs as [|c cs IH]; intros x; [cbn; lia|]. rewrite paint_step, IH, ink_length. unfold columns. cbn [fold_right]. lia. Qed.

  Definition update_acts (n : N) (cs : list (wc l)) : list (action l) := [Save l; Goto l n 0; EraseLine l; Sgr l [7%N]] ++ map (Print l) cs ++ [Sgr l [27%N]; Restore l].
  Lemma update_run h D (y : line) r c sv bot a cs : bot < List.length D -> 1 <= W -> columns l wcwidth cs = W ->
    run (update_acts (N.of_nat (S (List.length D))) cs) (mkTerm l h (D ++ [y]) r c sv bot a) =
    mkTerm l h (D ++ [paint l wcwidth (fst a, true) [] cs]) r c (r, c, a) bot a.
  Proof.
    intros B W1 CW. unfold update_acts, run. rewrite !fold_left_app. cbn [fold_left].
    assert (E1 : act (Sgr l [7%N]) (act (EraseLine l) (act (Goto l (N.of_nat (S (List.length D))) 0) (act (Save l) (mkTerm l h (D ++ [y]) r c sv bot a)))) =
      mkTerm l h (D ++ [[] ++ blanks (W - List.length (@nil (cell l)))]) (List.length D) (List.length (@nil (cell l))) (r, c, a) bot (fst a, true)).
    { cbn [TtySpec.act]. unfold erase_line, set_line, move, color. cbn [rows row col attrs bottom history saved]. rewrite app_length. cbn [List.length].
      replace (Nat.min (Nat.max (N.to_nat (N.of_nat (S (List.length D)))) 1) (List.length D + 1) - 1) with (List.length D) by lia.
      change (N.to_nat 0) with 0; replace (Nat.min (Nat.max 0 1) W - 1) with 0 by lia. rewrite mid_firstn, mid_nth, mid_skipn. reflexivity. }
    rewrite E1. clear E1.
    match goal with |- context [fold_left ?f (map (Print l) cs) ?t0] =>
      assert (PT : fold_left f (map (Print l) cs) t0 = mkTerm l h (D ++ [paint l wcwidth (fst a, true) [] cs ++ blanks (W - List.length (paint l wcwidth (fst a, true) [] cs))]) (List.length D) (List.length (paint l wcwidth (fst a, true) [] cs)) (r, c, a) bot (fst a, true))
        by (apply (print_text h D (r, c, a) bot (fst a, true) B cs []); cbn [List.length]; lia) end.
    rewrite PT. clear PT.
    cbn [TtySpec.act]. unfold color, move. cbn [rows row col attrs bottom history saved]. rewrite paint_length. cbn [List.length]. rewrite CW. cbn [Nat.add]. rewrite Nat.sub_diag. unfold TtySpec.blanks at 1. cbn [repeat]. rewrite app_nil_r. reflexivity.
  Qed.

  (** ** What the bytes mean *)
  Lemma params_digits acc s : forall ds a n, decimal a ds = Some n -> params (ds ++ s) (Some a) acc = params s (Some n) acc.
  Proof.
    induction ds as [|c ds IH]; intros a n D; [cbn in D; injection D as ->; reflexivity|]. cbn [decimal] in D. cbn [app params]. destruct (digit_value c) as [d|]; [|discriminate D]. apply IH. exact D.
  Qed.
  Lemma params_number acc s ds n : ds <> [] -> decimal 0 ds = Some n -> params (ds ++ s) None acc = params s (Some n) acc.
  Proof.
    intros NE D. destruct ds as [|c ds]; [congruence|]. pose proof (params_digits acc s (c :: ds) 0%N n D) as P. rewrite <- P. cbn [app params]. cbn [decimal] in D. destruct (digit_value c); [reflexivity|discriminate D].
  Qed.
  Lemma value_decimal : forall s a, FlsSpec.value a s = decimal a s.
  Proof. induction s as [|c s IH]; intros a; [reflexivity|]. cbn [FlsSpec.value decimal]. unfold FlsSpec.digit_value, digit_value. destruct ((48 <=? Byte.to_N c) && (Byte.to_N c <=? 57))%N; auto. Qed.

  Lemma hears_reset : hears l (List.length reset_seq) reset_seq = Some reset_acts.
  Proof. vm_compute. reflexivity. Qed.
  Lemma hears_7 f s : hears l (S f) (x1b :: "7"%byte :: s) = and_then l (Save l) (hears l f s).
  Proof. reflexivity. Qed.
  Lemma hears_8 f s : hears l (S f) (x1b :: "8"%byte :: s) = and_then l (Restore l) (hears l f s).
  Proof. reflexivity. Qed.
  Lemma hears_D f s : hears l (S f) (x1b :: "D"%byte :: s) = and_then l (Index l) (hears l f s).
  Proof. reflexivity. Qed.
  Lemma hears_csi f s ps c r a : params s None [] = (ps, c :: r) -> csi l c ps = Some a -> hears l (S f) (x1b :: "["%byte :: s) = and_then l a (hears l f r).
  Proof. intros P C. cbn [hears]. change (Byte.eqb x1b x1b) with true. cbn iota. change (Byte.eqb "[" "7") with false. change (Byte.eqb "[" "8") with false. change (Byte.eqb "[" "D") with false. change (Byte.eqb "[" "[") with true. cbn iota. rewrite P, C. reflexivity. Qed.
  Lemma hears_resize ds n : ds <> [] -> decimal 0 ds = Some n -> n <> 0%N -> hears l (List.length (PREFIX ++ ds ++ SUFFIX)) (PREFIX ++ ds ++ SUFFIX) = Some (resize_acts n).
  Proof.
    intros NE D NZ. rewrite !app_length. replace (List.length PREFIX + (List.length ds + List.length SUFFIX)) with (S (S (S (S (S (S (11 + List.length ds))))))) by (cbn; lia).
    remember (11 + List.length ds) as k eqn:K. clear K.
    unfold PREFIX, SUFFIX. cbn [app]. rewrite hears_D.
    rewrite (hears_csi _ _ [Some 1%N] "A" (x1b :: "7"%byte :: x1b :: "["%byte :: ";"%byte :: ds ++ ["r"%byte; x1b; "8"%byte; x1b; "["%byte; "J"%byte]) (Up l 1)) by reflexivity.
    rewrite hears_7. rewrite (hears_csi _ _ [None; Some n] "r" [x1b; "8"%byte; x1b; "["%byte; "J"%byte] (Region l (Some n))).
    - rewrite hears_8. rewrite (hears_csi _ _ [None] "J" [] (EraseBelow l)) by reflexivity. destruct k; reflexivity.
    - change (params (";"%byte :: ds ++ ["r"%byte; x1b; "8"%byte; x1b; "["%byte; "J"%byte]) None []) with (params (ds ++ ["r"%byte; x1b; "8"%byte; x1b; "["%byte; "J"%byte]) None [None]). rewrite (params_number _ _ _ _ NE D). reflexivity.
    - unfold csi. destruct n; [congruence|reflexivity].
  Qed.

  Hypothesis SANE : sane l wcwidth.
  Hypothesis ESC : isprint l x1b = false.

  Definition app_then (acts : list (action l)) (r : option (list (action l))) : option (list (action l)) := match r with Some r => Some (acts ++ r) | None => None end.
  Lemma hears_text s cs : shows l s cs -> Forall (fun c => iswprint l c = true) cs -> List.length cs <= List.length s /\
    forall f rest, hears l (List.length cs + f) (s ++ rest) = app_then (map (Print l) cs) (hears l f rest).
  Proof.
    induction 1 as [|s n c mb cs D SH IH]; intros F.
    - split; [cbn; lia|]. intros f rest. cbn [List.length map Nat.add app]. destruct (hears l f rest); reflexivity.
    - inversion F as [|? ? PC F']; subst. destruct (IH F') as (LE & IHH). destruct (sn_print l wcwidth SANE _ _ _ _ _ D PC) as (N1 & N2).
      split; [rewrite skipn_length in LE; cbn [List.length]; lia|]. intros f rest.
      assert (D' : decode l (mb_init l) (s ++ rest) = Some (n, c, mb)).
      { rewrite <- (firstn_skipn n s), <- app_assoc. apply (sn_prefix l wcwidth SANE _ _ _ _ _ _ D N1). }
      assert (SK : skipn n (s ++ rest) = skipn n s ++ rest) by (rewrite skipn_app; replace (n - List.length s) with 0 by lia; reflexivity).
      destruct s as [|b s]; [cbn in N2; lia|].
      assert (NB : Byte.eqb b x1b = false).
      { destruct (Byte.eqb b x1b) eqn:E; [|reflexivity]. apply Byte.byte_dec_bl in E. subst b. destruct (sn_ascii l wcwidth SANE x1b (mb_init l) s ltac:(discriminate) ltac:(vm_compute; reflexivity)) as (c' & mb' & D2 & P & _).
        rewrite D in D2. assert (c = c') by congruence. subst c'. rewrite PC, ESC in P. discriminate P. }
      cbn [app] in D', SK |- *. cbn [List.length Nat.add hears]. rewrite NB, D', PC, SK, IHH. cbn [map]. destruct (hears l f rest); reflexivity.
  Qed.
  Lemma hears_update b s cs mem : shows l s cs -> Forall (fun c => iswprint l c = true) cs -> (3 <= bar_height b)%N ->
    hears l (List.length (bfs_bar_update mem b s)) (bfs_bar_update mem b s) = Some (if mem then update_acts (bar_height b) cs else []).
  Proof.
    intros SH F H3. unfold bfs_bar_update, BFS_BAR_MIN_HEIGHT. rewrite (proj2 (N.ltb_ge _ _) H3). destruct mem; cbn [negb]; [|reflexivity].
    destruct (FlsProofs.ju_ok (bar_height b)) as (NE & V). rewrite value_decimal in V. set (ds := FlsModel.ju (bar_height b)) in *. clearbody ds.
    destruct (hears_text s cs SH F) as (LE & HT).
    assert (Z : forall r, params (ds ++ ";"%byte :: "0"%byte :: "f"%byte :: r) None [] = ([Some (bar_height b); Some 0%N], "f"%byte :: r)).
    { intros r. rewrite (params_number _ _ _ _ NE V). reflexivity. }
    rewrite !app_length. cbn [List.length].
    match goal with |- hears l ?k _ = _ => replace k with (S (S (S (S (List.length cs + S (S (15 + List.length ds + (List.length s - List.length cs)))))))) by lia end.
    remember (15 + List.length ds + (List.length s - List.length cs)) as k eqn:K. clear K. remember (S (S k)) as k2 eqn:K2.
    cbn [app]. rewrite hears_7. rewrite (hears_csi _ _ _ _ _ (Goto l (bar_height b) 0) (Z _)) by reflexivity.
    rewrite (hears_csi _ _ [None] "K" (x1b :: "["%byte :: "7"%byte :: "m"%byte :: s ++ [x1b; "["; "2"; "7"; "m"; x1b; "8"]%byte) (EraseLine l)) by reflexivity.
    rewrite (hears_csi _ _ [Some 7%N] "m" (s ++ [x1b; "["; "2"; "7"; "m"; x1b; "8"]%byte) (Sgr l [7%N])) by reflexivity.
    rewrite HT. subst k2. assert (L : hears l (S (S k)) [x1b; "["; "2"; "7"; "m"; x1b; "8"]%byte = Some [Sgr l [27%N]; Restore l]) by (rewrite (hears_csi _ _ [Some 27%N] "m" [x1b; "8"]%byte (Sgr l [27%N])), hears_8 by reflexivity; destruct k; reflexivity). rewrite L.
    reflexivity.
  Qed.

  (** ** Writing the sequences *)
  Lemma gets_run s acts t : hears l (List.length s) s = Some acts -> gets l wcwidth W s t = Some (run acts t).
  Proof. intros H. unfold gets. rewrite H. reflexivity. Qed.
  Lemma gets_resize H : 3 <= H -> (N.of_nat H <= 65535)%N -> exists seq, bfs_bar_resize (N.of_nat H) = Some seq /\ forall t, gets l wcwidth W seq t = Some (run (resize_acts (N.of_nat (H - 1))) t).
  Proof.
    intros H3 HM. destruct (resize_ok (N.of_nat H) HM) as (_ & R). destruct (R ltac:(lia)) as (ds & E & D & NE & _). exists (PREFIX ++ ds ++ SUFFIX). split; [exact E|].
    intros t. apply gets_run. replace (N.of_nat (H - 1)) with (N.of_nat H - 1)%N by lia. apply hears_resize; [exact NE|exact D|lia].
  Qed.
  Lemma gets_small H : H < 3 -> bfs_bar_resize (N.of_nat H) = Some reset_seq.
  Proof. intros H3. apply resize_ok; lia. Qed.
  Lemma gets_reset t : gets l wcwidth W reset_seq t = Some (run reset_acts t).
  Proof. apply gets_run. exact hears_reset. Qed.

  (** ** Between the descriptions of a terminal *)
  Lemma nth_repeat_lt T (x d : T) n i : i < n -> nth i (repeat x n) d = x.
  Proof. revert i. induction n as [|n IH]; intros [|i] L; try lia; [reflexivity|]. cbn [repeat nth]. apply IH. lia. Qed.
  Lemma split_nth T (L : list T) i d : i < List.length L -> L = firstn i L ++ nth i L d :: skipn (S i) L.
  Proof. revert L. induction i as [|i IH]; intros [|x L] LT; cbn [List.length] in LT; try lia; [reflexivity|]. cbn [firstn nth skipn app]. f_equal. apply IH. lia. Qed.
  Lemma all_repeat T (x d : T) L : (forall i, i < List.length L -> nth i L d = x) -> L = repeat x (List.length L).
  Proof. induction L as [|y L IH]; intros H; [reflexivity|]. cbn [List.length repeat]. f_equal; [exact (H 0 ltac:(cbn; lia))|]. apply IH. intros i LT. exact (H (S i) ltac:(cbn; lia)). Qed.

  Lemma to_at H t : screen l W H t -> clear_up_to l W (bottom l t) t ->
    at_ t (fst (before l t), snd (before l t), attrs l t) (bottom l t) (skipn (S (bottom l t)) (rows l t)).
  Proof.
    intros [S1 S2 S3 S4 S5] (C1 & C2). unfold before. cbn [fst snd]. exists (firstn (row l t) (rows l t)). cbn [fst snd]. split; [|reflexivity].
    set (x := nth (row l t) (rows l t) []) in *. assert (LX : List.length x = W) by (rewrite Forall_forall in S2; apply S2, nth_In; lia).
    assert (LF : List.length (firstn (col l t) x) = col l t) by (rewrite firstn_length; lia). assert (LA : List.length (firstn (row l t) (rows l t)) = row l t) by (rewrite firstn_length; lia).
    constructor; auto; rewrite ?LF, ?LA; try lia.
    - rewrite <- C1. rewrite (firstn_skipn (col l t) x). rewrite (split_nth _ (rows l t) (row l t) []) at 1 by lia. fold x. f_equal. f_equal.
      rewrite <- (firstn_skipn (bottom l t - row l t) (skipn (S (row l t)) (rows l t))) at 1. f_equal.
      + set (L := firstn (bottom l t - row l t) (skipn (S (row l t)) (rows l t))). assert (LL : List.length L = bottom l t - row l t) by (unfold L; rewrite firstn_length, skipn_length; lia).
        rewrite <- LL. apply all_repeat with (d := []). intros i LT. unfold L. assert (NF : forall T (M : list T) k j d, j < k -> nth j (firstn k M) d = nth j M d).
        { intros T M k. revert M. induction k as [|k IH]; intros [|z M] [|j] d LJ; try lia; try reflexivity. cbn [firstn nth]. apply IH. lia. }
        rewrite NF by lia. assert (NS : forall T (M : list T) k j d, nth j (skipn k M) d = nth (k + j) M d).
        { intros T M k. revert M. induction k as [|k IH]; intros [|z M] j d; try reflexivity; [destruct j; reflexivity|]. cbn [skipn Nat.add nth]. apply IH. }
        rewrite NS. apply C2; lia.
      + assert (SS : forall T (M : list T) j k, skipn j (skipn k M) = skipn (k + j) M). { intros T M j k. revert M. induction k as [|k IH]; intros [|z M]; try reflexivity; [destruct j; reflexivity|]. cbn [skipn Nat.add]. apply IH. }
        rewrite SS. f_equal. lia.
    - apply Forall_forall. intros y I. rewrite Forall_forall in S2. apply S2. rewrite <- (firstn_skipn (row l t) (rows l t)). apply in_or_app. left. exact I.
    - apply Forall_forall. intros y I. rewrite Forall_forall in S2. apply S2. rewrite <- (firstn_skipn (S (bottom l t)) (rows l t)). apply in_or_app. right. exact I.
  Qed.

  Lemma from_at t d cur a bot C : at_ t (d, cur, a) bot C ->
    screen l W (S bot + List.length C) t /\ clear_up_to l W bot t /\ before l t = (d, cur) /\ transcript l t = d ++ [cur ++ blanks (W - List.length cur)] /\
    col l t = List.length cur /\ attrs l t = a /\ bottom l t = bot /\ skipn (S bot) (rows l t) = C.
  Proof.
    intros (A & [P1 P2 P3 P4 P5 P6 P7 P8 P9] & HD). cbn [fst snd] in *.
    assert (LX : List.length (cur ++ blanks (W - List.length cur)) = W) by (rewrite app_length, blanks_length; lia).
    assert (LR : List.length (rows l t) = S bot + List.length C) by (rewrite P1, app_length; cbn [List.length]; rewrite app_length, repeat_length; lia).
    split; [|split; [|split; [|split; [|repeat split; auto]]]].
    - constructor; [exact LR| |lia|lia|lia]. rewrite P1. apply Forall_app. split; [exact P8|]. constructor; [exact LX|]. apply Forall_app. split; [|exact P9].
      apply Forall_forall. intros y I. apply repeat_spec in I. subst y. apply blanks_length.
    - unfold clear_up_to. rewrite P1, P2, P3, mid_nth. split; [rewrite skipn_app, skipn_all, Nat.sub_diag; reflexivity|]. intros i L1 L2.
      rewrite app_nth2 by lia. replace (i - List.length A) with (S (i - List.length A - 1)) by lia. cbn [nth]. rewrite app_nth1 by (rewrite repeat_length; lia). apply nth_repeat_lt. lia.
    - unfold before. rewrite P1, P2, P3, mid_firstn, mid_nth, firstn_cur. f_equal. exact HD.
    - unfold transcript. rewrite P1, P2, mid_firstn_S, app_assoc. f_equal. exact HD.
    - rewrite P1. replace (A ++ (cur ++ blanks (W - List.length cur)) :: repeat (blanks W) (bot - List.length A) ++ C) with ((A ++ (cur ++ blanks (W - List.length cur)) :: repeat (blanks W) (bot - List.length A)) ++ C) by (rewrite <- app_assoc; reflexivity).
      rewrite skipn_app, skipn_all2; rewrite app_length; cbn [List.length]; rewrite repeat_length; [|lia]. replace (S bot - (List.length A + S (bot - List.length A))) with 0 by lia. reflexivity.
  Qed.

  (** ** The sequences, where only blank lines follow *)
  Lemma reset_at t d cur a bot C : at_ t (d, cur, a) bot C -> List.length cur < W -> at_ (run reset_acts t) (d, cur, a) (bot + List.length C) [].
  Proof.
    intros (A & [P1 P2 P3 P4 P5 P6 P7 P8 P9] & HD) LT. cbn [fst snd] in *. destruct t as [h rs r c sv b at']. cbn [rows row col attrs bottom history] in *. subst rs r c b at'.
    destruct (reset_run h A (cur ++ blanks (W - List.length cur)) (repeat (blanks W) (bot - List.length A) ++ C) (List.length cur) sv bot a LT) as (sv' & R). rewrite R. exists A. cbn [fst snd history]. split; [|exact HD].
    rewrite app_length, repeat_length, firstn_cur. constructor; cbn [rows row col attrs bottom history]; auto; try lia. rewrite app_nil_r. f_equal. f_equal. f_equal. lia.
  Qed.
  Lemma resize_at H t d cur a bot C : at_ t (d, cur, a) bot C -> List.length cur < W -> H = S bot + List.length C -> 3 <= H -> 1 <= bot ->
    at_ (run (resize_acts (N.of_nat (H - 1))) t) (d, cur, a) (H - 2) [blanks W].
  Proof.
    intros (A & [P1 P2 P3 P4 P5 P6 P7 P8 P9] & HD) LT HH H3 B1. cbn [fst snd] in *. destruct t as [h rs r c sv b at']. cbn [rows row col attrs bottom history] in *. subst rs r c b at'.
    destruct (resize_run H h A (cur ++ blanks (W - List.length cur)) (repeat (blanks W) (bot - List.length A) ++ C) (List.length cur) sv bot a) as (sv' & h' & A' & R & E & LA & FA); auto; try lia; [rewrite app_length, repeat_length; lia|].
    rewrite R. exists A'. cbn [fst snd history]. split; [|rewrite E; exact HD]. rewrite firstn_cur. constructor; cbn [rows row col attrs bottom history]; auto; try lia.
    - f_equal. f_equal. replace (H - S (List.length A')) with ((H - 2 - List.length A') + 1) by lia. apply repeat_app.
    - constructor; [apply blanks_length|constructor].
  Qed.
  Lemma update_at t d cur a bot y cs : at_ t (d, cur, a) bot [y] -> 1 <= W -> columns l wcwidth cs = W ->
    at_ (run (update_acts (N.of_nat (S (S bot))) cs) t) (d, cur, a) bot [paint l wcwidth (fst a, true) [] cs] /\
    (let t' := run (update_acts (N.of_nat (S (S bot))) cs) t in
     history l t' = history l t /\ rows l t' = firstn (S bot) (rows l t) ++ [paint l wcwidth (fst a, true) [] cs] /\ row l t' = row l t).
  Proof.
    intros (A & [P1 P2 P3 P4 P5 P6 P7 P8 P9] & HD) W1 CW. cbn [fst snd] in *. destruct t as [h rs r c sv b at']. cbn [rows row col attrs bottom history] in *. subst rs r c b at'.
    set (D := A ++ (cur ++ blanks (W - List.length cur)) :: repeat (blanks W) (bot - List.length A)).
    assert (LD : List.length D = S bot) by (unfold D; rewrite app_length; cbn [List.length]; rewrite repeat_length; lia).
    replace (A ++ (cur ++ blanks (W - List.length cur)) :: repeat (blanks W) (bot - List.length A) ++ [y]) with (D ++ [y]) by (unfold D; rewrite <- app_assoc; reflexivity).
    replace (S (S bot)) with (S (List.length D)) by lia. rewrite update_run by (auto; lia). split.
    - exists A. cbn [fst snd history]. split; [|exact HD]. constructor; cbn [rows row col attrs bottom history]; auto; [unfold D; rewrite <- app_assoc; reflexivity|].
      constructor; [|constructor]. rewrite paint_length. cbn [List.length]. lia.
    - cbn zeta. cbn [history rows row]. split; [reflexivity|]. split; [|reflexivity]. rewrite <- LD, mid_firstn. reflexivity.
  Qed.

  (** ** A session *)
  (** The last line of the region, while the bar is shown *)
  Definition last_line (H : nat) : nat := if H <? 3 then H - 1 else H - 2.

  Lemma during_ok H : 1 <= W -> 1 <= H -> (N.of_nat H <= 65535)%N -> forall evs t t0 s C bot0 C0,
    proper l wcwidth W H evs t0 -> at_ t s (last_line H) C -> S (last_line H) + List.length C = H -> at_ t0 s bot0 C0 ->
    exists ps t' s' C', during (action l) (Some (mkBar (N.of_nat W) (N.of_nat H))) evs = Some (ps, Some (mkBar (N.of_nat W) (N.of_nat H))) /\
      sees l wcwidth W ps t = Some t' /\ at_ t' s' (last_line H) C' /\ S (last_line H) + List.length C' = H /\ at_ (alone l wcwidth W evs t0) s' bot0 C0.
  Proof.
    intros W1 H1 HM. induction evs as [|e evs IH]; intros t t0 s C bot0 C0 PR AT LC AT0; [exists [], t, s, C; cbn [during sees alone]; auto|]. destruct e as [a|mem x|size]; cbn [proper] in PR; cbn [during alone].
    - destruct PR as (PA & PR). destruct (IH (act a t) (act a t0) (ink a s) C bot0 C0 PR (plain_ok _ _ _ _ _ PA AT) LC (plain_ok _ _ _ _ _ PA AT0)) as (ps & t' & s' & C' & D & SE & R). rewrite D.
      exists (Printed a :: ps), t', s', C'. split; [reflexivity|]. split; [exact SE|exact R].
    - destruct PR as ((cs & SH & F & CW) & PR). 
      assert (U : exists C1, (exists t1, gets l wcwidth W (bfs_bar_update mem (mkBar (N.of_nat W) (N.of_nat H)) x) t = Some t1 /\ at_ t1 s (last_line H) C1) /\ S (last_line H) + List.length C1 = H).
      { destruct (Nat.lt_ge_cases H 3) as [L|L].
        - exists C. split; [|exact LC]. exists t. split; [|exact AT]. unfold bfs_bar_update. cbn [bar_height]. assert (K : (N.of_nat H <? BFS_BAR_MIN_HEIGHT)%N = true) by (unfold BFS_BAR_MIN_HEIGHT; lia). rewrite K. reflexivity.
        - assert (LL : last_line H = H - 2) by (unfold last_line; destruct (Nat.ltb_spec H 3); [lia|reflexivity]). rewrite LL in *.
          pose proof (hears_update (mkBar (N.of_nat W) (N.of_nat H)) x cs mem SH F ltac:(cbn [bar_height]; lia)) as HU. apply gets_run with (t := t) in HU. destruct mem.
          + destruct C as [|y [|? ?]]; cbn [List.length] in LC; try lia. destruct s as ((d, cur), a). destruct (update_at t d cur a (H - 2) y cs AT W1 CW) as (AT1 & _). replace (S (S (H - 2))) with H in AT1 by lia.
            exists [paint l wcwidth (fst a, true) [] cs]. split; [|cbn [List.length]; lia]. eexists. split; [exact HU|exact AT1]. 
          + exists C. split; [|exact LC]. exists t. split; [exact HU|exact AT]. }
      destruct U as (C1 & (t1 & G & AT1) & LC1). destruct (IH t1 t0 s C1 bot0 C0 PR AT1 LC1 AT0) as (ps & t' & s' & C' & D & SE & R). rewrite D.
      eexists _, t', s', C'. split; [reflexivity|]. split; [cbn [sees]; rewrite G; exact SE|exact R].
    - destruct PR as (SZ & CL & PR). assert (GS : bfs_bar_sigwinch size (mkBar (N.of_nat W) (N.of_nat H)) = (mkBar (N.of_nat W) (N.of_nat H), bfs_bar_resize (N.of_nat H))) by (destruct SZ as [->| ->]; reflexivity).
      rewrite GS. destruct s as ((d, cur), a). pose proof (from_at _ _ _ _ _ _ AT0) as (_ & _ & _ & _ & CO & _). rewrite CO in CL.
      assert (U : exists C1 seq t1, bfs_bar_resize (N.of_nat H) = Some seq /\ gets l wcwidth W seq t = Some t1 /\ at_ t1 (d, cur, a) (last_line H) C1 /\ S (last_line H) + List.length C1 = H).
      { destruct (Nat.lt_ge_cases H 3) as [L|L].
        - exists [], reset_seq, (run reset_acts t). split; [apply gets_small; exact L|]. split; [apply gets_reset|]. assert (LL : last_line H = H - 1) by (unfold last_line; destruct (Nat.ltb_spec H 3); [reflexivity|lia]). rewrite LL in *.
          pose proof (reset_at t d cur a (H - 1) C AT CL) as R. assert (List.length C = 0) by lia. replace (H - 1 + List.length C) with (H - 1) in R by lia. split; [exact R|cbn [List.length]; lia].
        - assert (LL : last_line H = H - 2) by (unfold last_line; destruct (Nat.ltb_spec H 3); [lia|reflexivity]). rewrite LL in *. destruct (gets_resize H L HM) as (seq & E & G).
          exists [blanks W], seq, (run (resize_acts (N.of_nat (H - 1))) t). split; [exact E|]. split; [apply G|]. split; [|cbn [List.length]; lia]. apply (resize_at H t d cur a (H - 2) C AT CL); lia. }
      destruct U as (C1 & seq & t1 & E & G & AT1 & LC1). rewrite E. destruct (IH t1 t0 (d, cur, a) C1 bot0 C0 PR AT1 LC1 AT0) as (ps & t' & s' & C' & D & SE & R). rewrite D.
      eexists _, t', s', C'. split; [reflexivity|]. split; [cbn [sees]; rewrite G; exact SE|exact R].
  Qed.

  Lemma sees_app : forall ps qs t, sees l wcwidth W (ps ++ qs) t = match sees l wcwidth W ps t with Some t => sees l wcwidth W qs t | None => None end.
  Proof. induction ps as [|[a|x] ps IH]; intros qs t; cbn [app sees]; [reflexivity|apply IH|]. destruct (gets l wcwidth W x t); [apply IH|reflexivity]. Qed.

  Lemma resized H b t : 3 <= H -> (N.of_nat H <= 65535)%N -> screen l W H t -> 1 <= bottom l t -> col l t < W ->
    exists seq t', bfs_bar_sigwinch (Some (N.of_nat W, N.of_nat H)) b = (mkBar (N.of_nat W) (N.of_nat H), Some seq) /\ gets l wcwidth W seq t = Some t' /\
      shown l W H t' /\ clear_up_to l W (H - 1) t' /\ before l t' = before l t /\ col l t' = col l t /\ attrs l t' = attrs l t.
  Proof.
    intros H3 HM SC B1 CL. destruct (gets_resize H H3 HM) as (seq & E & G). exists seq, (run (resize_acts (N.of_nat (H - 1))) t). split; [cbn; rewrite E; reflexivity|]. split; [apply G|].
    destruct SC as [S1 S2 S3 S4 S5]. set (A := firstn (row l t) (rows l t)). set (x := nth (row l t) (rows l t) []).
    assert (SP : rows l t = A ++ x :: skipn (S (row l t)) (rows l t)) by (apply split_nth; lia). assert (LA : List.length A = row l t) by (unfold A; rewrite firstn_length; lia).
    assert (LX : List.length x = W) by (rewrite Forall_forall in S2; apply S2, nth_In; lia). assert (FA : Forall (fun y => List.length y = W) A) by (rewrite SP in S2; apply Forall_app in S2; apply S2).
    destruct (resize_run H (history l t) A x (skipn (S (row l t)) (rows l t)) (col l t) (saved l t) (bottom l t) (attrs l t)) as (sv' & h' & A' & R & EH & LA' & FA'); auto; try lia; [rewrite skipn_length; lia|].
    assert (ET : t = mkTerm l (history l t) (A ++ x :: skipn (S (row l t)) (rows l t)) (List.length A) (col l t) (saved l t) (bottom l t) (attrs l t)) by (rewrite <- SP, LA; destruct t; reflexivity).
    rewrite ET. rewrite R. clear R.
    assert (LF : List.length (firstn (col l t) x) = col l t) by (rewrite firstn_length; lia).
    assert (P : forall k, k <= 1 -> at_ (mkTerm l h' (A' ++ (firstn (col l t) x ++ blanks (W - col l t)) :: repeat (blanks W) (H - S (List.length A'))) (List.length A') (col l t) sv' (H - 1 - k) (attrs l t))
      (history l t ++ A, firstn (col l t) x, attrs l t) (H - 1 - k) (repeat (blanks W) k)).
    { intros k K. exists A'. cbn [fst snd history]. split; [|exact EH]. constructor; cbn [rows row col attrs bottom history]; auto; try lia; rewrite ?LF; try lia.
      - f_equal. f_equal. rewrite <- repeat_app. f_equal. lia.
      - apply Forall_forall. intros y I. apply repeat_spec in I. subst y. apply blanks_length. }
    pose proof (from_at _ _ _ _ _ _ (P 1 ltac:(lia))) as (F1 & F2 & F3 & _ & F5 & F6 & F7 & _). pose proof (from_at _ _ _ _ _ _ (P 0 ltac:(lia))) as (_ & G2 & _).
    replace (H - 1 - 1) with (H - 2) in * by lia. cbn [repeat List.length] in F1. replace (S (H - 2) + 1) with H in F1 by lia.
    split; [split; [exact F1|split; [exact F7|exact F2]]|]. split; [replace (H - 1) with (H - 1 - 0) by lia; exact G2|]. split; [|split; reflexivity].
    rewrite F3. rewrite <- ET. reflexivity.
  Qed.

  Lemma session_ok H : 1 <= W -> 1 <= H -> (N.of_nat H <= 65535)%N -> forall t evs killed, ready l W H t -> col l t < W ->
    proper l wcwidth W H evs t -> col l (alone l wcwidth W evs t) < W ->
    exists ps t', session (action l) true true (Some (N.of_nat W, N.of_nat H)) evs killed = Some ps /\ sees l wcwidth W ps t = Some t' /\
      ready l W H t' /\ transcript l t' = transcript l (alone l wcwidth W evs t) /\
      col l t' = col l (alone l wcwidth W evs t) /\ attrs l t' = attrs l (alone l wcwidth W evs t).
  Proof.
    intros W1 H1 HM t evs killed (SC & BO & CLR) CL PR CE. pose proof SC as [S1 _ _ _ _]. rewrite <- BO in CLR. pose proof (to_at H t SC CLR) as AT. rewrite BO in AT.
    assert (SK : skipn (S (H - 1)) (rows l t) = []) by (apply skipn_all2; lia). rewrite SK in AT. set (d := fst (before l t)) in *. set (cur := snd (before l t)) in *.
    pose proof (from_at _ _ _ _ _ _ AT) as (_ & _ & _ & _ & CO & _). rewrite CO in CL.
    assert (U : exists seq t1 C1, bfs_bar_resize (N.of_nat H) = Some seq /\ gets l wcwidth W seq t = Some t1 /\ at_ t1 (d, cur, attrs l t) (last_line H) C1 /\ S (last_line H) + List.length C1 = H).
    { destruct (Nat.lt_ge_cases H 3) as [L|L].
      - assert (LL : last_line H = H - 1) by (unfold last_line; destruct (Nat.ltb_spec H 3); [reflexivity|lia]). rewrite LL. exists reset_seq, (run reset_acts t), []. split; [apply gets_small; exact L|]. split; [apply gets_reset|].
        pose proof (reset_at t d cur _ (H - 1) [] AT CL) as R. cbn [List.length] in R |- *. rewrite Nat.add_0_r in R. split; [exact R|lia].
      - assert (LL : last_line H = H - 2) by (unfold last_line; destruct (Nat.ltb_spec H 3); [lia|reflexivity]). rewrite LL. destruct (gets_resize H L HM) as (seq & E & G).
        exists seq, (run (resize_acts (N.of_nat (H - 1))) t), [blanks W]. split; [exact E|]. split; [apply G|]. split; [|cbn [List.length]; lia]. apply (resize_at H t d cur _ (H - 1) [] AT CL); cbn [List.length]; lia. }
    destruct U as (seq & t1 & C1 & E & G & AT1 & LC1). destruct (during_ok H W1 H1 HM evs t1 t (d, cur, attrs l t) C1 (H - 1) [] PR AT1 LC1 AT) as (ps & t2 & s2 & C2 & D & SE & AT2 & LC2 & AT0).
    unfold session, bfs_bar_show. cbn [negb bfs_bar_getsize bar_height]. rewrite E, D. destruct s2 as ((d2, cur2), a2). pose proof (from_at _ _ _ _ _ _ AT0) as (_ & _ & _ & T0 & CO0 & A0 & _).
    rewrite CO0 in CE. pose proof (reset_at t2 d2 cur2 a2 (last_line H) C2 AT2 CE) as R. replace (last_line H + List.length C2) with (H - 1) in R by lia.
    pose proof (from_at _ _ _ _ _ _ R) as (R1 & R2 & _ & R4 & R5 & R6 & R7 & _). cbn [List.length] in R1. replace (S (H - 1) + 0) with H in R1 by lia.
    eexists _, (run reset_acts t2). split; [reflexivity|]. split; [|split; [split; [exact R1|split; [exact R7|exact R2]]|]; split; [rewrite R4, T0; reflexivity|split; [rewrite R5, CO0; reflexivity|rewrite R6, A0; reflexivity]]].
    cbn [sees]. rewrite G, sees_app, SE. cbn [sees]. unfold bfs_bar_sigexit, bfs_bar_hide, bfs_bar_reset. replace (if killed then reset_seq else reset_seq) with reset_seq by (destruct killed; reflexivity).
    rewrite gets_reset. reflexivity.
  Qed.

  Lemma update_ok H : 3 <= H -> 1 <= W -> forall t s, shown l W H t -> fills l wcwidth s W ->
    exists t' x, gets l wcwidth W (bfs_bar_update true (mkBar (N.of_nat W) (N.of_nat H)) s) t = Some t' /\ displays l wcwidth x s /\
      rows l t' = firstn (H - 1) (rows l t) ++ [x] /\ history l t' = history l t /\ row l t' = row l t /\ col l t' = col l t /\ attrs l t' = attrs l t /\ shown l W H t'.
  Proof.
    intros H3 W1 t s (SC & BO & CLR) (cs & SH & F & CW). pose proof (sc_lines _ _ _ _ SC) as S1. rewrite <- BO in CLR. pose proof (to_at H t SC CLR) as AT. rewrite BO in AT.
    assert (LS : List.length (skipn (S (H - 2)) (rows l t)) = 1) by (rewrite skipn_length; lia). destruct (skipn (S (H - 2)) (rows l t)) as [|y [|? ?]] eqn:SK; cbn [List.length] in LS; try lia.
    pose proof (hears_update (mkBar (N.of_nat W) (N.of_nat H)) s cs true SH F ltac:(cbn [bar_height]; lia)) as HU. apply gets_run with (t := t) in HU. cbn [bar_height] in HU.
    destruct (update_at t _ _ _ _ _ cs AT W1 CW) as (AT1 & E1 & E2 & E3). replace (S (S (H - 2))) with H in * by lia. replace (S (H - 2)) with (H - 1) in * by lia.
    pose proof (from_at _ _ _ _ _ _ AT) as (_ & _ & _ & _ & CO & AA & _). pose proof (from_at _ _ _ _ _ _ AT1) as (R1 & R2 & _ & _ & R5 & R6 & R7 & _). cbn [List.length] in R1. replace (S (H - 2) + 1) with H in R1 by lia.
    eexists _, _. split; [exact HU|]. split; [exists cs, (fst (attrs l t), true); split; [exact SH|split; [reflexivity|reflexivity]]|]. split; [exact E2|]. split; [exact E1|]. split; [exact E3|].
    split; [rewrite R5, CO; reflexivity|]. split; [exact R6|]. split; [exact R1|]. split; [exact R7|exact R2].
  Qed.

  Lemma text_ok H : 3 <= H -> forall t a, shown l W H t -> plain l a -> shown l W H (act a t) /\ nth (H - 1) (rows l (act a t)) [] = nth (H - 1) (rows l t) [].
  Proof.
    intros H3 t a (SC & BO & CLR) PA. pose proof (sc_lines _ _ _ _ SC) as S1. rewrite <- BO in CLR. pose proof (to_at H t SC CLR) as AT. rewrite BO in AT.
    pose proof (plain_ok _ _ _ _ _ PA AT) as AT1. destruct (ink a (fst (before l t), snd (before l t), attrs l t)) as ((d, cur), a'). 
    pose proof (from_at _ _ _ _ _ _ AT1) as (R1 & R2 & _ & _ & _ & _ & R7 & R8). assert (LS : List.length (skipn (S (H - 2)) (rows l t)) = 1) by (rewrite skipn_length; lia).
    rewrite LS in R1. replace (S (H - 2) + 1) with H in R1 by lia. split; [split; [exact R1|split; [exact R7|exact R2]]|].
    assert (NS : forall T (M : list T) k j d, nth j (skipn k M) d = nth (k + j) M d).
    { intros T M k. revert M. induction k as [|k IH]; intros [|z M] j d0; try reflexivity; [destruct j; reflexivity|]. cbn [skipn Nat.add nth]. apply IH. }
    replace (H - 1) with (S (H - 2) + 0) by lia. rewrite <- !NS, R8. reflexivity.
  Qed.
End Proofs.

(** ** No bar *)
Lemma no_bar l wcwidth W tty hooks size evs killed t : (tty = false \/ hooks = false \/ size = None) ->
  exists ps, session (action l) tty hooks size evs killed = Some ps /\ sees l wcwidth W ps t = Some (alone l wcwidth W evs t).
Proof.
  intros C. assert (D : forall evs, exists ps, during (action l) None evs = Some (ps, None) /\ forall t, sees l wcwidth W ps t = Some (alone l wcwidth W evs t)).
  { clear. induction evs as [|[a|m x|z] evs (ps & D & SE)]; cbn [during alone]; [exists []; split; reflexivity| | |]; rewrite ?D; [exists (Printed a :: ps); split; [reflexivity|intros t; exact (SE (act l wcwidth W a t))]| |]; exists ps; auto. }
  destruct (D evs) as (ps & E & SE).
  assert (B : bfs_bar_show tty hooks size = (None, Some [])).
  { unfold bfs_bar_show. destruct tty; cbn [negb]; [|reflexivity]. destruct size as [[c r]|]; cbn [bfs_bar_getsize negb]; [|reflexivity]. destruct hooks; [|reflexivity]. destruct C as [C|[C|C]]; discriminate C. }
  exists (Wrote [] :: ps ++ [Wrote []]). unfold session. rewrite B, E. split; [destruct killed; reflexivity|]. cbn [sees gets List.length hears fold_left]. unfold gets. cbn [List.length hears fold_left].
  rewrite sees_app, SE. reflexivity.
Qed.

(** ** A full line *)
Definition empty3 : term demo := mkTerm demo [] (repeat (repeat (Blank demo) 3) 3) 0 0 (0, 0, ([], false)) 2 ([], false).
Lemma empty3_ready : ready demo 3 3 empty3.
Proof.
  split; [constructor; cbn; try lia; repeat constructor|]. split; [reflexivity|]. split; [reflexivity|]. intros i L1 L2. cbn in L1. destruct i as [|[|[|i]]]; try lia; reflexivity.
Qed.
Lemma by_result T (o : option T) d : match o with Some _ => true | None => false end = true -> o = Some (match o with Some x => x | None => d end).
Proof. destruct o; [reflexivity|discriminate]. Qed.
Definition abc : list (event (action demo)) := map (fun c => Text (Print demo c)) [97; 98; 99]%N.
Definition abc_pieces : list (piece (action demo)) := match session (action demo) true true (Some (3, 3)%N) abc false with Some ps => ps | None => [] end.
Definition abc_after : term demo := match sees demo demo_width 3 abc_pieces empty3 with Some t => t | None => empty3 end.
Definition used (x : cell demo) : bool := match x with Blank _ => false | _ => true end.
Lemma full_line : exists l wcwidth W H t evs, sane l wcwidth /\ isprint l x1b = false /\ ready l W H t /\ col l t < W /\ proper l wcwidth W H evs t /\
  exists ps t', session (action l) true true (Some (N.of_nat W, N.of_nat H)) evs false = Some ps /\ sees l wcwidth W ps t = Some t' /\
    transcript l t' <> transcript l (alone l wcwidth W evs t).
Proof.
  exists demo, demo_width, 3, 3, empty3, abc. split; [exact demo_is_sane|]. split; [reflexivity|]. split; [exact empty3_ready|]. split; [cbn; lia|].
  split; [unfold abc; cbn [map proper plain]; repeat split|]. exists abc_pieces, abc_after. split; [apply by_result; vm_compute; reflexivity|]. split; [apply by_result; vm_compute; reflexivity|].
  intros E. apply (f_equal (fun ls => List.length (filter used (concat ls)))) in E. revert E.
  assert (E1 : List.length (filter used (concat (transcript demo abc_after))) = 2) by (vm_compute; reflexivity).
  assert (E2 : List.length (filter used (concat (transcript demo (alone demo demo_width 3 abc empty3)))) = 3) by (vm_compute; reflexivity). rewrite E1, E2. discriminate.
Qed.
