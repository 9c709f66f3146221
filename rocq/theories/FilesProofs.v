(** * Proofs about reading roots from a file *)
From Coq Require Import List Arith Bool Init.Byte Strings.Byte Lia.
From Verif Require Import FilesModel FilesSpec.
Import ListNotations.

Lemma eqb_true a b : Byte.eqb a b = true <-> a = b.
Proof. split; [apply Byte.byte_dec_bl|intros ->; apply Byte.byte_dec_lb; reflexivity]. Qed.

Lemma cut_ok d s : match cut d s with
  | (a, b, true) => exists p, a = p ++ [d] /\ ~ In d p /\ s = p ++ d :: b
  | (a, b, false) => a = s /\ b = [] /\ ~ In d s
  end.
Proof.
  induction s as [|c s IH]; [split; [reflexivity|]; split; [reflexivity|intros []]|]. cbn [cut].
  destruct (Byte.eqb c d) eqn:E.
  - apply eqb_true in E. subst c. exists []. split; [reflexivity|]. split; [intros []|reflexivity].
  - assert (N : c <> d) by (intros X; apply eqb_true in X; congruence).
    destruct (cut d s) as ((a & b) & []).
    + destruct IH as (p & -> & I & ->). exists (c :: p). split; [reflexivity|]. split; [intros [X | X]; contradiction|reflexivity].
    + destruct IH as (-> & -> & I). split; [reflexivity|]. split; [reflexivity|]. intros [X | X]; contradiction.
Qed.

Lemma c_string_nul p t : ~ In x00 p -> c_string (p ++ x00 :: t) = p.
Proof.
  induction p as [|c p IH]; intros N; [reflexivity|]. cbn [app c_string]. destruct (Byte.eqb c x00) eqn:E.
  - apply eqb_true in E. destruct N. left. exact E.
  - rewrite IH; [reflexivity|]. intros X. apply N. right. exact X.
Qed.

Lemma set_last (c : list byte) : set_nth (length c) x00 (c ++ [x00]) = c ++ [x00].
Proof. induction c as [|x c IH]; [reflexivity|]. cbn [length app set_nth]. rewrite IH. reflexivity. Qed.

Lemma xget_text (l : libc) c (d : byte) : c_string (if Byte.eqb (nth (length c) (c ++ [x00]) x00) d then set_nth (length c) x00 (c ++ [x00]) else c ++ [x00]) = c_string (c ++ [x00]).
Proof. rewrite set_last. destruct (Byte.eqb _ d); reflexivity. Qed.

(** One step of the loop *)
Lemma step l oom s : match xgetdelim l oom s x00 with
  | Text t rest => fails rest = fails s /\ ~ In x00 t /\ length (bytes rest) < length (bytes s) /\
      (bytes s = t ++ x00 :: bytes rest \/ t <> [] /\ bytes s = t /\ bytes rest = [])
  | End => (bytes s = [] /\ fails s = false) \/ (indicator l = false /\ exists p, oom p = true)
  | Fail => fails s = true \/ exists p, oom p = true
  end.
Proof.
  unfold xgetdelim, getdelim. destruct (bytes s) as [|c bs] eqn:B.
  { destruct (fails s) eqn:F; left; [reflexivity|split; reflexivity]. }
  pose proof (cut_ok x00 (c :: bs)) as C. destruct (cut x00 (c :: bs)) as ((a & b) & found).
  destruct (oom a) eqn:O. { destruct (indicator l) eqn:I; right; [|split; [reflexivity|]]; exists a; exact O. }
  destruct found.
  - destruct C as (p & -> & N & E). cbn zeta. rewrite (xget_text l). rewrite <- app_assoc. cbn [app]. rewrite (c_string_nul _ _ N). cbn [bytes fails].
    split; [reflexivity|]. split; [exact N|]. split; [rewrite E, app_length; cbn [length]; lia|]. left. exact E.
  - destruct C as (-> & -> & N). destruct (fails s && negb (partial l)) eqn:F.
    { left. apply andb_true_iff in F. apply F. }
    cbn zeta. rewrite (xget_text l), (c_string_nul _ _ N). cbn [bytes fails]. split; [reflexivity|]. split; [exact N|].
    split; [cbn [length]; lia|]. right. split; [discriminate|]. split; reflexivity.
Qed.

Lemma terminated_app a b : terminated (a ++ b) = terminated a ++ terminated b.
Proof. unfold terminated. rewrite map_app, concat_app. reflexivity. Qed.

(** What is listed after names that are terminated *)
Lemma listed_after done rest names : (forall n, In n done -> ~ In x00 n) -> listed rest names -> listed (terminated done ++ rest) (done ++ names).
Proof.
  intros D (N & L). split.
  - intros n I. apply in_app_or in I as [I | I]; [exact (D n I)|exact (N n I)].
  - destruct L as [-> | (f & t & -> & T & ->)]; [left; symmetry; apply terminated_app|right].
    exists (done ++ f), t. split; [rewrite app_assoc; reflexivity|]. split; [exact T|]. rewrite terminated_app, app_assoc. reflexivity.
Qed.
Lemma listed_nil : listed [] [].
Proof. split; [intros n []|left; reflexivity]. Qed.
Lemma listed_cons t rest names : ~ In x00 t -> listed rest names -> listed (t ++ x00 :: rest) (t :: names).
Proof.
  intros T L. replace (t ++ x00 :: rest) with (terminated [t] ++ rest) by (cbn; rewrite app_nil_r, <- app_assoc; reflexivity).
  apply (listed_after [t]); [|exact L]. intros n [<- | []]. exact T.
Qed.
Lemma listed_last t : t <> [] -> ~ In x00 t -> listed t [t].
Proof. intros T N. split; [intros n [<- | []]; exact N|]. right. exists [], t. split; [reflexivity|]. split; [exact T|reflexivity]. Qed.

Section Read.
  Variable l : libc.
  Variables oom full : list byte -> bool.

  Lemma read_ok fuel : forall s paths, length (bytes s) < fuel ->
    match read_roots l oom full fuel s paths with
    | Roots ps => exists names, ps = paths ++ names /\
        (listed (bytes s) names /\ fails s = false \/ indicator l = false /\ exists p, oom p = true)
    | Rejected false => fails s = true \/ exists p, oom p = true
    | Rejected true => exists p, full p = true
    | Out_of_fuel => False
    end.
  Proof.
    induction fuel as [|fuel IH]; intros s paths L; [lia|]. cbn [read_roots]. pose proof (step l oom s) as ST.
    destruct (xgetdelim l oom s x00) as [t rest| |].
    - destruct ST as (F & N & LT & E). destruct (full t) eqn:FU; [exists t; exact FU|].
      specialize (IH rest (paths ++ [t]) ltac:(lia)). destruct (read_roots l oom full fuel rest (paths ++ [t])) as [ps|[]|].
      + destruct IH as (names & -> & G). exists (t :: names). split; [rewrite <- app_assoc; reflexivity|].
        destruct G as [(LI & F') | G]; [left|right; exact G]. split; [|congruence].
        destruct E as [-> | (T & -> & R)]; [apply listed_cons; assumption|].
        rewrite R in LI. destruct LI as (_ & [X | (f & la & -> & LN & X)]).
        * destruct names as [|n names]; [apply listed_last; assumption|]. cbn in X. rewrite <- app_assoc in X. destruct n; discriminate X.
        * destruct (terminated f); [|discriminate X]. cbn in X. symmetry in X. contradiction.
      + exact IH.
      + rewrite F in IH. exact IH.
      + exact IH.
    - exists []. split; [symmetry; apply app_nil_r|]. destruct ST as [(B & F) | ST]; [left; rewrite B; split; [apply listed_nil|exact F]|right; exact ST].
    - exact ST.
  Qed.

  Variable w : system.

  Lemma files0_ok c from s : explicit c = [] -> source w from s -> (from = ["-"%byte] -> stdin_used c = false) ->
    match parse_files0_roots l oom full w c from with
    | Roots ps => listed (bytes s) ps /\ fails s = false \/ indicator l = false /\ exists p, oom p = true
    | Rejected false => fails s = true \/ exists p, oom p = true
    | Rejected true => exists p, full p = true
    | Out_of_fuel => False
    end.
  Proof.
    intros X SO U. unfold parse_files0_roots. rewrite X.
    assert (G : match read_roots l oom full (2 + length (bytes s)) s [] with
    | Roots ps => listed (bytes s) ps /\ fails s = false \/ indicator l = false /\ exists p, oom p = true
    | Rejected false => fails s = true \/ exists p, oom p = true
    | Rejected true => exists p, full p = true
    | Out_of_fuel => False end).
    { pose proof (read_ok (2 + length (bytes s)) s [] ltac:(lia)) as R. destruct (read_roots l oom full _ s []); [|exact R|exact R].
      destruct R as (names & -> & R). exact R. }
    destruct (list_eq_dec Byte.byte_eq_dec from ["-"%byte]) as [E | E].
    - rewrite (U E). destruct SO as [(_ & ->) | (N & _)]; [exact G|contradiction].
    - destruct SO as [(N & _) | (_ & ->)]; [contradiction|exact G].
  Qed.
End Read.

Lemma roots_read l oom full w c from s : files0 c = Some from -> explicit c = [] -> source w from s -> (from = ["-"%byte] -> stdin_used c = false) ->
  (forall p, oom p = false) -> (forall p, full p = false) -> fails s = false ->
  exists names, listed (bytes s) names /\ parse_roots l oom full w c = Roots names.
Proof.
  intros F0 X SO U O FU F. unfold parse_roots. rewrite F0. pose proof (files0_ok l oom full w c from s X SO U) as G.
  destruct (parse_files0_roots l oom full w c from) as [ps|[]|].
  - destruct G as [(L & _) | (_ & p & Q)]; [exists ps; split; [exact L|reflexivity]|rewrite O in Q; discriminate].
  - destruct G as (p & Q). rewrite FU in Q. discriminate.
  - destruct G as [G | (p & Q)]; [congruence|rewrite O in Q; discriminate].
  - destruct G.
Qed.

Lemma never_part l oom full w c from s names : files0 c = Some from -> explicit c = [] -> source w from s -> (from = ["-"%byte] -> stdin_used c = false) ->
  indicator l = true \/ (forall p, oom p = false) ->
  parse_roots l oom full w c = Roots names -> listed (bytes s) names /\ fails s = false.
Proof.
  intros F0 X SO U I E. unfold parse_roots in E. rewrite F0 in E. pose proof (files0_ok l oom full w c from s X SO U) as G. rewrite E in G.
  destruct G as [G | (Z & p & O)]; [exact G|]. destruct I as [I | I]; [congruence|rewrite I in O; discriminate].
Qed.

Lemma always_answers l oom full w c : parse_roots l oom full w c <> Out_of_fuel.
Proof.
  unfold parse_roots. destruct (files0 c) as [from|].
  2:{ destruct (explicit c); [destruct (full ["."%byte])|]; discriminate. }
  unfold parse_files0_roots. destruct (explicit c); [|discriminate].
  assert (G : forall s, read_roots l oom full (2 + length (bytes s)) s [] <> Out_of_fuel).
  { intros s E. pose proof (read_ok l oom full (2 + length (bytes s)) s [] ltac:(lia)) as R. rewrite E in R. exact R. }
  cbn zeta. destruct (list_eq_dec _ from _); [destruct (stdin_used c); [discriminate|apply G]|]. destruct (open w from); [apply G|discriminate].
Qed.

Lemma silent l oom full w c : parse_roots l oom full w c = Rejected false ->
  exists from s, files0 c = Some from /\ source w from s /\ (fails s = true \/ exists p, oom p = true).
Proof.
  unfold parse_roots. destruct (files0 c) as [from|].
  2:{ destruct (explicit c); [destruct (full ["."%byte])|]; discriminate. }
  unfold parse_files0_roots. destruct (explicit c); [|discriminate]. cbn zeta.
  assert (G : forall s, read_roots l oom full (2 + length (bytes s)) s [] = Rejected false -> fails s = true \/ exists p, oom p = true).
  { intros s E. pose proof (read_ok l oom full (2 + length (bytes s)) s [] ltac:(lia)) as R. rewrite E in R. exact R. }
  destruct (list_eq_dec Byte.byte_eq_dec from ["-"%byte]) as [E | E].
  - destruct (stdin_used c); [discriminate|]. intros H. exists from, (stdin w). split; [reflexivity|]. split; [left; split; [exact E|reflexivity]|exact (G _ H)].
  - destruct (open w from) as [s|] eqn:OP; [|discriminate]. intros H. exists from, s. split; [reflexivity|]. split; [right; split; [exact E|exact OP]|exact (G _ H)].
Qed.

Lemma nul_split (a b : list byte) p q : ~ In x00 a -> ~ In x00 b -> a ++ x00 :: p = b ++ x00 :: q -> a = b /\ p = q.
Proof.
  revert b. induction a as [|x a IH]; intros [|y b] A B E; cbn [app] in E.
  - injection E as ->. split; reflexivity.
  - injection E as <- _. destruct B. left. reflexivity.
  - injection E as -> _. destruct A. left. reflexivity.
  - injection E as -> E. destruct (IH b) as (-> & ->); [intros X; apply A; right; exact X|intros X; apply B; right; exact X|exact E|split; reflexivity].
Qed.

Lemma listed_step contents names : listed contents names ->
  match names with
  | [] => contents = []
  | n :: names' => ~ In x00 n /\ ((exists rest, contents = n ++ x00 :: rest /\ listed rest names') \/ (n <> [] /\ contents = n /\ names' = []))
  end.
Proof.
  intros (N & L). destruct names as [|n names].
  - destruct L as [-> | (f & la & E & _)]; [reflexivity|destruct f; discriminate E].
  - split; [apply N; left; reflexivity|]. assert (N' : forall m, In m names -> ~ In x00 m) by (intros m I; apply N; right; exact I).
    destruct L as [-> | (f & la & E & LN & ->)].
    + left. exists (terminated names). split; [cbn; rewrite <- app_assoc; reflexivity|]. split; [exact N'|left; reflexivity].
    + destruct f as [|m f]; cbn [app] in E; injection E as -> ->.
      * right. split; [exact LN|]. split; reflexivity.
      * left. exists (terminated f ++ la). split; [cbn; rewrite <- !app_assoc; reflexivity|]. split; [exact N'|]. right. exists f, la. split; [reflexivity|]. split; [exact LN|reflexivity].
Qed.

Lemma listed_unique contents a b : listed contents a -> listed contents b -> a = b.
Proof.
  revert contents b. induction a as [|x a IH]; intros contents b A B; apply listed_step in A; pose proof (listed_step _ _ B) as B'.
  - subst contents. destruct b as [|y b]; [reflexivity|]. destruct B' as (_ & [(r & E & _) | (NE & E & _)]); [destruct y; discriminate E|congruence].
  - destruct A as (NX & A). destruct b as [|y b].
    + subst contents. destruct A as [(r & E & _) | (NE & E & _)]; [destruct x; discriminate E|congruence].
    + destruct B' as (NY & B'). destruct A as [(r & E & LA) | (XE & E & ->)]; destruct B' as [(r' & E' & LB) | (YE & E' & ->)]; subst contents.
      * destruct (nul_split x y r r' NX NY E') as (-> & ->). rewrite (IH r' b LA LB). reflexivity.
      * destruct NY. rewrite <- E'. apply in_or_app. right. left. reflexivity.
      * destruct NX. rewrite E'. apply in_or_app. right. left. reflexivity.
      * rewrite E'. reflexivity.
Qed.

Lemma listed_once contents : exists names, listed contents names /\ forall names', listed contents names' -> names' = names.
Proof.
  destruct (roots_read (mkLibc true true) (fun _ => false) (fun _ => false) (mkSystem (mkStream contents false) (fun _ => None))
    (mkCmd [] (Some ["-"%byte]) false) ["-"%byte] (mkStream contents false)) as (names & L & _); try reflexivity.
  { left. split; reflexivity. }
  exists names. split; [exact L|]. intros names' L'. exact (listed_unique _ _ _ L' L).
Qed.

Lemma choose l oom full w c :
  (files0 c = None -> explicit c <> [] -> parse_roots l oom full w c = Roots (explicit c)) /\
  (files0 c = None -> explicit c = [] -> full ["."%byte] = false -> parse_roots l oom full w c = Roots [["."%byte]]) /\
  (files0 c <> None -> explicit c <> [] -> parse_roots l oom full w c = Rejected true) /\
  (files0 c = Some ["-"%byte] -> stdin_used c = true -> parse_roots l oom full w c = Rejected true) /\
  (forall from, files0 c = Some from -> from <> ["-"%byte] -> open w from = None -> parse_roots l oom full w c = Rejected true).
Proof.
  unfold parse_roots, parse_files0_roots. split; [intros -> NE; destruct (explicit c); [contradiction|reflexivity]|].
  split; [intros -> -> ->; reflexivity|].
  split; [intros F NE; destruct (files0 c); [|contradiction]; destruct (explicit c); [contradiction|reflexivity]|].
  split.
  - intros -> ->. destruct (explicit c); [|reflexivity]. destruct (list_eq_dec Byte.byte_eq_dec ["-"%byte] ["-"%byte]); [reflexivity|contradiction].
  - intros from -> N ->. destruct (explicit c); [|reflexivity]. destruct (list_eq_dec Byte.byte_eq_dec from ["-"%byte]); [contradiction|reflexivity].
Qed.

Definition input (s : stream) : system := mkSystem s (fun _ => None).
Definition from_stdin : cmdline := mkCmd [] (Some ["-"%byte]) false.

Lemma no_message : exists l w c from s, files0 c = Some from /\ source w from s /\ fails s = true /\
  parse_roots l (fun _ => false) (fun _ => false) w c = Rejected false.
Proof.
  exists (mkLibc true true), (input (mkStream [] true)), from_stdin, ["-"%byte], (mkStream [] true). split; [reflexivity|].
  split; [left; split; reflexivity|]. split; reflexivity.
Qed.

Lemma no_memory : exists l oom w c from s names, files0 c = Some from /\ source w from s /\
  parse_roots l oom (fun _ => false) w c = Roots names /\ ~ listed (bytes s) names.
Proof.
  exists (mkLibc true false), (fun p => 2 <? length p), (input (mkStream ["a"; x00; "b"; "c"; x00]%byte false)), from_stdin, ["-"%byte],
    (mkStream ["a"; x00; "b"; "c"; x00]%byte false), [["a"%byte]].
  split; [reflexivity|]. split; [left; split; reflexivity|]. split; [reflexivity|]. intros L.
  assert (L2 : listed ["a"; x00; "b"; "c"; x00]%byte [["a"]; ["b"; "c"]]%byte).
  { apply (listed_cons ["a"%byte] ["b"; "c"; x00]%byte); [intros [X | []]; discriminate X|].
    apply (listed_cons ["b"; "c"]%byte []); [intros [X | [X | []]]; discriminate X|apply listed_nil]. }
  pose proof (listed_unique _ _ _ L L2) as E. discriminate E.
Qed.

Lemma delimiter_kept : exists l s delim line rest, bytes s = line ++ delim :: rest /\ ~ In delim line /\
  xgetdelim l (fun _ => false) s delim = Text (line ++ [delim]) (mkStream rest false).
Proof.
  exists (mkLibc true true), (mkStream ["y"; x0a; "n"]%byte false), x0a, ["y"%byte], ["n"%byte]. split; [reflexivity|].
  split; [intros [X | []]; discriminate X|reflexivity].
Qed.
