(** * What the dump of a command line says: proofs *)
From Coq Require Import String List Arith NArith ZArith Bool Lia.
From Coq Require Import Init.Byte Strings.Byte.
From Coq Require Import ZifyBool ZifyNat ZifyN.
From Verif Require Import QuoteModel QuoteSpec QuoteProofs PathModel ColModel FmtModel FmtSpec FmtProofs DumpModel DumpSpec.
From Verif Require FlsModel FlsSpec FlsProofs NumSpec GramModel GramSpec SetupModel SetupSpec SetupSteps SetupProofs.
Import ListNotations.
Local Open Scope list_scope.

(** ** What is printed *)
Section Prints.
  Variable l : locale.
  Definition does (f : cfile -> outcome) (s : list byte) : Prop := forall o, f o = Printed (text s o).
  Lemma does_seq f g s t : does f s -> does g t -> does (DumpModel.seq f g) (s ++ t).
  Proof. intros F G o. unfold DumpModel.seq. rewrite F. cbn [bind]. rewrite G, text_text. reflexivity. Qed.
  Lemma does_nil : does Printed [].
  Proof. intros o. rewrite text_nil. reflexivity. Qed.
  Lemma does_print f vs s : (forall on, cvfprintf l None (str f) vs on = Printed (mkCfile s on)) -> does (print l None f vs) s.
  Proof. intros H o. unfold print. rewrite H. reflexivity. Qed.
  Lemma does_says f vs ps ms : str f = concat (map written ps) -> Forall proper_piece ps -> says ps vs ms -> does (print l None f vs) (plain l ms).
  Proof. intros E P S. apply does_print. intros on. rewrite E, (format_runs l None ps vs ms on P S), performs_plain. reflexivity. Qed.
  Lemma does_puts s : does (puts s) (str s).
  Proof. intros o. reflexivity. Qed.
  Lemma does_eq f s t : does f s -> s = t -> does f t.
  Proof. intros H <-. exact H. Qed.

  Ltac propers := repeat (constructor; [cbn [proper_piece]; try exact I; vm_compute; repeat split; intuition discriminate|]); try (apply Forall_nil).
  Ltac formats q := eapply does_eq; [apply (does_says _ _ q); [reflexivity|propers|repeat constructor]|cbn; rewrite ?app_nil_r; reflexivity].

  Lemma f_const f out : (forall on, cvfprintf l None (str f) [] on = Printed (mkCfile out on)) -> does (print l None f []) out.
  Proof. apply does_print. Qed.
  Lemma f_ex s : does (print l None "${ex}%s${rs}" [VStr s]) s.
  Proof. formats [Color (str "ex"); Conv Str; Reset]. Qed.
  Lemma f_bld s : does (print l None "${bld}%s${rs}" [VStr s]) s.
  Proof. formats [Color (str "bld"); Conv Str; Reset]. Qed.
  Lemma f_j n : does (print l None " ${cyn}-j${bld}%d${rs}" [VInt n]) (str " " ++ str "-j" ++ d n).
  Proof. formats [Text (str " "); Color (str "cyn"); Text (str "-j"); Color (str "bld"); Conv Int; Reset]. Qed.
  Lemma f_O n : does (print l None " ${cyn}-O${bld}%d${rs}" [VInt n]) (str " " ++ str "-O" ++ d n).
  Proof. formats [Text (str " "); Color (str "cyn"); Text (str "-O"); Color (str "bld"); Conv Int; Reset]. Qed.
  Lemma f_S s : does (print l None " ${cyn}-S${rs} ${bld}%s${rs}" [VStr s]) (str " " ++ str "-S" ++ str " " ++ s).
  Proof. formats [Text (str " "); Color (str "cyn"); Text (str "-S"); Reset; Text (str " "); Color (str "bld"); Conv Str; Reset]. Qed.
  Lemma f_min n : does (print l None " ${blu}-mindepth${rs} ${bld}%d${rs}" [VInt n]) (str " " ++ str "-mindepth" ++ str " " ++ d n).
  Proof. formats [Text (str " "); Color (str "blu"); Text (str "-mindepth"); Reset; Text (str " "); Color (str "bld"); Conv Int; Reset]. Qed.
  Lemma f_max n : does (print l None " ${blu}-maxdepth${rs} ${bld}%d${rs}" [VInt n]) (str " " ++ str "-maxdepth" ++ str " " ++ d n).
  Proof. formats [Text (str " "); Color (str "blu"); Text (str "-maxdepth"); Reset; Text (str " "); Color (str "bld"); Conv Int; Reset]. Qed.
  Lemma f_path s : does (print l None " ${mag}%pq${rs}" [VStr s]) (str " " ++ quoted_as l true s).
  Proof. formats [Text (str " "); Color (str "mag"); Conv Quoted; Reset]. Qed.
  Lemma f_open s : does (print l None "(${red}%s${rs}" [VStr s]) (str "(" ++ s).
  Proof. formats [Text (str "("); Color (str "red"); Conv Str; Reset]. Qed.
  Lemma f_open_nl s : does (print l None "(${red}%s${rs}
" [VStr s]) (str "(" ++ s ++ [x0a]).
  Proof. formats [Text (str "("); Color (str "red"); Conv Str; Reset; Text [x0a]]. Qed.
  Lemma f_prefix s t : does (print l None "${bld}%s:${rs} ${cyn}-D %s${rs}: " [VStr s; VStr t]) (s ++ str ": -D " ++ t ++ str ": ").
  Proof. formats [Color (str "bld"); Conv Str; Text (str ":"); Reset; Text (str " "); Color (str "cyn"); Text (str "-D "); Conv Str; Reset; Text (str ": ")]. Qed.
  Lemma f_expr (v : bool) e : sound e -> does (print l None (if v then "%pE" else "%pe") [VExpr (Some e)]) (shown l v e).
  Proof.
    intros S. assert (C := c_tree v e S). eapply does_eq; [apply (does_says _ _ [Conv (if v then Rates else Tree)])|].
    - destruct v; reflexivity.
    - repeat constructor.
    - constructor; [exact C|constructor].
    - rewrite app_nil_r. reflexivity.
  Qed.
  Lemma f_two : does (print l None "  " []) (str "  ").
  Proof. apply f_const. reflexivity. Qed.
  Lemma f_close : does (print l None ")" []) (str ")").
  Proof. apply f_const. reflexivity. Qed.
  Lemma f_nl : does (print l None "
" []) [x0a].
  Proof. apply f_const. reflexivity. Qed.
  Lemma f_comma : does (print l None "," []) (str ",").
  Proof. apply f_const. reflexivity. Qed.
  Lemma f_exclude : does (print l None "(${red}-exclude${rs}
" []) (str "(-exclude" ++ [x0a]).
  Proof. apply f_const. reflexivity. Qed.
  Lemma does_times n s t : does (print l None s []) t -> does (times l None n s) (concat (repeat t n)).
  Proof. intros H. induction n as [|n IH]; cbn [times repeat concat]; [apply does_nil|apply does_seq; assumption]. Qed.

  (** ** The expression *)
  Variable c : ctx.
  Variable flag : N.
  Hypothesis On : has (SetupModel.debug (settings c)) flag = true.
  Definition pre : list byte := bfs_cmd c ++ str ": -D " ++ debug_flag_name flag ++ str ": ".
  Lemma does_pre : does (bfs_debug_prefix l None c flag) pre.
  Proof. unfold bfs_debug_prefix. cbv zeta. rewrite On. apply f_prefix. Qed.
  Definition rates : bool := (flag =? 8)%N.
  Definition row (e : nat * list byte) : list byte := pre ++ concat (repeat (str "  ") (fst e)) ++ snd e ++ [x0a].
  Definition closes (n : nat) : list byte := repeat ")"%byte n.
  Lemma closes_eq n : concat (repeat (str ")") n) = closes n.
  Proof. induction n as [|n IH]; [reflexivity|]. cbn [repeat concat closes]. rewrite IH. reflexivity. Qed.

  Fixpoint node_ind' (P : node -> Prop) (HP : forall n ns, Forall P ns -> P (Parent n ns)) (HL : forall e, P (Leaf e)) (n : node) : P n :=
    match n with
    | Parent name ns => HP name ns ((fix go ns := match ns return Forall P ns with [] => Forall_nil P | x :: xs => Forall_cons x (node_ind' P HP HL x) (go xs) end) ns)
    | Leaf e => HL e
    end.

  Definition fits (lines heads : list (nat * list byte)) : Prop :=
    Forall2 (fun e h => fst e = fst h /\ exists n, snd e = snd h ++ repeat ")"%byte n) lines heads.
  Lemma fits_app a b a' b' : fits a a' -> fits b b' -> fits (a ++ b) (a' ++ b').
  Proof. apply Forall2_app. Qed.

  Lemma multiline_ok n : sound_node n -> forall i r, exists lines,
    does (dump_expr_multiline l None c flag n i r) (concat (map row lines)) /\
    fits lines (outline l rates i n) /\ concat (map snd lines) = whole l rates n ++ closes r.
  Proof.
    induction n as [name ns IH|e] using node_ind'; intros S i r.
    - inversion S as [? ? Ss|]; subst. destruct ns as [|n0 ns0].
      + exists [(i, (str "(" ++ name) ++ closes (Datatypes.S r))]. split; [|split].
        * cbn [dump_expr_multiline]. eapply does_eq.
          { apply does_seq; [apply does_pre|]. apply does_seq; [apply (does_times i "  " _ f_two)|]. apply does_seq; [apply f_open|].
            apply does_seq; [apply (does_times (Datatypes.S r) ")" _ f_close)|apply f_nl]. }
          rewrite closes_eq. cbn [map concat row fst snd]. unfold row. cbn [fst snd]. rewrite app_nil_r, <- !app_assoc. reflexivity.
        * constructor; [|constructor]. split; [reflexivity|]. exists (Datatypes.S r). reflexivity.
        * cbn [map concat snd whole]. rewrite app_nil_r. unfold closes. cbn [repeat]. rewrite <- !app_assoc. reflexivity.
      + assert (K : forall ns : list node, Forall (fun n => sound_node n -> forall i r, exists lines,
                        does (dump_expr_multiline l None c flag n i r) (concat (map row lines)) /\
                        fits lines (outline l rates i n) /\ concat (map snd lines) = whole l rates n ++ closes r) ns ->
                    Forall sound_node ns -> ns <> [] -> exists lines,
          does ((fix each (children : list node) : cfile -> outcome :=
             match children with
             | [] => Printed
             | child :: next =>
                 DumpModel.seq (dump_expr_multiline l None c flag child (Datatypes.S i) (match next with [] => Datatypes.S r | _ => 0 end)) (each next)
             end) ns) (concat (map row lines)) /\
          fits lines (concat (map (outline l rates (Datatypes.S i)) ns)) /\
          concat (map snd lines) = concat (map (whole l rates) ns) ++ closes (Datatypes.S r)).
        { clear. intros ns IH Ss. induction ns as [|x xs IHx]; intros Ne; [contradiction|].
          inversion IH as [|? ? Hx Hxs]; subst. inversion Ss as [|? ? Sx Sxs]; subst. destruct xs as [|y ys].
          - destruct (Hx Sx (Datatypes.S i) (Datatypes.S r)) as [lines [D [F T]]]. exists lines. split; [|split].
            + eapply does_eq; [apply does_seq; [exact D|apply does_nil]|apply app_nil_r].
            + cbn [map concat]. rewrite app_nil_r. exact F.
            + cbn [map concat]. rewrite app_nil_r. exact T.
          - destruct (Hx Sx (Datatypes.S i) 0) as [lines [D [F T]]]. destruct (IHx Hxs Sxs) as [more [D' [F' T']]]; [discriminate|].
            exists (lines ++ more). split; [|split].
            + rewrite map_app, concat_app. apply does_seq; [exact D|exact D'].
            + change (concat (map (outline l rates (Datatypes.S i)) (x :: y :: ys))) with (outline l rates (Datatypes.S i) x ++ concat (map (outline l rates (Datatypes.S i)) (y :: ys))).
              apply fits_app; assumption.
            + rewrite map_app, concat_app, T, T'. unfold closes at 1. cbn [repeat]. rewrite app_nil_r.
              change (concat (map (whole l rates) (x :: y :: ys))) with (whole l rates x ++ concat (map (whole l rates) (y :: ys))).
              rewrite <- app_assoc. reflexivity. }
        destruct (K (n0 :: ns0) IH Ss) as [lines [D [F T]]]; [discriminate|]. clear K.
        exists ((i, str "(" ++ name) :: lines). split; [|split].
        * cbn [dump_expr_multiline]. eapply does_eq.
          { apply does_seq; [apply does_pre|]. apply does_seq; [apply (does_times i "  " _ f_two)|]. apply does_seq; [apply f_open_nl|]. exact D. }
          cbn [map concat]. unfold row at 2. cbn [fst snd]. rewrite <- !app_assoc. reflexivity.
        * constructor; [|exact F]. split; [reflexivity|]. exists 0. cbn [repeat]. symmetry. apply app_nil_r.
        * cbn [map concat snd whole] in *. rewrite T. unfold closes. cbn [repeat]. rewrite <- !app_assoc. reflexivity.
    - inversion S as [|? Se]; subst. exists [(i, shown l rates e ++ closes r)]. split; [|split].
      + cbn [dump_expr_multiline]. eapply does_eq.
        { apply does_seq; [apply does_pre|]. apply does_seq; [apply (does_times i "  " _ f_two)|]. apply does_seq; [apply (f_expr rates); exact Se|].
          apply does_seq; [apply (does_times r ")" _ f_close)|apply f_nl]. }
        rewrite closes_eq. cbn [map concat]. unfold row. cbn [fst snd]. rewrite app_nil_r, <- !app_assoc. reflexivity.
      + constructor; [|constructor]. split; [reflexivity|]. exists r. reflexivity.
      + cbn [map concat snd whole]. apply app_nil_r.
  Qed.

  Lemma tree_lines : sound_node (exclude c) -> sound_node (expression c) -> exists rest,
    does (DumpModel.seq (bfs_debug_prefix l None c flag) (DumpModel.seq (print l None "(${red}-exclude${rs}
" []) (DumpModel.seq (dump_expr_multiline l None c flag (exclude c) 1 1) (dump_expr_multiline l None c flag (expression c) 0 0)))) rest /\
    listing l rates pre [Parent (str "-exclude") [exclude c]; expression c] rest.
  Proof.
    intros Sx Se. destruct (multiline_ok (exclude c) Sx 1 1) as [xs [D1 [F1 T1]]]. destruct (multiline_ok (expression c) Se 0 0) as [es [D2 [F2 T2]]].
    eexists. split.
    - apply does_seq; [apply does_pre|]. apply does_seq; [apply f_exclude|]. apply does_seq; [exact D1|exact D2].
    - exists ((0, str "(-exclude") :: xs ++ es). split; [|split].
      + cbn [map concat]. change (fun e : nat * list byte => pre ++ concat (repeat (str "  ") (fst e)) ++ snd e ++ [x0a]) with row.
        rewrite map_app, concat_app. cbn [fst snd repeat concat app]. rewrite <- !app_assoc. reflexivity.
      + cbn [map concat outline]. rewrite !app_nil_r. constructor.
        * split; [reflexivity|]. exists 0. cbn [repeat]. rewrite app_nil_r. reflexivity.
        * apply fits_app; assumption.
      + cbn [map concat snd whole]. rewrite map_app, concat_app, T1, T2. unfold closes. cbn [repeat]. rewrite !app_nil_r, <- !app_assoc. reflexivity.
  Qed.
End Prints.
