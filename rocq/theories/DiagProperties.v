(** * C56: messages point at the right arguments *)
From Coq Require Import String List Arith NArith ZArith Bool.
From Coq Require Import Init.Byte Strings.Byte.
From Verif Require Import QuoteModel QuoteSpec BarSpec BarProofs DiagModel DiagSpec DiagProofs.
Import ListNotations.

(** A message about an expression highlights the arguments that it was written with, and no others; nothing is highlighted only if there are none. *)
Theorem C56_highlight : forall argc e, in_range argc e ->
  exists r args, highlight_expr argc e = Some (r, args) /\ List.length args = argc /\
    (forall k, nth_error args k = Some true <-> mentions argc e k) /\ (r = true <-> exists k, mentions argc e k).
Proof. exact highlight_ok. Qed.
Print Assumptions C56_highlight.

(** The first line is the command line, as a shell reads it, with the highlighted arguments in bold.  In the second one, there is a tilde under
    every column of the highlighted arguments, and between two adjacent ones, and nowhere else; the tildes are colored and the spaces are not; and it
    ends under the last highlighted argument.  Both lines start with the
    name of bfs, and with whether this is an error or a warning. *)
Theorem C56_underline : forall l wcwidth, sane l wcwidth -> good_locale l -> quote_alone l -> forall cmd argv args warning,
  List.length args = List.length argv -> Forall (fun a => ~ In x00 a) argv ->
  exists words widths pre line1 line2,
    bfs_argv_diag l wcwidth cmd argv args warning = pre ++ line1 ++ [Lit [x0a]] ++ pre ++ line2 ++ [Lit [x0a]] /\
    render None pre = heading cmd warning /\ final None pre = None /\
    Forall2 (fun w a => shell_word w = Some a) words argv /\ Forall2 (fills l wcwidth) words widths /\
    render None line1 = command_line words args /\ final None line1 = None /\
    (forall col, marked widths args col <-> nth_error (render None line2) col = Some ("~"%byte, Some (if warning then Wrn else Err))) /\
    (forall col x, nth_error (render None line2) col = Some x -> ~ marked widths args col -> x = (x20, None)) /\
    final None line2 = None /\
    (List.length (render None line2) = 0 \/ exists i w, nth_error args i = Some true /\ nth_error widths i = Some w /\ List.length (render None line2) = start widths i + w).
Proof. exact diag_ok. Qed.
Print Assumptions C56_underline.

Module Examples.
  (** bfs -not -name x -type f -print: the expression is ( -not -name x ) -a -type f *)
  Definition e : expr := Expr None 1 [Expr (Some 1) 1 [Expr (Some 2) 2 []]; Expr (Some 4) 2 []].
  Example e_range : in_range 7 e.
  Proof.
    intros i n cs P B. inversion P as [E|a b c d I P1 E]; subst. destruct I as [<-|[<-|[]]].
    - inversion P1 as [E|a b c d I P2 E]; subst; [cbn; auto with arith|]. destruct I as [<-|[]]. inversion P2 as [E|a b c d I P3 E]; subst; [cbn; auto with arith|destruct I].
    - inversion P1 as [E|a b c d I P2 E]; subst; [cbn; auto with arith|destruct I].
  Qed.
  Example e_highlight : highlight_expr 7 e = Some (true, [false; true; true; true; true; true; false]).
  Proof. vm_compute. reflexivity. Qed.
  Example e_assert : highlight_expr 5 e = None.
  Proof. vm_compute. reflexivity. Qed.

  Example demo_good : good_locale demo /\ quote_alone demo.
  Proof. exact demo_is_good. Qed.
  Definition wide : list byte := [xe3; x81; x82].
  Definition out := bfs_argv_diag demo demo_width (str "bfs") [str "bfs"; str "a b"; wide; str "-x"; str "-y"; str "z"] [false; true; true; false; true; false] false.
  (** bfs "a b" ## -x -y z
          ~~~~~~~~    ~~   *)
  Example lines : map fst (render None out) =
    str "bfs: error: bfs ""a b"" " ++ wide ++ str " -x -y z" ++ [x0a] ++
    str "bfs: error:     ~~~~~~~~    ~~" ++ [x0a].
  Proof. vm_compute. reflexivity. Qed.
End Examples.
