(** * C74: a status bar that does not get in the way *)
From Coq Require Import String List Arith NArith ZArith Bool Lia.
From Coq Require Import Init.Byte Strings.Byte.
From Verif Require Import QuoteModel BarModel BarSpec BarProofs TtyModel TtySpec TtyProofs.
Import ListNotations.

(** Everything that is printed while the bar is shown, with any updates in between, ends up on the terminal as if there were no bar: after bfs has
    ended or has been killed, the same lines are there, the cursor is at the same column of the last of them, colors are the same, the bar is gone, and
    all of the screen scrolls. *)
Theorem C74_session : forall l wcwidth W, sane l wcwidth -> isprint l x1b = false -> forall H, 1 <= W -> 1 <= H -> (N.of_nat H <= 65535)%N ->
  forall t evs killed, ready l W H t -> col l t < W -> proper l wcwidth W H evs t -> col l (alone l wcwidth W evs t) < W ->
  exists ps t', session (action l) true true (Some (N.of_nat W, N.of_nat H)) evs killed = Some ps /\ sees l wcwidth W ps t = Some t' /\
    ready l W H t' /\ transcript l t' = transcript l (alone l wcwidth W evs t) /\
    col l t' = col l (alone l wcwidth W evs t) /\ attrs l t' = attrs l (alone l wcwidth W evs t).
Proof. exact session_ok. Qed.
Print Assumptions C74_session.

(** An update changes only the last line, which then shows the text in reverse video. *)
Theorem C74_update : forall l wcwidth W, sane l wcwidth -> isprint l x1b = false -> forall H, 3 <= H -> 1 <= W ->
  forall t s, shown l W H t -> fills l wcwidth s W ->
  exists t' x, gets l wcwidth W (bfs_bar_update true (mkBar (N.of_nat W) (N.of_nat H)) s) t = Some t' /\ displays l wcwidth x s /\
    rows l t' = firstn (H - 1) (rows l t) ++ [x] /\ history l t' = history l t /\ row l t' = row l t /\ col l t' = col l t /\ attrs l t' = attrs l t /\
    shown l W H t'.
Proof. exact update_ok. Qed.
Print Assumptions C74_update.

(** Text does not reach that line, however much of it there is. *)
Theorem C74_text : forall l wcwidth W H, 3 <= H -> forall t a, shown l W H t -> plain l a ->
  shown l W H (act l wcwidth W a t) /\ nth (H - 1) (rows l (act l wcwidth W a t)) [] = nth (H - 1) (rows l t) [].
Proof. exact text_ok. Qed.
Print Assumptions C74_text.

(** When the size has changed from any other one, the bar is set up for the new size, without touching anything before the cursor, whatever else is on the screen, and wherever the
    scrolling region ended. *)
Theorem C74_resize : forall l wcwidth W H b t, 3 <= H -> (N.of_nat H <= 65535)%N -> screen l W H t -> 1 <= bottom l t -> col l t < W ->
  exists seq t', bfs_bar_sigwinch (Some (N.of_nat W, N.of_nat H)) b = (mkBar (N.of_nat W) (N.of_nat H), Some seq) /\ gets l wcwidth W seq t = Some t' /\
    shown l W H t' /\ clear_up_to l W (H - 1) t' /\ before l t' = before l t /\ col l t' = col l t /\ attrs l t' = attrs l t.
Proof. exact resized. Qed.
Print Assumptions C74_resize.

(** If the bar cannot be shown, the terminal gets nothing but the text. *)
Theorem C74_absent : forall l wcwidth W tty hooks size evs killed t, (tty = false \/ hooks = false \/ size = None) ->
  exists ps, session (action l) tty hooks size evs killed = Some ps /\ sees l wcwidth W ps t = Some (alone l wcwidth W evs t).
Proof. exact no_bar. Qed.
Print Assumptions C74_absent.

(** If text ends in the last column, hiding the bar erases its last character. *)
Theorem C74_full_refuted : exists l wcwidth W H t evs, sane l wcwidth /\ isprint l x1b = false /\ ready l W H t /\ col l t < W /\ proper l wcwidth W H evs t /\
  exists ps t', session (action l) true true (Some (N.of_nat W, N.of_nat H)) evs false = Some ps /\ sees l wcwidth W ps t = Some t' /\
    transcript l t' <> transcript l (alone l wcwidth W evs t).
Proof. exact full_line. Qed.
Print Assumptions C74_full_refuted.

Module Examples.
  Definition wide : N := 65794.
  Definition chars (cs : list N) : list (event (action demo)) := map (fun c => Text (Print demo c)) cs.
  Definition nl : event (action demo) := Text (Newline demo).
  (** Four columns, three lines, the first one in use.  Five lines are printed, some of them longer than the screen, and the bar is updated. *)
  Definition blank : list (cell demo) := repeat (Blank demo) 4.
  Definition start : term demo := mkTerm demo [] [[Char demo 36%N ([], false); Blank demo; Blank demo; Blank demo]; blank; blank] 1 0 (0, 0, ([], false)) 2 ([], false).
  Definition evs : list (event (action demo)) :=
    Update true (str "abcd") :: chars [97; wide; 98; 99]%N ++ [nl] ++ [Text (Sgr demo [1; 31]%N); Text (Print demo 100%N)] ++
    [Update true [xe3; x81; x82; x20; x20]; Winch None; Text (Sgr demo [0]%N); nl; Update false (str "none")] ++ chars [101; wide; wide; 102]%N ++
    [Winch (Some (4, 3)%N); Update true (str "last")].
  Example start_ready : ready demo 4 3 start.
  Proof. split; [constructor; cbn; try lia; repeat constructor|]. split; [reflexivity|]. split; [reflexivity|]. intros i L1 L2. cbn in L1. destruct i as [|[|[|i]]]; try lia; reflexivity. Qed.
  Ltac spell := repeat (eapply sh_cons; [reflexivity|]); apply sh_nil.
  Example fits : proper demo demo_width 4 3 evs start.
  Proof.
    cbn [proper evs chars map app]. unfold nl. cbn [proper].
    repeat (split; [first [exact I | reflexivity | left; reflexivity | right; reflexivity | apply Nat.ltb_lt; vm_compute; reflexivity
      | exists [97; 98; 99; 100]%N; repeat split; [spell|repeat constructor]
      | exists [65794; 32; 32]%N; repeat split; [spell|repeat constructor]
      | exists [110; 111; 110; 101]%N; repeat split; [spell|repeat constructor]
      | exists [108; 97; 115; 116]%N; repeat split; [spell|repeat constructor]]|]).
    exact I.
  Qed.
  (** The bar, and then the lines that are left *)
  Definition after (o : option (list (piece (action demo)))) : term demo :=
    match o with Some ps => match sees demo demo_width 4 ps start with Some t => t | None => start end | None => start end.
  Example with_bar : option_map snd (during (action demo) (Some (mkBar 4 3)) evs) = Some (Some (mkBar 4 3)).
  Proof. vm_compute. reflexivity. Qed.
  Example bar_shown : let t := after (option_map (fun r => Wrote (lines_up_to (str "2")) :: fst r) (during (action demo) (Some (mkBar 4 3)) evs)) in
    bottom demo t = 1 /\ nth 2 (rows demo t) [] = map (fun c => Char demo c ([], true)) [108; 97; 115; 116]%N.
  Proof. split; [vm_compute; reflexivity|]. vm_cast_no_check (eq_refl (map (fun c => Char demo c ([], true)) [108; 97; 115; 116]%N)). Qed.
  Example afterwards : let t := after (session (action demo) true true (Some (4, 3)%N) evs true) in
    transcript demo t = transcript demo (alone demo demo_width 4 evs start) /\ List.length (transcript demo t) = 6 /\ bottom demo t = 2.
  Proof. split; [|split; vm_compute; reflexivity]. vm_cast_no_check (eq_refl (transcript demo (alone demo demo_width 4 evs start))). Qed.
  (** After the terminal has grown from three lines to five, the old bar is erased. *)
  Definition x : cell demo := Char demo 120%N ([], false).
  Definition grown : term demo := mkTerm demo [] [[x; x; x; x]; [x; x; Blank demo; Blank demo]; repeat x 4; blank; blank] 1 2 (0, 0, ([], false)) 1 ([], false).
  Example grown_screen : screen demo 4 5 grown.
  Proof. constructor; cbn; try lia. repeat constructor. Qed.
  Definition redrawn : term demo := match gets demo demo_width 4 (lines_up_to (str "4")) grown with Some t => t | None => start end.
  Example redraws : history demo redrawn = [[x; x; x; x]] /\ rows demo redrawn = [[x; x; Blank demo; Blank demo]; blank; blank; blank; blank] /\
    bottom demo redrawn = 3 /\ row demo redrawn = 0 /\ col demo redrawn = 2.
  Proof.
    split; [vm_cast_no_check (eq_refl [[x; x; x; x]])|]. split; [vm_cast_no_check (eq_refl [[x; x; Blank demo; Blank demo]; blank; blank; blank; blank])|].
    repeat split; vm_compute; reflexivity.
  Qed.
  Example line_shown : displays demo demo_width (map (fun c => Char demo c ([], true)) [108; 97; 115; 116]%N) (str "last").
  Proof. exists [108; 97; 115; 116]%N, ([], true). split; [spell|]. split; reflexivity. Qed.
End Examples.
