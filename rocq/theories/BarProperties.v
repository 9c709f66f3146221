(** * C55: the status bar fits the terminal *)
From Coq Require Import String List Arith NArith ZArith Bool Lia.
From Coq Require Import Init.Byte Strings.Byte.
From Coq Require Import ZifyBool ZifyNat ZifyN.
From Verif Require Import QuoteModel BarModel BarSpec BarProofs.
Import ListNotations.

(** On a terminal with room for the dots, the text takes exactly one line, whatever the path is, and however wide its characters are; it may be
    invalid, or contain control characters, which are escaped.  What is missing is white space: see below. *)
Theorem C55_fits_partial : forall l wcwidth, sane l wcwidth -> forall width rhs path nameoff depth rn,
  3 <= width -> ~ In x00 path -> fills l wcwidth rhs rn ->
  tidy l (firstn (if depth =? 0 then List.length path else nameoff) path) ->
  exists text, eval_status l wcwidth width rhs path nameoff depth = Some text /\ fills l wcwidth text width.
Proof. exact status_fits. Qed.
Print Assumptions C55_fits_partial.

(** A path of printable characters is shown from the start, up to the first character that does not fit; the right hand side is shown at the end
    of the line, if there is room for it. *)
Theorem C55_shows : forall l wcwidth, sane l wcwidth -> forall width rhs path nameoff depth rn,
  3 <= width -> ~ In x00 path -> fills l wcwidth rhs rn ->
  let shown := firstn (if depth =? 0 then List.length path else nameoff) path in
  forall n, shown <> [] -> fills l wcwidth shown n ->
  let r := if width <? 3 + rn then [] else rhs in
  exists lhs rest pad k,
    eval_status l wcwidth width rhs path nameoff depth = Some (lhs ++ str "..." ++ repeat x20 pad ++ r) /\ lhs ++ rest = shown /\
    fills l wcwidth lhs k /\
    (rest = [] \/ exists c t w, rest = c ++ t /\ one_char l wcwidth c w /\ width < k + w + 3 + (if width <? 3 + rn then 0 else rn)).
Proof. exact status_shows. Qed.
Print Assumptions C55_shows.

(** The scrolling region is all but the last line, and the array for the sequence is large enough for any height. *)
Theorem C55_region : forall height, (height <= 65535)%N ->
  (height < 3 -> bfs_bar_resize height = Some whole_screen)%N /\
  (3 <= height -> exists ds, bfs_bar_resize height = Some (lines_up_to ds) /\ decimal 0 ds = Some (height - 1) /\ ds <> [] /\ hd x00 ds <> "0"%byte)%N.
Proof. exact resize_ok. Qed.
Print Assumptions C55_region.

(** The text may contain newlines: the name of a directory is written as it is if all of its characters are printable or white space. *)
Theorem C55_newline_refuted : exists l wcwidth width rhs path nameoff depth, sane l wcwidth /\
  3 <= width /\ ~ In x00 path /\ (exists rn, fills l wcwidth rhs rn) /\
  exists text, eval_status l wcwidth width rhs path nameoff depth = Some text /\ In x0a text /\ ~ exists n, fills l wcwidth text n.
Proof. exact newline_shown. Qed.
Print Assumptions C55_newline_refuted.

Module Examples.
  (** The locale has characters of one and two columns. *)
  Example demo_sane : sane demo demo_width.
  Proof. exact demo_is_sane. Qed.
  Definition wide : list byte := [xe3; x81; x82].
  Definition right_side : list byte := str " 7".

  (** Two of the three wide characters fit in ten columns; in eleven, a space is left over. *)
  Example fits : eval_status demo demo_width 10 right_side (str "a" ++ wide ++ wide ++ wide ++ str "/b") 11 1 = Some (str "a" ++ wide ++ wide ++ str "... 7").
  Proof. vm_compute. reflexivity. Qed.
  Example pads : eval_status demo demo_width 11 right_side (str "a" ++ wide ++ wide ++ wide ++ str "/b") 11 1 = Some (str "a" ++ wide ++ wide ++ str "...  7").
  Proof. vm_compute. reflexivity. Qed.
  Example narrow : eval_status demo demo_width 4 right_side (str "abc/d") 4 1 = Some (str "a...").
  Proof. vm_compute. reflexivity. Qed.
  Example escaped : eval_status demo demo_width 16 right_side (str "a" ++ [x1b; xff] ++ str "/d") 4 1 = Some (str "$'a\e\xFF/'... 7").
  Proof. vm_compute. reflexivity. Qed.
  Example root : eval_status demo demo_width 12 right_side (str "root") 0 0 = Some (str "root...    7").
  Proof. vm_compute. reflexivity. Qed.
  Example fills_right : fills demo demo_width right_side 2.
  Proof. exists [32; 55]%N. repeat split; [|repeat constructor]. eapply sh_cons; [reflexivity|]. eapply sh_cons; [reflexivity|]. apply sh_nil. Qed.
  Example tidy_path : tidy demo (str "a" ++ [x1b; xff] ++ wide).
  Proof.
    eapply td_char; [discriminate|reflexivity|discriminate|]. eapply td_char; [discriminate|reflexivity|discriminate|].
    eapply td_bad; [reflexivity|]. eapply td_char; [discriminate|reflexivity|discriminate|]. apply td_nil.
  Qed.
  Example fills_wide : fills demo demo_width (str "a" ++ wide) 3.
  Proof. exists [97; 65794]%N. repeat split; [|repeat constructor]. eapply sh_cons; [reflexivity|]. eapply sh_cons; [reflexivity|]. apply sh_nil. Qed.
  Example line : bfs_bar_resize 25 = Some (lines_up_to (str "24")).
  Proof. vm_compute. reflexivity. Qed.
  Example tall : bfs_bar_resize 65535 = Some (lines_up_to (str "65534")).
  Proof. vm_compute. reflexivity. Qed.
End Examples.
