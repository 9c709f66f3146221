(** * The status bar: eval_status() in src/eval.c, src/bar.c, and xstrwidth() in src/bfstd.c *)
From Coq Require Import String List Arith NArith ZArith Bool.
From Coq Require Import Init.Byte Strings.Byte.
From Verif Require Import QuoteModel.
Import ListNotations.

Section Bar.
  Variable l : locale.
  (** wcwidth(): -1 for characters that are not printable *)
  Variable wcwidth : wc l -> Z.

  (** src/bfstd.c 1022-1032: the loop over wide characters; [fuel] is the length. *)
  Fixpoint wide_width (fuel : nat) (s : list byte) (mb : mbstate l) : nat :=
    match fuel, s with
    | S fuel, _ :: _ =>
        let '(c, n, mb) := xmbrtowc l s mb in
        match c with
        | None => 1 + wide_width fuel (skipn n s) mb
        | Some c =>
            let width := wcwidth c in
            (if (0 <? width)%Z then Z.to_nat width else 0) + wide_width fuel (skipn n s) mb
        end
    | _, _ => 0
    end.
  (** src/bfstd.c 1006-1035, xstrwidth *)
  Definition xstrwidth (s : list byte) : nat :=
    let asclen := asciinlen s in
    length (filter (isprint l) (firstn asclen s)) + wide_width (length s) (skipn asclen s) (mb_init l).

  (** src/eval.c 1187-1204: how much of the path fits, in bytes and in columns; [fuel] is the length. *)
  Fixpoint fit_loop (fuel : nat) (s : list byte) (mb : mbstate l) (lhslen pathwidth pathmax : nat) : nat * nat :=
    match fuel, s with
    | S fuel, _ :: _ =>
        let '(c, n, mb) := xmbrtowc l s mb in
        let cwidth :=
          match c with
          | None => 1
          | Some c => if (wcwidth c <? 0)%Z then 0 else Z.to_nat (wcwidth c)
          end in
        if pathmax <? pathwidth + cwidth then (lhslen, pathwidth)
        else fit_loop fuel (skipn n s) mb (lhslen + n) (pathwidth + cwidth) pathmax
    | _, _ => (lhslen, pathwidth)
    end.
  (** src/eval.c 1211-1217 *)
  Definition padding (pathwidth pathmax : nat) : list byte := repeat x20 (pathmax - pathwidth).

  (** src/eval.c 1145-1227, eval_status(), when memory can be allocated: the text, if the bar is updated.  [rhs] is what dstrprintf() makes of the
      count and the depth; the path is shown up to [nameoff], or in full for a root. *)
  Definition eval_status (width : nat) (rhs path : list byte) (nameoff depth : nat) : option (list byte) :=
    if width <? 3 then None
    else
      let rhslen := xstrwidth rhs in
      let '(rhs, rhslen) := if width <? 3 + rhslen then ([], 0) else (rhs, rhslen) in
      let pathlen := if depth =? 0 then length path else nameoff in
      let shown := firstn pathlen path in
      (* dstrnescat() with WESC_TTY (src/dstring.c 269-285) *)
      let status := fst (wordnesc l false ([], 4 * length shown + 4) shown) in
      let pathlen := length status in
      let pathmax := width - rhslen - 3 in
      let '(lhslen, pathwidth) := fit_loop pathlen status (mb_init l) 0 0 pathmax in
      let status := firstn lhslen status in
      let status := status ++ str "..." in
      let status := status ++ padding pathwidth pathmax in
      Some (status ++ rhs).
End Bar.

(** src/bar.c 56: ((USHRT_WIDTH + 2) / 3) *)
Definition ITOA_DIGITS : nat := (16 + 2) / 3.
(** '0' + n *)
Definition digit (n : N) : byte := match Byte.of_N (48 + n) with Some b => b | None => x00 end.
(** src/bar.c 63-67: [pos] is [c - str]; the result is [None] if a digit would be written before the start. *)
Fixpoint itoa_loop (pos : nat) (n : N) (written : list byte) : option (list byte) :=
  match pos with
  | O => None
  | S pos =>
      let written := digit (n mod 10) :: written in
      if (n / 10 =? 0)%N then Some written else itoa_loop pos (n / 10) written
  end.
(** src/bar.c 59-72: the digits, which are moved to the start *)
Definition ass_itoa (n : N) : option (list byte) := itoa_loop ITOA_DIGITS n [].

(** src/bar.c 75-82 *)
Definition reset_seq : list byte := [x1b; "7"; x1b; "["; "r"; x1b; "8"; x1b; "["; "J"]%byte.
Definition PREFIX : list byte := [x1b; "D"; x1b; "["; "1"; "A"; x1b; "7"; x1b; "["; ";"]%byte.
Definition SUFFIX : list byte := ["r"; x1b; "8"; x1b; "["; "J"]%byte.
(** src/bar.c 85 *)
Definition BFS_BAR_MIN_HEIGHT : N := 3.
(** src/bar.c 88-112, bfs_bar_resize: what is written to the terminal, or [None] if the array overflows.  The height is an unsigned int. *)
Definition bfs_bar_resize (height : N) : option (list byte) :=
  if (height <? BFS_BAR_MIN_HEIGHT)%N then Some reset_seq
  else
    let size := S (length PREFIX) + ITOA_DIGITS + S (length SUFFIX) in
    (* ass_itoa() puts the terminator after ITOA_DIGITS bytes *)
    if size <=? length PREFIX + ITOA_DIGITS then None
    else
      match ass_itoa (height - 1) with
      | None => None
      | Some digits =>
          let seq := PREFIX ++ digits ++ SUFFIX in
          if size <=? length seq then None else Some seq
      end.
