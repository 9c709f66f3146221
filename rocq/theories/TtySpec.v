(** * A terminal, as described by ECMA-48 and the manual of the VT100 *)
From Coq Require Import String List Arith NArith ZArith Bool.
From Coq Require Import Init.Byte Strings.Byte.
From Verif Require Import QuoteModel BarSpec TtyModel.
Import ListNotations.

Section Tty.
  Variable l : locale.
  Variable wcwidth : wc l -> Z.
  (** The number of columns *)
  Variable W : nat.

  (** Selected colors and styles, and whether text is in reverse video *)
  Definition attr : Type := list N * bool.
  (** What is seen in one column of a line.  [Wide] is the right half of a wide character; characters of no width are added to the one before. *)
  Inductive cell := Blank | Char (c : wc l) (a : attr) | Wide | Marked (x : cell) (c : wc l).
  Local Notation line := (list cell).
  Definition blanks (n : nat) : line := repeat Blank n.

  (** Lines and columns are counted from 0.  [bottom] is the last line of the scrolling region, which starts at line 0; a [col] of [W] means that the
      last column has been written, and that the next character goes to the next line.  [history] is what has been scrolled off the top. *)
  Record term := mkTerm {
    history : list line;
    rows : list line;
    row : nat;
    col : nat;
    saved : nat * nat * attr;
    bottom : nat;
    attrs : attr }.

  Inductive action :=
  | Print (c : wc l)
  | Newline
  | Sgr (ps : list N)
  | Save | Restore
  | Index
  | Up (n : nat)
  | Region (last : option N)
  | EraseBelow
  | EraseLine
  | Goto (r c : N).

  Definition set_line (f : line -> line) (t : term) : term :=
    mkTerm (history t) (firstn (row t) (rows t) ++ f (nth (row t) (rows t) []) :: skipn (S (row t)) (rows t)) (row t) (col t) (saved t) (bottom t) (attrs t).
  Definition move (r c : nat) (t : term) : term := mkTerm (history t) (rows t) r c (saved t) (bottom t) (attrs t).
  Definition color (a : attr) (t : term) : term := mkTerm (history t) (rows t) (row t) (col t) (saved t) (bottom t) a.

  (** A line down.  At the end of the region, the lines in it move up, and the first one is gone; below it, the last line is the end. *)
  Definition down (t : term) : term :=
    if row t =? bottom t then
      mkTerm (history t ++ firstn 1 (rows t)) (skipn 1 (firstn (S (bottom t)) (rows t)) ++ [blanks W] ++ skipn (S (bottom t)) (rows t))
        (row t) (col t) (saved t) (bottom t) (attrs t)
    else if S (row t) =? List.length (rows t) then t
    else move (S (row t)) (col t) t.
  Definition newline (t : term) : term := let t := down t in move (row t) 0 t.

  Definition glyph (c : wc l) (a : attr) : line := Char c a :: repeat Wide (Z.to_nat (wcwidth c) - 1).
  Definition print (c : wc l) (t : term) : term :=
    let w := Z.to_nat (wcwidth c) in
    if w =? 0 then
      if col t =? 0 then t
      else set_line (fun x => firstn (col t - 1) x ++ Marked (nth (col t - 1) x Blank) c :: skipn (col t) x) t
    else
      let t := if W <? col t + w then newline t else t in
      let t' := set_line (fun x => firstn W (firstn (col t) x ++ glyph c (attrs t) ++ skipn (col t + w) x)) t in
      move (row t') (Nat.min W (col t + w)) t'.

  (** 0 is the normal style, 7 is reverse video, and 27 turns it off; the rest is kept as it is. *)
  Definition sgr (a : attr) (p : N) : attr :=
    if (p =? 0)%N then ([], false)
    else if (p =? 7)%N then (fst a, true)
    else if (p =? 27)%N then (fst a, false)
    else (fst a ++ [p], snd a).

  (** Erasing starts at the cursor, and that is the last column if it has just been written. *)
  Definition erase_line (t : term) : term := let c := Nat.min (col t) (W - 1) in set_line (fun x => firstn c x ++ blanks (W - c)) t.

  Definition act (a : action) (t : term) : term :=
    match a with
    | Print c => print c t
    | Newline => newline t
    | Sgr ps => color (fold_left sgr ps (attrs t)) t
    | Save => mkTerm (history t) (rows t) (row t) (col t) (row t, col t, attrs t) (bottom t) (attrs t)
    | Restore => let '(r, c, a) := saved t in color a (move r c t)
    | Index => down t
    | Up n => move (row t - n) (col t) t
    | Region None => mkTerm (history t) (rows t) 0 0 (saved t) (List.length (rows t) - 1) (attrs t)
    | Region (Some n) =>
        if ((2 <=? n) && (n <=? N.of_nat (List.length (rows t))))%N then mkTerm (history t) (rows t) 0 0 (saved t) (N.to_nat n - 1) (attrs t) else t
    | EraseBelow =>
        let t := erase_line t in
        mkTerm (history t) (firstn (S (row t)) (rows t) ++ repeat (blanks W) (List.length (rows t) - S (row t))) (row t) (col t) (saved t) (bottom t) (attrs t)
    | EraseLine => erase_line t
    | Goto r c => move (Nat.min (Nat.max (N.to_nat r) 1) (List.length (rows t)) - 1) (Nat.min (Nat.max (N.to_nat c) 1) W - 1) t
    end.

  (** ** What the bytes mean *)
  (** The parameters of a sequence, up to its last byte *)
  Fixpoint params (s : list byte) (cur : option N) (acc : list (option N)) : list (option N) * list byte :=
    match s with
    | [] => (acc ++ [cur], [])
    | b :: s' =>
        match digit_value b with
        | Some d => params s' (Some (10 * match cur with Some n => n | None => 0 end + d)%N) acc
        | None => if Byte.eqb b ";" then params s' None (acc ++ [cur]) else (acc ++ [cur], s)
        end
    end.
  Definition absent (p : option N) : bool := match p with None => true | Some n => (n =? 0)%N end.
  Definition value (p : option N) : N := match p with None => 0 | Some n => n end.
  (** The sequences that are known here *)
  Definition csi (final : byte) (ps : list (option N)) : option action :=
    if Byte.eqb final "m" then Some (Sgr (map value ps))
    else
      match ps with
      | [p] =>
          if Byte.eqb final "A" then Some (Up (Nat.max 1 (N.to_nat (value p))))
          else if negb (absent p) then None
          else if Byte.eqb final "r" then Some (Region None)
          else if Byte.eqb final "J" then Some EraseBelow
          else if Byte.eqb final "K" then Some EraseLine
          else None
      | [p; q] =>
          if Byte.eqb final "f" then Some (Goto (value p) (value q))
          else if Byte.eqb final "r" && absent p then Some (Region (if absent q then None else q))
          else None
      | _ => None
      end.
  Definition and_then (a : action) (r : option (list action)) : option (list action) := match r with Some r => Some (a :: r) | None => None end.
  (** [None] for a byte or a sequence that is not known; [fuel] is the length. *)
  Fixpoint hears (fuel : nat) (s : list byte) : option (list action) :=
    match s with
    | [] => Some []
    | b :: s' =>
        match fuel with
        | O => None
        | S fuel =>
            if Byte.eqb b x1b then
              match s' with
              | [] => None
              | c :: s'' =>
                  if Byte.eqb c "7" then and_then Save (hears fuel s'')
                  else if Byte.eqb c "8" then and_then Restore (hears fuel s'')
                  else if Byte.eqb c "D" then and_then Index (hears fuel s'')
                  else if Byte.eqb c "[" then
                    match params s'' None [] with
                    | (ps, final :: rest) => match csi final ps with Some a => and_then a (hears fuel rest) | None => None end
                    | (_, []) => None
                    end
                  else None
              end
            else
              match decode l (mb_init l) s with
              | Some (n, c, _) => if iswprint l c then and_then (Print c) (hears fuel (skipn n s)) else if Byte.eqb b x0a then and_then Newline (hears fuel s') else None
              | None => None
              end
        end
    end.
  Definition gets (s : list byte) (t : term) : option term :=
    match hears (List.length s) s with
    | Some acts => Some (fold_left (fun t a => act a t) acts t)
    | None => None
    end.

  (** ** Programs that print text *)
  (** Printable characters, ends of lines, and colors *)
  Definition plain (a : action) : Prop :=
    match a with
    | Print c => iswprint l c = true
    | Newline | Sgr _ => True
    | _ => False
    end.
  Fixpoint sees (ps : list (piece action)) (t : term) : option term :=
    match ps with
    | [] => Some t
    | Printed a :: ps => sees ps (act a t)
    | Wrote s :: ps => match gets s t with Some t => sees ps t | None => None end
    end.

  (** Everything that has been printed: the lines that have been scrolled off, and those up to the cursor *)
  Definition transcript (t : term) : list line := history t ++ firstn (S (row t)) (rows t).
  (** The same, up to the column of the cursor *)
  Definition before (t : term) : list line * line := (history t ++ firstn (row t) (rows t), firstn (col t) (nth (row t) (rows t) [])).
  (** Nothing at the cursor or after it, up to line [last] *)
  Definition clear_up_to (last : nat) (t : term) : Prop :=
    skipn (col t) (nth (row t) (rows t) []) = blanks (W - col t) /\
    forall i, row t < i -> i <= last -> nth i (rows t) [] = blanks W.

  (** A terminal of [H] lines.  The cursor is in the scrolling region. *)
  Record screen (H : nat) (t : term) : Prop := {
    sc_lines : List.length (rows t) = H;
    sc_columns : Forall (fun x => List.length x = W) (rows t);
    sc_row : row t <= bottom t;
    sc_col : col t <= W;
    sc_bottom : bottom t < H }.
  (** All of it scrolls, and the rest of it is empty: what a program usually starts with. *)
  Definition ready (H : nat) (t : term) : Prop := screen H t /\ bottom t = H - 1 /\ clear_up_to (H - 1) t.
  (** All but the last line scroll; the rest, except for that line, is empty. *)
  Definition shown (H : nat) (t : term) : Prop := screen H t /\ bottom t = H - 2 /\ clear_up_to (H - 2) t.

  (** What would be there without the bar *)
  Fixpoint alone (evs : list (event action)) (t : term) : term :=
    match evs with
    | [] => t
    | Text a :: evs => alone evs (act a t)
    | _ :: evs => alone evs t
    end.
  (** Text is plain, the bar's text fills its line, and the size is not changed, though there may be a signal about it.  No such signal arrives just
      after the last column has been written. *)
  Fixpoint proper (H : nat) (evs : list (event action)) (t : term) : Prop :=
    match evs with
    | [] => True
    | Text a :: evs => plain a /\ proper H evs (act a t)
    | Update _ s :: evs => fills l wcwidth s W /\ proper H evs t
    | Winch size :: evs => (size = None \/ size = Some (N.of_nat W, N.of_nat H)) /\ col t < W /\ proper H evs t
    end.

  (** Characters side by side *)
  Fixpoint paint (a : attr) (x : line) (cs : list (wc l)) : line :=
    match cs with
    | [] => x
    | c :: cs =>
        if Z.to_nat (wcwidth c) =? 0 then
          match rev x with
          | [] => paint a x cs
          | y :: x' => paint a (rev x' ++ [Marked y c]) cs
          end
        else paint a (x ++ glyph c a) cs
    end.
  (** The line shows the text, in reverse video. *)
  Definition displays (x : line) (s : list byte) : Prop := exists cs a, shows l s cs /\ snd a = true /\ x = paint a [] cs.
End Tty.
