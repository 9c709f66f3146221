(** * Model of -ls and -fls: eval_fls(), print_owner() and print_time() in
    src/eval.c 684-801, with print_link_target() in src/color.c 1219-1239

    The output is a string to which is appended; that it cannot be written is in
    OutModel.  There are no colors, with which the same text is printed between
    escape sequences (for the path see ColModel).  Widths are natural numbers. *)
From Coq Require Import String List NArith ZArith Bool.
From Coq Require Import Init.Byte Strings.Byte.
From Verif Require Import ModeModel.
Import ListNotations.

Definition str (s : string) : list byte := list_byte_of_string s.
Definition blanks (n : nat) : list byte := repeat " "%byte n.

(** %ju: decimal digits.  The fuel suffices as each step halves [n] at least. *)
Definition digit (n : N) : byte := match Byte.of_N (48 + n) with Some c => c | None => x00 end.
Fixpoint print_digits (fuel : nat) (n : N) (acc : list byte) : list byte :=
  match fuel with
  | O => acc
  | S fuel => if (n <? 10)%N then digit n :: acc else print_digits fuel (n / 10) (digit (n mod 10) :: acc)
  end.
Definition ju (n : N) : list byte := print_digits (S (N.to_nat (N.log2 n))) n [].
(** %9ju, and %-9ju *)
Definition right (w : nat) (s : list byte) : list byte := blanks (w - length s) ++ s.
Definition left (w : nat) (s : list byte) : list byte := s ++ blanks (w - length s).

Inductive kind := Blk | Chr | Lnk | Other.
(** What is asked about a file.  [target] is what readlinkat() gives; [None] is an
    error. *)
Record file := mkFile {
  path : list byte; type : kind;
  ino : N; blocks : N; mode : N; nlink : N; uid : N; gid : N; size : N; rdev : N; mtime : Z;
  acl : bool; target : option (list byte)
}.
Inductive format := With_year | With_time.

(** The two static variables, what was written, and the number of errors *)
Record state := mkState { uwidth : nat; gwidth : nat; out : list byte; errors : nat }.
Definition init : state := mkState 8 8 [] 0.

Section Fls.
  Variable posixly_correct : bool.
  Variable now : Z.
  Variable xstrwidth : list byte -> nat.
  (** The names of users and groups (PwModel) *)
  Variables getpwuid getgrgid : N -> option (list byte).
  Variables major minor : N -> N.
  (** localtime_r() and strftime(), which returns the empty string on error *)
  Variable tm : Type.
  Variable localtime : Z -> option tm.
  Variable strftime : format -> tm -> list byte.

  (** 684-700: what is printed, and the new width *)
  Definition print_owner (name : option (list byte)) (id : N) (width : nat) : list byte * nat :=
    match name with
    | Some name =>
        let len := xstrwidth name in
        let width := if width <? len then len else width in
        (str " " ++ name ++ blanks (width - len), width)
    | None =>
        let text := str " " ++ left width (ju id) in
        let ret := length text in
        (text, if width <? ret - 1 then ret - 1 else width)
    end%nat.

  (** %jd *)
  Definition jd (t : Z) : list byte := if (t <? 0)%Z then str "-" ++ ju (Z.to_N (- t)) else ju (Z.to_N t).
  (** 703-729 *)
  Definition print_time (time : Z) : list byte :=
    match localtime time with
    | None => str " " ++ jd time
    | Some tm =>
        let six_months_ago := (now - 6 * 30 * 24 * 60 * 60)%Z in
        let tomorrow := (now + 24 * 60 * 60)%Z in
        let s := if ((time <=? six_months_ago) || (tomorrow <=? time))%Z
                 then strftime With_year tm else strftime With_time tm in
        match s with [] => str " " ++ jd time | _ => str " " ++ s end
    end.

  Definition BFS_STAT_BLKSIZE : N := 512.
  Definition u64 (n : N) : N := (n mod 2 ^ 64)%N.

  (** 734-801; [None] is a stat() that failed, which eval_stat() reports *)
  Definition eval_fls (f : option file) (st : state) : bool * state :=
    match f with
    | None => (true, mkState (uwidth st) (gwidth st) (out st) (S (errors st)))
    | Some f =>
        let block_size := if posixly_correct then 512%N else 1024%N in
        let blocks := (u64 (u64 (u64 (blocks f * BFS_STAT_BLKSIZE) + block_size) + (2 ^ 64 - 1)) / block_size)%N in
        let line := right 9 (ju (ino f)) ++ str " " ++ right 6 (ju blocks) ++ str " " ++ xstrmode (mode f)
                    ++ (if acl f then str "+" else str " ") ++ str " " ++ right 2 (ju (nlink f)) in
        let '(owner, uwidth) := print_owner (getpwuid (uid f)) (uid f) (uwidth st) in
        let '(group, gwidth) := print_owner (getgrgid (gid f)) (gid f) (gwidth st) in
        let line := line ++ owner ++ group in
        let line :=
          match type f with
          | Blk | Chr => line ++ str " " ++ right 3 (ju (major (rdev f))) ++ str ", " ++ right 3 (ju (minor (rdev f)))
          | _ => line ++ str " " ++ right 8 (ju (size f))
          end in
        let line := line ++ print_time (mtime f) in
        let line := line ++ str " " ++ path f in
        match type f with
        | Lnk =>
            match target f with
            | Some t => (true, mkState uwidth gwidth (out st ++ line ++ str " -> " ++ t ++ [x0a]) (errors st))
            | None => (true, mkState uwidth gwidth (out st ++ line) (S (errors st)))
            end
        | _ => (true, mkState uwidth gwidth (out st ++ line ++ [x0a]) (errors st))
        end
    end.

  (** The files of a search, one after the other *)
  Definition run (fs : list (option file)) (st : state) : state := fold_left (fun st f => snd (eval_fls f st)) fs st.
End Fls.
