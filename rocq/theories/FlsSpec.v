(** * Reading what -ls prints *)
From Coq Require Import String List NArith ZArith Bool.
From Coq Require Import Init.Byte Strings.Byte.
From Verif Require Import FlsModel ModeSpec.
Import ListNotations.

(** Words are separated by blanks. *)
Fixpoint until_blank (s : list byte) : list byte * list byte :=
  match s with
  | [] => ([], [])
  | c :: s' => if Byte.eqb c " " then ([], s) else let '(w, r) := until_blank s' in (c :: w, r)
  end.
Fixpoint skip_blanks (s : list byte) : list byte :=
  match s with
  | [] => []
  | c :: s' => if Byte.eqb c " " then skip_blanks s' else s
  end.
Definition word (s : list byte) : list byte * list byte := until_blank (skip_blanks s).
(** The first [n] words, and the rest *)
Fixpoint words (n : nat) (s : list byte) : list (list byte) * list byte :=
  match n with
  | O => ([], s)
  | S n => let '(w, s) := word s in let '(ws, s) := words n s in (w :: ws, s)
  end.

(** Decimal numbers *)
Definition digit_value (c : byte) : option N :=
  let n := Byte.to_N c in if ((48 <=? n) && (n <=? 57))%N then Some (n - 48)%N else None.
Fixpoint value (acc : N) (s : list byte) : option N :=
  match s with
  | [] => Some acc
  | c :: s => match digit_value c with Some d => value (10 * acc + d) s | None => None end
  end.
Definition number (s : list byte) (n : N) : Prop := s <> [] /\ value 0 s = Some n.

(** A name of a user or group is a word. *)
Definition is_name (s : list byte) : Prop := s <> [] /\ ~ In " "%byte s /\ ~ In x0a s.

Section Listed.
  Variable posixly_correct : bool.
  Variable now : Z.
  Variable xstrwidth : list byte -> nat.
  Variables getpwuid getgrgid : N -> option (list byte).
  Variables major minor : N -> N.
  Variable tm : Type.
  Variable localtime : Z -> option tm.
  Variable strftime : format -> tm -> list byte.

  (** The name, or the number if there is none *)
  Definition owner (names : N -> option (list byte)) (id : N) (s : list byte) : Prop :=
    match names id with Some name => s = name | None => number s id end.

  (** The number of blocks of [unit] bytes that [n] blocks of 512 bytes need *)
  Definition blocks_of (n unit b : N) : Prop := (b * unit < n * 512 + unit /\ n * 512 <= b * unit)%N.

  (** The time if it is in the last 180 days or the next day, otherwise the year;
      seconds since 1970 if there is no such date *)
  Definition recent (t : Z) : Prop := (now - 180 * 86400 < t < now + 86400)%Z.
  Inductive date (t : Z) : list byte -> Prop :=
  | D_time d : localtime t = Some d -> recent t -> strftime With_time d <> [] -> date t (strftime With_time d)
  | D_year d : localtime t = Some d -> ~ recent t -> strftime With_year d <> [] -> date t (strftime With_year d)
  | D_number s n :
      (forall d, localtime t = Some d -> recent t /\ strftime With_time d = [] \/ ~ recent t /\ strftime With_year d = []) ->
      number s n -> (0 <= t)%Z -> t = Z.of_N n -> date t s
  | D_negative s n :
      (forall d, localtime t = Some d -> recent t /\ strftime With_time d = [] \/ ~ recent t /\ strftime With_year d = []) ->
      number s n -> (t < 0)%Z -> (- t)%Z = Z.of_N n -> date t ("-"%byte :: s).

  (** Line [s] lists file [f]. *)
  Definition listed (f : file) (s : list byte) : Prop :=
    exists w_ino w_blocks w_mode w_nlink w_user w_group s' b perms s'' time,
      words 6 s = ([w_ino; w_blocks; w_mode; w_nlink; w_user; w_group], s') /\
      number w_ino (ino f) /\
      number w_blocks b /\ blocks_of (blocks f) (if posixly_correct then 512 else 1024) b /\
      w_mode = perms ++ (if acl f then ["+"%byte] else []) /\
      (known_type (mode f) = true -> read_mode perms = Some (N.land (mode f) 0xffff)) /\
      number w_nlink (nlink f) /\
      owner getpwuid (uid f) w_user /\ owner getgrgid (gid f) w_group /\
      match type f with
      | Blk | Chr => exists w_major w_minor, words 2 s' = ([w_major ++ [","%byte]; w_minor], s'') /\
                     number w_major (major (rdev f)) /\ number w_minor (minor (rdev f))
      | _ => exists w_size, words 1 s' = ([w_size], s'') /\ number w_size (size f)
      end /\
      date (mtime f) time /\
      s'' = " "%byte :: time ++ " "%byte :: path f ++
            match type f, target f with Lnk, Some t => str " -> " ++ t | _, _ => [] end.

  (** The widest owner so far, at least 8 *)
  Definition text_of (names : N -> option (list byte)) (id : N) : list byte := match names id with Some name => name | None => ju id end.
  Definition width_of (names : N -> option (list byte)) (id : N) : nat :=
    match names id with Some name => xstrwidth name | None => length (ju id) end.
  Definition widest (names : N -> option (list byte)) (ids : list N) : nat := fold_right max 8 (map (width_of names) ids).

  (** The lines for files have no newline in them. *)
  Definition one_line (f : file) : Prop :=
    ~ In x0a (path f) /\ (forall t, target f = Some t -> ~ In x0a t) /\
    (forall fmt d, ~ In x0a (strftime fmt d)).
End Listed.

(** The files that stat() succeeded for *)
Fixpoint found (fs : list (option file)) : list file :=
  match fs with [] => [] | Some f :: fs => f :: found fs | None :: fs => found fs end.
(** The target of a link can be read. *)
Definition readable (f : file) : Prop := type f = Lnk -> target f <> None.
(** Lines that end with newlines *)
Definition lines (ls : list (list byte)) : list byte := concat (map (fun l => l ++ [x0a]) ls).
(** A strftime() for a clock that stands still *)
Definition no_date (fmt : format) (d : unit) : list byte := str "Jan  1  1970".
