(** * Model of src/printf.c: -printf formats

    Strings have no NUL; the empty list is the terminator.  Allocations succeed, the mount table
    can be read and the platform has %Z.  Colors are off.  vfprintf(), strftime() and so on are
    oracles: a directive yields the conversion and the value that are given to vfprintf(). *)
From Coq Require Import List ZArith NArith Arith Bool.
From Coq Require Import Init.Byte Strings.Byte.
Import ListNotations.

(** printf.c 63-575: the functions that print *)
Inductive fn :=
| Fn_literal | Fn_flush | Fn_ctime | Fn_strftime
| Fn_b | Fn_d | Fn_D | Fn_f | Fn_F | Fn_G | Fn_g | Fn_h | Fn_H | Fn_i | Fn_k | Fn_l | Fn_m | Fn_M | Fn_n | Fn_p | Fn_P
| Fn_s | Fn_S | Fn_U | Fn_u | Fn_y | Fn_Y | Fn_Z.
(** stat.h 69-84, the times in [enum bfs_stat_field] *)
Inductive field := ATIME | BTIME | CTIME | MTIME.

(** printf.c 40-51, [struct bfs_fmt], without [ptr].  [fmt_field] and [fmt_c] are only set for times. *)
Record fmt := mkFmt { fmt_fn : fn; fmt_str : list byte; fmt_field : option field; fmt_c : option byte }.

Definition num (c : byte) : N := Byte.to_N c.
(** The character with some number, in [char] arithmetic *)
Definition chr (n : N) : byte := match Byte.of_N (n mod 256) with Some c => c | None => x00 end.

(** 580-601, [append_literal]; 606-619, [append_directive] *)
Definition append_literal (fmts : list fmt) (literal : list byte) : list fmt * list byte :=
  match literal with
  | [] => (fmts, literal)
  | _ => (fmts ++ [mkFmt Fn_literal literal None None], [])
  end.
Definition append_directive (fmts : list fmt) (literal : list byte) (f : fmt) : list fmt * list byte :=
  let '(fmts, literal) := append_literal fmts literal in
  (fmts ++ [f], literal).

(** 640 and 642 *)
Definition is_octal (c : byte) : bool := ((48 <=? num c) && (num c <? 56))%N.
(** 641-646: the character, and what is left *)
Fixpoint octal_escape (j : nat) (c : byte) (s : list byte) : byte * list byte :=
  match j, s with
  | S j, d :: s' => if is_octal d then octal_escape j (chr (num (chr (num c * 8)) + (num d - 48))) s' else (c, s)
  | _, _ => (c, s)
  end.

(** 650-658 *)
Definition escape (c : byte) : option byte :=
  match c with
  | "a" => Some x07 | "b" => Some x08 | "f" => Some x0c | "n" => Some x0a
  | "r" => Some x0d | "t" => Some x09 | "v" => Some x0b | "\" => Some "\"
  | _ => None
  end%byte.

(** 700-726, the flags: [None] for a duplicate.  [s] begins with the next character. *)
Fixpoint flags (str : list byte) (must_be_numeric : bool) (s : list byte) : option (list byte * bool * list byte) :=
  match s with
  | c :: s' =>
      match c with
      | "#" | "0" | "+" | " " | "-" =>
          let must_be_numeric := match c with "-" => must_be_numeric | _ => true end in
          if existsb (Byte.eqb c) str then None else flags (str ++ [c]) must_be_numeric s'
      | _ => Some (str, must_be_numeric, s)
      end
  | [] => Some (str, must_be_numeric, s)
  end%byte.

(** 729 and 745 *)
Definition is_decimal (c : byte) : bool := ((48 <=? num c) && (num c <=? 57))%N.
(** 729-735 and 739-745 *)
Fixpoint digits (str : list byte) (s : list byte) : list byte * list byte :=
  match s with
  | c :: s' => if is_decimal c then digits (str ++ [c]) s' else (str, s)
  | [] => (str, s)
  end.
(** 738-746 *)
Definition precision (str : list byte) (s : list byte) : list byte * list byte :=
  match s with
  | "."%byte :: s' => digits (str ++ ["."%byte]) s'
  | _ => (str, s)
  end.

(** 698 and 748-895: the function, the field, whether a time specifier follows, and the specifier of the conversion *)
Definition specifiers (c : byte) : option (fn * option field * bool * list byte) :=
  let s := ["s"%byte] in
  match c with
  | "a" => Some (Fn_ctime, Some ATIME, false, s)
  | "b" => Some (Fn_b, None, false, s)
  | "c" => Some (Fn_ctime, Some CTIME, false, s)
  | "d" => Some (Fn_d, None, false, ["j"; "d"])
  | "D" => Some (Fn_D, None, false, s)
  | "f" => Some (Fn_f, None, false, s)
  | "F" => Some (Fn_F, None, false, s)
  | "g" => Some (Fn_g, None, false, s)
  | "G" => Some (Fn_G, None, false, s)
  | "h" => Some (Fn_h, None, false, s)
  | "H" => Some (Fn_H, None, false, s)
  | "i" => Some (Fn_i, None, false, s)
  | "k" => Some (Fn_k, None, false, s)
  | "l" => Some (Fn_l, None, false, s)
  | "m" => Some (Fn_m, None, false, ["o"])
  | "M" => Some (Fn_M, None, false, s)
  | "n" => Some (Fn_n, None, false, s)
  | "p" => Some (Fn_p, None, false, s)
  | "P" => Some (Fn_P, None, false, s)
  | "s" => Some (Fn_s, None, false, s)
  | "S" => Some (Fn_S, None, false, ["g"])
  | "t" => Some (Fn_ctime, Some MTIME, false, s)
  | "u" => Some (Fn_u, None, false, s)
  | "U" => Some (Fn_U, None, false, s)
  | "w" => Some (Fn_ctime, Some BTIME, false, s)
  | "y" => Some (Fn_y, None, false, s)
  | "Y" => Some (Fn_Y, None, false, s)
  | "Z" => Some (Fn_Z, None, false, s)
  | "A" => Some (Fn_strftime, Some ATIME, true, s)
  | "B" | "W" => Some (Fn_strftime, Some BTIME, true, s)
  | "C" => Some (Fn_strftime, Some CTIME, true, s)
  | "T" => Some (Fn_strftime, Some MTIME, true, s)
  | _ => None
  end%byte.

(** 877 *)
Definition time_specifiers : list byte :=
  ["%"; "+"; "@"; "a"; "A"; "b"; "B"; "c"; "C"; "d"; "D"; "e"; "F"; "g"; "G"; "h"; "H"; "I"; "j"; "k"; "l"; "m"; "M"; "n"; "p";
   "r"; "R"; "s"; "S"; "t"; "T"; "u"; "U"; "V"; "w"; "W"; "x"; "X"; "y"; "Y"; "z"; "Z"]%byte.

(** 687-912: a directive, after its %; [None] if it is malformed *)
Definition directive (s : list byte) : option (fmt * list byte) :=
  match flags ["%"%byte] false s with
  | None => None
  | Some (str, must_be_numeric, s) =>
      let '(str, s) := digits str s in
      let '(str, s) := precision str s in
      match s with
      | [] => None
      | c :: s =>
          match specifiers c with
          | None => None
          | Some (f, fld, timed, specifier) =>
              match (if timed then
                       match s with
                       | [] => None
                       | c :: s => if existsb (Byte.eqb c) time_specifiers then Some (Some c, s) else None
                       end
                     else Some (None, s)) with
              | None => None
              | Some (tc, s) =>
                  if must_be_numeric && (match specifier with ["s"%byte] => true | _ => false end) then None
                  else Some (mkFmt f (str ++ specifier) fld tc, s)
              end
          end
      end
  end.

(** 621-938, [bfs_printf_parse].  [None]: it does not end; [Some None]: the format is rejected. *)
Fixpoint parse_loop (fuel : nat) (fmts : list fmt) (literal : list byte) (s : list byte) : option (option (list fmt)) :=
  match fuel with
  | O => None
  | S fuel =>
      match s with
      | [] => Some (Some (fst (append_literal fmts literal)))
      | "\"%byte :: s =>
          match s with
          | [] => Some None
          | c :: s' =>
              if is_octal c then
                let '(c, s) := octal_escape 3 x00 s in parse_loop fuel fmts (literal ++ [c]) s
              else
                match c with
                | "c"%byte =>
                    let '(fmts, literal) := append_directive fmts literal (mkFmt Fn_flush [] None None) in
                    Some (Some (fst (append_literal fmts literal)))
                | _ => match escape c with
                       | Some c => parse_loop fuel fmts (literal ++ [c]) s'
                       | None => Some None
                       end
                end
          end
      | "%"%byte :: s =>
          match s with
          | "%"%byte :: s => parse_loop fuel fmts (literal ++ ["%"%byte]) s
          | _ =>
              match directive s with
              | None => Some None
              | Some (f, s) => let '(fmts, literal) := append_directive fmts literal f in parse_loop fuel fmts literal s
              end
          end
      | c :: s => parse_loop fuel fmts (literal ++ [c]) s
      end
  end.
Definition parse (s : list byte) : option (option (list fmt)) := parse_loop (S (length s)) [] [] s.

(** ** Printing *)

(** bfs_stat: the fields used here *)
Record statbuf := mkStat {
  st_dev : N; st_ino : N; st_mode : N; st_nlink : N; st_uid : N; st_gid : N; st_size : Z; st_blocks : Z;
  st_time : field -> option (Z * Z) }.
(** enum bfs_type; [BFS_ERROR] carries errno. *)
Inductive ftype := BFS_BLK | BFS_CHR | BFS_DIR | BFS_DOOR | BFS_FIFO | BFS_LNK | BFS_PORT | BFS_REG | BFS_SOCK | BFS_WHT | BFS_UNKNOWN.
Inductive follow := Type_of (t : ftype) | Loop | Missing | Failure.
(** struct BFTW, and what the calls about the file give *)
Record bftw := mkBftw {
  b_path : list byte; b_nameoff : nat; b_root : list byte; b_depth : N; b_type : ftype;
  b_stat : option statbuf; b_follow : follow; b_link : option (list byte); b_context : option (list byte);
  b_user : N -> option (list byte); b_group : N -> option (list byte); b_fstype : option (list byte) }.

(** What is given to vfprintf(): a string, an integer, a mode, or a fraction (denominator 0 for 1.0);
    or a time and how to write it *)
Inductive value := Str (s : list byte) | Decimal (n : N) | Int (n : N) | Mode (n : N) | Ratio (a b : Z) | Time (ts : Z * Z) (c : option byte) | Symbolic (n : N).

Definition u64 (n : N) : N := (n mod 2 ^ 64)%N.
Definition uz (z : Z) : N := Z.to_N (z mod 2 ^ 64).

(** 509-529, [bfs_printf_type] *)
Definition type_char (t : ftype) : byte :=
  match t with
  | BFS_BLK => "b" | BFS_CHR => "c" | BFS_DIR => "d" | BFS_DOOR => "D" | BFS_FIFO => "p" | BFS_LNK => "l" | BFS_PORT => "P"
  | BFS_REG => "f" | BFS_SOCK => "s" | BFS_WHT => "w" | BFS_UNKNOWN => "U"
  end.

Definition with_stat (b : bftw) (f : statbuf -> option value) : option value :=
  match b_stat b with Some st => f st | None => None end.

(** 111-575: the value that a directive gives to vfprintf() ([None] if it prints nothing), and
    whether it fails even so *)
Definition directive_value (f : fn) (fld : option field) (c : option byte) (b : bftw) : option value * bool :=
  let ok v := (v, match v with None => true | _ => false end) in
  match f with
  | Fn_literal | Fn_flush => (None, false)
  | Fn_ctime | Fn_strftime =>
      ok (with_stat b (fun st => match fld with
                                 | Some fld => match st_time st fld with Some ts => Some (Time ts c) | None => None end
                                 | None => None
                                 end))
  | Fn_b => ok (with_stat b (fun st => Some (Decimal (u64 (u64 (uz (st_blocks st) * 512) + 511) / 512))))
  | Fn_d => ok (Some (Int (b_depth b)))
  | Fn_D => ok (with_stat b (fun st => Some (Decimal (st_dev st))))
  | Fn_f => ok (Some (Str (skipn (b_nameoff b) (b_path b))))
  | Fn_F => ok (with_stat b (fun _ => match b_fstype b with Some t => Some (Str t) | None => None end))
  | Fn_G => ok (with_stat b (fun st => Some (Decimal (st_gid st))))
  | Fn_g => ok (with_stat b (fun st => Some (match b_group b (st_gid st) with Some n => Str n | None => Decimal (st_gid st) end)))
  | Fn_h =>
      let len := b_nameoff b in
      ok (Some (Str (if (0 <? len)%nat then firstn (if (1 <? len)%nat then len - 1 else len) (b_path b)
                     else match b_path b with "/"%byte :: _ => ["/"%byte] | _ => ["."%byte] end)))
  | Fn_H => ok (Some (Str (b_root b)))
  | Fn_i => ok (with_stat b (fun st => Some (Decimal (st_ino st))))
  | Fn_k => ok (with_stat b (fun st => Some (Decimal (u64 (u64 (uz (st_blocks st) * 512) + 1023) / 1024))))
  | Fn_l => ok (match b_type b with
                | BFS_LNK => match b_link b with Some t => Some (Str t) | None => None end
                | _ => Some (Str [])
                end)
  | Fn_m => ok (with_stat b (fun st => Some (Mode (N.land (st_mode st) 4095))))
  | Fn_M => ok (with_stat b (fun st => Some (Symbolic (st_mode st))))
  | Fn_n => ok (with_stat b (fun st => Some (Decimal (st_nlink st))))
  | Fn_p => ok (Some (Str (b_path b)))
  | Fn_P =>
      let offset := length (b_root b) in
      let offset := match nth_error (b_path b) offset with Some "/"%byte => S offset | _ => offset end in
      ok (Some (Str (skipn offset (b_path b))))
  | Fn_s => ok (with_stat b (fun st => Some (Decimal (uz (st_size st)))))
  | Fn_S => ok (with_stat b (fun st => Some (if (st_size st =? 0)%Z && (st_blocks st =? 0)%Z then Ratio 1 0
                                             else Ratio (512 * st_blocks st) (st_size st))))
  | Fn_U => ok (with_stat b (fun st => Some (Decimal (st_uid st))))
  | Fn_u => ok (with_stat b (fun st => Some (match b_user b (st_uid st) with Some n => Str n | None => Decimal (st_uid st) end)))
  | Fn_y => ok (Some (Str [type_char (b_type b)]))
  | Fn_Y => match b_follow b with
            | Type_of t => ok (Some (Str [type_char t]))
            | Loop => ok (Some (Str ["L"%byte]))
            | Missing => ok (Some (Str ["N"%byte]))
            | Failure => (Some (Str ["?"%byte]), true)
            end
  | Fn_Z => ok (match b_context b with Some t => Some (Str t) | None => None end)
  end.

(** What is done to the output: a character is written, or it is flushed. *)
Inductive event := Put (c : byte) | Flush.

(** 63-77 and 940-954, [bfs_printf]: what is done, and whether it succeeds.  Only vfprintf() fails. *)
Section Print.
  (** vfprintf(): the text, if it succeeds *)
  Variable vfprintf : list byte -> value -> option (list byte).
  Definition print_one (b : bftw) (f : fmt) : list event * bool :=
    match fmt_fn f with
    | Fn_literal => (map Put (fmt_str f), true)
    | Fn_flush => ([Flush], true)
    | _ => match directive_value (fmt_fn f) (fmt_field f) (fmt_c f) b with
           | (None, failed) => ([], negb failed)
           | (Some v, failed) => match vfprintf (fmt_str f) v with
                                 | Some t => (map Put t, negb failed)
                                 | None => ([], false)
                                 end
           end
    end.
  Fixpoint bfs_printf (b : bftw) (fmts : list fmt) : list event * bool :=
    match fmts with
    | [] => ([], true)
    | f :: fmts => let '(t, ok) := print_one b f in
                   let '(ts, oks) := bfs_printf b fmts in
                   (t ++ ts, ok && oks)
    end.
End Print.
