(** * Printing paths with colors (src/color.c 770-1240)

    Allocations succeed.  Quoting is that of QuoteModel.v, into a buffer that is large
    enough (src/dstring.c 269-285).  Doors and whiteouts do not exist on Linux and are
    left out. *)
From Coq Require Import List Arith NArith Bool Init.Byte.
From Verif Require Import PathModel QuoteModel ModeModel StatModel.
Import ListNotations.
Local Open Scope nat_scope.

(** 24-36, [struct esc_seq], with its address *)
Record esc_seq := mkEsc { addr : nat; seq : list byte }.
(** [a == b] for pointers *)
Definition same (a b : option esc_seq) : bool :=
  match a, b with
  | None, None => true
  | Some x, Some y => addr x =? addr y
  | _, _ => false
  end.
Definition has (a : option esc_seq) : bool := match a with Some _ => true | None => false end.

(** 54-117, [struct colors], as far as it matters here.  [leftcode], [rightcode] and [endcode] are never NULL
    (parse_colors, 610-712).  [get_ext] is modelled in ExtModel.v. *)
Record colors := mkColors {
  reset : option esc_seq; leftcode : esc_seq; rightcode : esc_seq; endcode : esc_seq; normal : option esc_seq;
  file : option esc_seq; multi_hard : option esc_seq; executable : option esc_seq; capable : option esc_seq;
  setgid : option esc_seq; setuid : option esc_seq;
  directory : option esc_seq; sticky : option esc_seq; other_writable : option esc_seq; sticky_other_writable : option esc_seq;
  link : option esc_seq; orphan : option esc_seq; missing : option esc_seq; link_as_target : bool;
  blockdev : option esc_seq; chardev : option esc_seq; pipe : option esc_seq; socket : option esc_seq;
  get_ext : list byte -> option esc_seq
}.

(** The members of [struct bfs_stat] that are used *)
Record cstat := mkCstat { mode : N; nlink : N }.

(** [struct BFTW] (src/bftw.h), with the answers of the functions that look at the file *)
Record ftwbuf := mkFtw {
  path : list byte; nameoff : nat; depth : nat;
  (** at_fd == AT_FDCWD *)
  at_cwd : bool;
  ftw_type : ftype; stat_flags : flags;
  (** bftw_type() and bftw_stat(); [None] is NULL *)
  type_of : flags -> ftype;
  stat_of : flags -> option cstat;
  (** bfs_check_capabilities() > 0 and xfaccessat(at_fd, at_path, F_OK) == 0 *)
  capabilities : bool; accessible : bool;
  (** bfs_stat(AT_FDCWD, path, BFS_STAT_FOLLOW) and bfs_stat(at_fd, path, BFS_STAT_FOLLOW) *)
  stat_cwd : list byte -> option cstat; stat_at : list byte -> option cstat;
  (** xreadlinkat(at_fd, at_path) *)
  target : option (list byte)
}.

(** 775-793, [struct cpath].  [own] is cpath->path == ftwbuf->path; [None] is an uninitialised [statbuf]. *)
Record cpath := mkCpath { c_path : list byte; c_nameoff : nat; c_valid : nat; c_len : nat; c_flags : flags; c_stat : option cstat }.

(** 796-818 *)
Definition cpath_retreat (c : cpath) : cpath :=
  let path := c_path c in
  let '(nameoff, valid) :=
    if (0 <? c_valid c) && is_slash (at_ path (c_valid c - 1))
    then let valid := skip_back is_slash path (c_valid c) in (skip_back (fun b => negb (is_slash b)) path valid, valid)
    else (c_nameoff c, c_nameoff c) in
  mkCpath path nameoff valid (c_len c) (c_flags c) (c_stat c).

(** 899-909, the loop in cpath_init; [None] is the end of the fuel. *)
Fixpoint find_valid (fuel : nat) (stat_ : list byte -> option cstat) (base : list byte) (c : cpath) : option cpath :=
  if c_valid c =? 0 then Some c
  else
    match stat_ (base ++ firstn (c_valid c) (c_path c)) with
    | Some s => Some (mkCpath (c_path c) (c_nameoff c) (c_valid c) (c_len c) (c_flags c) (Some s))
    | None =>
        match fuel with
        | O => None
        | S fuel => find_valid fuel stat_ base (cpath_retreat c)
        end
    end.

(** 821-915 *)
Definition cpath_init (p : list byte) (own : bool) (f : ftwbuf) (fl : flags) : option cpath :=
  let c := mkCpath p (if own then nameoff f else xbaseoff p) (length p) (length p) fl None in
  if negb (ftype_eqb (type_of f fl) BFS_ERROR) then Some c
  else
    let c := cpath_retreat c in
    if own then
      if 0 <? depth f then Some c
      else find_valid (length p) (stat_cwd f) [] c
    else if at_cwd f && negb (is_slash (at_ p 0))
      then find_valid (length p) (stat_cwd f) (firstn (nameoff f) (path f)) c
      else find_valid (length p) (stat_at f) [] c.

Inductive use A := Use (a : A) | Undefined.
Arguments Use {A}. Arguments Undefined {A}.

(** 918-924.  [Undefined] is the use of an uninitialised [statbuf]. *)
Definition cpath_stat (f : ftwbuf) (c : cpath) : use (option cstat) :=
  if c_valid c =? c_len c then Use (stat_of f (c_flags c))
  else match c_stat c with Some s => Use (Some s) | None => Undefined end.

(** 927-934 *)
Definition cpath_has_capabilities (f : ftwbuf) (c : cpath) : bool :=
  if c_valid c =? c_len c then capabilities f else false.

(** 937-950 *)
Definition cpath_is_broken (f : ftwbuf) (c : cpath) : bool :=
  if c_valid c <? c_len c then false
  else match stat_flags f with BFS_STAT_NOFOLLOW => negb (accessible f) | _ => true end.

Definition bits (m mask : N) : bool := negb (N.land m mask =? 0)%N.

(** 953-1061.  [Undefined] is also the use of a null pointer. *)
Definition file_color (cs : colors) (f : ftwbuf) (c : cpath) : use (option esc_seq) :=
  let error := Use (if has (missing cs) then missing cs else orphan cs) in
  let type := if c_valid c =? c_len c then Use (type_of f (c_flags c))
              else match c_stat c with Some s => Use (bfs_mode_to_type (mode s)) | None => Undefined end in
  let finish color := Use (match color with Some e => if length (seq e) =? 0 then normal cs else color | None => None end) in
  (* statbuf = cpath_stat(cpath); if (!statbuf) goto error;  [Use None] is the jump, [Use (Some None)] a null pointer *)
  let load (needed : bool) : use (option (option cstat)) :=
    if needed then match cpath_stat f c with Undefined => Undefined | Use None => Use None | Use s => Use (Some s) end
    else Use (Some None) in
  (* if (colors->color && p(statbuf)) color = colors->color; else ... *)
  let check (statbuf : option cstat) (color : option esc_seq) (p : cstat -> bool) (els : use (option esc_seq)) : use (option esc_seq) :=
    if has color then match statbuf with Some s => if p s then Use color else els | None => Undefined end
    else els in
  match type with
  | Undefined => Undefined
  | Use BFS_ERROR => error
  | Use BFS_REG =>
      match load (has (setuid cs) || has (setgid cs) || has (executable cs) || has (multi_hard cs)) with
      | Undefined => Undefined
      | Use None => error
      | Use (Some statbuf) =>
          let color :=
            check statbuf (setuid cs) (fun s => bits (mode s) 2048)
              (check statbuf (setgid cs) (fun s => bits (mode s) 1024)
                (if has (capable cs) && cpath_has_capabilities f c then Use (capable cs)
                 else check statbuf (executable cs) (fun s => bits (mode s) 73)
                   (check statbuf (multi_hard cs) (fun s => (1 <? nlink s)%N) (Use None)))) in
          match color with
          | Undefined => Undefined
          | Use color =>
              let color := if has color then color else get_ext cs (firstn (c_valid c - c_nameoff c) (skipn (c_nameoff c) (c_path c))) in
              let color := if has color then color else file cs in
              finish color
          end
      end
  | Use BFS_DIR =>
      match load (has (sticky_other_writable cs) || has (other_writable cs) || has (sticky cs)) with
      | Undefined => Undefined
      | Use None => error
      | Use (Some statbuf) =>
          match
            check statbuf (sticky_other_writable cs) (fun s => (N.land (mode s) 514 =? 514)%N)
              (check statbuf (other_writable cs) (fun s => bits (mode s) 2)
                (check statbuf (sticky cs) (fun s => bits (mode s) 512) (Use (directory cs))))
          with
          | Undefined => Undefined
          | Use color => finish color
          end
      end
  | Use BFS_LNK => finish (if has (orphan cs) && cpath_is_broken f c then orphan cs else link cs)
  | Use BFS_BLK => finish (blockdev cs)
  | Use BFS_CHR => finish (chardev cs)
  | Use BFS_FIFO => finish (pipe cs)
  | Use BFS_SOCK => finish (socket cs)
  | Use BFS_UNKNOWN => finish None
  end.

Section Print.
  Variable l : locale.

  (** [struct CFILE]: the buffer and [need_reset] *)
  Record cfile := mkCfile { buffer : list byte; need_reset : bool }.

  (** 1064-1066 *)
  Definition print_esc_chunk (o : cfile) (e : esc_seq) : cfile := mkCfile (buffer o ++ seq e) (need_reset o).

  (** 1069-1090 *)
  Definition print_esc (cs : colors) (o : cfile) (e : option esc_seq) : cfile :=
    match e with
    | None => o
    | Some e' =>
        let o := mkCfile (buffer o) (if same e (reset cs) then need_reset o else true) in
        print_esc_chunk (print_esc_chunk (print_esc_chunk o (leftcode cs)) e') (rightcode cs)
    end.

  (** 1093-1100 *)
  Definition print_reset (cs : colors) (o : cfile) : cfile :=
    if negb (need_reset o) then o else print_esc_chunk (mkCfile (buffer o) false) (endcode cs).

  (** 1103-1105 *)
  Definition print_wordesc (o : cfile) (s : list byte) (shell : bool) : cfile :=
    mkCfile (fst (wordnesc l shell (buffer o, 4 * length s + 4) s)) (need_reset o).

  (** 1108-1127 *)
  Definition print_colored (cs : colors) (o : cfile) (e : option esc_seq) (s : list byte) : cfile :=
    match s with
    | [] => o
    | _ => print_reset cs (print_wordesc (print_esc cs o e) s false)
    end.

  (** 1130-1168.  The result [None] is the end of the fuel or undefined behaviour. *)
  Definition print_path_colored (cs : colors) (o : cfile) (p : list byte) (own : bool) (f : ftwbuf) (fl : flags) : option cfile :=
    match cpath_init p own f fl with
    | None => None
    | Some c =>
        let dirs_color := directory cs in
        let err_color := if has (missing cs) then missing cs else orphan cs in
        match (if c_nameoff c <? c_valid c then
                 match file_color cs f c with
                 | Undefined => None
                 | Use name_color => Some (name_color, if same name_color dirs_color then c_valid c else c_nameoff c)
                 end
               else Some (None, c_nameoff c)) with
        | None => None
        | Some (name_color, nameoff) =>
            let o := print_colored cs o dirs_color (firstn nameoff p) in
            let o := print_colored cs o name_color (firstn (c_valid c - nameoff) (skipn nameoff p)) in
            Some (print_colored cs o err_color (firstn (c_len c - c_valid c) (skipn (c_valid c) p)))
        end
    end.

  (** 1171-1184 *)
  Definition print_name_colored (cs : colors) (o : cfile) (name : list byte) (f : ftwbuf) (fl : flags) : option cfile :=
    match file_color cs f (mkCpath name 0 (length name) (length name) fl None) with
    | Undefined => None
    | Use e => Some (print_colored cs o e name)
    end.

  (** 1187-1201 and 1204-1216; no colors are NULL *)
  Definition print_flags (cs : colors) (f : ftwbuf) : flags :=
    if link_as_target cs && ftype_eqb (ftw_type f) BFS_LNK then BFS_STAT_TRYFOLLOW else stat_flags f.
  Definition print_name (cs : option colors) (o : cfile) (f : ftwbuf) : option cfile :=
    let name := skipn (nameoff f) (path f) in
    match cs with
    | None => Some (mkCfile (buffer o ++ name) (need_reset o))
    | Some cs => print_name_colored cs o name f (print_flags cs f)
    end.
  Definition print_path (cs : option colors) (o : cfile) (f : ftwbuf) : option cfile :=
    match cs with
    | None => Some (mkCfile (buffer o ++ path f) (need_reset o))
    | Some cs => print_path_colored cs o (path f) true f (print_flags cs f)
    end.

  (** 1219-1239; nothing is printed if the link cannot be read. *)
  Definition print_link_target (cs : option colors) (o : cfile) (f : ftwbuf) : option cfile :=
    match target f with
    | None => Some o
    | Some t =>
        match cs with
        | Some cs => print_path_colored cs o t false f BFS_STAT_FOLLOW
        | None => Some (mkCfile (buffer o ++ t) (need_reset o))
        end
    end.
End Print.
