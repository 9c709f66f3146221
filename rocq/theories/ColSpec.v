(** * What a colored path looks like *)
From Coq Require Import List Arith NArith Bool Init.Byte Strings.Byte.
From Verif Require Import PathModel QuoteModel QuoteSpec StatModel ColModel.
Import ListNotations.
Local Open Scope nat_scope.

(** ** Texts on a terminal *)

(** What is printed for [s] *)
Definition tty (l : locale) (s : list byte) : list byte := fst (wordnesc l false ([], 4 * length s + 4) s).
(** The locale [l] in which white space counts as printable *)
Definition relaxed (l : locale) : locale :=
  mkLocale (wc l) (mbstate l) (mb_init l) (decode l) (fun c => isprint l c || isspace l c) (isspace l)
    (fun c => iswprint l c || iswspace l c) (iswspace l).
(** [b] is not part of any printable character. *)
Definition control (l : locale) (b : byte) : Prop :=
  ~ (32 <= Byte.to_N b <= 126)%N /\ isprint l b = false /\ isspace l b = false /\
  forall mb s n c mb', decode l mb s = Some (n, c, mb') -> iswprint l c = true \/ iswspace l c = true -> ~ In b (firstn n s).

Definition segment (l : locale) (cs : colors) (e : option esc_seq) (s : list byte) : list byte :=
  match s, e with
  | [], _ => []
  | _, None => tty l s
  | _, Some e => seq (leftcode cs) ++ seq e ++ seq (rightcode cs) ++ tty l s ++ seq (endcode cs)
  end.

(** ** The color of a file *)
Fixpoint pick (l : list (option esc_seq * bool)) : option esc_seq :=
  match l with
  | [] => None
  | (Some e, true) :: _ => Some e
  | _ :: l => pick l
  end.
Definition bad (cs : colors) : option esc_seq := pick [(missing cs, true); (orphan cs, true)].
(** An empty color is that of normal text. *)
Definition nonempty (cs : colors) (e : option esc_seq) : option esc_seq :=
  match e with Some x => match seq x with [] => normal cs | _ => e end | None => None end.
(** For a file of type [t] with the data [st], if known, with or without capabilities, for links broken or not *)
Definition wanted (cs : colors) (t : ftype) (st : option cstat) (caps broken : bool) (name : list byte) : option esc_seq :=
  let bit n := match st with Some s => N.testbit (mode s) n | None => false end in
  let linked := match st with Some s => (1 <? nlink s)%N | None => false end in
  let unknown := match st with Some _ => false | None => true end in
  match t with
  | BFS_ERROR => bad cs
  | BFS_REG =>
      if unknown && (has (setuid cs) || has (setgid cs) || has (executable cs) || has (multi_hard cs)) then bad cs
      else nonempty cs (pick [(setuid cs, bit 11%N); (setgid cs, bit 10%N); (capable cs, caps);
                              (executable cs, bit 0%N || bit 3%N || bit 6%N); (multi_hard cs, linked); (get_ext cs name, true); (file cs, true)])
  | BFS_DIR =>
      if unknown && (has (sticky_other_writable cs) || has (other_writable cs) || has (sticky cs)) then bad cs
      else nonempty cs (pick [(sticky_other_writable cs, bit 9%N && bit 1%N); (other_writable cs, bit 1%N); (sticky cs, bit 9%N); (directory cs, true)])
  | BFS_LNK => nonempty cs (pick [(orphan cs, broken); (link cs, true)])
  | BFS_BLK => nonempty cs (blockdev cs)
  | BFS_CHR => nonempty cs (chardev cs)
  | BFS_FIFO => nonempty cs (pipe cs)
  | BFS_SOCK => nonempty cs (socket cs)
  | BFS_UNKNOWN => None
  end.
Definition broken (f : ftwbuf) : bool := match stat_flags f with BFS_STAT_NOFOLLOW => negb (accessible f) | _ => true end.

(** ** The parts of a path *)

(** After a name or after slashes *)
Definition boundary (p : list byte) (n : nat) : Prop :=
  n = 0 \/ n = length p \/ 0 < n < length p /\ is_slash (at_ p (n - 1)) <> is_slash (at_ p n).
(** [b] is the last name of [d ++ b], if that does not end with a slash. *)
Definition last_name (d b : list byte) : Prop := ~ In slash b /\ (d = [] \/ exists d', d = d' ++ [slash]).

Section Parts.
  Variable cs : colors.
  Variable f : ftwbuf.
  (** [t] is the type of what the whole path stands for, [st] its data, [r q] the data of what [q] stands for. *)
  Variables (t : ftype) (st : option cstat) (r : list byte -> option cstat).

  (** A path to something that exists: all but the name, which begins at [off], is one part. *)
  Definition there (off : nat) (p dirs name tail : list byte) (color : option esc_seq) : Prop :=
    t <> BFS_ERROR /\ p = dirs ++ name /\ length dirs = off /\ tail = [] /\ (name <> [] -> color = wanted cs t st (capabilities f) (broken f) name).
  (** One to something that does not: the longest part that does, with its last name, and the rest. *)
  Definition not_there (p dirs name tail : list byte) (color : option esc_seq) : Prop :=
    t = BFS_ERROR /\ p = dirs ++ name ++ tail /\ last_name dirs name /\ (p <> [] -> tail <> []) /\
    boundary p (length (dirs ++ name)) /\
    (dirs ++ name = [] \/ exists s, r (dirs ++ name) = Some s /\
       (name <> [] -> color = wanted cs (bfs_mode_to_type (mode s)) (Some s) false false name)) /\
    forall n, boundary p n -> length (dirs ++ name) < n < length p -> r (firstn n p) = None.
  (** One to something that was found in a directory but cannot be looked at *)
  Definition found (p dirs name tail : list byte) : Prop :=
    t = BFS_ERROR /\ p = dirs ++ tail /\ name = [] /\ length dirs = nameoff f.
End Parts.

(** The whole *)
Definition painted (l : locale) (cs : colors) (dirs name tail : list byte) (color : option esc_seq) : list byte :=
  (match name with
   | [] => segment l cs (directory cs) dirs
   | _ => if same color (directory cs) then segment l cs (directory cs) (dirs ++ name)
          else segment l cs (directory cs) dirs ++ segment l cs color name
   end) ++ segment l cs (bad cs) tail.

(** ** What is known of the arguments *)

(** The paths that bftw() passes on (C08): for a root, the name is that of basename(); else, it follows a slash. *)
Definition proper (f : ftwbuf) : Prop :=
  depth f = 0 /\ nameoff f = xbaseoff (path f) \/
  0 < depth f /\ exists d b, path f = d ++ [slash] ++ b /\ nameoff f = length (d ++ [slash]) /\ b <> [] /\ ~ In slash b.
(** [r q] is the data of what [q] stands for in the directory of the link. *)
Definition from_link (f : ftwbuf) (r : list byte -> option cstat) : Prop :=
  (forall q, is_slash (at_ q 0) = true -> stat_at f q = r q) /\
  (at_cwd f = false -> forall q, stat_at f q = r q) /\
  (at_cwd f = true -> forall q, q <> [] -> is_slash (at_ q 0) = false -> stat_cwd f (firstn (nameoff f) (path f) ++ q) = r q).
(** The colors *)
Definition palette (cs : colors) (e : esc_seq) : Prop :=
  (exists name, get_ext cs name = Some e) \/
  In (Some e) [normal cs; file cs; multi_hard cs; executable cs; capable cs; setgid cs; setuid cs; directory cs; sticky cs;
    other_writable cs; sticky_other_writable cs; link cs; orphan cs; missing cs; blockdev cs; chardev cs; pipe cs; socket cs].
(** None of them is where that of ${rs} is. *)
Definition apart (cs : colors) : Prop := forall x e, reset cs = Some x -> palette cs e -> addr e <> addr x.
(** [b] is in an escape sequence for some color. *)
Definition in_colors (cs : colors) (b : byte) : Prop :=
  In b (seq (leftcode cs)) \/ In b (seq (rightcode cs)) \/ In b (seq (endcode cs)) \/ exists e, palette cs e /\ In b (seq e).

(** The C locale, with bytes as characters *)
Definition c_locale : locale :=
  let pr c := (32 <=? Byte.to_N c)%N && (Byte.to_N c <=? 126)%N in
  let sp c := Byte.eqb c x20 || (9 <=? Byte.to_N c)%N && (Byte.to_N c <=? 13)%N in
  mkLocale byte unit tt (fun _ s => match s with [] => None | c :: _ => Some (1, c, tt) end) pr sp pr sp.

(** Whether the file itself or what it links to is shown: that which is tested (-P, -H, -L), or with [ln=target] what
    a link leads to, if that exists *)
Definition as_shown (cs : colors) (f : ftwbuf) : flags :=
  match link_as_target cs, ftw_type f with
  | true, BFS_LNK => BFS_STAT_TRYFOLLOW
  | _, _ => stat_flags f
  end.
