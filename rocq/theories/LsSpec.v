(** * The format of $LS_COLORS, after man dir_colors *)
From Coq Require Import String List NArith Bool.
From Coq Require Import Init.Byte Strings.Byte.
From Verif Require Import LsModel.
Import ListNotations.

Definition digit_of (base : N) (c : byte) (v : N) : Prop :=
  (v < base)%N /\
  ((v < 10)%N /\ Byte.to_N c = (48 + v)%N \/
   (10 <= v)%N /\ (Byte.to_N c = (65 + (v - 10))%N \/ Byte.to_N c = (97 + (v - 10))%N)).
(** Positional notation *)
Inductive number (base : N) : list byte -> N -> Prop :=
| N_nil : number base [] 0
| N_snoc ds n c v : number base ds n -> digit_of base c v -> number base (ds ++ [c]) (base * n + v).
(** No digit follows. *)
Definition stops (base : N) (rest : list byte) : Prop :=
  match rest with [] => True | c :: _ => forall v, ~ digit_of base c v end.

Definition letters : list (byte * byte) :=
  [("a", x07); ("b", x08); ("e", x1b); ("f", x0c); ("n", x0a); ("r", x0d); ("t", x09); ("v", x0b); ("?", x7f); ("_", " ")]%byte.

(** One character: how it is written before [rest] *)
Inductive written (rest : list byte) : list byte -> byte -> Prop :=
| W_plain c : c <> "\"%byte -> c <> "^"%byte -> written rest [c] c
| W_letter l c : In (l, c) letters -> written rest ["\"%byte; l] c
| W_octal ds n c : ds <> [] -> number 8 ds n -> stops 8 rest -> Byte.to_N c = (n mod 256)%N ->
    written rest ("\"%byte :: ds) c
| W_hex x ds n c : x = "x"%byte \/ x = "X"%byte -> number 16 ds n -> stops 16 rest -> Byte.to_N c = (n mod 256)%N ->
    written rest ("\"%byte :: x :: ds) c
| W_other c : ~ In c (map fst letters) -> (forall v, ~ digit_of 8 c v) -> c <> "x"%byte -> c <> "X"%byte ->
    written rest ["\"%byte; c] c
| W_control c k : c <> "?"%byte -> Byte.to_N k = (Byte.to_N c mod 32)%N -> written rest ["^"%byte; c] k
| W_delete : written rest ["^"%byte; "?"%byte] x7f.

(** [text fin s v after]: [v] is written at the start of [s], up to [fin] or to
    the end; [after] is what comes after [fin]. *)
Inductive text (fin : byte) : list byte -> list byte -> option (list byte) -> Prop :=
| T_end : text fin [] [] None
| T_fin rest : text fin (fin :: rest) [] (Some rest)
| T_char w c rest v after : hd_error w <> Some fin -> written rest w c -> text fin rest v after ->
    text fin (w ++ rest) (c :: v) after.

(** What a setting says *)
Inductive item := Ext (ext value : list byte) | Color (name value : list byte).
Inductive spelled : list byte -> item -> Prop :=
| S_ext k key v value : text "=" k key None -> text ":" v value None ->
    spelled ("*"%byte :: k ++ "="%byte :: v) (Ext key value)
| S_color name v value : ~ In "="%byte name -> ~ In ":"%byte name -> hd_error name <> Some "*"%byte ->
    text ":" v value None -> spelled (name ++ "="%byte :: v) (Color name value).

(** Settings are separated by colons, and there may be one at the end. *)
Fixpoint joined (ss : list (list byte)) : list byte :=
  match ss with
  | [] => []
  | [s] => s
  | s :: ss => s ++ ":"%byte :: joined ss
  end.
Definition variable (s : option (list byte)) (items : list item) : Prop :=
  match s with
  | None => items = []
  | Some s => exists ss, Forall2 spelled ss items /\ (s = joined ss \/ ss <> [] /\ s = joined ss ++ [":"%byte])
  end.

(** The last setting for a name; 0, 00 and so on mean none, except for these *)
Definition codes : list (list byte) := map bytes ["rs"; "lc"; "rc"; "ec"]%string.
Inductive setting (name : list byte) : option (list byte) -> list item -> option (list byte) -> Prop :=
| Set_none d : setting name d [] d
| Set_ext d k v items r : setting name d items r -> setting name d (items ++ [Ext k v]) r
| Set_other d n v items r : n <> name -> setting name d items r -> setting name d (items ++ [Color n v]) r
| Set_zero d v items : Forall (eq "0"%byte) v -> ~ In name codes -> setting name d (items ++ [Color name v]) None
| Set_this d v items : ~ Forall (eq "0"%byte) v \/ In name codes -> setting name d (items ++ [Color name v]) (Some v).

Definition extensions (items : list item) : list (list byte * list byte) :=
  flat_map (fun i => match i with Ext k v => [(k, v)] | _ => [] end) items.

(** The table after reading settings: [ln=target] colors links like their
    targets, and the reset sequence is made of lc, rs and rc. *)
Record colored (items : list item) (c : colors) : Prop := {
  col_plain : forall name d, In (name, d) initial -> name <> bytes "ln" -> name <> bytes "ec" ->
    exists v, get_esc (names c) name = Some v /\ setting name d items v;
  col_link : exists d v, In (bytes "ln", d) initial /\ setting (bytes "ln") d items v /\
    (v = Some (bytes "target") /\ get_esc (names c) (bytes "ln") = Some (Some []) /\ link_as_target c = true \/
     v <> Some (bytes "target") /\ get_esc (names c) (bytes "ln") = Some v /\ link_as_target c = false);
  col_end : exists v, setting (bytes "ec") None items v /\
    (v <> None /\ get_esc (names c) (bytes "ec") = Some v \/
     v = None /\ exists lc rs rc, get_esc (names c) (bytes "lc") = Some (Some lc) /\
       get_esc (names c) (bytes "rs") = Some (Some rs) /\ get_esc (names c) (bytes "rc") = Some (Some rc) /\
       get_esc (names c) (bytes "ec") = Some (Some (lc ++ rs ++ rc)));
  col_names : map fst (names c) = map fst initial;
  col_exts : exts c = extensions items
}.
(** A string of C *)
Definition c_string (s : list byte) : Prop := ~ In x00 s.
Definition environment (s : option (list byte)) : Prop := forall t, s = Some t -> c_string t.
(** Like [variable], but settings may be empty, like in a list that was appended
    to one which ends with a colon.  GNU ls skips these. *)
Definition with_empty (s : list byte) (items : list item) : Prop :=
  exists ss, Forall2 spelled (filter (fun s => match s with [] => false | _ => true end) ss) items /\ s = joined ss.
