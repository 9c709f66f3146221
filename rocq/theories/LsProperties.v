(** * C66: the colors in $LS_COLORS and $BFS_COLORS *)
From Coq Require Import String List NArith Bool.
From Coq Require Import Init.Byte Strings.Byte.
From Verif Require Import LsModel LsSpec LsProofs.
Import ListNotations.

(** C66: escapes in keys, which end with =, and in values, which end with a colon,
    mean what the manual says, up to the first such character that is not part of
    an escape. *)
Theorem C66_escapes : forall fin s v after, fin = "="%byte \/ fin = ":"%byte -> c_string s ->
  (unescape (Some s) fin = Done (v, after) <-> text fin s v after).
Proof. exact (fun fin s v after H => unescape_ok fin H s v after). Qed.
Print Assumptions C66_escapes.

(** C66: an error is reported for what means nothing, and only for that. *)
Theorem C66_escapes_invalid : forall fin s, fin = "="%byte \/ fin = ":"%byte -> c_string s ->
  (unescape (Some s) fin = Invalid <-> forall v after, ~ text fin s v after).
Proof. exact (fun fin s H => unescape_invalid fin H s). Qed.
Print Assumptions C66_escapes_invalid.

(** C66: every setting has its effect, and later settings override earlier ones.
    Those in $BFS_COLORS come after those in $LS_COLORS.  Missing: empty settings. *)
Theorem C66_colors_partial : forall ls bfs L B, environment ls -> environment bfs ->
  variable ls L -> variable bfs B -> exists c, parse_colors ls bfs = Done c /\ colored (L ++ B) c.
Proof. exact colors_ok. Qed.
Print Assumptions C66_colors_partial.

(** C66: settings say one thing only. *)
Theorem C66_setting_unique : forall name d items v w, setting name d items v -> setting name d items w -> v = w.
Proof. exact setting_unique. Qed.
Print Assumptions C66_setting_unique.

(** C66: whatever the variables are, nothing after their end is read, no null
    pointer is used, and there is an error or a complete table. *)
Theorem C66_safe : forall ls bfs, environment ls -> environment bfs ->
  parse_colors ls bfs = Invalid \/ exists c items, parse_colors ls bfs = Done c /\ colored items c.
Proof. exact colors_safe. Qed.
Print Assumptions C66_safe.

(** C66: after an empty setting, the next one has no effect. *)
Theorem C66_empty_refuted : exists s items c, c_string s /\ with_empty s items /\
  parse_colors (Some s) None = Done c /\ ~ colored items c.
Proof. exact empty_refuted. Qed.
Print Assumptions C66_empty_refuted.

Module Examples.
  Example octal : unescape (Some (bytes "\033[01\x3a:rest")) ":" = Done ([x1b] ++ bytes "[01:", Some (bytes "rest")).
  Proof. vm_compute. reflexivity. Qed.
  Example wraps : unescape (Some (bytes "\777\x1fF^[^?\_\\\:")) ":" = Done ([xff; xff; x1b; x7f; x20; "\"%byte; ":"%byte], None).
  Proof. vm_compute. reflexivity. Qed.
  Example cut_short : unescape (Some (bytes "01;34\")) ":" = Invalid.
  Proof. vm_compute. reflexivity. Qed.

  Lemma plain s : Forall (fun c => c <> "\"%byte /\ c <> "^"%byte /\ c <> ":"%byte) s -> text ":" s s None.
  Proof.
    induction 1 as [|c s (A & B & C) F IH]; [constructor|].
    apply (T_char ":" [c] c s s None); [cbn; congruence|constructor; assumption|exact IH].
  Qed.
  Lemma plain' s : Forall (fun c => c <> "\"%byte /\ c <> "^"%byte /\ c <> "="%byte) s -> text "=" s s None.
  Proof.
    induction 1 as [|c s (A & B & C) F IH]; [constructor|].
    apply (T_char "=" [c] c s s None); [cbn; congruence|constructor; assumption|exact IH].
  Qed.
  (** LS_COLORS=di=01;35:ln=target:*.gz=31: *)
  Example ls : variable (Some (bytes "di=01;35:ln=target:*.gz=31:"))
    [Color (bytes "di") (bytes "01;35"); Color (bytes "ln") (bytes "target"); Ext (bytes ".gz") (bytes "31")].
  Proof.
    exists [bytes "di=01;35"; bytes "ln=target"; bytes "*.gz=31"]. split; [|right; split; [discriminate|reflexivity]].
    repeat constructor.
    - apply (S_color (bytes "di") (bytes "01;35")); [cbn; intuition discriminate|cbn; intuition discriminate|discriminate|].
      apply plain. repeat constructor; discriminate.
    - apply (S_color (bytes "ln") (bytes "target")); [cbn; intuition discriminate|cbn; intuition discriminate|discriminate|].
      apply plain. repeat constructor; discriminate.
    - apply (S_ext (bytes ".gz") (bytes ".gz") (bytes "31")); [apply plain'|apply plain]; repeat constructor; discriminate.
  Qed.
  Example read : match parse_colors (Some (bytes "di=01;35:ln=target:*.gz=31:")) None with
    | Done c => field c "di" = Some (bytes "01;35") /\ field c "ln" = Some [] /\ link_as_target c = true /\
                exts c = [(bytes ".gz", bytes "31")] /\ field c "ec" = Some ([x1b] ++ bytes "[0m")
    | _ => False
    end.
  Proof. vm_compute. auto. Qed.
End Examples.
