(** Property theorems for full reads and writes: C39. *)
From Coq Require Import String List Arith.
From Coq Require Import Init.Byte.
From Verif Require Import IoModel IoSpec IoProofs.
Import ListNotations.

(** C39: what was read is the front of the file, in order; it fills the front of
    the buffer and nothing else; the count is its length, and is short only at end
    of file or on an error of the kernel other than an interruption. *)
Theorem C39_xread : forall answers file buf nbytes c buf' rest e, nbytes <= List.length buf ->
  xread answers file buf nbytes 0 = Some (c, buf', rest, e) ->
  exists got, file = got ++ rest /\ c = List.length got /\
    buf' = got ++ skipn (List.length got) buf /\ c <= nbytes /\
    match e with
    | Full => c = nbytes
    | Eof => c < nbytes /\ rest = []
    | Error n => c < nbytes /\ In (Failed n) answers
    end.
Proof.
  exact xread_whole.
Qed.
Print Assumptions C39_xread.

(** C39: reading ends, at the latest after as many calls that are not interrupted
    as there are bytes. *)
Theorem C39_xread_ends : forall answers file buf nbytes count,
  nbytes - count <= effective answers -> exists r, xread answers file buf nbytes count = Some r.
Proof.
  exact xread_progress.
Qed.
Print Assumptions C39_xread_ends.

(** C39: what was written is the front of the buffer, in order, after what was in
    the file; the count is short only if the kernel failed or accepted nothing. *)
Theorem C39_xwrite : forall answers file buf nbytes c file' e, nbytes <= List.length buf ->
  xwrite answers file buf nbytes 0 = Some (c, file', e) ->
  file' = file ++ firstn c buf /\ c <= nbytes /\
    match e with
    | Full => c = nbytes
    | Eof => c < nbytes /\ In (Transfer 0) answers
    | Error n => c < nbytes /\ In (Failed n) answers
    end.
Proof.
  exact xwrite_whole.
Qed.
Print Assumptions C39_xwrite.

Theorem C39_xwrite_ends : forall answers file buf nbytes count,
  nbytes - count <= effective answers -> exists r, xwrite answers file buf nbytes count = Some r.
Proof.
  exact xwrite_progress.
Qed.
Print Assumptions C39_xwrite_ends.

Module Examples.
  Definition b (s : string) : list byte := list_byte_of_string s.
  Definition answers := [Transfer 2; Interrupted; Transfer 1; Interrupted; Transfer 100].
  Example reads : xread answers (b "hello world") (b "........") 6 0 = Some (6, b "hello ..", b "world", Full).
  Proof. reflexivity. Qed.
  Example short : xread answers (b "hel") (b "........") 6 0 = Some (3, b "hel.....", [], Eof).
  Proof. reflexivity. Qed.
  Example writes : xwrite [Transfer 2; Interrupted; Transfer 1; Failed 28] (b "x") (b "hello") 5 0 =
    Some (3, b "xhel", Error 28).
  Proof. reflexivity. Qed.
  Example enough : 3 - 0 <= effective answers. Proof. cbn. auto. Qed.
End Examples.
