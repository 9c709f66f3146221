(** Property theorems for shell quoting: C17. *)
From Coq Require Import String List Arith NArith Bool Lia.
From Coq Require Import Init.Byte Strings.Byte.
From Verif Require Import QuoteModel QuoteSpec QuoteProofs.
Import ListNotations.

(** C17: a shell reads the quoted string back as the original bytes. *)
Theorem C17_quote_roundtrip : forall l, good_locale l ->
  forall out sp s, ~ In x00 s -> 4 * List.length s + 3 < sp ->
  exists q, wordnesc l true (out, sp) s = (out ++ q, sp - List.length q) /\ shell_word q = Some s.
Proof.
  exact wordnesc_roundtrip.
Qed.
Print Assumptions C17_quote_roundtrip.

(** C17: 4n+3 bytes (and the terminator) are always enough. *)
Theorem C17_quote_length : forall l shell out sp s, 4 * List.length s + 3 < sp ->
  exists q, wordnesc l shell (out, sp) s = (out ++ q, sp - List.length q) /\
    List.length q <= 4 * List.length s + 3.
Proof.
  exact wordnesc_fits.
Qed.
Print Assumptions C17_quote_length.

(** C17: it contains only printable characters. *)
Theorem C17_quote_printable : forall l, quote_alone l ->
  forall out sp s, 4 * List.length s + 3 < sp ->
  exists q, wordnesc l true (out, sp) s = (out ++ q, sp - List.length q) /\ printable l q.
Proof.
  exact wordnesc_printable.
Qed.
Print Assumptions C17_quote_printable.

Module Examples.
  (** The C locale, with bytes as characters *)
  Definition C : locale :=
    let pr c := (32 <=? Byte.to_N c)%N && (Byte.to_N c <=? 126)%N in
    let sp c := mem c (str " " ++ [x09; x0a; x0b; x0c; x0d]) in
    mkLocale byte unit tt (fun _ s => match s with [] => None | c :: _ => Some (1, c, tt) end) pr sp pr sp.
  Example C_good : good_locale C /\ quote_alone C.
  Proof.
    split; [split; [|split; [|split; reflexivity]]|].
    - intros mb s n c mb' _ H. destruct s; [discriminate|]. injection H as <- _ _. cbn. lia.
    - intros mb s n c mb' H P. destruct s; [discriminate|]. injection H as <- <- _. cbn [firstn].
      split; intros [->|[]]; discriminate P.
    - intros mb s n c mb' H _. destruct s; [discriminate|]. injection H as <- _ _. reflexivity.
  Qed.
  Definition q (s : list byte) : list byte := fst (wordnesc C true ([], 100) s).
  Example plain : q (str "foo/bar") = str "foo/bar". Proof. reflexivity. Qed.
  Example spaces : q (str "foo bar") = str """foo bar""". Proof. reflexivity. Qed.
  Example quotes : q (str "it's $5") = str "'it'\''s $5'". Proof. reflexivity. Qed.
  Example control : q [x61; x0a; xff] = str "$'a\n\xFF'". Proof. reflexivity. Qed.
  Example empty : q [] = str """""". Proof. reflexivity. Qed.
  Example read_control : shell_word (str "$'a\n\xFF'") = Some [x61; x0a; xff]. Proof. reflexivity. Qed.
  Example unquoted : shell_word (str "foo bar") = None /\ shell_word (str "$HOME") = None.
  Proof. split; reflexivity. Qed.
End Examples.
