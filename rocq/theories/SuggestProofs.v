(** * Proofs about suggestions *)
From Coq Require Import List ZArith Bool Lia.
From Coq Require Import Init.Byte Strings.Byte.
From Verif Require Import TypoModel TypoSpec TypoProofs GramModel SuggestModel SuggestSpec.
Import ListNotations.
Local Open Scope Z_scope.

Lemma table_short : Forall (fun e => Z.of_nat (length (e_arg e)) <= 40) parse_table.
Proof.
  apply Forall_forall. intros e I. assert (X : forallb (fun e => Z.of_nat (length (e_arg e)) <=? 40) parse_table = true) by (vm_compute; reflexivity).
  rewrite forallb_forall in X. apply Z.leb_le. auto.
Qed.

Lemma loop_ok a : forall table best d, (forall e, In e table -> 12 * Z.of_nat (length a) + 12 * Z.of_nat (length (e_arg e)) + 53 < 2 ^ 31) ->
  match best with Some e => edit_distance a (e_arg e) d | None => True end ->
  (best <> None \/ table <> []) ->
  exists e d', fuzzy_loop a table best d = Some (Some e) /\ (In e table \/ best = Some e) /\ edit_distance a (e_arg e) d' /\ (best <> None -> d' <= d) /\
    forall e' c, In e' table -> edits a (e_arg e') c -> d' <= c.
Proof.
  induction table as [|e table IH]; intros best d S B N; cbn [fuzzy_loop].
  - destruct best as [e|]; [|destruct N; congruence]. exists e, d. split; [reflexivity|]. split; [auto|]. split; [exact B|]. split; [intros _; lia|]. intros ? ? [].
  - destruct (typo_distance_spec a (e_arg e)) as (x & -> & D); [apply S; now left|].
    assert (S' : forall e, In e table -> 12 * Z.of_nat (length a) + 12 * Z.of_nat (length (e_arg e)) + 53 < 2 ^ 31) by (intros; apply S; now right).
    destruct (match best with None => true | Some _ => false end || (x <? d))%bool eqn:C.
    + destruct (IH (Some e) x S' D (or_introl (fun Y => eq_ind (Some e) (fun o => match o with Some _ => True | None => False end) I None Y))) as (e' & d' & -> & I' & D' & L & M).
      exists e', d'. split; [reflexivity|]. split; [left; destruct I' as [I'|[= <-]]; [now right|now left]|]. split; [exact D'|].
      assert (L' : d' <= x) by (apply L; discriminate). split.
      * intros BN. destruct best; [|congruence]. cbn [orb] in C. apply Z.ltb_lt in C. lia.
      * intros e'' c [<-|I''] E; [destruct D as (_ & D); specialize (D c E); lia|eapply M; eauto].
    + destruct best as [e0|]; [|discriminate]. cbn [orb] in C. apply Z.ltb_ge in C.
      destruct (IH (Some e0) d S' B (or_introl (fun Y => eq_ind (Some e0) (fun o => match o with Some _ => True | None => False end) I None Y))) as (e' & d' & -> & I' & D' & L & M).
      assert (L' : d' <= d) by (apply L; discriminate).
      exists e', d'. split; [reflexivity|]. split; [destruct I' as [I'|I']; [left; now right|now right]|]. split; [exact D'|]. split; [intros _; exact L'|].
      intros e'' c [<-|I''] E; [destruct D as (_ & D); specialize (D c E); lia|eapply M; eauto].
Qed.

Lemma fuzzy_ok a : Z.of_nat (length a) < 2 ^ 27 -> exists e, table_lookup_fuzzy a = Some (Some e) /\ In e parse_table /\ closest a (e_arg e).
Proof.
  intros L. destruct (loop_ok a parse_table None INT_MAX) as (e & d & E & [IN|X] & D & _ & M); [|exact I|right; discriminate| |discriminate].
  - intros e I. pose proof table_short as T. rewrite Forall_forall in T. specialize (T e I). cbv beta in T. lia.
  - exists e. split; [exact E|]. split; [exact IN|]. split; [now apply in_map|]. exists d. split; [exact D|]. intros s c J C. apply in_map_iff in J. destruct J as (e' & <- & J). eapply M; eauto.
Qed.

Lemma decide_ok interactive yes a : Z.of_nat (length a) < 2 ^ 27 ->
  match decide interactive yes a with
  | None => False
  | Some (Parse None e) => table_lookup a = Some e
  | Some (Parse (Some s) e) => table_lookup a = None /\ is_flag_group a = false /\ interactive = true /\ yes = true /\ s = e_arg e /\ In e parse_table /\ closest a s
  | Some Group => table_lookup a = None /\ is_flag_group a = true
  | Some (Unmatched s) => table_lookup a = None /\ is_flag_group a = false /\ closest a s /\
      exists e, In e parse_table /\ s = e_arg e /\ (interactive = true -> yes = true -> e_parse e = None)
  | Some Unexpected => (forall t, a <> "-"%byte :: t) \/ exists e, table_lookup a = Some e /\ e_parse e = None
  end.
Proof.
  intros L. assert (X : (exists t, a = "-"%byte :: t) \/ forall t, a <> "-"%byte :: t).
  { destruct a as [|c t]; [right; discriminate|]. destruct (Byte.byte_eq_dec c "-"%byte) as [-> |N]; [eauto|]. right. congruence. }
  destruct X as [(t & ->)|N].
  - unfold decide. destruct (table_lookup ("-"%byte :: t)) as [e|] eqn:T.
    { destruct (e_parse e) eqn:P; [reflexivity|]. right. eauto. }
    destruct (is_flag_group ("-"%byte :: t)) eqn:G; [auto|]. destruct (fuzzy_ok _ L) as (e & -> & I & C).
    destruct interactive; cbn [negb orb]; [destruct (e_parse e) eqn:P; [destruct yes|]|]; repeat (split; auto); exists e; repeat (split; auto); congruence.
  - assert (E : decide interactive yes a = Some Unexpected). { destruct a as [|c t]; [reflexivity|]. unfold decide. destruct c; try reflexivity. now destruct (N t). }
    rewrite E. now left.
Qed.
