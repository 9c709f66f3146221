(** Property theorems for growable strings: C28. *)
From Coq Require Import List NArith Bool Lia.
From Coq Require Import Init.Byte.
From Verif Require Import AllocModel QuoteModel DstrModel DstrSpec DstrProofs.
Import ListNotations.
Local Open Scope N_scope.

(** C28: after any operations, a string is terminated within its memory. *)
Theorem C28_terminated : forall l d, history l (Some d) -> terminated d.
Proof.
  exact history_terminated.
Qed.
Print Assumptions C28_terminated.

(** C28: after any operations, the next one has its effect on the contents, or
    fails and leaves them alone.  It fails only if the system refused something. *)
Theorem C28_contents : forall l p o, history l p -> allowed o (option_map contents p) ->
  (exists d, run l o p = Some (Some d, true) /\ effect l o (option_map contents p) (contents d)) \/
  (exists p', run l o p = Some (p', false) /\ option_map contents p' = option_map contents p /\ refused o).
Proof.
  exact history_run.
Qed.
Print Assumptions C28_contents.

(** C28: a string holds the concatenation of what was appended to it. *)
Theorem C28_concatenation : forall l lc d, history lc (Some d) -> nlen (contents d) + total l <= 2 ^ 60 ->
  exists d', append_all l (Some d) = Some (Some d') /\ history lc (Some d') /\
    ((forall x, In x l -> granted x = true) -> contents d' = contents d ++ concat (map fst l)).
Proof.
  exact append_all_ok.
Qed.
Print Assumptions C28_concatenation.

(** C28: repetition *)
Theorem C28_repeat : forall t n a0 a, n * nlen t <= 2 ^ 60 ->
  (dstrepeat t n a0 a = Some (None, false) /\ (a0 = None \/ exists i, a i = None)) \/
  exists d, dstrepeat t n a0 a = Some (Some d, true) /\ terminated d /\ contents d = concat (repeat t (N.to_nat n)).
Proof.
  exact repeat_ok.
Qed.
Print Assumptions C28_repeat.

(** C28: formatting a new string *)
Theorem C28_printf : forall fmt r1 r2 a0 a1 a2, 2 * fmt <= 2 ^ 60 ->
  match r1 with
  | Failed _ => True
  | Text t => nlen t <= 2 ^ 60 /\ match r2 with Text t' => t' = t | Failed _ => True end
  end ->
  dstrvprintf fmt r1 r2 a0 a1 a2 = Some (None, false) \/
  exists d t, dstrvprintf fmt r1 r2 a0 a1 a2 = Some (Some d, true) /\ r1 = Text t /\ terminated d /\ contents d = t.
Proof.
  exact vprintf_ok.
Qed.
Print Assumptions C28_printf.

Module Examples.
  Definition ok : answer := Some (fun _ => xcc).
  Definition abc : list byte := [x61; x00; x63].

  (** A string that grows twice, with a failed allocation in between *)
  Definition d0 : option (option dstring) := dstrxdup abc ok.
  Definition grown : option dstring :=
    match d0 with
    | Some (Some d) =>
        match append_all [(repeat x62 20, ok); (repeat x63 50, None); (repeat x64 30, ok)] (Some d) with
        | Some p => p
        | None => None
        end
    | _ => None
    end.
  Example grown_value : option_map (fun d => (contents d, len d, cap d, length (mem d))) grown
    = Some (abc ++ repeat x62 20 ++ repeat x64 30, 53, 64, 64%nat).
  Proof. vm_compute. reflexivity. Qed.

  Example start : forall l, exists d, history l (Some d) /\ contents d = abc.
  Proof.
    intros l. destruct d0 as [[d|]|] eqn:E; [|discriminate|discriminate].
    exists d. split; [|vm_compute in E; injection E as <-; reflexivity].
    apply (ran l (Dup abc ok) None (Some d) true); [constructor| |].
    - split; [reflexivity|discriminate].
    - cbn [run]. unfold d0 in E. rewrite E. reflexivity.
  Qed.

  (** A text that does not fit at first *)
  Example printed_twice :
    match dstrvprintf 2 (Text (repeat x78 40)) (Text (repeat x78 40)) ok ok ok with
    | Some (Some d, true) => (contents d, len d, cap d)
    | _ => ([], 0, 0)
    end = (repeat x78 40, 40, 64).
  Proof. vm_compute. reflexivity. Qed.

  (** Without memory for it, the text is removed again. *)
  Example printed_not :
    match dstrxdup abc ok with
    | Some (Some d) =>
        match dstrvcatf (Some d) 2 (Text (repeat x78 40)) (Failed []) None None with
        | Some (Some d, false) => (contents d, nth_error (mem d) 3)
        | _ => ([], None)
        end
    | _ => ([], None)
    end = (abc, Some x00).
  Proof. vm_compute. reflexivity. Qed.

  Example thrice : match dstrepeat [x2e; x2f] 3 ok (fun _ => ok) with
                   | Some (Some d, true) => contents d
                   | _ => []
                   end = [x2e; x2f; x2e; x2f; x2e; x2f].
  Proof. vm_compute. reflexivity. Qed.
End Examples.
