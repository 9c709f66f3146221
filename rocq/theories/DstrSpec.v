(** * What users of growable strings rely on *)
From Coq Require Import List NArith Arith Bool.
From Coq Require Import Init.Byte.
From Verif Require Import AllocModel QuoteModel DstrModel.
Import ListNotations.
Local Open Scope N_scope.

(** The bytes of a string *)
Definition contents (d : dstring) : list byte := firstn (N.to_nat (len d)) (mem d).

(** Its length is within its memory, and it is followed by a terminator. *)
Definition terminated (d : dstring) : Prop :=
  len d < cap d /\ cap d <= nlen (mem d) /\ nth_error (mem d) (N.to_nat (len d)) = Some x00.

(** Operations, with the answers of the system *)
Inductive op :=
| Alloc (cap : N) (a : answer)
| Dup (s : list byte) (a : answer)
| Reserve (n : N) (a : answer)
| Resize (n : N) (a : answer)
| Shrink (n : N)
| Append (s : list byte) (a : answer)
| Copy (s : list byte) (a : answer)
| Format (fmt : N) (r1 r2 : printed) (a1 a2 : answer)
| Escape (shell : bool) (s : list byte) (a1 a2 : answer).

(** The system refused memory or could not format the text. *)
Definition refused (o : op) : Prop :=
  match o with
  | Alloc _ a | Dup _ a | Reserve _ a | Resize _ a | Append _ a | Copy _ a => a = None
  | Shrink _ => False
  | Format _ r1 r2 _ a2 => a2 = None \/ (exists s, r1 = Failed s) \/ (exists s, r2 = Failed s)
  | Escape _ _ a1 _ => a1 = None
  end.

Section Effects.
  Variable l : locale.

  Definition run (o : op) (p : option dstring) : result :=
    let new r := match r with
                 | None => None
                 | Some None => Some (None, false)
                 | Some d => Some (d, true)
                 end in
    match o with
    | Alloc c a => new (dstralloc c a)
    | Dup s a => new (dstrxdup s a)
    | Reserve n a => dstreserve p n a
    | Resize n a => dstresize p n a
    | Shrink n => dstrshrink p n
    | Append s a => dstrxcat p s a
    | Copy s a => dstrxcpy p s a
    | Format fmt r1 r2 a1 a2 => dstrvcatf p fmt r1 r2 a1 a2
    | Escape shell s a1 a2 => dstrnescat l shell p s a1 a2
    end.

  (** Calls that make sense: new strings go to new variables, appending needs a
      string, shrinking does not grow, and formatting twice gives the same text.
      Strings stay below 2^60 bytes. *)
  Definition allowed (o : op) (c : option (list byte)) : Prop :=
    let size := nlen (match c with Some s => s | None => [] end) in
    match o with
    | Alloc n _ => c = None /\ n <= 2 ^ 60
    | Dup s _ => c = None /\ nlen s <= 2 ^ 60
    | Reserve n _ | Resize n _ => n <= 2 ^ 60
    | Shrink n => c <> None /\ n <= size
    | Append s _ => c <> None /\ size + nlen s <= 2 ^ 60
    | Copy s _ => nlen s <= 2 ^ 60
    | Format fmt r1 r2 _ _ =>
        c <> None /\ size + 2 * fmt <= 2 ^ 60 /\
        match r1 with
        | Failed _ => True
        | Text t => size + nlen t <= 2 ^ 60 /\ match r2 with Text t' => t' = t | Failed _ => True end
        end
    | Escape _ s _ _ => size + 4 * nlen s + 3 <= 2 ^ 60
    end.

  (** What successful operations do to the contents *)
  Definition effect (o : op) (before : option (list byte)) (after : list byte) : Prop :=
    let s := match before with Some s => s | None => [] end in
    match o with
    | Alloc _ _ => after = []
    | Dup t _ => after = t
    | Reserve _ _ => after = s
    | Resize n _ => nlen after = n /\ let k := N.to_nat (N.min n (nlen s)) in firstn k after = firstn k s
    | Shrink n => after = firstn (N.to_nat n) s
    | Append t _ => after = s ++ t
    | Copy t _ => after = t
    | Format _ r1 _ _ _ => exists t, r1 = Text t /\ after = s ++ t
    | Escape shell t _ _ =>
        exists q sp, wordnesc l shell ([], 4 * length t + 4)%nat t = (q, S sp) /\ after = s ++ q
    end.

  (** Every state of a variable *)
  Inductive history : option dstring -> Prop :=
  | declared : history None
  | ran o p p' ok :
      history p -> allowed o (option_map contents p) -> run o p = Some (p', ok) -> history p'.
End Effects.

(** Appending several strings; those for which there is no memory are skipped. *)
Fixpoint append_all (l : list (list byte * answer)) (p : option dstring) : option (option dstring) :=
  match l with
  | [] => Some p
  | (t, a) :: l => match dstrxcat p t a with
                   | None => None
                   | Some (p, _) => append_all l p
                   end
  end.
Fixpoint total (l : list (list byte * answer)) : N :=
  match l with [] => 0 | (t, _) :: l => nlen t + total l end.
Definition granted (x : list byte * answer) : bool := match snd x with Some _ => true | None => false end.
