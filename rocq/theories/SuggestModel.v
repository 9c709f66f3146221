(** * Unknown primaries: src/parse.c 3256-3270 and 3299-3329 *)
From Coq Require Import List ZArith Bool.
From Coq Require Import Init.Byte Strings.Byte.
From Verif Require Import TypoModel GramModel.
Import ListNotations.
Local Open Scope Z_scope.

Definition INT_MAX : Z := 2 ^ 31 - 1.

(** 3260-3267.  The outer [None] is an overflow in typo_distance(). *)
Fixpoint fuzzy_loop (a : arg) (table : list entry) (best : option entry) (best_dist : Z) : option (option entry) :=
  match table with
  | [] => Some best
  | entry :: table =>
      match typo_distance a (e_arg entry) with
      | None => None
      | Some dist =>
          if (match best with None => true | Some _ => false end || (dist <? best_dist))%bool
          then fuzzy_loop a table (Some entry) dist
          else fuzzy_loop a table best best_dist
      end
  end.
Definition table_lookup_fuzzy (a : arg) : option (option entry) := fuzzy_loop a parse_table None INT_MAX.

(** 3283-3329: the primary is parsed with an entry, is a group of flags, or is rejected; [Suggested] if a word was suggested.  [yes] is the answer to the
    question, which is asked only of interactive users.  [None] is undefined behaviour. *)
Inductive decision := Parse (suggested : option arg) (e : entry) | Group | Unmatched (suggested : arg) | Unexpected.
Definition decide (interactive yes : bool) (a : arg) : option decision :=
  match a with
  | "-"%byte :: _ =>
      match table_lookup a with
      | Some e => Some (match e_parse e with Some _ => Parse None e | None => Unexpected end)
      | None =>
          if is_flag_group a then Some Group
          else
            match table_lookup_fuzzy a with
            | Some (Some e) =>
                if negb interactive || match e_parse e with Some _ => false | None => true end then Some (Unmatched (e_arg e))
                else if yes then Some (Parse (Some (e_arg e)) e) else Some (Unmatched (e_arg e))
            | _ => None
            end
      end
  | _ => Some Unexpected
  end.
