(** * What -unique means for a whole search *)
From Coq Require Import List Bool Arith NArith ZArith.
From Verif Require Import BftwModel BftwSpec DeepenSpec SearchModel CbSpec UniqModel.
From Verif Require CbModel.
Import ListNotations.

(** Which file a position is (hard links, and with -L symbolic links and what is below them, are the same file) *)
Definition identities (answers : pos -> CbModel.world) (ident : pos -> N * N) : Prop :=
  forall p, CbModel.stat (answers p) = Some (ident p) /\ (fst (ident p) < 2 ^ 64 /\ snd (ident p) < 2 ^ 64)%N /\
    TrieModel.a_leaf (CbModel.mem (answers p)) = true /\ (forall n, TrieModel.a_jump (CbModel.mem (answers p)) n = true) /\
    TrieModel.a_node (CbModel.mem (answers p)) = true.

(** A search with -unique, and with -depth if [fl_post_order] is set *)
Record unique_search (st : strategy) (w : env args) (omax : nat) (c : CbModel.ctx) (answers : pos -> CbModel.world)
    (ident : pos -> N * N) (type_at : pos -> ftype) : Prop := {
  u_callback : callback w = unique_callback omax c answers;
  u_omax : 1 <= omax;
  u_unique : CbModel.unique c = true;
  u_post : CbModel.post_order c = fl_post_order w;
  u_ids : CbModel.ids c = is_ids st;
  u_ident : identities answers ident;
  u_named : named w;
  u_still : forall n p, look w n p = type_at p;
  (** For -S ids and -S eds, all files can be examined and have different paths (see C12). *)
  u_strategy : match st with
               | SBfs | SDfs => True
               | _ => (forall p, node_at w p <> None -> type_at p <> BFS_ERROR) /\ distinct w
               end
}.

(** The expression is evaluated for every file: nothing is excluded, and there are no limits. *)
Definition unlimited (c : CbModel.ctx) (answers : pos -> CbModel.world) (w : env args) : Prop :=
  CbModel.xargs_safe c = false /\ CbModel.mindepth c = 0%Z /\ (CbModel.maxdepth c = 2 ^ 31 - 1)%Z /\
  (forall p, CbModel.exclude (answers p) CbModel.Continue = (false, CbModel.Continue)) /\
  (forall p, node_at w p <> None -> (Z.of_nat (length p) <= 2 ^ 31)%Z).
