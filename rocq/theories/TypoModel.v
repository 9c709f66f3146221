(** * Model of src/typo.c: the distance behind "did you mean" *)
From Coq Require Import List ZArith Bool.
From Coq Require Import Init.Byte Strings.Byte.
Import ListNotations.
Local Open Scope Z_scope.

(** src/typo.c 12-114, key_coords: character code and coordinates of every
    entry of the table.  The other elements of the array are zero. *)
Definition key_table : list (N * (Z * Z * Z)) :=
  [(96%N, (0, 0, 0)); (126%N, (0, 0, 1)); (49%N, (3, 0, 0)); (33%N, (3, 0, 1)); (50%N, (6, 0, 0));
   (64%N, (6, 0, 1)); (51%N, (9, 0, 0)); (35%N, (9, 0, 1)); (52%N, (12, 0, 0)); (36%N, (12, 0, 1));
   (53%N, (15, 0, 0)); (37%N, (15, 0, 1)); (54%N, (18, 0, 0)); (94%N, (18, 0, 1)); (55%N, (21, 0, 0));
   (38%N, (21, 0, 1)); (56%N, (24, 0, 0)); (42%N, (24, 0, 1)); (57%N, (27, 0, 0)); (40%N, (27, 0, 1));
   (48%N, (30, 0, 0)); (41%N, (30, 0, 1)); (45%N, (33, 0, 0)); (95%N, (33, 0, 1)); (61%N, (36, 0, 0));
   (43%N, (36, 0, 1)); (9%N, (1, 3, 0)); (113%N, (4, 3, 0)); (81%N, (4, 3, 1)); (119%N, (7, 3, 0));
   (87%N, (7, 3, 1)); (101%N, (10, 3, 0)); (69%N, (10, 3, 1)); (114%N, (13, 3, 0)); (82%N, (13, 3, 1));
   (116%N, (16, 3, 0)); (84%N, (16, 3, 1)); (121%N, (19, 3, 0)); (89%N, (19, 3, 1)); (117%N, (22, 3, 0));
   (85%N, (22, 3, 1)); (105%N, (25, 3, 0)); (73%N, (25, 3, 1)); (111%N, (28, 3, 0)); (79%N, (28, 3, 1));
   (112%N, (31, 3, 0)); (80%N, (31, 3, 1)); (91%N, (34, 3, 0)); (123%N, (34, 3, 1)); (93%N, (37, 3, 0));
   (125%N, (37, 3, 1)); (92%N, (40, 3, 0)); (124%N, (40, 3, 1)); (97%N, (5, 6, 0)); (65%N, (5, 6, 1));
   (115%N, (8, 6, 0)); (83%N, (8, 6, 1)); (100%N, (11, 6, 0)); (68%N, (11, 6, 1)); (102%N, (14, 6, 0));
   (70%N, (14, 6, 1)); (103%N, (17, 6, 0)); (71%N, (17, 6, 1)); (104%N, (20, 6, 0)); (72%N, (20, 6, 1));
   (106%N, (23, 6, 0)); (74%N, (23, 6, 1)); (107%N, (26, 6, 0)); (75%N, (26, 6, 1)); (108%N, (29, 6, 0));
   (76%N, (29, 6, 1)); (59%N, (32, 6, 0)); (58%N, (32, 6, 1)); (39%N, (35, 6, 0)); (34%N, (35, 6, 1));
   (10%N, (38, 6, 0)); (122%N, (6, 9, 0)); (90%N, (6, 9, 1)); (120%N, (9, 9, 0)); (88%N, (9, 9, 1));
   (99%N, (12, 9, 0)); (67%N, (12, 9, 1)); (118%N, (15, 9, 0)); (86%N, (15, 9, 1)); (98%N, (18, 9, 0));
   (66%N, (18, 9, 1)); (110%N, (21, 9, 0)); (78%N, (21, 9, 1)); (109%N, (24, 9, 0)); (77%N, (24, 9, 1));
   (44%N, (27, 9, 0)); (60%N, (27, 9, 1)); (46%N, (30, 9, 0)); (62%N, (30, 9, 1)); (47%N, (33, 9, 0));
   (63%N, (33, 9, 1)); (32%N, (18, 12, 0))].

Fixpoint lookup (c : N) (t : list (N * (Z * Z * Z))) : Z * Z * Z :=
  match t with
  | [] => (0, 0, 0)
  | (k, v) :: t' => if N.eqb k c then v else lookup c t'
  end.

Definition key_coords (c : byte) : Z * Z * Z := lookup (Byte.to_N c) key_table.

(** src/typo.c 116-123, char_distance *)
Definition char_distance (a b : byte) : Z :=
  let '(ax, ay, az) := key_coords a in
  let '(bx, by_, bz) := key_coords b in
  Z.abs (ax - bx) + Z.abs (ay - by_) + Z.abs (az - bz).

(** A result of int arithmetic; [None] is signed overflow, undefined in C. *)
Definition int_ (z : Z) : option Z :=
  if (- 2 ^ 31 <=? z) && (z <? 2 ^ 31) then Some z else None.

(** src/typo.c 129, insert_cost *)
Definition insert_cost : Z := 12.

(** src/typo.c 137-139: the first row.  [insert_cost * j] is computed in
    size_t and converted to int, which we treat as undefined if it does not fit. *)
Fixpoint first_row (j : Z) (expected : list byte) : option (list Z) :=
  match int_ (insert_cost * j) with
  | None => None
  | Some c =>
      match expected with
      | [] => Some [c]
      | _ :: e =>
          match first_row (j + 1) e with
          | None => None
          | Some r => Some (c :: r)
          end
      end
  end.

(** src/typo.c 146-158: columns j, j+1, ... of row1, where [diag] is
    row0[j - 1], [left] is row1[j - 1], and [ups] is row0[j], row0[j + 1], ... *)
Fixpoint fill_row (a : byte) (diag left : Z) (ups : list Z) (expected : list byte) : option (list Z) :=
  match expected, ups with
  | b :: e, up :: ups' =>
      match int_ (diag + char_distance a b), int_ (up + insert_cost), int_ (left + insert_cost) with
      | Some sub, Some del, Some ins =>
          let cost := if del <? sub then del else sub in
          let cost := if ins <? cost then ins else cost in
          match fill_row a up cost ups' e with
          | None => None
          | Some r => Some (cost :: r)
          end
      | _, _, _ => None
      end
  | _, _ => Some []
  end.

(** src/typo.c 141-163: one iteration per character of [actual] *)
Fixpoint rows (actual expected : list byte) (row0 : list Z) : option (list Z) :=
  match actual with
  | [] => Some row0
  | a :: actual' =>
      match row0 with
      | [] => None
      | d :: ups =>
          match int_ (d + insert_cost) with
          | None => None
          | Some l =>
              match fill_row a d l ups expected with
              | None => None
              | Some r => rows actual' expected (l :: r)
              end
          end
      end
  end.

(** src/typo.c 125-166, typo_distance.  Strings are lists of bytes without
    the terminator; the size of the two rows (on the stack) is not bounded. *)
Definition typo_distance (actual expected : list byte) : option Z :=
  match first_row 0 expected with
  | None => None
  | Some r =>
      match rows actual expected r with
      | None => None
      | Some r => Some (last r 0)
      end
  end.
