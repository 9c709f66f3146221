(** * C67: -ls and -fls *)
From Coq Require Import String List NArith ZArith Bool.
From Coq Require Import Init.Byte Strings.Byte.
From Verif Require Import FlsModel FlsSpec FlsProofs.
Import ListNotations.

Section C67.
  Variable posixly_correct : bool.
  Variable now : Z.
  Variable xstrwidth : list byte -> nat.
  Variables getpwuid getgrgid : N -> option (list byte).
  Variables major minor : N -> N.
  Variable tm : Type.
  Variable localtime : Z -> option tm.
  Variable strftime : format -> tm -> list byte.
  Notation eval_fls := (eval_fls posixly_correct now xstrwidth getpwuid getgrgid major minor tm localtime strftime).
  Notation listed := (listed posixly_correct now getpwuid getgrgid major minor tm localtime strftime).
  Notation run := (run posixly_correct now xstrwidth getpwuid getgrgid major minor tm localtime strftime).
  Hypothesis users : forall id s, getpwuid id = Some s -> is_name s.
  Hypothesis groups : forall id s, getgrgid id = Some s -> is_name s.

  (** C67: one line is printed, from which everything can be read back.  Missing:
      links that cannot be read. *)
  Theorem C67_line_partial : forall f st, (blocks f < 2 ^ 54)%N -> readable f -> exists line st', eval_fls (Some f) st = (true, st') /\
    out st' = out st ++ line ++ [x0a] /\ errors st' = errors st /\ listed f line.
  Proof. exact (one_ok posixly_correct now xstrwidth getpwuid getgrgid major minor tm localtime strftime users groups). Qed.

  (** C67: if there is no information about a file, there is an error and no line. *)
  Theorem C67_error : forall st, exists st', eval_fls None st = (true, st') /\ out st' = out st /\ errors st' = S (errors st).
  Proof. exact (failed_ok posixly_correct now xstrwidth getpwuid getgrgid major minor tm localtime strftime). Qed.

  (** C67: the lines are those for the files, in order, if there are no newlines in
      names. *)
  Theorem C67_lines_partial : forall fs st, Forall (fun f => (blocks f < 2 ^ 54)%N /\ readable f /\ one_line tm strftime f) (found fs) ->
    exists ls, out (run fs st) = out st ++ lines ls /\ Forall2 listed (found fs) ls /\ Forall (fun l => ~ In x0a l) ls.
  Proof. exact (run_lines posixly_correct now xstrwidth getpwuid getgrgid major minor tm localtime strftime users groups). Qed.

  (** C67: the columns for users and groups are as wide as the widest one so far. *)
  Theorem C67_columns : forall fs f, Forall (fun f => (blocks f < 2 ^ 54)%N) (found (fs ++ [Some f])) ->
    exists a p q b, out (run (fs ++ [Some f]) init) =
      out (run fs init) ++ a ++ " "%byte :: text_of getpwuid (uid f) ++ blanks p ++ " "%byte :: text_of getgrgid (gid f) ++ blanks q ++ " "%byte :: b /\
      width_of xstrwidth getpwuid (uid f) + p = widest xstrwidth getpwuid (map uid (found (fs ++ [Some f]))) /\
      width_of xstrwidth getgrgid (gid f) + q = widest xstrwidth getgrgid (map gid (found (fs ++ [Some f]))).
  Proof. exact (columns_ok posixly_correct now xstrwidth getpwuid getgrgid major minor tm localtime strftime users groups). Qed.
End C67.
Print Assumptions C67_line_partial.
Print Assumptions C67_error.
Print Assumptions C67_lines_partial.
Print Assumptions C67_columns.

(** C67: after a link that cannot be read, the next file is not on a line of its
    own. *)
Theorem C67_unreadable_refuted : exists fs, Forall (one_line unit no_date) (found fs) /\
  forall ls, Forall (fun l => ~ In x0a l) ls ->
    out (run false 0 (@length byte) (fun _ => None) (fun _ => None) (fun _ => 0%N) (fun _ => 0%N) unit (fun _ => Some tt) no_date fs init) = lines ls ->
    length ls <> length (found fs).
Proof. exact link_refuted. Qed.
Print Assumptions C67_unreadable_refuted.

Module Examples.
  Definition pw (id : N) : option (list byte) := if (id =? 0)%N then Some (str "root") else if (id =? 5)%N then Some (str "longusername") else None.
  Lemma pw_names : forall id s, pw id = Some s -> is_name s.
  Proof.
    intros id s. unfold pw. destruct (id =? 0)%N; [|destruct (id =? 5)%N]; [intros [= <-]|intros [= <-]|discriminate];
      (split; [discriminate|]); split; cbn; intuition discriminate.
  Qed.
  Definition time (fmt : format) (d : unit) : list byte := match fmt with With_year => str "Jan  1  1970" | With_time => str "Nov 15 12:00" end.
  Definition link : file := mkFile (str "./a") Lnk 1234567 3 0xa1ff 1 0 1000 5 0 1000 true (Some (str "b c")).
  Definition disk : file := mkFile (str "./sda") Blk 12 0 0x61b0 1 5 0 0 0x801 99999999 false None.
  Definition maj (d : N) : N := (d / 256)%N.
  Definition min (d : N) : N := (d mod 256)%N.
  Example printed : out (run false 100000000 (@length byte) pw pw maj min unit (fun _ => Some tt) time [Some link; None; Some disk] init) =
    str "  1234567      2 lrwxrwxrwx+  1 root     1000            5 Jan  1  1970 ./a -> b c" ++ [x0a] ++
    str "       12      0 brw-rw----   1 longusername root       8,   1 Nov 15 12:00 ./sda" ++ [x0a].
  Proof. vm_compute. reflexivity. Qed.
  Example meets : Forall (fun f => (blocks f < 2 ^ 54)%N /\ readable f /\ one_line unit time f) (found [Some link; None; Some disk]).
  Proof.
    repeat constructor; try discriminate; try (intros H; vm_compute in H; intuition discriminate).
    - intros t [= <-] H. vm_compute in H. intuition discriminate.
    - intros [] d H; vm_compute in H; intuition discriminate.
    - intros [] d H; vm_compute in H; intuition discriminate.
  Qed.
  Example glued : out (run false 0 (@length byte) (fun _ => None) (fun _ => None) (fun _ => 0%N) (fun _ => 0%N) unit (fun _ => Some tt) no_date [Some bad_link; Some good] init) =
    str "        1      0 lrwxrwxrwx   1 0        0               0 Jan  1  1970 /proc/1/exe        2      0 dr-x------ " ++
    str "  2 0        0               0 Jan  1  1970 /proc/1/fd" ++ [x0a].
  Proof. vm_compute. reflexivity. Qed.
End Examples.
