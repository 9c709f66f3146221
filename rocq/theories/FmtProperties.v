(** * C69: Formatted messages *)
From Coq Require Import String List Arith NArith ZArith Bool.
From Coq Require Import Init.Byte Strings.Byte.
From Verif Require FlsProofs.
From Verif Require Import QuoteModel QuoteSpec ColModel ColSpec FmtModel FmtSpec FmtProofs.
Import ListNotations.

(** A format is accepted if and only if it consists of the pieces above and the values fit them, and then
    what is printed is exactly what the pieces say. *)
Theorem C69_format : forall l cs vs on f out on', Forall fine vs ->
  (cvfprintf l cs f vs on = Printed (mkCfile out on') <->
   exists ps ms, Forall proper_piece ps /\ f = concat (map written ps) /\ says ps vs ms /\ looks l cs on ms out on').
Proof. exact format_ok. Qed.
Print Assumptions C69_format.

(** Colors add escape sequences and change nothing else. *)
Theorem C69_same : forall l t on ms out on', no_shown ms -> drawn l t on ms out on' ->
  exists parts : list (bool * list byte), out = concat (map snd parts) /\ plain l ms = concat (map snd (filter fst parts)) /\
    forall s, In (false, s) parts -> s = seq (endcode (base t)) \/ exists n e, names t n = Some (Some e) /\ s = sequence (base t) e.
Proof. exact same_ok. Qed.
Print Assumptions C69_same.

(** A message that resets its colors leaves none on, whatever files are shown in it. *)
Theorem C69_reset : forall l t ms out on', closed ms -> drawn l t false ms out on' -> on' = false.
Proof. exact reset_ok. Qed.
Print Assumptions C69_reset.

(** Control characters do not come from quoted arguments, but only from the colors, the format, and texts that are
    printed as they are. *)
Theorem C69_safe : forall l cs on ms out on' b, quote_alone l -> no_shown ms -> control l b -> looks l cs on ms out on' -> In b out ->
  (exists s, In (Lit s) ms /\ In b s) \/ exists t, cs = Some t /\ in_theme t b.
Proof. exact safe_ok. Qed.
Print Assumptions C69_safe.

(** A shell reads the arguments of an expression as they were. *)
Theorem C69_args : forall l e on, good_locale l -> sound e -> Forall (fun a => ~ In x00 a) (argv_of e) ->
  exists line, cvfprintf l None (str "%px") [VExpr (Some e)] on = Printed (mkCfile line on) /\ shell_line line (argv_of e).
Proof. exact args_line. Qed.
Print Assumptions C69_args.

(** Numbers are printed in decimal. *)
Theorem C69_numbers : forall l cs on,
  (forall n, exists s, cvfprintf l cs (str "%zu") [VSize n] on = Printed (mkCfile s on) /\ decimal n s) /\
  (forall n, exists s, cvfprintf l cs (str "%d") [VInt n] on = Printed (mkCfile s on) /\ signed_decimal n s).
Proof. exact numbers. Qed.
Print Assumptions C69_numbers.

Module Examples.
  Definition esc (n : nat) (s : string) : esc_seq := mkEsc n (str s).
  Definition no : option esc_seq := None.
  Definition cs : colors :=
    {| reset := Some (esc 1 "0"); leftcode := esc 2 "<"; rightcode := esc 3 ">"; endcode := esc 4 "</>";
       normal := no; file := no; multi_hard := no; executable := no; capable := no; setgid := no; setuid := no; directory := no;
       sticky := no; other_writable := no; sticky_other_writable := no; link := no; orphan := no; missing := no; blockdev := no;
       chardev := no; pipe := no; socket := no; link_as_target := false; get_ext := fun _ => no |}.
  Definition t : theme := mkTheme cs (fun n =>
    if equal n (str "bld") then Some (Some (esc 5 "1")) else if equal n (str "ylw") then Some (Some (esc 6 "33"))
    else if equal n (str "cyn") || equal n (str "blu") || equal n (str "red") then Some (Some (esc 7 "36")) else if equal n (str "er") then Some None else None).
  Definition e : expr := Expr BFS_OPERATOR [str "-and"] 3 4 (str "75") (str "12")
    [Expr BFS_OTHER [str "-name"; str "a b"] 0 0 [] [] [Expr BFS_FLAG [str "-L"] 0 0 [] [] []]; Expr BFS_OTHER [str "-print"] 0 0 [] [] []; Expr BFS_FLAG [str "-x"] 0 0 [] [] []].
  Ltac sounds := repeat (apply so; [discriminate|repeat apply Forall_cons; try apply Forall_nil]).
  Lemma e_sound : sound e.
  Proof. unfold e. sounds. Qed.

  (** The prefix of debugging messages (src/diag.c 139-146), with a name to quote behind it *)
  Definition f : list byte := str "${bld}%s:${rs} ${cyn}-D %s${rs}: 100%% %pq, ${er}%d".
  Definition vs : list value := [VStr (str "bfs"); VStr (str "search"); VStr (str "a b" ++ [x1b]); VInt (-3)].
  Example with_colors : cvfprintf c_locale (Some t) f vs false =
    Printed (mkCfile (str "<1>bfs:</> <36>-D search</>: 100% $'a b\e', -3") false).
  Proof. vm_compute. reflexivity. Qed.
  Example without : cvfprintf c_locale None f vs false = Printed (mkCfile (str "bfs: -D search: 100% $'a b\e', -3") false).
  Proof. vm_compute. reflexivity. Qed.
  Example its_tree : cvfprintf c_locale None (str "%pE") [VExpr (Some e)] false =
    Printed (mkCfile (str "(-and [3/4=75%; 12ns] (-name ""a b"" [0/0=%; ns] (...)) (-print [0/0=%; ns]) ...)") false).
  Proof. vm_compute. reflexivity. Qed.
  Example wrong : cvfprintf c_locale None (str "100% sure") [] false = Invalid.
  Proof. vm_compute. reflexivity. Qed.
  Example unknown_color : cvfprintf c_locale (Some t) (str "${abc}") [] false = Invalid.
  Proof. vm_compute. reflexivity. Qed.

  Example hypotheses_format : Forall fine [VExpr (Some e); VExpr None].
  Proof. constructor; [exact e_sound|]. constructor; [exact I|constructor]. Qed.

  (** What C69_same, C69_reset and C69_safe are about *)
  Definition ms : list mark := [Lit (str "x "); Hue (str "bld"); Word true (str "a" ++ [x1b]); End; Lit (str ".")].
  Lemma drawn_ms : drawn c_locale t false ms (str "x <1>$'a\e'</>.") false.
  Proof.
    change (str "x <1>$'a\e'</>.") with (str "x " ++ sequence cs (esc 5 "1") ++ quoted_as c_locale true (str "a" ++ [x1b]) ++ seq (endcode cs) ++ str "." ++ []).
    apply d_lit. apply (d_hue _ t false (str "bld") (esc 5 "1")); [repeat constructor|reflexivity|]. apply d_word. apply d_end. apply d_lit. apply d_nil.
  Qed.
  Example hypotheses_same : no_shown ms /\ closed ms /\ drawn c_locale t false ms (str "x <1>$'a\e'</>.") false.
  Proof.
    split; [|split; [|exact drawn_ms]].
    - intros c g I. cbn [ms In] in I. repeat (destruct I as [I|I]; [discriminate I|]). destruct I.
    - cbn [ms closed]. split; [|exact I]. right. left. reflexivity.
  Qed.
  Example hypotheses_safe : quote_alone c_locale /\ control c_locale x1b.
  Proof.
    split.
    - intros mb s n c mb'. destruct s as [|x s]; [discriminate|]. intros [= <- _ _] _. reflexivity.
    - split; [vm_compute; intuition congruence|]. split; [reflexivity|]. split; [reflexivity|].
      intros mb s n c mb'. destruct s as [|x s]; [discriminate|]. intros [= <- <- _] P [E|[]]. subst x. vm_compute in P. intuition discriminate.
  Qed.
  Example hypotheses_args : good_locale c_locale /\ sound e /\ Forall (fun a => ~ In x00 a) (argv_of e).
  Proof.
    split; [|split; [exact e_sound|]].
    - split; [|split; [|split; reflexivity]].
      + intros mb s n c mb' _. destruct s as [|x s]; [discriminate|]. intros [= <- _ _]. cbn [length]. auto with arith.
      + intros mb s n c mb'. destruct s as [|x s]; [discriminate|]. intros [= <- <- _] P. cbn [firstn In].
        split; intros [E|[]]; subst x; discriminate P.
    - constructor; [|constructor]. vm_compute. intuition discriminate.
  Qed.
  Example args_read : cvfprintf c_locale None (str "%px") [VExpr (Some (Expr BFS_OTHER [str "-exec"; str "echo"; str "{}"; str ";"; str "it's"; []] 0 0 [] [] []))] false =
    Printed (mkCfile (str "-exec echo ""{}"" "";"" ""it's"" """"") false).
  Proof. vm_compute. reflexivity. Qed.
  Example large : cvfprintf c_locale None (str "%zu %d") [VSize (2 ^ 64 - 1); VInt (- 2 ^ 31)] false = Printed (mkCfile (str "18446744073709551615 -2147483648") false).
  Proof. vm_compute. reflexivity. Qed.
End Examples.
