(** * Properties of colored paths *)
From Coq Require Import List Arith NArith Bool Init.Byte Strings.Byte Lia.
From Verif Require Import PathModel QuoteModel QuoteSpec StatModel ColModel ColSpec ColProofs.
Import ListNotations.
Local Open Scope nat_scope.

(** A path is printed in two parts if the file exists, else in up to three: the directories, the name of the last
    file that exists, and the rest.  There is no undefined behaviour, and the colors are reset at the end. *)
Theorem C46_path : forall l cs, apart cs -> forall out f, proper f -> let fl := as_shown cs f in
  exists dirs name tail color,
    print_path l (Some cs) (mkCfile out false) f = Some (mkCfile (out ++ painted l cs dirs name tail color) false) /\
    (there cs f (type_of f fl) (stat_of f fl) (nameoff f) (path f) dirs name tail color \/
     depth f = 0 /\ not_there cs (type_of f fl) (stat_cwd f) (path f) dirs name tail color \/
     0 < depth f /\ found f (type_of f fl) (path f) dirs name tail).
Proof. exact path_ok. Qed.
Print Assumptions C46_path.

(** So is the target of a link, which is looked up from the directory of the link. *)
Theorem C46_link_target : forall l cs, apart cs -> forall out f r p, target f = Some p -> from_link f r ->
  exists dirs name tail color,
    print_link_target l (Some cs) (mkCfile out false) f = Some (mkCfile (out ++ painted l cs dirs name tail color) false) /\
    (there cs f (type_of f BFS_STAT_FOLLOW) (stat_of f BFS_STAT_FOLLOW) (xbaseoff p) p dirs name tail color \/
     not_there cs (type_of f BFS_STAT_FOLLOW) r p dirs name tail color).
Proof. exact target_ok. Qed.
Print Assumptions C46_link_target.

(** A name has the color of its file. *)
Theorem C46_name : forall l cs, apart cs -> forall out f, let fl := as_shown cs f in let name := skipn (nameoff f) (path f) in
  print_name l (Some cs) (mkCfile out false) f =
  Some (mkCfile (out ++ segment l cs (wanted cs (type_of f fl) (stat_of f fl) (capabilities f) (broken f) name) name) false).
Proof. exact name_ok. Qed.
Print Assumptions C46_name.

(** No control character gets from a file name to the terminal. *)
Theorem C46_path_safe : forall l cs, apart cs -> forall out f c o, proper f -> control l c ->
  print_path l (Some cs) (mkCfile out false) f = Some o ->
  exists new, buffer o = out ++ new /\ (In c new -> in_colors cs c).
Proof. exact path_safe. Qed.
Print Assumptions C46_path_safe.

Theorem C46_link_target_safe : forall l cs, apart cs -> forall out f r p c o, target f = Some p -> from_link f r -> control l c ->
  print_link_target l (Some cs) (mkCfile out false) f = Some o ->
  exists new, buffer o = out ++ new /\ (In c new -> in_colors cs c).
Proof. exact target_safe. Qed.
Print Assumptions C46_link_target_safe.

(** Texts are made of printable characters and white space, *)
Theorem C46_text_printable : forall l s, printable (relaxed l) (tty l s).
Proof. exact tty_printable. Qed.
Print Assumptions C46_text_printable.

(** and those that are already are left as they are. *)
Theorem C46_text_plain : forall l s, s <> [] ->
  (forall b, In b s -> (Byte.to_N b < 128)%N /\ (isprint l b = true \/ isspace l b = true)) -> tty l s = s.
Proof. exact tty_plain. Qed.
Print Assumptions C46_text_plain.

(** White space includes the carriage return, which moves the cursor (finding F25). *)
Theorem C46_cursor_refuted : exists l s, good_locale l /\ ~ In x1b (tty l s) /\ In x0d (tty l s).
Proof. exact carriage_return. Qed.
Print Assumptions C46_cursor_refuted.

Module Examples.
  Definition esc (n : nat) (s : list byte) : option esc_seq := Some (mkEsc n s).
  (** left = <, right = >, end = !; directories d, links l, orphans o, executables x, files with extension .c in c *)
  Definition cs : colors :=
    mkColors (esc 1 [x30]) (mkEsc 2 [x3c]) (mkEsc 3 [x3e]) (mkEsc 4 [x21]) None
      None None (esc 5 [x78]) None None None (esc 6 [x64]) None None (esc 7 [x74])
      (esc 8 [x6c]) (esc 9 [x6f]) None false None None None None
      (fun name => match rev name with a :: b :: _ => if Byte.eqb a x63 && Byte.eqb b x2e then esc 10 [x63] else None | _ => None end).
  Example cs_apart : apart cs.
  Proof.
    intros x e H [(name & P)|P].
    - injection H as <-. cbn in P. destruct (rev name) as [|a [|b t]]; try discriminate P. destruct (_ && _); [|discriminate P]. injection P as <-. discriminate.
    - injection H as <-. cbn in P. repeat (destruct P as [P|P]; [try discriminate P; injection P as <-; discriminate|]). destruct P.
  Qed.
  (** A root or a file in a directory; "a" is a directory, "a/b.c" a file, nothing else exists. *)
  Definition world (q : list byte) : option cstat :=
    match q with
    | [x61] | [x61; x2f] => Some (mkCstat 16877 2)
    | [x61; x2f; x62; x2e; x63] => Some (mkCstat 33188 1)
    | _ => None
    end.
  Definition at_path (p : list byte) (d off : nat) : ftwbuf :=
    let t := match world p with Some s => bfs_mode_to_type (mode s) | None => BFS_ERROR end in
    mkFtw p off d true t BFS_STAT_NOFOLLOW (fun _ => t) (fun _ => world p) false true world (fun _ => None) (Some [x62; x2e; x63; x2f; x7a]).
  Definition shown (p : list byte) (d off : nat) : option (list byte) :=
    match print_path c_locale (Some cs) (mkCfile [] false) (at_path p d off) with Some o => Some (buffer o) | None => None end.

  Definition a_b_c := [x61; x2f; x62; x2e; x63].
  Example root_proper : proper (at_path a_b_c 0 2). Proof. left. split; reflexivity. Qed.
  Example file_proper : proper (at_path a_b_c 1 2).
  Proof. right. split; [cbn; lia|]. exists [x61], [x62; x2e; x63]. cbn. repeat split; try discriminate. intros [H|[H|[H|[]]]]; discriminate. Qed.
  (** <d>a/!<c>b.c! *)
  Example existing : shown a_b_c 1 2 = Some ([x3c; x64; x3e; x61; x2f; x21] ++ [x3c; x63; x3e; x62; x2e; x63; x21]).
  Proof. reflexivity. Qed.
  (** a/b.c/z, as a root: <d>a/!<c>b.c!<o>/z! *)
  Example below_a_file : shown (a_b_c ++ [x2f; x7a]) 0 6 =
    Some ([x3c; x64; x3e; x61; x2f; x21] ++ [x3c; x63; x3e; x62; x2e; x63; x21] ++ [x3c; x6f; x3e; x2f; x7a; x21]).
  Proof. reflexivity. Qed.
  (** a/z, as a root or as something found in a: <d>a/!<o>z! *)
  Example gone : shown [x61; x2f; x7a] 0 2 = Some ([x3c; x64; x3e; x61; x2f; x21] ++ [x3c; x6f; x3e; x7a; x21]) /\ shown [x61; x2f; x7a] 1 2 = shown [x61; x2f; x7a] 0 2.
  Proof. split; reflexivity. Qed.
  (** z/z: only <o>z/z! *)
  Example nothing : shown [x7a; x2f; x7a] 0 2 = Some [x3c; x6f; x3e; x7a; x2f; x7a; x21]. Proof. reflexivity. Qed.
  (** The target b.c/z of a link in a: <c>b.c!<o>/z! *)
  Definition a_link : ftwbuf :=
    mkFtw [x61; x2f; x79] 2 1 true BFS_LNK BFS_STAT_NOFOLLOW (fun fl => match fl with BFS_STAT_FOLLOW => BFS_ERROR | _ => BFS_LNK end)
      (fun _ => None) false false world (fun _ => None) (Some [x62; x2e; x63; x2f; x7a]).
  Example link_from : from_link a_link (fun q => match q with b :: _ => if is_slash b then None else world ([x61; x2f] ++ q) | [] => None end).
  Proof.
    split; [|split; [discriminate|]].
    - intros [|b q] H; [reflexivity|]. unfold at_ in H. cbn in H |- *. rewrite H. reflexivity.
    - intros _ [|b q] Ne H; [congruence|]. unfold at_ in H. cbn [nth] in H. rewrite H. reflexivity.
  Qed.
  Example link_target : print_link_target c_locale (Some cs) (mkCfile [] false) a_link =
    Some (mkCfile ([x3c; x63; x3e; x62; x2e; x63; x21] ++ [x3c; x6f; x3e; x2f; x7a; x21]) false).
  Proof. reflexivity. Qed.
  (** An escape character in a name *)
  Example escape : control c_locale x1b /\ tty c_locale [x61; x1b] = [x24; x27; x61; x5c; x65; x27].
  Proof.
    split; [|reflexivity]. split; [cbn; lia|]. split; [reflexivity|]. split; [reflexivity|]. intros mb s n c mb' D P.
    destruct s as [|b s]; [discriminate D|]. injection D as <- <- _. cbn. intros [->|[]]. destruct P; discriminate.
  Qed.
  Example spaces : tty c_locale [x61; x20; x62] = [x61; x20; x62]. Proof. reflexivity. Qed.
End Examples.
