From Coq Require Import List ZArith Bool String Init.Byte Lia.
From Verif Require Import AttrModel AttrSpec.
Import ListNotations.

Lemma absence_iff e : is_absence_error e = true <-> absence e.
Proof.
  unfold absence. split.
  - destruct e; cbn; intros H; try discriminate; auto.
  - cbn. intros [<-|[<-|[<-|[]]]]; reflexivity.
Qed.
Lemma absence_false e : is_absence_error e = false <-> ~ absence e.
Proof. rewrite <- absence_iff. destruct (is_absence_error e); split; congruence. Qed.

Lemma same_refl w p : same w p p.
Proof. unfold same. auto 10. Qed.

Lemma slash : list_byte_of_string "/" = ["/"%byte].
Proof. reflexivity. Qed.

Lemma fake_at_ok w mem1 mem2 f st p owned st1 : consistent w f -> known w st -> fake_at w mem1 mem2 f st = (p, owned, st1) ->
  same w p (path f) /\ known w st1 /\ live st1 = (if owned then S (live st) else live st).
Proof.
  intros C K. unfold fake_at. destruct (at_fd f) as [fd|] eqn:A.
  2:{ intros E. injection E as <- <- <-. split; [apply same_refl|]. auto. }
  fold proc_self_fd. destruct (Z.eqb_spec (proc_works st) 0) as [Z0|Z0].
  { intros E. injection E as <- <- <-. split; [apply same_refl|]. auto. }
  destruct mem1; cbn [negb].
  2:{ intros E. injection E as <- <- <-. split; [apply same_refl|]. auto. }
  set (d := proc_self_fd ++ printf_d w fd ++ ["/"%byte]). assert (D : d = fd_dir w fd) by reflexivity.
  destruct (Z.ltb_spec (proc_works st) 0) as [N|N].
  - destruct (access w d) eqn:AC; cbn [negb].
    + destruct mem2; cbn [negb]; intros E; injection E as <- <- <-.
      * split; [|split; [intros _; exists fd; exact AC|reflexivity]]. exact (C fd fd AC A).
      * split; [apply same_refl|]. split; [intros _; exists fd; exact AC|reflexivity].
    + intros E. injection E as <- <- <-. split; [apply same_refl|]. split; [intros H; cbn in H; lia|reflexivity].
  - assert (P : (0 < proc_works st)%Z) by lia. destruct (K P) as (fd0 & K0).
    destruct mem2; cbn [negb]; intros E; injection E as <- <- <-.
    + split; [|split; [intros _; exists fd0; exact K0|reflexivity]]. exact (C fd0 fd K0 A).
    + split; [apply same_refl|]. split; [intros _; exists fd0; exact K0|reflexivity].
Qed.

Lemma free_ok (w : system) (owned : bool) (st : shared) (n : nat) : known w st -> live st = (if owned then S n else n) -> known w (free_fake_at owned st) /\ live (free_fake_at owned st) = n.
Proof. intros K L. destruct owned; cbn [free_fake_at]; [split; [exact K|cbn; lia]|auto]. Qed.

(** ** ACLs *)
Definition plain (x : tag) : Prop := In x [USER_OBJ; GROUP_OBJ; OTHER].

Lemma default_entries a ret err : bfs_check_posix1e_acl a false ret err = match a with [] => (ret, err) | _ => (1%Z, err) end.
Proof. destruct a; reflexivity. Qed.

Lemma access_entries a : forall ret err r e, (ret <= 0)%Z -> bfs_check_posix1e_acl a true ret err = (r, e) ->
  (r = 1%Z /\ exists x, In (inl x) a /\ ~ plain x) \/
  ((forall x, In (inl x) a -> plain x) /\ ((r = (-1)%Z /\ In (inr e) a) \/ ((forall x, ~ In (inr x) a) /\ r = ret /\ e = err))).
Proof.
  induction a as [|x a IH]; intros ret err r e R E.
  - cbn in E. injection E as <- <-. right. split; [intros x []|]. right. auto.
  - cbn [bfs_check_posix1e_acl] in E. destruct x as [t|x].
    + assert (P : plain t \/ ~ plain t) by (unfold plain; destruct t; cbn; intuition discriminate).
      destruct P as [P|P].
      * assert (E1 : bfs_check_posix1e_acl a true ret err = (r, e)) by (destruct t; try exact E; exfalso; unfold plain in P; cbn in P; intuition discriminate).
        destruct (IH ret err r e R E1) as [(-> & y & I & N)|(A & B)].
        -- left. split; [reflexivity|]. exists y. split; [right; exact I|exact N].
        -- right. split. { intros y [Y|Y]; [injection Y as <-; exact P|exact (A y Y)]. }
           destruct B as [(-> & I)|(N & -> & ->)]; [left; split; [reflexivity|right; exact I]|]. right. split; [|auto]. intros y [Y|Y]; [discriminate Y|exact (N y Y)].
      * assert (E1 : (1%Z, err) = (r, e)) by (destruct t; try exact E; exfalso; apply P; unfold plain; cbn; auto).
        injection E1 as <- <-. left. split; [reflexivity|]. exists t. split; [left; reflexivity|exact P].
    + destruct (IH (-1)%Z x r e ltac:(lia) E) as [(-> & y & I & N)|(A & B)].
      * left. split; [reflexivity|]. exists y. split; [right; exact I|exact N].
      * right. split. { intros y [Y|Y]; [discriminate Y|exact (A y Y)]. }
        left. destruct B as [(-> & I)|(_ & -> & ->)]; split; try reflexivity; [right; exact I|left; reflexivity].
Qed.

(** What the loop gives, by the path of the file *)
Definition acl_result (w : system) (f : ftwbuf) (p : list byte) : Z * errno := acl_loop w f p [ACL_TYPE_ACCESS; ACL_TYPE_DEFAULT] (-1) ENOTSUP.

Lemma acl_same w f p q : same w p q -> acl_result w f p = acl_result w f q.
Proof. intros (H & _). unfold acl_result. cbn [acl_loop]. rewrite !(H _). reflexivity. Qed.

(** The first type *)
Definition first_result (w : system) (f : ftwbuf) : Z * errno :=
  match acl_get_file w (path f) ACL_TYPE_ACCESS with
  | inr e => (if is_absence_error e then 0 else -1, e)%Z
  | inl a => bfs_check_posix1e_acl a true 0 ENOTSUP
  end.
Definition extended (w : system) (f : ftwbuf) : Prop := exists a x, acl_get_file w (path f) ACL_TYPE_ACCESS = inl a /\ In (inl x) a /\ ~ plain x.
Lemma first_ok w f r e : first_result w f = (r, e) ->
  (r = 1%Z /\ extended w f) \/ (~ extended w f /\ ((r = (-1)%Z /\ access_trouble w f e) \/ (r = 0%Z /\ forall x, ~ access_trouble w f x))).
Proof.
  unfold first_result. destruct (acl_get_file w (path f) ACL_TYPE_ACCESS) as [a|x] eqn:G.
  - intros E. destruct (access_entries a 0%Z ENOTSUP r e (Z.le_refl 0) E) as [(-> & x & I & N)|(A & B)].
    + left. split; [reflexivity|]. exists a, x. auto.
    + right. split. { intros (a' & x & G' & I & N). rewrite G in G'. injection G' as <-. exact (N (A x I)). }
      destruct B as [(-> & I)|(N & -> & _)].
      * left. split; [reflexivity|]. right. exists a. auto.
      * right. split; [reflexivity|]. intros x [(T & _)|(a' & T & I)]; [congruence|]. rewrite G in T. injection T as <-. exact (N x I).
  - intros E. injection E as <- <-. right. split. { intros (a & y & T & _). congruence. }
    destruct (is_absence_error x) eqn:X.
    + right. split; [reflexivity|]. intros y [(T & N)|(a & T & _)]; [|congruence]. apply N, absence_iff. congruence.
    + left. split; [reflexivity|]. left. split; [exact G|apply absence_false, X].
Qed.

Lemma acl_result_eq w f : acl_result w f (path f) =
  let '(r, e) := first_result w f in
  if (r <=? 0)%Z then
    if negb (is_dir f) then (r, e)
    else match acl_get_file w (path f) ACL_TYPE_DEFAULT with
         | inr x => (if is_absence_error x then 0 else r, x)%Z
         | inl [] => (0%Z, e)
         | inl _ => (1%Z, e)
         end
  else (r, e).
Proof.
  unfold acl_result, first_result. cbn [acl_loop]. change (-1 <=? 0)%Z with true. cbv iota.
  destruct (acl_get_file w (path f) ACL_TYPE_ACCESS) as [a|x].
  - unfold bfs_check_acl_type at 1. destruct (bfs_check_posix1e_acl a true 0 ENOTSUP) as [r e]. destruct (r <=? 0)%Z; [|reflexivity].
    destruct (negb (is_dir f)); [reflexivity|]. destruct (acl_get_file w (path f) ACL_TYPE_DEFAULT) as [b|x]; [|reflexivity].
    unfold bfs_check_acl_type. rewrite default_entries. destruct b; reflexivity.
  - destruct (is_absence_error x); [change (0 <=? 0)%Z with true|change (-1 <=? 0)%Z with true]; cbv iota; (destruct (negb (is_dir f)); [reflexivity|]);
      (destruct (acl_get_file w (path f) ACL_TYPE_DEFAULT) as [b|y]; [|reflexivity]); unfold bfs_check_acl_type; rewrite default_entries; destruct b; reflexivity.
Qed.

Lemma acl_ok w f r e : is_link f = false -> acl_result w f (path f) = (r, e) ->
  (r = 1%Z /\ has_acl w f) \/ (~ has_acl w f /\ (r = 0%Z \/ (r = (-1)%Z /\ acl_trouble w f e)) /\
    (is_dir f = false -> r = 0%Z -> forall x, ~ acl_trouble w f x) /\ (r = 0%Z -> forall x y, ~ (access_trouble w f x /\ default_trouble w f y))).
Proof.
  intros L. rewrite acl_result_eq. destruct (first_result w f) as [r1 e1] eqn:F. apply first_ok in F.
  destruct F as [(-> & X)|(NX & T)].
  - cbv iota. change (1 <=? 0)%Z with false. cbv iota. intros E. injection E as <- <-. left. split; [reflexivity|]. split; [exact L|]. left. exact X.
  - assert (R : (r1 <=? 0)%Z = true) by (destruct T as [(-> & _)|(-> & _)]; reflexivity). rewrite R. destruct (is_dir f) eqn:D; cbn [negb].
    2:{ intros E. injection E as <- <-. right. split. { intros (_ & [H|(H & _)]); [exact (NX H)|congruence]. }
        split. { destruct T as [(-> & T)|(-> & _)]; [right|left; reflexivity]. split; [reflexivity|]. split; [exact L|left; exact T]. }
        split. { intros _ -> x (_ & [H|(H & _)]); [|congruence]. destruct T as [(T & _)|(_ & T)]; [discriminate T|exact (T x H)]. }
        intros _ x y (_ & H & _). congruence. }
    destruct (acl_get_file w (path f) ACL_TYPE_DEFAULT) as [b|x] eqn:G.
    + destruct b as [|x b].
      * intros E. injection E as <- <-. right. split. { intros (_ & [H|(_ & a & H & N)]); [exact (NX H)|]. rewrite G in H. injection H as <-. exact (N eq_refl). }
        split; [left; reflexivity|]. split; [discriminate|]. intros _ x y (_ & _ & H & _). congruence.
      * intros E. injection E as <- <-. left. split; [reflexivity|]. split; [exact L|]. right. split; [exact D|]. exists (x :: b). split; [exact G|discriminate].
    + intros E. injection E as <- <-. right. split. { intros (_ & [H|(_ & a & H & _)]); [exact (NX H)|congruence]. }
      destruct (is_absence_error x) eqn:X.
      * split; [left; reflexivity|]. split; [discriminate|]. intros _ y z (_ & _ & H & N). apply N, absence_iff. congruence.
      * split. { destruct T as [(-> & _)|(-> & _)]; [right|left; reflexivity]. split; [reflexivity|]. split; [exact L|]. right. split; [exact D|]. split; [exact G|apply absence_false, X]. }
        split; [discriminate|]. intros -> y z (H & _). destruct T as [(T & _)|(_ & T)]; [discriminate T|exact (T y H)].
Qed.


Lemma acl_sound w mem1 mem2 f st : consistent w f -> known w st ->
  sound w (has_acl w f) (acl_trouble w f) (eval_acl w mem1 mem2 f st) /\ tidy st (eval_acl w mem1 mem2 f st) /\
  (is_dir f = false -> complete (acl_trouble w f) (eval_acl w mem1 mem2 f st)) /\
  complete (fun e => acl_trouble w f e /\ (exists x, access_trouble w f x) /\ exists y, default_trouble w f y) (eval_acl w mem1 mem2 f st).
Proof.
  intros C K. unfold eval_acl. destruct (is_link f) eqn:L.
  - unfold report, sound, tidy, complete. cbn. split.
    { split; [split; [discriminate|intros (H & _); congruence]|]. split; [discriminate|exact K]. }
    split; [reflexivity|]. split; [intros _ _ (e & H & _); congruence|]. intros _ (e & (H & _) & _). congruence.
  - destruct (fake_at w mem1 mem2 f st) as [[p owned] st1] eqn:F. destruct (fake_at_ok _ _ _ _ _ _ _ _ C K F) as (S1 & K1 & L1).
    destruct (free_ok w owned st1 _ K1 L1) as (K2 & L2). fold (acl_result w f p). rewrite (acl_same w f p (path f) S1).
    destruct (acl_result w f (path f)) as [r e] eqn:E. destruct (acl_ok w f r e L E) as [(-> & H)|(H & R & N1 & N2)].
    + unfold report, sound, tidy, complete. cbn. split; [split; [tauto|split; [discriminate|exact K2]]|]. split; [exact L2|]. split; intros; discriminate.
    + destruct R as [-> | (-> & T)]; unfold report, sound, tidy, complete; cbn.
      * split; [split; [split; [discriminate|tauto]|split; [discriminate|exact K2]]|]. split; [exact L2|].
        split. { intros D _ (x & X). destruct (N1 D eq_refl x X). }
        intros _ (x & _ & (y & Y) & z & Z). destruct (N2 eq_refl y z (conj Y Z)).
      * split; [split; [split; [discriminate|tauto]|split; [intros x X; injection X as <-; exact T|exact K2]]|]. split; [exact L2|]. split; intros; discriminate.
Qed.

(** ** The others *)
Ltac by_path f :=
  match goal with C : consistent ?w f, K : known ?w ?st |- context [fake_at ?w ?m1 ?m2 f ?st] =>
    let F := fresh "F" in let p := fresh "p" in let owned := fresh "owned" in let st1 := fresh "st1" in
    destruct (fake_at w m1 m2 f st) as [[p owned] st1] eqn:F; destruct (fake_at_ok _ _ _ _ _ _ _ _ C K F) as ((SA & SC & SL & SG & SF) & K1 & L1);
    destruct (free_ok w owned st1 _ K1 L1) as (K2 & L2)
  end.

Lemma capable_sound w mem1 mem2 f st : consistent w f -> known w st ->
  sound w (has_capabilities w f) (capable_trouble w f) (eval_capable w mem1 mem2 f st) /\ tidy st (eval_capable w mem1 mem2 f st) /\
  complete (capable_trouble w f) (eval_capable w mem1 mem2 f st).
Proof.
  intros C K. unfold eval_capable. destruct (is_link f) eqn:L.
  - unfold report, sound, tidy, complete. cbn. split.
    { split; [split; [discriminate|intros (H & _); congruence]|]. split; [discriminate|exact K]. }
    split; [reflexivity|]. intros _ (e & H & _). congruence.
  - by_path f. rewrite SC. unfold sound, tidy, complete, has_capabilities, capable_trouble, report. destruct (cap_get_file w (path f)) as [[[|c t]|e]|e] eqn:G; cbn.
    + split; [split; [split; [discriminate|intros (_ & t & T & N); congruence]|split; [discriminate|exact K2]]|]. split; [exact L2|]. intros _ (e & _ & [T|(T & _)]); discriminate T.
    + split; [split; [|split; [discriminate|exact K2]]|]. { split; [intros _|reflexivity]. split; [exact L|]. exists (c :: t). split; [reflexivity|discriminate]. }
      split; [exact L2|discriminate].
    + split; [split; [split; [discriminate|intros (_ & t & T & N); congruence]|split; [|exact K2]]|]. { intros x X. injection X as <-. auto. }
      split; [exact L2|discriminate].
    + destruct (is_absence_error e) eqn:X; cbn.
      * split; [split; [split; [discriminate|intros (_ & t & T & N); congruence]|split; [discriminate|exact K2]]|]. split; [exact L2|].
        intros _ (x & _ & [T|(T & N)]); [discriminate T|]. exfalso. apply N, absence_iff. congruence.
      * split; [split; [split; [discriminate|intros (_ & t & T & N); congruence]|split; [|exact K2]]|].
        { intros y Y. injection Y as <-. split; [exact L|]. right. split; [reflexivity|apply absence_false, X]. }
        split; [exact L2|discriminate].
Qed.

Lemma report_present A (some : A -> Prop) (len : A + errno) (r : Z * errno) w st st1 :
  (forall a, len = inl a -> (fst r = 1%Z /\ some a) \/ (fst r = 0%Z /\ ~ some a)) ->
  (forall e, len = inr e -> r = if is_absence_error e then (0%Z, e) else match e with E2BIG => (1%Z, e) | _ => ((-1)%Z, e) end) ->
  known w st1 -> live st1 = live st ->
  sound w (present some len) (trouble len) (report r st1) /\ tidy st (report r st1) /\ complete (trouble len) (report r st1).
Proof.
  intros HA HE K L. unfold sound, tidy, complete, present, trouble, report. destruct len as [a|e].
  - destruct (HA a eq_refl) as [(R & S)|(R & S)]; rewrite R; cbn.
    + split; [split; [split; [intros _; left; exists a; auto|reflexivity]|split; [discriminate|exact K]]|]. split; [exact L|discriminate].
    + split; [split; [split; [discriminate|intros [(x & X & Y)|X]; congruence]|split; [discriminate|exact K]]|]. split; [exact L|]. intros _ (e & X & _). discriminate X.
  - rewrite (HE e eq_refl). destruct (is_absence_error e) eqn:X; cbn.
    + apply absence_iff in X. split; [split; [split; [discriminate|]|split; [discriminate|exact K]]|].
      { intros [(x & Y & _)|Y]; [discriminate Y|]. injection Y as ->. cbn in X. intuition discriminate. }
      split; [exact L|]. intros _ (y & Y & N & _). injection Y as <-. contradiction.
    + apply absence_false in X. assert (B : e = E2BIG \/ e <> E2BIG) by (destruct e; auto; right; discriminate). destruct B as [-> | B].
      * cbn. split; [split; [tauto|split; [discriminate|exact K]]|]. split; [exact L|discriminate].
      * replace (match e with E2BIG => (1%Z, e) | _ => ((-1)%Z, e) end) with ((-1)%Z, e) by (destruct e; congruence). cbn.
        split; [split; [split; [discriminate|intros [(x & Y & _)|Y]; congruence]|split; [|exact K]]|]. { intros y Y. injection Y as <-. auto. }
        split; [exact L|discriminate].
Qed.

Lemma xattr_sound w mem1 mem2 f st : consistent w f -> known w st ->
  sound w (present (fun n => 0 < n) (xattrs_of w f)) (trouble (xattrs_of w f)) (eval_xattr w mem1 mem2 f st) /\ tidy st (eval_xattr w mem1 mem2 f st) /\
  complete (trouble (xattrs_of w f)) (eval_xattr w mem1 mem2 f st).
Proof.
  intros C K. unfold eval_xattr, xattrs_of. by_path f.
  replace (if is_link f then listxattr w false p else listxattr w true p) with (listxattr w (negb (is_link f)) (path f)) by (rewrite <- SL; destruct (is_link f); reflexivity).
  apply report_present; auto.
  - intros a ->. destruct a; cbn; [right|left]; split; auto; lia.
  - intros e ->. reflexivity.
Qed.
Lemma xattrname_sound w mem1 mem2 name f st : consistent w f -> known w st ->
  sound w (present (fun _ => True) (xattr_of w name f)) (trouble (xattr_of w name f)) (eval_xattrname w mem1 mem2 name f st) /\
  tidy st (eval_xattrname w mem1 mem2 name f st) /\ complete (trouble (xattr_of w name f)) (eval_xattrname w mem1 mem2 name f st).
Proof.
  intros C K. unfold eval_xattrname, xattr_of. by_path f.
  replace (if is_link f then getxattr w false p name else getxattr w true p name) with (getxattr w (negb (is_link f)) (path f) name) by (rewrite <- SG; destruct (is_link f); reflexivity).
  apply report_present; auto.
  - intros a ->. cbn. auto.
  - intros e ->. reflexivity.
Qed.

Lemma context_sound w fnmatch mem1 mem2 f st : consistent w f -> known w st ->
  sound w (exists con, context_of w f = inl con /\ fnmatch con = true) (fun e => context_of w f = inr e) (eval_context w fnmatch mem1 mem2 f st) /\
  complete (fun e => context_of w f = inr e) (eval_context w fnmatch mem1 mem2 f st).
Proof.
  intros C K. unfold eval_context, context_of. by_path f.
  replace (if is_link f then getfilecon w false p else getfilecon w true p) with (getfilecon w (negb (is_link f)) (path f)) by (rewrite <- SF; destruct (is_link f); reflexivity).
  unfold sound, complete. destruct (getfilecon w (negb (is_link f)) (path f)) as [con|e].
  - split; [split; [|split; [discriminate|exact K1]]|].
    + split; [intros H; exists con; auto|]. intros (c & E & H). injection E as ->. exact H.
    + intros _ (e & E). discriminate E.
  - split; [split; [split; [discriminate|intros (c & E & _); discriminate E]|split; [|exact K1]]|discriminate]. intros x X. congruence.
Qed.

(** ** Examples and counterexamples *)
(** Every file gives these answers. *)
Definition uniform (a d : acl + errno) (c : (list byte + errno) + errno) (l : nat + errno) (g : nat + errno) (con : list byte + errno) : system :=
  mkSystem (fun _ => list_byte_of_string "7") (fun _ => true) (fun _ t => match t with ACL_TYPE_ACCESS => a | ACL_TYPE_DEFAULT => d end) (fun _ => c) (fun _ _ => l) (fun _ _ _ => g) (fun _ _ => con).
Lemma uniform_ok a d c l g con f : consistent (uniform a d c l g con) f.
Proof. intros fd0 fd _ _. unfold same. cbn. auto 10. Qed.
Definition minimal : acl + errno := inl [inl USER_OBJ; inl GROUP_OBJ; inl OTHER].
Definition directory : ftwbuf := mkFtw (list_byte_of_string "top/sub") (Some 7%Z) (list_byte_of_string "sub") false true.
Definition start : shared := mkShared (-1) 0.
Lemma start_known w : known w start.
Proof. intros H. cbn in H. lia. Qed.

Lemma access_error_lost : exists w f e, consistent w f /\ ~ has_acl w f /\ access_trouble w f e /\ acl_trouble w f e /\ snd (fst (eval_acl w true true f start)) = None.
Proof.
  exists (uniform (inr (Other 5)) (inl []) (inr ENODATA) (inl 0) (inr ENODATA) (inr ENODATA)), directory, (Other 5). split; [apply uniform_ok|].
  assert (T : access_trouble (uniform (inr (Other 5)) (inl []) (inr ENODATA) (inl 0) (inr ENODATA) (inr ENODATA)) directory (Other 5)).
  { left. split; [reflexivity|]. cbn. intuition discriminate. }
  split. { intros (_ & [(a & x & E & _)|(_ & a & E & N)]); [discriminate E|]. cbn in E. injection E as <-. exact (N eq_refl). }
  split; [exact T|]. split; [split; [reflexivity|left; exact T]|]. reflexivity.
Qed.
Lemma default_error_lost : exists w f e, consistent w f /\ ~ has_acl w f /\ default_trouble w f e /\ acl_trouble w f e /\ snd (fst (eval_acl w true true f start)) = None.
Proof.
  exists (uniform minimal (inr (Other 5)) (inr ENODATA) (inl 0) (inr ENODATA) (inr ENODATA)), directory, (Other 5). split; [apply uniform_ok|].
  assert (T : default_trouble (uniform minimal (inr (Other 5)) (inr ENODATA) (inl 0) (inr ENODATA) (inr ENODATA)) directory (Other 5)).
  { split; [reflexivity|]. split; [reflexivity|]. cbn. intuition discriminate. }
  split. { intros (_ & [(a & x & E & I & N)|(_ & a & E & _)]); [|discriminate E]. cbn in E. injection E as <-. cbn in I, N. intuition congruence. }
  split; [exact T|]. split; [split; [reflexivity|right; exact T]|]. reflexivity.
Qed.

Fixpoint repeated (test : shared -> result) (n : nat) (st : shared) : shared :=
  match n with O => st | S n => repeated test n (snd (test st)) end.
Lemma context_leaks : exists w f, consistent w f /\ (forall st, known w st -> forall b, fst (eval_context w (fun _ => b) true true f st) = (b, None)) /\
  forall n, live (repeated (eval_context w (fun _ => true) true true f) n start) = n.
Proof.
  exists (uniform minimal minimal (inr ENODATA) (inl 0) (inr ENODATA) (inl (list_byte_of_string "u:r:t"))), directory. split; [apply uniform_ok|].
  split. { intros st K b. unfold eval_context. destruct (fake_at _ true true directory st) as [[p o] st1]. reflexivity. }
  set (w := uniform minimal minimal (inr ENODATA) (inl 0) (inr ENODATA) (inl (list_byte_of_string "u:r:t"))).
  assert (S1 : forall st, proc_works st <> 0%Z -> proc_works (snd (eval_context w (fun _ => true) true true directory st)) <> 0%Z /\ live (snd (eval_context w (fun _ => true) true true directory st)) = S (live st)).
  { intros st H. unfold eval_context, fake_at. cbn [at_fd directory negb]. destruct (Z.eqb_spec (proc_works st) 0) as [E|_]; [contradiction|]. change (access w _) with true. cbn [negb].
    destruct (proc_works st <? 0)%Z; cbn; split; auto; discriminate. }
  assert (G : forall n st, proc_works st <> 0%Z -> live (repeated (eval_context w (fun _ => true) true true directory) n st) = live st + n).
  { induction n as [|n IH]; intros st H; cbn [repeated]; [lia|]. destruct (S1 st H) as (H1 & H2). rewrite IH by exact H1. rewrite H2. lia. }
  intros n. rewrite G by discriminate. reflexivity.
Qed.
