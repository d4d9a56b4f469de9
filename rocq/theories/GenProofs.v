(** The compiler lays out programs as LayoutSpec.v says. *)
From Coq Require Import ZArith Bool List Lia.
From Verif Require Import Base FloatModel PolyModel ValueModel MathModel MachModel BinModel CodeModel CompModel FrameModel ExecModel LayoutSpec LayoutProofs LayoutEqs.
Import ListNotations.
Local Open Scope Z_scope.

Scheme expr_rec2 := Induction for expr Sort Prop
  with args_rec2 := Induction for args Sort Prop
  with dents_rec2 := Induction for dents Sort Prop
  with oexpr_rec2 := Induction for oexpr Sort Prop
  with links_rec2 := Induction for links Sort Prop.
Combined Scheme expr_mut from expr_rec2, args_rec2, dents_rec2, oexpr_rec2, links_rec2.
Scheme stmt_rec2 := Induction for stmt Sort Prop
  with rest_rec2 := Induction for rest Sort Prop.
Combined Scheme stmt_mut from stmt_rec2, rest_rec2.

Section Gen.
Variable w : width.
Variable i8 : float -> Z.
Notation enc := (enc w).
Notation encs := (encs w).
Notation size := (size w).
Notation comp := (comp w i8).
Notation cargs := (cargs w i8).
Notation cdents := (cdents w i8).
Notation copt := (copt w i8).
Notation clinks := (clinks w i8).
Notation cstmt := (cstmt w i8).
Notation crest := (crest w i8).
Notation osize := (osize w).

(** * The buffer holds a list of instructions *)
Definition rep (l : list instr) (c : cbuf) : Prop :=
  c_buf c = encs l /\ (l = [] \/ c_prev c = size (removelast l)).
Definition push_last (l l' : list instr) : Prop :=
  exists l0 o p a, l = l0 ++ [I o p a] /\ l' = l0 ++ [I o true a].

Lemma size_buf : forall l c, c_buf c = encs l -> c_size c = size l.
Proof. intros l c H. unfold c_size. rewrite H. reflexivity. Qed.
Lemma rep_size : forall l c, rep l c -> c_size c = size l.
Proof. intros l c [H _]. apply size_buf, H. Qed.

Lemma enc_false : forall o a, enc (I o false a) = op_code o :: arg_bytes w a.
Proof. intros. unfold LayoutSpec.enc, op_byte. cbn [i_op i_push i_arg]. rewrite Z.add_0_r. reflexivity. Qed.
Lemma rep_add : forall l c i c', c_buf c = encs l -> c_buf c' = c_buf c ++ enc i -> c_prev c' = c_size c ->
  rep (l ++ [i]) c'.
Proof.
  intros l c i c' H Hb Hp. split.
  - rewrite Hb, H, encs_app, encs_one. reflexivity.
  - right. rewrite removelast_last, Hp. apply size_buf, H.
Qed.
Lemma op_byte_false : forall o, op_byte o false = op_code o.
Proof. intros. unfold op_byte. lia. Qed.
Lemma rep_off : forall l c o v, c_buf c = encs l -> rep (l ++ [io o false v]) (add_off w o v c).
Proof.
  intros. eapply rep_add; [eassumption| |reflexivity].
  unfold io. rewrite enc_false. cbn. rewrite <- app_assoc. reflexivity.
Qed.
Lemma rep_op : forall l c o, c_buf c = encs l -> rep (l ++ [i0 o false]) (add_op o c).
Proof.
  intros. eapply rep_add; [eassumption| |reflexivity]. unfold i0. rewrite enc_false. reflexivity.
Qed.
Lemma rep_u8 : forall l c o v, c_buf c = encs l -> rep (l ++ [I o false (AByte v)]) (add_u8 o v c).
Proof.
  intros. eapply rep_add; [eassumption| |reflexivity].
  unfold io. rewrite enc_false. cbn. rewrite <- app_assoc. reflexivity.
Qed.
Lemma rep_number : forall l c f, c_buf c = encs l -> rep (l ++ [inum i8 false f]) (add_number i8 f c).
Proof.
  intros l c f H. unfold add_number, inum. destruct (feq _ _).
  - apply rep_u8, H.
  - eapply rep_add; [eassumption| |reflexivity].
    rewrite enc_false. cbn [extend set_buf c_buf add_op add_byte]. rewrite <- app_assoc. reflexivity.
Qed.
Lemma rep_step : forall l c o v d id, c_buf c = encs l -> rep (l ++ [I o false (AStep v d id)]) (add_step w o v d id c).
Proof.
  intros. eapply rep_add; [eassumption| |reflexivity].
  rewrite enc_false. cbn. rewrite <- !app_assoc. reflexivity.
Qed.

Lemma rep_buf : forall l c, rep l c -> c_buf c = encs l.
Proof. intros l c H. apply H. Qed.
Hint Resolve rep_buf : core.

Lemma rep_push : forall l l' c, rep l c -> push_last l l' -> exists c', push_prev c = Ok c' /\ rep l' c'.
Proof.
  intros l l' c [Hb Hp] (l0 & o & p & a & -> & ->).
  destruct Hp as [Hp|Hp]; [destruct l0; discriminate|]. rewrite removelast_last in Hp.
  unfold push_prev, set_push. rewrite Hp, Hb, encs_app, encs_one.
  replace (encs l0 ++ enc (I o p a)) with (encs l0 ++ enc (I o p a) ++ []) by (rewrite app_nil_r; reflexivity).
  rewrite nth_enc. eexists. split; [reflexivity|]. split.
  - cbn [set_buf c_buf LayoutSpec.enc i_op i_push i_arg app]. rewrite byte_op_byte, encs_app, encs_one. unfold LayoutSpec.size.
    rewrite upd_mid, app_nil_r. reflexivity.
  - right. rewrite removelast_last. exact Hp.
Qed.
Lemma push_last_size : forall l l', push_last l l' -> size l = size l'.
Proof. intros l l' (l0 & o & p & a & -> & ->). rewrite !size_app. reflexivity. Qed.
Lemma push_last_again : forall l l', push_last l l' -> push_last l' l'.
Proof. intros l l' (l0 & o & p & a & _ & ->). do 4 eexists. split; reflexivity. Qed.
Lemma push_last_app : forall l a b, push_last a b -> push_last (l ++ a) (l ++ b).
Proof. intros l a b (l0 & o & p & x & -> & ->). exists (l ++ l0), o, p, x. rewrite !app_assoc. split; reflexivity. Qed.
Lemma push_last_ne : forall l l', push_last l l' -> l' <> [].
Proof. intros l l' (l0 & o & p & x & -> & ->). destruct l0; discriminate. Qed.

Lemma inum_cases : forall f, exists o a, forall p, inum i8 p f = I o p a.
Proof. intros f. unfold inum. destruct (feq _ _); do 2 eexists; reflexivity. Qed.
Lemma cstrs_last : forall ls p0, exists l0 o a, forall p,
  io KString (p || match ls with [] => false | _ => true end) p0 :: cstrs p ls = l0 ++ [I o p a].
Proof.
  assert (G : forall ls, ls <> [] -> exists l0 o a, forall p, cstrs p ls = l0 ++ [I o p a]).
  { induction ls as [|l ls IH]; intros H; [contradiction|].
    destruct ls as [|l' ls].
    - exists [io KString false (Z.of_nat l)], (KBin (BNum Nplus)), ExecModel.ANone. intros p. cbn. rewrite orb_false_r. reflexivity.
    - destruct IH as (l0 & o & a & IH); [discriminate|].
      exists (io KString false (Z.of_nat l) :: i0 (KBin (BNum Nplus)) true :: l0), o, a.
      intros p. specialize (IH p). cbn [cstrs] in *. rewrite IH, orb_true_r. reflexivity. }
  intros [|l ls] p0.
  - exists [], KString, (AOff p0). intros p. cbn. rewrite orb_false_r. reflexivity.
  - destruct (G (l :: ls)) as (l0 & o & a & H); [discriminate|].
    exists (io KString true p0 :: l0), o, a. intros p. rewrite H, orb_true_r. reflexivity.
Qed.
Lemma comp_last : forall e b, exists l0 o a, forall p, comp p b e = l0 ++ [I o p a].
Proof.
  induction e; intros b0;
    try (do 3 eexists; intros p; autorewrite with lay; cbv zeta; rewrite ?app_assoc; reflexivity).
  - destruct (inum_cases f) as (o & a & H). exists [], o, a. intros p. autorewrite with lay. rewrite H. reflexivity.
  - destruct (cstrs_last ls (Z.of_nat l)) as (l0 & o & a & H). exists l0, o, a. intros p. autorewrite with lay. apply H.
  - exists [], KId, (AOff id). reflexivity.
  - destruct u; try (do 3 eexists; intros p; autorewrite with lay; reflexivity).
    destruct (IHe b0) as (l0 & o & a & H). exists l0, o, a. intros p. autorewrite with lay. apply H.
Qed.
Lemma comp_push_last : forall e b, push_last (comp false b e) (comp true b e).
Proof. intros e b. destruct (comp_last e b) as (l0 & o & a & H). rewrite !H. do 4 eexists. split; reflexivity. Qed.
Lemma comp_size : forall e b p q, size (comp p b e) = size (comp q b e).
Proof. intros e b p q. destruct (comp_last e b) as (l0 & o & a & H). rewrite !H, !size_app. reflexivity. Qed.
Lemma comp_ne : forall e b p, comp p b e <> [].
Proof. intros e b p. destruct (comp_last e b) as (l0 & o & a & H). rewrite !H. destruct l0; discriminate. Qed.
Lemma push_last_comp : forall l e b, push_last (l ++ comp false b e) (l ++ comp true b e).
Proof. intros. apply push_last_app, comp_push_last. Qed.

(** * What code consists of *)
Definition settled (i : instr) : Prop := walkable w i /\ i_op i <> KForward.
Lemma settled_pending : forall l, Forall settled l -> Forall pending_ok l.
Proof. intros l H. eapply Forall_impl; [|exact H]. intros i [_ Hn] E. contradiction. Qed.
Lemma settled_walkable : forall l, Forall settled l -> Forall (walkable w) l.
Proof. intros l H. eapply Forall_impl; [|exact H]. intros i [Hw _]. exact Hw. Qed.
Lemma settled_patch : forall f t l, Forall settled l -> map (patch1 f t) l = l.
Proof.
  intros f t l H. induction H as [|i l [_ Hi] _ IH]; [reflexivity|]. cbn [map]. rewrite IH. f_equal.
  destruct i as [o p a]. unfold patch1. cbn [i_op i_arg] in *. destruct o; try reflexivity. contradiction.
Qed.
Lemma settled_io : forall o p v, operand_size w (op_code o) = obytes w -> o <> KForward -> settled (io o p v).
Proof. intros o p v H Hn. split; [left; cbn; rewrite le_bytes_length; auto | exact Hn]. Qed.
Lemma settled_i0 : forall o p, operand_size w (op_code o) = O -> o <> KForward -> settled (i0 o p).
Proof. intros o p H Hn. split; [left; cbn; auto | exact Hn]. Qed.
Lemma settled_u8 : forall o p v, operand_size w (op_code o) = 1%nat -> o <> KForward -> settled (I o p (AByte v)).
Proof. intros o p v H Hn. split; [left; cbn; auto | exact Hn]. Qed.
Lemma settled_step : forall o p v d id, operand_size w (op_code o) = (obytes w + 1 + obytes w)%nat -> o <> KForward ->
  settled (I o p (AStep v d id)).
Proof. intros o p v d id H Hn. split; [left; cbn [i_arg arg_bytes i_op]; rewrite !app_length, !le_bytes_length, H; cbn; lia | exact Hn]. Qed.
Lemma settled_num : forall p f, settled (inum i8 p f).
Proof.
  intros p f. unfold inum. destruct (feq _ _).
  - apply settled_u8; [reflexivity | discriminate].
  - split; [left; cbn [i_arg arg_bytes i_op]; rewrite le_bytes_length; reflexivity | discriminate].
Qed.
Lemma settled_dict : forall p n, dict_ok w n -> settled (io (KMake KDict) p n).
Proof. intros p n H. split; [right; exists n; auto | discriminate]. Qed.
Lemma bin_size : forall b, operand_size w (op_code (KBin b)) = O.
Proof. intros [[]| | | | | |[]]; reflexivity. Qed.

Lemma settled_comp :
  (forall e, ok w e -> forall p b, Forall settled (comp p b e)) /\
  (forall a, oka w a -> forall b, Forall settled (cargs b a)) /\
  (forall d, okd w d -> forall b, Forall settled (cdents b d)) /\
  (forall o, oko w o -> forall b, Forall settled (copt b o)) /\
  (forall l, okl w l -> forall t b, Forall settled (clinks (Some t) b l)).
Proof.
  apply expr_mut; cbn [ok oka okd oko okl];
    intros; autorewrite with lay; cbv zeta; repeat match goal with H : _ /\ _ |- _ => destruct H end;
    repeat (first [apply Forall_app; split | apply Forall_cons | apply Forall_nil]); auto;
    try (apply settled_io; [reflexivity | discriminate]);
    try (apply settled_i0; [first [reflexivity | apply bin_size] | discriminate]);
    try (apply settled_u8; [reflexivity | discriminate]);
    try apply settled_num; try (apply settled_dict; assumption).
  - clear. revert p. induction ls as [|l' ls IH]; intros p; cbn [cstrs]; repeat constructor; cbn; auto; try discriminate.
    rewrite le_bytes_length. reflexivity.
  - destruct u; autorewrite with lay; repeat (first [apply Forall_app; split | apply Forall_cons | apply Forall_nil]); auto;
      apply settled_i0; [reflexivity | discriminate | reflexivity | discriminate | reflexivity | discriminate].
  - match goal with H : exists c, _ |- _ => destruct H as (c & ->) end.
    apply settled_io; [destruct c; reflexivity | discriminate].
Qed.
Definition settled_expr := proj1 settled_comp.
Definition settled_args := proj1 (proj2 settled_comp).
Definition settled_links := proj2 (proj2 (proj2 (proj2 settled_comp))).

Lemma clinks_size : forall l t t' b, size (clinks t b l) = size (clinks t' b l).
Proof.
  induction l as [k y|k y l IH]; intros t t' b; autorewrite with lay; cbv zeta; rewrite ?size_app; [reflexivity|].
  rewrite (IH t t'). f_equal. f_equal. destruct t, t'; rewrite !size_cons, !size_io; reflexivity.
Qed.
Lemma clinks_patch : forall l, okl w l -> forall b t,
  map (patch1 FCmp (Z.of_nat t)) (clinks None b l) = clinks (Some t) b l.
Proof.
  induction l as [k y|k y l IH]; intros H b t; cbn [okl] in *; autorewrite with lay; cbv zeta.
  - destruct H as [Hk Hy]. rewrite map_app, settled_patch by (apply settled_expr, Hy). reflexivity.
  - destruct H as ((c & ->) & Hy & Hl). rewrite !map_app, settled_patch by (apply settled_expr, Hy). f_equal.
    rewrite (IH Hl). f_equal. destruct c; reflexivity.
Qed.
Lemma clinks_walkable : forall l, okl w l -> forall b, Forall (walkable w) (clinks None b l) /\ Forall pending_ok (clinks None b l).
Proof.
  induction l as [k y|k y l IH]; intros H b; cbn [okl] in *; autorewrite with lay; cbv zeta.
  - destruct H as [Hk Hy]. pose proof (settled_expr y Hy false b) as Q.
    split; apply Forall_app; split; auto using settled_walkable, settled_pending.
    + constructor; [|constructor]. left. cbn. destruct k as [[]| | | | | |]; try reflexivity; discriminate.
    + constructor; [|constructor]. intros E. discriminate E.
  - destruct H as ((c & ->) & Hy & Hl). pose proof (settled_expr y Hy false b) as Q.
    destruct (IH Hl (b + size (comp false b y) + osize)%nat) as [IHw IHp].
    split; (apply Forall_app; split; [auto using settled_walkable, settled_pending|]); constructor; auto.
    + left. cbn [i_arg i_op io arg_bytes]. rewrite le_bytes_length. reflexivity.
    + intros _. exists FCmp, (KChain c). cbn [i_arg io]. do 3 f_equal. destruct c; reflexivity.
Qed.

(** * Patching *)
Lemma patch_branch_at : forall l1 o p v l2 c t, c_buf c = encs (l1 ++ io o p v :: l2) ->
  exists c', patch_branch w (size l1) t c = Ok c' /\ c_buf c' = encs (l1 ++ io o p t :: l2) /\ c_prev c' = c_prev c /\ c_pprev c' = c_pprev c.
Proof.
  intros l1 o p v l2 c t H. unfold patch_branch. rewrite H, !encs_app, !encs_cons.
  cbn [LayoutSpec.enc io i_op i_push i_arg arg_bytes app].
  replace (encs l1 ++ op_byte o p :: le_bytes (obytes w) v ++ encs l2)
    with ((encs l1 ++ [op_byte o p]) ++ le_bytes (obytes w) v ++ encs l2) by (rewrite <- app_assoc; reflexivity).
  replace (size l1 + 1)%nat with (length (encs l1 ++ [op_byte o p])) by (rewrite app_length; reflexivity).
  rewrite put_mid by (rewrite !le_bytes_length; reflexivity).
  eexists. split; [reflexivity|]. split; [|split; reflexivity].
  cbn. rewrite <- app_assoc. reflexivity.
Qed.
Lemma patch_step_at : forall l1 o p v d id l2 c t, c_buf c = encs (l1 ++ I o p (AStep v d id) :: l2) ->
  exists c', patch_branch w (size l1) t c = Ok c' /\ c_buf c' = encs (l1 ++ I o p (AStep t d id) :: l2) /\ c_prev c' = c_prev c /\ c_pprev c' = c_pprev c.
Proof.
  intros l1 o p v d id l2 c t H. unfold patch_branch. rewrite H, !encs_app, !encs_cons.
  cbn [LayoutSpec.enc i_op i_push i_arg arg_bytes app]. rewrite <- !app_assoc.
  replace (encs l1 ++ op_byte o p :: le_bytes (obytes w) v ++ (d mod 256 :: le_bytes (obytes w) id) ++ encs l2)
    with ((encs l1 ++ [op_byte o p]) ++ le_bytes (obytes w) v ++ (d mod 256 :: le_bytes (obytes w) id) ++ encs l2) by (rewrite <- app_assoc; reflexivity).
  replace (size l1 + 1)%nat with (length (encs l1 ++ [op_byte o p])) by (rewrite app_length; reflexivity).
  rewrite put_mid by (rewrite !le_bytes_length; reflexivity).
  eexists. split; [reflexivity|]. split; [|split; reflexivity].
  cbn [set_buf c_buf]. rewrite <- app_assoc. reflexivity.
Qed.
Lemma patch_forward_at : forall l1 l2 l3 c f t, c_buf c = encs (l1 ++ l2 ++ l3) ->
  Forall (walkable w) l2 -> Forall pending_ok l2 ->
  exists c', patch_forward w (size l1) (size l1 + size l2) f t c = Ok c' /\
    c_buf c' = encs (l1 ++ map (patch1 f t) l2 ++ l3) /\ c_prev c' = c_prev c /\ c_pprev c' = c_pprev c.
Proof.
  intros l1 l2 l3 c f t H Hw Hp. unfold patch_forward. rewrite H, !encs_app.
  pose proof (patch_encs w l2 (encs l1) (encs l3) (Datatypes.S (size l1 + size l2)) f t Hw Hp) as Q.
  fold (size l1) in Q. rewrite Q by lia. cbn [obind].
  eexists. split; [reflexivity|]. split; [|split; reflexivity]. reflexivity.
Qed.

(** * Expressions *)
Lemma gen_strings_rep : forall ls l c, rep (l) c -> forall l', push_last l l' -> ls <> [] ->
  exists c', gen_strings w ls c = Ok c' /\ rep (l' ++ cstrs false ls) c'.
Proof.
  induction ls as [|s ls IH]; intros l c H l' Hp Hn; [contradiction|].
  cbn [gen_strings]. destruct (rep_push _ _ _ H Hp) as (c1 & E & H1). rewrite E. cbn [obind].
  pose proof (rep_off _ _ KString (Z.of_nat s) (rep_buf _ _ H1)) as H2.
  pose proof (rep_op _ _ (KBin (BNum Nplus)) (rep_buf _ _ H2)) as H3.
  rewrite <- app_assoc in H3. cbn [app] in H3. fold (add_string w s c1) in H3.
  destruct ls as [|s' ls].
  - eexists. split; [reflexivity|]. exact H3.
  - edestruct (IH _ _ H3) as (c' & E' & H'); [|discriminate|].
    + exists (l' ++ [io KString false (Z.of_nat s)]), (KBin (BNum Nplus)), false, ExecModel.ANone.
      split; [rewrite <- app_assoc; reflexivity | reflexivity].
    + exists c'. split; [exact E'|]. rewrite <- !app_assoc in H'. exact H'.
Qed.

Definition startable (l : list instr) (lead : bool) : Prop := l <> [] \/ lead = false.

Lemma single_more : forall e b, single e = false -> removelast (comp false b e) <> [].
Proof.
  intros e b H. destruct (comp_last e b) as (l0 & o & a & Q). 
  assert (G : forall b, single e = false -> (2 <= length (comp false b e))%nat).
  { clear. induction e; intros b0 H; cbn [single] in *; autorewrite with lay; cbv zeta; try discriminate;
      try (rewrite ?app_length; cbn [length];
           repeat match goal with |- context [comp ?p ?b ?e] => pose proof (comp_ne e b p); destruct (comp p b e); [contradiction|cbn [length]; clear H0] end; lia).
    - destruct ls; [discriminate|]. cbn. lia.
    - destruct a; [discriminate| |]; autorewrite with lay; cbv zeta; rewrite !app_length; cbn [length];
        [pose proof (comp_ne e b0 true) as Q; destruct (comp true b0 e); [contradiction|] |]; cbn [length]; lia.
    - destruct a; [discriminate| |]; autorewrite with lay; cbv zeta; rewrite !app_length; cbn [length];
        [pose proof (comp_ne e b0 true) as Q; destruct (comp true b0 e); [contradiction|] |]; cbn [length]; lia.
    - destruct d; [discriminate|]; autorewrite with lay; cbv zeta; rewrite !app_length; cbn [length].
      pose proof (comp_ne k b0 true) as Q; destruct (comp true b0 k); [contradiction|]; cbn [length]; lia.
    - destruct u; autorewrite with lay; [| | |apply IHe, H]; rewrite app_length; cbn [length];
        pose proof (comp_ne e b0 false) as Q; destruct (comp false b0 e); try contradiction; cbn [length]; lia. }
  specialize (G b H). rewrite Q in *. rewrite removelast_last. rewrite app_length in G. cbn in G. destruct l0; [cbn in G; lia | discriminate].
Qed.

Definition expr_gen (e : expr) : Prop := ok w e -> forall l c, rep l c -> startable l (lead e) ->
  exists c', gen w i8 e c = Ok c' /\ rep (l ++ comp false (size l) e) c'.
Definition args_gen (a : args) : Prop := oka w a -> forall l c n p q, rep l c -> startable l (leada a) ->
  n = p + 256 * q -> 0 <= p -> 0 <= q -> args_order a = true -> (match a with APos _ _ => q = 0 | _ => True end) ->
  p + npos a < 256 -> q + nnamed a < 256 ->
  exists c', gen_args w i8 a n c = Ok (n + nargs a, c') /\ rep (l ++ cargs (size l) a) c'.
Definition dents_gen (d : dents) : Prop := okd w d -> forall l c n, rep l c ->
  startable l (match d with DNil => false | DCons k _ _ => lead k end) ->
  0 <= n -> n + ndents d < 2 ^ wbits w ->
  exists c', gen_dents w i8 d n c = Ok (n + ndents d, c') /\ rep (l ++ cdents (size l) d) c'.
Definition opt_gen (o : oexpr) : Prop := oko w o -> forall l l' c, rep l c -> push_last l l' ->
  exists c' l2, gen_opt w i8 o c = Ok (obit o, c') /\ rep l2 c' /\ push_last l2 (l' ++ copt (size l') o).
Definition links_gen (k : links) : Prop := okl w k -> forall l' c off off' c1 c2,
  chain_start w off c = Ok (off', c1) -> push_prev c1 = Ok c2 -> rep l' c2 -> l' <> [] -> off' <> O ->
  exists c', gen_links w i8 k off c = Ok (off', c') /\ rep (l' ++ clinks None (size l') k) c'.

Lemma chain_start_more : forall l c k off y, off <> O -> rep (l ++ y) c -> l ++ y <> [] ->
  exists c1 c2, chain_start w off (add_op (KBin k) c) = Ok (off, c1) /\ push_prev c1 = Ok c2 /\
    rep (l ++ y ++ [io KForward true (fwd_code FCmp + 256 * (op_code (KBin k) + 6))]) c2.
Proof.
  intros l c k off y Ho H Hne. unfold chain_start. apply Nat.eqb_neq in Ho. rewrite Ho.
  cbn [add_op add_byte c_buf c_prev]. unfold c_size. rewrite nth_mid.
  assert (Hb : c_buf (delete_prev (add_op (KBin k) c)) = encs (l ++ y)).
  { cbn [delete_prev add_op add_byte c_buf c_prev]. unfold c_size. rewrite firstn_app, firstn_all, Nat.sub_diag. cbn [firstn].
    rewrite app_nil_r. apply H. }
  pose proof (rep_off _ _ KForward (fwd_code FCmp + 256 * (op_code (KBin k) + 6)) Hb) as H1.
  unfold add_forward_op.
  destruct (rep_push _ (l ++ y ++ [io KForward true (fwd_code FCmp + 256 * (op_code (KBin k) + 6))]) _ H1) as (c2 & E & H2).
  { exists (l ++ y), KForward, false, (AOff (fwd_code FCmp + 256 * (op_code (KBin k) + 6))).
    split; [reflexivity | rewrite app_assoc; reflexivity]. }
  do 2 eexists. split; [reflexivity|]. split; [exact E | exact H2].
Qed.

Lemma startable_app : forall l a b x, startable l x -> a <> [] -> startable (l ++ a) b.
Proof. intros l a b x _ H. left. destruct l; [exact H | discriminate]. Qed.
Lemma ne_app : forall (l a : list instr), a <> [] -> l ++ a <> [].
Proof. intros [|] a H; [exact H | discriminate]. Qed.

Lemma comp_size_true : forall e b, size (comp true b e) = size (comp false b e).
Proof. intros. apply comp_size. Qed.
Lemma clinks_size_some : forall l t b, size (clinks (Some t) b l) = size (clinks None b l).
Proof. intros. apply clinks_size. Qed.
Lemma app_assoc_r : forall (a b c : list instr), (a ++ b) ++ c = a ++ b ++ c.
Proof. intros. rewrite <- app_assoc. reflexivity. Qed.
Lemma cons_app : forall (x : instr) a b, (x :: a) ++ b = x :: a ++ b.
Proof. reflexivity. Qed.
Lemma nil_app : forall (a : list instr), [] ++ a = a.
Proof. reflexivity. Qed.
Hint Rewrite size_app size_cons size_nil size_io size_i0 size_step comp_size_true clinks_size_some
  Nat.add_0_r Nat.add_assoc app_assoc_r cons_app nil_app (@app_nil_r instr) : sz.
Ltac fin H := autorewrite with sz in H; autorewrite with sz; exact H.

Ltac step H := destruct H as (?c & ?E & ?R); rewrite ?E; cbn [obind].

Lemma wbits_16 : 65536 <= 2 ^ wbits w.
Proof. destruct w; cbn; lia. Qed.
Lemma u_of_small : forall z, 0 <= z < 2 ^ wbits w -> u_of w z = z.
Proof. intros z H. unfold u_of, wrapu. apply Z.mod_small, H. Qed.

Lemma positional_facts : forall a, positional a = true -> args_order a = true /\ nnamed a = 0 /\ nargs a = npos a.
Proof.
  induction a as [|e r IH|]; intros H; cbn [positional args_order nnamed nargs npos] in *; [auto | | discriminate].
  destruct (IH H) as (? & ? & ?). repeat split; auto. lia.
Qed.
Lemma counts_nonneg : forall a, 0 <= npos a /\ 0 <= nnamed a.
Proof. induction a; cbn [npos nnamed]; lia. Qed.

Theorem gen_layout :
  (forall e, expr_gen e) /\
  (forall a, args_gen a /\ forall e r, a = APos e r -> expr_gen e /\ args_gen r) /\
  (forall d, dents_gen d) /\
  (forall o, opt_gen o /\ forall e, o = OSome e -> expr_gen e) /\
  (forall l, links_gen l).
Proof.
  apply expr_mut.
  - (* ENum *) intros f _ l c R _. autorewrite with gen lay. eexists. split; [reflexivity|]. apply rep_number, R.
  - (* EStr *) intros s ls _ l c R _. autorewrite with gen lay.
    pose proof (rep_off _ _ KString (Z.of_nat s) (rep_buf _ _ R)) as R1. fold (add_string w s c) in R1.
    destruct ls as [|s' ls].
    + cbn [gen_strings]. eexists. split; [reflexivity|]. exact R1.
    + destruct (gen_strings_rep (s' :: ls) _ _ R1 (l ++ [io KString true (Z.of_nat s)])) as (c' & E & R').
      * exists l, KString, false, (AOff (Z.of_nat s)). split; reflexivity.
      * discriminate.
      * exists c'. split; [exact E|]. rewrite <- app_assoc in R'. exact R'.
  - (* EId *) intros id _ l c R _. autorewrite with gen lay. eexists. split; [reflexivity|]. apply rep_off, R.
  - (* EList *) intros a [IHa _] (Ha & Hp & Hn) l c R St. autorewrite with gen lay.
    assert (Hord : args_order a = true /\ nnamed a = 0 /\ nargs a = npos a).
    { apply positional_facts, Hp. }
    destruct Hord as (Hord & Hz & Hna).
    destruct (IHa Ha l c 0 0 0 R St) as (c' & E & R'); [lia | lia | lia | exact Hord | destruct a; auto | lia | lia |].
    rewrite E. cbn [obind]. rewrite Z.add_0_l. replace (256 <=? nargs a) with false by (symmetry; apply Z.leb_gt; lia).
    eexists. split; [reflexivity|]. rewrite app_assoc. apply rep_off, R'.
  - (* ETuple *) intros a [IHa IHe] (Ha & Hp & Hn) l c R St. autorewrite with gen lay.
    destruct a as [|e r|]; [| |discriminate].
    + autorewrite with lay. cbn [app nargs]. eexists. split; [reflexivity|]. apply rep_off, R.
    + destruct (IHe e r eq_refl) as [IHx IHr]. cbn [oka positional npos leada] in *.
      destruct Ha as [Hx Hr]. cbn [lead leada] in St. autorewrite with lay. cbv zeta.
      assert (Hord : args_order r = true /\ nnamed r = 0 /\ nargs r = npos r).
      { apply positional_facts, Hp. }
      destruct Hord as (Hord & Hz & Hna).
      destruct (IHx Hx l c R St) as (c1 & E1 & R1). rewrite E1. cbn [obind].
      destruct (rep_push _ _ _ R1 (push_last_comp l e (size l))) as (c2 & E2 & R2). rewrite E2. cbn [obind].
      destruct (IHr Hr _ _ 0 0 0 R2) as (c3 & E3 & R3); [left; apply ne_app, comp_ne | lia | lia | lia | exact Hord | destruct r; auto | lia | lia |].
      rewrite E3. cbn [obind]. rewrite Z.add_0_l. replace (256 <=? nargs r) with false by (symmetry; apply Z.leb_gt; lia).
      eexists. split; [reflexivity|]. cbn [nargs]. rewrite (Z.add_comm 1).
      rewrite size_app in R3. pose proof (rep_off _ _ (KMake KTuple) (nargs r + 1) (rep_buf _ _ R3)) as R4.
      rewrite <- !app_assoc in R4. rewrite <- !app_assoc. exact R4.
  - (* EDict *) intros d IHd (Hd & Hdo & Hn) l c R St. autorewrite with gen lay.
    destruct (IHd Hd l c 0 R) as (c1 & E1 & R1); [exact St | lia | lia |].
    rewrite E1. cbn [obind]. rewrite Z.add_0_l. eexists. split; [reflexivity|]. rewrite app_assoc. apply rep_off, R1.
  - (* EBin *) intros n x IHx y IHy [Hx Hy] l c R St. autorewrite with gen lay. cbv zeta. cbn [lead] in St.
    destruct (IHx Hx l c R St) as (c1 & E1 & R1). rewrite E1. cbn [obind].
    destruct (rep_push _ _ _ R1 (push_last_comp l x (size l))) as (c2 & E2 & R2). rewrite E2. cbn [obind].
    destruct (IHy Hy _ _ R2) as (c3 & E3 & R3); [left; apply ne_app, comp_ne|]. rewrite E3. cbn [obind].
    eexists. split; [reflexivity|]. rewrite size_app in R3.
    pose proof (rep_op _ _ (KBin (BNum n)) (rep_buf _ _ R3)) as R4. rewrite <- !app_assoc in R4. exact R4.
  - (* EUn *) intros u x IHx Hx l c R St. cbn [lead] in St.
    destruct (IHx Hx l c R St) as (c1 & E1 & R1).
    destruct u; autorewrite with gen lay; rewrite E1; cbn [obind]; (eexists; split; [reflexivity|]);
      rewrite ?app_assoc; try apply rep_op; auto.
  - (* EIndex *) intros x IHx y IHy [Hx Hy] l c R St. autorewrite with gen lay. cbv zeta. cbn [lead] in St.
    destruct (IHx Hx l c R St) as (c1 & E1 & R1). rewrite E1. cbn [obind].
    destruct (rep_push _ _ _ R1 (push_last_comp l x (size l))) as (c2 & E2 & R2). rewrite E2. cbn [obind].
    destruct (IHy Hy _ _ R2) as (c3 & E3 & R3); [left; apply ne_app, comp_ne|]. rewrite E3. cbn [obind].
    eexists. split; [reflexivity|]. rewrite size_app in R3.
    pose proof (rep_op _ _ (KBin BArray) (rep_buf _ _ R3)) as R4. rewrite <- !app_assoc in R4. exact R4.
  - (* ESlice *) intros x IHx a [_ IHa] b [IHb _] s [IHs _] (Hx & Ha & Hb & Hs) l c R St. autorewrite with gen lay. cbv zeta. cbn [lead] in St.
    destruct (IHx Hx l c R St) as (c1 & E1 & R1). rewrite E1. cbn [obind].
    destruct (rep_push _ _ _ R1 (push_last_comp l x (size l))) as (c2 & E2 & R2). rewrite E2. cbn [obind].
    set (l1 := l ++ comp true (size l) x) in *.
    assert (Hl1 : size l1 = (size l + size (comp true (size l) x))%nat) by (unfold l1; apply size_app).
    assert (A : exists c3 l3, (match a with ONone => Ok (0, c2) | OSome e => obind (gen w i8 e c2) (fun c => Ok (1, c)) end) = Ok (obit a, c3) /\
                rep l3 c3 /\ push_last l3 (l1 ++ copt (size l1) a)).
    { destruct a as [|e].
      - exists c2, l1. split; [reflexivity|]. split; [exact R2|]. autorewrite with lay. rewrite app_nil_r.
        unfold l1. eapply push_last_again, push_last_comp.
      - destruct (IHa e eq_refl Ha _ _ R2) as (c3 & E3 & R3); [left; apply ne_app, comp_ne|].
        rewrite E3. cbn [obind obit]. do 2 eexists. split; [reflexivity|]. split; [exact R3|].
        autorewrite with lay. apply push_last_comp. }
    destruct A as (c3 & l3 & E3 & R3 & P3). rewrite E3. cbn [obind].
    destruct (IHb Hb _ _ _ R3 P3) as (c4 & l4 & E4 & R4 & P4). rewrite E4. cbn [obind].
    destruct (IHs Hs _ _ _ R4 P4) as (c5 & l5 & E5 & R5 & P5). rewrite E5. cbn [obind].
    destruct (rep_push _ _ _ R5 P5) as (c6 & E6 & R6). rewrite E6. cbn [obind].
    eexists. split; [reflexivity|].
    pose proof (rep_u8 _ _ KSlice (obit a * 1 + obit b * 2 + obit s * 4) (rep_buf _ _ R6)) as R7.
    rewrite !size_app, Hl1 in R7. unfold l1 in R7. rewrite <- !app_assoc in R7. exact R7.
  - (* ECall *) intros f IHf a [IHa _] (Hf & Ha & Hord & Hp & Hn) l c R St. autorewrite with gen lay. cbv zeta. cbn [lead] in St.
    destruct (IHf Hf l c R St) as (c1 & E1 & R1). rewrite E1. cbn [obind].
    destruct (rep_push _ _ _ R1 (push_last_comp l f (size l))) as (c2 & E2 & R2). rewrite E2. cbn [obind].
    destruct (IHa Ha _ _ 0 0 0 R2) as (c3 & E3 & R3); [left; apply ne_app, comp_ne | lia | lia | lia | exact Hord | destruct a; auto | lia | lia |].
    rewrite E3. cbn [obind]. rewrite Z.add_0_l. eexists. split; [reflexivity|].
    rewrite size_app in R3. pose proof (rep_off _ _ KCall (nargs a) (rep_buf _ _ R3)) as R4. rewrite <- !app_assoc in R4. exact R4.
  - (* EAnd *) intros x IHx y IHy [Hx Hy] l c R St. autorewrite with gen lay. cbv zeta. cbn [lead] in St.
    destruct (IHx Hx l c R St) as (c1 & E1 & R1). rewrite E1. cbn [obind].
    pose proof (rep_off _ _ KBranchFalse 0 (rep_buf _ _ R1)) as R2.
    destruct (IHy Hy _ _ R2) as (c3 & E3 & R3); [left; apply ne_app; discriminate|]. rewrite E3. cbn [obind].
    replace (c_prev (add_off w KBranchFalse 0 c1)) with (size (l ++ comp false (size l) x))
      by (symmetry; exact (rep_size _ _ R1)).
    rewrite <- !app_assoc in R3. cbn [app] in R3. rewrite app_assoc in R3.
    edestruct (patch_branch_at _ _ _ _ _ _ (Z.of_nat (c_size c3)) (rep_buf _ _ R3)) as (c4 & E4 & R4 & _ & _).
    rewrite E4. cbn [obind]. eexists. split; [reflexivity|].
    pose proof (rep_op _ _ KNop R4) as R5. rewrite (rep_size _ _ R3) in R5.
    fin R5.
  - (* EOr *) intros x IHx y IHy [Hx Hy] l c R St. autorewrite with gen lay. cbv zeta. cbn [lead] in St.
    destruct (IHx Hx l c R St) as (c1 & E1 & R1). rewrite E1. cbn [obind].
    pose proof (rep_off _ _ KBranchTrue 0 (rep_buf _ _ R1)) as R2.
    destruct (IHy Hy _ _ R2) as (c3 & E3 & R3); [left; apply ne_app; discriminate|]. rewrite E3. cbn [obind].
    replace (c_prev (add_off w KBranchTrue 0 c1)) with (size (l ++ comp false (size l) x))
      by (symmetry; exact (rep_size _ _ R1)).
    rewrite <- !app_assoc in R3. cbn [app] in R3. rewrite app_assoc in R3.
    edestruct (patch_branch_at _ _ _ _ _ _ (Z.of_nat (c_size c3)) (rep_buf _ _ R3)) as (c4 & E4 & R4 & _ & _).
    rewrite E4. cbn [obind]. eexists. split; [reflexivity|].
    pose proof (rep_op _ _ KNop R4) as R5. rewrite (rep_size _ _ R3) in R5.
    fin R5.
  - (* ECmp *) intros x IHx k IHk [Hx Hk] l c R St. autorewrite with gen lay. cbv zeta. cbn [lead] in St.
    destruct (IHx Hx l c R) as (c1 & E1 & R1).
    { destruct St as [St|St]; [left; exact St | right; apply orb_false_iff in St; apply St]. }
    rewrite E1. cbn [obind].
    destruct (comp_last x (size l)) as (l0 & o & a & Ec).
    assert (Hprev : c_prev c1 = size (l ++ l0)).
    { destruct R1 as [_ [R1|R1]]; [exfalso; revert R1; apply ne_app, comp_ne|].
      rewrite Ec, app_assoc, removelast_last in R1. exact R1. }
    assert (Hoff : c_prev c1 <> O).
    { rewrite Hprev. intros Z0. apply size_zero in Z0. apply app_eq_nil in Z0. destruct Z0 as [Zl Z0]. subst l l0.
      destruct St as [St|St]; [contradiction|]. apply orb_false_iff in St. destruct St as [St _].
      apply (single_more x O) in St. specialize (Ec false). change (size []) with O in Ec. rewrite Ec in St. apply St. reflexivity. }
    destruct (rep_push _ _ _ R1 (push_last_comp l x (size l))) as (c2 & E2 & R2).
    destruct (IHk Hk _ c1 O (c_prev c1) c1 c2 eq_refl E2 R2) as (c3 & E3 & R3); [apply ne_app, comp_ne | exact Hoff |].
    rewrite E3. cbn [obind]. apply Nat.eqb_neq in Hoff. rewrite Hoff.
    pose proof (settled_expr x Hx true (size l)) as Sx.
    destruct (clinks_walkable k Hk (size (l ++ comp true (size l) x))) as [Wk Pk].
    set (t := Z.of_nat (c_size c3)). rewrite Ec in R3, Sx, Wk, Pk |- *.
    apply Forall_app in Sx. destruct Sx as [_ Sx].
    set (ks := clinks None (size (l ++ l0 ++ [I o true a])) k) in *.
    assert (Hc3 : c_buf c3 = encs ((l ++ l0) ++ ([I o true a] ++ ks) ++ [])).
    { rewrite (rep_buf _ _ R3). f_equal. rewrite app_nil_r, !app_assoc. reflexivity. }
    destruct (patch_forward_at _ _ _ _ FCmp t Hc3) as (c4 & E4 & R4 & _ & _).
    { apply Forall_app. split; [apply settled_walkable, Sx | exact Wk]. }
    { apply Forall_app. split; [apply settled_pending, Sx | exact Pk]. }
    rewrite Hprev.
    assert (Hsz : (size (l ++ l0) + size ([I o true a] ++ ks))%nat = c_size c3).
    { rewrite (size_buf _ _ Hc3), <- size_app, app_nil_r. reflexivity. }
    rewrite Hsz in E4. rewrite E4. cbn [obind]. eexists. split; [reflexivity|].
    pose proof (rep_op _ _ KNop R4) as R5.
    rewrite map_app, (settled_patch _ _ _ Sx) in R5. unfold ks in R5. unfold t in R5.
    rewrite (clinks_patch _ Hk) in R5. rewrite (size_buf _ _ Hc3) in R5. unfold ks in R5.
    fin R5.
  - (* ANil *) split; [|discriminate]. intros _ l c n p q R _ -> _ _ _ _ _ _. autorewrite with gen lay.
    exists c. cbn [nargs]. rewrite app_nil_r, Z.add_0_r. split; [reflexivity | exact R].
  - (* APos *) intros e IHe r [IHr _]. split; [|intros e' r' E; injection E as <- <-; split; assumption].
    intros [He Hr] l c n p q R St -> Hp Hq Hord -> Hnp Hnn. autorewrite with gen lay. cbv zeta. cbn [leada npos nnamed args_order nargs] in *.
    pose proof (counts_nonneg r) as [C1 C2].
    destruct (IHe He l c R St) as (c1 & E1 & R1). rewrite E1. cbn [obind].
    replace (256 <=? p + 256 * 0) with false by (symmetry; apply Z.leb_gt; lia).
    destruct (rep_push _ _ _ R1 (push_last_comp l e (size l))) as (c2 & E2 & R2). rewrite E2. cbn [obind].
    destruct (IHr Hr _ _ (p + 256 * 0 + 1) (p + 1) 0 R2) as (c3 & E3 & R3);
      [left; apply ne_app, comp_ne | lia | lia | lia | exact Hord | destruct r; auto | lia | lia |].
    rewrite E3. exists c3. split; [do 2 f_equal; lia|]. fin R3.
  - (* ANamed *) intros id e IHe r [IHr _]. split; [|discriminate].
    intros [He Hr] l c n p q R St -> Hp Hq Hord _ Hnp Hnn. autorewrite with gen lay. cbv zeta. cbn [leada npos nnamed nargs] in *.
    pose proof (counts_nonneg r) as [C1 C2].
    assert (Hb : c_buf (delete_prev (add_off w KId id c)) = encs l).
    { cbn. unfold c_size. rewrite <- app_assoc, firstn_app, firstn_all, Nat.sub_diag. cbn [firstn]. rewrite app_nil_r. apply R. }
    pose proof (rep_number _ _ (f_of_Z id) Hb) as R1.
    destruct (inum_cases (f_of_Z id)) as (o & a & Ei).
    destruct (rep_push _ (l ++ [inum i8 true (f_of_Z id)]) _ R1) as (c2 & E2 & R2).
    { rewrite !Ei. exists l, o, false, a. split; reflexivity. }
    rewrite E2. cbn [obind].
    destruct (IHe He _ _ R2) as (c3 & E3 & R3); [left; apply ne_app; discriminate|]. rewrite E3. cbn [obind].
    destruct (rep_push _ _ _ R3 (push_last_comp _ e _)) as (c4 & E4 & R4). rewrite E4. cbn [obind].
    pose proof wbits_16. rewrite u_of_small by lia.
    destruct (IHr Hr _ _ (p + 256 * q + 256) p (q + 1) R4) as (c5 & E5 & R5).
    { left. apply ne_app, comp_ne. }
    { lia. } { lia. } { lia. }
    { cbn [args_order] in Hord. destruct r; auto; discriminate. }
    { cbn [args_order] in Hord. destruct r; auto; discriminate. }
    { lia. } { lia. }
    rewrite E5. exists c5. split; [do 2 f_equal; lia|]. fin R5.
  - (* DNil *) intros _ l c n R _ _ _. autorewrite with gen lay.
    exists c. cbn [ndents]. rewrite app_nil_r, Z.add_0_r. split; [reflexivity | exact R].
  - (* DCons *) intros k IHk v IHv r IHr (Hk & Hv & Hr) l c n R St Hn Hb. autorewrite with gen lay. cbv zeta. cbn [ndents] in *.
    assert (0 <= ndents r) by (clear; induction r; cbn [ndents]; lia).
    destruct (IHk Hk l c R St) as (c1 & E1 & R1). rewrite E1. cbn [obind].
    destruct (rep_push _ _ _ R1 (push_last_comp _ k _)) as (c2 & E2 & R2). rewrite E2. cbn [obind].
    destruct (IHv Hv _ _ R2) as (c3 & E3 & R3); [left; apply ne_app, comp_ne|]. rewrite E3. cbn [obind].
    destruct (rep_push _ _ _ R3 (push_last_comp _ v _)) as (c4 & E4 & R4). rewrite E4. cbn [obind].
    rewrite u_of_small by lia.
    destruct (IHr Hr _ _ (n + 2) R4) as (c5 & E5 & R5); [left; apply ne_app, comp_ne | lia | lia |].
    rewrite E5. exists c5. split; [do 2 f_equal; lia|]. fin R5.
  - (* ONone *) split; [|discriminate]. intros _ l l' c R P. autorewrite with gen lay. exists c, l.
    rewrite app_nil_r. split; [reflexivity|]. split; assumption.
  - (* OSome *) intros e IHe. split; [|intros e' E; injection E as <-; exact IHe].
    intros He l l' c R P. autorewrite with gen lay.
    destruct (rep_push _ _ _ R P) as (c2 & E2 & R2). rewrite E2. cbn [obind].
    destruct (IHe He _ _ R2) as (c3 & E3 & R3); [left; eapply push_last_ne; eassumption|]. rewrite E3. cbn [obind obit].
    do 2 eexists. split; [reflexivity|]. split; [exact R3|]. apply push_last_comp.
  - (* LLast *) intros b y IHy [Hb Hy] l' c off off' c1 c2 Hs Hp R Hne Z0. autorewrite with gen lay.
    rewrite Hs. cbn [obind]. rewrite Hp. cbn [obind].
    destruct (IHy Hy _ _ R) as (c3 & E3 & R3); [left; exact Hne|]. rewrite E3. cbn [obind].
    eexists. split; [reflexivity|]. pose proof (rep_op _ _ (KBin b) (rep_buf _ _ R3)) as R4. fin R4.
  - (* LMore *) intros b y IHy k IHk (Hb & Hy & Hk) l' c off off' c1 c2 Hs Hp R Hne Z0. autorewrite with gen lay. cbv zeta.
    rewrite Hs. cbn [obind]. rewrite Hp. cbn [obind].
    destruct (IHy Hy _ _ R) as (c3 & E3 & R3); [left; exact Hne|]. rewrite E3. cbn [obind].
    destruct (chain_start_more _ _ b off' _ Z0 R3) as (c4 & c5 & E4 & E5 & R5); [destruct l'; [contradiction | discriminate]|].
    destruct (IHk Hk _ _ _ _ _ _ E4 E5 R5) as (c6 & E6 & R6); [destruct l'; [contradiction | discriminate] | exact Z0 |].
    rewrite E6. exists c6. split; [reflexivity|]. fin R6.
Qed.
Definition gen_expr := proj1 gen_layout.
Lemma gen_args_layout : forall a, args_gen a.
Proof. intros a. apply gen_layout. Qed.
End Gen.
