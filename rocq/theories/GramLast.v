(** The code decides what may be assigned to, deleted or used as the name of an
    argument by looking at the last instruction compiled; GramModel decides by
    the tree.  They agree. *)
From Coq Require Import ZArith Bool List Lia.
From Verif Require Import Base FloatModel PolyModel ValueModel MathModel MachModel BinModel CodeModel CompModel LayoutEqs LayoutProofs.
From Verif Require Import LexModel GramModel GramSpec.
Import ListNotations.
Local Open Scope Z_scope.
Local Open Scope outcome_scope.

Section Last.
Variable w : width.
Variable i8 : float -> Z.
Notation gen := (gen w i8).

(** snek-gram.ll 126-156: extract_lvalue; [del]: the token is del *)
Definition extract_lvalue (del : bool) (c : cbuf) : outcome (Z * cbuf) :=
  match nth_error (c_buf c) (c_prev c) with
  | None => UB
  | Some b =>
      if b =? op_code KId then
        match get_at (obytes w) (c_prev c + 1) (c_buf c) with
        | None => UB
        | Some id => Ok (id, delete_prev c)
        end
      else if b =? op_code (KBin BArray) then
        let! c := (if del then Ok c else set_push (c_pprev c) c) in
        Ok (0, delete_prev c)
      else Err
  end.
(** 565-580: the same for the name of an argument, where only a variable will do *)
Definition extract_name (c : cbuf) : outcome (Z * cbuf) :=
  match nth_error (c_buf c) (c_prev c) with
  | None => UB
  | Some b =>
      if negb (b =? op_code KId) then Err
      else
        match get_at (obytes w) (c_prev c + 1) (c_buf c) with
        | None => UB
        | Some id => Ok (id, delete_prev c)
        end
  end.

(** the last instruction *)
Definition ends (o : op) (c : cbuf) : Prop := exists c0, c = add_op o c0 \/ exists bs, c = extend bs (add_op o c0).
Lemma nth_at : forall (l : list Z) x r, nth_error (l ++ x :: r) (length l) = Some x.
Proof. intros l x r. rewrite nth_error_app2 by lia. now rewrite Nat.sub_diag. Qed.
Lemma ends_byte : forall o c, ends o c -> nth_error (c_buf c) (c_prev c) = Some (op_code o).
Proof.
  intros o c [c0 [->|[bs ->]]].
  - apply nth_at.
  - unfold extend, set_buf; cbn [c_buf c_prev add_op add_byte]. rewrite <- app_assoc. apply nth_at.
Qed.
Lemma e_op : forall o c, ends o (add_op o c).
Proof. intros o c. exists c. now left. Qed.
Lemma e_off : forall o v c, ends o (add_off w o v c).
Proof. intros o v c. exists c. right. eexists. reflexivity. Qed.
Lemma e_u8 : forall o v c, ends o (add_u8 o v c).
Proof. intros o v c. exists c. right. eexists. reflexivity. Qed.

(** neither a variable nor an element *)
Definition other (o : op) : Prop := o <> KId /\ o <> KBin BArray.
Lemma other_codes : forall o, other o -> (op_code o =? op_code KId) = false /\ (op_code o =? op_code (KBin BArray)) = false.
Proof.
  intros o [H1 H2].
  destruct o; try (now contradiction H1); split;
    repeat match goal with x : bop |- _ => destruct x | x : cmpop |- _ => destruct x | x : numop |- _ => destruct x | x : lkind |- _ => destruct x end;
    try reflexivity; now contradiction H2.
Qed.

(** trees of the parser: chains are chains of comparisons *)
Fixpoint chain_ok (l : links) : Prop :=
  match l with LLast b _ => other (KBin b) | LMore b _ l => other (KBin b) /\ chain_ok l end.
Fixpoint top_ok (e : expr) : Prop :=
  match e with ECmp _ l => chain_ok l | EUn UPlus x => top_ok x | _ => True end.
Lemma cmp_other : forall t b, In (t, b) comparisons -> other (KBin b).
Proof. intros t b H. cbn in H. repeat destruct H as [H|H]; try contradiction; injection H as <- <-; split; discriminate. Qed.

Lemma reads_top : forall D idof numof,
  (forall r e ts, reads D idof numof r e ts -> top_ok e) /\
  (forall l ts, reads_links D idof numof l ts -> chain_ok l).
Proof.
  intros D idof numof.
  enough (H : (forall r e ts, reads D idof numof r e ts -> top_ok e) /\
    (forall l ts, reads_links D idof numof l ts -> chain_ok l) /\
    (forall o ts, reads_opt D idof numof o ts -> True) /\
    (forall a ts, reads_actuals D idof numof a ts -> True) /\
    (forall b a ts, reads_args D idof numof b a ts -> True) /\
    (forall i ts, reads_name D idof numof i ts -> True) /\
    (forall d ts, reads_dents D idof numof d ts -> True)) by tauto.
  apply reads_all; try (now intros); try (now (intros; cbn; auto)).
  - intros i u x tx Hi _ IH. cbn. cbn in Hi. destruct u; auto.
  - intros i b y ty Hi _ _. cbn. now apply (cmp_other (i_tok i)).
  - intros i b y ty l tl Hi _ _ _ IH. cbn. split; [now apply (cmp_other (i_tok i)) | exact IH].
Qed.

Ltac geq H := first
  [ rewrite gen_ENum_f_eq in H | rewrite gen_EStr_l_ls_eq in H | rewrite gen_EId_id_eq in H | rewrite gen_EList_a_eq in H
  | rewrite gen_ETuple_a_eq in H | rewrite gen_EDict_d_eq in H | rewrite gen_EBin_n_x_y_eq in H | rewrite gen_EUn_UPlus_x_eq in H
  | rewrite gen_EUn_UNot_x_eq in H | rewrite gen_EUn_UMinus_x_eq in H | rewrite gen_EUn_ULnot_x_eq in H | rewrite gen_EIndex_x_i_eq in H
  | rewrite gen_ESlice_x_a_b_s_eq in H | rewrite gen_ECall_f_a_eq in H | rewrite gen_EAnd_x_y_eq in H | rewrite gen_EOr_x_y_eq in H
  | rewrite gen_ECmp_x_l_eq in H | rewrite gen_links_LLast_b_y_eq in H | rewrite gen_links_LMore_b_y_l_eq in H ].
Ltac out H := match type of H with obind ?x _ = Ok _ => destruct x eqn:?; try discriminate H; cbn [obind] in H end.

Lemma links_end : forall l k c k' c', gen_links w i8 l k c = Ok (k', c') -> chain_ok l -> exists o, other o /\ ends o c'.
Proof.
  induction l as [b y | b y l IH]; intros k c k' c' H Hl; geq H.
  - destruct (chain_start w k c) as [[k1 c1]| |]; try discriminate H. cbn [obind] in H. out H. out H. injection H as <- <-.
    exists (KBin b). split; [exact Hl | apply e_op].
  - destruct (chain_start w k c) as [[k1 c1]| |]; try discriminate H. cbn [obind] in H. out H. out H.
    destruct Hl as [_ Hl]. eapply IH; eauto.
Qed.

Lemma strings_end : forall ls c c', gen_strings w ls c = Ok c' -> (exists o, other o /\ ends o c) -> exists o, other o /\ ends o c'.
Proof.
  induction ls as [|l ls IH]; intros c c' H Hc; cbn [gen_strings] in H.
  - injection H as <-. exact Hc.
  - out H. apply (IH _ _ H). exists (KBin (BNum Nplus)). split; [split; discriminate | apply e_op].
Qed.

(** what else ends an expression *)
Lemma none_end : forall e c c', top_ok e -> as_target e = None -> gen e c = Ok c' -> exists o, other o /\ ends o c'.
Proof.
  induction e as [f|l ls|id|a|a|d|n x IHx y IHy|u x IHx|x IHx i IHi|x IHx a b s|f IHf a|x IHx y IHy|x IHx y IHy|x IHx l];
    intros c c' Hok Ht H; cbn [as_target] in *; try discriminate Ht; try (destruct u); geq H.
  - injection H as <-. unfold add_number. destruct (feq _ _).
    + exists KInt. split; [split; discriminate | apply e_u8].
    + exists KNum. split; [split; discriminate | eexists; right; eexists; reflexivity].
  - eapply strings_end; [exact H|]. exists KString. split; [split; discriminate | apply e_off].
  - destruct (gen_args w i8 a 0 c) as [[n c1]| |]; try discriminate H. cbn [obind] in H. destruct (256 <=? n); [discriminate H|]. injection H as <-.
    exists (KMake KList). split; [split; discriminate | apply e_off].
  - destruct a as [|e a|]; [| |discriminate H].
    + injection H as <-. exists (KMake KTuple). split; [split; discriminate | apply e_off].
    + out H. out H. destruct (gen_args w i8 a 0 a1) as [[n c1]| |]; try discriminate H. cbn [obind] in H. destruct (256 <=? n); [discriminate H|].
      injection H as <-. exists (KMake KTuple). split; [split; discriminate | apply e_off].
  - destruct (gen_dents w i8 d 0 c) as [[n c1]| |]; try discriminate H. cbn [obind] in H. injection H as <-.
    exists (KMake KDict). split; [split; discriminate | apply e_off].
  - out H. out H. out H. injection H as <-. exists (KBin (BNum n)). split; [split; discriminate | apply e_op].
  - out H. injection H as <-. exists KNot. split; [split; discriminate | apply e_op].
  - out H. injection H as <-. exists KUminus. split; [split; discriminate | apply e_op].
  - out H. injection H as <-. exists KLnot. split; [split; discriminate | apply e_op].
  - cbn [top_ok] in Hok. eauto.
  - out H. out H.
    match type of H with obind ?x _ = Ok _ => destruct x as [[fa ca]| |]; try discriminate H end. cbn [obind] in H.
    destruct (gen_opt w i8 b ca) as [[fb cb]| |]; try discriminate H. cbn [obind] in H.
    destruct (gen_opt w i8 s cb) as [[fs cs]| |]; try discriminate H. cbn [obind] in H. out H. injection H as <-.
    exists KSlice. split; [split; discriminate | apply e_u8].
  - out H. out H. destruct (gen_args w i8 a 0 a1) as [[n c1]| |]; try discriminate H. cbn [obind] in H. injection H as <-.
    exists KCall. split; [split; discriminate | apply e_off].
  - out H. out H. out H. injection H as <-. exists KNop. split; [split; discriminate | apply e_op].
  - out H. out H. out H. injection H as <-. exists KNop. split; [split; discriminate | apply e_op].
  - out H. destruct (gen_links w i8 l 0 a) as [[k c1]| |] eqn:El; try discriminate H. cbn [obind] in H. destruct (Nat.eqb k 0).
    + injection H as <-. exact (links_end _ _ _ _ _ El Hok).
    + out H. injection H as <-. exists KNop. split; [split; discriminate | apply e_op].
Qed.

Lemma id_gen : forall e id, as_target e = Some (TId id) -> forall c, gen e c = Ok (add_off w KId id c).
Proof.
  induction e; intros id0 H buf; cbn [as_target] in H; try discriminate H.
  - injection H as <-. reflexivity.
  - destruct u; try discriminate H. rewrite gen_EUn_UPlus_x_eq. auto.
Qed.
Lemma elem_gen : forall e x i, as_target e = Some (TElem x i) -> forall c, gen e c = gen (EIndex x i) c.
Proof.
  induction e; intros x0 i0 H buf; cbn [as_target] in H; try discriminate H.
  - destruct u; try discriminate H. rewrite gen_EUn_UPlus_x_eq. auto.
  - injection H as <- <-. reflexivity.
Qed.
Lemma name_target : forall e id, as_name e = Some id <-> as_target e = Some (TId id).
Proof.
  induction e; intros id0; cbn [as_name as_target]; try (split; discriminate).
  - split; intros H; injection H as <-; reflexivity.
  - destruct u; try (split; discriminate). apply IHe.
Qed.
Lemma obytes_range : 256 ^ Z.of_nat (obytes w) = 2 ^ wbits w.
Proof. destruct w; reflexivity. Qed.
Lemma id_at : forall id c, 0 <= id < 2 ^ wbits w ->
  get_at (obytes w) (c_prev (add_off w KId id c) + 1) (c_buf (add_off w KId id c)) = Some id.
Proof.
  intros id c H. unfold add_off, extend, set_buf; cbn [c_buf c_prev add_op add_byte].
  rewrite <- (app_nil_r (le_bytes (obytes w) id)).
  replace (c_size c + 1)%nat with (length (c_buf c ++ [op_code KId])) by (rewrite app_length; reflexivity).
  rewrite get_mid by apply le_bytes_length. rewrite le_val_bytes by (rewrite obytes_range; exact H). reflexivity.
Qed.

(** the ids in a tree fit their operands *)
Definition id_fits (e : expr) : Prop := forall id, as_name e = Some id -> 0 <= id < 2 ^ wbits w.

Theorem lvalue_agrees : forall D idof numof r e ts del c c',
  reads D idof numof r e ts -> id_fits e -> gen e c = Ok c' ->
  extract_lvalue del c' = match as_target e with Some t => gen_target w i8 t del c | None => Err end.
Proof.
  intros D idof numof r e ts del c c' HR Hid H. unfold extract_lvalue.
  destruct (as_target e) as [[id|x i]|] eqn:Et.
  - pose proof (id_gen e id Et c) as Hg. rewrite H in Hg. injection Hg as ->.
    rewrite (ends_byte KId) by apply e_off. rewrite Z.eqb_refl. rewrite id_at by (apply Hid; now apply name_target). reflexivity.
  - rewrite (elem_gen e x i Et c) in H. cbn [gen_target]. rewrite H. cbn [obind].
    assert (He : ends (KBin BArray) c').
    { geq H. out H. out H. out H. injection H as <-. apply e_op. }
    rewrite (ends_byte _ _ He). reflexivity.
  - destruct (none_end e c c') as (o & Ho & He); auto.
    + eapply (proj1 (reads_top D idof numof)); eauto.
    + rewrite (ends_byte _ _ He). destruct (other_codes o Ho) as [-> ->]. reflexivity.
Qed.

Theorem name_agrees : forall D idof numof r e ts c c',
  reads D idof numof r e ts -> id_fits e -> gen e c = Ok c' ->
  extract_name c' = match as_name e with Some id => Ok (id, delete_prev (add_off w KId id c)) | None => Err end.
Proof.
  intros D idof numof r e ts c c' HR Hid H. unfold extract_name.
  destruct (as_name e) as [id|] eqn:En.
  - pose proof (id_gen e id (proj1 (name_target e id) En) c) as Hg. rewrite H in Hg. injection Hg as ->.
    rewrite (ends_byte KId) by apply e_off. rewrite Z.eqb_refl. cbn [negb]. rewrite id_at by (apply Hid; exact En). reflexivity.
  - destruct (as_target e) as [[id|x i]|] eqn:Et.
    + apply name_target in Et. congruence.
    + rewrite (elem_gen e x i Et c) in H.
      assert (He : ends (KBin BArray) c').
      { geq H. out H. out H. out H. injection H as <-. apply e_op. }
      rewrite (ends_byte _ _ He). reflexivity.
    + destruct (none_end e c c') as (o & Ho & He); auto.
      * eapply (proj1 (reads_top D idof numof)); eauto.
      * rewrite (ends_byte _ _ He). destruct (other_codes o Ho) as [-> _]. reflexivity.
Qed.
End Last.
