(** The compiler lays out programs as LayoutSpec.v says: statements. *)
From Coq Require Import ZArith Bool List Lia.
From Verif Require Import Base FloatModel PolyModel ValueModel MathModel MachModel BinModel CodeModel CompModel FrameModel ExecModel LayoutSpec LayoutProofs LayoutEqs GenProofs.
Import ListNotations.
Local Open Scope Z_scope.

Section Gen.
Variable w : width.
Variable i8 : float -> Z.
Notation enc := (enc w).
Notation encs := (encs w).
Notation size := (size w).
Notation comp := (comp w i8).
Notation cargs := (cargs w i8).
Notation clinks := (clinks w i8).
Notation cstmt := (cstmt w i8).
Notation crest := (crest w i8).
Notation osize := (osize w).
Notation rep := (rep w).
Notation settled := (settled w).

Lemma size_jump : forall t f, length (enc (jump t f)) = osize.
Proof. intros [t|] f; apply size_io. Qed.

Hint Rewrite size_app size_cons size_nil size_io size_i0 size_step size_jump comp_size_true clinks_size_some
  Nat.add_0_r Nat.add_assoc app_assoc_r cons_app nil_app (@app_nil_r instr) : sz.
Ltac fin H := autorewrite with sz in H; autorewrite with sz; exact H.

(** * Sizes do not depend on the targets *)
Lemma stmt_sizes :
  (forall s d b k c, size (cstmt d b k c s) = size (cstmt d b None None s)) /\
  (forall r d b k c f, size (crest d b k c f r) = size (crest d b None None None r)).
Proof.
  apply stmt_mut; intros; repeat match goal with x : target |- _ => destruct x | x : oexpr |- _ => destruct x end; autorewrite with lay; cbv zeta; autorewrite with sz; try reflexivity;
    repeat match goal with
    | H : forall d b k c, size (cstmt d b k c ?s) = _ |- context [size (cstmt ?d ?b ?k ?c ?s)] =>
        lazymatch k with None => lazymatch c with None => fail | _ => rewrite (H d b k c) end | _ => rewrite (H d b k c) end
    | H : forall d b k c f, size (crest d b k c f ?s) = _ |- context [size (crest ?d ?b ?k ?c ?f ?s)] =>
        lazymatch k with None => lazymatch c with None => lazymatch f with None => fail | _ => rewrite (H d b k c f) end | _ => rewrite (H d b k c f) end | _ => rewrite (H d b k c f) end
    end; reflexivity.
Qed.
Lemma size_cstmt_k : forall s d b k c, size (cstmt d b (Some k) c s) = size (cstmt d b None c s).
Proof. intros. rewrite (proj1 stmt_sizes). symmetry. apply stmt_sizes. Qed.
Lemma size_cstmt_c : forall s d b k c, size (cstmt d b k (Some c) s) = size (cstmt d b k None s).
Proof. intros. rewrite (proj1 stmt_sizes). symmetry. apply stmt_sizes. Qed.
Lemma size_crest_k : forall s d b k c f, size (crest d b (Some k) c f s) = size (crest d b None c f s).
Proof. intros. rewrite (proj2 stmt_sizes). symmetry. apply stmt_sizes. Qed.
Lemma size_crest_c : forall s d b k c f, size (crest d b k (Some c) f s) = size (crest d b k None f s).
Proof. intros. rewrite (proj2 stmt_sizes). symmetry. apply stmt_sizes. Qed.
Lemma size_crest_f : forall s d b k c f, size (crest d b k c (Some f) s) = size (crest d b k c None s).
Proof. intros. rewrite (proj2 stmt_sizes). symmetry. apply stmt_sizes. Qed.
Hint Rewrite size_cstmt_k size_cstmt_c size_crest_k size_crest_c size_crest_f : sz.
Lemma size_stmt : forall s d b k c, size (cstmt d b k c s) = size (cstmt d b None None s).
Proof. apply stmt_sizes. Qed.
Lemma size_rest : forall s d b k c f, size (crest d b k c f s) = size (crest d b None None None s).
Proof. apply stmt_sizes. Qed.

(** * Patching the jumps of statements *)
Definition patched (f g : fwd) (t : nat) (o : option nat) : option nat :=
  match o with Some x => Some x | None => if fwd_code f =? fwd_code g then Some t else None end.
Lemma patch_jump : forall f g t o, patch1 f (Z.of_nat t) (jump o g) = jump (patched f g t o) g.
Proof. intros f g t [x|]; destruct f, g; reflexivity. Qed.
Lemma patch_settled : forall f t i, settled i -> patch1 f t i = i.
Proof. intros f t i H. pose proof (settled_patch w f t [i]) as Q. cbn [map] in Q. specialize (Q (Forall_cons _ H (Forall_nil _))). congruence. Qed.

Ltac settle := first
  [ apply settled_io; [reflexivity | discriminate] | apply settled_i0; [reflexivity | discriminate]
  | apply settled_step; [reflexivity | discriminate] | apply settled_num ].
Lemma settled_assign : forall a p v, settled (io (assign_op a) p v).
Proof. intros [[]|] p v; settle. Qed.

Lemma stmt_patch :
  (forall s, oks w s -> forall d b k c f t,
     map (patch1 f (Z.of_nat t)) (cstmt d b k c s) = cstmt d b (patched f FBreak t k) (patched f FContinue t c) s) /\
  (forall r, okr w r -> forall d b k c z f t,
     map (patch1 f (Z.of_nat t)) (crest d b k c z r) = crest d b (patched f FBreak t k) (patched f FContinue t c) (patched f FIf t z) r).
Proof.
  apply stmt_mut; intros; repeat match goal with x : target |- _ => destruct x | x : oexpr |- _ => destruct x end; cbn [oks okr okt oko] in *;
    repeat match goal with H : _ /\ _ |- _ => destruct H end; autorewrite with lay; cbv zeta; rewrite ?map_app; cbn [map];
    repeat match goal with
    | |- context [map (patch1 ?f ?t) (comp ?p ?b ?e)] => rewrite (settled_patch w f t (comp p b e)) by (apply settled_expr; assumption)
    | |- context [map (patch1 ?f ?t) (cargs ?b ?e)] => rewrite (settled_patch w f t (cargs b e)) by (apply settled_args; assumption)
    end;
    repeat match goal with H : ?P -> forall d b k c f t, _, H' : ?P |- _ => specialize (H H') end;
    repeat match goal with H : ?P -> forall d b k c z f t, _, H' : ?P |- _ => specialize (H H') end;
    repeat match goal with H : forall d b k c f t, map _ _ = _ |- _ => rewrite !H; clear H end;
    repeat match goal with H : forall d b k c z f t, map _ _ = _ |- _ => rewrite !H; clear H end;
    rewrite ?patch_jump;
    repeat match goal with |- context [patch1 ?f ?t ?i] => rewrite (patch_settled f t i) by (first [settle | apply settled_assign]) end;
    try reflexivity;
    rewrite ?(size_stmt _ _ _ (patched _ _ _ _)), ?(size_rest _ _ _ (patched _ _ _ _)).
  all: try (rewrite ?(size_stmt _ _ _ k), ?(size_rest _ _ _ k); reflexivity).
Qed.

(** * Every jump says what it will be *)
Definition waiting (i : instr) : Prop :=
  walkable w i /\ (i_op i = KForward -> exists f, i_arg i = AOff (fwd_code f + 256 * op_code KBranch)).
Lemma settled_waiting : forall i, settled i -> waiting i.
Proof. intros i [Hw Hn]. split; [exact Hw|]. intros E. contradiction. Qed.
Lemma jump_waiting : forall o f, waiting (jump o f).
Proof.
  intros [x|] f; [apply settled_waiting; settle|]. split; [left; cbn [jump i_arg i_op io arg_bytes]; rewrite le_bytes_length; reflexivity|].
  intros _. exists f. reflexivity.
Qed.
Lemma settled_waiting_all : forall l, Forall settled l -> Forall waiting l.
Proof. intros l H. eapply Forall_impl; [apply settled_waiting | exact H]. Qed.
Lemma stmt_waiting :
  (forall s, oks w s -> forall d b k c, Forall waiting (cstmt d b k c s)) /\
  (forall r, okr w r -> forall d b k c z, Forall waiting (crest d b k c z r)).
Proof.
  apply stmt_mut; intros; repeat match goal with x : target |- _ => destruct x | x : oexpr |- _ => destruct x end; cbn [oks okr okt oko] in *;
    repeat match goal with H : _ /\ _ |- _ => destruct H end; autorewrite with lay; cbv zeta;
    repeat (first [apply Forall_app; split | apply Forall_cons | apply Forall_nil]);
    auto using jump_waiting;
    try (apply settled_waiting; first [settle | apply settled_assign]);
    try (apply settled_waiting_all; first [apply settled_expr; assumption | apply settled_args; assumption]).
Qed.
Lemma waiting_both : forall l, Forall waiting l -> Forall (walkable w) l /\ Forall pending_ok l.
Proof. intros l H. split; (eapply Forall_impl; [|exact H]); intros i [Hw Hp]; [exact Hw|].
  intros E. destruct (Hp E) as (f & Ea). exists f, KBranch. exact Ea.
Qed.

(** * The buffer after a patch *)
Definition lens (l : list instr) : list nat := map (fun i => length (enc i)) l.
Lemma size_lens : forall l, size l = list_sum (lens l).
Proof. induction l as [|i l IH]; [reflexivity|]. rewrite size_cons, IH. reflexivity. Qed.
Lemma lens_removelast : forall l l', lens l = lens l' -> size (removelast l) = size (removelast l').
Proof.
  intros l l' H. rewrite !size_lens. f_equal.
  assert (G : forall l, lens (removelast l) = removelast (lens l)).
  { clear. induction l as [|i l IH]; [reflexivity|]. destruct l as [|j l]; [reflexivity|].
    cbn [removelast] in *. unfold lens in *. cbn [map] in *. rewrite IH. reflexivity. }
  rewrite !G, H. reflexivity.
Qed.
Lemma lens_app : forall a b, lens (a ++ b) = lens a ++ lens b.
Proof. intros. apply map_app. Qed.
Lemma lens_patch : forall f t l, lens (map (patch1 f t) l) = lens l.
Proof. intros. unfold lens. rewrite map_map. apply map_ext. intros i. apply enc_patch1. Qed.
Lemma rep_same : forall l c l' c', rep l c -> c_buf c' = encs l' -> c_prev c' = c_prev c -> lens l = lens l' -> rep l' c'.
Proof.
  intros l c l' c' [_ Hp] Hb Hc Hl. split; [exact Hb|].
  destruct Hp as [-> | Hp].
  - left. destruct l'; [reflexivity | discriminate].
  - right. rewrite Hc, Hp. apply lens_removelast, Hl.
Qed.

(** an instruction with a branch target to be filled in *)
Definition slot (A : Z -> instr) : Prop :=
  (A = io KBranchFalse false) \/ (exists o d id, (o = KRangeStep \/ o = KInStep) /\ A = fun v => I o false (AStep v d id)).
Lemma slot_settled : forall A v, slot A -> settled (A v).
Proof. intros A v [-> | (o & d & id & [-> | ->] & ->)]; settle. Qed.
Lemma slot_len : forall A v v', slot A -> length (enc (A v)) = length (enc (A v')).
Proof. intros A v v' [-> | (o & d & id & [-> | ->] & ->)]; [rewrite !size_io | rewrite !size_step | rewrite !size_step]; reflexivity. Qed.
Lemma slot_patch : forall A l1 v l2 c t, slot A -> c_buf c = encs (l1 ++ A v :: l2) ->
  exists c', patch_branch w (size l1) t c = Ok c' /\ c_buf c' = encs (l1 ++ A t :: l2) /\ c_prev c' = c_prev c /\ c_pprev c' = c_pprev c.
Proof.
  intros A l1 v l2 c t [-> | (o & d & id & _ & ->)] H; [eapply patch_branch_at | eapply patch_step_at]; exact H.
Qed.

Lemma loop_patch : forall A l1 body els c top els_off, slot A -> rep (l1 ++ A 0 :: body ++ io KBranch false 0 :: els) c ->
  Forall waiting body ->
  exists c', patch_loop w top (size l1) (size (l1 ++ A 0 :: body)) els_off c = Ok c' /\
    rep (l1 ++ A (Z.of_nat els_off) ::
         map (patch1 FBreak (Z.of_nat (size (l1 ++ A 0 :: body ++ io KBranch false 0 :: els))))
           (map (patch1 FContinue (Z.of_nat top)) body) ++
         io KBranch false (Z.of_nat top) :: els) c'.
Proof.
  intros A l1 body els c top els_off HA R Hb. unfold patch_loop.
  destruct (slot_patch A _ _ _ _ (Z.of_nat els_off) HA (rep_buf _ _ _ R)) as (c1 & E1 & R1 & P1 & _).
  rewrite E1. cbn [obind].
  assert (R1' : c_buf c1 = encs ((l1 ++ A (Z.of_nat els_off) :: body) ++ io KBranch false 0 :: els)) by (rewrite R1; autorewrite with sz; reflexivity).
  destruct (patch_branch_at w _ _ _ _ _ _ (Z.of_nat top) R1') as (c2 & E2 & R2 & P2 & _).
  assert (Hsz : size (l1 ++ A (Z.of_nat els_off) :: body) = size (l1 ++ A 0 :: body)).
  { rewrite !size_app, !size_cons, (slot_len A (Z.of_nat els_off) 0 HA). reflexivity. }
  rewrite Hsz in E2. rewrite E2. cbn [obind].
  assert (R2' : c_buf c2 = encs (l1 ++ (A (Z.of_nat els_off) :: body) ++ io KBranch false (Z.of_nat top) :: els)) by (rewrite R2; autorewrite with sz; reflexivity).
  assert (W : Forall waiting (A (Z.of_nat els_off) :: body)) by (constructor; [apply settled_waiting, slot_settled, HA | exact Hb]).
  destruct (waiting_both _ W) as [W1 W2].
  destruct (patch_forward_at w _ _ _ _ FContinue (Z.of_nat top) R2' W1 W2) as (c3 & E3 & R3 & P3 & _).
  rewrite <- size_app in E3. rewrite Hsz in E3. rewrite E3. cbn [obind].
  cbn [map] in R3. rewrite (patch_settled _ _ _ (slot_settled A _ HA)) in R3.
  assert (W' : Forall waiting (A (Z.of_nat els_off) :: map (patch1 FContinue (Z.of_nat top)) body)).
  { constructor; [apply settled_waiting, slot_settled, HA|]. apply Forall_map. eapply Forall_impl; [|exact Hb].
    intros i [Hw Hp]. unfold patch1. destruct (i_op i) eqn:Eo; try (split; [exact Hw | rewrite Eo; exact Hp]).
    destruct (Hp eq_refl) as (f & Ea). rewrite Ea, pending_mod, pending_div, op_of_code.
    destruct (_ =? _); [|split; [exact Hw | intros _; exists f; exact Ea]].
    apply settled_waiting. destruct (i_push i); settle. }
  destruct (waiting_both _ W') as [W3 W4].
  destruct (patch_forward_at w _ _ _ _ FBreak (Z.of_nat (c_size c3)) R3 W3 W4) as (c4 & E4 & R4 & P4 & _).
  rewrite <- size_app in E4.
  replace (size (l1 ++ A (Z.of_nat els_off) :: map (patch1 FContinue (Z.of_nat top)) body)) with (size (l1 ++ A 0 :: body)) in E4.
  2:{ rewrite <- Hsz, !size_app, !size_cons, size_patch1. reflexivity. }
  rewrite E4. eexists. split; [reflexivity|].
  assert (Hc3 : c_size c3 = size (l1 ++ A 0 :: body ++ io KBranch false 0 :: els)).
  { rewrite (size_buf _ _ _ R3). rewrite !size_app, !size_cons, !size_app, size_patch1, !size_cons, (slot_len A (Z.of_nat els_off) 0 HA), !size_io. lia. }
  rewrite Hc3 in R4. cbn [map] in R4. rewrite (patch_settled _ _ _ (slot_settled A _ HA)) in R4.
  eapply rep_same; [exact R | exact R4 | congruence |].
  rewrite !lens_app. f_equal. unfold lens at 1 2. cbn [map app]. rewrite (slot_len A (Z.of_nat els_off) 0 HA). f_equal.
  change (lens (body ++ io KBranch false 0 :: els) =
          lens (map (patch1 FBreak (Z.of_nat (size (l1 ++ A 0 :: body ++ io KBranch false 0 :: els))))
                 (map (patch1 FContinue (Z.of_nat top)) body) ++ io KBranch false (Z.of_nat top) :: els)).
  rewrite !lens_app, !lens_patch. f_equal. unfold lens. cbn [map]. rewrite !size_io. reflexivity.
Qed.

(** * What is assigned to *)
Lemma undo_op : forall l c k, rep l c -> rep l (delete_prev (add_op k c)).
Proof.
  intros l c k [Hb Hp]. split.
  - cbn. unfold c_size. rewrite firstn_app, firstn_all, Nat.sub_diag. cbn [firstn]. rewrite app_nil_r. exact Hb.
  - cbn. exact Hp.
Qed.
Lemma undo_off : forall l c k v, rep l c -> rep l (delete_prev (add_off w k v c)).
Proof.
  intros l c k v [Hb Hp]. split.
  - cbn. unfold c_size. rewrite <- app_assoc, firstn_app, firstn_all, Nat.sub_diag. cbn [firstn]. rewrite app_nil_r. exact Hb.
  - cbn. exact Hp.
Qed.
Lemma undo_push : forall l l' c k, rep l c -> push_last l l' ->
  exists c', set_push (c_pprev (add_op k c)) (add_op k c) = Ok c' /\ rep l' (delete_prev c').
Proof.
  intros l l' c k [Hb Hp] (l0 & o & p & a & -> & ->).
  destruct Hp as [Hp|Hp]; [destruct l0; discriminate|]. rewrite removelast_last in Hp.
  unfold set_push. cbn [add_op add_byte c_buf c_pprev]. rewrite Hp, Hb, encs_app, encs_one, <- app_assoc.
  rewrite nth_enc. eexists. split; [reflexivity|]. unfold LayoutSpec.enc at 1. cbn [i_op i_push i_arg app]. rewrite byte_op_byte. unfold LayoutSpec.size.
  rewrite upd_mid. unfold set_buf. cbn [c_prev c_pprev]. split.
  - cbn [delete_prev c_buf c_prev]. rewrite encs_app, encs_one. change (c_prev (add_op k c)) with (length (c_buf c)). rewrite Hb, encs_app, encs_one, app_length.
    unfold LayoutSpec.enc. cbn [i_op i_push i_arg length].
    replace (encs l0 ++ op_code o + 128 :: arg_bytes w a ++ [op_code k])
      with ((encs l0 ++ op_byte o true :: arg_bytes w a) ++ [op_code k]) by (rewrite <- app_assoc; reflexivity).
    rewrite firstn_app. rewrite firstn_all2 by (rewrite app_length; cbn; lia).
    rewrite app_length. cbn [length]. rewrite Nat.sub_diag. cbn [firstn]. rewrite app_nil_r. reflexivity.
  - right. cbn [delete_prev c_prev c_pprev]. rewrite removelast_last. exact Hp.
Qed.

Lemma target_gen : forall t del l c, okt w t -> rep l c -> l <> [] ->
  exists c', gen_target w i8 t del c = Ok (match t with TId id => id | TElem _ _ => 0 end, c') /\
    rep (l ++ match t with
              | TId _ => []
              | TElem x i => comp true (size l) x ++ comp (negb del) (size (l ++ comp true (size l) x)) i
              end) c'.
Proof.
  intros [id|x i] del l c H R Hne; unfold gen_target.
  - eexists. split; [reflexivity|]. rewrite app_nil_r. apply undo_off, R.
  - destruct H as [Hx Hi]. rewrite gen_EIndex_x_i_eq.
    destruct (gen_expr w i8 x Hx l c R (or_introl Hne)) as (c1 & E1 & R1). rewrite E1. cbn [obind].
    destruct (rep_push _ _ _ _ R1 (push_last_comp w i8 l x (size l))) as (c2 & E2 & R2). rewrite E2. cbn [obind].
    destruct (gen_expr w i8 i Hi _ _ R2) as (c3 & E3 & R3); [left; destruct l; [contradiction | discriminate]|].
    rewrite E3. cbn [obind]. rewrite app_assoc. destruct del; cbn [obind negb].
    + eexists. split; [reflexivity|]. apply undo_op, R3.
    + destruct (undo_push _ _ _ (KBin BArray) R3 (push_last_comp w i8 _ i _)) as (c4 & E4 & R4).
      rewrite E4. cbn [obind]. eexists. split; [reflexivity|]. exact R4.
Qed.

(** * Statements *)
Lemma inum_size : forall p q f, length (enc (inum i8 p f)) = length (enc (inum i8 q f)).
Proof. intros p q f. destruct (inum_cases i8 f) as (o & a & H). rewrite !H. reflexivity. Qed.
Definition stmt_gen (s : stmt) : Prop := oks w s -> forall d l c, rep l c -> l <> [] ->
  exists c', gen_stmt w i8 d s c = Ok c' /\ rep (l ++ cstmt d (size l) None None s) c'.
Definition rest_gen (r : rest) : Prop := okr w r -> forall d l c, rep l c -> l <> [] ->
  exists c', gen_rest w i8 d r c = Ok ((size l + relse w r)%nat, c') /\ rep (l ++ crest d (size l) None None None r) c'.

Lemma ne_l : forall (l a : list instr), l <> [] -> l ++ a <> [].
Proof. intros [|] a H; [contradiction | discriminate]. Qed.
Lemma ne_one : forall (l : list instr) x, l ++ [x] <> [].
Proof. intros [|] x H; discriminate H. Qed.
Lemma patched_cf : forall t, patched FContinue FBreak t None = None.
Proof. reflexivity. Qed.

(** the end of a loop: [A] is the instruction that leaves it, the body is compiled *)
Lemma loop_end : forall A l1 d s els c1 top, slot A -> rep (l1 ++ [A 0]) c1 -> l1 <> [] -> oks w s -> stmt_gen s -> oks w els -> stmt_gen els ->
  forall d', let b1 := size (l1 ++ [A 0]) in
  let b2 := (b1 + size (cstmt d b1 None None s) + osize)%nat in
  let cels := cstmt d' b2 None None els in
  exists c',
    obind (gen_stmt w i8 d s c1) (fun c =>
      let c := add_off w KBranch 0 c in
      let loop_end := c_prev c in
      let else_off := c_size c in
      obind (gen_stmt w i8 d' els c) (fun c => patch_loop w top (size l1) loop_end else_off c)) = Ok c' /\
    rep (l1 ++ A (Z.of_nat b2) :: cstmt d b1 (Some (b2 + size cels)%nat) (Some top) s ++ io KBranch false (Z.of_nat top) :: cels) c'.
Proof.
  intros A l1 d s els c1 top HA R1 Hne Hs IHs He IHe d' b1 b2 cels.
  destruct (IHs Hs d _ _ R1) as (c2 & E2 & R2); [apply ne_l, Hne|]. rewrite E2. cbn [obind]. cbv zeta.
  fold b1 in R2. pose proof (rep_off w _ _ KBranch 0 (rep_buf _ _ _ R2)) as R3.
  destruct (IHe He d' _ _ R3) as (c4 & E4 & R4); [apply ne_app; discriminate|]. rewrite E4. cbn [obind].
  assert (Hle : c_prev (add_off w KBranch 0 c2) = size (l1 ++ A 0 :: cstmt d b1 None None s)).
  { change (c_prev (add_off w KBranch 0 c2)) with (c_size c2). rewrite (rep_size _ _ _ R2). rewrite <- app_assoc. reflexivity. }
  assert (Heo : c_size (add_off w KBranch 0 c2) = b2).
  { rewrite (rep_size _ _ _ R3). unfold b2, b1. autorewrite with sz. reflexivity. }
  rewrite Hle, Heo.
  assert (R4' : rep (l1 ++ A 0 :: cstmt d b1 None None s ++ io KBranch false 0 :: cels) c4).
  { replace (size (((l1 ++ [A 0]) ++ cstmt d b1 None None s) ++ [io KBranch false 0])) with b2 in R4
      by (unfold b2, b1; autorewrite with sz; reflexivity).
    fold cels in R4. rewrite <- !app_assoc in R4. exact R4. }
  destruct (loop_patch A l1 _ _ _ top b2 HA R4' (proj1 stmt_waiting s Hs _ _ _ _)) as (c5 & E5 & R5).
  exists c5. split; [exact E5|].
  rewrite !(proj1 stmt_patch s Hs) in R5. cbn [patched fwd_code Z.eqb] in R5.
  match goal with R5 : rep (l1 ++ _ :: cstmt _ _ (Some ?n) _ _ ++ _) _ |- _ => replace n with (b2 + size cels)%nat in R5 end.
  - exact R5.
  - unfold b2, b1. autorewrite with sz. reflexivity.
Qed.

Theorem gen_stmt_layout : (forall s, stmt_gen s) /\ (forall r, rest_gen r).
Proof.
  apply stmt_mut.
  - (* SSkip *) intros _ d l c R _. autorewrite with gen lay. exists c. rewrite app_nil_r. auto.
  - (* SSeq *) intros s IHs t IHt [Hs Ht] d l c R Hne. autorewrite with gen lay. cbv zeta.
    destruct (IHs Hs d l c R Hne) as (c1 & E1 & R1). rewrite E1. cbn [obind].
    destruct (IHt Ht d _ _ R1 (ne_l _ _ Hne)) as (c2 & E2 & R2). exists c2. split; [exact E2|].
    rewrite size_app, <- app_assoc in R2. exact R2.
  - (* SLine *) intros n _ d l c R _. autorewrite with gen lay. eexists. split; [reflexivity|]. apply rep_off, R.
  - (* SExpr *) intros e He d l c R Hne. autorewrite with gen lay. apply gen_expr; auto. left. exact Hne.
  - (* SAssign *) intros a t e [Ht He] d l c R Hne. autorewrite with gen.
    destruct (target_gen t false l c Ht R Hne) as (c1 & E1 & R1). rewrite E1. cbn [obind].
    destruct (gen_expr w i8 e He _ _ R1 (or_introl (ne_l _ _ Hne))) as (c2 & E2 & R2). rewrite E2. cbn [obind].
    eexists. split; [reflexivity|].
    pose proof (rep_off w _ _ (assign_op a) (match t with TId id => id | TElem _ _ => 0 end) (rep_buf _ _ _ R2)) as R3.
    destruct t as [id|x i]; autorewrite with lay; cbv zeta.
    + fin R3.
    + cbn [negb] in R3. fin R3.
  - (* SDel *) intros t Ht d l c R Hne. autorewrite with gen.
    destruct (target_gen t true l c Ht R Hne) as (c1 & E1 & R1). rewrite E1. cbn [obind].
    eexists. split; [reflexivity|].
    pose proof (rep_off w _ _ KDel (match t with TId id => id | TElem _ _ => 0 end) (rep_buf _ _ _ R1)) as R3.
    destruct t as [id|x i]; autorewrite with lay; cbv zeta.
    + fin R3.
    + cbn [negb] in R3. fin R3.
  - (* SReturn *) intros [|e] He d l c R Hne; autorewrite with gen lay; cbn [obind].
    + eexists. split; [reflexivity|].
      pose proof (rep_op w _ _ KNull (rep_buf _ _ _ R)) as R1. pose proof (rep_op w _ _ KReturn (rep_buf _ _ _ R1)) as R2.
      rewrite <- app_assoc in R2. exact R2.
    + destruct (gen_expr w i8 e He l c R (or_introl Hne)) as (c1 & E1 & R1). rewrite E1. cbn [obind].
      eexists. split; [reflexivity|]. rewrite app_assoc. apply rep_op, R1.
  - (* SBreak *) intros _ d l c R _. autorewrite with gen lay. eexists. split; [reflexivity|]. apply rep_off, R.
  - (* SContinue *) intros _ d l c R _. autorewrite with gen lay. eexists. split; [reflexivity|]. apply rep_off, R.
  - (* SGlobal *) intros id _ d l c R _. autorewrite with gen lay. eexists. split; [reflexivity|]. apply rep_off, R.
  - (* SAssert *) intros e He d l c R Hne. autorewrite with gen lay.
    destruct (gen_expr w i8 e He l c R (or_introl Hne)) as (c1 & E1 & R1). rewrite E1. cbn [obind].
    eexists. split; [reflexivity|]. rewrite app_assoc. apply rep_op, R1.
  - (* SIf *) intros e s IHs r IHr (He & Hs & Hr) d l c R Hne. autorewrite with gen lay. cbv zeta.
    destruct (gen_expr w i8 e He l c R (or_introl Hne)) as (c1 & E1 & R1). rewrite E1. cbn [obind].
    pose proof (rep_off w _ _ KBranchFalse 0 (rep_buf _ _ _ R1)) as R2.
    destruct (IHs Hs d _ _ R2) as (c3 & E3 & R3); [apply ne_app; discriminate|]. rewrite E3. cbn [obind].
    destruct (IHr Hr d _ _ R3) as (c4 & E4 & R4); [apply ne_l, ne_app; discriminate|]. rewrite E4. cbn [obind].
    replace (c_prev (add_off w KBranchFalse 0 c1)) with (size (l ++ comp false (size l) e)) by (symmetry; exact (rep_size _ _ _ R1)).
    match type of R3 with rep ?l _ => set (b2 := size l) in * end.
    match type of R2 with rep ?l _ => set (b1 := size l) in * end.
    rewrite (app_assoc_r _ (cstmt d b1 None None s)), (app_assoc_r _ [io KBranchFalse false 0]) in R4. cbn [app] in R4.
    match type of R4 with rep (_ ++ _ :: ?cs ++ ?cr) _ => set (cs_ := cs) in *; set (cr_ := cr) in * end.
    destruct (patch_branch_at w _ _ _ _ _ _ (Z.of_nat (b2 + relse w r)) (rep_buf _ _ _ R4)) as (c5 & E5 & R5 & P5 & _).
    rewrite E5. cbn [obind].
    match type of R5 with c_buf _ = encs (_ ++ ?B :: _) => set (B_ := B) in * end.
    assert (R5' : c_buf c5 = encs ((l ++ comp false (size l) e) ++ (B_ :: cs_ ++ cr_) ++ [])) by (rewrite app_nil_r; exact R5).
    assert (HB : settled B_) by (unfold B_; settle).
    destruct (waiting_both (B_ :: cs_ ++ cr_)) as [W1 W2].
    { constructor; [apply settled_waiting, HB|]. apply Forall_app. split; [apply stmt_waiting, Hs | apply stmt_waiting, Hr]. }
    destruct (patch_forward_at w _ _ _ _ FIf (Z.of_nat (c_size c5)) R5' W1 W2) as (c6 & E6 & R6 & P6 & _).
    rewrite <- size_app in E6. rewrite app_nil_r in R5'. rewrite <- (size_buf _ _ _ R5') in E6. rewrite E6.
    exists c6. split; [reflexivity|].
    rewrite app_nil_r in R6. cbn [map] in R6. rewrite (patch_settled _ _ _ HB), map_app in R6.
    assert (R7 : rep ((l ++ comp false (size l) e) ++ B_ :: map (patch1 FIf (Z.of_nat (c_size c5))) cs_ ++ map (patch1 FIf (Z.of_nat (c_size c5))) cr_) c6).
    { eapply rep_same; [exact R4 | exact R6 | congruence |]. rewrite !lens_app. f_equal.
      change (length (enc (io KBranchFalse false 0)) :: lens (cs_ ++ cr_) = length (enc B_) :: lens (map (patch1 FIf (Z.of_nat (c_size c5))) cs_ ++ map (patch1 FIf (Z.of_nat (c_size c5))) cr_)).
      unfold B_. rewrite !size_io, !lens_app, !lens_patch. reflexivity. }
    unfold cs_, cr_ in R7. rewrite (proj1 stmt_patch s Hs), (proj2 stmt_patch r Hr) in R7. cbn [patched fwd_code Z.eqb Pos.eqb] in R7.
    rewrite (size_buf _ _ _ R5') in R7. unfold B_, cr_, b2, cs_, b1 in R7. fin R7.
  - (* SWhile *) intros e s IHs els IHe (He & Hs & Hel) d l c R Hne. autorewrite with gen lay. cbv zeta.
    destruct (gen_expr w i8 e He l c R (or_introl Hne)) as (c1 & E1 & R1). rewrite E1. cbn [obind].
    pose proof (rep_off w _ _ KBranchFalse 0 (rep_buf _ _ _ R1)) as R2.
    replace (c_prev (add_off w KBranchFalse 0 c1)) with (size (l ++ comp false (size l) e)) by (symmetry; exact (rep_size _ _ _ R1)).
    destruct (loop_end (io KBranchFalse false) _ d s els _ (c_size c) (or_introl eq_refl) R2 (ne_l _ _ Hne) Hs IHs Hel IHe d) as (c3 & E3 & R3).
    cbv zeta in E3. exists c3. split; [exact E3|]. rewrite (rep_size _ _ _ R) in R3. fin R3.
  - (* SRange *) intros id a s IHs els IHe (Ha & Hp & Hn & Hs & Hel) d l c R Hne. autorewrite with gen lay. cbv zeta.
    destruct (positional_facts a Hp) as (Hord & Hz & Hna).
    destruct (gen_args_layout w i8 a Ha l c 0 0 0 R (or_introl Hne)) as (c1 & E1 & R1);
      [lia | lia | lia | exact Hord | destruct a; auto | lia | lia |].
    rewrite E1. cbn [obind]. rewrite Z.add_0_l. replace (256 <=? nargs a) with false by (symmetry; apply Z.leb_gt; lia).
    unfold add_in_range.
    pose proof (rep_step w _ _ KRangeStart (nargs a mod 256) d id (rep_buf _ _ _ R1)) as R2.
    pose proof (rep_step w _ _ KRangeStep 0 d id (rep_buf _ _ _ R2)) as R3.
    set (c2 := add_step w KRangeStart (nargs a mod 256) d id c1) in *.
    change (c_prev (add_step w KRangeStep 0 d id c2)) with (c_size c2). rewrite (rep_size _ _ _ R2).
    destruct (loop_end (fun v => I KRangeStep false (AStep v d id)) _ (d + 1) s els _ (size ((l ++ cargs (size l) a) ++ [I KRangeStart false (AStep (nargs a mod 256) d id)]))
      (or_intror (ex_intro _ KRangeStep (ex_intro _ d (ex_intro _ id (conj (or_introl eq_refl) eq_refl))))) R3 (ne_one _ _) Hs IHs Hel IHe d) as (c3 & E3 & R4).
    cbv zeta in E3. exists c3. split; [exact E3|].
    pose proof (counts_nonneg a). rewrite Hna, (Z.mod_small (npos a)), <- Hna in R4 by lia. fin R4.
  - (* SFor *) intros id e s IHs els IHe (He & Hs & Hel) d l c R Hne. autorewrite with gen lay. cbv zeta.
    destruct (gen_expr w i8 e He l c R (or_introl Hne)) as (c1 & E1 & R1). rewrite E1. cbn [obind].
    unfold add_in_enum.
    pose proof (rep_off w _ _ KAssign (for_tmp w d 0) (rep_buf _ _ _ R1)) as R2.
    pose proof (rep_number w i8 _ _ f_zero (rep_buf _ _ _ R2)) as R3.
    pose proof (rep_off w _ _ KAssign (for_tmp w d 1) (rep_buf _ _ _ R3)) as R4.
    pose proof (rep_step w _ _ KInStep 0 d id (rep_buf _ _ _ R4)) as R5.
    match type of R4 with rep _ ?c => set (c2 := c) in * end.
    change (c_prev (add_step w KInStep 0 d id c2)) with (c_size c2). rewrite (rep_size _ _ _ R4).
    match type of R4 with rep ?l _ => set (l2 := l) in * end.
    destruct (loop_end (fun v => I KInStep false (AStep v d id)) _ (d + 1) s els _ (size l2)
      (or_intror (ex_intro _ KInStep (ex_intro _ d (ex_intro _ id (conj (or_intror eq_refl) eq_refl))))) R5 (ne_one _ _) Hs IHs Hel IHe d) as (c3 & E3 & R6).
    cbv zeta in E3. exists c3. split; [exact E3|]. unfold l2 in R6. fin R6.
  - (* RNone *) intros _ d l c R _. autorewrite with gen lay. exists c. cbn [relse]. rewrite app_nil_r, Nat.add_0_r, (rep_size _ _ _ R). auto.
  - (* RElse *) intros s IHs Hs d l c R Hne. autorewrite with gen lay. cbv zeta.
    pose proof (rep_off w _ _ KForward (fwd_code FIf + 256 * op_code KBranch) (rep_buf _ _ _ R)) as R1.
    fold (add_forward_op w FIf (op_code KBranch) c) in R1. fold (add_forward w FIf c) in R1.
    destruct (IHs Hs d _ _ R1) as (c2 & E2 & R2); [apply ne_app; discriminate|]. rewrite E2. cbn [obind].
    exists c2. split.
    + rewrite (rep_size _ _ _ R1). cbn [relse]. autorewrite with sz. reflexivity.
    + cbn [jump]. fin R2.
  - (* RElif *) intros line e s IHs r IHr (He & Hs & Hr) d l c R Hne. autorewrite with gen lay. cbv zeta.
    pose proof (rep_off w _ _ KLine line (rep_buf _ _ _ R)) as R0. fold (add_line w line c) in R0.
    pose proof (rep_off w _ _ KForward (fwd_code FIf + 256 * op_code KBranch) (rep_buf _ _ _ R0)) as R1.
    fold (add_forward_op w FIf (op_code KBranch) (add_line w line c)) in R1. fold (add_forward w FIf (add_line w line c)) in R1.
    destruct (gen_expr w i8 e He _ _ R1) as (c2 & E2 & R2); [left; apply ne_app; discriminate|]. rewrite E2. cbn [obind].
    pose proof (rep_off w _ _ KBranchFalse 0 (rep_buf _ _ _ R2)) as R3.
    destruct (IHs Hs d _ _ R3) as (c3 & E3 & R4); [apply ne_app; discriminate|]. rewrite E3. cbn [obind].
    destruct (IHr Hr d _ _ R4) as (c4 & E4 & R5); [apply ne_l, ne_app; discriminate|]. rewrite E4. cbn [obind].
    replace (c_prev (add_off w KBranchFalse 0 c2)) with (size (((l ++ [io KLine false line]) ++ [io KForward false (fwd_code FIf + 256 * op_code KBranch)]) ++
       comp false (size ((l ++ [io KLine false line]) ++ [io KForward false (fwd_code FIf + 256 * op_code KBranch)])) e)) by (symmetry; exact (rep_size _ _ _ R2)).
    match type of R4 with rep ?l _ => set (b2 := (size l)%nat) in * end.
    match type of R3 with rep ?l _ => set (b1 := size l) in * end.
    rewrite (app_assoc_r _ (cstmt d b1 None None s)), (app_assoc_r _ [io KBranchFalse false 0]) in R5. cbn [app] in R5.
    destruct (patch_branch_at w _ _ _ _ _ _ (Z.of_nat (b2 + relse w r)) (rep_buf _ _ _ R5)) as (c5 & E5 & R6 & P6 & _).
    rewrite E5. cbn [obind]. exists c5. split.
    + rewrite (rep_size _ _ _ R1). cbn [relse]. autorewrite with sz. reflexivity.
    + assert (R7 := rep_same _ _ _ _ R5 R6 P6). unfold b2, b1 in R7. cbn [jump].
      assert (R8 := R7 ltac:(rewrite !lens_app; f_equal; unfold lens; cbn [map]; rewrite !size_io; reflexivity)).
      fin R8.
Qed.

(** * Commands and functions *)
Lemma lined_gen : forall s, lined s = true -> oks w s -> forall d c, rep [] c ->
  exists c', gen_stmt w i8 d s c = Ok c' /\ rep (cstmt d 0 None None s) c' /\ cstmt d 0 None None s <> [].
Proof.
  induction s; intros Hl Ho d c0 R; try discriminate.
  - cbn [lined] in Hl. destruct Ho as [H1 H2]. autorewrite with gen lay. cbv zeta.
    destruct (IHs1 Hl H1 d c0 R) as (c1 & E1 & R1 & N1). rewrite E1. cbn [obind].
    destruct (proj1 gen_stmt_layout s2 H2 d _ _ R1 N1) as (c2 & E2 & R2).
    exists c2. split; [exact E2|]. split; [exact R2 | apply ne_l, N1].
  - autorewrite with gen lay. eexists. split; [reflexivity|]. split; [apply (rep_off w [] c0 KLine n (rep_buf _ _ _ R)) | discriminate].
Qed.
Lemma rep_reset : forall c, rep [] (code_reset c).
Proof. intros c. split; [reflexivity | left; reflexivity]. Qed.
Theorem gen_command_layout : forall s c, lined s = true -> oks w s ->
  gen_command w i8 s c = Ok (encs (cstmt 0 0 None None s)).
Proof.
  intros s c Hl Ho. unfold gen_command. destruct (lined_gen s Hl Ho 0 _ (rep_reset c)) as (c' & E & R & _).
  rewrite E. cbn [obind]. f_equal. apply R.
Qed.

Lemma formals_gen : forall fs l c, Forall (fun p => oko w (snd p)) fs -> startable l (lead_formals fs) -> rep l c ->
  exists c', gen_formals w i8 fs c = Ok c' /\ rep (l ++ cformals w i8 (size l) fs) c'.
Proof.
  induction fs as [|[id o] fs IH]; intros l c H St R.
  - exists c. split; [reflexivity|]. cbn [cformals]. rewrite app_nil_r. exact R.
  - inversion H as [|? ? Ho Hfs]; subst. destruct o as [|e]; cbn [gen_formals cformals lead_formals snd oko] in *.
    + apply IH; assumption.
    + destruct (gen_expr w i8 e Ho l c R St) as (c1 & E1 & R1). rewrite E1. cbn [obind].
      pose proof (rep_off w _ _ KAssignNamed id (rep_buf _ _ _ R1)) as R2.
      destruct (IH _ _ Hfs (or_introl (ne_one _ _)) R2) as (c3 & E3 & R3). exists c3. split; [exact E3|]. cbv zeta. fin R3.
Qed.

Lemma return_byte : forall i, (op_byte (i_op i) (i_push i) =? op_code KReturn) = is_return i.
Proof.
  intros [o p a]. unfold is_return. cbn [i_op i_push]. destruct p.
  - replace (op_byte o true =? op_code KReturn) with false.
    + destruct o; reflexivity.
    + symmetry. apply Z.eqb_neq. pose proof (op_code_range o). unfold op_byte. cbn. lia.
  - rewrite op_byte_false. destruct (op_code o =? op_code KReturn) eqn:E.
    + apply Z.eqb_eq in E. pose proof (op_of_code o) as Q. rewrite E, op_of_code in Q. injection Q as <-. reflexivity.
    + destruct o; try reflexivity. discriminate E.
Qed.

Theorem gen_def_layout : forall f c, okfd w f -> gen_def w i8 f c = Ok (encs (cdef w i8 f)).
Proof.
  intros f c (Hf & Hl & Hs & Hli). unfold gen_def, cdef.
  destruct (formals_gen (fd_formals f) [] _ Hf (or_intror Hl) (rep_reset c)) as (c1 & E1 & R1). rewrite E1. cbn [obind].
  assert (B : exists c2, gen_stmt w i8 0 (fd_body f) c1 = Ok c2 /\ rep (cbody w i8 f) c2 /\ cbody w i8 f <> []).
  { unfold cbody. cbn [app] in R1. change (size []) with O in R1. cbv zeta. destruct (cformals w i8 0 (fd_formals f)) as [|i l] eqn:Ef.
    - apply lined_gen; assumption.
    - destruct (proj1 gen_stmt_layout (fd_body f) Hs 0 _ _ R1) as (c2 & E2 & R2); [discriminate|].
      exists c2. split; [exact E2|]. split; [exact R2 | discriminate]. }
  destruct B as (c2 & E2 & [Rb Rp] & Hne). rewrite E2. cbn [obind].
  destruct Rp as [Rp|Rp]; [contradiction|].
  destruct (exists_last Hne) as (l & i & El). rewrite El in *. rewrite removelast_last in Rp. rewrite rev_unit.
  assert (Hn : nth_error (c_buf c2) (c_prev c2) = Some (op_byte (i_op i) (i_push i))).
  { rewrite Rb, Rp, encs_app, encs_one. replace (encs l ++ enc i) with (encs l ++ enc i ++ []) by (rewrite app_nil_r; reflexivity). apply nth_enc. }
  rewrite Hn, return_byte. f_equal. destruct (is_return i).
  - rewrite rev_involutive. cbn [delete_prev c_buf]. rewrite Rp, Rb, encs_app. unfold LayoutSpec.size.
    rewrite firstn_app, firstn_all, Nat.sub_diag. cbn [firstn]. apply app_nil_r.
  - apply (rep_op w _ _ KNull Rb).
Qed.
End Gen.
