(** Frames, calls and instructions are tame (TameSpec.v). *)
From Coq Require Import ZArith Bool List Lia.
From Verif Require Import Base FloatModel PolyModel ValueModel SliceModel MathModel MachModel ListModel StrModel BinModel FrameModel CodeModel ExecModel TameSpec TameProofs.
Import ListNotations.
Local Open Scope Z_scope.
Open Scope st_scope.

Notation Sn := Datatypes.S.

Section Gen.
Variable E : env.
Lemma ts_lm {A} n n' (x : M A) : mtame E n n' x -> stame E n n' (lm x).
Proof.
  intros Hx s a s' H. unfold lm in H. destruct (x (s_m s)) as [[b m]|] eqn:e; [|discriminate].
  injection H as <- <-. exact (Hx _ _ _ e).
Qed.
Lemma ts_ret {A} n (a : A) : stame E n n (sret a).
Proof. apply tame_same. intros s a' s' H. injection H as <- <-. apply same_refl. Qed.
Lemma ts_undef {A} n n' : stame E n n' (@sundef A).
Proof. intros s a s' H. discriminate. Qed.
Lemma ts_bind {A B} n n1 n' (x : S A) (f : A -> S B) :
  stame E n n1 x -> (forall a, stame E n1 n' (f a)) -> stame E n n' (sbind x f).
Proof. apply tame_gbind. Qed.
End Gen.
#[export] Hint Resolve ts_ret ts_undef : tame.

Ltac ts_step :=
  match goal with
  | |- stame _ _ _ (sbind _ _) => eapply ts_bind; [|intro]
  | |- stame _ _ _ (match ?x with _ => _ end) => destruct x eqn:?
  | |- stame _ _ _ (let '_ := ?x in _) => destruct x
  | |- stame _ _ _ ((fun _ => _) _) => cbv beta
  | |- stame _ _ _ (lm _) => apply ts_lm; tm_step
  | |- mtame _ _ _ _ => tm_step
  | |- stame _ _ _ _ => solve [eauto with tame nocore]
  end.
Ltac ts := repeat ts_step.

Section Frame.
Variable E : env.
Variable T : texts.
Variable powf : float -> float -> outcome float.
Notation stm := (stame E).

Lemma s_m_put_frame g vs s : s_m (put_frame g vs s) = s_m s.
Proof. destruct g; cbn; [reflexivity|]. destruct (s_frames s); reflexivity. Qed.
Ltac ssame := intros; apply tame_same; intros ? ? ? H_;
  repeat match type of H_ with
  | match ?x with _ => _ end = _ => destruct x; try discriminate H_
  end; injection H_; intros; subst; rewrite ?s_m_put_frame; repeat split.

Lemma ts_get n : stm n n get.
Proof. unfold get. ssame. Qed.
Lemma ts_put_a n a : stm n n (put_a a).
Proof. unfold put_a. ssame. Qed.
Lemma ts_get_a n : stm n n get_a.
Proof. unfold get_a. ssame. Qed.
Hint Resolve ts_get ts_put_a ts_get_a : tame.
Lemma ts_new_frame n k : stm n n (new_frame E k).
Proof. unfold new_frame. ts. Qed.
Hint Resolve ts_new_frame : tame.
Lemma ts_variable_insert n g : stm n n (variable_insert E g).
Proof. unfold variable_insert. ts. ssame. Qed.
Lemma ts_set_id n g k i : stm n n (set_id g k i).
Proof. unfold set_id. ssame. Qed.
Hint Resolve ts_variable_insert ts_set_id : tame.
Lemma ts_variable_lookup n g i b : stm n n (variable_lookup E g i b).
Proof. unfold variable_lookup. ts. Qed.
Lemma ts_read n r : stm n n (read r).
Proof. unfold read. ssame. Qed.
Lemma ts_write n r v : stm n n (write r v).
Proof. unfold write. ssame. Qed.
Hint Resolve ts_variable_lookup ts_read ts_write : tame.
Lemma ts_id_ref n i b : stm n n (id_ref E i b).
Proof. unfold id_ref. ts. Qed.
Lemma ts_mark_global n i : stm n n (mark_global E i).
Proof. unfold mark_global. ts. Qed.
Hint Resolve ts_id_ref ts_mark_global : tame.
Lemma ts_id_store n i v : stm n n (id_store E i v).
Proof. unfold id_store. ts. Qed.
Lemma ts_id_is_local n i : stm n n (id_is_local E i).
Proof. unfold id_is_local. ts. Qed.
Lemma ts_variable_delete n i : stm n n (variable_delete E i).
Proof. unfold variable_delete. ts. ssame. Qed.
Hint Resolve ts_id_store ts_id_is_local ts_variable_delete : tame.
Lemma ts_id_del n i : stm n n (id_del E i).
Proof. unfold id_del. ts. Qed.
Lemma ts_frame_push n k : stm n n (frame_push E k).
Proof. unfold frame_push. ts. ssame. Qed.
Lemma ts_frame_pop n : stm n n frame_pop.
Proof. unfold frame_pop. ssame. Qed.
Lemma ts_assign_id n i : stm n n (assign_id E i).
Proof. unfold assign_id. ts. Qed.
Hint Resolve ts_id_del ts_frame_push ts_frame_pop ts_assign_id : tame.
Lemma ts_assign_named n i : stm n n (assign_named E i).
Proof. unfold assign_named. ts. Qed.
Lemma ts_augment_id n o i : stm n n (augment_id E T powf o i).
Proof. unfold augment_id. ts. Qed.
Lemma ts_func_actual n i v p : stm n n (func_actual i v p).
Proof. unfold func_actual. ssame. all: cbn; destruct (s_frames s); repeat split. Qed.
Lemma ts_pop_id n : stm (Sn n) n (pop_id E).
Proof. unfold pop_id. ts. Qed.
Hint Resolve ts_assign_named ts_augment_id ts_func_actual ts_pop_id : tame.
Lemma ts_check_required {C} (f : func C) k : forall n p, stm n n (check_required f k p).
Proof. induction k as [|k IH]; intros; cbn [check_required]; ts. Qed.
Hint Resolve ts_check_required : tame.

(** operations of which only the errors matter *)
Definition mild {A} (x : S A) : Prop :=
  forall s a s', x s = Some (a, s') ->
    at_most_one (s_m s) (s_m s') /\ length (m_stack (s_m s')) = length (m_stack (s_m s)).
Lemma mild_tame {A} n n' (x : S A) : stm n n' x -> mild x.
Proof. intros H s a s' e. destruct (H _ _ _ e) as (? & ? & _). auto. Qed.
Lemma mild_bind {A B} (x : S A) (f : A -> S B) : mild x -> (forall a, mild (f a)) -> mild (sbind x f).
Proof.
  intros Hx Hf s b s' H. unfold sbind in H. destruct (x s) as [[a s1]|] eqn:e; [|discriminate].
  destruct (Hx _ _ _ e). destruct (Hf _ _ _ _ H). split; [eapply amo_trans; eauto|congruence].
Qed.

Lemma mild_bind_actuals {C} (f : func C) np pos : mild (bind_actuals E f np pos).
Proof.
  induction pos as [|pos IH]; cbn [bind_actuals]; [apply (mild_tame 0 0); ts|].
  apply mild_bind; [apply (mild_tame 1 0); ts|]. intro v.
  apply mild_bind.
  { destruct (Nat.leb np pos); [apply (mild_tame 1 0)|apply (mild_tame 0 0)]; ts. }
  intros [id ok]. destruct ok; [|apply (mild_tame 0 0); ts].
  apply mild_bind; [apply (mild_tame 0 0); ts|]. intros []; auto. apply (mild_tame 0 0); ts.
Qed.
Lemma mild_set_sp sp : mild (fun s => Some (tt, set_m (set_stack (m_stack (s_m s)) sp (s_m s)) s)).
Proof. intros s a s' H. injection H as <- <-. cbn. split; [|reflexivity]. unfold at_most_one. cbn. destruct (m_abort (s_m s)); auto. Qed.
Lemma mild_func_push {C} (f : func C) np nn : mild (func_push E f np nn).
Proof.
  unfold func_push. apply mild_bind; [apply (mild_tame 0 0); ts|]. intro ok.
  destruct (negb ok); [apply (mild_tame 0 0); ts|]. destruct (_ <? _).
  { apply (mild_tame 0 0); ts. }
  apply mild_bind; [apply (mild_tame 0 0); ts|]. intro s0. cbv zeta.
  apply mild_bind; [apply mild_bind_actuals|]. intro bad.
  apply mild_bind; [apply (mild_tame 0 0); ts|]. intro bad'.
  destruct bad'; [|apply (mild_tame 0 0); ts].
  apply mild_bind; [apply mild_set_sp|]. intro. apply (mild_tame 0 0); ts.
Qed.

(** a call that binds all arguments has taken them from the stack *)
Lemma bind_actuals_level {C} (f : func C) np : forall pos s s',
  bind_actuals E f np pos s = Some (None, s') -> m_abort (s_m s') = false ->
  level (pos + (pos - np)) 0 (s_m s) (s_m s') /\ (sane E (s_m s) -> sane E (s_m s')).
Proof.
  induction pos as [|pos IH]; intros s s' H Hq; cbn [bind_actuals] in H.
  { injection H as <-. split; [apply level_refl|auto]. }
  unfold sbind in H at 1. destruct (lm pop s) as [[v s1]|] eqn:e1; [|discriminate].
  unfold sbind in H at 1.
  match type of H with match ?x with _ => _ end = _ => destruct x as [[[id ok] s2]|] eqn:e2; [|discriminate] end.
  destruct ok; [|discriminate H].
  unfold sbind in H at 1. destruct (func_actual id v pos s2) as [[ok s3]|] eqn:e3; [|discriminate].
  destruct ok; [|discriminate H].
  destruct (IH _ _ H Hq) as [V4 G4].
  destruct (mild_bind_actuals f np pos _ _ _ H) as (O4 & _). pose proof (amo_quiet _ _ O4 Hq) as Q3.
  destruct (ts_func_actual (pos + (pos - np)) _ _ _ _ _ _ e3) as (O3 & _ & K3). pose proof (amo_quiet _ _ O3 Q3) as Q2.
  destruct (K3 Q3) as [V3 G3].
  assert (H2 : at_most_one (s_m s1) (s_m s2) /\
    (m_abort (s_m s2) = false -> level (pos + (Sn pos - np)) (pos + (pos - np)) (s_m s1) (s_m s2) /\
       (sane E (s_m s1) -> sane E (s_m s2)))).
  { destruct (Nat.leb_spec np pos) as [Hle|Hgt].
    - replace (Sn pos - np)%nat with (Sn (pos - np)) by lia.
      replace (pos + Sn (pos - np))%nat with (Sn (pos + (pos - np))) by lia.
      assert (Ht : stm (Sn (pos + (pos - np))) (pos + (pos - np)) (let^ id := pop_id E in sret (id, check_formal id f))) by ts.
      destruct (Ht _ _ _ e2) as (? & _ & ?). auto.
    - replace (Sn pos - np)%nat with (pos - np)%nat by lia.
      assert (Ht : stm (pos + (pos - np)) (pos + (pos - np)) (match nth_error (fn_formals f) pos with Some id => sret (id, true) | None => sundef end)) by ts.
      destruct (Ht _ _ _ e2) as (? & _ & ?). auto. }
  destruct H2 as [O2 K2]. destruct (K2 Q2) as [V2 G2]. pose proof (amo_quiet _ _ O2 Q2) as Q1.
  assert (Ht : stm (Sn (pos + (Sn pos - np))) (pos + (Sn pos - np)) (lm pop)) by ts.
  destruct (Ht _ _ _ e1) as (_ & _ & K1). destruct (K1 Q1) as [V1 G1].
  split; [|auto]. eapply level_trans; [exact V1|]. eapply level_trans; [exact V2|]. eapply level_trans; eauto.
Qed.

Lemma func_push_level {C} (f : func C) np nn s s' b :
  0 <= np -> 0 <= nn -> np + nn < 256 ->
  func_push E f np nn s = Some (b, s') ->
  if b then m_abort (s_m s') = false ->
            level (Z.to_nat (np + 2 * nn)) 0 (s_m s) (s_m s') /\ (sane E (s_m s) -> sane E (s_m s'))
  else m_abort (s_m s') = true.
Proof.
  intros H1 H2 H3 H. unfold func_push in H. rewrite Z.mod_small in H by lia.
  unfold sbind in H at 1. destruct (frame_push E _ s) as [[ok s1]|] eqn:e1; [|discriminate].
  destruct ok; cbn [negb] in H.
  2: { injection H as <- <-. unfold frame_push, sbind in e1.
       destruct (new_frame E _ s) as [[r s2]|] eqn:e2; [|discriminate]. destruct r; [discriminate|].
       injection e1 as <-. unfold new_frame, sbind in e2.
       destruct (lm (alloc E _) s) as [[r s3]|] eqn:e3; [|discriminate]. destruct r; [destruct (_ <=? _); discriminate|].
       injection e2 as <-. unfold lm in e3. destruct (alloc E _ (s_m s)) as [[r m]|] eqn:e4; [|discriminate].
       injection e3 as -> <-. cbn. unfold alloc in e4. cbv zeta in e4. destruct (_ || _); [|discriminate].
       unfold error in e4. injection e4 as <-. cbn.
       match goal with |- context [m_abort (if ?b then ?x else ?y)] =>
         destruct (m_abort (if b then x else y)) eqn:e5; cbn; [exact e5|reflexivity] end. }
  destruct (_ <? _).
  { unfold sbind in H at 1. destruct (lm (error _) s1) as [[u s2]|] eqn:e2; [|discriminate].
    unfold sbind, frame_pop in H. injection H as <- <-. cbn.
    unfold lm, error in e2. injection e2 as _ <-. cbn. destruct (m_abort (s_m s1)) eqn:e5; [exact e5|reflexivity]. }
  unfold sbind in H at 1. unfold get in H at 1. cbv zeta in H.
  unfold sbind in H at 1. destruct (bind_actuals E f _ _ s1) as [[bad s2]|] eqn:e2; [|discriminate].
  unfold sbind in H at 1. match type of H with match ?x with _ => _ end = _ => destruct x as [[bad' s3]|] eqn:e3; [|discriminate] end.
  destruct bad' as [id|].
  { unfold sbind in H at 1. unfold sbind, frame_pop, lm, error in H. injection H as <- <-. cbn.
    destruct (m_abort (s_m s3)) eqn:e5; cbn; [exact e5|reflexivity]. }
  injection H as <- <-. intro Hq. destruct bad; [discriminate e3|].
  destruct (ts_check_required f _ O _ _ _ _ e3) as (O3 & _ & K3).
  pose proof (amo_quiet _ _ O3 Hq) as Q2. destruct (K3 Hq) as [V3 G3].
  destruct (bind_actuals_level f _ _ _ _ e2 Q2) as [V2 G2].
  destruct (mild_bind_actuals f _ _ _ _ _ e2) as (O2 & _). pose proof (amo_quiet _ _ O2 Q2) as Q1.
  destruct (ts_frame_push (Z.to_nat (np + 2 * nn)) _ _ _ _ e1) as (_ & _ & K1). destruct (K1 Q1) as [V1 G1].
  replace (Z.to_nat (np + nn) + (Z.to_nat (np + nn) - Z.to_nat np))%nat with (Z.to_nat (np + 2 * nn)) in V2 by lia.
  split; [|auto]. eapply level_trans; [exact V1|]. eapply level_trans; eauto.
Qed.

(** builtins are taken to be tame *)
Variable builtins : list (Z * (Z -> Z -> list poly -> M poly)).
Definition tame_builtins : Prop :=
  forall k fn np nn actuals n, In (k, fn) builtins -> mtame E n n (fn np nn actuals).
Hypothesis Hb : tame_builtins.
Lemma ts_call_builtin n u np nn : stm n n (call_builtin E builtins u np nn).
Proof.
  unfold call_builtin. destruct (builtin E builtins u) as [[k fn]|] eqn:e; [|ts].
  assert (Hin : In (k, fn) builtins).
  { unfold builtin in e. cbv zeta in e. destruct (_ <? _); [discriminate|]. eapply nth_error_In; eauto. }
  assert (Hf : forall n np nn a, mtame E n n (fn np nn a)) by (intros; eapply Hb; eauto).
  ts.
Qed.
Hint Resolve ts_call_builtin : tame.

Lemma mild_call_op {C} (F : loc -> option (func C)) o : mild (call_op E builtins F o).
Proof.
  unfold call_op. cbv zeta.
  apply mild_bind; [apply (mild_tame 0 0); ts|]. intro a.
  apply mild_bind; [apply (mild_tame 0 0); ts|]. intro.
  set (fin := lm (drop _) ^; sret None).
  assert (Hf : @mild (option (func C)) fin).
  { eapply mild_tame with (n := (Z.to_nat (o mod 256 + 2 * (o / 256)) + 1 + 0)%nat). eapply ts_bind; [apply ts_lm, t_drop|]. intro. ts. }
  destruct a; try (apply mild_bind; [apply (mild_tame 0 0); ts|]; auto; fail).
  - destruct (F l); [|apply (mild_tame 0 0); ts]. apply mild_bind; [apply mild_func_push|]. intros []; [|auto].
    apply (mild_tame 1 0). ts.
  - apply (mild_tame 0 0); ts.
Qed.

Lemma call_op_level {C} (F : loc -> option (func C)) o n :
  0 <= o -> o mod 256 + o / 256 < 256 ->
  stm (Z.to_nat (o mod 256 + 2 * (o / 256)) + 1 + n) n (call_op E builtins F o).
Proof.
  intros H0 H256. assert (Hm : 0 <= o mod 256) by (apply Z.mod_pos_bound; lia). assert (Hd : 0 <= o / 256) by (apply Z.div_pos; lia).
  unfold call_op. cbv zeta. rewrite (Z.mod_small (o / 256)) by lia.
  set (k := Z.to_nat (o mod 256 + 2 * (o / 256))).
  eapply ts_bind; [ts|]. intro a. eapply ts_bind; [ts|]. intro.
  set (fin := lm (drop _) ^; sret None).
  assert (Hf : @stame E (option (func C)) (k + 1 + n) n fin).
  { eapply ts_bind; [apply ts_lm, t_drop|]. intro. ts. }
  destruct a; try (eapply ts_bind with (n1 := (k + 1 + n)%nat); [ts|intro; exact Hf]; fail).
  - destruct (F l) as [f1|]; [|ts].
    intros s r s' H. unfold sbind in H at 1. destruct (func_push E f1 _ _ s) as [[b s1]|] eqn:e1; [|discriminate].
    pose proof (func_push_level f1 _ _ _ _ _ Hm Hd H256 e1) as L.
    destruct (mild_func_push f1 _ _ _ _ _ e1) as (O1 & L1). destruct b.
    + assert (Ht : @stame E (option (func C)) (Sn n) n (let^ a := lm pop in put_a a ^; sret (Some f1))) by ts.
      destruct (Ht _ _ _ H) as (O2 & L2 & K2). split; [eapply amo_trans; eauto|]. split; [congruence|].
      intro Hq. destruct (K2 Hq) as [V2 G2]. destruct (L (amo_quiet _ _ O2 Hq)) as [V1 G1]. split; [|auto].
      eapply level_trans; [|exact V2]. replace (k + 1 + n)%nat with (k + Sn n)%nat by lia.
      exact (level_weaken (Sn n) _ _ _ _ V1).
    + destruct (Hf _ _ _ H) as (O2 & L2 & K2). split; [eapply amo_trans; eauto|]. split; [congruence|].
      intro Hq. exfalso. pose proof (amo_quiet _ _ O2 Hq). congruence.
  - ts.
Qed.
End Frame.
#[export] Hint Resolve ts_get ts_put_a ts_get_a ts_new_frame ts_variable_insert ts_set_id ts_variable_lookup ts_read ts_write
  ts_id_ref ts_mark_global ts_id_store ts_id_is_local ts_variable_delete ts_id_del ts_frame_push ts_frame_pop ts_assign_id
  ts_assign_named ts_augment_id ts_func_actual ts_pop_id ts_check_required : tame.

Section Exec.
Variable K : conf.
Notation E := (cf_env K).
Notation w := (e_width E).
Notation stm := (stame E).

Lemma t_truth n p : mtame E n n (truth p).
Proof. unfold truth. tm. Qed.
Lemma t_pop_float n : mtame E (Sn n) n pop_float.
Proof. unfold pop_float. tm. Qed.
Lemma t_pop_soffset n : mtame E (Sn n) n (pop_soffset K).
Proof. unfold pop_soffset. tm. Qed.
Lemma t_lnot_op n p : mtame E n n (lnot_op p).
Proof. unfold lnot_op. tm. Qed.
Hint Resolve t_truth t_pop_float t_pop_soffset t_lnot_op : tame.
Lemma ts_range_start n k d i : 0 <= k -> stm (Z.to_nat k + n) n (range_start K k d i).
Proof.
  intro Hk. unfold range_start. eapply ts_bind with (n1 := n); [|intro p; ts].
  destruct (Z.eqb_spec k 1) as [->|]; [change (Z.to_nat 1 + n)%nat with (Sn n); ts|].
  destruct (Z.eqb_spec k 2) as [->|]; [change (Z.to_nat 2 + n)%nat with (Sn (Sn n)); ts|].
  destruct (Z.eqb_spec k 3) as [->|]; [change (Z.to_nat 3 + n)%nat with (Sn (Sn (Sn n))); ts|].
  eapply ts_bind; [apply ts_lm, t_drop|]. intro. ts.
Qed.
Lemma ts_range_step n d i : stm n n (range_step K d i).
Proof. unfold range_step. ts. Qed.
Lemma ts_in_step n d i : stm n n (in_step K d i).
Proof. unfold in_step. ts. Qed.
Definition bit (b : bool) : nat := if b then 1 else 0.
Lemma ts_opt_pop n b : stm (bit b + n) n (opt_pop K b).
Proof. unfold opt_pop. destruct b; cbn [bit plus]; ts. Qed.
Hint Resolve ts_opt_pop : tame.
Lemma ts_slice_op n z : stm (bit (Z.testbit z 2) + (bit (Z.testbit z 1) + (bit (Z.testbit z 0) + Sn n))) n (slice_op K z).
Proof. unfold slice_op. ts. Qed.
Definition slots (id : Z) : nat := if id =? 0 then 2 else 0.
Lemma ts_assign_named_ n i : stm n n (assign K KAssignNamed i).
Proof. unfold assign. ts. Qed.
Lemma ts_assign n o i : o <> KAssignNamed -> stm (slots i + n) n (assign K o i).
Proof. intro Ho. unfold assign, slots. destruct (i =? 0); cbn [plus]; destruct o; try congruence; ts. Qed.
End Exec.
#[export] Hint Resolve t_truth t_pop_float t_pop_soffset t_lnot_op ts_range_step ts_in_step ts_opt_pop ts_slice_op : tame.
