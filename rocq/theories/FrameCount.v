(** Any code: every pending call has one frame, and at most one error is
    reported. *)
From Coq Require Import ZArith Bool List Lia.
From Verif Require Import Base FloatModel PolyModel ValueModel MathModel MachModel ListModel StrModel BinModel FrameModel CodeModel ExecModel TameSpec TameProofs TameProofs2.
Import ListNotations.
Local Open Scope Z_scope.
Open Scope st_scope.

(** ** The number of frames *)
Definition nframes (s : st) : nat := length (s_frames s).
Definition kf {A} (x : S A) : Prop := forall s a s', x s = Some (a, s') -> nframes s' = nframes s.
Lemma kf_ret {A} (a : A) : kf (sret a).
Proof. intros s b s' H. injection H as _ <-. reflexivity. Qed.
Lemma kf_undef {A} : kf (@sundef A).
Proof. intros s b s' H. discriminate H. Qed.
Lemma kf_bind {A B} (x : S A) (f : A -> S B) : kf x -> (forall a, kf (f a)) -> kf (sbind x f).
Proof.
  intros Hx Hf s b s' H. unfold sbind in H. destruct (x s) as [[a s1]|] eqn:e; [|discriminate].
  rewrite (Hf _ _ _ _ H). eapply Hx; eauto.
Qed.
Lemma kf_lm {A} (x : M A) : kf (lm x).
Proof. intros s a s' H. unfold lm in H. destruct (x (s_m s)) as [[? ?]|]; [|discriminate]. injection H as _ <-. reflexivity. Qed.
Lemma kf_get : kf get.
Proof. intros s a s' H. injection H as _ <-. reflexivity. Qed.
Lemma kf_get_a : kf get_a.
Proof. intros s a s' H. injection H as _ <-. reflexivity. Qed.
Lemma kf_put_a a : kf (put_a a).
Proof. intros s b s' H. injection H as _ <-. reflexivity. Qed.
Lemma nframes_put g vs s : nframes (put_frame g vs s) = nframes s.
Proof. unfold put_frame, nframes. destruct g; [reflexivity|]. destruct (s_frames s) eqn:e; [rewrite e|]; reflexivity. Qed.
#[export] Hint Resolve kf_ret kf_undef kf_lm kf_get kf_get_a kf_put_a : kf.
Ltac kf := repeat first
  [ solve [auto with kf]
  | apply kf_bind; [|intro]
  | match goal with
    | |- kf (match ?x with _ => _ end) => destruct x
    | |- kf (let '(_, _) := ?x in _) => destruct x
    end ].

Section WithEnv.
Variable E : env.
Lemma kf_new_frame n : kf (new_frame E n).
Proof. unfold new_frame. kf. Qed.
Hint Resolve kf_new_frame : kf.
Lemma kf_insert g : kf (variable_insert E g).
Proof.
  unfold variable_insert. kf. intros s0 b s' H. injection H as _ <-. apply nframes_put.
Qed.
Lemma kf_set_id g n id : kf (set_id g n id).
Proof.
  intros s a s' H. unfold set_id in H. destruct (pick_frame g s); [|discriminate]. destruct (nth_error _ _) as [[? ?]|]; [|discriminate].
  injection H as _ <-. apply nframes_put.
Qed.
Hint Resolve kf_insert kf_set_id : kf.
Lemma kf_lookup g id i : kf (variable_lookup E g id i).
Proof. unfold variable_lookup. kf. Qed.
Lemma kf_read r : kf (read r).
Proof.
  intros s a s' H. unfold read in H. destruct (pick_frame _ s); [|discriminate]. destruct (nth_error _ _) as [[? ?]|]; [|discriminate].
  injection H as _ <-. reflexivity.
Qed.
Lemma kf_write r v : kf (write r v).
Proof.
  intros s a s' H. unfold write in H. destruct (pick_frame _ s); [|discriminate]. destruct (nth_error _ _) as [[? ?]|]; [|discriminate].
  injection H as _ <-. apply nframes_put.
Qed.
Hint Resolve kf_lookup kf_read kf_write : kf.
Lemma kf_id_ref id i : kf (id_ref E id i).
Proof. unfold id_ref. kf. Qed.
Hint Resolve kf_id_ref : kf.
Lemma kf_mark_global id : kf (mark_global E id).
Proof. unfold mark_global. kf. Qed.
Lemma kf_id_store id v : kf (id_store E id v).
Proof. unfold id_store. kf. Qed.
Lemma kf_is_local id : kf (id_is_local E id).
Proof. unfold id_is_local. kf. Qed.
Lemma kf_id_del id : kf (id_del E id).
Proof. unfold id_del, variable_delete. cbv zeta. kf. intros s0 b s' H. injection H as _ <-. reflexivity. Qed.
Lemma kf_assign_id id : kf (assign_id E id).
Proof. unfold assign_id. kf. Qed.
Hint Resolve kf_mark_global kf_id_store kf_is_local kf_id_del kf_assign_id : kf.
Lemma kf_assign_named id : kf (assign_named E id).
Proof. unfold assign_named. kf. Qed.
Lemma kf_augment_id T powf o id : kf (augment_id E T powf o id).
Proof. unfold augment_id. kf. Qed.
Lemma kf_func_actual id v p : kf (func_actual id v p).
Proof.
  intros s a s' H. unfold func_actual in H. destruct (s_frames s) as [|vs fs] eqn:e; [discriminate|]. destruct (Nat.ltb _ _); [|discriminate].
  destruct (existsb _ _); injection H as _ <-; [reflexivity|apply (nframes_put false)].
Qed.
Lemma kf_pop_id : kf (pop_id E).
Proof. unfold pop_id. kf. Qed.
Hint Resolve kf_assign_named kf_augment_id kf_func_actual kf_pop_id : kf.
Lemma kf_bind_actuals {C} (f : func C) np pos : kf (bind_actuals E f np pos).
Proof. induction pos as [|pos IH]; cbn [bind_actuals]; kf. Qed.
Lemma kf_check_required {C} (f : func C) k : forall pos, kf (check_required f k pos).
Proof. induction k as [|k IH]; intro pos; cbn [check_required]; kf. Qed.
Hint Resolve kf_bind_actuals kf_check_required : kf.

(** one frame more if it succeeds *)
Lemma func_push_frames {C} (f : func C) np nn s b s' : func_push E f np nn s = Some (b, s') ->
  nframes s' = ((if b then 1 else 0) + nframes s)%nat.
Proof.
  unfold func_push, sbind. intro H. destruct (frame_push E _ s) as [[ok s1]|] eqn:e1; [|discriminate].
  assert (H1 : nframes s1 = ((if ok then 1 else 0) + nframes s)%nat).
  { unfold frame_push, sbind in e1. destruct (new_frame E _ s) as [[r s0]|] eqn:e0; [|discriminate]. apply kf_new_frame in e0.
    destruct r as [vs|]; injection e1 as <- <-; cbn; unfold nframes in *; cbn; lia. }
  destruct ok; cbn [negb] in H; [|injection H as <- <-; exact H1].
  assert (Hpop : forall B s2 s3 (x : S B), kf x -> nframes s2 = Sn (nframes s) ->
            match x s2 with Some (_, s') => match frame_pop s' with Some (_, s'0) => sret false s'0 | None => None end | None => None end = Some (b, s3) ->
            nframes s3 = ((if b then 1 else 0) + nframes s)%nat).
  { intros B s2 s3 x Hx Hn H2. destruct (x s2) as [[a s4]|] eqn:e4; [|discriminate]. apply Hx in e4. unfold frame_pop, sret in H2. injection H2 as <- <-.
    unfold nframes in *. cbn in *. destruct (s_frames s4); cbn in *; lia. }
  destruct (fn_nformal f <? np); [exact (Hpop _ _ _ (lm (error (EArgs (fn_nformal f) np))) (kf_lm _) H1 H)|].
  unfold get in H at 1. destruct (bind_actuals E f _ _ s1) as [[bad s2]|] eqn:e2; [|discriminate]. apply kf_bind_actuals in e2.
  destruct (match bad with Some id => sret (Some id) | None => check_required f (Z.to_nat (fn_nrequired f)) 0 end s2) as [[bad' s3]|] eqn:e3; [|discriminate].
  assert (H3 : nframes s3 = nframes s2).
  { destruct bad; [injection e3 as _ <-; reflexivity|apply kf_check_required in e3; exact e3]. }
  destruct bad' as [id|]; [|injection H as <- <-; lia].
  eapply (Hpop _ _ _ (lm (error (EArg id)))); [apply kf_lm| |exact H]. cbn. unfold nframes in *. cbn in *. lia.
Qed.
Lemma call_op_frames {C} builtins (F : loc -> option (func C)) o s r s' : call_op E builtins F o s = Some (r, s') ->
  nframes s' = ((match r with Some _ => 1 | None => 0 end) + nframes s)%nat.
Proof.
  unfold call_op, sbind at 1. intro H. destruct (lm (pick _) s) as [[a s1]|] eqn:e1; [|discriminate]. apply kf_lm in e1.
  unfold sbind at 1 in H. destruct (put_a a s1) as [[[] s2]|] eqn:e2; [|discriminate]. apply kf_put_a in e2.
  set (fin := lm (drop (Z.to_nat (o mod 256 + 2 * (o / 256)) + 1)) ^; sret (@None (func C))) in H.
  assert (Hf : forall s3, nframes s3 = nframes s -> fin s3 = Some (r, s') -> nframes s' = ((match r with Some _ => 1 | None => 0 end) + nframes s)%nat).
  { intros s3 H3 Hx. assert (Hk : kf fin) by (unfold fin; kf). pose proof (Hk _ _ _ Hx) as Hk'. unfold fin, sbind in Hx.
    destruct (lm _ s3) as [[? s4]|]; [|discriminate]. injection Hx as <- <-. cbn. lia. }
  destruct a; try (unfold sbind at 1 in H; match type of H with match ?x with _ => _ end = _ => destruct x as [[? s3]|] eqn:e3; [|discriminate] end;
    eapply Hf; [|exact H]; apply kf_lm in e3; lia).
  - destruct (F l) as [f|]; [|discriminate]. unfold sbind at 1 in H. destruct (func_push E f _ _ s2) as [[ok s3]|] eqn:e3; [|discriminate].
    apply func_push_frames in e3. destruct ok; [|eapply Hf; [|exact H]; lia].
    unfold sbind in H. destruct (lm pop s3) as [[p s4]|] eqn:e4; [|discriminate]. apply kf_lm in e4. injection H as <- <-. cbn. unfold nframes in *. cbn in *. lia.
  - unfold sbind at 1 in H. destruct (call_builtin E builtins u _ _ s2) as [[? s3]|] eqn:e3; [|discriminate].
    eapply Hf; [|exact H]. assert (Hk : kf (call_builtin E builtins u (o mod 256) ((o / 256) mod 256))).
    { unfold call_builtin. cbv zeta. kf. }
    apply Hk in e3. lia.
  - discriminate H.
Qed.
End WithEnv.
#[export] Hint Resolve kf_new_frame kf_insert kf_set_id kf_lookup kf_read kf_write kf_id_ref kf_mark_global kf_id_store kf_is_local kf_id_del kf_assign_id kf_assign_named kf_augment_id : kf.

Section Any.
Variable K : conf.
Variable F : loc -> option (func (list Z)).
Notation E := (cf_env K).
Lemma kf_range_start n d id : kf (range_start K n d id).
Proof. unfold range_start. kf. Qed.
Lemma kf_range_step d id : kf (range_step K d id).
Proof. unfold range_step. kf. Qed.
Lemma kf_in_step d id : kf (in_step K d id).
Proof. unfold in_step. kf. Qed.
Lemma kf_slice_op b : kf (slice_op K b).
Proof. unfold slice_op, opt_pop. kf. Qed.
Lemma kf_assign o id : kf (assign K o id).
Proof. unfold assign. kf. Qed.
Hint Resolve kf_range_start kf_range_step kf_in_step kf_slice_op kf_assign : kf.

Definition kfl (x : S flow) : Prop := forall s fl s', x s = Some (fl, s') ->
  nframes s' = ((match fl with Call _ => 1 | Go _ _ => 0 end) + nframes s)%nat.
Lemma kfl_bind {A} (x : S A) (f : A -> S flow) : kf x -> (forall a, kfl (f a)) -> kfl (sbind x f).
Proof.
  intros Hx Hf s b s' H. unfold sbind in H. destruct (x s) as [[a s1]|] eqn:e; [|discriminate].
  rewrite (Hf _ _ _ _ H). rewrite (Hx _ _ _ e). reflexivity.
Qed.
Lemma kfl_go ip p : kfl (sret (Go ip p)).
Proof. intros s fl s' H. injection H as <- <-. reflexivity. Qed.
Lemma kfl_undef : kfl sundef.
Proof. intros s fl s' H. discriminate H. Qed.
Hint Resolve kfl_go kfl_undef : kf.
Ltac kfl := repeat first
  [ solve [auto with kf]
  | apply kfl_bind; [solve [kf]|intro]
  | match goal with
    | |- kfl (match ?x with _ => _ end) => destruct x
    end ].
Lemma ins_frames o x p n z : kfl (ins K F o x p n z).
Proof.
  destruct o, x; cbn [ins]; cbv zeta; unfold bin_ins, branch_ins; try solve [kfl].
  (* call *)
  intros s fl s' H. unfold sbind in H. destruct (call_op E (cf_builtins K) F v s) as [[r s1]|] eqn:e; [|discriminate].
  apply call_op_frames in e. destruct r as [f|]; injection H as <- <-; exact e.
Qed.
Lemma push_frames (p : bool) a s s' : (if p then lm (push E a) else sret tt) s = Some (tt, s') -> nframes s' = nframes s.
Proof. destruct p; intro H; [apply kf_lm in H; exact H|injection H as <-; reflexivity]. Qed.

(** from a state with [k] frames more than pending calls *)
Definition balanced (k : nat) (v : vm) : Prop := nframes (v_s v) = (length (v_links v) + k)%nat.
Lemma step_balanced k v v' : step K F v = Some (Next v') -> balanced k v -> balanced k v'.
Proof.
  unfold step, balanced. intros H B. destruct (Nat.ltb _ _).
  - destruct (nth_error _ _) as [b|]; [|discriminate]. destruct (op_of (byte_op b)) as [o|].
    + destruct (read_arg K _ _ _) as [[x next]|]; [|discriminate].
      destruct (ins K F o x (byte_push b) next (length (v_code v)) (v_s v)) as [[fl s1]|] eqn:e; [|discriminate].
      apply ins_frames in e. destruct (aborted s1); [discriminate|]. destruct fl as [ip push|code'].
      * destruct ((if push then lm (MachModel.push E (s_a s1)) else sret tt) s1) as [[[] s2]|] eqn:e2; [|discriminate].
        apply push_frames in e2. injection H as <-. cbn in *. lia.
      * injection H as <-. cbn in *. lia.
    + destruct (aborted _); [discriminate|].
      destruct ((if byte_push b then lm (MachModel.push E (s_a (v_s v))) else sret tt) (v_s v)) as [[[] s2]|] eqn:e2; [|discriminate].
      apply push_frames in e2. injection H as <-. cbn in *. lia.
  - destruct (v_links v) as [|[code ip] links]; [discriminate|]. destruct (nth_error code ip) as [b|]; [|discriminate].
    unfold frame_pop in H.
    match type of H with match ?x with _ => _ end = _ => destruct x as [[[] s2]|] eqn:e2; [|discriminate] end.
    apply push_frames in e2. injection H as <-. unfold nframes in *. cbn in *. destruct (s_frames (v_s v)); cbn in *; lia.
Qed.
Lemma step_done_balanced k v s : step K F v = Some (Done s) -> balanced k v -> nframes s = k.
Proof.
  unfold step, balanced. intros H B. destruct (Nat.ltb _ _).
  - exfalso. destruct (nth_error _ _) as [b|]; [|discriminate]. destruct (op_of (byte_op b)) as [o|].
    + destruct (read_arg K _ _ _) as [[x next]|]; [|discriminate]. destruct (ins _ _ _ _ _ _ _ _) as [[fl s1]|]; [|discriminate].
      destruct (aborted s1); [discriminate|]. destruct fl as [ip push|code']; [|discriminate].
      match type of H with match ?x with _ => _ end = _ => destruct x as [[[] s2]|]; discriminate end.
    + destruct (aborted _); [discriminate|]. match type of H with match ?x with _ => _ end = _ => destruct x as [[[] s2]|]; discriminate end.
  - destruct (v_links v) as [|[code ip] links]; [injection H as <-; exact B|]. destruct (nth_error code ip) as [b|]; [|discriminate].
    unfold frame_pop in H. match type of H with match ?x with _ => _ end = _ => destruct x as [[[] s2]|]; discriminate end.
Qed.
Theorem run_balanced k fuel : forall v s, run K F fuel v = Some (Done s) -> balanced k v -> nframes s = k.
Proof.
  induction fuel as [|fuel IH]; intros v s H B; [discriminate|]. cbn [run] in H.
  destruct (step K F v) as [[v'|s1|s1]|] eqn:e; try discriminate.
  - eapply IH; [exact H|]. eapply step_balanced; eauto.
  - injection H as <-. eapply step_done_balanced; eauto.
Qed.

(** ** At most one error is reported *)
Hypothesis Hb : tame_builtins E (cf_builtins K).
Lemma mild_range_start k d i : mild (range_start K k d i).
Proof.
  destruct (Z_le_gt_dec 0 k) as [H|H]; [exact (mild_tame E _ _ _ (ts_range_start K 0 k d i H))|].
  unfold range_start. destruct (Z.eqb_spec k 1); [lia|]. destruct (Z.eqb_spec k 2); [lia|]. destruct (Z.eqb_spec k 3); [lia|].
  apply mild_bind; [|intro p; apply (mild_tame E 0 0); ts].
  eapply (mild_tame E (Z.to_nat k + 0) 0). eapply ts_bind; [apply ts_lm, t_drop|]. intro. ts.
Qed.
Lemma mild_ins o x p n z : mild (ins K F o x p n z).
Proof.
  destruct o, x; cbn [ins]; cbv zeta; unfold bin_ins, branch_ins;
    try solve [apply (mild_tame E 0 0); ts]; try solve [apply (mild_tame E 1 0); ts].
  - apply mild_bind; [exact (mild_tame E _ _ _ (ts_assign K 0 (KAug n0) v ltac:(discriminate)))|]. intro. apply (mild_tame E 0 0); ts.
  - apply mild_bind; [exact (mild_tame E _ _ _ (ts_assign K 0 KAssign v ltac:(discriminate)))|]. intro. apply (mild_tame E 0 0); ts.
  - apply (mild_tame E (Z.to_nat v + 0) 0). ts.
  - apply mild_bind; [apply mild_call_op, Hb|]. intros [f|]; apply (mild_tame E 0 0); ts.
  - apply mild_bind; [exact (mild_tame E _ _ _ (ts_slice_op K 0 b))|]. intro. apply (mild_tame E 0 0); ts.
  - apply mild_bind; [|intro; apply (mild_tame E 0 0); ts]. destruct (v =? 0); [apply (mild_tame E 1 0); ts|apply (mild_tame E 0 0); ts].
  - apply mild_bind; [apply mild_range_start|]. intro. apply (mild_tame E 0 0); ts.
Qed.
Lemma mild_push (p : bool) a : mild (if p then lm (push E a) else sret tt).
Proof. destruct p; [apply (mild_tame E 0 1)|apply (mild_tame E 0 0)]; ts. Qed.
Definition at_most_one_st (s s' : st) : Prop := at_most_one (s_m s) (s_m s').
Lemma step_errors v r : step K F v = Some r ->
  at_most_one_st (v_s v) (match r with Next v' => v_s v' | Done s | Aborted s => s end).
Proof.
  unfold step, at_most_one_st. intros H. destruct (Nat.ltb _ _).
  - destruct (nth_error _ _) as [b|]; [|discriminate]. destruct (op_of (byte_op b)) as [o|].
    + destruct (read_arg K _ _ _) as [[x next]|]; [|discriminate].
      destruct (ins K F o x (byte_push b) next (length (v_code v)) (v_s v)) as [[fl s1]|] eqn:e; [|discriminate].
      apply mild_ins in e. destruct e as [e _]. destruct (aborted s1); [injection H as <-; exact e|]. destruct fl as [ip push|code'].
      * destruct ((if push then lm (MachModel.push E (s_a s1)) else sret tt) s1) as [[[] s2]|] eqn:e2; [|discriminate].
        apply mild_push in e2. destruct e2 as [e2 _]. injection H as <-. eapply amo_trans; eauto.
      * injection H as <-. exact e.
    + destruct (aborted _); [injection H as <-; apply amo_refl|].
      destruct ((if byte_push b then lm (MachModel.push E (s_a (v_s v))) else sret tt) (v_s v)) as [[[] s2]|] eqn:e2; [|discriminate].
      apply mild_push in e2. destruct e2 as [e2 _]. injection H as <-. exact e2.
  - destruct (v_links v) as [|[code ip] links]; [injection H as <-; apply amo_refl|]. destruct (nth_error code ip) as [b|]; [|discriminate].
    unfold frame_pop in H.
    match type of H with match ?x with _ => _ end = _ => destruct x as [[[] s2]|] eqn:e2; [|discriminate] end.
    apply mild_push in e2. destruct e2 as [e2 _]. injection H as <-. exact e2.
Qed.
Lemma run_errors fuel : forall v r, run K F fuel v = Some r ->
  at_most_one_st (v_s v) (match r with Next v' => v_s v' | Done s | Aborted s => s end).
Proof.
  induction fuel as [|fuel IH]; intros v r H; [discriminate|]. cbn [run] in H.
  destruct (step K F v) as [[v'|s1|s1]|] eqn:e; try discriminate.
  - apply step_errors in e. apply IH in H. eapply amo_trans; [exact e|exact H].
  - injection H as <-. apply step_errors in e. exact e.
  - injection H as <-. apply step_errors in e. exact e.
Qed.
Theorem exec_errors fuel code s v s' : exec K F fuel code s = Some (v, s') -> at_most_one_st s s'.
Proof.
  unfold exec. destruct (run K F fuel _) as [[v'|s1|s1]|] eqn:e; try discriminate; intro H; injection H as _ <-; apply run_errors in e; exact e.
Qed.
Theorem exec_restores fuel code s v s' : exec K F fuel code s = Some (v, s') ->
  m_sp (s_m s') = m_sp (s_m s) /\ s_frames s' = [].
Proof.
  unfold exec. destruct (run K F fuel _) as [[v'|s1|s1]|]; try discriminate; intro H; injection H as _ <-; split; reflexivity.
Qed.
End Any.
