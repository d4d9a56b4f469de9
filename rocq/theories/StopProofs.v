From Coq Require Import List ZArith Lia Bool Arith.
From Verif Require Import Base FloatModel PolyModel ValueModel MathModel MachModel ListModel StrModel BinModel FrameModel CodeModel ExecModel TameSpec TameProofs TameProofs2 FrameCount StopSpec.
Import ListNotations.

Section Stop.
Variable K : conf.
Variable F : loc -> option (func (list Z)).
Hypothesis Hb : tame_builtins (cf_env K) (cf_builtins K).

Lemma stop_keeps v r : step K F v = Some r -> aborted (v_s v) = true ->
  let s' := match r with Next v' => v_s v' | Done s | Aborted s => s end in
  aborted s' = true /\ m_log (s_m s') = m_log (s_m (v_s v)).
Proof.
  intros H A. pose proof (step_errors K F Hb _ _ H) as Q. unfold at_most_one_st, at_most_one in Q.
  unfold aborted in A. rewrite A in Q. exact Q.
Qed.

(** only a return goes on *)
Lemma stop_next v v1 : step K F v = Some (Next v1) -> aborted (v_s v) = true ->
  (length (v_code v) <= v_ip v)%nat /\ length (v_links v) = Datatypes.S (length (v_links v1)).
Proof.
  intros H A. pose proof (stop_keeps _ _ H A) as [Q _]. cbn in Q.
  unfold step in H. destruct (Nat.ltb_spec (v_ip v) (length (v_code v))) as [L|L].
  - exfalso. destruct (nth_error _ _) as [b|]; [|discriminate]. destruct (op_of (byte_op b)) as [o|].
    + destruct (read_arg K _ _ _) as [[x next]|]; [|discriminate].
      destruct (ins K F o x (byte_push b) next (length (v_code v)) (v_s v)) as [[fl s1]|] eqn:e; [|discriminate].
      apply (mild_ins K F Hb) in e. destruct e as [e _]. unfold at_most_one, aborted in *. rewrite A in e.
      rewrite (proj1 e) in H. discriminate.
    + rewrite A in H. discriminate.
  - split; [exact L|]. destruct (v_links v) as [|[code ip] l]; [discriminate|].
    destruct (nth_error code ip) as [b|]; [|discriminate]. destruct (frame_pop (v_s v)) as [[u s]|]; [|discriminate].
    match type of H with match ?x with _ => _ end = _ => destruct x as [[u' s']|]; [|discriminate] end.
    injection H as <-. reflexivity.
Qed.

Lemma stop_run v : aborted (v_s v) = true ->
  (forall fuel, (length (v_links v) < fuel)%nat -> run K F fuel v = run K F (Datatypes.S (length (v_links v))) v) /\
  forall fuel r, run K F fuel v = Some r ->
    exists n v1, (n <= length (v_links v))%nat /\ unwinds K F n v v1 /\ step K F v1 = Some r /\
      exists s, (r = Done s \/ r = Aborted s) /\ aborted s = true /\ m_log (s_m s) = m_log (s_m (v_s v)).
Proof.
  remember (length (v_links v)) as n eqn:N. revert v N. induction n as [|n IH]; intros v N A.
  - assert (X : forall v1, step K F v <> Some (Next v1)).
    { intros v1 e. destruct (stop_next _ _ e A) as [_ Q]. lia. }
    assert (Y : forall fuel, run K F (Datatypes.S fuel) v = step K F v).
    { intro fuel. cbn [run]. destruct (step K F v) as [[v1|s|s]|] eqn:e; try reflexivity. destruct (X v1 eq_refl). }
    split.
    + intros [|fuel] L; [lia|]. rewrite !Y. reflexivity.
    + intros [|fuel] r H; [discriminate|]. rewrite Y in H. exists 0%nat, v. split; [lia|]. split; [constructor|]. split; [exact H|].
      pose proof (stop_keeps _ _ H A) as [Q1 Q2]. destruct r as [v1|s|s]; [destruct (X _ H)|exists s; auto|exists s; auto].
  - assert (D : (exists v1, step K F v = Some (Next v1)) \/ forall v1, step K F v <> Some (Next v1)).
    { destruct (step K F v) as [[v1|s|s]|]; [left; eauto|right; discriminate|right; discriminate|right; discriminate]. }
    destruct D as [[v1 e]|X].
    + destruct (stop_next _ _ e A) as [L Q]. destruct (stop_keeps _ _ e A) as [A1 G1]. cbn in A1, G1.
      destruct (IH v1 ltac:(lia) A1) as [I1 I2]. split.
      * intros [|fuel] Lf; [lia|]. cbn [run]. rewrite e. rewrite (I1 fuel) by lia. cbn [run]. reflexivity.
      * intros [|fuel] r H; [discriminate|]. cbn [run] in H. rewrite e in H. destruct (I2 _ _ H) as (m & v2 & B & U & E2 & s & E3 & E4 & E5).
        exists (Datatypes.S m), v2. split; [lia|]. split; [econstructor; eauto; lia|]. split; [exact E2|]. exists s. split; [exact E3|]. split; [exact E4|congruence].
    + assert (Y : forall fuel, run K F (Datatypes.S fuel) v = step K F v).
      { intro fuel. cbn [run]. destruct (step K F v) as [[v1|s|s]|] eqn:e; try reflexivity. destruct (X v1 eq_refl). }
      split.
      * intros [|fuel] Lf; [lia|]. rewrite !Y. reflexivity.
      * intros [|fuel] r H; [discriminate|]. rewrite Y in H. exists 0%nat, v. split; [lia|]. split; [constructor|]. split; [exact H|].
        pose proof (stop_keeps _ _ H A) as [Q1 Q2]. destruct r as [v1|s|s]; [destruct (X _ H)|exists s; auto|exists s; auto].
Qed.
End Stop.

(** the value that finds no room on the stack *)
Lemma overflow_goes_on K F v b c u x k fn m' r :
  let E := cf_env K in
  aborted (v_s v) = false -> m_sp (s_m (v_s v)) = e_stack E -> length (m_stack (s_m (v_s v))) = e_stack E ->
  nth_error (v_code v) (v_ip v) = Some (44 + 128)%Z -> get_at 1 (Datatypes.S (v_ip v)) (v_code v) = Some b ->
  nth_error (v_code v) (v_ip v + 2) = Some c -> byte_op c = 53%Z -> get_at (obytes (e_width E)) (v_ip v + 3) (v_code v) = Some 1%Z ->
  (2 <= e_stack E)%nat ->
  nth_error (m_stack (s_m (v_s v))) (e_stack E - 2) = Some (PBuiltin u) -> nth_error (m_stack (s_m (v_s v))) (e_stack E - 1) = Some x ->
  builtin E (cf_builtins K) u = Some (k, fn) -> (k = 1 \/ k < 0)%Z ->
  fn 1%Z 0%Z [x] (set_err true (EStack :: m_log (s_m (v_s v))) (s_m (v_s v))) = Some (r, m') -> m_abort m' = true -> m_sp m' = e_stack E ->
  exists v1 s, step K F v = Some (Next v1) /\ aborted (v_s v1) = true /\ m_log (s_m (v_s v1)) = EStack :: m_log (s_m (v_s v)) /\
    m_io (s_m (v_s v1)) = m_io (s_m (v_s v)) /\
    step K F v1 = Some (Aborted s) /\ m_io (s_m s) = m_io m' /\ m_heap (s_m s) = m_heap m'.
Proof.
  intros E A SP LE C0 G0 C1 B1 G1 L2 N2 N1 HB Hk Hf Ha Hs.
  assert (I0 : (v_ip v < length (v_code v))%nat) by (apply nth_error_Some; congruence).
  assert (I1 : (v_ip v + 2 < length (v_code v))%nat) by (apply nth_error_Some; congruence).
  assert (T : firstn 1 (skipn (e_stack E - 1) (m_stack (s_m (v_s v)))) = [x]).
  { pose proof N1 as Q. revert Q. generalize (e_stack E - 1)%nat as i. generalize (m_stack (s_m (v_s v))) as l.
    induction l as [|y l IH]; intros [|i] Q; try discriminate; cbn in *; [injection Q as ->; reflexivity|auto]. }
  eexists. eexists. split.
  - unfold step. rewrite (proj2 (Nat.ltb_lt _ _) I0), C0. cbn [op_of byte_op byte_push]. 
    change (op_of (byte_op (44 + 128))) with (Some KInt). cbv iota. cbn [arg_kind read_arg]. rewrite G0.
    cbn [ins]. unfold sbind, put_a, sret. cbv beta iota.
    unfold aborted in *. cbn [set_a s_m]. rewrite A. change (byte_push (44 + 128)) with true. cbv iota.
    unfold lm, push, error. cbn [set_a s_m]. rewrite SP, Nat.eqb_refl, A. reflexivity.
  - cbn [v_s s_m set_m set_a set_err aborted]. split; [reflexivity|]. split; [reflexivity|]. split; [reflexivity|]. split.
    + unfold step. cbn [v_ip v_code]. replace (Datatypes.S (v_ip v) + 1)%nat with (v_ip v + 2)%nat by lia.
      rewrite (proj2 (Nat.ltb_lt _ _) I1), C1, B1. change (op_of 53) with (Some KCall). cbv iota. cbn [arg_kind read_arg].
      replace (Datatypes.S (v_ip v + 2)) with (v_ip v + 3)%nat by lia. fold E. rewrite G1.
      cbn [ins]. unfold call_op. change (1 mod 256)%Z with 1%Z. change (1 / 256)%Z with 0%Z. change (0 mod 256)%Z with 0%Z.
      change (Z.to_nat (1 + 2 * 0)) with 1%nat. cbv zeta.
      unfold sbind, lm, pick, put_a, sret. cbn [v_s s_m set_m set_a set_err m_sp m_stack].
      rewrite SP. destruct (Nat.ltb_spec 1 (e_stack E)); [|lia]. replace (e_stack E - 1 - 1)%nat with (e_stack E - 2)%nat by lia. rewrite N2.
      match goal with |- context [call_builtin _ _ u 1 0 ?s0] => assert (Hc : call_builtin E (cf_builtins K) u 1 0 s0 = Some (tt, set_a r (set_m m' s0))) end.
      { unfold call_builtin. rewrite HB. change (Z.to_nat (1 + 2 * 0)) with 1%nat. cbv zeta. unfold sbind, get, lm, put_a, sret. cbn [s_m set_m set_a set_err m_sp m_stack].
        rewrite SP, T. destruct (Z.ltb_spec k 0).
        - cbn [s_m set_m set_a]. rewrite Hf. reflexivity.
        - destruct Hk as [->|]; [|lia]. cbn [Z.eqb negb orb Pos.eqb]. cbn [s_m set_m set_a]. rewrite Hf. reflexivity. }
      fold E. rewrite Hc. clear Hc.
      unfold drop. cbn [s_m set_m set_a]. rewrite Hs. destruct (Nat.leb_spec (1 + 1) (e_stack E)); [|lia].
      unfold aborted. cbn [s_m set_m set_a set_stack m_abort]. rewrite Ha. reflexivity.
    + split; reflexivity.
Qed.

(** an error that does not stop the program at once is the stack's *)
Lemma push_error K (p : bool) s u s' : (if p then lm (MachModel.push (cf_env K) (s_a s)) else sret tt) s = Some (u, s') ->
  aborted s = false -> aborted s' = true -> m_log (s_m s') = EStack :: m_log (s_m s) /\ m_sp (s_m s') = e_stack (cf_env K).
Proof.
  destruct p; unfold sret.
  - unfold lm, push, error, aborted. destruct (Nat.eqb_spec (m_sp (s_m s)) (e_stack (cf_env K))) as [e|].
    + intros H A _. rewrite A in H. injection H as <- <-. cbn. auto.
    + intros H A A'. injection H as <- <-. cbn in A'. congruence.
  - intros H A A'. injection H as <- <-. congruence.
Qed.
Lemma error_next K F v v1 : step K F v = Some (Next v1) -> aborted (v_s v) = false -> aborted (v_s v1) = true ->
  m_sp (s_m (v_s v1)) = e_stack (cf_env K) /\ exists log, m_log (s_m (v_s v1)) = EStack :: log.
Proof.
  intros H A A1. unfold step in H. destruct (Nat.ltb_spec (v_ip v) (length (v_code v))) as [L|L].
  - destruct (nth_error _ _) as [b|]; [|discriminate]. destruct (op_of (byte_op b)) as [o|].
    + destruct (read_arg K _ _ _) as [[x next]|]; [|discriminate].
      destruct (ins K F o x (byte_push b) next (length (v_code v)) (v_s v)) as [[fl s1]|] eqn:e; [|discriminate].
      destruct (aborted s1) eqn:Q; [discriminate|]. destruct fl as [ip p|code'].
      * match type of H with match ?x with _ => _ end = _ => destruct x as [[u' s']|] eqn:P; [|discriminate] end.
        injection H as <-. cbn in *. destruct (push_error K _ _ _ _ P Q A1). eauto.
      * injection H as <-. cbn in *. congruence.
    + rewrite A in H. match type of H with match ?x with _ => _ end = _ => destruct x as [[u' s']|] eqn:P; [|discriminate] end.
      injection H as <-. cbn in *. destruct (push_error K _ _ _ _ P A A1). eauto.
  - destruct (v_links v) as [|[code ip] l]; [discriminate|].
    destruct (nth_error code ip) as [b|]; [|discriminate]. destruct (frame_pop (v_s v)) as [[u s]|] eqn:e; [|discriminate].
    assert (Q : aborted s = false).
    { unfold frame_pop in e. revert e. destruct (s_frames (v_s v)) as [|fr r]; intro e; try discriminate; injection e as _ <-; exact A. }
    match type of H with match ?x with _ => _ end = _ => destruct x as [[u' s']|] eqn:P; [|discriminate] end.
    injection H as <-. cbn in *. destruct (push_error K _ _ _ _ P Q A1). eauto.
Qed.
