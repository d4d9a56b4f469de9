(** Iteration over lists, tuples, dictionaries and strings. *)
From Coq Require Import ZArith Bool List Lia.
From Verif Require Import Base FloatModel PolyModel ValueModel MathModel MachModel ListModel StrModel BinModel FrameModel CodeModel CompModel ExecModel MachSpec MathSpec MathProofs VarSpec FrameProofs VarProofs EvalSpec LayoutSpec LoopSpec EvalMono TameSpec TameProofs TameProofs2 EvalTame StepProofs EvalProofs EvalProofs2 SliceModel SliceProofs ListProofs2 StrProofs StrProofs2 LoopProofs.
Import ListNotations.
Local Open Scope Z_scope.
Open Scope eval_scope.
Open Scope st_scope.

Section Iteration.
Variable K : conf.
Notation E := (cf_env K).
Notation w := (e_width E).
Variable FT : loc -> option (func fundef).
Notation own_names := (own_names K).

(** ** Iteration over a list, a tuple or a dictionary *)
Record iterating (d : Z) (p : poly) (i : Z) (s : st) : Prop := {
  it_object : visible s (for_tmp w d 0) = Some p;
  it_index : exists f, visible s (for_tmp w d 1) = Some (PNum f) /\ is_int f i }.
(** the machine between rounds: nothing but the names [ids] changes *)
Definition moved (ids : list Z) (s s' : st) : Prop :=
  mstill (s_m s) (s_m s') /\ s_a s' = s_a s /\ (nvars s' <= nvars s + 1)%nat /\ length (s_frames s') = length (s_frames s) /\
  forall j, ~ In j ids -> visible s' j = visible s j.
Definition item (k : lkind) (xs : list poly) (i : nat) : option poly :=
  nth_error xs (match k with KDict => 2 * i | _ => i end)%nat.

Lemma listed_kept l k xs s s' : listed l k xs s -> kept None (m_heap (s_m s)) (m_heap (s_m s')) -> listed l k xs s'.
Proof.
  intros (Hg & o & Ho & Hk & Hz & He) [_ Hp]. split; [exact Hg|]. destruct (Hp l (OList o) Ho ltac:(discriminate)) as (o' & Ho' & Sm).
  destruct o' as [o'| |]; try contradiction. destruct Sm as (K1 & S1 & _ & _ & E1). exists o'. split; [exact Ho'|]. split; [congruence|]. split; congruence.
Qed.
Lemma evens_nth {A} : forall (xs : list A) i, nth_error (evens xs) i = nth_error xs (2 * i).
Proof.
  fix IH 1. intros [|x [|y r]] i.
  - destruct i; reflexivity.
  - destruct i as [|i]; [reflexivity|]. replace (2 * Sn i)%nat with (Sn (Sn (2 * i))) by lia. cbn [evens nth_error]. destruct i; reflexivity.
  - destruct i as [|i]; [reflexivity|]. replace (2 * Sn i)%nat with (Sn (Sn (2 * i))) by lia. cbn [evens nth_error]. apply IH.
Qed.
Lemma item_nth k xs i : nth_error (items k xs) i = item k xs i.
Proof. destruct k; cbn [items item]; try reflexivity. apply evens_nth. Qed.

Lemma soffset_index i : 0 <= i -> i < 2 ^ (wbits w - 1) -> s_of w i = i.
Proof. intros. apply s_of_small. unfold in_soffset, in_sint. destruct w; cbn [wbits] in *; lia. Qed.
Lemma in_step_runs d id l k xs i s b s' : own_names d id -> fits_vars E (nvars s + 1) -> sane E (s_m s) -> aborted s = false ->
  iterating d (PList l) (Z.of_nat i) s -> listed l k xs s -> countable E (length xs) -> (i <= length (items k xs))%nat ->
  in_step K d id s = Some (b, s') -> aborted s' = false ->
  iterating d (PList l) (Z.of_nat i + 1) s' /\
  match nth_error (items k xs) i with
  | Some v => if is_null v then b = false /\ moved [for_tmp w d 1] s s'
              else b = true /\ visible s' id = Some v /\ moved [id; for_tmp w d 1] s s'
  | None => b = false /\ moved [for_tmp w d 1] s s'
  end.
Proof.
  intros (N0 & N1 & N2) F Sn0 Ha [V0 (f & V1 & If)] (Hg & o & Ho & Hk & Hz & He) (C1 & C2 & C3) Hi H Ha'.
  assert (Hi2 : 0 <= Z.of_nat i /\ Z.of_nat i <= Z.of_nat (length xs) /\ (k = KDict -> 2 * Z.of_nat i <= Z.of_nat (length xs) + 1)).
  { assert (L : (length (evens xs) <= length xs)%nat /\ (2 * length (evens xs) <= length xs + 1)%nat).
    { clear. revert xs. fix IH 1. intros [|x [|y r]]; cbn; try lia. destruct (IH r). lia. }
    destruct k; cbn [items] in Hi; split; try lia; split; try lia; try discriminate. }
  destruct Hi2 as (P0 & P1 & P2).
  unfold in_step in H. unfold sbind in H at 1. rewrite id_ref_eq in H.
  pose proof (ref_visible E (for_tmp w d 1) s) as R1. destruct (ref_of s (for_tmp w d 1)) as [r1|] eqn:e1; [|congruence].
  destruct R1 as (v1 & V1' & R1). rewrite V1 in V1'. injection V1' as <-.
  unfold sbind in H at 1. rewrite R1 in H. unfold sbind in H at 1. unfold lm in H at 1.
  rewrite (ListProofs2.get_soffset_runs E _ (Z.of_nat i)) in H.
  2: { exists f. split; [reflexivity|]. unfold float_index. apply StrProofs2.to_sint_n; [destruct w; cbn; lia|exact If|]. lia. }
  rewrite set_m_id in H.
  assert (In1 : is_int (f_of_Z (Z.of_nat i + 1)) (Z.of_nat i + 1)) by (apply of_Z_int, small_representable; unfold small; lia).
  rewrite soffset_index in H by lia. unfold soffset_to_poly in H at 1. rewrite (to_poly_int _ _ In1) in H.
  destruct (write_ref (for_tmp w d 1) s r1 (PNum (f_of_Z (Z.of_nat i + 1))) e1 eq_refl) as (s1 & W & Wm & Wa & Wf & Wn & Wi & Wo & Wr).
  unfold sbind in H at 1. rewrite W in H. unfold sbind in H at 1. rewrite id_ref_eq in H.
  pose proof (ref_visible E (for_tmp w d 0) s1) as R0. rewrite (Wo (for_tmp w d 0)) in R0 by congruence. rewrite V0 in R0.
  destruct (ref_of s1 (for_tmp w d 0)) as [r0|] eqn:e0; [|discriminate]. destruct R0 as (v0 & V0' & R0). injection V0' as <-.
  unfold sbind in H at 1. rewrite R0 in H.
  assert (M1 : moved [for_tmp w d 1] s s1).
  { split; [rewrite Wm; apply mstill_refl|]. split; [exact Wa|]. split; [rewrite Wn; lia|]. split; [exact Wf|]. intros j Hj. apply Wo. intros ->. apply Hj. left. reflexivity. }
  assert (It1 : iterating d (PList l) (Z.of_nat i + 1) s1).
  { split; [rewrite Wo by congruence; exact V0|]. exists (f_of_Z (Z.of_nat i + 1)). auto. }
  (* the element *)
  match type of H with sbind ?x ?g s1 = _ => set (fetch := x) in H; assert (Fe : fetch s1 = Some (Some (match nth_error (items k xs) i with Some v => v | None => PNull end), s1)) end.
  { unfold fetch, sbind at 1, lm at 1. cbn [poly_to_list]. unfold here. rewrite set_m_id.
    unfold sbind at 1, lm at 1. unfold deref_list, bind, deref. rewrite Nat.eqb_refl. rewrite <- Wm in Ho. cbn [fst]. rewrite Ho. unfold ret at 1. rewrite set_m_id.
    assert (Hln : length xs = length (elems o)) by congruence. unfold elems in Hln. rewrite firstn_length in Hln.
    assert (Nth : forall q, (q < length xs)%nat -> nth_error (lo_data o) q = nth_error xs q).
    { intros q Hq. rewrite <- He. unfold elems. symmetry. apply MachProofs.nth_error_firstn. rewrite Hz. lia. }
    assert (Get : forall q, (q = match k with KDict => 2 * i | _ => i end)%nat -> 0 <= Z.of_nat q < 2 ^ wbits w ->
      (if u_of w (Z.of_nat q) <? lo_size o then let^ v := lm (nth_data o (u_of w (Z.of_nat q))) in sret (Some v) else sret (Some PNull)) s1 =
      Some (Some match item k xs i with Some v => v | None => PNull end, s1)).
    { intros q Hq Hb. rewrite u_of_small by exact Hb. rewrite Hz. unfold item. rewrite <- Hq. destruct (Z.ltb_spec (Z.of_nat q) (Z.of_nat (length xs))).
      - unfold sbind, lm, nth_data. rewrite Nat2Z.id, Nth by lia. destruct (nth_error xs q) eqn:eq.
        + cbn. rewrite set_m_id. reflexivity.
        + apply nth_error_None in eq. lia.
      - rewrite (proj2 (nth_error_None xs q)) by lia. reflexivity. }
    assert (Pw : 2 ^ wbits w = 2 * 2 ^ (wbits w - 1)) by (rewrite <- Z.pow_succ_r by (destruct w; cbn; lia); f_equal; lia).
    rewrite item_nth. unfold sbind at 1. destruct k; cbn [lkind_eqb]; rewrite ?Hk; cbn [lkind_eqb].
    - apply Get; [reflexivity|lia].
    - apply Get; [reflexivity|lia].
    - assert (P3 := P2 eq_refl).
      assert (Sq : sint (e_int E) (Z.of_nat i * 2) = Ok (Z.of_nat i * 2)).
      { unfold sint, in_sint. destruct (Z.leb_spec (- 2 ^ (e_int E - 1)) (Z.of_nat i * 2)); [|lia]. destruct (Z.ltb_spec (Z.of_nat i * 2) (2 ^ (e_int E - 1))); [|lia]. reflexivity. }
      rewrite Sq. rewrite soffset_index by lia. replace (Z.of_nat i * 2) with (Z.of_nat (2 * i)) by lia. apply Get; [reflexivity|lia]. }
  unfold sbind in H at 1. rewrite Fe in H.
  assert (Stop : Some (false, s1) = Some (b, s') -> iterating d (PList l) (Z.of_nat i + 1) s' /\ b = false /\ moved [for_tmp w d 1] s s').
  { intro Q. injection Q as <- <-. auto. }
  rewrite item_nth in *. destruct (item k xs i) as [v|] eqn:ei; [|apply Stop, H].
  destruct (is_null v) eqn:en; [apply Stop, H|].
  assert (Gv : is_global v = false). { rewrite Forall_forall in Hg. apply Hg. eapply nth_error_In. exact ei. }
  assert (F1 : fits_vars E (nvars s1 + 1)) by (rewrite Wn; exact F).
  assert (Sa1 : sane E (s_m s1)) by (rewrite Wm; exact Sn0). assert (A1 : aborted s1 = false) by (unfold aborted; rewrite Wm; exact Ha).
  destruct (id_store_runs E id v s1 b s' F1 Sa1 Gv A1 H Ha') as (-> & Vi & Vo & Ms & As & Nv & Fl). split; [|split; [reflexivity|split; [exact Vi|]]].
  - destruct It1 as [I1 (g & I2 & I3)]. split; [rewrite Vo by congruence; exact I1|]. exists g. split; [rewrite Vo by congruence; exact I2|exact I3].
  - split; [rewrite <- Wm; exact Ms|]. split; [congruence|]. split; [rewrite Wn in Nv; exact Nv|]. split; [congruence|].
    intros j Hj. cbn in Hj. rewrite Vo by (intros ->; tauto). apply Wo. intros ->. tauto.
Qed.

Hypothesis Hb : tame_builtins E (cf_builtins K).
Notation body_runs := (body_runs K FT).
Notation else_runs := (else_runs K FT).
Definition spares (d : Z) (l : loc) (k : lkind) (xs : list poly) (run : st -> ending -> st -> Prop) : Prop :=
  forall s1 e s2, run s1 e s2 -> e = Normal \/ e = Continue -> listed l k xs s1 ->
    listed l k xs s2 /\ fits_vars E (nvars s2 + 1) /\
    visible s2 (for_tmp w d 0) = visible s1 (for_tmp w d 0) /\ visible s2 (for_tmp w d 1) = visible s1 (for_tmp w d 1).
Definition shows_value (id : Z) (v : poly) (s : st) : Prop := visible s id = Some v.
Lemma before_skip xs i : before_none (skipn i xs) =
  match nth_error xs i with Some v => if is_null v then [] else v :: before_none (skipn (Sn i) xs) | None => [] end.
Proof. revert i. induction xs as [|x r IH]; intros [|i]; try reflexivity. cbn [skipn nth_error]. rewrite IH. reflexivity. Qed.
Lemma moved_sane ids s s' : moved ids s s' -> sane E (s_m s) -> sane E (s_m s').
Proof. intros ([[_ P1 _ P2 _ _] _] & _) [X Y]. split; [congruence|]. rewrite P1. exact Y. Qed.

Theorem in_loop d inl id body els l k xs : own_names d id -> countable E (length xs) -> spares d l k xs (body_runs d body) ->
  forall n i st r st', fits_vars E (nvars st + 1) -> sane E (s_m st) -> aborted st = false ->
  iterating d (PList l) (Z.of_nat i) st -> listed l k xs st -> (i <= length (items k xs))%nat ->
  loop K FT n d inl (in_step K d id) body els st = Val r st' ->
  visits (shows_value id) (moved [id; for_tmp w d 1]) (body_runs d body) (else_runs d inl els) (before_none (skipn i (items k xs))) st r st'.
Proof.
  intros No Hc Hk. induction n as [|n IH]; intros i st r st' F Sa Ha It Li Hi H; [discriminate|]. rewrite loop_S in H.
  apply bind_val in H as (q & s1 & H1 & H). apply prim_val in H1 as [H1 Ha1].
  destruct (in_step_runs d id l k xs i st q s1 No F Sa Ha It Li Hc Hi H1 Ha1) as (It1 & X). rewrite before_skip.
  assert (Wk : moved [for_tmp w d 1] st s1 -> moved [id; for_tmp w d 1] st s1).
  { intros (Y1 & Y2 & Y3 & Y4 & Y5). split; [exact Y1|]. split; [exact Y2|]. split; [exact Y3|]. split; [exact Y4|]. intros j Hj. apply Y5. cbn in *. tauto. }
  assert (Done : q = false /\ moved [for_tmp w d 1] st s1 ->
    visits (shows_value id) (moved [id; for_tmp w d 1]) (body_runs d body) (else_runs d inl els) [] st r st').
  { intros [-> M]. eapply visits_end; [apply Wk, M|]. exists n. exact H. }
  destruct (nth_error (items k xs) i) as [v|] eqn:ei; [|apply Done, X]. destruct (is_null v); [apply Done, X|]. clear Done Wk.
  destruct X as (-> & Vi & M).
  assert (Hi' : (Sn i <= length (items k xs))%nat) by (apply nth_error_Some; congruence).
  apply bind_val in H as (e & s2 & He & H).
  assert (Ru : body_runs d body s1 e s2) by (exists n; exact He).
  pose proof (moved_sane _ _ _ M Sa) as Sa1.
  destruct (eval_tame K FT Hb n) as (_ & _ & _ & _ & _ & _ & _ & T & _). pose proof (T 0%nat (d + 1) true body s1 Ha1) as T1. rewrite He in T1.
  destruct T1 as (Ha2 & _ & _ & Sa2). specialize (Sa2 Sa1). clear T.
  assert (Li1 : listed l k xs s1) by (destruct M as [[Fr _] _]; eapply listed_kept; [exact Li|exact (fr_kept _ _ _ Fr)]).
  assert (Go : e = Normal \/ e = Continue -> loop K FT n d inl (in_step K d id) body els s2 = Val r st' ->
    visits (shows_value id) (moved [id; for_tmp w d 1]) (body_runs d body) (else_runs d inl els) (v :: before_none (skipn (Sn i) (items k xs))) st r st').
  { intros Hn Hl. destruct (Hk _ _ _ Ru Hn Li1) as (Li2 & F2 & Q0 & Q1). eapply visits_round; [exact M|exact Vi|exact Ru|exact Hn|]. apply (IH (Sn i)); auto.
    destruct It1 as [I1 I2]. split; [rewrite Q0; exact I1|]. rewrite Q1. replace (Z.of_nat (Sn i)) with (Z.of_nat i + 1) by lia. exact I2. }
  destruct e as [| | |u]; auto.
  - injection H as <- <-. eapply visits_break; eauto.
  - injection H as <- <-. eapply visits_return; eauto.
Qed.

(** Assigning a name the accumulator. *)
Lemma assign_id_visible id s r s' : fits_vars E (nvars s + 1) -> sane E (s_m s) -> is_global (s_a s) = false -> aborted s = false ->
  assign_id E id s = Some (r, s') -> aborted s' = false ->
  visible s' id = Some (s_a s) /\ moved [id] s s'.
Proof.
  intros F [L1 L2] Hg Ha H Ha'. destruct (assign_id_runs E id s F ltac:(lia)) as (r' & s1 & H1 & m' & Hm & [[R Es]|X]).
  { rewrite H in H1. injection H1 as <- <-. unfold aborted in Ha'. destruct R as [R _]. congruence. }
  rewrite H in H1. injection H1 as <- <-. destruct X as (vs & vs' & Hp & Hs & Q & Hl & Hk). unfold target in *.
  destruct (s_frames s) as [|f fs] eqn:Ef.
  - cbn [pick_frame put_frame] in *. injection Hp as <-. subst s'. split; [|split; [|split; [|split; [|split]]]].
    + unfold visible. cbn [s_frames set_globals set_m s_globals]. rewrite Ef, Hk, Z.eqb_refl. reflexivity.
    + exact Hm.
    + reflexivity.
    + unfold nvars. cbn [s_frames set_globals set_m s_globals]. lia.
    + reflexivity.
    + intros j Hj. unfold visible. cbn [s_frames set_globals set_m s_globals]. rewrite Ef, Hk. destruct (Z.eqb_spec j id); [subst; cbn in Hj; tauto|reflexivity].
  - destruct (lookup id f) as [v0|] eqn:ef; [destruct (is_global v0) eqn:eg|].
    + cbn [pick_frame put_frame] in *. injection Hp as <-. subst s'. split; [|split; [|split; [|split; [|split]]]].
      * unfold visible. cbn [s_frames set_globals set_m s_globals]. rewrite Ef, ef, eg, Hk, Z.eqb_refl. reflexivity.
      * exact Hm.
      * reflexivity.
      * unfold nvars. cbn [s_frames set_globals set_m s_globals]. lia.
      * reflexivity.
      * intros j Hj. unfold visible. cbn [s_frames set_globals set_m s_globals]. rewrite Ef, Hk. destruct (Z.eqb_spec j id); [subst; cbn in Hj; tauto|reflexivity].
    + cbn [pick_frame put_frame] in *. rewrite Ef in Hp. injection Hp as <-. cbn [s_frames set_m] in Hs. rewrite Ef in Hs. subst s'. split; [|split; [|split; [|split; [|split]]]].
      * unfold visible. cbn [s_frames set_frames set_m s_globals]. rewrite Hk, Z.eqb_refl, Hg. reflexivity.
      * exact Hm.
      * reflexivity.
      * unfold nvars. cbn [s_frames set_frames set_m s_globals]. rewrite Ef. cbn [map]. rewrite !list_sum_cons. lia.
      * cbn [s_frames set_frames]. rewrite Ef. reflexivity.
      * intros j Hj. unfold visible. cbn [s_frames set_frames set_m s_globals]. rewrite Ef, Hk. destruct (Z.eqb_spec j id); [subst; cbn in Hj; tauto|reflexivity].
    + cbn [pick_frame put_frame] in *. rewrite Ef in Hp. injection Hp as <-. cbn [s_frames set_m] in Hs. rewrite Ef in Hs. subst s'. split; [|split; [|split; [|split; [|split]]]].
      * unfold visible. cbn [s_frames set_frames set_m s_globals]. rewrite Hk, Z.eqb_refl, Hg. reflexivity.
      * exact Hm.
      * reflexivity.
      * unfold nvars. cbn [s_frames set_frames set_m s_globals]. rewrite Ef. cbn [map]. rewrite !list_sum_cons. lia.
      * cbn [s_frames set_frames]. rewrite Ef. reflexivity.
      * intros j Hj. unfold visible. cbn [s_frames set_frames set_m s_globals]. rewrite Ef, Hk. destruct (Z.eqb_spec j id); [subst; cbn in Hj; tauto|reflexivity].
Qed.
Lemma for_start d s s1 s2 s3 v : fits_vars E (nvars s + 2) -> sane E (s_m s) -> aborted s = false -> is_global (s_a s) = false ->
  for_tmp w d 0 <> for_tmp w d 1 ->
  assign_id E (for_tmp w d 0) s = Some (v, s1) -> aborted s1 = false -> give (PNum f_zero) s1 = Val (PNum f_zero) s2 ->
  forall u, assign_id E (for_tmp w d 1) s2 = Some (u, s3) -> aborted s3 = false ->
  iterating d (s_a s) 0 s3 /\ mstill (s_m s) (s_m s3) /\ (nvars s3 <= nvars s + 2)%nat /\
  forall j, ~ In j [for_tmp w d 0; for_tmp w d 1] -> visible s3 j = visible s j.
Proof.
  intros F Sa Ha Hg Ne H1 Ha1 H2 u H3 Ha3.
  destruct (assign_id_visible _ s v s1 (fits_vars_le _ (nvars s + 1) _ F ltac:(lia)) Sa Hg Ha H1 Ha1) as (V1 & M1).
  apply give_val in H2 as (_ & -> & _). pose proof (moved_sane _ _ _ M1 Sa) as Sa1. destruct M1 as (M1 & _ & N1 & _ & O1).
  assert (F2 : fits_vars E (nvars (set_a (PNum f_zero) s1) + 1)) by (eapply fits_vars_le; [exact F|change (nvars (set_a (PNum f_zero) s1)) with (nvars s1); lia]).
  destruct (assign_id_visible _ _ u s3 F2 Sa1 eq_refl Ha1 H3 Ha3) as (V3 & M3 & _ & N3 & _ & O3).
  change (nvars (set_a (PNum f_zero) s1)) with (nvars s1) in N3.
  assert (Vs : forall j, visible (set_a (PNum f_zero) s1) j = visible s1 j) by reflexivity.
  split; [|split; [|split]].
  - split; [rewrite O3, Vs by (cbn; intros [?|[]]; congruence); exact V1|]. exists f_zero. split; [exact V3|split; reflexivity].
  - eapply mstill_trans; [exact M1|exact M3].
  - lia.
  - intros j Hj. cbn in Hj. rewrite O3, Vs, O1 by (cbn; tauto). reflexivity.
Qed.

Theorem for_statement d inl id e body els n st r st' : own_names d id -> sane E (s_m st) -> aborted st = false ->
  exs K FT n d inl (SFor id e body els) st = Val r st' ->
  exists m v s1, ev K FT m e st = Val v s1 /\
    forall l k xs, s_a s1 = PList l -> listed l k xs s1 -> countable E (length xs) -> fits_vars E (nvars s1 + 3) -> spares d l k xs (body_runs d body) ->
    exists s2, visits (shows_value id) (moved [id; for_tmp w d 1]) (body_runs d body) (else_runs d inl els) (before_none (items k xs)) s2 r st' /\
      mstill (s_m s1) (s_m s2) /\ (forall j, ~ In j [for_tmp w d 0; for_tmp w d 1] -> visible s2 j = visible s1 j).
Proof.
  intros No Sa Ha H. destruct n as [|n]; [discriminate|]. autorewrite with eval in H.
  apply bind_val in H as (v & s1 & H1 & H). exists n, v, s1. split; [exact H1|]. intros l k xs Hv Li Hc F Hk.
  destruct (eval_tame K FT Hb n) as (T & _). pose proof (T 0%nat e st Ha) as T1. rewrite H1 in T1. destruct T1 as (Ha1 & _ & _ & Sa1). specialize (Sa1 Sa). clear T.
  apply bind_val in H as (u & s2 & H2 & H). apply prim_val in H2 as [H2 Ha2].
  apply bind_val in H as (z & s3 & H3 & H). pose proof (give_val _ _ _ _ H3) as (-> & _).
  apply bind_val in H as (u2 & s4 & H4 & H). apply prim_val in H4 as [H4 Ha4].
  destruct (for_start d s1 s2 s3 s4 u (fits_vars_le _ (nvars s1 + 2) _ F ltac:(lia)) Sa1 Ha1 ltac:(rewrite Hv; reflexivity) (proj2 (proj2 No)) H2 Ha2 H3 u2 H4 Ha4) as (It & M & N & O).
  exists s4. split; [|split; assumption]. rewrite Hv in It. change (items k xs) with (skipn 0 (items k xs)). eapply (in_loop d inl id body els l k xs No Hc Hk n 0%nat).
  - eapply fits_vars_le; [exact F|lia].
  - destruct M as [[_ P1 _ P2 _ _] _], Sa1 as [X Y]. split; [congruence|]. rewrite P1. exact Y.
  - exact Ha4.
  - exact It.
  - destruct M as [Fr _]. eapply listed_kept; [exact Li|exact (fr_kept _ _ _ Fr)].
  - lia.
  - exact H.
Qed.

(** ** Iteration over the characters of a string *)
Definition spelled (l : loc) (t : list Z) (s : st) : Prop := Forall (fun c => 0 < c < 256) t /\ str_at (m_heap (s_m s)) l t.
Definition shows_char (id : Z) (c : Z) (s : st) : Prop := exists l, visible s id = Some (PStr l) /\ str_at (m_heap (s_m s)) l [c].
(** as [moved], but there may be a new object *)
Definition grown (ids : list Z) (s s' : st) : Prop :=
  frame None (s_m s) (s_m s') /\ s_a s' = s_a s /\ (nvars s' <= nvars s + 1)%nat /\ length (s_frames s') = length (s_frames s) /\
  forall j, ~ In j ids -> visible s' j = visible s j.
Lemma str_kept l t h h' : str_at h l t -> kept None h h' -> str_at h' l t.
Proof. intros H [_ Hp]. destruct (Hp l (OStr t) H ltac:(discriminate)) as (o & Ho & Sm). destruct o; try contradiction. cbn in Sm. subst. exact Ho. Qed.

Lemma char_made c m r m' : 0 < c < 256 -> sane E m -> m_abort m = false -> string_make E c m = Some (r, m') -> m_abort m' = false ->
  exists l, r = PStr l /\ str_at (m_heap m') l [c] /\ frame None m m'.
Proof.
  intros Hc [S1 S2] Ha H Ha'. unfold string_make, bind in H. destruct (alloc_runs' E 2 m ltac:(lia)) as (a & m1 & A & Fr & L & Em & _ & X).
  rewrite A in H. destruct a as [z|]; [|injection H as <- <-; destruct X as [[R _] _]; congruence].
  destruct X as (Hz & _ & _). assert (Hc1 : cstring [wrapu 8 c] = [c]).
  { unfold wrapu. change (2 ^ 8) with 256. rewrite Z.mod_small by lia. cbn. destruct (Z.eqb_spec c 0); [lia | reflexivity]. }
  rewrite Hc1 in H. unfold new_str in H. cbn [length] in H. destruct (_ <=? z); [|discriminate]. unfold new_obj in H.
  cbn [str_to_poly snd fst] in H. cbn in H. rewrite Nat.eqb_refl in H. injection H as <- <-. exists (length (m_heap m1)). split; [reflexivity|].
  split; [unfold str_at; cbn; rewrite nth_error_app2, Nat.sub_diag by lia; reflexivity|].
  destruct Fr as [F1 F2 F3 F4 F5 F6]. split; cbn; auto.
  destruct F1 as [K1 K2]. split; [rewrite app_length; lia|]. intros q o Ho Hn. destruct (K2 q o Ho Hn) as (o' & Ho' & Sm). exists o'. split; [|exact Sm].
    rewrite nth_error_app1; [exact Ho'|]. apply nth_error_Some. congruence.
Qed.

Lemma in_step_string d id l t i s b s' : own_names d id -> fits_vars E (nvars s + 1) -> sane E (s_m s) -> aborted s = false ->
  iterating d (PStr l) (Z.of_nat i) s -> spelled l t s -> countable E (length t) -> (i <= length t)%nat ->
  in_step K d id s = Some (b, s') -> aborted s' = false ->
  iterating d (PStr l) (Z.of_nat i + 1) s' /\ grown [id; for_tmp w d 1] s s' /\
  match nth_error t i with
  | Some c => b = true /\ shows_char id c s'
  | None => b = false
  end.
Proof.
  intros (N0 & N1 & N2) F Sn0 Ha [V0 (f & V1 & If)] (Hg & Ho) (C1 & C2 & C3) Hi H Ha'.
  unfold in_step in H. unfold sbind in H at 1. rewrite id_ref_eq in H.
  pose proof (ref_visible E (for_tmp w d 1) s) as R1. destruct (ref_of s (for_tmp w d 1)) as [r1|] eqn:e1; [|congruence].
  destruct R1 as (v1 & V1' & R1). rewrite V1 in V1'. injection V1' as <-.
  unfold sbind in H at 1. rewrite R1 in H. unfold sbind in H at 1. unfold lm in H at 1.
  rewrite (ListProofs2.get_soffset_runs E _ (Z.of_nat i)) in H.
  2: { exists f. split; [reflexivity|]. unfold float_index. apply StrProofs2.to_sint_n; [destruct w; cbn; lia|exact If|]. lia. }
  rewrite set_m_id in H.
  assert (In1 : is_int (f_of_Z (Z.of_nat i + 1)) (Z.of_nat i + 1)) by (apply of_Z_int, small_representable; unfold small; lia).
  assert (In0 : is_int (f_of_Z (Z.of_nat i)) (Z.of_nat i)) by (apply of_Z_int, small_representable; unfold small; lia).
  rewrite soffset_index in H by lia. unfold soffset_to_poly in H at 1. rewrite (to_poly_int _ _ In1) in H.
  destruct (write_ref (for_tmp w d 1) s r1 (PNum (f_of_Z (Z.of_nat i + 1))) e1 eq_refl) as (s1 & W & Wm & Wa & Wf & Wn & Wi & Wo & Wr).
  unfold sbind in H at 1. rewrite W in H. unfold sbind in H at 1. rewrite id_ref_eq in H.
  pose proof (ref_visible E (for_tmp w d 0) s1) as R0. rewrite (Wo (for_tmp w d 0)) in R0 by congruence. rewrite V0 in R0.
  destruct (ref_of s1 (for_tmp w d 0)) as [r0|] eqn:e0; [|discriminate]. destruct R0 as (v0 & V0' & R0). injection V0' as <-.
  unfold sbind in H at 1. rewrite R0 in H.
  assert (It1 : iterating d (PStr l) (Z.of_nat i + 1) s1).
  { split; [rewrite Wo by congruence; exact V0|]. exists (f_of_Z (Z.of_nat i + 1)). auto. }
  unfold sbind in H at 1 2. unfold lm in H at 1. cbn [poly_to_str] in H. unfold here in H. rewrite set_m_id in H.
  unfold sbind in H at 1. unfold lm in H at 1. unfold string_get in H at 1. unfold bind in H at 1.
  unfold soffset_to_poly in H at 1. rewrite (to_poly_int _ _ In0) in H.
  rewrite (ListProofs2.get_soffset_runs E _ (Z.of_nat i)) in H.
  2: { exists (f_of_Z (Z.of_nat i)). split; [reflexivity|]. unfold float_index. apply StrProofs2.to_sint_n; [destruct w; cbn; lia|exact In0|]. lia. }
  assert (Ho1 : nth_error (m_heap (s_m s1)) l = Some (OStr t)) by (rewrite Wm; exact Ho).
  unfold bind in H at 1.
  replace (deref_str (l, m_epoch (s_m s1)) (s_m s1)) with (Some (t, s_m s1)) in H
    by (unfold deref_str, bind, deref; cbn [fst snd]; rewrite Nat.eqb_refl, Ho1; reflexivity).
  assert (Pw : 2 ^ wbits w = 2 * 2 ^ (wbits w - 1)) by (rewrite <- Z.pow_succ_r by (destruct w; cbn; lia); f_equal; lia).
  unfold string_index in H. destruct (Z.ltb_spec (Z.of_nat i) 0); [lia|]. cbn [obind] in H. rewrite !u_of_small in H by lia.
  destruct (Z.leb_spec (Z.of_nat (length t)) (Z.of_nat i)) as [Hle|Hlt].
  - cbn [ret bind] in H. unfold bind, ret in H. rewrite set_m_id in H. cbn [is_null] in H. injection H as <- <-.
    split; [exact It1|]. split.
    + split; [rewrite Wm; apply frame_refl|]. split; [exact Wa|]. split; [rewrite Wn; lia|]. split; [exact Wf|].
      intros j Hj. apply Wo. intros ->. apply Hj. right. left. reflexivity.
    + rewrite (proj2 (nth_error_None t i)) by lia. reflexivity.
  - rewrite Nat2Z.id in H. destruct (nth_error t i) as [c|] eqn:ec; [|apply nth_error_None in ec; lia].
    change ((let* c := lift (Some c) in string_make E c) (s_m s1)) with (string_make E c (s_m s1)) in H. destruct (string_make E c (s_m s1)) as [[v m2]|] eqn:em; [|discriminate].
    assert (Hc : 0 < c < 256) by (rewrite Forall_forall in Hg; apply Hg; eapply nth_error_In; exact ec).
    assert (Sa1 : sane E (s_m s1)) by (rewrite Wm; exact Sn0). assert (A1 : m_abort (s_m s1) = false) by (rewrite Wm; exact Ha).
    cbn [sret] in H.
    destruct (m_abort m2) eqn:ea.
    { exfalso. destruct (is_null v).
      - injection H as <- <-. unfold aborted in Ha'. cbn in Ha'. congruence.
      - assert (T : stame E 0 0 (id_store E id v)) by ts. pose proof (T _ _ _ H) as (A & _). unfold aborted, at_most_one in *. cbn in A. rewrite ea in A. destruct A. congruence. }
    destruct (char_made c _ v m2 Hc Sa1 A1 em ea) as (lc & -> & Hlc & Fr). cbn [is_null] in H.
    assert (Sa2 : sane E m2) by (destruct Fr as [_ P1 _ P2 _ _], Sa1 as [X Y]; split; [congruence|rewrite P1; exact Y]).
    assert (F2 : fits_vars E (nvars (set_m m2 s1) + 1)) by (change (nvars (set_m m2 s1)) with (nvars s1); rewrite Wn; exact F).
    destruct (id_store_runs E id (PStr lc) (set_m m2 s1) b s' F2 Sa2 eq_refl ea H Ha') as (-> & Vi & Vo & Ms & As & Nv & Fl).
    assert (Vm : forall j, visible (set_m m2 s1) j = visible s1 j) by reflexivity.
    split; [|split; [|split; [reflexivity|]]].
    + destruct It1 as [I1 (g & I2 & I3)]. split; [rewrite Vo, Vm by congruence; exact I1|]. exists g. split; [rewrite Vo, Vm by congruence; exact I2|exact I3].
    + split; [eapply frame_trans_none; [rewrite <- Wm; exact Fr|exact (proj1 Ms)]|]. split; [rewrite As; exact Wa|]. split; [change (nvars (set_m m2 s1)) with (nvars s1) in Nv; lia|]. split; [rewrite Fl; exact Wf|].
      intros j Hj. cbn in Hj. rewrite Vo, Vm by (intros ->; tauto). apply Wo. intros ->. tauto.
    + exists lc. split; [exact Vi|]. eapply str_kept; [exact Hlc|]. exact (fr_kept _ _ _ (proj1 Ms)).
Qed.

Definition spares_string (d : Z) (l : loc) (t : list Z) (run : st -> ending -> st -> Prop) : Prop :=
  forall s1 e s2, run s1 e s2 -> e = Normal \/ e = Continue -> spelled l t s1 ->
    spelled l t s2 /\ fits_vars E (nvars s2 + 1) /\
    visible s2 (for_tmp w d 0) = visible s1 (for_tmp w d 0) /\ visible s2 (for_tmp w d 1) = visible s1 (for_tmp w d 1).
Lemma grown_sane ids s s' : grown ids s s' -> sane E (s_m s) -> sane E (s_m s').
Proof. intros ([_ P1 _ P2 _ _] & _) [X Y]. split; [congruence|]. rewrite P1. exact Y. Qed.
Lemma skip_nth {A} (xs : list A) i : skipn i xs = match nth_error xs i with Some v => v :: skipn (Sn i) xs | None => [] end.
Proof. revert i. induction xs as [|x r IH]; intros [|i]; try reflexivity. cbn [skipn nth_error]. rewrite IH. reflexivity. Qed.

Theorem in_string d inl id body els l t : own_names d id -> countable E (length t) -> spares_string d l t (body_runs d body) ->
  forall n i st r st', fits_vars E (nvars st + 1) -> sane E (s_m st) -> aborted st = false ->
  iterating d (PStr l) (Z.of_nat i) st -> spelled l t st -> (i <= length t)%nat ->
  loop K FT n d inl (in_step K d id) body els st = Val r st' ->
  visits (shows_char id) (grown [id; for_tmp w d 1]) (body_runs d body) (else_runs d inl els) (skipn i t) st r st'.
Proof.
  intros No Hc Hk. induction n as [|n IH]; intros i st r st' F Sa Ha It Li Hi H; [discriminate|]. rewrite loop_S in H.
  apply bind_val in H as (q & s1 & H1 & H). apply prim_val in H1 as [H1 Ha1].
  destruct (in_step_string d id l t i st q s1 No F Sa Ha It Li Hc Hi H1 Ha1) as (It1 & M & X). rewrite skip_nth.
  destruct (nth_error t i) as [v|] eqn:ei.
  2: { subst q. eapply visits_end; [exact M|]. exists n. exact H. }
  destruct X as (-> & Vi).
  assert (Hi' : (Sn i <= length t)%nat) by (apply nth_error_Some; congruence).
  apply bind_val in H as (e & s2 & He & H).
  assert (Ru : body_runs d body s1 e s2) by (exists n; exact He).
  pose proof (grown_sane _ _ _ M Sa) as Sa1.
  destruct (eval_tame K FT Hb n) as (_ & _ & _ & _ & _ & _ & _ & T & _). pose proof (T 0%nat (d + 1) true body s1 Ha1) as T1. rewrite He in T1.
  destruct T1 as (Ha2 & _ & _ & Sa2). specialize (Sa2 Sa1). clear T.
  assert (Li1 : spelled l t s1) by (destruct M as [Fr _], Li as [G1 G2]; split; [exact G1|]; eapply str_kept; [exact G2|exact (fr_kept _ _ _ Fr)]).
  assert (Go : e = Normal \/ e = Continue -> loop K FT n d inl (in_step K d id) body els s2 = Val r st' ->
    visits (shows_char id) (grown [id; for_tmp w d 1]) (body_runs d body) (else_runs d inl els) (v :: skipn (Sn i) t) st r st').
  { intros Hn Hl. destruct (Hk _ _ _ Ru Hn Li1) as (Li2 & F2 & Q0 & Q1). eapply visits_round; [exact M|exact Vi|exact Ru|exact Hn|]. apply (IH (Sn i)); auto.
    destruct It1 as [I1 I2]. split; [rewrite Q0; exact I1|]. rewrite Q1. replace (Z.of_nat (Sn i)) with (Z.of_nat i + 1) by lia. exact I2. }
  destruct e as [| | |u]; auto.
  - injection H as <- <-. eapply visits_break; eauto.
  - injection H as <- <-. eapply visits_return; eauto.
Qed.

Theorem for_string d inl id e body els n st r st' : own_names d id -> sane E (s_m st) -> aborted st = false ->
  exs K FT n d inl (SFor id e body els) st = Val r st' ->
  exists m v s1, ev K FT m e st = Val v s1 /\
    forall l t, s_a s1 = PStr l -> spelled l t s1 -> countable E (length t) -> fits_vars E (nvars s1 + 3) -> spares_string d l t (body_runs d body) ->
    exists s2, visits (shows_char id) (grown [id; for_tmp w d 1]) (body_runs d body) (else_runs d inl els) t s2 r st' /\
      mstill (s_m s1) (s_m s2) /\ (forall j, ~ In j [for_tmp w d 0; for_tmp w d 1] -> visible s2 j = visible s1 j).
Proof.
  intros No Sa Ha H. destruct n as [|n]; [discriminate|]. autorewrite with eval in H.
  apply bind_val in H as (v & s1 & H1 & H). exists n, v, s1. split; [exact H1|]. intros l t Hv Li Hc F Hk.
  destruct (eval_tame K FT Hb n) as (T & _). pose proof (T 0%nat e st Ha) as T1. rewrite H1 in T1. destruct T1 as (Ha1 & _ & _ & Sa1). specialize (Sa1 Sa). clear T.
  apply bind_val in H as (u & s2 & H2 & H). apply prim_val in H2 as [H2 Ha2].
  apply bind_val in H as (z & s3 & H3 & H). pose proof (give_val _ _ _ _ H3) as (-> & _).
  apply bind_val in H as (u2 & s4 & H4 & H). apply prim_val in H4 as [H4 Ha4].
  destruct (for_start d s1 s2 s3 s4 u (fits_vars_le _ (nvars s1 + 2) _ F ltac:(lia)) Sa1 Ha1 ltac:(rewrite Hv; reflexivity) (proj2 (proj2 No)) H2 Ha2 H3 u2 H4 Ha4) as (It & M & N & O).
  exists s4. split; [|split; assumption]. rewrite Hv in It. change t with (skipn 0 t). eapply (in_string d inl id body els l t No Hc Hk n 0%nat).
  - eapply fits_vars_le; [exact F|lia].
  - destruct M as [[_ P1 _ P2 _ _] _], Sa1 as [X Y]. split; [congruence|]. rewrite P1. exact Y.
  - exact Ha4.
  - exact It.
  - destruct M as [Fr _], Li as [G1 G2]. split; [exact G1|]. eapply str_kept; [exact G2|exact (fr_kept _ _ _ Fr)].
  - lia.
  - exact H.
Qed.
End Iteration.

(** ** The hidden names *)
Lemma for_tmp_eq w d i : 0 <= d < 256 -> 0 <= i <= 1 -> for_tmp w d i = 2 ^ wbits w - 5 - (d * 2 + i).
Proof.
  intros Hd Hi. unfold for_tmp. rewrite (Z.mod_small d) by lia. unfold u_of, wrapu. apply Z.mod_small.
  assert (2 ^ 16 <= 2 ^ wbits w) by (destruct w; vm_compute; discriminate). change (2 ^ 16) with 65536 in *. lia.
Qed.
Lemma hidden_apart w d d' i i' : 0 <= d < 256 -> 0 <= d' < 256 -> 0 <= i <= 1 -> 0 <= i' <= 1 ->
  for_tmp w d i = for_tmp w d' i' -> d = d' /\ i = i'.
Proof. intros Hd Hd' Hi Hi' H. rewrite !for_tmp_eq in H by assumption. lia. Qed.
Lemma hidden_again w d i : 0 <= d -> for_tmp w (d + 256) i = for_tmp w d i.
Proof. intro Hd. unfold for_tmp. replace ((d + 256) mod 256) with (d mod 256); [reflexivity|]. rewrite <- (Z_mod_plus_full d 1 256). reflexivity. Qed.
Lemma names_own K d id : 0 <= d < 256 -> 0 <= id <= 2 ^ wbits (e_width (cf_env K)) - 517 -> own_names K d id.
Proof. intros Hd Hi. unfold own_names. rewrite !for_tmp_eq by lia. lia. Qed.
