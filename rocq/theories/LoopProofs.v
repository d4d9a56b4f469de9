(** For loops. *)
From Coq Require Import ZArith Bool List Lia Reals.
From Flocq Require IEEE754.Binary.
From Verif Require Import Base FloatModel PolyModel ValueModel MathModel MachModel ListModel StrModel BinModel FrameModel CodeModel CompModel ExecModel MachSpec MathSpec MathProofs VarSpec FrameProofs VarProofs EvalSpec LayoutSpec LoopSpec EvalMono TameSpec TameProofs TameProofs2 EvalTame StepProofs EvalProofs EvalProofs2 SliceModel SliceProofs.
Import ListNotations.
Local Open Scope Z_scope.
Open Scope eval_scope.
Open Scope st_scope.

(** ** References *)
Definition ref_global (s : st) (id : Z) : option vref :=
  option_map (fun n => {| vr_global := true; vr_index := n |}) (index_of id (s_globals s)).
Definition ref_of (s : st) (id : Z) : option vref :=
  match s_frames s with
  | f :: _ =>
      match index_of id f with
      | Some n => match nth_error f n with
                  | Some (_, v) => if is_global v then ref_global s id else Some {| vr_global := false; vr_index := n |}
                  | None => None
                  end
      | None => ref_global s id
      end
  | [] => ref_global s id
  end.

Section Refs.
Variable E : env.
Lemma id_ref_eq id s : id_ref E id false s = Some (ref_of s id, s).
Proof.
  unfold id_ref, sbind, variable_lookup, sbind, get, ref_of. cbn [pick_frame].
  assert (G : (match (let^ s0 := get in match pick_frame true s0 with
      | Some vs => match index_of id vs with Some n => sret (Some {| vr_global := true; vr_index := n |}) | None => sret None end
      | None => sret None end) s with Some p => Some p | None => None end) = Some (ref_global s id, s)).
  { unfold sbind, get, ref_global. cbn [pick_frame]. destruct (index_of id (s_globals s)); reflexivity. }
  unfold sbind, get, ref_global in *. cbn [pick_frame] in *.
  destruct (s_frames s) as [|f fs] eqn:Ef; cbn [hd_error].
  - unfold sret. destruct (index_of id (s_globals s)); reflexivity.
  - pose proof (index_lookup id f) as K. destruct (index_of id f) as [n|]; unfold sret at 1.
    + destruct K as (v & A & _). unfold read. cbn [vr_global vr_index pick_frame]. rewrite Ef. cbn [hd_error]. rewrite A.
      destruct (is_global v); [destruct (index_of id (s_globals s))|]; reflexivity.
    + destruct (index_of id (s_globals s)); reflexivity.
Qed.
Lemma ref_visible id s : match ref_of s id with
  | Some r => exists v, visible s id = Some v /\ read r s = Some (v, s)
  | None => visible s id = None
  end.
Proof.
  destruct (id_ref_read E id s) as (r & s' & H1 & _ & H2). rewrite id_ref_eq in H1. injection H1 as <- <-. exact H2.
Qed.
Lemma index_upd id v : forall vs n j, index_of id vs = Some n -> index_of j (upd n (id, v) vs) = index_of j vs.
Proof.
  induction vs as [|[k w] vs IH]; intros n j H; cbn [index_of] in H; [discriminate|].
  destruct (Z.eqb_spec k id) as [->|N].
  - injection H as <-. reflexivity.
  - destruct (index_of id vs) as [m|]; [|discriminate]. cbn in H. injection H as <-. cbn [upd index_of]. destruct (k =? j); [reflexivity|].
    rewrite (IH m j eq_refl). reflexivity.
Qed.
Lemma nth_upd {A} (x : A) : forall l n k, nth_error (upd n x l) k = if Nat.eqb k n then (if Nat.ltb k (length l) then Some x else None) else nth_error l k.
Proof.
  induction l as [|y l IH]; intros [|n] [|k]; cbn; try reflexivity.
  - destruct (Nat.eqb k n); reflexivity.
  - rewrite IH. reflexivity.
Qed.
Lemma index_inj id j : forall vs n, index_of id vs = Some n -> index_of j vs = Some n -> id = j.
Proof.
  intros vs n H1 H2. pose proof (index_lookup id vs) as K1. pose proof (index_lookup j vs) as K2. rewrite H1 in K1. rewrite H2 in K2.
  destruct K1 as (? & K1 & _). destruct K2 as (? & K2 & _). congruence.
Qed.

(** Writing through the reference of a name. *)
Lemma write_ref id s r v' : ref_of s id = Some r -> is_global v' = false ->
  exists s', write r v' s = Some (tt, s') /\ s_m s' = s_m s /\ s_a s' = s_a s /\ length (s_frames s') = length (s_frames s) /\ nvars s' = nvars s /\
    visible s' id = Some v' /\ (forall j, j <> id -> visible s' j = visible s j) /\ (forall j, ref_of s' j = ref_of s j).
Proof.
  intros Hr Hv. unfold ref_of in Hr.
  assert (G : ref_global s id = Some r -> (match s_frames s with [] => True | f :: _ => match lookup id f with Some v => is_global v = true | None => True end end) ->
    exists s', write r v' s = Some (tt, s') /\ s_m s' = s_m s /\ s_a s' = s_a s /\ length (s_frames s') = length (s_frames s) /\ nvars s' = nvars s /\
    visible s' id = Some v' /\ (forall j, j <> id -> visible s' j = visible s j) /\ (forall j, ref_of s' j = ref_of s j)).
  { intros Hg Hl. unfold ref_global in Hg. destruct (index_of id (s_globals s)) as [n|] eqn:ei; [|discriminate]. injection Hg as <-.
    pose proof (index_lookup id (s_globals s)) as K. rewrite ei in K. destruct K as (v & A & B).
    unfold write. cbn [vr_global vr_index pick_frame]. rewrite A. eexists. split; [reflexivity|]. cbn [put_frame set_globals s_m s_a s_frames].
    do 3 (split; [reflexivity|]). split; [unfold nvars; cbn [s_globals s_frames set_globals]; f_equal; apply upd_length'|]. split; [|split].
    - unfold visible. cbn [s_globals s_frames set_globals]. rewrite (lookup_upd _ _ _ _ _ ei), Z.eqb_refl.
      destruct (s_frames s) as [|f fs]; [reflexivity|]. destruct (lookup id f); [rewrite Hl|]; reflexivity.
    - intros j Hj. unfold visible. cbn [s_globals s_frames set_globals]. rewrite (lookup_upd _ _ _ _ _ ei). destruct (Z.eqb_spec j id); [contradiction|reflexivity].
    - intro j. unfold ref_of, ref_global. cbn [s_globals s_frames set_globals]. rewrite (index_upd _ _ _ _ _ ei). reflexivity. }
  destruct (s_frames s) as [|f fs] eqn:Ef; [apply G; auto|].
  pose proof (index_lookup id f) as K. destruct (index_of id f) as [n|] eqn:ei.
  - destruct K as (v & A & B). rewrite A in Hr. destruct (is_global v) eqn:eg; [apply G; auto; rewrite B; exact eg|]. injection Hr as <-.
    unfold write. cbn [vr_global vr_index pick_frame]. rewrite Ef. cbn [hd_error]. rewrite A. eexists. split; [reflexivity|].
    cbn [put_frame]. rewrite Ef. cbn [set_frames s_m s_a s_frames s_globals].
    do 3 (split; [reflexivity|]). split; [unfold nvars; cbn [s_globals s_frames set_frames]; rewrite Ef; cbn [map]; rewrite !list_sum_cons; do 2 f_equal; apply upd_length'|]. split; [|split].
    + unfold visible. cbn [s_frames set_frames]. rewrite (lookup_upd _ _ _ _ _ ei), Z.eqb_refl, Hv. reflexivity.
    + intros j Hj. unfold visible. cbn [s_frames set_frames s_globals]. rewrite Ef, (lookup_upd _ _ _ _ _ ei). destruct (Z.eqb_spec j id); [contradiction|reflexivity].
    + intro j. unfold ref_of, ref_global. cbn [s_frames set_frames s_globals]. rewrite Ef, (index_upd _ _ _ _ _ ei).
      destruct (index_of j f) as [k|] eqn:ej; [|reflexivity]. rewrite nth_upd. destruct (Nat.eqb_spec k n) as [->|N]; [|reflexivity].
      replace (Nat.ltb n (length f)) with true by (symmetry; apply Nat.ltb_lt, nth_error_Some; congruence). rewrite Hv.
      pose proof (index_inj _ _ _ _ ei ej). subst j. rewrite A, eg. reflexivity.
  - apply G; [exact Hr|]. rewrite K. exact Logic.I.
Qed.

Definition sp_ok (s : st) : Prop := (m_sp (s_m s) <= length (m_stack (s_m s)))%nat.
(** The reference of a name that may be new. *)
Lemma id_ref_insert id s r s' : fits_vars E (nvars s + 1) -> sp_ok s -> id_ref E id true s = Some (r, s') -> aborted s' = false ->
  exists r0, r = Some r0 /\ ref_of s' id = Some r0 /\ (forall j, j <> id -> visible s' j = visible s j) /\
    mstill (s_m s) (s_m s') /\ s_a s' = s_a s /\ (nvars s' <= nvars s + 1)%nat /\ length (s_frames s') = length (s_frames s).
Proof.
  intros F Hsp H Ha. unfold id_ref in H.
  assert (Fg : fits_vars E (length (s_globals s) + 1)) by (eapply fits_vars_le; [exact F|unfold nvars; lia]).
  assert (G : forall m1 r s', mstill (s_m s) m1 -> variable_lookup E true id true (set_m m1 s) = Some (r, s') -> aborted s' = false ->
    m_abort m1 = false /\
    exists r0 vs', r = Some r0 /\ s' = set_globals vs' (set_m (s_m s') s) /\ mstill (s_m s) (s_m s') /\
      index_of id vs' = Some (vr_index r0) /\ vr_global r0 = true /\ (forall j, j <> id -> lookup j vs' = lookup j (s_globals s)) /\
      (length vs' <= length (s_globals s) + 1)%nat).
  { intros m1 r1 s1 Hm1 H1 Ha1.
    destruct (variable_lookup_runs E true id (set_m m1 s) (s_globals s) eq_refl Fg) as (r2 & s2 & H2 & m' & Hm & X).
    { cbn [set_m s_m]. eapply mstill_sp; eauto. }
    rewrite H2 in H1. injection H1 as <- <-. destruct r2 as [r2|].
    - destruct X as (vs' & v0 & Hr & Hs & [Q _] & Hn & Hi & Hl & _ & Hlen). subst s2. cbn [put_frame set_globals set_m s_m] in *. unfold aborted in Ha1. cbn in Ha1.
      split; [congruence|]. exists r2, vs'. split; [reflexivity|]. split; [reflexivity|]. split; [eapply mstill_trans; eauto|]. split; [exact Hi|].
      split; [rewrite Hr; reflexivity|]. split; [|exact Hlen]. intros j Hj. rewrite Hl. destruct (Z.eqb_spec j id); [contradiction|reflexivity].
    - destruct X as (-> & [X _]). unfold aborted in Ha1. cbn in Ha1. congruence. }
  destruct (s_frames s) as [|f fs] eqn:Ef.
  - unfold sbind in H at 1. replace (variable_lookup E false id true s) with (Some (@None vref, s)) in H
      by (unfold variable_lookup, sbind, get; cbn [pick_frame]; rewrite Ef; reflexivity).
    rewrite <- (set_m_id s) in H. destruct (G _ _ _ (mstill_refl _) H Ha) as (_ & r0 & vs' & -> & Hs & Hm & Hi & Hg & Hl & Hlen).
    exists r0. split; [reflexivity|]. rewrite Hs. split; [|split; [|split; [|split; [|split]]]].
    + unfold ref_of, ref_global. cbn [s_frames set_globals set_m s_globals]. rewrite Ef, Hi. destruct r0. cbn in *. subst. reflexivity.
    + intros j Hj. unfold visible. cbn [s_frames set_globals set_m s_globals]. rewrite Ef. auto.
    + exact Hm.
    + reflexivity.
    + unfold nvars. cbn [s_frames set_globals set_m s_globals]. lia.
    + cbn [s_frames set_globals set_m]. rewrite Ef. reflexivity.
  - assert (Hpf : pick_frame false s = Some f) by (cbn; rewrite Ef; reflexivity).
    assert (Ff : fits_vars E (length f + 1)) by (eapply fits_vars_le; [exact F|unfold nvars; rewrite Ef; cbn [map]; rewrite list_sum_cons; lia]).
    destruct (variable_lookup_runs E false id s f Hpf Ff Hsp) as (r1 & s1 & H1 & m1 & Hm1 & X). unfold sbind in H at 1. rewrite H1 in H.
    destruct r1 as [r1|].
    + destruct X as (vs' & v0 & Hr & -> & [Q _] & Hn & Hi & Hl & Hv & Hlen).
      assert (Es : put_frame false vs' (set_m m1 s) = set_frames (vs' :: fs) (set_m m1 s)).
      { unfold put_frame. cbn [s_frames set_m]. rewrite Ef. reflexivity. }
      rewrite Es in *. unfold sbind in H at 1. unfold read in H at 1. rewrite Hr in H. cbn [vr_global vr_index pick_frame set_frames s_frames hd_error] in H.
      rewrite Hn in H. destruct (is_global v0) eqn:eg.
      * assert (Hvs : lookup id f = Some v0 /\ vs' = f) by (destruct Hv as [?|[_ ->]]; [auto|discriminate eg]). destruct Hvs as [Hf ->].
        assert (Es2 : set_frames (f :: fs) (set_m m1 s) = set_m m1 s) by (unfold set_frames, set_m; cbn; rewrite <- Ef; reflexivity).
        rewrite Es2 in H. destruct (G _ _ _ Hm1 H Ha) as (_ & r0 & vs2 & -> & Hs & Hm & Hi2 & Hg & Hl2 & Hlen2).
        exists r0. split; [reflexivity|]. rewrite Hs. split; [|split; [|split; [|split; [|split]]]].
        -- unfold ref_of, ref_global. cbn [s_frames set_globals set_m s_globals]. rewrite Ef, Hi, Hn, eg, Hi2. destruct r0. cbn in *. subst. reflexivity.
        -- intros j Hj. unfold visible. cbn [s_frames set_globals set_m s_globals]. rewrite Ef, Hl2 by exact Hj. reflexivity.
        -- exact Hm.
        -- reflexivity.
        -- unfold nvars. cbn [s_frames set_globals set_m s_globals]. lia.
        -- cbn [s_frames set_globals set_m]. congruence.
      * injection H as <- <-. exists r1. split; [congruence|]. split; [|split; [|split; [|split; [|split]]]].
        -- unfold ref_of. cbn [s_frames set_frames]. rewrite Hi, Hn, eg. congruence.
        -- intros j Hj. unfold visible. cbn [s_frames set_frames set_m s_globals]. rewrite Ef, Hl. destruct (Z.eqb_spec j id); [contradiction|reflexivity].
        -- exact Hm1.
        -- reflexivity.
        -- unfold nvars. cbn [s_frames set_frames set_m s_globals]. rewrite Ef. cbn [map]. rewrite !list_sum_cons. lia.
        -- reflexivity.
    + destruct X as (-> & [X _]). destruct (G _ _ _ Hm1 H Ha) as (Y & _). congruence.
Qed.

(** Storing into a name that may be new. *)
Lemma id_store_runs id v s b s' : fits_vars E (nvars s + 1) -> sane E (s_m s) -> is_global v = false -> aborted s = false ->
  id_store E id v s = Some (b, s') -> aborted s' = false ->
  b = true /\ visible s' id = Some v /\ (forall j, j <> id -> visible s' j = visible s j) /\
    mstill (s_m s) (s_m s') /\ s_a s' = s_a s /\ (nvars s' <= nvars s + 1)%nat /\ length (s_frames s') = length (s_frames s).
Proof.
  intros F Hsn Hv Ha H Ha'. unfold id_store in H.
  assert (Tm : stame E 1 0 (let^ r := id_ref E id true in let^ v0 := lm pop in match r with None => sret false | Some r => write r v0 ^; sret true end)) by ts.
  unfold sbind in H at 1. unfold lm in H at 1. unfold push in H. destruct Hsn as [Hlen Hsp].
  destruct (Nat.eqb_spec (m_sp (s_m s)) (e_stack E)) as [He|He].
  - exfalso. unfold error in H. unfold aborted in Ha. rewrite Ha in H. cbn [m_abort] in H.
    match type of H with ?x ?y = _ => pose proof (Tm y _ _ H) as (A & _) end. unfold at_most_one in A. cbn [s_m set_m m_abort set_err] in A.
    destruct A as [A _]. unfold aborted in Ha'. congruence.
  - clear Tm. set (s1 := set_m _ s) in H. unfold sbind in H at 1. destruct (id_ref E id true s1) as [[r s2]|] eqn:er; [|discriminate].
    assert (Hp : aborted s2 = false).
    { unfold sbind in H at 1. unfold lm in H at 1. unfold pop in H. destruct (m_sp (s_m s2)) as [|n]; [discriminate|].
      destruct (nth_error (m_stack (s_m s2)) n) as [p|]; [|discriminate]. destruct r as [r|].
      - unfold sbind in H at 1. unfold write in H at 1. cbn [pick_frame set_m s_frames s_globals] in H.
        destruct (pick_frame (vr_global r) (set_m (set_stack (m_stack (s_m s2)) n (s_m s2)) s2)); [|discriminate].
        destruct (nth_error l (vr_index r)) as [[]|]; [|discriminate]. injection H as _ <-. unfold aborted in *. rewrite put_frame_m in Ha'. exact Ha'.
      - injection H as _ <-. exact Ha'. }
    assert (Hs1 : sp_ok s1).
    { unfold sp_ok, s1. cbn. rewrite upd_length'. lia. }
    destruct (id_ref_insert id s1 r s2 F Hs1 er Hp) as (r0 & -> & Rf & Vo & Ms & As & Nv & Fl).
    assert (Htop : lm pop s2 = Some (v, set_m (set_stack (m_stack (s_m s2)) (m_sp (s_m s)) (s_m s2)) s2)).
    { destruct Ms as [Fr _]. unfold lm, pop. pose proof (fr_sp _ _ _ Fr) as E1. cbn [s1 s_m set_m set_stack m_sp] in E1. rewrite E1.
      pose proof (fr_stack _ _ _ Fr) as E2. cbn [s1 s_m set_m set_stack m_sp m_stack] in E2.
      rewrite (nth_firstn _ _ (Sn (m_sp (s_m s))) (m_sp (s_m s)) ltac:(lia) E2). rewrite nth_upd, Nat.eqb_refl.
      replace (Nat.ltb (m_sp (s_m s)) (length (m_stack (s_m s)))) with true by (symmetry; apply Nat.ltb_lt; lia). reflexivity. }
    unfold sbind in H at 1. rewrite Htop in H. set (s3 := set_m _ s2) in H.
    assert (Rf3 : ref_of s3 id = Some r0) by exact Rf.
    destruct (write_ref id s3 r0 v Rf3 Hv) as (s4 & W & Wm & Wa & Wf & Wn & Wi & Wo & _).
    unfold sbind in H. rewrite W in H. injection H as <- <-. split; [reflexivity|]. split; [exact Wi|]. split; [|split; [|split; [|split]]].
    + intros j Hj. rewrite Wo by exact Hj. change (visible s3 j) with (visible s2 j). rewrite Vo by exact Hj. reflexivity.
    + rewrite Wm. unfold s3. cbn [s_m set_m]. destruct Ms as [Fr Hl]. split; [|exact Hl]. 
      destruct Fr as [F1 F2 F3 F4 F5 F6]. cbn [s1 s_m set_m set_stack m_heap m_stack m_sp m_empty m_epoch] in *.
      split; cbn [m_heap m_stack m_sp m_empty m_epoch set_stack]; try assumption.
      * reflexivity.
      * rewrite (TameProofs.firstn_le (m_sp (s_m s)) (Sn (m_sp (s_m s))) _ _ ltac:(lia) F3). apply TameProofs.upd_firstn.
      * rewrite F4, upd_length'. reflexivity.
    + rewrite Wa. exact As.
    + rewrite Wn. exact Nv.
    + rewrite Wf. exact Fl.
Qed.
End Refs.

(** ** Counting *)
Lemma to_poly_int f z : is_int f z -> float_to_poly f = PNum f.
Proof. intros [H _]. unfold float_to_poly. destruct f; try discriminate H; reflexivity. Qed.

Section Range.
Variable K : conf.
Notation E := (cf_env K).
Notation w := (e_width E).

(** the values of the loop's names *)
Record counting (d id : Z) (z b s : Z) (st : st) : Prop := {
  ct_id : exists f, visible st id = Some (PNum f) /\ is_int f z;
  ct_limit : exists f, visible st (for_tmp w d 0) = Some (PNum f) /\ is_int f b;
  ct_step : exists f, visible st (for_tmp w d 1) = Some (PNum f) /\ is_int f s }.
Definition own_names (d id : Z) : Prop := id <> for_tmp w d 0 /\ id <> for_tmp w d 1 /\ for_tmp w d 0 <> for_tmp w d 1.
(** only the loop variable changes *)
Definition only (ids : list Z) (s s' : st) : Prop :=
  s_m s' = s_m s /\ s_a s' = s_a s /\ length (s_frames s') = length (s_frames s) /\ forall j, ~ In j ids -> visible s' j = visible s j.
Definition within (b s z : Z) : bool := if 0 <? s then z <? b else b <? z.

(** the number [z'] is what adding [s] to [z] gives *)
Definition sums (z s z' : Z) : Prop := forall f g, is_int f z -> is_int g s -> is_int (fadd f g) z'.
Definition differs (z s z' : Z) : Prop := forall f g, is_int f z -> is_int g s -> is_int (fsub f g) z'.

Lemma range_step_sums d id z b s z' st : own_names d id -> counting d id z b s st -> sums z s z' ->
  exists st', range_step K d id st = Some (within b s z', st') /\ counting d id z' b s st' /\ only [id] st st'.
Proof.
  intros (N0 & N1 & N2) [(fi & Vi & Ii) (fl & Vl & Il) (ft & Vt & It)] Hr. unfold range_step, sbind at 1. rewrite id_ref_eq.
  pose proof (ref_visible E id st) as Ri. pose proof (ref_visible E (for_tmp w d 0) st) as Rl. pose proof (ref_visible E (for_tmp w d 1) st) as Rt.
  destruct (ref_of st id) as [ri|] eqn:ei; [|congruence]. destruct (ref_of st (for_tmp w d 0)) as [rl|] eqn:el; [|congruence].
  destruct (ref_of st (for_tmp w d 1)) as [rt|] eqn:et; [|congruence].
  unfold sbind at 1. rewrite id_ref_eq, el. unfold sbind at 1. rewrite id_ref_eq, et.
  destruct Ri as (vi & V1 & R1). destruct Rt as (vt & V3 & R3). rewrite Vi in V1. injection V1 as <-. rewrite Vt in V3. injection V3 as <-.
  unfold sbind at 1. rewrite R3. unfold sbind at 1. unfold lm at 1. cbn [get_float]. unfold ret at 1. rewrite set_m_id.
  unfold sbind at 1. rewrite R1. unfold sbind at 1. unfold lm at 1. cbn [get_float]. unfold ret at 1. rewrite set_m_id.
  pose proof (Hr _ _ Ii It) as Ia.
  destruct (write_ref id st ri (float_to_poly (fadd fi ft)) ei eq_refl) as (st' & W & Wm & Wa & Wf & Wn & Wi & Wo & Wr).
  unfold sbind at 1. rewrite W. unfold sbind at 1.
  pose proof (ref_visible E (for_tmp w d 0) st') as Rl'. rewrite Wr, el in Rl'. destruct Rl' as (vl & V2 & R2).
  rewrite Wo in V2 by congruence. rewrite Vl in V2. injection V2 as <-. rewrite R2. unfold sbind, lm. cbn [get_float]. unfold ret. rewrite set_m_id. unfold sret.
  exists st'. split; [|split].
  - do 2 f_equal. rewrite (to_poly_int _ _ Ia) in *. unfold f_zero.
    assert (I0 : is_int (Binary.B754_zero 24 128 false) 0) by (split; reflexivity).
    rewrite (flt_int _ _ _ _ I0 It). unfold within. destruct (0 <? s).
    + rewrite (fle_int _ _ _ _ Il Ia). rewrite Z.ltb_antisym. reflexivity.
    + rewrite (fle_int _ _ _ _ Ia Il). rewrite Z.ltb_antisym. reflexivity.
  - split.
    + exists (fadd fi ft). rewrite Wi, (to_poly_int _ _ Ia). auto.
    + exists fl. rewrite Wo by congruence. auto.
    + exists ft. rewrite Wo by congruence. auto.
  - split; [exact Wm|]. split; [exact Wa|]. split; [exact Wf|]. intros j Hj. apply Wo. intros ->. apply Hj. left. reflexivity.
Qed.

Lemma range_step_runs d id z b s st : own_names d id -> counting d id z b s st -> representable (z + s) ->
  exists st', range_step K d id st = Some (within b s (z + s), st') /\ counting d id (z + s) b s st' /\ only [id] st st'.
Proof. intros No C R. apply range_step_sums with (z := z); auto. intros f g If Ig. apply add_int; auto. Qed.

Lemma range_next a b s : s <> 0 -> range_list a b s = if within b s a then a :: range_list (a + s) b s else [].
Proof.
  intro Hs. unfold range_list.
  assert (C : range_count a b s = if within b s a then Sn (range_count (a + s) b s) else 0%nat).
  { unfold range_count, within. destruct (Z.ltb_spec 0 s).
    - destruct (Z.ltb_spec a b).
      + replace (b - a + s - 1) with ((b - (a + s) + s - 1) + 1 * s) by lia. rewrite Z.div_add by lia.
        assert (0 <= (b - (a + s) + s - 1) / s) by (apply Z.div_pos; lia). lia.
      + assert ((b - a + s - 1) / s <= 0) by (assert ((b - a + s - 1) / s < 1) by (apply Z.div_lt_upper_bound; lia); lia). lia.
    - destruct (Z.ltb_spec b a).
      + replace (a - b - s - 1) with ((a + s - b - s - 1) + 1 * - s) by lia. rewrite Z.div_add by lia.
        assert (0 <= (a + s - b - s - 1) / - s) by (apply Z.div_pos; lia). lia.
      + assert ((a - b - s - 1) / - s < 1) by (apply Z.div_lt_upper_bound; lia). lia. }
  rewrite C. destruct (within b s a); [|reflexivity]. cbn [seq map]. f_equal; [lia|]. rewrite <- seq_shift, map_map. apply map_ext. intro k. lia.
Qed.
(** what is in the list *)
Lemma range_in a b s x : s <> 0 -> In x (range_list a b s) <-> exists k, 0 <= k /\ x = a + k * s /\ within b s x = true.
Proof.
  intro Hs. unfold range_list, range_count, within. rewrite in_map_iff. split.
  - intros (k & <- & Hk). apply in_seq in Hk. exists (Z.of_nat k). split; [lia|]. split; [reflexivity|].
    destruct (Z.ltb_spec 0 s); apply Z.ltb_lt.
    + assert (Hk' : Z.of_nat k + 1 <= (b - a + s - 1) / s) by lia. apply Z.mul_le_mono_nonneg_r with (p := s) in Hk'; [|lia].
      pose proof (Z.mul_div_le (b - a + s - 1) s ltac:(lia)). lia.
    + assert (Hk' : Z.of_nat k + 1 <= (a - b - s - 1) / - s) by lia. apply Z.mul_le_mono_nonneg_r with (p := - s) in Hk'; [|lia].
      pose proof (Z.mul_div_le (a - b - s - 1) (- s) ltac:(lia)). lia.
  - intros (k & Hk & -> & Hw). exists (Z.to_nat k). split; [rewrite Z2Nat.id by lia; reflexivity|]. apply in_seq.
    destruct (Z.ltb_spec 0 s); apply Z.ltb_lt in Hw.
    + assert (k + 1 <= (b - a + s - 1) / s) by (apply Z.div_le_lower_bound; lia). lia.
    + assert (k + 1 <= (a - b - s - 1) / - s) by (apply Z.div_le_lower_bound; lia). lia.
Qed.

Variable FT : loc -> option (func fundef).
Definition body_runs (d : Z) (body : stmt) : st -> ending -> st -> Prop := fun s1 e s2 => exists n, exs K FT n (d + 1) true body s1 = Val e s2.
Definition else_runs (d : Z) (inl : bool) (els : stmt) : st -> ending -> st -> Prop := fun s1 e s2 => exists n, exs K FT n d inl els s1 = Val e s2.
(** the body leaves the names alone *)
Definition keeps (ids : list Z) (run : st -> ending -> st -> Prop) : Prop :=
  forall s1 e s2, run s1 e s2 -> e = Normal \/ e = Continue -> forall j, In j ids -> visible s2 j = visible s1 j.
Definition shows_int (id : Z) (z : Z) (s : st) : Prop := exists f, visible s id = Some (PNum f) /\ is_int f z.

Theorem range_loop d inl id body els b s : own_names d id -> s <> 0 -> Z.abs b + Z.abs s <= 2 ^ 24 ->
  keeps [id; for_tmp w d 0; for_tmp w d 1] (body_runs d body) ->
  forall n z st r st', counting d id z b s st -> small (z + s) ->
  loop K FT n d inl (range_step K d id) body els st = Val r st' ->
  visits (shows_int id) (only [id]) (body_runs d body) (else_runs d inl els) (range_list (z + s) b s) st r st'.
Proof.
  intros No Hs Hb Hk. induction n as [|n IH]; intros z st r st' C Sm H; [discriminate|]. rewrite loop_S in H.
  apply bind_val in H as (q & s1 & H1 & H). apply prim_val in H1 as [H1 _].
  destruct (range_step_runs d id z b s st No C (small_representable _ Sm)) as (s1' & R & C1 & O). rewrite R in H1. injection H1 as <- <-.
  rewrite range_next by exact Hs. destruct (within b s (z + s)) eqn:ew.
  - apply bind_val in H as (e & s2 & He & H).
    assert (Sh : shows_int id (z + s) s1') by apply (ct_id _ _ _ _ _ _ C1).
    assert (Ru : body_runs d body s1' e s2) by (exists n; exact He).
    assert (Go : e = Normal \/ e = Continue -> loop K FT n d inl (range_step K d id) body els s2 = Val r st' ->
      visits (shows_int id) (only [id]) (body_runs d body) (else_runs d inl els) (z + s :: range_list (z + s + s) b s) st r st').
    { intros Hn Hl. eapply visits_round; [exact O|exact Sh|exact Ru|exact Hn|]. apply (IH (z + s)); [| |exact Hl].
      - pose proof (Hk _ _ _ Ru Hn) as Q. destruct C1 as [X1 X2 X3]. split; rewrite Q by (cbn; auto); assumption.
      - unfold small in *. unfold within in ew. destruct (Z.ltb_spec 0 s); apply Z.ltb_lt in ew; lia. }
    destruct e as [| | |v]; auto.
    + injection H as <- <-. eapply visits_break; eauto.
    + injection H as <- <-. eapply visits_return; eauto.
  - eapply visits_end; [exact O|]. exists n. exact H.
Qed.

(** ** The start of a counting loop *)
Lemma tops_pop k v vs s : tops (Sn k) s = vs ++ [v] -> length vs = k ->
  exists m, pop (s_m s) = Some (v, m) /\ m = set_stack (m_stack (s_m s)) (pred (m_sp (s_m s))) (s_m s) /\ tops k (set_m m s) = vs /\ (0 < m_sp (s_m s))%nat.
Proof.
  intros T L. unfold tops in T.
  assert (Hl : length (skipn (m_sp (s_m s) - Sn k) (firstn (m_sp (s_m s)) (m_stack (s_m s)))) = Sn k) by (rewrite T, app_length; cbn; lia).
  rewrite skipn_length, firstn_length in Hl. set (n := m_sp (s_m s)) in *. set (l := m_stack (s_m s)) in *.
  assert (Hn : (0 < n)%nat) by lia. assert (Hkn : (Sn k <= n <= length l)%nat) by lia.
  assert (Hv : nth_error l (pred n) = Some v).
  { rewrite <- (MachProofs.nth_error_firstn _ l n) by lia. replace (pred n) with ((n - Sn k) + k)%nat by lia.
    rewrite <- (firstn_skipn (n - Sn k) (firstn n l)), T. rewrite nth_error_app2; rewrite firstn_length, firstn_length; [|lia].
    replace ((n - Sn k + k - Nat.min (n - Sn k) (Nat.min n (length l))))%nat with (length vs) by lia. rewrite nth_error_app2 by lia. rewrite Nat.sub_diag. reflexivity. }
  exists (set_stack l (pred n) (s_m s)). split; [|split; [reflexivity|split; [|exact Hn]]].
  - unfold pop. fold n l. destruct n as [|n]; [lia|]. cbn [pred] in *. rewrite Hv. reflexivity.
  - unfold tops. cbn [s_m set_m set_stack m_sp m_stack].
    assert (T2 : firstn (length vs) (skipn (n - Sn k) (firstn n l)) = vs) by (rewrite T, firstn_app, Nat.sub_diag, firstn_all; cbn; apply app_nil_r).
    rewrite firstn_skipn_comm in T2. rewrite firstn_firstn in T2. etransitivity; [|exact T2]. rewrite L. replace (Nat.min (n - Sn k + k) n) with (pred n) by lia.
    replace (pred n - k)%nat with (n - Sn k)%nat by lia. reflexivity.
Qed.
Lemma tops_pop_float k f vs s : tops (Sn k) s = vs ++ [PNum f] -> length vs = k ->
  exists m, lm pop_float s = Some (f, set_m m s) /\ m = set_stack (m_stack (s_m s)) (pred (m_sp (s_m s))) (s_m s) /\ tops k (set_m m s) = vs /\ (0 < m_sp (s_m s))%nat.
Proof.
  intros T L. destruct (tops_pop k _ _ _ T L) as (m & P & Hm & Ht & Hp). exists m. split; auto.
  unfold lm, pop_float, bind. rewrite P. reflexivity.
Qed.

(** after the arguments are taken *)
Lemma range_start_runs d id a b stp z k s s' : own_names d id -> fits_vars E (nvars s + 3) -> sane E (s_m s) -> aborted s = false ->
  asks (tops k s) a b stp -> length (tops k s) = k -> stp <> 0 -> differs a stp z ->
  range_start K (Z.of_nat k) d id s = Some (tt, s') -> aborted s' = false ->
  counting d id z b stp s' /\ mstill (set_stack (m_stack (s_m s)) (m_sp (s_m s) - k) (s_m s)) (s_m s') /\
  (forall j, ~ In j [id; for_tmp w d 0; for_tmp w d 1] -> visible s' j = visible s j) /\ s_a s' = s_a s /\
  (nvars s' <= nvars s + 3)%nat /\ length (s_frames s') = length (s_frames s).
Proof.
  intros (N0 & N1 & N2) F Sn0 Ha Hask Hlen Hs Hr H Ha'. unfold range_start in H.
  assert (Stores : forall fa fb fs, is_int fa a -> is_int fb b -> is_int fs stp ->
    let s0 := set_m (set_stack (m_stack (s_m s)) (m_sp (s_m s) - k) (s_m s)) s in
    (id_store E id (float_to_poly (fsub fa fs)) ^; id_store E (for_tmp w d 0) (float_to_poly fb) ^; id_store E (for_tmp w d 1) (float_to_poly fs) ^; sret tt) s0 = Some (tt, s') ->
    counting d id z b stp s' /\ mstill (s_m s0) (s_m s') /\
    (forall j, ~ In j [id; for_tmp w d 0; for_tmp w d 1] -> visible s' j = visible s j) /\ s_a s' = s_a s /\
    (nvars s' <= nvars s + 3)%nat /\ length (s_frames s') = length (s_frames s)).
  { intros fa fb fs Ia Ib Is s0 Hst. pose proof (Hr _ _ Ia Is) as Id.
    rewrite (to_poly_int _ _ Id), (to_poly_int _ _ Ib), (to_poly_int _ _ Is) in Hst.
    unfold sbind in Hst at 1. destruct (id_store E id (PNum (fsub fa fs)) s0) as [[b1 s1]|] eqn:e1; [|discriminate].
    unfold sbind in Hst at 1. destruct (id_store E (for_tmp w d 0) (PNum fb) s1) as [[b2 s2]|] eqn:e2; [|discriminate].
    unfold sbind in Hst at 1. destruct (id_store E (for_tmp w d 1) (PNum fs) s2) as [[b3 s3]|] eqn:e3; [|discriminate].
    injection Hst as ->.
    assert (T : forall i v, stame E 0 0 (id_store E i v)) by (intros; ts).
    assert (A2 : aborted s2 = false).
    { destruct (aborted s2) eqn:q; [|reflexivity]. pose proof (T _ _ _ _ _ e3) as (A & _). unfold aborted, at_most_one in *. rewrite q in A. destruct A. congruence. }
    assert (A1 : aborted s1 = false).
    { destruct (aborted s1) eqn:q; [|reflexivity]. pose proof (T _ _ _ _ _ e2) as (A & _). unfold aborted, at_most_one in *. rewrite q in A. destruct A. congruence. }
    assert (Sa0 : sane E (s_m s0)) by (destruct Sn0; split; cbn; lia).
    assert (Fv : forall j, (nvars j <= nvars s + 2)%nat -> fits_vars E (nvars j + 1)) by (intros j Hj; eapply fits_vars_le; [exact F|lia]).
    destruct (id_store_runs E _ (PNum (fsub fa fs)) _ _ _ (Fv s0 ltac:(change (nvars s0) with (nvars s); lia)) Sa0 eq_refl Ha e1 A1) as (_ & V1 & O1 & M1 & As1 & L1 & F1).
    assert (Sa1 : sane E (s_m s1)).
    { destruct Sa0 as [X Y], M1 as [[_ P1 _ P2 _ _] _]. split; [congruence|]. rewrite P1. exact Y. }
    change (nvars s0) with (nvars s) in L1.
    destruct (id_store_runs E _ (PNum fb) _ _ _ (Fv s1 ltac:(lia)) Sa1 eq_refl A1 e2 A2) as (_ & V2 & O2 & M2 & As2 & L2 & F2).
    assert (Sa2 : sane E (s_m s2)).
    { destruct Sa1 as [X Y], M2 as [[_ P1 _ P2 _ _] _]. split; [congruence|]. rewrite P1. exact Y. }
    destruct (id_store_runs E _ (PNum fs) _ _ _ (Fv s2 ltac:(lia)) Sa2 eq_refl A2 e3 Ha') as (_ & V3 & O3 & M3 & As3 & L3 & F3).
    split; [|split; [|split; [|split; [|split]]]].
    - split.
      + exists (fsub fa fs). split; [|exact Id]. rewrite O3, O2 by congruence. exact V1.
      + exists fb. split; [|exact Ib]. rewrite O3 by congruence. exact V2.
      + exists fs. auto.
    - eapply mstill_trans; [exact M1|]. eapply mstill_trans; eauto.
    - intros j Hj. cbn in Hj. rewrite O3, O2, O1 by (intros ->; tauto). reflexivity.
    - rewrite As3, As2, As1. reflexivity.
    - lia.
    - rewrite F3, F2, F1. reflexivity. }
  assert (One : is_int f_one 1) by (apply of_Z_int, small_representable; unfold small; lia).
  assert (Zer : is_int f_zero 0) by (split; reflexivity).
  remember (tops k s) as vs eqn:Evs. destruct Hask as [f b If|f g a b If Ig|f g h a b stp If Ig Ih]; cbn [length] in Hlen; subst k.
  - cbn [Z.of_nat Pos.of_succ_nat Z.eqb Pos.eqb] in H. destruct (tops_pop_float 0 f [] s (eq_sym Evs) eq_refl) as (m & P & Hm & _ & Hp).
    unfold sbind in H at 1 2. rewrite P in H. cbn [sret] in H. subst m. replace (pred (m_sp (s_m s))) with (m_sp (s_m s) - 1)%nat in H by lia.
    exact (Stores _ _ _ Zer If One H).
  - cbn [Z.of_nat Pos.of_succ_nat Z.eqb Pos.eqb Pos.succ] in H. destruct (tops_pop_float 1 g [PNum f] s (eq_sym Evs) eq_refl) as (m & P & Hm & T1 & Hp).
    unfold sbind in H at 1 2. rewrite P in H. destruct (tops_pop_float 0 f [] _ T1 eq_refl) as (m1 & P1 & Hm1 & _ & Hp1).
    unfold sbind in H at 1. rewrite P1 in H. cbn [sret] in H. subst m1 m. cbn [s_m set_m m_sp m_stack set_stack] in *.
    apply (Stores _ _ _ If Ig One). replace (m_sp (s_m s) - 2)%nat with (pred (pred (m_sp (s_m s)))) by lia. exact H.
  - cbn [Z.of_nat Pos.of_succ_nat Z.eqb Pos.eqb Pos.succ] in H. destruct (tops_pop_float 2 h [PNum f; PNum g] s (eq_sym Evs) eq_refl) as (m & P & Hm & T1 & Hp).
    unfold sbind in H at 1 2. rewrite P in H. destruct (tops_pop_float 1 g [PNum f] _ T1 eq_refl) as (m1 & P1 & Hm1 & T2 & Hp1).
    unfold sbind in H at 1. rewrite P1 in H. destruct (tops_pop_float 0 f [] _ T2 eq_refl) as (m2 & P2 & Hm2 & _ & Hp2).
    unfold sbind in H at 1. rewrite P2 in H. rewrite (feq_int _ _ _ _ Ih Zer) in H. replace (stp =? 0) with false in H by (symmetry; apply Z.eqb_neq; exact Hs).
    cbn [sret] in H. subst m2 m1 m. cbn [s_m set_m m_sp m_stack set_stack] in *.
    apply (Stores _ _ _ If Ig Ih). replace (m_sp (s_m s) - 3)%nat with (pred (pred (pred (m_sp (s_m s))))) by lia. exact H.
Qed.

(** The whole statement. *)
Hypothesis Hb : tame_builtins E (cf_builtins K).
Lemma args_ready n args st s1 k : sane E (s_m st) -> aborted st = false -> positional args = true -> ev_args K FT n args st = Val tt s1 -> nargs args = Z.of_nat k ->
  sane E (s_m s1) /\ aborted s1 = false /\ length (tops k s1) = k.
Proof.
  intros Sa Ha Hp H Hk. destruct (eval_tame K FT Hb n) as (_ & T & _). pose proof (T 0%nat args st Ha) as T1. rewrite H in T1.
  destruct T1 as (Ha1 & _ & Lv & Sa1). specialize (Sa1 Sa). split; [exact Sa1|]. split; [exact Ha1|].
  destruct (positional_slots args Hp) as [Hs _]. rewrite Hk, Nat2Z.id in Hs.
  destruct (Lv (m_sp (s_m st)) ltac:(lia)) as [Hsp _]. rewrite <- Hs in Hsp. destruct Sa1 as [L1 L2]. unfold tops. rewrite skipn_length, firstn_length. lia.
Qed.

Theorem range_statement d inl id args body els a b s n st r st' : own_names d id -> sane E (s_m st) -> aborted st = false ->
  s <> 0 -> small a -> Z.abs b + Z.abs s <= 2 ^ 24 -> small (a - s) ->
  keeps [id; for_tmp w d 0; for_tmp w d 1] (body_runs d body) ->
  exs K FT n d inl (SRange id args body els) st = Val r st' ->
  exists m s1, ev_args K FT m args st = Val tt s1 /\
    (asks (tops (Z.to_nat (nargs args)) s1) a b s -> fits_vars E (nvars s1 + 3) ->
     exists s2, visits (shows_int id) (only [id]) (body_runs d body) (else_runs d inl els) (range_list a b s) s2 r st' /\
      mstill (set_stack (m_stack (s_m s1)) (m_sp (s_m s1) - Z.to_nat (nargs args)) (s_m s1)) (s_m s2) /\
      (forall j, ~ In j [id; for_tmp w d 0; for_tmp w d 1] -> visible s2 j = visible s1 j)).
Proof.
  intros No Sa Ha Hs Sma Hlim Sas Hk H. destruct n as [|n]; [discriminate|]. autorewrite with eval in H.
  destruct (positional args) eqn:ep; [|discriminate]. apply bind_val in H as ([] & s1 & H1 & H). exists n, s1. split; [exact H1|]. intros As F.
  destruct (positional_slots args ep) as [_ Hn].
  destruct (args_ready n args st s1 (Z.to_nat (nargs args)) Sa Ha ep H1 ltac:(lia)) as (Sa1 & Ha1 & Ln).
  apply bind_val in H as ([] & s2 & H2 & H). apply prim_val in H2 as [H2 Ha2]. rewrite <- (Z2Nat.id (nargs args)) in H2 by exact Hn.
  assert (D : differs a s (a - s)) by (intros f g If Ig; apply sub_int; auto; apply small_representable, Sas).
  destruct (range_start_runs _ _ _ _ _ _ _ _ _ No F Sa1 Ha1 As Ln Hs D H2 Ha2) as (C & M & O & _).
  exists s2. split; [|split; assumption].
  replace a with ((a - s) + s) by lia. eapply range_loop; eauto. replace (a - s + s) with a by lia. exact Sma.
Qed.

(** *** Where it goes wrong *)
Lemma is_int_eq f g z : z <> 0 -> is_int f z -> is_int g z -> f = g.
Proof.
  intros Hz [F1 V1] [F2 V2]. assert (Nz : IZR z <> 0%R) by (apply not_0_IZR; exact Hz).
  apply Binary.B2R_inj; [| |congruence].
  - destruct f; try discriminate; cbn in V1 |- *; congruence.
  - destruct g; try discriminate; cbn in V2 |- *; congruence.
Qed.
Lemma sums_stuck : sums (2 ^ 24) 1 (2 ^ 24).
Proof.
  intros f g If Ig. rewrite (is_int_eq f (f_of_Z (2 ^ 24)) (2 ^ 24)), (is_int_eq g (f_of_Z 1) 1); auto; try lia; try (apply of_Z_int, small_representable; unfold small; lia).
  replace (fadd (f_of_Z (2 ^ 24)) (f_of_Z 1)) with (f_of_Z (2 ^ 24)); [apply of_Z_int, small_representable; unfold small; lia|].
  apply Binary.B2FF_inj. vm_compute. reflexivity.
Qed.
(** Beyond 2^24 the count does not move: the loop never ends. *)
Theorem range_stuck d inl id els b st : own_names d id -> 2 ^ 24 < b -> counting d id (2 ^ 24) b 1 st ->
  forall n r st', loop K FT n d inl (range_step K d id) SSkip els st <> Val r st'.
Proof.
  intros No Hlt C n r st'. revert st C. induction n as [|n IH]; intros st C; [discriminate|]. rewrite loop_S.
  destruct (range_step_sums d id _ b 1 _ st No C sums_stuck) as (s1 & R & C1 & _). intro H. apply bind_val in H as (q & s2 & H1 & H).
  apply prim_val in H1 as [H1 _]. replace (within b 1 (2 ^ 24)) with true in R by (unfold within; destruct (Z.ltb_spec 0 1); [|lia]; destruct (Z.ltb_spec (2 ^ 24) b); [reflexivity|lia]).
  rewrite R in H1. injection H1 as <- <-.
  apply bind_val in H as (e & s3 & H3 & H). destruct n as [|n]; [discriminate|]. autorewrite with eval in H3. injection H3 as <- <-. exact (IH _ C1 H).
Qed.
(** With a large step the first number is not the one asked for. *)
Lemma differs_large : differs 1 (2 ^ 25) (- 2 ^ 25).
Proof.
  intros f g If Ig. assert (R25 : representable (2 ^ 25)) by (exists 1, 25; lia). assert (Rm : representable (- 2 ^ 25)) by (exists (-1), 25; lia).
  rewrite (is_int_eq f (f_of_Z 1) 1), (is_int_eq g (f_of_Z (2 ^ 25)) (2 ^ 25)); auto; try lia; try (apply of_Z_int; auto); try (apply small_representable; unfold small; lia).
  replace (fsub (f_of_Z 1) (f_of_Z (2 ^ 25))) with (f_of_Z (- 2 ^ 25)); [apply of_Z_int; auto|].
  apply Binary.B2FF_inj. vm_compute. reflexivity.
Qed.
Theorem range_first_wrong d inl id body els b n st s1 r st' : own_names d id -> 1 < b -> fits_vars E (nvars st + 3) -> sane E (s_m st) -> aborted st = false ->
  asks (tops 3 st) 1 b (2 ^ 25) -> prim (range_start K 3 d id) st = Val tt s1 ->
  loop K FT n d inl (range_step K d id) body els s1 = Val r st' ->
  exists s2 e s3, shows_int id 0 s2 /\ body_runs d body s2 e s3.
Proof.
  intros No Hlt F Sa Ha As H1 H. apply prim_val in H1 as [H1 Ha1].
  assert (Ln : length (tops 3 st) = 3%nat).
  { inversion As; subst; try lia. reflexivity. }
  destruct (range_start_runs d id 1 b (2 ^ 25) (- 2 ^ 25) 3 st s1 No F Sa Ha As Ln ltac:(lia) differs_large H1 Ha1) as (C & _).
  destruct n as [|n]; [discriminate|]. rewrite loop_S in H. apply bind_val in H as (q & s2 & H2 & H). apply prim_val in H2 as [H2 _].
  destruct (range_step_runs d id _ b _ s1 No C) as (s2' & R & C2 & _); [apply small_representable; unfold small; lia|].
  replace (- 2 ^ 25 + 2 ^ 25) with 0 in * by lia. replace (within b (2 ^ 25) 0) with true in R by (unfold within; destruct (Z.ltb_spec 0 (2 ^ 25)); [|lia]; destruct (Z.ltb_spec 0 b); [reflexivity|lia]).
  rewrite R in H2. injection H2 as <- <-.
  apply bind_val in H as (e & s3 & H3 & H). exists s2', e, s3. split; [exact (ct_id _ _ _ _ _ _ C2)|exists n; exact H3].
Qed.
End Range.
