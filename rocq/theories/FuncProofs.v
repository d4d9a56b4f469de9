(** Calls: binding arguments to formals. *)
From Verif Require Import Tac Base FloatModel PolyModel ValueModel SliceModel MachModel ListModel StrModel MathModel MathSpec BinModel MachSpec ListSpec
  SliceProofs MathProofs MathProofs2 StrProofs2 MachProofs FrameProofs ListProofs2 FrameModel VarSpec VarProofs.
Local Open Scope Z_scope.
Open Scope st_scope.

Lemma id_number : forall id, 0 < id < 32768 -> is_int (f_of_Z id) id.
Proof. intros id H. apply of_Z_int, small_representable. unfold small. lia. Qed.

Definition blank (n : nat) : list var := repeat (0%Z, PZero) n.
Lemma blank_length : forall n, length (blank n) = n.
Proof. intros. apply repeat_length. Qed.

Section Funcs.
Variable E : env.
Variable C : Type.
Variable f : func C.
Let fs := fn_formals f.

Lemma name_soffset : forall id m, 0 < id < 32768 -> get_soffset E (PNum (f_of_Z id)) m = Some (id, m).
Proof.
  intros id m H. apply get_soffset_runs. exists (f_of_Z id). split; [reflexivity|].
  apply to_sint_n; [destruct (e_width E); reflexivity | apply id_number; exact H|]. destruct (e_width E); cbn; lia.
Qed.

(** the states of the loop: only stack pointer and frame change *)
Variable s0 : st.
Definition st_at (vs : list var) (frs : list (list var)) (sp : nat) : st :=
  set_frames (vs :: frs) (set_m (set_stack (m_stack (s_m s0)) sp (s_m s0)) s0).

Lemma st_pop : forall vs frs X p rest, m_stack (s_m s0) = (X ++ [p]) ++ rest ->
  lm pop (st_at vs frs (length (X ++ [p]))) = Some (p, st_at vs frs (length X)).
Proof.
  intros vs frs X p rest H. unfold lm, pop, st_at. cbn. rewrite app_length, Nat.add_comm. cbn [length plus].
  rewrite H, <- app_assoc. rewrite nth_error_app2, Nat.sub_diag by lia. reflexivity.
Qed.

Lemma st_actual : forall id v pos done frs sp,
  func_actual id v pos (st_at (blank (Datatypes.S pos) ++ done) frs sp) =
  if existsb (fun w : var => fst w =? id) done
  then Some (false, st_at (blank (Datatypes.S pos) ++ done) frs sp)
  else Some (true, st_at (blank pos ++ (id, v) :: done) frs sp).
Proof.
  intros id v pos done frs sp. unfold func_actual. unfold st_at at 1. cbn [s_frames set_frames].
  assert (L : (pos <? length (blank (Datatypes.S pos) ++ done))%nat = true).
  { apply Nat.ltb_lt. rewrite app_length, blank_length. lia. }
  rewrite L.
  assert (K : skipn (pos + 1) (blank (Datatypes.S pos) ++ done) = done).
  { rewrite skipn_app, blank_length, skipn_all2 by (rewrite blank_length; lia). replace (pos + 1 - Datatypes.S pos)%nat with O by lia. reflexivity. }
  rewrite K. match goal with |- (if ?b then _ else _) = (if ?c then _ else _) => change b with c; destruct c end; [reflexivity|]. f_equal. f_equal. unfold put_frame, st_at. cbn [s_frames set_frames].
  assert (U : upd pos (id, v) (blank (Datatypes.S pos) ++ done) = blank pos ++ (id, v) :: done).
  { clear. induction pos as [|pos IH]; [reflexivity|]. change (blank (Datatypes.S (Datatypes.S pos))) with ((0, PZero) :: blank (Datatypes.S pos)). change (blank (Datatypes.S pos)) with ((0, PZero) :: blank pos) at 2. cbn [app upd]. f_equal. exact IH. }
  rewrite U. reflexivity.
Qed.

Definition flat (ns : list var) : list poly := flat_map (fun v : var => [PNum (f_of_Z (fst v)); snd v]) ns.
Lemma flat_snoc : forall ns v, flat (ns ++ [v]) = flat ns ++ [PNum (f_of_Z (fst v)); snd v].
Proof. intros. unfold flat. rewrite flat_map_app. reflexivity. Qed.

Definition ids (vs : list var) : list Z := map fst vs.
Lemma existsb_ids : forall id vs, existsb (fun w : var => fst w =? id) vs = true <-> In id (ids vs).
Proof.
  intros id vs. rewrite existsb_exists. unfold ids. rewrite in_map_iff. split.
  - intros (w & H & K). exists w. split; [lia | exact H].
  - intros (w & H & K). exists w. split; [exact K | lia].
Qed.
Lemma check_ids : forall id, check_formal id f = true <-> In id fs.
Proof.
  intros id. unfold check_formal. rewrite existsb_exists. split.
  - intros (w & H & K). replace id with w by lia. exact H.
  - intros H. exists id. split; [exact H | lia].
Qed.

(** the named ones *)
Lemma bind_named : forall np frs X rest ns done, Forall (fun v : var => 0 < fst v < 32768) ns ->
  m_stack (s_m s0) = (X ++ flat ns) ++ rest ->
  let r := bind_actuals E f np (np + length ns) (st_at (blank (np + length ns) ++ done) frs (length (X ++ flat ns))) in
  (r = bind_actuals E f np np (st_at (blank np ++ ns ++ done) frs (length X)) /\
   (forall id, In id (ids ns) -> In id fs) /\ (NoDup (ids done) -> NoDup (ids (ns ++ done)))) \/
  (exists id vs sp, r = Some (Some id, st_at vs frs sp) /\
   (In id (ids ns) /\ ~ In id fs \/ (2 <= count_occ Z.eq_dec (ids (ns ++ done)) id)%nat)).
Proof.
  intros np frs X rest ns. revert rest. induction ns as [|[id v] ns IH] using rev_ind; intros rest done Hr Hst.
  - cbn [length flat flat_map app]. left. rewrite Nat.add_0_r, app_nil_r. split; [reflexivity|]. split; [contradiction | auto].
  - apply Forall_app in Hr. destruct Hr as [Hr Hid]. inversion Hid as [|? ? Hid' _]; subst. cbn [fst] in Hid'.
    rewrite flat_snoc in *. cbn [fst snd] in *. rewrite app_length. cbn [length].
    replace (np + (length ns + 1))%nat with (Datatypes.S (np + length ns)) by lia.
    replace (X ++ flat ns ++ [PNum (f_of_Z id); v]) with (((X ++ flat ns) ++ [PNum (f_of_Z id)]) ++ [v]) in * by (rewrite <- !app_assoc; reflexivity).
    assert (Step : bind_actuals E f np (Datatypes.S (np + length ns)) (st_at (blank (Datatypes.S (np + length ns)) ++ done) frs
        (length (((X ++ flat ns) ++ [PNum (f_of_Z id)]) ++ [v]))) =
      if check_formal id f then
        if existsb (fun w : var => fst w =? id) done
        then Some (Some id, st_at (blank (Datatypes.S (np + length ns)) ++ done) frs (length (X ++ flat ns)))
        else bind_actuals E f np (np + length ns) (st_at (blank (np + length ns) ++ (id, v) :: done) frs (length (X ++ flat ns)))
      else Some (Some id, st_at (blank (Datatypes.S (np + length ns)) ++ done) frs (length (X ++ flat ns)))).
    { cbn [bind_actuals]. unfold sbind at 1. rewrite (st_pop _ _ _ _ _ Hst). unfold sbind at 1.
      replace (np <=? np + length ns)%nat with true by (symmetry; apply Nat.leb_le; lia).
      unfold sbind at 1. unfold pop_id at 1. unfold sbind at 1.
      rewrite (st_pop _ _ (X ++ flat ns) (PNum (f_of_Z id)) (v :: rest)) by (rewrite Hst, <- !app_assoc; reflexivity).
      unfold sbind at 1. unfold lm at 1. rewrite name_soffset by exact Hid'. unfold sret at 1.
      rewrite u_of_small by (destruct (e_width E); cbn; lia). unfold sret at 1.
      assert (Es : forall vs frs sp, set_m (s_m (st_at vs frs sp)) (st_at vs frs sp) = st_at vs frs sp) by reflexivity.
      rewrite Es. destruct (check_formal id f); [| reflexivity]. unfold sbind at 1. rewrite st_actual.
      destruct (existsb (fun w : var => fst w =? id) done); reflexivity. }
    cbn zeta. rewrite Step. clear Step. unfold ids. rewrite map_app. fold (ids ns). cbn [map fst].
    destruct (check_formal id f) eqn:Ec.
    2: { right. eexists id, _, _. split; [reflexivity|]. left. split; [apply in_or_app; right; left; reflexivity|].
         intros H. apply check_ids in H. congruence. }
    destruct (existsb (fun w : var => fst w =? id) done) eqn:Ed.
    + right. eexists id, _, _. split; [reflexivity|]. right. apply existsb_ids in Ed. rewrite <- app_assoc, map_app.
      cbn [map app fst]. rewrite count_occ_app. cbn [count_occ]. destruct (Z.eq_dec id id); [| contradiction].
      apply (count_occ_In Z.eq_dec) in Ed. unfold ids, var in *. lia.
    + assert (Nd : ~ In id (ids done)) by (intros H; apply existsb_ids in H; congruence).
      rewrite <- app_assoc. cbn [app].
      destruct (IH (PNum (f_of_Z id) :: v :: rest) ((id, v) :: done) Hr) as [(H & Hin & Hnd)|(id' & vs & sp & H & B)].
      { rewrite Hst, <- !app_assoc. reflexivity. }
      * left. split; [exact H|]. split.
        -- intros i Hi. apply in_app_or in Hi. destruct Hi as [Hi|[<-|[]]]; [auto|]. apply check_ids. exact Ec.
        -- intros K. apply Hnd. cbn. constructor; assumption.
      * right. exists id', vs, sp. split; [exact H|]. destruct B as [[B1 B2]|B]; [left | right; exact B].
        split; [apply in_or_app; left; exact B1 | exact B2].
Qed.

(** the positional ones *)
Lemma bind_positional : forall np frs X ps done rest, (length ps <= np)%nat -> (length ps <= length fs)%nat ->
  m_stack (s_m s0) = (X ++ ps) ++ rest -> NoDup (ids done) ->
  let r := bind_actuals E f np (length ps) (st_at (blank (length ps) ++ done) frs (length (X ++ ps))) in
  let all := combine fs ps ++ done in
  (r = Some (None, st_at all frs (length X)) /\ NoDup (ids all)) \/
  (exists id vs sp, r = Some (Some id, st_at vs frs sp) /\ (2 <= count_occ Z.eq_dec (ids all) id)%nat).
Proof.
  intros np frs X ps. induction ps as [|v ps IH] using rev_ind; intros done rest Hnp Hfs Hst Hnd.
  - left. cbn [length blank repeat app bind_actuals]. rewrite app_nil_r.
    replace (combine fs (@nil poly)) with (@nil (Z * poly)) by (destruct fs; reflexivity). auto.
  - rewrite (app_length ps) in *. cbn [length] in *. replace (length ps + 1)%nat with (Datatypes.S (length ps)) in * by lia.
    rewrite app_assoc in *.
    destruct (nth_error (fn_formals f) (length ps)) as [id|] eqn:En; [| apply nth_error_None in En; unfold fs in Hfs; lia].
    assert (Step : bind_actuals E f np (Datatypes.S (length ps)) (st_at (blank (Datatypes.S (length ps)) ++ done) frs (length ((X ++ ps) ++ [v]))) =
      if existsb (fun w : var => fst w =? id) done
      then Some (Some id, st_at (blank (Datatypes.S (length ps)) ++ done) frs (length (X ++ ps)))
      else bind_actuals E f np (length ps) (st_at (blank (length ps) ++ (id, v) :: done) frs (length (X ++ ps)))).
    { cbn [bind_actuals]. unfold sbind at 1. rewrite (st_pop _ _ _ _ _ Hst).
      unfold sbind at 1. replace (np <=? length ps)%nat with false by (symmetry; apply Nat.leb_gt; lia). rewrite En.
      unfold sret at 1. unfold sbind at 1. rewrite st_actual.
      destruct (existsb (fun w : var => fst w =? id) done); reflexivity. }
    cbn zeta. rewrite Step. clear Step.
    assert (Cb : combine fs (ps ++ [v]) = combine fs ps ++ [(id, v)]).
    { fold fs in En. clear - En. revert ps En. generalize fs. intros gs. induction gs as [|i gs IHf]; intros [|q ps] En; cbn in En; try discriminate; cbn.
      - injection En as ->. destruct gs; reflexivity.
      - rewrite IHf by exact En. reflexivity. }
    rewrite Cb, <- app_assoc. cbn [app].
    destruct (existsb (fun w : var => fst w =? id) done) eqn:Ed.
    + right. eexists id, _, _. split; [reflexivity|]. apply existsb_ids in Ed. apply (count_occ_In Z.eq_dec) in Ed.
      unfold ids in *. rewrite map_app, count_occ_app. cbn [map fst count_occ]. destruct (Z.eq_dec id id); [unfold var in *; lia | contradiction].
    + assert (Nd : ~ In id (ids done)) by (intros H; apply existsb_ids in H; congruence).
      destruct (IH ((id, v) :: done) (v :: rest)) as [H|H]; [lia | lia | rewrite Hst, <- !app_assoc; reflexivity | cbn; constructor; assumption | left; exact H | right; exact H].
Qed.

(** the required ones: nothing is ever missing, or the frame is left *)
Lemma check_required_ids : forall all frs k pos s, s_frames s = all :: frs -> Forall (fun v : var => fst v <> 0) all ->
  (pos + k <= length fs)%nat ->
  check_required f k pos s = if Nat.leb (pos + k) (length all) || Nat.eqb k 0 then Some (None, s) else None.
Proof.
  intros all frs. induction k as [|k IH]; intros pos s Hs Hz Hk; cbn [check_required].
  - rewrite orb_true_r. reflexivity.
  - unfold sbind, get. rewrite Hs. destruct (nth_error all pos) as [[id v]|] eqn:En.
    + assert (Hl : (pos < length all)%nat) by (apply nth_error_Some; congruence).
      destruct (nth_error (fn_formals f) pos) as [fm|] eqn:Ef; [| apply nth_error_None in Ef; unfold fs in Hk; lia].
      rewrite Forall_forall in Hz. pose proof (Hz _ (nth_error_In _ _ En)) as Hid. cbn [fst] in Hid.
      replace (id =? 0) with false by (symmetry; apply Z.eqb_neq; exact Hid).
      rewrite (IH (pos + 1)%nat s Hs) by (try (apply Forall_forall; exact Hz); lia).
      replace (pos + 1 + k)%nat with (pos + Datatypes.S k)%nat by lia. cbn [Nat.eqb]. rewrite orb_false_r.
      destruct k as [|k]; [| cbn [Nat.eqb]; rewrite orb_false_r; reflexivity]. cbn [Nat.eqb]. rewrite orb_true_r.
      replace (pos + 1 <=? length all)%nat with true by (symmetry; apply Nat.leb_le; lia). reflexivity.
    + apply nth_error_None in En. replace (pos + Datatypes.S k <=? length all)%nat with false by (symmetry; apply Nat.leb_gt; lia).
      reflexivity.
Qed.
End Funcs.

(** * The call instruction *)
Lemma frame_push_runs : forall E n s, fits_vars E n -> (m_sp (s_m s) <= length (m_stack (s_m s)))%nat ->
  exists m', mstill (s_m s) m' /\
    (frame_push E n s = Some (true, set_frames (blank n :: s_frames s) (set_m m' s)) /\ quiet (s_m s) m' \/
     frame_push E n s = Some (false, set_m m' s) /\ reported EMemory (s_m s) m').
Proof.
  intros E n s F Hsp. destruct (new_frame_runs E n s F Hsp) as (r & s' & Hr & m' & -> & Hm & H).
  exists m'. split; [exact Hm|]. unfold frame_push, sbind. rewrite Hr. destruct r as [vs|].
  - destruct H as [-> Q]. left. split; [reflexivity | exact Q].
  - right. split; [reflexivity | exact H].
Qed.

Lemma kept_heap_kept : forall h h', kept None h h' -> heap_kept h h'.
Proof.
  intros h h' [A B]. split; [exact A|]. intros l o H K. destruct (B l o H K) as (o' & H1 & H2). exists o'. split; [exact H1|].
  destruct o, o'; cbn in *; try contradiction; try exact I; intuition congruence.
Qed.

Lemma firstn_stack : forall m m' X, mstill m m' -> m_sp m = length X -> (exists rest, m_stack m = X ++ rest) ->
  m_sp m' = length X /\ (exists rest, m_stack m' = X ++ rest).
Proof.
  intros m m' X [F _] Hs (rest & Hr). split; [rewrite (fr_sp _ _ _ F); exact Hs|].
  exists (skipn (length X) (m_stack m')). rewrite <- (firstn_skipn (length X) (m_stack m')) at 1. f_equal.
  rewrite <- Hs, (fr_stack _ _ _ F), Hs, Hr, firstn_app, Nat.sub_diag, firstn_all, firstn_O, app_nil_r. reflexivity.
Qed.

Lemma combine_ids : forall (fs : list Z) (ps : list poly), (length ps <= length fs)%nat -> map fst (combine fs ps) = firstn (length ps) fs.
Proof. induction fs as [|i fs IH]; intros [|p ps] H; cbn in *; try reflexivity; try lia. rewrite IH by lia. reflexivity. Qed.

Section Calls.
Variable E : env.
Variable builtins : list (Z * (Z -> Z -> list poly -> M poly)).
Variable C : Type.
Variable F : loc -> option (func C).

Lemma calling_operand : forall s o below callee ps ns, calling s o below callee ps ns ->
  o mod 256 = Z.of_nat (length ps) /\ o / 256 = Z.of_nat (length ns) /\
  Z.to_nat (o mod 256 + 2 * (o / 256)) = length (actuals ps ns) /\ (o / 256) mod 256 = Z.of_nat (length ns) /\
  Z.to_nat ((Z.of_nat (length ps) + Z.of_nat (length ns)) mod 256) = (length ps + length ns)%nat.
Proof.
  intros s o below callee ps ns [_ _ -> Hc _].
  assert (A : (Z.of_nat (length ps) + 256 * Z.of_nat (length ns)) mod 256 = Z.of_nat (length ps)).
  { rewrite Z.mul_comm, Z.mod_add by lia. apply Z.mod_small. lia. }
  assert (B : (Z.of_nat (length ps) + 256 * Z.of_nat (length ns)) / 256 = Z.of_nat (length ns)).
  { rewrite Z.mul_comm, Z.div_add by lia. rewrite Z.div_small; lia. }
  split; [exact A|]. split; [exact B|]. rewrite A, B. split; [| split; [apply Z.mod_small; lia | rewrite Z.mod_small by lia; lia]].
  unfold actuals. rewrite app_length.
  assert (L : length (flat_map (fun v : var => [PNum (f_of_Z (fst v)); snd v]) ns) = (2 * length ns)%nat).
  { clear. induction ns as [|n ns IH]; cbn [flat_map length app]; [reflexivity|]. rewrite IH. lia. }
  rewrite L. lia.
Qed.

Lemma drop_all : forall m X (c : poly) Y, m_sp m = length (X ++ c :: Y) -> drop (length Y + 1) m = Some (tt, set_stack (m_stack m) (length X) m).
Proof.
  intros m X c Y H. unfold drop. rewrite H, app_length. cbn [length].
  replace (length Y + 1 <=? length X + Datatypes.S (length Y))%nat with true by (symmetry; apply Nat.leb_le; lia).
  replace (length X + Datatypes.S (length Y) - (length Y + 1))%nat with (length X) by lia. reflexivity.
Qed.

(** leaving a call that did not get to run *)
Lemma finish_call : forall s s1 below callee Y, m_sp (s_m s1) = length (below ++ callee :: Y) ->
  (exists rest, m_stack (s_m s1) = (below ++ callee :: Y) ++ rest) ->
  kept None (m_heap (s_m s)) (m_heap (s_m s1)) -> s_globals s1 = s_globals s -> s_frames s1 = s_frames s ->
  sruns (lm (drop (length Y + 1)) ^; sret (@None (func C))) s1 (fun r s' => r = None /\ call_over s s' below /\
    m_log (s_m s') = m_log (s_m s1) /\ m_abort (s_m s') = m_abort (s_m s1)).
Proof.
  intros s s1 below callee Y Hsp (rest & Hst) K G Fr. apply sruns_bind. eexists tt, _. split.
  { unfold lm. rewrite (drop_all _ _ _ _ Hsp). reflexivity. }
  apply sruns_ret. split; [reflexivity|]. split; [| split; reflexivity]. split; [apply kept_heap_kept; exact K|].
  split; [reflexivity|]. split; [| split; assumption]. exists (callee :: Y ++ rest). cbn. rewrite Hst, <- app_assoc. reflexivity.
Qed.

Lemma set_stack_id : forall m, set_stack (m_stack m) (m_sp m) m = m.
Proof. intros []; reflexivity. Qed.
Lemma mstill_kept : forall m m', mstill m m' -> kept None (m_heap m) (m_heap m').
Proof. intros m m' [[K _ _ _ _ _] _]. exact K. Qed.
Lemma errored_heap : forall e m, m_heap (errored e m) = m_heap m /\ m_sp (errored e m) = m_sp m /\ m_stack (errored e m) = m_stack m.
Proof. intros e m. unfold errored. destruct (m_abort m); auto. Qed.
Lemma not_ok_dup : forall formals ps ns id, (2 <= count_occ Z.eq_dec (map fst (bindings formals ps ns)) id)%nat -> ~ arguments_ok formals ps ns.
Proof. intros formals ps ns id H (_ & _ & N). rewrite (NoDup_count_occ Z.eq_dec) in N. specialize (N id). lia. Qed.

Lemma bindings_length : forall formals ps ns, (length ps <= length formals)%nat -> length (bindings formals ps ns) = (length ps + length ns)%nat.
Proof. intros formals ps ns H. unfold bindings. rewrite app_length, combine_length. unfold var in *. lia. Qed.

Lemma func_push_runs : forall s below l ps ns (f : func C),
  m_sp (s_m s) = length (below ++ PFunc l :: actuals ps ns) ->
  (exists rest, m_stack (s_m s) = (below ++ PFunc l :: actuals ps ns) ++ rest) ->
  (length ps + length ns < 256)%nat -> Forall (fun v : var => 0 < fst v < 32768) ns ->
  func_ok f -> fits_vars E (length ps + length ns) ->
  (exists m', mstill (s_m s) m' /\ reported EMemory (s_m s) m' /\
     func_push E f (Z.of_nat (length ps)) (Z.of_nat (length ns)) s = Some (false, set_m m' s)) \/
  (exists m', mstill (s_m s) m' /\ quiet (s_m s) m' /\ arguments_ok (fn_formals f) ps ns /\
     func_push E f (Z.of_nat (length ps)) (Z.of_nat (length ns)) s =
     if Z.to_nat (fn_nrequired f) <=? length ps + length ns
     then Some (true, set_frames (bindings (fn_formals f) ps ns :: s_frames s)
                        (set_m (set_stack (m_stack m') (length (below ++ [PFunc l])) m') s))
     else None)%nat \/
  (exists m', mstill (s_m s) m' /\ ~ arguments_ok (fn_formals f) ps ns /\
     (exists e, reported e (s_m s) m' /\ blamed (fn_formals f) ps ns e) /\
     func_push E f (Z.of_nat (length ps)) (Z.of_nat (length ns)) s = Some (false, set_m m' s)).
Proof.
  intros s below l ps ns f Hsp (rest & Hst) Hc Hn [Hrq Hfp] Hfit.
  set (n := (length ps + length ns)%nat).
  assert (Hn' : Z.to_nat ((Z.of_nat (length ps) + Z.of_nat (length ns)) mod 256) = n) by (rewrite Z.mod_small by lia; lia).
  assert (Hsl : (m_sp (s_m s) <= length (m_stack (s_m s)))%nat) by (rewrite Hst, Hsp, (app_length _ rest); lia).
  match goal with |- context [func_push E f ?a ?b s] => remember (func_push E f a b s) as r eqn:Hr end.
  unfold func_push in Hr. rewrite Hn' in Hr.
  destruct (frame_push_runs E n s Hfit Hsl) as (m' & Hm & [[Ef Q]|[Ef R]]).
  2: { left. exists m'. split; [exact Hm|]. split; [exact R|]. rewrite Hr. unfold sbind at 1. rewrite Ef. reflexivity. }
  right. unfold sbind at 1 in Hr. rewrite Ef in Hr. cbn [negb] in Hr. unfold fn_nformal in Hr.
  destruct (Z.ltb_spec (Z.of_nat (length (fn_formals f))) (Z.of_nat (length ps))) as [Hlt|Hle].
  - right. exists (errored (EArgs (Z.of_nat (length (fn_formals f))) (Z.of_nat (length ps))) m').
    split; [eapply mstill_trans; [exact Hm | apply mstill_errored]|].
    split; [intros (A & _); lia|]. split.
    + eexists. split; [eapply reported_quiet; [exact Q | apply reported_errored]|]. cbn. repeat split; lia.
    + rewrite Hr. unfold sbind, lm. cbn [s_m set_frames set_m]. rewrite error_eq. unfold frame_pop. cbn [s_frames set_frames set_m tl]. destruct s; reflexivity.
  - destruct (firstn_stack _ _ _ Hm Hsp (ex_intro _ rest Hst)) as (Hsp' & rest' & Hst').
    unfold sbind at 1, get at 1 in Hr. cbn [s_m set_frames set_m] in Hr.
    unfold sbind at 1 in Hr.
    assert (Es : set_frames (blank n :: s_frames s) (set_m m' s) =
      st_at (set_m m' s) (blank (length ps + length ns) ++ []) (s_frames s) (length ((below ++ [PFunc l] ++ ps) ++ flat ns))).
    { unfold st_at. cbn [s_m set_m]. rewrite app_nil_r. fold n. f_equal.
      replace ((below ++ [PFunc l] ++ ps) ++ flat ns) with (below ++ PFunc l :: actuals ps ns) by (unfold actuals; fold (flat ns); rewrite <- !app_assoc; reflexivity).
      rewrite <- Hsp', set_stack_id. reflexivity. }
    rewrite Es, Nat2Z.id in Hr. fold n in Hr.
    assert (Hst2 : m_stack (s_m (set_m m' s)) = ((below ++ [PFunc l] ++ ps) ++ flat ns) ++ rest').
    { cbn [s_m set_m]. rewrite Hst'. unfold actuals. fold (flat ns). rewrite <- !app_assoc. cbn [app]. rewrite <- !app_assoc. reflexivity. }
    (* complaints *)
    assert (Bad : forall id vs sp, blamed (fn_formals f) ps ns (EArg id) -> ~ arguments_ok (fn_formals f) ps ns ->
      exists m2, mstill (s_m s) m2 /\ ~ arguments_ok (fn_formals f) ps ns /\
        (exists e, reported e (s_m s) m2 /\ blamed (fn_formals f) ps ns e) /\
        ((fun s : st => Some (tt, set_m (set_stack (m_stack (s_m s)) (m_sp m') (s_m s)) s)) ^;
         lm (error (EArg id)) ^; frame_pop ^; sret false) (st_at (set_m m' s) vs (s_frames s) sp) = Some (false, set_m m2 s)).
    { intros id vs sp B N. exists (errored (EArg id) m').
      split; [eapply mstill_trans; [exact Hm | apply mstill_errored]|]. split; [exact N|]. split.
      - eexists. split; [eapply reported_quiet; [exact Q | apply reported_errored] | exact B].
      - unfold sbind at 1. cbn [s_m st_at set_frames set_m]. unfold sbind at 1, lm. cbn [s_m st_at set_frames set_m].
        rewrite error_eq. cbn. destruct m', s; reflexivity. }
    destruct (bind_named E C f (set_m m' s) (length ps) (s_frames s) (below ++ [PFunc l] ++ ps) rest' ns [] Hn Hst2)
      as [(H1 & Hin & Hnd)|(id & vs & sp & H1 & B)].
    2: { right. fold n in H1. rewrite H1 in Hr. rewrite app_nil_r in B.
         assert (B2 : blamed (fn_formals f) ps ns (EArg id)).
         { destruct B as [B|B]; [left; exact B|]. right. unfold bindings. rewrite map_app, count_occ_app. unfold ids, var in *. lia. }
         rewrite Hr. apply (Bad id vs sp B2). destruct B2 as [[B2 B3]|B2]; [| eapply not_ok_dup; exact B2].
         intros (_ & A & _). apply B3, A, B2. }
    fold n in H1. rewrite H1, app_nil_r in Hr. rewrite app_nil_r in Hnd.
    destruct (bind_positional E C f (set_m m' s) (length ps) (s_frames s) (below ++ [PFunc l]) ps ns (flat ns ++ rest')) as [(H2 & Hnd2)|(id & vs & sp & H2 & B)].
    { lia. } { lia. } { rewrite Hst2, <- !app_assoc. reflexivity. } { apply Hnd. constructor. }
    2: { right. rewrite <- app_assoc in H2. rewrite H2 in Hr. rewrite Hr. apply Bad; [right; exact B | eapply not_ok_dup; exact B]. }
    left. exists m'. split; [exact Hm|]. split; [exact Q|].
    assert (Ok : arguments_ok (fn_formals f) ps ns). { split; [lia|]. split; [exact Hin | exact Hnd2]. }
    split; [exact Ok|]. rewrite <- app_assoc in H2. rewrite H2 in Hr. unfold sbind at 1 in Hr.
    assert (Hz : Forall (fun v : var => fst v <> 0) (bindings (fn_formals f) ps ns)).
    { apply Forall_forall. intros v Hv. unfold bindings in Hv. apply in_app_or in Hv. rewrite Forall_forall in Hfp, Hn. destruct Hv as [Hv|Hv].
      - destruct v as [i p]. apply in_combine_l in Hv. cbn. specialize (Hfp _ Hv). lia.
      - specialize (Hn _ Hv). lia. }
    set (s3 := st_at (set_m m' s) (combine (fn_formals f) ps ++ ns) (s_frames s) (length (below ++ [PFunc l]))) in *.
    assert (H3 : s_frames s3 = bindings (fn_formals f) ps ns :: s_frames s) by reflexivity.
    rewrite (check_required_ids C f _ _ (Z.to_nat (fn_nrequired f)) 0 s3 H3 Hz) in Hr by (unfold fn_nformal in Hrq; lia).
    rewrite bindings_length in Hr by lia. cbn [plus] in Hr. rewrite Hr. fold n.
    destruct (Z.to_nat (fn_nrequired f) <=? n)%nat eqn:Er; cbn [orb].
    + cbn. reflexivity.
    + replace (Z.to_nat (fn_nrequired f) =? 0)%nat with false by (symmetry; apply Nat.eqb_neq; apply Nat.leb_gt in Er; lia). reflexivity.
Qed.

Lemma pick_callee : forall m below c Y, m_sp m = length (below ++ c :: Y) -> (exists rest, m_stack m = (below ++ c :: Y) ++ rest) ->
  pick (length Y) m = Some (c, m).
Proof.
  intros m below c Y Hsp (rest & Hst). unfold pick. rewrite Hsp, app_length. cbn [length].
  replace (length Y <? length below + Datatypes.S (length Y))%nat with true by (symmetry; apply Nat.ltb_lt; lia).
  replace (length below + Datatypes.S (length Y) - length Y - 1)%nat with (length below) by lia.
  rewrite Hst, <- app_assoc, nth_error_app2, Nat.sub_diag by lia. reflexivity.
Qed.

Lemma call_func : forall s o below l ps ns f,
  calling s o below (PFunc l) ps ns -> F l = Some f -> func_ok f -> fits_vars E (length ps + length ns) ->
  (fn_nrequired f <= Z.of_nat (length ps + length ns)) ->
  sruns (call_op E builtins F o) s (fun r s' =>
    (r = None /\ reported EMemory (s_m s) (s_m s') /\ call_over s s' below) \/
    (arguments_ok (fn_formals f) ps ns /\ r = Some f /\ quiet (s_m s) (s_m s') /\
     heap_kept (m_heap (s_m s)) (m_heap (s_m s')) /\ m_sp (s_m s') = length below /\ (exists rest, m_stack (s_m s') = below ++ rest) /\
     s_globals s' = s_globals s /\ s_frames s' = bindings (fn_formals f) ps ns :: s_frames s) \/
    (~ arguments_ok (fn_formals f) ps ns /\ r = None /\
     (exists e, reported e (s_m s) (s_m s') /\ blamed (fn_formals f) ps ns e) /\ call_over s s' below)).
Proof.
  intros s o below l ps ns f Hcall HF Hf Hfit Hreq.
  destruct (calling_operand _ _ _ _ _ _ Hcall) as (O1 & O2 & O3 & O4 & O5). destruct Hcall as [Hsp Hst _ Hc Hn].
  unfold call_op. rewrite O3, O4, O1. apply sruns_bind. exists (PFunc l), s. split.
  { unfold lm. rewrite (pick_callee _ _ _ _ Hsp Hst), set_m_id. reflexivity. }
  apply sruns_bind. exists tt, (set_a (PFunc l) s). split; [reflexivity|]. rewrite HF.
  destruct (func_push_runs (set_a (PFunc l) s) below l ps ns f Hsp Hst Hc Hn Hf Hfit)
    as [(m' & Hm & R & E1)|[(m' & Hm & Q & Ok & E1)|(m' & Hm & N & B & E1)]].
  - apply sruns_bind. eexists _, _. split; [exact E1|].
    destruct (firstn_stack _ _ _ Hm Hsp Hst) as (Hsp' & Hst').
    eapply sruns_conseq; [apply (finish_call s (set_m m' (set_a (PFunc l) s)) below (PFunc l) (actuals ps ns) Hsp' Hst');
      [apply mstill_kept; exact Hm | reflexivity | reflexivity]|].
    intros r s' (-> & Ov & Hl & Ha). left. split; [reflexivity|]. split; [| exact Ov].
    destruct R as [Ra Rl]. split; [rewrite Ha; exact Ra | rewrite Hl; exact Rl].
  - replace (Z.to_nat (fn_nrequired f) <=? length ps + length ns)%nat with true in E1 by (symmetry; apply Nat.leb_le; lia).
    apply sruns_bind. eexists _, _. split; [exact E1|].
    destruct (firstn_stack _ _ _ Hm Hsp Hst) as (Hsp' & rest' & Hst').
    apply sruns_bind. eexists _, _. split.
    { unfold lm, pop. cbn [s_m set_frames set_m set_a m_sp m_stack set_stack]. rewrite app_length, Nat.add_comm. cbn [length plus].
      rewrite Hst', <- app_assoc, nth_error_app2, Nat.sub_diag by lia. reflexivity. }
    apply sruns_bind. eexists _, _. split; [reflexivity|]. apply sruns_ret. right. left. cbn.
    split; [exact Ok|]. split; [reflexivity|]. split; [exact Q|].
    split; [apply kept_heap_kept, mstill_kept; exact Hm|]. split; [reflexivity|]. split; [| auto].
    eexists. reflexivity.
  - apply sruns_bind. eexists _, _. split; [exact E1|].
    destruct (firstn_stack _ _ _ Hm Hsp Hst) as (Hsp' & Hst').
    eapply sruns_conseq; [apply (finish_call s (set_m m' (set_a (PFunc l) s)) below (PFunc l) (actuals ps ns) Hsp' Hst');
      [apply mstill_kept; exact Hm | reflexivity | reflexivity]|].
    intros r s' (-> & Ov & Hl & Ha). right. right. split; [exact N|]. split; [reflexivity|]. split; [| exact Ov].
    destruct B as (e & [Ra Rl] & B). exists e. split; [| exact B]. split; [rewrite Ha; exact Ra | rewrite Hl; exact Rl].
Qed.

(** too few arguments: the check of the required formals reads past the frame *)
Lemma call_too_few : forall s o below l ps ns f,
  calling s o below (PFunc l) ps ns -> F l = Some f -> func_ok f -> fits_vars E (length ps + length ns) ->
  (Z.of_nat (length ps + length ns) < fn_nrequired f) -> arguments_ok (fn_formals f) ps ns ->
  match call_op E builtins F o s with
  | None => True
  | Some (r, s') => r = None /\ reported EMemory (s_m s) (s_m s')
  end.
Proof.
  intros s o below l ps ns f Hcall HF Hf Hfit Hreq Hok.
  destruct (calling_operand _ _ _ _ _ _ Hcall) as (O1 & O2 & O3 & O4 & O5). destruct Hcall as [Hsp Hst _ Hc Hn].
  unfold call_op. rewrite O3, O4, O1. unfold sbind at 1. unfold lm at 1. rewrite (pick_callee _ _ _ _ Hsp Hst), set_m_id.
  unfold sbind at 1. change (put_a (PFunc l) s) with (Some (tt, set_a (PFunc l) s)). cbv iota beta. rewrite HF.
  destruct (func_push_runs (set_a (PFunc l) s) below l ps ns f Hsp Hst Hc Hn Hf Hfit)
    as [(m' & Hm & R & E1)|[(m' & Hm & Q & Ok & E1)|(m' & Hm & N & B & E1)]].
  - unfold sbind at 1. rewrite E1.
    destruct (firstn_stack _ _ _ Hm Hsp Hst) as (Hsp' & Hst').
    destruct (finish_call s (set_m m' (set_a (PFunc l) s)) below (PFunc l) (actuals ps ns) Hsp' Hst') as (r & s' & H & -> & Ov & Hl & Ha);
      [apply mstill_kept; exact Hm | reflexivity | reflexivity|].
    rewrite H. split; [reflexivity|]. destruct R as [Ra Rl]. split; [rewrite Ha; exact Ra | rewrite Hl; exact Rl].
  - replace (Z.to_nat (fn_nrequired f) <=? length ps + length ns)%nat with false in E1 by (symmetry; apply Nat.leb_gt; lia).
    unfold sbind at 1. rewrite E1. exact I.
  - contradiction.
Qed.

(** numbers, strings and lists *)
Lemma call_other : forall s o below callee ps ns, calling s o below callee ps ns ->
  match callee with PNum _ | PStr _ | PList _ => True | _ => False end ->
  sruns (call_op E builtins F o) s (fun r s' => r = None /\ reported (EType1 callee) (s_m s) (s_m s') /\ call_over s s' below).
Proof.
  intros s o below callee ps ns Hcall Hk.
  destruct (calling_operand _ _ _ _ _ _ Hcall) as (O1 & O2 & O3 & O4 & O5). destruct Hcall as [Hsp Hst _ Hc Hn].
  unfold call_op. rewrite O3, O4, O1. apply sruns_bind. exists callee, s. split.
  { unfold lm. rewrite (pick_callee _ _ _ _ Hsp Hst), set_m_id. reflexivity. }
  apply sruns_bind. exists tt, (set_a callee s). split; [reflexivity|].
  assert (K : sruns (lm (error (EType1 callee)) ^; lm (drop (length (actuals ps ns) + 1)) ^; sret (@None (func C))) (set_a callee s)
    (fun r s' => r = None /\ reported (EType1 callee) (s_m s) (s_m s') /\ call_over s s' below)).
  { apply sruns_bind. eexists tt, _. split. { unfold lm. cbn [s_m set_a]. rewrite error_eq. reflexivity. }
    destruct (errored_heap (EType1 callee) (s_m s)) as (E1 & E2 & E3).
    eapply sruns_conseq; [apply (finish_call s _ below callee (actuals ps ns)); cbn [s_m set_m set_a s_globals s_frames];
      [rewrite E2; exact Hsp | rewrite E3; exact Hst | rewrite E1; apply kept_refl | reflexivity | reflexivity]|].
    intros r s' (-> & Ov & Hl & Ha). split; [reflexivity|]. split; [| exact Ov].
    destruct (reported_errored (EType1 callee) (s_m s)) as [Ra Rl]. split; [rewrite Ha; exact Ra | rewrite Hl; exact Rl]. }
  destruct callee; try contradiction; exact K.
Qed.

(** None *)
Lemma call_none : forall s o below ps ns, calling s o below PNull ps ns -> Z.of_nat (length builtins) < 16383 ->
  call_op E builtins F o s = None.
Proof.
  intros s o below ps ns Hcall Hb.
  destruct (calling_operand _ _ _ _ _ _ Hcall) as (O1 & O2 & O3 & O4 & O5). destruct Hcall as [Hsp Hst _ Hc Hn].
  unfold call_op. rewrite O3, O4, O1. unfold sbind at 1. unfold lm at 1. rewrite (pick_callee _ _ _ _ Hsp Hst), set_m_id.
  unfold sbind at 1. change (put_a PNull s) with (Some (tt, set_a PNull s)). cbv iota beta. unfold PNull at 1. cbv iota.
  unfold sbind at 1. unfold call_builtin.
  assert (B : builtin E builtins SNEK_NULL_U = None).
  { unfold builtin. destruct (e_width E).
    - change (Z.shiftr (u_of W16 (snek_poly_to_offset SNEK_NULL_U)) 2) with 16383. cbn [Z.ltb Z.compare]. apply nth_error_None. lia.
    - change (Z.shiftr (u_of W32 (snek_poly_to_offset SNEK_NULL_U)) 2) with 2097151. cbn [Z.ltb Z.compare]. apply nth_error_None. lia. }
  rewrite B. reflexivity.
Qed.
End Calls.

(** * Defaults *)
Lemma run_defaults_runs : forall E ds s b frs, s_frames s = b :: frs -> NoDup (map fst ds) ->
  fits_vars E (nvars s + length ds) -> (m_sp (s_m s) <= length (m_stack (s_m s)))%nat -> m_abort (s_m s) = false ->
  sruns (run_defaults E ds) s (fun _ s' => mstill (s_m s) (s_m s') /\
    (reported EMemory (s_m s) (s_m s') \/
     quiet (s_m s) (s_m s') /\ s_globals s' = s_globals s /\
     exists b', s_frames s' = b' :: frs /\
       forall i, lookup i b' = match lookup i b with Some v => Some v | None => lookup i ds end)).
Proof.
  intros E. induction ds as [|[id v] ds IH]; intros s b frs Hf Hnd F Hsp Hab; cbn [run_defaults].
  - apply sruns_ret. split; [apply mstill_refl|]. right. split; [apply quiet_refl|]. split; [reflexivity|].
    exists b. split; [exact Hf|]. intros i. destruct (lookup i b); reflexivity.
  - cbn [map fst] in Hnd. inversion Hnd as [|? ? Hni Hnd']; subst.
    apply sruns_bind. exists tt, (set_a v s). split; [reflexivity|]. apply sruns_bind.
    unfold assign_named. apply sruns_bind. unfold id_is_local. eapply sruns_step; [apply lookup_ref|].
    intros r s' [-> ->]. apply sruns_ret. cbn [pick_frame set_a s_frames]. rewrite Hf. cbn [hd_error].
    pose proof (index_lookup id b) as Hb.
    destruct (index_of id b) as [n|]; cbn [option_map].
    + destruct Hb as (w & _ & Hb). apply sruns_ret. apply sruns_get. cbn [s_m set_a]. rewrite Hab.
      eapply sruns_conseq; [apply (IH (set_a v s) b frs Hf Hnd'); [eapply fits_vars_le; [exact F | unfold nvars; cbn [set_a s_globals s_frames length]; lia] | exact Hsp | exact Hab]|].
      intros _ s' [Hm H]. split; [exact Hm|]. destruct H as [H|(Q & G & b' & Hb' & Hl)]; [left; exact H|]. right.
      split; [exact Q|]. split; [exact G|]. exists b'. split; [exact Hb'|]. intros i. rewrite Hl, lookup_cons.
      destruct (Z.eqb_spec id i) as [->|]; [rewrite Hb; reflexivity | reflexivity].
    + eapply sruns_conseq. { apply (assign_id_runs E id (set_a v s)); [eapply fits_vars_le; [exact F | unfold nvars; cbn [set_a s_globals s_frames length]; lia] | exact Hsp]. }
      intros [] s1 (m1 & Hm & H). apply sruns_get. cbn [s_m set_a] in *. unfold target in H. cbn [s_frames set_a] in H. rewrite Hf, Hb in H.
      destruct H as [[[Ra Rl] E1]|(vs & vs' & Hp & -> & Q & Hlen & Hl)].
      * subst m1. rewrite Ra. apply sruns_ret. split; [exact Hm|]. left. split; assumption.
      * cbn [pick_frame set_a s_frames] in Hp. rewrite Hf in Hp. injection Hp as <-. rewrite put_frame_m. cbn [s_m set_m].
        destruct Q as [Qa Ql]. rewrite Qa, Hab.
        eapply sruns_conseq. { apply (IH _ vs' frs).
          - unfold put_frame. cbn [s_frames set_m set_a]. rewrite Hf. reflexivity.
          - exact Hnd'.
          - eapply fits_vars_le; [exact F|]. unfold nvars, put_frame. cbn [s_frames set_m set_a s_globals]. rewrite Hf.
            cbn [s_globals s_frames set_frames map length set_m set_a]. rewrite !list_sum_cons. lia.
          - rewrite put_frame_m. cbn [s_m set_m]. eapply mstill_sp; eauto.
          - rewrite put_frame_m. cbn [s_m set_m]. congruence. }
        intros _ s' [Hm' H]. rewrite put_frame_m in *. cbn [s_m set_m set_a] in *. split; [eapply mstill_trans; eauto|].
        destruct H as [H|(Q & G & b' & Hb' & Hl')]; [left; eapply reported_quiet; [split; eassumption | exact H]|]. right.
        split; [eapply quiet_trans; [split; eassumption | exact Q]|].
        split; [rewrite G; unfold put_frame; cbn; rewrite Hf; reflexivity|]. exists b'. split; [exact Hb'|].
        intros i. rewrite Hl', Hl, lookup_cons, (Z.eqb_sym id i). cbn [s_a set_a]. destruct (Z.eqb_spec i id) as [->|]; [rewrite Hb; reflexivity | reflexivity].
Qed.

(** * Definitions *)
Lemma parse_formals_ok : forall fs p, (length (pf_ids p) = SNEK_MAX_FORMALS)%nat -> (pf_nformal p + length fs <= SNEK_MAX_FORMALS)%nat ->
  0 <= pf_nnamed p -> pf_nnamed p + Z.of_nat (length fs) < 256 ->
  (pf_nnamed p = 0 /\ defaults_last fs \/ Forall (fun f => snd f = true) fs) ->
  exists p', parse_formals fs p = Ok p' /\ pf_nformal p' = (pf_nformal p + length fs)%nat /\
    firstn (pf_nformal p') (pf_ids p') = firstn (pf_nformal p) (pf_ids p) ++ map fst fs /\
    pf_nnamed p' = pf_nnamed p + Z.of_nat (length fs) - nrequired fs.
Proof.
  induction fs as [|[id d] fs IH]; intros p Hl Hn Hz Hb Hd; cbn [parse_formals].
  - exists p. split; [reflexivity|]. cbn [length map]. rewrite Nat.add_0_r, app_nil_r. unfold nrequired. cbn. repeat split; lia.
  - cbn [length] in *. unfold parse_formal.
    replace (pf_nformal p <? SNEK_MAX_FORMALS)%nat with true by (symmetry; apply Nat.ltb_lt; lia).
    assert (Up : firstn (Datatypes.S (pf_nformal p)) (upd (pf_nformal p) id (pf_ids p)) = firstn (pf_nformal p) (pf_ids p) ++ [id]).
    { assert (Hlt : (pf_nformal p < length (pf_ids p))%nat) by lia. revert Hlt. clear. generalize (pf_ids p), (pf_nformal p).
      induction l as [|x l IH]; intros [|n] H; cbn in H |- *; try lia; [reflexivity|]. f_equal. apply IH. lia. }
    destruct d.
    + cbn [obind].
      destruct (IH {| pf_ids := upd (pf_nformal p) id (pf_ids p); pf_nformal := Datatypes.S (pf_nformal p); pf_nnamed := (pf_nnamed p + 1) mod 256 |})
        as (p' & H1 & H2 & H3 & H4); cbn [pf_ids pf_nformal pf_nnamed] in *.
      * rewrite upd_length'. exact Hl.
      * lia.
      * apply Z.mod_pos_bound. lia.
      * rewrite Z.mod_small by lia. lia.
      * right. destruct Hd as [[_ Hd]|Hd]; [exact Hd | inversion Hd; assumption].
      * exists p'. split; [exact H1|]. split; [lia|]. rewrite H3, Up, <- app_assoc. split; [reflexivity|].
        rewrite H4, Z.mod_small by lia. unfold nrequired. cbn [filter snd negb]. lia.
    + assert (E0 : pf_nnamed p = 0 /\ defaults_last fs).
      { destruct Hd as [Hd|Hd]; [exact Hd | inversion Hd as [|? ? K]; discriminate K]. }
      destruct E0 as [E0 Hd']. rewrite E0. cbn [Z.eqb obind].
      destruct (IH {| pf_ids := upd (pf_nformal p) id (pf_ids p); pf_nformal := Datatypes.S (pf_nformal p); pf_nnamed := 0 |})
        as (p' & H1 & H2 & H3 & H4); cbn [pf_ids pf_nformal pf_nnamed] in *.
      * rewrite upd_length'. exact Hl.
      * lia.
      * lia.
      * lia.
      * left. auto.
      * exists p'. split; [exact H1|]. split; [lia|]. rewrite H3, Up, <- app_assoc. split; [reflexivity|].
        rewrite H4. unfold nrequired. cbn [filter snd negb length]. lia.
Qed.

(** a formal without a default after one with *)
Lemma parse_formals_err : forall fs p, (pf_nformal p + length fs <= SNEK_MAX_FORMALS)%nat -> 0 <= pf_nnamed p -> pf_nnamed p + Z.of_nat (length fs) < 256 ->
  (pf_nnamed p = 0 /\ ~ defaults_last fs \/ pf_nnamed p <> 0 /\ ~ Forall (fun f => snd f = true) fs) -> parse_formals fs p = Err.
Proof.
  induction fs as [|[id d] fs IH]; intros p Hn Hz Hb Hd; cbn [parse_formals].
  - exfalso. destruct Hd as [[_ H]|[_ H]]; apply H; constructor.
  - cbn [length] in *. unfold parse_formal.
    replace (pf_nformal p <? SNEK_MAX_FORMALS)%nat with true by (symmetry; apply Nat.ltb_lt; lia).
    destruct d; cbn [obind].
    + apply IH; cbn [pf_nformal pf_nnamed]; rewrite ?Z.mod_small by lia; try lia. right. split; [lia|].
      destruct Hd as [[_ H]|[_ H]]; [exact H|]. intros K. apply H. constructor; [reflexivity | exact K].
    + cbn [pf_nnamed]. destruct (Z.eqb_spec (pf_nnamed p) 0) as [E0|N]; [| reflexivity]. cbn [obind]. apply IH; cbn [pf_nformal pf_nnamed]; try lia.
      left. split; [exact E0|]. destruct Hd as [[_ H]|[H _]]; [exact H | contradiction].
Qed.

(** more formals than fit *)
Lemma parse_formals_many : forall fs p, (pf_nformal p <= SNEK_MAX_FORMALS)%nat -> (SNEK_MAX_FORMALS < pf_nformal p + length fs)%nat -> 0 <= pf_nnamed p ->
  pf_nnamed p + Z.of_nat (length fs) < 256 ->
  (pf_nnamed p = 0 /\ defaults_last fs \/ Forall (fun f => snd f = true) fs) -> parse_formals fs p = UB.
Proof.
  induction fs as [|[id d] fs IH]; intros p Hle Hn Hz Hb Hd; cbn [parse_formals length] in *; [lia|].
  unfold parse_formal. destruct (Nat.ltb_spec (pf_nformal p) SNEK_MAX_FORMALS) as [H|H]; [| reflexivity].
  destruct d; cbn [obind].
  - apply IH; cbn [pf_nformal pf_nnamed]; rewrite ?Z.mod_small by lia; try lia. right. destruct Hd as [[_ Hd]|Hd]; [exact Hd | inversion Hd; assumption].
  - assert (E0 : pf_nnamed p = 0 /\ defaults_last fs).
    { destruct Hd as [Hd|Hd]; [exact Hd | inversion Hd as [|? ? K]; discriminate K]. }
    destruct E0 as [E0 Hd']. cbn [pf_nnamed]. rewrite E0. cbn [Z.eqb obind]. apply IH; cbn [pf_nformal pf_nnamed]; try lia. left. auto.
Qed.

Lemma nrequired_range : forall fs, 0 <= nrequired fs <= Z.of_nat (length fs).
Proof.
  intros fs. unfold nrequired. split; [lia|]. induction fs as [|f fs IH]; cbn; [lia|]. destruct (negb _); cbn [length]; lia.
Qed.
Lemma formals_function : forall C fs old (code : C), (length old = SNEK_MAX_FORMALS)%nat -> (length fs <= SNEK_MAX_FORMALS)%nat ->
  defaults_last fs ->
  exists p', parse_formals fs (formals_start old) = Ok p' /\
    fn_formals (func_of p' code) = map fst fs /\ fn_nrequired (func_of p' code) = nrequired fs /\ fn_code (func_of p' code) = code.
Proof.
  intros C fs old code Hl Hn Hd.
  assert (Hn' : (length fs <= 10)%nat) by exact Hn.
  destruct (parse_formals_ok fs (formals_start old)) as (p' & H1 & H2 & H3 & H4); cbn [formals_start pf_ids pf_nformal pf_nnamed] in *;
    [exact Hl | cbn; lia | lia | lia | left; split; [reflexivity | exact Hd] |].
  exists p'. split; [exact H1|]. unfold func_of. cbn [fn_formals fn_nrequired fn_code].
  split; [exact H3|]. split; [|reflexivity].
  pose proof (nrequired_range fs). rewrite H4, H2. cbn [Nat.add]. rewrite Z.mod_small; lia.
Qed.
