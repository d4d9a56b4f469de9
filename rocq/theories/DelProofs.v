(** Deleting a global: what [snek_variable_delete] leaves. *)
From Verif Require Import Tac Base FloatModel PolyModel ValueModel MachModel ListModel StrModel MathModel BinModel MachSpec ListSpec
  SliceProofs MachProofs FrameProofs FrameModel VarSpec VarProofs.
Local Open Scope Z_scope.
Open Scope st_scope.

Lemma lookup_none : forall id vs, ~ In id (map fst vs) -> lookup id vs = None.
Proof.
  intros id. induction vs as [|[i v] vs IH]; intros H; [reflexivity|]. rewrite lookup_cons. cbn in H.
  destruct (Z.eqb_spec i id) as [->|]; [elim H; left; reflexivity | apply IH; intros K; apply H; right; exact K].
Qed.

Lemma id_del_last : forall E id v (others : list var) s, s_globals s = others ++ [(id, v)] -> NoDup (map fst (s_globals s)) ->
  fits_vars E (length (s_globals s)) -> (m_sp (s_m s) <= length (m_stack (s_m s)))%nat ->
  match id_del E id s with
  | Some (r, s') => r = true /\ heap_kept (m_heap (s_m s)) (m_heap (s_m s')) /\ quiet (s_m s) (s_m s') /\ s_frames s' = s_frames s /\
      lookup id (s_globals s') = None /\ (forall i, i <> id -> lookup i (s_globals s') = lookup i (s_globals s))
  | None => exists m', new_frame E (length others) s = Some (None, set_m m' s) /\ reported EMemory (s_m s) m'
  end.
Proof.
  intros E id v others s Hg Hnd F Hsp. rewrite Hg, map_app in Hnd. cbn [map fst] in Hnd.
  assert (Hn : ~ In id (map fst others)).
  { intros H. apply NoDup_remove_2 in Hnd. apply Hnd. rewrite app_nil_r. exact H. }
  assert (Hi : index_of id (s_globals s) = Some (length others)).
  { rewrite Hg, index_app.
    - cbn [index_of]. rewrite Z.eqb_refl. cbn. f_equal. apply Nat.add_0_r.
    - pose proof (index_lookup id others) as K. destruct (index_of id others); [| reflexivity].
      destruct K as (w & _ & K). rewrite lookup_none in K by exact Hn. discriminate. }
  pose proof (id_del_runs E id s _ Hi F Hsp) as H.
  assert (Ln : length (s_globals s) = (length others + 1)%nat) by (rewrite Hg, app_length; reflexivity).
  destruct (id_del E id s) as [[r s']|].
  - destruct H as (m' & Hm & Q & -> & ->). split; [reflexivity|]. cbn [s_m set_m set_globals s_globals s_frames].
    destruct Hm as [[K _ _ _ _ _] _].
    split. { destruct K as [A B]. split; [exact A|]. intros l o H K. destruct (B l o H K) as (o' & H1 & H2). exists o'. split; [exact H1|].
      destruct o, o'; cbn in *; try contradiction; try exact I; intuition congruence. }
    split; [exact Q|]. split; [reflexivity|].
    rewrite Ln. replace (length others + 1 - length others - 1)%nat with O by lia. rewrite Hg.
    rewrite skipn_all2 by (rewrite app_length; cbn; lia). cbn [copy_bytes]. rewrite app_nil_r, firstn_app, Nat.sub_diag, firstn_all, firstn_O, app_nil_r.
    split; [apply lookup_none; exact Hn|]. intros i Hne. rewrite lookup_app, lookup_cons.
    destruct (Z.eqb_spec id i); [congruence|]. destruct (lookup i others); reflexivity.
  - rewrite Ln in H. replace (length others + 1 - 1)%nat with (length others) in H by lia. exact H.
Qed.

(** what is left of the ids *)
Lemma var_bytes_id : forall k v, 0 < fst v < 256 -> fst (var_bytes k v) = 0 \/ fst (var_bytes k v) = fst v.
Proof.
  intros k [id p] H. cbn [fst] in H. unfold var_bytes. cbn [fst]. destruct (Z.leb_spec k 4) as [L|L]; [left; reflexivity|].
  right. apply Z.mod_small. split; [lia|]. apply Z.lt_le_trans with (256 ^ 1); [lia|]. apply Z.pow_le_mono_r; lia.
Qed.
Lemma copy_bytes_ids : forall E vs k i, Forall (fun v : var => 0 < fst v < 256) vs -> In i (map fst (copy_bytes E k vs)) -> i = 0 \/ In i (map fst vs).
Proof.
  intros E. induction vs as [|v vs IH]; intros k i H Hi; [contradiction|]. inversion H as [|? ? Hv Hvs]; subst.
  cbn [copy_bytes map] in Hi. destruct Hi as [Hi|Hi].
  - destruct (var_bytes_id (Z.min (sizeof_var E) k) v Hv) as [K|K]; [left; congruence | right; left; congruence].
  - destruct (IH _ i Hvs Hi) as [K|K]; [left; exact K | right; right; exact K].
Qed.
(** the last one loses its id *)
Lemma copy_bytes_last : forall E vs v k i, Forall (fun v : var => 0 < fst v < 256) (vs ++ [v]) ->
  k <= Z.of_nat (length vs) * sizeof_var E + 4 -> In i (map fst (copy_bytes E k (vs ++ [v]))) -> i = 0 \/ In i (map fst vs).
Proof.
  intros E. induction vs as [|w vs IH]; intros v k i H Hk Hi.
  - cbn [app copy_bytes map length] in *. destruct Hi as [Hi|[]]. left. rewrite <- Hi. destruct v as [id p]. unfold var_bytes. cbn [fst].
    replace (Z.min (sizeof_var E) k <=? 4) with true by (symmetry; apply Z.leb_le; lia). reflexivity.
  - cbn [app copy_bytes map length] in *. inversion H as [|? ? Hw Hvs]; subst. destruct Hi as [Hi|Hi].
    + destruct (var_bytes_id (Z.min (sizeof_var E) k) w Hw) as [K|K]; [left; congruence | right; left; congruence].
    + destruct (IH v (k - sizeof_var E) i Hvs) as [K|K]; [lia | exact Hi | left; exact K | right; right; exact K].
Qed.

Lemma id_del_loses : forall E id v (before after : list var) last w s,
  s_globals s = before ++ (id, v) :: after ++ [(last, w)] -> NoDup (map fst (s_globals s)) ->
  Forall (fun v : var => 0 < fst v < 256) (s_globals s) ->
  fits_vars E (length (s_globals s)) -> (m_sp (s_m s) <= length (m_stack (s_m s)))%nat ->
  match id_del E id s with
  | Some (r, s') => lookup last (s_globals s) = Some w /\ lookup last (s_globals s') = None
  | None => exists m', new_frame E (length (s_globals s) - 1) s = Some (None, set_m m' s) /\ reported EMemory (s_m s) m'
  end.
Proof.
  intros E id v before after last w s Hg Hnd Hr F Hsp.
  assert (Hnb : ~ In id (map fst before)).
  { rewrite Hg, map_app in Hnd. cbn [map fst] in Hnd. apply NoDup_remove_2 in Hnd. intros H. apply Hnd. apply in_or_app. left. exact H. }
  assert (Hi : index_of id (s_globals s) = Some (length before)).
  { rewrite Hg, index_app.
    - cbn [index_of]. rewrite Z.eqb_refl. cbn. f_equal. apply Nat.add_0_r.
    - pose proof (index_lookup id before) as K. destruct (index_of id before); [| reflexivity].
      destruct K as (x & _ & K). rewrite lookup_none in K by exact Hnb. discriminate. }
  assert (Hsplit : s_globals s = (before ++ (id, v) :: after) ++ [(last, w)]) by (rewrite Hg, <- app_assoc; reflexivity).
  assert (Hnl : ~ In last (map fst (before ++ (id, v) :: after))).
  { rewrite Hsplit, map_app in Hnd. cbn [map fst] in Hnd. apply NoDup_remove_2 in Hnd. rewrite app_nil_r in Hnd. exact Hnd. }
  assert (Hl0 : 0 < last < 256).
  { rewrite Forall_forall in Hr. apply (Hr (last, w)). rewrite Hsplit. apply in_or_app. right. left. reflexivity. }
  pose proof (id_del_runs E id s _ Hi F Hsp) as H. destruct (id_del E id s) as [[r s']|]; [| exact H].
  destruct H as (m' & _ & _ & _ & ->). split.
  - rewrite Hsplit, lookup_app, lookup_none by exact Hnl. rewrite lookup_cons, Z.eqb_refl. reflexivity.
  - cbn [set_globals set_m s_globals]. rewrite Hg.
    assert (Ef : firstn (length before) (before ++ (id, v) :: after ++ [(last, w)]) = before).
    { rewrite firstn_app, Nat.sub_diag, firstn_all, firstn_O, app_nil_r. reflexivity. }
    assert (Ek : skipn (length before + 1) (before ++ (id, v) :: after ++ [(last, w)]) = after ++ [(last, w)]).
    { rewrite skipn_app, skipn_all2 by lia. replace (length before + 1 - length before)%nat with 1%nat by lia. reflexivity. }
    unfold var in *. rewrite Ef, Ek.
    assert (El : (length (before ++ (id, v) :: after ++ [(last, w)]) - length before - 1)%nat = (length after + 1)%nat).
    { rewrite app_length. cbn [length]. rewrite app_length. cbn [length]. lia. }
    rewrite El. apply lookup_none. rewrite map_app. intros K. apply in_app_or in K. destruct K as [K|K].
    + apply Hnl. rewrite map_app. apply in_or_app. left. exact K.
    + apply (copy_bytes_last E after (last, w)) in K.
      * destruct K as [K|K]; [lia|]. apply Hnl. rewrite map_app. apply in_or_app. right. right. exact K.
      * rewrite Hg in Hr. apply Forall_app in Hr. destruct Hr as [_ Hr]. inversion Hr. assumption.
      * unfold sizeof_var, var in *. destruct (e_width E); lia.
Qed.
