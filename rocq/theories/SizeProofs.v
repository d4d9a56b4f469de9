(** Sizes that do not fit the offset type. *)
From Verif Require Import Tac Base FloatModel PolyModel ValueModel OrderSpec SliceModel SliceSpec SliceProofs
  MachModel ListModel StrModel MachSpec ListSpec StrSpec MachProofs FrameProofs ListProofs ListProofs2 ListProofs3 DictProofs4 StrProofs StrProofs2.
Local Open Scope Z_scope.
Open Scope mach_scope.

(** The bytes asked for and got for [size] elements. *)
Definition asked (w : width) (k : lkind) (size : Z) : Z :=
  size_round w (u_of w (u_of w ((if readonly k then size else list_alloc w size) * 4))).

Lemma asked_range : forall w k size, 0 <= asked w k size < 2 ^ wbits w /\ asked w k size mod 4 = 0.
Proof.
  intros w k size. unfold asked, size_round.
  set (x := u_of w (u_of w ((if readonly k then size else list_alloc w size) * 4))).
  assert (R : forall y, 0 <= u_of w y < 2 ^ wbits w) by (intros y; unfold u_of, wrapu; apply Z.mod_pos_bound; destruct w; cbn; lia).
  split; [apply R|]. set (z := u_of w (x + 3)). pose proof (R (x + 3)) as Z1. fold z in Z1.
  assert (M : 0 <= z - z mod 4 < 2 ^ wbits w) by (pose proof (Z.mod_pos_bound z 4 ltac:(lia)); pose proof (Z.mod_le z 4 ltac:(lia) ltac:(lia)); lia).
  rewrite (u_of_small w _ M). rewrite Zminus_mod, Zmod_mod, Z.sub_diag. reflexivity.
Qed.

Lemma asked_wrapped : forall w size, 0 <= size -> asked w KTuple size = (4 * size) mod 2 ^ wbits w.
Proof.
  intros w size H. unfold asked. change (readonly KTuple) with true. cbv iota. rewrite Z.mul_comm.
  unfold size_round, u_of, wrapu. rewrite !Zmod_mod. set (M := 2 ^ wbits w).
  assert (HM : exists q, M = 4 * q /\ 0 < q) by (unfold M; destruct w; [exists 16384 | exists 1073741824]; cbn; lia).
  destruct HM as (q & HM & Hq). rewrite HM. rewrite Z.mul_mod_distr_l by lia.
  pose proof (Z.mod_pos_bound size q Hq) as B. set (r := size mod q) in *.
  rewrite (Z.mod_small (4 * r + 3)) by lia.
  replace ((4 * r + 3) mod 4) with 3 by (rewrite Z.add_comm, Z.mul_comm, Z.mod_add by lia; reflexivity).
  replace (4 * r + 3 - 3) with (4 * r) by lia. apply Z.mod_small. lia.
Qed.

Lemma make_any : forall E size k m, wf E m -> room E 1 m -> 0 < size < 2 ^ wbits (e_width E) ->
  runs (list_make E size k) m (fun r m' =>
    frame None m m' /\
    match r with
    | None => reported EMemory m m' /\
        ((exists n, e_fail E n = true) \/ e_pool E < sizeof_list E \/ e_pool E < asked (e_width E) k size)
    | Some p => exists l o, p = (l, m_epoch m') /\ nth_error (m_heap m') l = Some (OList o) /\
                            4 * Z.of_nat (length (lo_data o)) = asked (e_width E) k size
    end).
Proof.
  intros E size k m W Hroom Hs. assert (Hst : length (m_stack m) = e_stack E) by apply W. unfold room in Hroom.
  unfold list_make. destruct (Z.eqb_spec size 0); [lia|]. cbn [andb].
  eapply runs_step with (P := fun r m' => frame None m m' /\ m_empty m' = m_empty m /\
    match r with
    | None => reported EMemory m m' /\ ((exists n, e_fail E n = true) \/ e_pool E < sizeof_list E)
    | Some p => quiet m m' /\ p = (length (m_heap m), m_epoch m') /\ nth_error (m_heap m') (length (m_heap m)) = Some (OList (head k)) end).
  { unfold head_alloc. eapply runs_step; [apply alloc_runs; lia|]. intros [b|] m1 (F & L & Em & Hr).
    - apply runs_bind. eexists _, _. split; [reflexivity|]. apply runs_ret. destruct Hr as (_ & _ & Hq).
      split. { destruct F as [A B C D G P]. split; cbn; try assumption; [eapply kept_trans; [exact A | apply kept_app] | left; exact Em]. }
      split; [exact Em|]. split; [exact Hq|]. cbn [set_heap m_heap m_epoch]. rewrite <- L. split; [reflexivity | apply nth_error_last].
    - apply runs_ret. destruct Hr as [Hr Hy]. split; [exact F|]. split; [exact Em|]. split; [exact Hr|]. destruct Hy as [Hy|Hy]; [left; exact Hy | right].
      unfold sizeof_list in *. destruct (e_width E); exact Hy. }
  intros r m1 (F & Em1 & Hr). destruct r as [p|].
  2: { apply runs_ret. split; [exact F|]. destruct Hr as [R [Hy|Hy]]; split; auto. }
  destruct Hr as (Q & -> & Ho). set (l := length (m_heap m)) in *.
  unfold list_resize. eapply runs_deref; [reflexivity | exact Ho|]. cbn [head lo_alloc lo_kind].
  destruct (Z.leb_spec size 0); [lia|]. set (al := if readonly k then size else list_alloc (e_width E) size).
  assert (Hsp1 : m_sp m1 = m_sp m) by apply F. assert (Hsl1 : length (m_stack m1) = length (m_stack m)) by apply F.
  apply runs_push_list; [unfold room; lia | reflexivity|].
  eapply runs_step; [apply alloc_runs|]. { cbn. rewrite upd_length. lia. }
  intros r m2 (F2 & L & Em & Hr). eapply runs_pop_list; [| exact F2|]. { lia. }
  intros F3. assert (F4 : frame None m (popped m2)) by (eapply frame_trans_none; eauto).
  destruct r as [b|].
  - destruct Hr as (Hb & Hbp & Hq). 
    destruct (nth_frame_list _ _ _ _ _ F3 ltac:(discriminate) Ho) as (o1 & Ho1 & K1).
    pose proof K1 as (Kk & Ks & Ka & Kd & Ke). cbn [head lo_kind lo_size lo_alloc lo_data] in *.
    eapply runs_deref; [reflexivity | exact Ho1|]. rewrite <- Ks. destruct (Z.ltb_spec 0 size); [|lia]. cbn [Z.to_nat].
    eapply runs_lift_bind; [apply take_some; lia|].
    eapply runs_lift_bind; [apply blit_some; cbn; lia|].
    apply runs_assign; [reflexivity | eapply nth_error_lt; eauto|]. apply runs_ret.
    split.
    { eapply (frame_new_loc l); [exact F4 | lia | apply frame_upd|].
      intros He. cbn [popped set_stack m_empty] in He. rewrite Em in He. cbn [pushed set_stack m_empty] in He. rewrite Em1 in He.
      destruct (wf_empty _ _ W _ He) as (oe & Hoe & _). apply nth_error_lt in Hoe. unfold l in Hoe. lia. }
    eexists l, _. split; [reflexivity|]. cbn [set_heap m_heap]. rewrite nth_upd_same by (eapply nth_error_lt; eauto).
    split; [reflexivity|]. cbn [lo_data firstn app length Nat.add skipn]. unfold zero_words. rewrite repeat_length.
    change (asked (e_width E) k size) with (size_round (e_width E) (u_of (e_width E) (u_of (e_width E) (al * 4)))). 
    pose proof (asked_range (e_width E) k size) as [A1 A2]. unfold asked in A1, A2. fold al in A1, A2. rewrite <- Hb in *.
    rewrite Z2Nat.id by (apply Z.div_pos; lia). pose proof (Z.div_mod b 4 ltac:(lia)). lia.
  - apply runs_ret. split; [exact F4|]. destruct Hr as [Hr Hy]. split.
    + eapply quiet_reported; [exact Q|]. exact Hr.
    + destruct Hy as [Hy|Hy]; auto.
Qed.

Lemma fails_step : forall A B (c : M A) (f : A -> M B) m P, runs c m P -> (forall a m', P a m' -> f a m' = None) -> bind c f m = None.
Proof. intros A B c f m P (a & m' & H & HP) K. unfold bind. rewrite H. apply K. exact HP. Qed.

Lemma fails_push_list : forall B E l ep (f : unit -> M B) m, room E 1 m -> ep = m_epoch m -> f tt (pushed (PList l) m) = None ->
  bind (push_list E (l, ep)) f m = None.
Proof.
  intros B E l ep f m R -> H. assert (K : runs (push_list E (l, m_epoch m)) m (fun _ m' => m' = pushed (PList l) m)).
  { eapply runs_eq with (c' := bind (push_list E (l, m_epoch m)) ret).
    - unfold bind. destruct (push_list _ _ m) as [[[] ?]|]; reflexivity.
    - apply runs_push_list; [exact R | reflexivity|]. apply runs_ret. reflexivity. }
  eapply fails_step; [exact K|]. intros [] m' ->. exact H.
Qed.
Lemma fails_deref : forall B l ep o (f : lobj -> M B) m, ep = m_epoch m -> nth_error (m_heap m) l = Some (OList o) ->
  f o m = None -> bind (deref_list (l, ep)) f m = None.
Proof. intros B l ep o f m He Ho H. unfold bind. rewrite (deref_list_eq l ep m o He Ho). exact H. Qed.
Lemma fails_pop_list : forall B l (f : ptr -> M B) m m2, (m_sp m < length (m_stack m))%nat -> frame None (pushed (PList l) m) m2 ->
  (frame None m (popped m2) -> f (l, m_epoch m2) (popped m2) = None) -> bind pop_list f m2 = None.
Proof.
  intros B l f m m2 Hs F H. destruct (pop_pushed _ _ _ _ Hs F) as [P F'].
  unfold pop_list, bind. rewrite P. unfold poly_to_list, here. apply H. exact F'.
Qed.

Lemma times_loop_fails : forall count dst src m l o, nth_error (m_heap m) l = Some (OList o) -> (0 < length src)%nat ->
  (length (lo_data o) < dst + count * length src)%nat -> (dst <= length (lo_data o))%nat ->
  times_loop count dst src (l, m_epoch m) m = None.
Proof.
  induction count as [|count IH]; intros dst src m l o Ho Hp Hl Hd; [lia|]. cbn [times_loop].
  eapply fails_deref; [reflexivity | exact Ho|]. unfold bind at 1, lift, blit.
  destruct (Nat.leb_spec (dst + length src) (length (lo_data o))) as [Hle|Hgt]; [| reflexivity].
  unfold ret. unfold bind, assign_list, assign_obj. cbn [fst snd]. rewrite Nat.eqb_refl.
  pose proof (nth_error_lt _ _ _ _ Ho) as Hlt. destruct (Nat.ltb_spec l (length (m_heap m))); [| lia]. cbn [andb].
  set (o' := set_data _ _). change (m_epoch m) with (m_epoch (set_heap (upd l (OList o') (m_heap m)) m)).
  apply (IH _ _ _ _ o').
  - cbn [set_heap m_heap]. apply nth_upd_same. exact Hlt.
  - exact Hp.
  - unfold o'. cbn [set_data lo_data]. rewrite !app_length, firstn_length, skipn_length. lia.
  - unfold o'. cbn [set_data lo_data]. rewrite !app_length, firstn_length, skipn_length. lia.
Qed.

(** snek_list_times: when the bytes needed do not fit the offset type and the
    bytes asked for fit the pool, the copies are written outside the block. *)
Lemma list_times_outside : forall E m l k xs n,
  wf_env E -> wf E m -> room E 2 m -> seq_at (m_heap m) l k xs -> xs <> [] ->
  let size := u_of (e_width E) (Z.of_nat (length xs) * n) in
  2 ^ wbits (e_width E) <= 4 * (Z.of_nat (length xs) * n) -> size <> 0 ->
  (forall i, e_fail E i = false) -> sizeof_list E <= e_pool E -> asked (e_width E) k size <= e_pool E ->
  list_times E (l, m_epoch m) n m = None.
Proof.
  intros E m l k xs n We W Hroom (o & Ho & Hk & He) Hne size Hbig Hnz Hnf Hp1 Hp2.
  assert (Hst : length (m_stack m) = e_stack E) by apply W. unfold room in Hroom.
  assert (Hsa := length_elems_of _ _ _ _ _ W Ho He). assert (H2w : 0 < 2 ^ wbits (e_width E)) by (destruct (e_width E); cbn; lia).
  assert (Hn : 0 < n) by nia.
  unfold list_times. destruct (Z.ltb_spec n 0); [lia|].
  apply fails_push_list; [unfold room; lia | reflexivity|]. set (ma := pushed (PList l) m).
  assert (Wa : wf E ma) by (apply wf_pushed; [exact W | unfold room; lia | cbn; eauto]).
  eapply fails_deref; [reflexivity | exact Ho|]. rewrite Hsa, Hk. fold size.
  assert (Hsz : 0 < size < 2 ^ wbits (e_width E)).
  { assert (0 <= size < 2 ^ wbits (e_width E)) by (unfold size, u_of, wrapu; apply Z.mod_pos_bound; exact H2w). lia. }
  eapply fails_step; [apply (make_any E size k ma Wa); [unfold room; cbn [ma pushed set_stack m_sp]; lia | exact Hsz]|].
  intros r m1 (F & Hr). eapply fails_pop_list; [| exact F|]. { lia. }
  intros F1. destruct r as [p|].
  - destruct Hr as (ln & on & -> & Hon & Hlen). set (m3 := popped m1) in *.
    destruct (nth_frame_list _ _ _ _ _ F1 ltac:(discriminate) Ho) as (o3 & Ho3 & Ka).
    assert (Hs3 := shape_kept _ _ _ Ka (wf_list_shape _ _ _ _ (wf_heap _ _ W _ _ Ho))).
    destruct Ka as (_ & KSa & _ & _ & KEa).
    assert (Ta := take_elems _ _ Hs3). rewrite <- KEa, He, <- KSa, Hsa in Ta.
    eapply fails_deref; [reflexivity | exact Ho3|]. unfold bind at 1, lift. rewrite Ta. unfold ret at 1.
    unfold bind. change (ln, m_epoch m1) with (ln, m_epoch m3).
    rewrite (times_loop_fails (Z.to_nat n) 0 xs m3 ln on Hon).
    + reflexivity.
    + destruct xs; [congruence | cbn; lia].
    + pose proof (asked_range (e_width E) k size) as [A _]. nia.
    + lia.
  - exfalso. destruct Hr as [_ [[i Hi]|[Hy|Hy]]]; [rewrite Hnf in Hi; discriminate | lia | lia].
Qed.

(** snek_list_plus on 16 bits *)
Lemma list_plus_outside : forall E m la lb k xs ys,
  wf_env E -> wf E m -> room E 3 m -> seq_at (m_heap m) la k xs -> seq_at (m_heap m) lb k ys ->
  let size := Z.of_nat (length xs + length ys) in
  0 < size < 2 ^ wbits (e_width E) -> asked (e_width E) k size < 4 * Z.of_nat (length xs) ->
  (forall i, e_fail E i = false) -> sizeof_list E <= e_pool E ->
  list_plus E (la, m_epoch m) (lb, m_epoch m) m = None.
Proof.
  intros E m la lb k xs ys We W Hroom (oa & Ha & Hka & Hea) (ob & Hb & Hkb & Heb) size Hsz Hask Hnf Hp1.
  assert (Hst : length (m_stack m) = e_stack E) by apply W. unfold room in Hroom.
  assert (Hsa := length_elems_of _ _ _ _ _ W Ha Hea). assert (Hsb := length_elems_of _ _ _ _ _ W Hb Heb).
  unfold list_plus. apply fails_push_list; [unfold room; lia | reflexivity|].
  apply fails_push_list; [unfold room; cbn; lia | reflexivity|].
  set (ma := pushed (PList la) m). set (mb := pushed (PList lb) ma).
  assert (Wa : wf E ma) by (apply wf_pushed; [exact W | unfold room; lia | cbn; eauto]).
  assert (Wb : wf E mb) by (apply wf_pushed; [exact Wa | unfold room; cbn; lia | cbn; eauto]).
  eapply fails_deref; [reflexivity | exact Ha|]. eapply fails_deref; [reflexivity | exact Hb|].
  rewrite Hsa, Hsb, Hka. replace (Z.of_nat (length xs) + Z.of_nat (length ys)) with size by lia. rewrite (u_of_small _ _ (conj (Z.lt_le_incl _ _ (proj1 Hsz)) (proj2 Hsz))).
  eapply fails_step; [apply (make_any E size k mb Wb); [unfold room; cbn [mb ma pushed set_stack m_sp]; lia | exact Hsz]|].
  intros r m1 (F & Hr). eapply fails_pop_list; [| exact F|]. { cbn. rewrite upd_length. lia. }
  intros F1. eapply fails_pop_list; [| exact F1|]. { lia. }
  intros F2. destruct r as [p|].
  - destruct Hr as (ln & on & -> & Hon & Hlen). set (m3 := popped (popped m1)) in *.
    destruct (nth_frame_list _ _ _ _ _ F2 ltac:(discriminate) Ha) as (o3 & Ho3 & Ka).
    assert (Hs3 := shape_kept _ _ _ Ka (wf_list_shape _ _ _ _ (wf_heap _ _ W _ _ Ha))).
    destruct Ka as (_ & KSa & _ & _ & KEa).
    assert (Ta := take_elems _ _ Hs3). rewrite <- KEa, Hea in Ta.
    eapply fails_deref; [reflexivity | exact Ho3|]. unfold bind at 1, lift. rewrite Ta. unfold ret at 1.
    eapply fails_deref; [reflexivity | exact Hon|]. unfold bind at 1, lift, blit.
    destruct (Nat.leb_spec (0 + length xs) (length (lo_data on))); [lia | reflexivity].
  - exfalso. assert (asked (e_width E) k size <= e_pool E).
    { assert (Sh := wf_list_shape _ _ _ _ (wf_heap _ _ W _ _ Ha)). destruct Sh as [S1 S2 S3]. lia. }
    destruct Hr as [_ [[i Hi]|[Hy|Hy]]]; [rewrite Hnf in Hi; discriminate | lia | lia].
Qed.

(** snek_string_times *)
Lemma string_times_outside : forall E m l s n,
  wf_env E -> wf E m -> wf_strs E (m_heap m) -> str_at (m_heap m) l s ->
  2 ^ wbits (e_width E) <= Z.of_nat (length s) * n ->
  (forall i, e_fail E i = false) ->
  size_round (e_width E) (u_of (e_width E) (Z.of_nat (length s) * n + 1)) <= e_pool E ->
  string_times E (l, m_epoch m) n m = None.
Proof.
  intros E m l s n We W Ws Hs Hbig Hnf Hp. assert (H2w : 0 < 2 ^ wbits (e_width E)) by (destruct (e_width E); cbn; lia).
  assert (0 < n) by nia. destruct (e_move E (m_nalloc m)) eqn:Hmv.
  { apply times_str_moved with (s := s); auto. }
  unfold string_times. unfold bind at 1, deref_str, deref, bind at 1. cbn [fst snd]. rewrite Nat.eqb_refl.
  pose proof Hs as Hs'. unfold str_at in Hs'. rewrite Hs'. unfold ret at 1.
  rewrite (strlen_eq _ _ _ _ We Ws Hs).
  eapply fails_step; [apply alloc_still; [eapply wf_sp_len; eauto | exact Hmv]|].
  intros r m1 (F & Hh & Hep & Hr). destruct r as [b|].
  - destruct Hr as (-> & _ & _). destruct (Z.eqb_spec n 0); [lia|]. unfold bind at 1 2 3. rewrite <- Hep, Nat.eqb_refl, Hh, Hs'.
    unfold ret at 1. unfold lift. rewrite take_some by lia. rewrite Nat2Z.id, firstn_all. unfold ret at 1.
    unfold bind, new_str. rewrite concat_repeat_length, Nat2Z.inj_mul, Z2Nat.id by lia.
    destruct (Z.leb_spec (n * Z.of_nat (length s) + 1) (size_round (e_width E) (u_of (e_width E) (Z.of_nat (length s) * n + 1)))) as [Hle|Hgt]; [| reflexivity].
    exfalso. assert (R : forall y, 0 <= u_of (e_width E) y < 2 ^ wbits (e_width E)) by (intros y; unfold u_of, wrapu; apply Z.mod_pos_bound; exact H2w).
    unfold size_round in Hle. match type of Hle with _ <= u_of _ ?y => pose proof (R y) end. lia.
  - exfalso. destruct Hr as [_ [[i Hi]|Hy]]; [rewrite Hnf in Hi; discriminate | lia].
Qed.
