(** snek-list.c: repetition, slices, displays, elements (ListModel.v). *)
From Verif Require Import Tac Base FloatModel PolyModel ValueModel OrderSpec OrderProofs SliceModel SliceSpec SliceProofs MachModel ListModel MachSpec MachProofs FrameProofs ListProofs.
Local Open Scope Z_scope.
Open Scope mach_scope.

Lemma concat_repeat_length : forall A (xs : list A) n, length (concat (repeat xs n)) = (n * length xs)%nat.
Proof. induction n as [|n IH]; cbn; [reflexivity|]. rewrite app_length, IH. reflexivity. Qed.

Lemma Forall_concat_repeat : forall A (P : A -> Prop) xs n, Forall P xs -> Forall P (concat (repeat xs n)).
Proof. induction n as [|n IH]; cbn; intros H; [constructor|]. apply Forall_app. auto. Qed.

Lemma times_runs : forall E m la k xs count,
  wf_env E -> wf E m -> room E 2 m -> k <> KDict ->
  seq_at (m_heap m) la k xs ->
  fits (e_width E) (Z.of_nat (length xs) * Z.max 0 count) ->
  runs (list_times E (la, m_epoch m) count) m (new_list_post E m k (concat (repeat xs (Z.to_nat count)))).
Proof.
  intros E m la k xs count We W Hroom Hk (oa & Ha & Hka & Hea) Hfit.
  assert (Hsa := length_elems_of _ _ _ _ _ W Ha Hea).
  assert (Hst : length (m_stack m) = e_stack E) by apply W. unfold room in Hroom.
  unfold list_times. set (c := if count <? 0 then 0 else count).
  assert (Hc : c = Z.max 0 count) by (unfold c; destruct (Z.ltb_spec count 0); lia).
  assert (Hcn : Z.to_nat count = Z.to_nat c) by lia. rewrite Hcn. rewrite <- Hc in Hfit. assert (Hc0 : 0 <= c) by lia.
  clearbody c. clear Hc Hcn count.
  set (ma := pushed (PList la) m).
  assert (Wa : wf E ma) by (apply wf_pushed; [exact W | unfold room; lia | cbn; eauto]).
  apply runs_push_list; [unfold room; lia | reflexivity|]. fold ma.
  eapply runs_deref; [reflexivity | exact Ha|]. rewrite Hsa.
  set (rs := concat (repeat xs (Z.to_nat c))).
  assert (Hrs : Z.of_nat (length rs) = Z.of_nat (length xs) * c).
  { unfold rs. rewrite concat_repeat_length, Nat2Z.inj_mul, Z2Nat.id by exact Hc0. lia. }
  rewrite <- Hrs in *.
  assert (Hnw : u_of (e_width E) (Z.of_nat (length rs)) = Z.of_nat (length rs)).
  { apply u_of_small. unfold fits in Hfit. lia. }
  rewrite Hnw, Hka.
  eapply runs_step; [apply make_runs; auto; [unfold room; cbn [ma pushed set_stack m_sp]; lia | lia]|].
  intros r m1 [F Hr].
  eapply runs_pop_list; [| exact F |]. { lia. }
  intros F1. set (m3 := popped m1) in *.
  destruct r as [p|].
  - destruct Hr as (Hq & l & n & -> & Hn & Hsh & Hkn & Hsn & Hnew).
    destruct (nth_frame_list _ _ _ _ _ F1 ltac:(discriminate) Ha) as (oa3 & Ha3 & Ka).
    assert (Hsa3 := shape_kept _ _ _ Ka (wf_list_shape _ _ _ _ (wf_heap _ _ W _ _ Ha))).
    destruct Ka as (_ & KSa & _ & _ & KEa).
    assert (Ta := take_elems _ _ Hsa3). rewrite <- KEa, Hea, <- KSa, Hsa in Ta.
    assert (Hn3 : nth_error (m_heap m3) l = Some (OList n)) by exact Hn.
    pose proof Hsh as [Sh1 Sh2 Sh3].
    eapply runs_deref; [reflexivity | exact Ha3|]. eapply runs_lift_bind; [exact Ta|].
    eapply runs_step.
    { apply (times_loop_runs (Z.to_nat c) E m3 l n xs []); auto. cbn [length]. 
      rewrite <- (concat_repeat_length _ xs (Z.to_nat c)). fold rs. lia. }
    intros _ m4 (d & Ld & Hd & Hz & ->). apply runs_ret.
    cbn [length app Nat.add] in Hd. rewrite <- (concat_repeat_length _ xs (Z.to_nat c)) in Hd. fold rs in Hd.
    change (l, m_epoch m1) with (l, m_epoch m3).
    assert (Wrs : Forall (wf_poly (m_heap m)) rs).
    { apply Forall_concat_repeat. rewrite <- Hea. eapply elems_wf; eauto. }
    destruct Hnew as [Hnew|(Hz' & Hk' & Em)].
    + apply fill_post; auto.
    + assert (W3 : wf E m3) by (apply wf_popped; rewrite Em; exact Wa).
      assert (Hd0 : d = lo_data n).
      { apply Hz. destruct xs as [|x xs']; [left; reflexivity|]. right. rewrite Hrs in Hz'. cbn [length] in Hz'. nia. }
      apply fill_post; auto. right. split; [lia|]. auto.
  - apply runs_ret. destruct Hr as [Hrep Hf].
    split; [apply wf_popped; eapply wf_fresh; eauto|]. split; [exact F1 | exact Hrep].
Qed.

(** * Slices *)
Lemma slice_copy_app : forall A w n pos stride (l r t : list A),
  slice_copy w n pos stride l = Ok r -> slice_copy w n pos stride (l ++ t) = Ok r.
Proof.
  induction n as [|n IH]; intros pos stride l r t H; cbn [slice_copy] in *; [exact H|].
  destruct (nth_error l (Z.to_nat pos)) as [x|] eqn:E; [| discriminate].
  rewrite nth_error_app1 by (eapply nth_error_lt; eauto). rewrite E.
  destruct (slice_copy w n (u_of w (pos + stride)) stride l) as [r'| |] eqn:E'; try discriminate.
  cbn [obind] in H. rewrite (IH _ _ _ _ t E'). exact H.
Qed.

Lemma slice_copy_in : forall A w n pos stride (l r : list A),
  slice_copy w n pos stride l = Ok r -> forall x, In x r -> In x l.
Proof.
  induction n as [|n IH]; intros pos stride l r H x Hx; cbn [slice_copy] in H.
  - injection H as <-. destruct Hx.
  - destruct (nth_error l (Z.to_nat pos)) as [y|] eqn:E; [| discriminate].
    destruct (slice_copy w n (u_of w (pos + stride)) stride l) as [r'| |] eqn:E'; try discriminate.
    injection H as <-. destruct Hx as [<-|Hx]; [eapply nth_error_In; eauto | eapply IH; eauto].
Qed.

Lemma slice_runs : forall E m la k xs s r,
  wf_env E -> wf E m -> room E 2 m ->
  seq_at (m_heap m) la k xs -> 0 <= sl_count s -> fits (e_width E) (sl_count s) ->
  slice_copy (e_width E) (Z.to_nat (sl_count s)) (sl_pos s) (sl_stride s) xs = Ok r ->
  runs (list_slice E (la, m_epoch m) s) m (fun p m' =>
    if readonly k && sl_identity s then p = Some (la, m_epoch m) /\ m' = m
    else new_list_post E m (tuple_if (readonly k)) r p m').
Proof.
  intros E m la k xs s r We W Hroom (oa & Ha & Hka & Hea) Hc0 Hfit Hcopy.
  assert (Hsa := length_elems_of _ _ _ _ _ W Ha Hea).
  assert (Hst : length (m_stack m) = e_stack E) by apply W. unfold room in Hroom.
  unfold list_slice. eapply runs_deref; [reflexivity | exact Ha|]. rewrite Hka.
  destruct (readonly k && sl_identity s); [apply runs_ret; auto|].
  set (ma := pushed (PList la) m).
  assert (Wa : wf E ma) by (apply wf_pushed; [exact W | unfold room; lia | cbn; eauto]).
  apply runs_push_list; [unfold room; lia | reflexivity|]. fold ma.
  assert (Hlr : length r = Z.to_nat (sl_count s)) by (eapply slice_copy_length; eauto).
  assert (Nd : tuple_if (readonly k) <> KDict) by (destruct k; discriminate).
  eapply runs_step; [apply make_runs; auto; unfold room; cbn [ma pushed set_stack m_sp]; lia|].
  intros q m1 [F Hr].
  eapply runs_pop_list; [| exact F |]. { lia. }
  intros F1. set (m3 := popped m1) in *.
  destruct q as [p|].
  - destruct Hr as (Hq & l & n & -> & Hn & Hsh & Hkn & Hsn & Hnew).
    destruct (nth_frame_list _ _ _ _ _ F1 ltac:(discriminate) Ha) as (oa3 & Ha3 & Ka).
    destruct Ka as (_ & KSa & _ & _ & KEa).
    assert (Hn3 : nth_error (m_heap m3) l = Some (OList n)) by exact Hn.
    pose proof Hsh as [Sh1 Sh2 Sh3].
    eapply runs_deref; [reflexivity | exact Ha3|].
    assert (Hcopy3 : slice_copy (e_width E) (Z.to_nat (sl_count s)) (sl_pos s) (sl_stride s) (lo_data oa3) = Ok r).
    { rewrite <- (firstn_skipn (Z.to_nat (lo_size oa3)) (lo_data oa3)). apply slice_copy_app.
      fold (elems oa3). rewrite <- KEa, Hea. exact Hcopy. }
    rewrite Hcopy3.
    eapply runs_deref; [reflexivity | exact Hn3|].
    eapply runs_lift_bind; [apply blit_some; lia|].
    apply runs_assign; [reflexivity | eapply nth_error_lt; eauto|]. apply runs_ret.
    cbn [firstn app Nat.add]. change (l, m_epoch m1) with (l, m_epoch m3).
    apply fill_post; auto.
    + lia.
    + destruct Hnew as [Hnew|(Hz & Hk' & Em)]; [left; exact Hnew|]. right.
      split; [lia|]. split; [exact Hk'|]. split; [apply wf_popped; rewrite Em; exact Wa|].
      assert (r = []) by (apply length_zero_iff_nil; lia). subst r. reflexivity.
    + rewrite app_length, skipn_length. lia.
    + apply firstn_app_exact.
    + assert (Wx := elems_wf _ _ _ _ W Ha). rewrite Hea in Wx. rewrite Forall_forall in *. intros x Hx.
      apply Wx. eapply slice_copy_in; eauto.
  - apply runs_ret. destruct Hr as [Hrep Hf].
    split; [apply wf_popped; eapply wf_fresh; eauto|]. split; [exact F1 | apply (oom_more _ _ _ _ _ Hrep); lia].
Qed.

Lemma skipn_skipn' : forall A a b (l : list A), skipn a (skipn b l) = skipn (a + b) l.
Proof.
  intros A a b. revert a. induction b as [|b IH]; intros a l; [rewrite Nat.add_0_r; reflexivity|].
  rewrite Nat.add_succ_r. destruct l as [|x l]; [rewrite !skipn_nil; reflexivity|]. cbn [skipn]. apply IH.
Qed.

(** * Displays *)
Definition dropped (n : nat) (m : mach) : mach := set_stack (m_stack m) (m_sp m - n) m.

Lemma wf_dropped : forall E n m, wf E m -> wf E (dropped n m).
Proof.
  intros E n m [W1 W2 W3 W4 W5]. split; cbn [dropped set_stack m_heap m_stack m_sp m_empty]; auto; [lia|].
  replace (m_sp m - n)%nat with (Nat.min (m_sp m - n) (m_sp m)) by lia.
  rewrite <- firstn_firstn. apply Forall_firstn. exact W4.
Qed.

(** The top [n] values of the stack, oldest first. *)
Definition top (n : nat) (m : mach) : list poly := skipn (m_sp m - n) (firstn (m_sp m) (m_stack m)).

Lemma firstn_upd_last : forall A n (x : A) d, (n < length d)%nat -> firstn (S n) (upd n x d) = firstn n d ++ [x].
Proof.
  induction n as [|n IH]; intros x [|y d] H; cbn [length] in H; try lia; [reflexivity|].
  cbn [upd]. change (firstn (S (S n)) (y :: upd n x d)) with (y :: firstn (S n) (upd n x d)). rewrite IH by lia. reflexivity.
Qed.

Lemma skipn_upd_before : forall A n (x : A) d k, (n < k)%nat -> skipn k (upd n x d) = skipn k d.
Proof.
  induction n as [|n IH]; intros x [|y d] [|k] H; cbn; try reflexivity; try lia. apply IH. lia.
Qed.

Lemma top_snoc : forall n m v, (S n <= m_sp m <= length (m_stack m))%nat ->
  nth_error (m_stack m) (m_sp m - 1) = Some v ->
  top (S n) m = top n (dropped 1 m) ++ [v].
Proof.
  intros n m v H Hv. unfold top. cbn [dropped set_stack m_sp m_stack].
  set (s := m_sp m) in *. set (st := m_stack m) in *.
  assert (A : firstn s st = firstn (s - 1) st ++ [v]).
  { clearbody s st. destruct s as [|s]; [lia|]. replace (S s - 1)%nat with s in * by lia. clear H n m.
    revert st Hv. induction s as [|s IH]; intros [|y st] Hv; cbn in Hv; try discriminate.
    - injection Hv as ->. reflexivity.
    - change (firstn (S (S s)) (y :: st)) with (y :: firstn (S s) st). rewrite (IH _ Hv). reflexivity. }
  rewrite A, skipn_app, firstn_length.
  replace (s - 1 - n)%nat with (s - S n)%nat by lia.
  replace (s - S n - Nat.min (s - 1) (length st))%nat with 0%nat by lia. reflexivity.
Qed.

Lemma dropped_dropped : forall a b m, dropped a (dropped b m) = dropped (b + a) m.
Proof. intros. unfold dropped, set_stack. cbn. f_equal. lia. Qed.

Lemma list_fill_runs : forall n m l o,
  nth_error (m_heap m) l = Some (OList o) -> (n <= length (lo_data o))%nat ->
  (n <= m_sp m <= length (m_stack m))%nat ->
  runs (list_fill n (l, m_epoch m)) m (fun _ m' =>
    exists d, length d = length (lo_data o) /\ firstn n d = top n m /\ skipn n d = skipn n (lo_data o) /\
      m' = set_heap (upd l (OList (set_data o d)) (m_heap m)) (dropped n m)).
Proof.
  induction n as [|n IH]; intros m l o Ho Hn Hsp; cbn [list_fill].
  - apply runs_ret. exists (lo_data o). repeat split.
    + unfold top. rewrite Nat.sub_0_r. rewrite skipn_all2; [reflexivity | rewrite firstn_length; lia].
    + rewrite set_data_same, upd_same by exact Ho. unfold dropped, set_heap, set_stack. cbn. rewrite Nat.sub_0_r.
      destruct m; reflexivity.
  - destruct (nth_error (m_stack m) (m_sp m - 1)) as [v|] eqn:Ev; [| apply nth_error_None in Ev; lia].
    apply runs_bind. exists v, (dropped 1 m). split.
    { unfold pop. destruct (m_sp m) as [|s] eqn:Es; [lia|]. replace (S s - 1)%nat with s in Ev by lia. rewrite Ev.
      unfold dropped. rewrite Es. replace (S s - 1)%nat with s by lia. reflexivity. }
    unfold store. cbn [fst snd]. eapply runs_eq; [apply bind_assoc|].
    eapply runs_deref; [reflexivity | exact Ho|].
    destruct (Nat.ltb_spec n (length (lo_data o))) as [Hlt|]; [| lia].
    apply runs_assign; [reflexivity | cbn; eapply nth_error_lt; eauto|].
    set (m1 := set_heap _ _). set (o1 := set_data o (upd n v (lo_data o))).
    change (m_epoch m) with (m_epoch m1).
    eapply runs_mono.
    { apply IH with (o := o1).
      - cbn [m1 set_heap m_heap]. apply nth_upd_same. eapply nth_error_lt; eauto.
      - cbn. rewrite upd_length. lia.
      - cbn. lia. }
    intros _ m' (d & Ld & Fd & Sd & ->). cbn [o1 set_data lo_data] in Ld, Sd. rewrite upd_length in Ld.
    exists d. split; [exact Ld|]. split; [| split].
    + rewrite (top_snoc n m v) by (lia || exact Ev).
      replace (top n (dropped 1 m)) with (top n m1) by reflexivity. rewrite <- Fd.
      assert (Hd : nth_error d n = Some v).
      { assert (X : nth_error (skipn n d) 0 = nth_error (skipn n (upd n v (lo_data o))) 0) by (rewrite Sd; reflexivity).
        assert (G : forall A k (z : list A), nth_error (skipn k z) 0 = nth_error z k).
        { clear. induction k; intros [|a z]; auto. cbn [skipn]. apply IHk. }
        rewrite !G in X. rewrite X. apply nth_upd_same. exact Hlt. }
      assert (Hn' : (n < length d)%nat) by lia. clear -Hd Hn'. revert d Hd Hn'.
      induction n as [|n IHn]; intros [|y d] Hd Hn'; cbn [length nth_error] in *; try lia.
      * injection Hd as ->. reflexivity.
      * change (firstn (S (S n)) (y :: d)) with (y :: firstn (S n) d). rewrite IHn by (auto; lia). reflexivity.
    + assert (X := f_equal (skipn 1) Sd). rewrite !skipn_skipn' in X. cbn [Nat.add] in X. rewrite X.
      apply skipn_upd_before. lia.
    + cbn [m1 set_heap m_heap]. rewrite upd_upd. unfold set_heap, dropped, set_stack. cbn. f_equal. lia.
Qed.

Lemma drop_eq : forall n m, (n <= m_sp m)%nat -> drop n m = Some (tt, dropped n m).
Proof. intros. unfold drop. destruct (Nat.leb_spec n (m_sp m)); [reflexivity | lia]. Qed.

Lemma frame_dropped : forall X n m m', frame X m m' -> frame X (dropped n m) (dropped n m').
Proof.
  intros X n m m' [A B C D G P]. split; cbn [dropped set_stack m_heap m_sp m_stack m_empty m_epoch]; auto.
  assert (C' := f_equal (firstn (m_sp m - n)) C). rewrite !firstn_firstn in C'.
  replace (Nat.min (m_sp m - n) (m_sp m)) with (m_sp m - n)%nat in C' by lia. exact C'.
Qed.

Lemma top_frame : forall X n m m', frame X m m' -> top n m' = top n m.
Proof. intros X n m m' F. unfold top. rewrite (fr_sp _ _ _ F), (fr_stack _ _ _ F). reflexivity. Qed.

Lemma top_length : forall E n m, wf E m -> (n <= m_sp m)%nat -> length (top n m) = n.
Proof. intros E n m W H. unfold top. rewrite skipn_length, firstn_length. destruct W. lia. Qed.

Lemma imm_runs : forall E m n k,
  wf_env E -> wf E m -> room E 1 m -> (n <= m_sp m)%nat -> k <> KDict ->
  fits (e_width E) (Z.of_nat n) ->
  runs (list_imm E n k) m (fun r m' =>
    wf E m' /\ frame None (dropped n m) m' /\
    ((r = PNull /\ oom E (Z.of_nat n) m m') \/
     (exists l, r = PList l /\ quiet m m' /\ seq_at (m_heap m') l k (top n m) /\
       ((length (m_heap m) <= l)%nat \/ (k = KTuple /\ n = 0%nat))))).
Proof.
  intros E m n k We W Hroom Hn Hk Hfit. pose proof W as [W1 W2 W3 W4 W5]. unfold list_imm.
  eapply runs_step; [apply make_runs; auto; lia|].
  intros r m1 [F Hr]. assert (Hsp1 : m_sp m1 = m_sp m) by apply F.
  assert (Hst1 : length (m_stack m1) = length (m_stack m)) by apply F.
  destruct r as [p|].
  - destruct Hr as (Hq & l & o & -> & Ho & Hsh & Hko & Hso & Hnew).
    replace (lkind_eqb k KDict) with false by (destruct k; try reflexivity; congruence).
    pose proof Hsh as [Sh1 Sh2 Sh3].
    eapply runs_step.
    { apply list_fill_runs; [exact Ho | lia | lia]. }
    intros _ m2 (d & Ld & Fd & Sd & ->).
    eexists _, _. split. { unfold list_to_poly. cbn [snd fst]. cbn [set_heap dropped set_stack m_epoch]. rewrite Nat.eqb_refl. reflexivity. }
    assert (Ht : top n m1 = top n m) by (eapply top_frame; eauto). rewrite Ht in Fd.
    assert (Lt : length (top n m) = n) by (eapply top_length; eauto).
    assert (Post : new_list_post E (dropped n m) k (top n m) (Some (l, m_epoch (dropped n m1)))
                     (set_heap (upd l (OList (set_data o d)) (m_heap (dropped n m1))) (dropped n m1))).
    { apply fill_post; auto.
      - apply wf_dropped. exact W.
      - apply frame_dropped. exact F.
      - lia.
      - destruct Hnew as [Hnew|(Hz & Hk' & Em)]; [left; exact Hnew|]. right. rewrite Lt.
        split; [lia|]. split; [exact Hk'|]. split; [apply wf_dropped; rewrite Em; exact W|].
        assert (n = 0%nat) by lia. subst n. exact Sd.
      - rewrite Lt. exact Fd.
      - unfold top. apply Forall_skipn. exact W4. }
    destruct Post as (P1 & P2 & P3 & P4 & P5 & P6). split; [exact P1|]. split; [exact P2|]. right. exists l.
    split; [reflexivity|]. split; [exact P3|]. split; [exact P5|].
    destruct P6 as [P6|[P6 P7]]; [left; exact P6|]. right. split; [exact P6|]. rewrite P7 in Lt. cbn in Lt. lia.
  - destruct Hr as [Hrep Hf]. eapply runs_bind. eexists _, _. split; [apply drop_eq; lia|].
    apply runs_ret. split; [apply wf_dropped; eapply wf_fresh; eauto|].
    split; [apply frame_dropped; exact F | left; split; [reflexivity | exact Hrep]].
Qed.

(** * Elements of lists and tuples *)
Lemma get_soffset_runs : forall E p i m, (exists f, p = PNum f /\ float_index (e_width E) f = Ok i) ->
  get_soffset E p m = Some (i, m).
Proof. intros E p i m (f & -> & H). unfold get_soffset, get_float, bind, ret. rewrite H. reflexivity. Qed.

Lemma nth_error_seq : forall n a i, (i < n)%nat -> nth_error (seq a n) i = Some (a + i)%nat.
Proof.
  induction n as [|n IH]; intros a [|i] H; cbn; try lia; [f_equal; lia|]. rewrite IH by lia. f_equal. lia.
Qed.

Lemma py_pos_seq : forall n i, py_index (seq 0 n) i = py_pos n i.
Proof.
  intros n i. unfold py_index, py_pos. rewrite seq_length.
  destruct ((0 <=? i) && (i <? Z.of_nat n)) eqn:A; [rewrite nth_error_seq by lia; reflexivity|].
  destruct ((- Z.of_nat n <=? i) && (i <? 0)) eqn:B; [rewrite nth_error_seq by lia; reflexivity | reflexivity].
Qed.

Lemma py_pos_lt : forall n i o, py_pos n i = Some o -> (o < n)%nat.
Proof.
  intros n i o. unfold py_pos. destruct (_ && _) eqn:A; [intros [= <-]; lia|].
  destruct ((- Z.of_nat n <=? i) && _) eqn:B; [intros [= <-]; lia | discriminate].
Qed.

Lemma py_pos_index : forall A (xs : list A) i,
  py_index xs i = match py_pos (length xs) i with Some o => nth_error xs o | None => None end.
Proof. intros. unfold py_index, py_pos. destruct (_ && _); [reflexivity|]. destruct (_ && _); reflexivity. Qed.

Lemma list_index_pos : forall w ni n i, wbits w <= ni -> Z.of_nat n < 2 ^ wbits w ->
  - 2 ^ (wbits w - 1) < i < 2 ^ (wbits w - 1) ->
  list_index w ni (Z.of_nat n) i = Ok (option_map Z.of_nat (py_pos n i)).
Proof.
  intros w ni n i Hw Hn Hi. destruct (list_index_py w ni (seq 0 n) i Hw) as (r & Hr & Hp & Hnone).
  { rewrite seq_length. exact Hn. } { exact Hi. }
  rewrite seq_length in Hr. rewrite Hr. f_equal. rewrite py_pos_seq in Hp, Hnone.
  destruct r as [z|].
  - assert (Hz : 0 <= z). 
    { unfold list_index in Hr. destruct (i <? 0).
      - unfold obind in Hr. destruct (sint ni (- i)); try discriminate. destruct (_ <=? _); [discriminate|].
        injection Hr as <-. apply Z.mod_pos_bound. apply Z.pow_pos_nonneg; [lia | destruct w; cbn; lia].
      - unfold obind in Hr. destruct (_ <=? _); [discriminate|].
        injection Hr as <-. apply Z.mod_pos_bound. apply Z.pow_pos_nonneg; [lia | destruct w; cbn; lia]. }
    destruct (py_pos n i) as [o|] eqn:Ho.
    + assert (Z.to_nat z < length (seq 0 n))%nat by (apply nth_error_Some; congruence).
      rewrite seq_length in H. rewrite nth_error_seq in Hp by lia. cbn. f_equal. injection Hp as <-. lia.
    + destruct Hnone as [_ X]. specialize (X eq_refl). discriminate.
  - destruct Hnone as [X _]. rewrite (X eq_refl). reflexivity.
Qed.

Lemma ref_list_runs : forall E m l k xs f i report add,
  wf E m -> wf_env E -> wbits (e_width E) <= e_int E -> seq_at (m_heap m) l k xs -> k <> KDict ->
  float_index (e_width E) f = Ok i -> - 2 ^ (wbits (e_width E) - 1) < i < 2 ^ (wbits (e_width E) - 1) ->
  runs (list_ref_ E (l, m_epoch m) (PNum f) report add) m (fun r m' =>
    r = option_map (fun o => ((l, m_epoch m), o)) (py_pos (length xs) i) /\
    match r with
    | Some _ => m' = m
    | None => m' = if report then errored (EValue (PNum f)) m else m
    end).
Proof.
  intros E m l k xs f i report add W We Hw (o & Ho & Hk & He) Nk Hf Hi.
  assert (Hs := length_elems_of _ _ _ _ _ W Ho He).
  unfold list_ref_. eapply runs_deref; [reflexivity | exact Ho|].
  replace (lkind_eqb (lo_kind o) KDict) with false by (rewrite Hk; destruct k; try reflexivity; congruence).
  apply runs_bind. exists i, m. split; [apply get_soffset_runs; eauto|].
  rewrite Hs.
  assert (Hlen : Z.of_nat (length xs) < 2 ^ wbits (e_width E)).
  { destruct (wf_heap _ _ W _ _ Ho) as [A B C _ _ _]. destruct We as (_ & P & _). rewrite <- Hs.
    destruct (e_width E); cbn [wbits]; lia. }
  rewrite list_index_pos by assumption. destruct (py_pos (length xs) i) as [z|]; cbn [option_map].
  - apply runs_ret. rewrite Nat2Z.id. auto.
  - unfold fail_ref. destruct report.
    + apply runs_error, runs_ret. auto.
    + apply runs_bind, runs_ret, runs_ret. auto.
Qed.
