(** snek-list.c: lists and tuples (ListModel.v). *)
From Verif Require Import Tac Base FloatModel PolyModel ValueModel OrderSpec OrderProofs SliceModel SliceProofs MachModel ListModel MachSpec MachProofs FrameProofs.
Local Open Scope Z_scope.
Open Scope mach_scope.

(** A list object whose fields agree with its block. *)
Record shape (E : env) (o : lobj) : Prop := {
  sh_size : 0 <= lo_size o <= lo_alloc o;
  sh_data : Z.of_nat (length (lo_data o)) = lo_alloc o;
  sh_pool : 4 * lo_alloc o <= e_pool E }.

Lemma wf_list_shape : forall E h l o, wf_list E h l o -> shape E o.
Proof. intros E h l o []. split; assumption. Qed.

Lemma elems_length : forall E o, shape E o -> Z.of_nat (length (elems o)) = lo_size o.
Proof. intros E o [S D P]. unfold elems. rewrite firstn_length. lia. Qed.

Lemma quiet_refl : forall m, quiet m m.
Proof. split; reflexivity. Qed.
Lemma quiet_trans : forall a b c, quiet a b -> quiet b c -> quiet a c.
Proof. intros a b c [] []. split; congruence. Qed.
Lemma quiet_reported : forall e a b c, quiet a b -> reported e b c -> reported e a c.
Proof. intros e a b c [Q1 Q2] [R1 R2]. split; [exact R1|]. rewrite R2, Q1, Q2. reflexivity. Qed.
Lemma quiet_oom : forall E sz a b c, quiet a b -> oom E sz b c -> oom E sz a c.
Proof. intros E sz a b c Q [R Y]. split; [eapply quiet_reported; eauto | exact Y]. Qed.

Lemma nth_frame_list : forall X m m' l o, frame X m m' -> Some l <> X -> nth_error (m_heap m) l = Some (OList o) ->
  exists o', nth_error (m_heap m') l = Some (OList o') /\ obj_kept (OList o) (OList o').
Proof.
  intros X m m' l o F N H. destruct (fr_kept _ _ _ F) as [_ K]. destruct (K _ _ H N) as ([o'| |] & H' & R); cbn in R; try contradiction.
  exists o'. split; [exact H' | exact R].
Qed.

Lemma shape_kept : forall E o o', obj_kept (OList o) (OList o') -> shape E o -> shape E o'.
Proof. intros E o o' (A & B & C & D & F) []. split; lia. Qed.

Definition resize_post (E : env) (m : mach) (l : loc) (o : lobj) (size : Z) (r : option ptr) (m' : mach) : Prop :=
  length (m_heap m') = length (m_heap m) /\ m_empty m' = m_empty m /\
  match r with
  | None => frame None m m' /\ oom E size m m'
  | Some p => frame (Some l) m m' /\ p = (l, m_epoch m') /\ quiet m m' /\
      exists o', nth_error (m_heap m') l = Some (OList o') /\ shape E o' /\
        lo_kind o' = lo_kind o /\ lo_size o' = size /\
        firstn (Z.to_nat (lo_size o)) (lo_data o') = elems o
  end.

Lemma resize_runs : forall E m l ep o size,
  stack_ok E m -> room E 1 m -> ep = m_epoch m ->
  nth_error (m_heap m) l = Some (OList o) -> shape E o ->
  lo_size o <= size -> fits (e_width E) size ->
  runs (list_resize E (l, ep) size) m (resize_post E m l o size).
Proof.
  intros E m l ep o size Hst Hroom -> Ho Hsh Hsz Hfit. destruct Hsh as [S1 S2 S3].
  unfold list_resize. eapply runs_deref; eauto.
  destruct (Z.leb_spec size (lo_alloc o)) as [Hle|Hgt].
  - apply runs_assign; [reflexivity | eapply nth_error_lt; eauto|].
    apply runs_ret. unfold resize_post. cbn. rewrite upd_length. split; [reflexivity|]. split; [reflexivity|].
    split; [apply frame_upd|]. split; [reflexivity|]. split; [split; reflexivity|].
    exists (set_size o size). rewrite nth_upd_same by (eapply nth_error_lt; eauto).
    repeat split; cbn [set_size lo_kind lo_size lo_alloc lo_data]; try lia.
  - set (al := if readonly (lo_kind o) then size else list_alloc (e_width E) size).
    assert (Hal : size <= al /\ 4 * al + 3 < 2 ^ wbits (e_width E) /\ al <= size + size / 8 + 6).
    { unfold al. destruct (readonly _); [| apply list_alloc_eq; [lia | exact Hfit]].
      unfold fits in Hfit. lia. }
    assert (Hsp : (m_sp m < length (m_stack m))%nat) by (unfold room, stack_ok in *; lia).
    apply runs_push_list; [exact Hroom | reflexivity|].
    eapply runs_step; [apply alloc_runs|].
    { cbn. rewrite upd_length. lia. }
    intros r m1 (F & L & Em & Hr). cbn in L, Em.
    eapply runs_pop_list; [exact Hsp | exact F|]. intros F1.
    destruct r as [b|].
    + destruct Hr as (Hb & Hbp & Hq). replace (al * 4) with (4 * al) in Hb by lia.
      rewrite size_round_eq in Hb by lia. subst b.
      destruct (nth_frame_list _ _ _ _ _ F1 ltac:(discriminate) Ho) as (o1 & Ho1 & K1).
      pose proof K1 as (Kk & Ks & Ka & Kd & Ke).
      eapply runs_deref; [reflexivity | exact Ho1|].
      replace (if lo_size o1 <? size then lo_size o1 else size) with (lo_size o) by (destruct (Z.ltb_spec (lo_size o1) size); lia).
      rewrite Ks. eapply runs_lift_bind; [apply take_some; lia|].
      assert (Hz : length (zero_words (4 * al)) = Z.to_nat al).
      { unfold zero_words. rewrite repeat_length, (Z.mul_comm 4 al), Z.div_mul by lia. reflexivity. }
      assert (He : firstn (Z.to_nat (lo_size o1)) (lo_data o1) = elems o) by (rewrite Ke; reflexivity).
      rewrite He.
      assert (Hl : length (elems o) = Z.to_nat (lo_size o)) by (unfold elems; rewrite firstn_length; lia).
      eapply runs_lift_bind; [apply blit_some; lia|].
      apply runs_assign; [reflexivity | eapply nth_error_lt; eauto|].
      apply runs_ret. unfold resize_post. cbn [set_heap m_heap m_epoch m_empty]. rewrite upd_length.
      split; [exact L|]. split; [exact Em|].
      split. { eapply frame_trans; [apply frame_weaken; exact F1 | apply frame_upd|].
               intros l' [= <-] A B. cbn in B. rewrite Em in B. congruence. }
      split; [reflexivity|]. split; [exact Hq|].
      eexists. split; [apply nth_upd_same; eapply nth_error_lt; eauto|].
      cbn [lo_kind lo_size lo_alloc lo_data firstn app Nat.add].
      split; [split; cbn [lo_kind lo_size lo_alloc lo_data]; try lia|].
      { rewrite app_length, skipn_length, Hz, Hl. lia. }
      split; [congruence|]. split; [reflexivity|].
      rewrite <- Hl. rewrite firstn_app, firstn_all, Nat.sub_diag. cbn [firstn]. apply app_nil_r.
    + apply runs_ret. unfold resize_post. split; [exact L|]. split; [exact Em|]. split; [exact F1|].
      destruct Hr as [Hr Hy]. split; [exact Hr|]. destruct Hy as [Hy|Hy]; [left; exact Hy | right].
      replace (al * 4) with (4 * al) in Hy by lia. rewrite size_round_eq in Hy by lia. lia.
Qed.

Lemma kept_app : forall h x, kept None h (h ++ x).
Proof.
  intros. split; [rewrite app_length; lia|]. intros l o H _. exists o. split; [| apply obj_kept_refl].
  rewrite nth_error_app1; [exact H | eapply nth_error_lt; eauto].
Qed.

Lemma nth_error_last : forall A (l : list A) x, nth_error (l ++ [x]) (length l) = Some x.
Proof. intros. rewrite nth_error_app2 by lia. rewrite Nat.sub_diag. reflexivity. Qed.

Definition head (k : lkind) : lobj := {| lo_kind := k; lo_size := 0; lo_alloc := 0; lo_data := [] |}.

Lemma head_wf : forall E h l k, wf_env E -> wf_list E h l (head k).
Proof.
  intros E h l k (P & _). split; cbn; try lia; try constructor; auto.
  exists 0%nat. reflexivity.
Qed.

Lemma head_alloc_runs : forall E k m, (m_sp m <= length (m_stack m))%nat ->
  runs (head_alloc E k) m (fun r m' =>
    frame None m m' /\ m_empty m' = m_empty m /\
    match r with
    | None => oom E 0 m m' /\ length (m_heap m') = length (m_heap m)
    | Some p => quiet m m' /\ p = (length (m_heap m), m_epoch m') /\
                length (m_heap m') = S (length (m_heap m)) /\
                nth_error (m_heap m') (length (m_heap m)) = Some (OList (head k))
    end).
Proof.
  intros E k m Hsp. unfold head_alloc. eapply runs_step; [apply alloc_runs; exact Hsp|].
  intros [b|] m1 (F & L & Em & Hr).
  - apply runs_bind. eexists _, _. split; [reflexivity|]. apply runs_ret.
    destruct Hr as (_ & _ & Hq).
    split. { destruct F as [A B C D G P]. split; cbn; try assumption.
      - eapply kept_trans; [exact A | apply kept_app].
      - left. exact Em. }
    split; [exact Em|]. split; [exact Hq|]. cbn [set_heap m_heap m_epoch]. rewrite L. split; [reflexivity|].
    split; [rewrite app_length; cbn; lia|]. rewrite <- L. apply nth_error_last.
  - apply runs_ret. destruct Hr as [Hr Hy]. split; [exact F|]. split; [exact Em|]. split; [| exact L].
    split; [exact Hr|]. destruct Hy as [Hy|Hy]; [left; exact Hy | right].
    unfold sizeof_list in Hy. destruct (e_width E); cbn in Hy; lia.
Qed.

Lemma oom_more : forall E a b m m', oom E a m m' -> a <= b -> oom E b m m'.
Proof. intros E a b m m' [R [Y|Y]] H; split; auto. right. lia. Qed.

Definition make_post (E : env) (m : mach) (size : Z) (k : lkind) (r : option ptr) (m' : mach) : Prop :=
  frame None m m' /\
  match r with
  | None => oom E size m m' /\ fresh_ok E m m'
  | Some p => quiet m m' /\ exists l o', p = (l, m_epoch m') /\ nth_error (m_heap m') l = Some (OList o') /\
      shape E o' /\ lo_kind o' = k /\ lo_size o' = size /\
      ((l = length (m_heap m) /\ length (m_heap m') = S (length (m_heap m))) \/
       (size = 0 /\ k = KTuple /\ m' = m))
  end.

Lemma frame_set_empty : forall m m' l, frame None m m' -> m_empty m = None -> (length (m_heap m) <= l)%nat ->
  seq_at (m_heap m') l KTuple [] -> frame None m (set_empty (Some l) m').
Proof.
  intros m m' l [A B C D G P] Em Hl Hs. split; cbn; try assumption. right. split; [exact Em|]. exists l. auto.
Qed.

Lemma make_runs : forall E size k m, wf_env E -> wf E m -> room E 1 m -> 0 <= size -> fits (e_width E) size ->
  runs (list_make E size k) m (make_post E m size k).
Proof.
  intros E size k m We W Hroom H0 Hfit. pose proof W as [W1 W2 W3 W4 W5]. unfold list_make.
  destruct ((size =? 0) && readonly k) eqn:Ez.
  - apply andb_prop in Ez. destruct Ez as [Ez Ek]. assert (size = 0) by lia. subst size.
    assert (k = KTuple) by (destruct k; try discriminate; reflexivity). subst k.
    destruct (m_empty m) as [l|] eqn:Em.
    + destruct (W5 l eq_refl) as (o & Ho & Hk & He).
      eexists _, _. split; [rewrite Em; reflexivity|]. split; [apply frame_refl|]. split; [apply quiet_refl|].
      exists l, o. assert (Hsh := wf_list_shape _ _ _ _ (W1 _ _ Ho)).
      repeat split; auto; try apply Hsh. pose proof (elems_length _ _ Hsh) as X. rewrite He in X. cbn in X. lia.
    + destruct (head_alloc_runs E KTuple m ltac:(lia)) as (r & m1 & Hr & F & Em1 & Hp).
      eexists _, _. split; [rewrite Em; unfold bind; rewrite Hr; reflexivity|].
      destruct r as [p|].
      * destruct Hp as (Hq & -> & L & Hn).
        assert (Hs : seq_at (m_heap m1) (length (m_heap m)) KTuple []) by (eexists; split; [exact Hn|split; reflexivity]).
        split; [apply frame_set_empty; auto|].
        split; [exact Hq|]. exists (length (m_heap m)), (head KTuple).
        split; [reflexivity|]. split; [exact Hn|]. split; [destruct We as (P & _); split; cbn; lia|].
        split; [reflexivity|]. split; [reflexivity|]. left. split; [reflexivity | exact L].
      * destruct Hp as (Hrep & L). split.
        { destruct F as [A B C D G P]. split; cbn; try assumption. left. symmetry. exact Em. }
        split; [exact Hrep|]. left. exact L.
  - eapply runs_step; [apply head_alloc_runs; lia|].
    intros [p|] m1 (F & Em & Hp).
    + destruct Hp as (Hq & -> & L & Hn). pose proof F as [A B C D G P].
      eapply runs_mono.
      { eapply resize_runs; eauto.
        - unfold stack_ok. congruence.
        - unfold room in *. lia.
        - destruct We as (P' & _). split; cbn; lia. }
      intros r m2 (L2 & Em2 & Hr). destruct r as [p|].
      * destruct Hr as (F2 & -> & Hq2 & o' & Ho' & Hsh & Hk & Hs & _).
        assert (F3 : frame (Some (length (m_heap m))) m m2).
        { eapply frame_trans; [apply frame_weaken; exact F | exact F2 |].
          intros l [= <-] E1 E2. rewrite Em, E1 in E2. discriminate. }
        split. { destruct F3 as [A3 B3 C3 D3 G3 P3]. split; try assumption. eapply kept_new; [exact A3 | lia]. }
        split; [eapply quiet_trans; eauto|].
        exists (length (m_heap m)), o'. repeat split; auto; try apply Hsh. left. split; [reflexivity | congruence].
      * destruct Hr as (F2 & Hrep). split; [eapply frame_trans_none; eauto|].
        split; [eapply quiet_oom; eauto|]. right. split; [congruence|].
        intros o Ho. destruct (nth_frame_list _ _ _ _ _ F2 ltac:(discriminate) Hn) as (o2 & Ho2 & K2).
        assert (o2 = o) by congruence. subst o2.
        eapply wf_list_grows; [| exact K2 | apply head_wf; exact We]. apply kept_grows. apply F2.
    + apply runs_ret. destruct Hp as (Hrep & L). split; [exact F|]. split; [eapply oom_more; [exact Hrep | lia]|]. left. exact L.
Qed.

(** Popping what was pushed two deep. *)
Lemma frame_popped : forall X p m m2, (m_sp m < length (m_stack m))%nat -> frame X (pushed p m) m2 -> frame X m (popped m2).
Proof. intros. eapply pop_pushed; eauto. Qed.

Lemma wf_pushed : forall E p m, wf E m -> room E 1 m -> wf_poly (m_heap m) p -> wf E (pushed p m).
Proof.
  intros E p m [W1 W2 W3 W4 W5] R Hp. unfold room in R. split; cbn [pushed set_stack m_heap m_stack m_sp m_empty]; auto.
  - rewrite upd_length. exact W2.
  - lia.
  - assert (H : firstn (S (m_sp m)) (upd (m_sp m) p (m_stack m)) = firstn (m_sp m) (m_stack m) ++ [p]).
    { assert (Hl : (m_sp m < length (m_stack m))%nat) by lia. clear -Hl. revert Hl. generalize (m_stack m) as s, (m_sp m) as n.
      induction s as [|x s IH]; intros [|n] Hl; cbn [length] in Hl; try lia; [reflexivity|].
      cbn [upd]. change (firstn (S (S n)) (x :: upd n p s)) with (x :: firstn (S n) (upd n p s)).
      rewrite IH by lia. reflexivity. }
    rewrite H. apply Forall_app. split; [exact W4 | constructor; [exact Hp | constructor]].
Qed.

Lemma wf_popped : forall E m, wf E m -> wf E (popped m).
Proof.
  intros E m [W1 W2 W3 W4 W5]. split; cbn [popped set_stack m_heap m_stack m_sp m_empty]; auto; [lia|].
  replace (Nat.pred (m_sp m)) with (Nat.min (Nat.pred (m_sp m)) (m_sp m)) by lia.
  rewrite <- firstn_firstn. apply Forall_firstn. exact W4.
Qed.

Lemma elems_wf : forall E m l o, wf E m -> nth_error (m_heap m) l = Some (OList o) -> Forall (wf_poly (m_heap m)) (elems o).
Proof. intros E m l o W H. destruct (wf_heap _ _ W _ _ H). assumption. Qed.

(** A list whose [lo_size] elements have all been written. *)
Lemma elems_full : forall E o d xs, shape E o -> length d = length (lo_data o) ->
  lo_size o = Z.of_nat (length xs) -> firstn (length xs) d = xs -> elems (set_data o d) = xs.
Proof. intros E o d xs S Hd Hs Hx. unfold elems, set_data. cbn. rewrite Hs, Nat2Z.id. exact Hx. Qed.

Lemma shape_set_data : forall E o d, shape E o -> length d = length (lo_data o) -> shape E (set_data o d).
Proof. intros E o d [A B C] H. split; cbn [set_data lo_size lo_alloc lo_data]; lia. Qed.

Lemma firstn_app_exact : forall A (a b : list A), firstn (length a) (a ++ b) = a.
Proof. intros. rewrite firstn_app, firstn_all, Nat.sub_diag. cbn. apply app_nil_r. Qed.

Lemma seq_at_elems : forall h l k xs, seq_at h l k xs -> exists o, nth_error h l = Some (OList o) /\ lo_kind o = k /\ elems o = xs.
Proof. auto. Qed.

Lemma wf_list_new : forall E h l o, shape E o -> lo_kind o <> KDict -> Forall (wf_poly h) (elems o) ->
  (lo_kind o = KTuple -> Forall (older l) (elems o)) -> wf_list E h l o.
Proof. intros E h l o [A B C] K F T. split; auto. contradiction. Qed.

Lemma wf_older : forall h p, wf_poly h p -> older (length h) p.
Proof.
  intros h p H. destruct p; cbn in *; auto; try destruct H as (x & H); apply nth_error_Some; congruence.
Qed.

Lemma Forall_wf_grows : forall h h' xs, grows h h' -> Forall (wf_poly h) xs -> Forall (wf_poly h') xs.
Proof. intros h h' xs G. apply Forall_impl. intros p. apply wf_poly_grows. exact G. Qed.

Lemma length_elems_of : forall E m l o xs, wf E m -> nth_error (m_heap m) l = Some (OList o) -> elems o = xs ->
  lo_size o = Z.of_nat (length xs).
Proof. intros E m l o xs W H <-. symmetry. apply elems_length with E. eapply wf_list_shape, wf_heap; eauto. Qed.

(** What a list-building operation ends with: a new list with elements [xs],
    or the error report. *)
Definition new_list_post (E : env) (m : mach) (k : lkind) (xs : list poly) (r : option ptr) (m' : mach) : Prop :=
  wf E m' /\ frame None m m' /\
  match r with
  | None => oom E (Z.of_nat (length xs)) m m'
  | Some p => quiet m m' /\ snd p = m_epoch m' /\ seq_at (m_heap m') (fst p) k xs /\
              ((length (m_heap m) <= fst p)%nat \/ (k = KTuple /\ xs = []))
  end.

Lemma upd_upd : forall A n (x y : A) l, upd n x (upd n y l) = upd n x l.
Proof. intros A n x y l. revert n. induction l as [|z l IH]; intros [|n]; cbn; try reflexivity. f_equal. apply IH. Qed.

Lemma upd_same : forall A n (x : A) l, nth_error l n = Some x -> upd n x l = l.
Proof.
  intros A n x l. revert n. induction l as [|z l IH]; intros [|n] H; cbn in *; try discriminate; [congruence|].
  f_equal. apply IH. exact H.
Qed.

Lemma frame_fill : forall m m1 l n n', frame None m m1 -> (length (m_heap m) <= l)%nat ->
  nth_error (m_heap m1) l = Some (OList n) -> lo_kind n' = lo_kind n -> lo_size n' = lo_size n ->
  length (lo_data n') = length (lo_data n) ->
  frame None m (set_heap (upd l (OList n') (m_heap m1)) m1).
Proof.
  intros m m1 l n n' [A B C D G P] Hl Hn Hk Hs Hd. split; cbn [set_heap m_heap m_sp m_stack m_empty m_epoch]; try assumption.
  - apply kept_new with l; [| exact Hl]. eapply kept_trans; [apply kept_weaken; exact A | apply kept_upd].
  - destruct G as [G|(G & l' & G' & Hl' & o & Ho & Ho1 & Ho2)]; [left; exact G|]. right. split; [exact G|].
    exists l'. split; [exact G'|]. split; [exact Hl'|]. destruct (Nat.eq_dec l' l) as [->|N].
    + assert (o = n) by congruence. subst o. exists n'.
      rewrite nth_upd_same by (eapply nth_error_lt; eauto). split; [reflexivity|]. split; [congruence|].
      unfold elems in *. rewrite Hs. apply length_zero_iff_nil. apply (f_equal (@length poly)) in Ho2.
      rewrite firstn_length in *. cbn in Ho2. lia.
    + exists o. rewrite nth_upd_other by congruence. auto.
Qed.

Lemma set_data_same : forall o, set_data o (lo_data o) = o.
Proof. destruct o; reflexivity. Qed.

(** Filling the list that snek_list_make returned. *)
Lemma fill_post : forall E m m3 l n k xs d,
  wf_env E -> wf E m -> frame None m m3 -> quiet m m3 -> k <> KDict ->
  nth_error (m_heap m3) l = Some (OList n) -> shape E n -> lo_kind n = k -> lo_size n = Z.of_nat (length xs) ->
  ((l = length (m_heap m) /\ length (m_heap m3) = S (length (m_heap m))) \/
   (length xs = 0%nat /\ k = KTuple /\ wf E m3 /\ d = lo_data n)) ->
  length d = length (lo_data n) -> firstn (length xs) d = xs -> Forall (wf_poly (m_heap m)) xs ->
  new_list_post E m k xs (Some (l, m_epoch m3)) (set_heap (upd l (OList (set_data n d)) (m_heap m3)) m3).
Proof.
  intros E m m3 l n k xs d We W F Q Hk Hn Hsh Hkn Hsn Hnew Hd Hx Hwf. unfold new_list_post. cbn [fst snd].
  assert (Hlt : (l < length (m_heap m3))%nat) by (eapply nth_error_lt; eauto).
  assert (He : elems (set_data n d) = xs) by (eapply elems_full; eauto).
  assert (Hs : seq_at (m_heap (set_heap (upd l (OList (set_data n d)) (m_heap m3)) m3)) l k xs).
  { exists (set_data n d). cbn [set_heap m_heap]. rewrite nth_upd_same by exact Hlt. auto. }
  destruct Hnew as [[-> HL]|(Hz & -> & W3 & ->)].
  - assert (F' : frame None m (set_heap (upd (length (m_heap m)) (OList (set_data n d)) (m_heap m3)) m3))
      by (eapply frame_fill; eauto).
    split; [| split; [exact F' | split; [exact Q | split; [reflexivity | split; [exact Hs | left; lia]]]]].
    eapply wf_fresh; [exact W | exact F'|]. right. cbn [set_heap m_heap]. rewrite upd_length. split; [exact HL|].
    rewrite nth_upd_same by exact Hlt. intros o [= <-]. apply wf_list_new.
    + apply shape_set_data; assumption.
    + exact (eq_ind_r (fun z => z <> KDict) Hk Hkn).
    + rewrite He. eapply Forall_wf_grows; [| exact Hwf]. apply kept_grows. apply F'.
    + intros _. rewrite He. eapply Forall_impl; [| exact Hwf]. apply wf_older.
  - rewrite set_data_same, upd_same by exact Hn.
    assert (Em3 : set_heap (m_heap m3) m3 = m3) by (destruct m3; reflexivity). rewrite Em3.
    split; [exact W3|]. split; [exact F|]. split; [exact Q|]. split; [reflexivity|].
    split; [| right; split; [reflexivity | apply length_zero_iff_nil; exact Hz]].
    exists n. rewrite set_data_same in He. auto.
Qed.

Lemma blit_nil : forall A off (d : list A), (off <= length d)%nat -> blit off [] d = Some d.
Proof.
  intros. rewrite blit_some by (cbn; lia). cbn [app length]. rewrite Nat.add_0_r, firstn_skipn. reflexivity.
Qed.

Lemma take_elems : forall E o, shape E o -> take (Z.to_nat (lo_size o)) (lo_data o) = Some (elems o).
Proof. intros E o [A B C]. apply take_some. lia. Qed.

Lemma plus_runs : forall E m la lb k xs ys,
  wf_env E -> wf E m -> room E 3 m -> k <> KDict ->
  seq_at (m_heap m) la k xs -> seq_at (m_heap m) lb k ys ->
  fits (e_width E) (Z.of_nat (length (xs ++ ys))) ->
  runs (list_plus E (la, m_epoch m) (lb, m_epoch m)) m (new_list_post E m k (xs ++ ys)).
Proof.
  intros E m la lb k xs ys We W Hroom Hk (oa & Ha & Hka & Hea) (ob & Hb & Hkb & Heb) Hfit.
  assert (Hsa := length_elems_of _ _ _ _ _ W Ha Hea). assert (Hsb := length_elems_of _ _ _ _ _ W Hb Heb).
  assert (Hst : length (m_stack m) = e_stack E) by apply W. unfold room in Hroom.
  set (ma := pushed (PList la) m). set (mb := pushed (PList lb) ma).
  assert (Wa : wf E ma) by (apply wf_pushed; [exact W | unfold room; lia | cbn; eauto]).
  assert (Wb : wf E mb).
  { apply wf_pushed; [exact Wa | unfold room; cbn [ma pushed set_stack m_sp]; lia | cbn; eauto]. }
  unfold list_plus.
  apply runs_push_list; [unfold room; lia | reflexivity|]. fold ma.
  apply runs_push_list; [unfold room; cbn [ma pushed set_stack m_sp]; lia | reflexivity|]. fold mb.
  eapply runs_deref; [reflexivity | exact Ha|]. eapply runs_deref; [reflexivity | exact Hb|].
  rewrite Hsa, Hsb, <- Nat2Z.inj_add, <- app_length.
  assert (Hnw : u_of (e_width E) (Z.of_nat (length (xs ++ ys))) = Z.of_nat (length (xs ++ ys))).
  { apply u_of_small. unfold fits in Hfit. lia. }
  rewrite Hnw, Hka.
  eapply runs_step; [apply make_runs; auto; [unfold room; cbn [mb ma pushed set_stack m_sp]; lia | lia]|].
  intros r m1 [F Hr].
  eapply runs_pop_list; [| exact F |]. { cbn [ma pushed set_stack m_sp m_stack]. rewrite upd_length. lia. }
  intros F1. set (m2 := popped m1) in *.
  eapply runs_pop_list; [| exact F1 |]. { lia. }
  intros F2. set (m3 := popped m2) in *. change (m_epoch m2) with (m_epoch m1).
  destruct r as [p|].
  - destruct Hr as (Hq & l & n & -> & Hn & Hsh & Hkn & Hsn & Hnew).
    destruct (nth_frame_list _ _ _ _ _ F2 ltac:(discriminate) Ha) as (oa3 & Ha3 & Ka).
    destruct (nth_frame_list _ _ _ _ _ F2 ltac:(discriminate) Hb) as (ob3 & Hb3 & Kb).
    assert (Hsa3 := shape_kept _ _ _ Ka (wf_list_shape _ _ _ _ (wf_heap _ _ W _ _ Ha))).
    assert (Hsb3 := shape_kept _ _ _ Kb (wf_list_shape _ _ _ _ (wf_heap _ _ W _ _ Hb))).
    destruct Ka as (_ & KSa & _ & _ & KEa). destruct Kb as (_ & KSb & _ & _ & KEb).
    assert (Hla : (la < length (m_heap m))%nat) by (eapply nth_error_lt; eauto).
    assert (Hlb : (lb < length (m_heap m))%nat) by (eapply nth_error_lt; eauto).
    assert (Hn3 : nth_error (m_heap m3) l = Some (OList n)) by exact Hn.
    pose proof Hsh as [Sh1 Sh2 Sh3]. rewrite app_length in Hsn.
    assert (Ta := take_elems _ _ Hsa3). assert (Tb := take_elems _ _ Hsb3).
    rewrite <- KEa, Hea in Ta. rewrite <- KEb, Heb in Tb.
    eapply runs_deref; [reflexivity | exact Ha3|]. eapply runs_lift_bind; [exact Ta|].
    eapply runs_deref; [reflexivity | exact Hn3|].
    assert (D1 : exists d1, blit 0 xs (lo_data n) = Some d1 /\ length d1 = length (lo_data n) /\
                            firstn (length xs) d1 = xs /\ (xs = [] -> d1 = lo_data n)).
    { eexists. split; [apply blit_some; lia|]. cbn [firstn app Nat.add].
      split; [rewrite app_length, skipn_length; lia|]. split; [apply firstn_app_exact | intros ->; reflexivity]. }
    destruct D1 as (d1 & B1 & L1 & X1 & Z1).
    eapply runs_lift_bind; [exact B1|].
    apply runs_assign; [reflexivity | eapply nth_error_lt; eauto|].
    set (m4 := set_heap (upd l (OList (set_data n d1)) (m_heap m3)) m3).
    assert (Hn4 : nth_error (m_heap m4) l = Some (OList (set_data n d1))).
    { cbn [m4 set_heap m_heap]. apply nth_upd_same. eapply nth_error_lt; eauto. }
    assert (Hab4 : exists oa4 ob4, nth_error (m_heap m4) la = Some (OList oa4) /\ lo_size oa4 = lo_size oa /\
                                   nth_error (m_heap m4) lb = Some (OList ob4) /\ lo_size ob4 = lo_size ob /\
                                   take (Z.to_nat (lo_size ob4)) (lo_data ob4) = Some ys).
    { destruct Hnew as [[-> _]|(Hz & -> & Em)].
      - exists oa3, ob3. cbn [m4 set_heap m_heap].
        change (length (m_heap mb)) with (length (m_heap m)).
        rewrite !nth_upd_other by lia. repeat split; auto.
      - rewrite app_length in Hz. assert (Hxn : xs = []) by (apply length_zero_iff_nil; lia).
        assert (Em4 : m_heap m4 = m_heap m3).
        { cbn [m4 set_heap m_heap]. rewrite Z1 by exact Hxn. rewrite set_data_same. apply upd_same. exact Hn3. }
        exists oa3, ob3. rewrite Em4. repeat split; auto. }
    destruct Hab4 as (oa4 & ob4 & Ha4 & Sa4 & Hb4 & Sb4 & T4).
    eapply runs_deref; [reflexivity | exact Ha4|].
    eapply runs_deref; [reflexivity | exact Hb4|].
    eapply runs_lift_bind; [exact T4|].
    eapply runs_deref; [reflexivity | exact Hn4|].
    cbn [set_data lo_data lo_kind lo_size lo_alloc].
    replace (Z.to_nat (lo_size oa4)) with (length xs) by lia.
    assert (D2 : exists d2, blit (length xs) ys d1 = Some d2 /\ length d2 = length (lo_data n) /\
                            firstn (length (xs ++ ys)) d2 = xs ++ ys /\ (length (xs ++ ys) = 0%nat -> d2 = lo_data n)).
    { eexists. split; [apply blit_some; lia|].
      split; [rewrite !app_length, skipn_length, firstn_length; lia|].
      rewrite X1. split; [rewrite app_assoc; apply firstn_app_exact|].
      rewrite app_length. intros Hz. assert (xs = []) by (apply length_zero_iff_nil; lia).
      assert (ys = []) by (apply length_zero_iff_nil; lia). rewrite H, H0. cbn. auto. }
    destruct D2 as (d2 & B2 & L2 & X2 & Z2).
    eapply runs_lift_bind; [exact B2|].
    apply runs_assign; [reflexivity | eapply nth_error_lt; eauto|].
    apply runs_ret. cbn [m4 set_heap m_heap]. rewrite upd_upd.
    change (set_data (set_data n d1) d2) with (set_data n d2).
    change (set_heap (upd l (OList (set_data n d2)) (m_heap m3)) m4) with (set_heap (upd l (OList (set_data n d2)) (m_heap m3)) m3).
    change (l, m_epoch m1) with (l, m_epoch m3).
    apply fill_post; auto.
    + rewrite app_length. exact Hsn.
    + destruct Hnew as [Hnew|(Hz & Hk' & Em)]; [left; exact Hnew|]. right.
      split; [lia|]. split; [exact Hk'|]. split; [apply wf_popped, wf_popped; rewrite Em; exact Wb | apply Z2; lia].
    + apply Forall_app. split; [rewrite <- Hea | rewrite <- Heb]; eapply elems_wf; eauto.
  - apply runs_ret. destruct Hr as [Hrep Hf].
    split; [apply wf_popped, wf_popped; eapply wf_fresh; eauto|]. split; [exact F2 | exact Hrep].
Qed.

(** What an in-place operation on [l] ends with. *)
Definition inplace_post (E : env) (m : mach) (l : loc) (k : lkind) (xs : list poly) (r : option ptr) (m' : mach) : Prop :=
  wf E m' /\ length (m_heap m') = length (m_heap m) /\
  match r with
  | None => frame None m m' /\ oom E (Z.of_nat (length xs)) m m'
  | Some p => frame (Some l) m m' /\ quiet m m' /\ p = (l, m_epoch m') /\ seq_at (m_heap m') l k xs
  end.

Lemma not_empty_tuple : forall E m l o, wf E m -> nth_error (m_heap m) l = Some (OList o) -> lo_kind o <> KTuple ->
  m_empty m <> Some l.
Proof. intros E m l o W Ho Hk H. destruct (wf_empty _ _ W _ H) as (o' & Ho' & Hk' & _). congruence. Qed.

Lemma frame_upd_after : forall m m1 l o, frame (Some l) m m1 -> m_empty m1 = m_empty m -> frame (Some l) m (set_heap (upd l o (m_heap m1)) m1).
Proof.
  intros m m1 l o [A B C D G P] Em. split; cbn [set_heap m_heap m_sp m_stack m_empty m_epoch]; try assumption.
  - eapply kept_trans; [exact A | apply kept_upd].
  - left. exact Em.
Qed.

Lemma append_runs : forall E m la lb xs ys,
  wf_env E -> wf E m -> room E 2 m ->
  seq_at (m_heap m) la KList xs -> seq_at (m_heap m) lb KList ys ->
  fits (e_width E) (Z.of_nat (length (xs ++ ys))) ->
  runs (list_append E (la, m_epoch m) (lb, m_epoch m)) m (inplace_post E m la KList (xs ++ ys)).
Proof.
  intros E m la lb xs ys We W Hroom (oa & Ha & Hka & Hea) (ob & Hb & Hkb & Heb) Hfit.
  assert (Hsa := length_elems_of _ _ _ _ _ W Ha Hea). assert (Hsb := length_elems_of _ _ _ _ _ W Hb Heb).
  assert (Hst : length (m_stack m) = e_stack E) by apply W. unfold room in Hroom.
  assert (Sa := wf_list_shape _ _ _ _ (wf_heap _ _ W _ _ Ha)). assert (Sb := wf_list_shape _ _ _ _ (wf_heap _ _ W _ _ Hb)).
  assert (Hnw : u_of (e_width E) (Z.of_nat (length (xs ++ ys))) = Z.of_nat (length (xs ++ ys))).
  { apply u_of_small. unfold fits in Hfit. lia. }
  assert (Wxy : Forall (wf_poly (m_heap m)) (xs ++ ys)).
  { apply Forall_app. split; [rewrite <- Hea | rewrite <- Heb]; eapply elems_wf; eauto. }
  assert (Nt : lo_kind oa <> KTuple) by congruence.
  (* the end, common to both cases *)
  assert (End : forall m3 o' o'' ,
    frame (Some la) m m3 -> m_empty m3 = m_empty m -> length (m_heap m3) = length (m_heap m) -> quiet m m3 ->
    nth_error (m_heap m3) la = Some (OList o') -> shape E o' -> lo_kind o' = KList ->
    lo_size o' = Z.of_nat (length (xs ++ ys)) -> firstn (length xs) (lo_data o') = xs ->
    nth_error (m_heap m3) lb = Some (OList o'') -> take (length ys) (lo_data o'') = Some ys ->
    runs (let* ao := deref_list (lb, m_epoch m3) in
          let* src := lift (take (Z.to_nat (Z.of_nat (length ys))) (lo_data ao)) in
          let* lo := deref_list (la, m_epoch m3) in
          let* d := lift (blit (Z.to_nat (Z.of_nat (length xs))) src (lo_data lo)) in
          assign_list (la, m_epoch m3) (set_data lo d);; ret (Some (la, m_epoch m3))) m3
         (inplace_post E m la KList (xs ++ ys))).
  { intros m3 o' o'' F3 Em3 L3 Q3 Ho' So' Hk' Hs' Hf' Ho'' Ht''. pose proof So' as [P1 P2 P3]. rewrite !Nat2Z.id.
    rewrite app_length in Hs'.
    eapply runs_deref; [reflexivity | exact Ho''|]. eapply runs_lift_bind; [exact Ht''|].
    eapply runs_deref; [reflexivity | exact Ho'|]. eapply runs_lift_bind; [apply blit_some; lia|].
    apply runs_assign; [reflexivity | eapply nth_error_lt; eauto|]. apply runs_ret.
    rewrite Hf'. set (d := xs ++ ys ++ skipn (length xs + length ys) (lo_data o')).
    assert (Ld : length d = length (lo_data o')) by (unfold d; rewrite !app_length, skipn_length; lia).
    assert (He : elems (set_data o' d) = xs ++ ys).
    { eapply elems_full; eauto; [rewrite app_length; exact Hs'|]. unfold d. rewrite app_assoc. apply firstn_app_exact. }
    assert (F4 := frame_upd_after m m3 la (OList (set_data o' d)) F3 Em3).
    assert (N4 : nth_error (upd la (OList (set_data o' d)) (m_heap m3)) la = Some (OList (set_data o' d)))
      by (apply nth_upd_same; eapply nth_error_lt; eauto).
    unfold inplace_post. cbn [set_heap m_heap]. rewrite upd_length.
    split. { eapply wf_changed; [exact W | exact F4 | cbn [set_heap m_heap]; rewrite upd_length; exact L3 | exact Ha | exact N4 | | exact Nt |].
      - cbn. congruence.
      - intros G. cbn [set_heap m_heap] in *. apply wf_list_new; [apply shape_set_data; assumption | cbn; congruence | | cbn; congruence].
        rewrite He. eapply Forall_wf_grows; eauto. }
    split; [exact L3|]. split; [exact F4|]. split; [exact Q3|]. split; [reflexivity|].
    exists (set_data o' d). split; [exact N4|]. auto. }
  unfold list_append.
  eapply runs_deref; [reflexivity | exact Ha|]. eapply runs_deref; [reflexivity | exact Hb|].
  rewrite Hsa, Hsb, <- Nat2Z.inj_add, <- app_length, Hnw.
  unfold ptr_eqb. cbn [fst snd]. rewrite Nat.eqb_refl, andb_true_r.
  destruct (Nat.eqb_spec lb la) as [->|Nab].
  - assert (ob = oa) by congruence. subst ob. assert (ys = xs) by congruence. subst ys.
    eapply runs_bind. apply runs_ret.
    eapply runs_step.
    { eapply resize_runs; eauto; [unfold room; lia | rewrite app_length; lia]. }
    intros r m1 (L & Em & Hr). apply runs_bind, runs_ret. destruct r as [p|].
    + destruct Hr as (F & -> & Hq & o' & Ho' & So' & Hk' & Hs' & Hf').
      apply runs_bind, runs_ret.
      assert (Hf2 : firstn (length xs) (lo_data o') = xs) by (rewrite Hsa, Nat2Z.id in Hf'; congruence).
      eapply End with (o' := o') (o'' := o'); eauto; [congruence|].
      rewrite take_some; [congruence|]. destruct So'. rewrite app_length in Hs'. lia.
    + destruct Hr as (F & Hrep). apply runs_ret. split; [| split; auto].
      eapply wf_fresh; [exact W | exact F | left; exact L].
  - apply runs_push_list; [unfold room; lia | reflexivity|].
    set (mb := pushed (PList lb) m).
    eapply runs_step.
    { eapply resize_runs with (m := mb); eauto.
      - unfold stack_ok. cbn. rewrite upd_length. exact Hst.
      - unfold room. cbn. lia.
      - rewrite app_length. lia. }
    intros r m1 (L & Em & Hr). rewrite Hsa, Nat2Z.id in Hr.
    assert (F0 : frame (Some la) mb m1) by (destruct r; [apply Hr | apply frame_weaken; apply Hr]).
    eapply runs_eq; [apply bind_assoc|].
    eapply runs_pop_list; [| exact F0 |]. { lia. }
    intros F1. apply runs_bind, runs_ret.
    destruct r as [p|].
    + destruct Hr as (F & -> & Hq & o' & Ho' & So' & Hk' & Hs' & Hf').
      apply runs_bind, runs_ret.
      assert (Nab' : Some lb <> Some la) by congruence.
      destruct (nth_frame_list _ _ _ _ _ F1 Nab' Hb) as (ob' & Hb' & K).
      assert (Sb' := shape_kept _ _ _ K Sb). destruct K as (_ & KS & _ & _ & KE).
      change (m_epoch m1) with (m_epoch (popped m1)).
      eapply End with (o' := o') (o'' := ob'); eauto; [congruence | congruence|].
      assert (T := take_elems _ _ Sb'). rewrite <- KS, <- KE, Hsb, Nat2Z.id, Heb in T. exact T.
    + destruct Hr as (F & Hrep). apply runs_ret.
      assert (F2 : frame None m (popped m1)) by (eapply frame_popped; [| exact F]; lia).
      split; [| split; auto]. eapply wf_fresh; [exact W | exact F2 | left; exact L].
Qed.

Lemma times_loop_runs : forall count E m l n src pre,
  nth_error (m_heap m) l = Some (OList n) -> shape E n ->
  (length pre + count * length src <= length (lo_data n))%nat -> firstn (length pre) (lo_data n) = pre ->
  runs (times_loop count (length pre) src (l, m_epoch m)) m (fun _ m' =>
    exists d, length d = length (lo_data n) /\
      firstn (length pre + count * length src) d = pre ++ concat (repeat src count) /\
      (src = [] \/ count = 0%nat -> d = lo_data n) /\
      m' = set_heap (upd l (OList (set_data n d)) (m_heap m)) m).
Proof.
  induction count as [|count IH]; intros E m l n src pre Hn Hsh Hlen Hpre; cbn [times_loop].
  - apply runs_ret. exists (lo_data n). split; [reflexivity|]. cbn [repeat concat Nat.mul]. rewrite Nat.add_0_r, app_nil_r.
    split; [exact Hpre|]. split; [auto|]. rewrite set_data_same, upd_same by exact Hn. destruct m; reflexivity.
  - cbn [Nat.mul] in Hlen. eapply runs_deref; [reflexivity | exact Hn|].
    eapply runs_lift_bind; [apply blit_some; lia|].
    apply runs_assign; [reflexivity | eapply nth_error_lt; eauto|].
    rewrite Hpre. set (d1 := pre ++ src ++ skipn (length pre + length src) (lo_data n)).
    assert (L1 : length d1 = length (lo_data n)) by (unfold d1; rewrite !app_length, skipn_length; lia).
    set (m1 := set_heap (upd l (OList (set_data n d1)) (m_heap m)) m).
    assert (Hlt : (l < length (m_heap m))%nat) by (eapply nth_error_lt; eauto).
    rewrite <- app_length. change (m_epoch m) with (m_epoch m1).
    eapply runs_mono.
    { apply IH with (E := E) (n := set_data n d1).
      - cbn [m1 set_heap m_heap]. apply nth_upd_same. exact Hlt.
      - apply shape_set_data; assumption.
      - cbn [set_data lo_data]. rewrite app_length. lia.
      - cbn [set_data lo_data]. unfold d1. rewrite app_assoc. apply firstn_app_exact. }
    intros _ m' (d & Ld & Hd & Hz & ->). exists d. cbn [set_data lo_data] in Ld.
    split; [congruence|]. split.
    + rewrite app_length in Hd. cbn [Nat.mul repeat concat]. rewrite Nat.add_assoc, Hd, app_assoc. reflexivity.
    + split; [| cbn [m1 set_heap m_heap]; rewrite upd_upd; reflexivity].
      intros [->|]; [| discriminate]. rewrite Hz by (left; reflexivity). cbn [set_data lo_data]. unfold d1. cbn [app length].
      rewrite Nat.add_0_r, <- Hpre at 1. 
      rewrite <- Hpre at 1. rewrite firstn_length.
      replace (Nat.min (length pre) (length (lo_data n))) with (length pre) by lia. apply firstn_skipn.
Qed.
