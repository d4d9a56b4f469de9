(** What an operation leaves alone, and preservation of well-formedness. *)
From Verif Require Import Tac Base FloatModel PolyModel ValueModel OrderSpec OrderProofs SliceModel SliceProofs MachModel ListModel MachSpec MachProofs.
Local Open Scope Z_scope.
Open Scope mach_scope.

(** Same object, down to its capacity. *)
Definition obj_kept (a b : obj) : Prop :=
  match a, b with
  | OList x, OList y => lo_kind x = lo_kind y /\ lo_size x = lo_size y /\ lo_alloc x = lo_alloc y /\
                        length (lo_data x) = length (lo_data y) /\ elems x = elems y
  | OStr s, OStr t => s = t
  | OOther, OOther => True
  | _, _ => False
  end.

Lemma obj_kept_refl : forall o, obj_kept o o.
Proof. destruct o; cbn; auto 10. Qed.
Lemma obj_kept_trans : forall a b c, obj_kept a b -> obj_kept b c -> obj_kept a c.
Proof.
  destruct a, b, c; cbn; try tauto; try congruence.
  intros (?&?&?&?&?) (?&?&?&?&?). repeat split; congruence.
Qed.
Lemma obj_kept_same : forall a b, obj_kept a b -> obj_same a b.
Proof. destruct a, b; cbn; tauto. Qed.

Definition kept (X : option loc) (h h' : list obj) : Prop :=
  (length h <= length h')%nat /\
  forall l o, nth_error h l = Some o -> Some l <> X -> exists o', nth_error h' l = Some o' /\ obj_kept o o'.

Lemma kept_refl : forall X h, kept X h h.
Proof. intros X h. split; [lia|]. intros l o H _. exists o. split; [exact H | apply obj_kept_refl]. Qed.

Lemma kept_trans : forall X h1 h2 h3, kept X h1 h2 -> kept X h2 h3 -> kept X h1 h3.
Proof.
  intros X h1 h2 h3 [L1 K1] [L2 K2]. split; [lia|]. intros l o H HX.
  destruct (K1 l o H HX) as (o2 & H2 & R2). destruct (K2 l o2 H2 HX) as (o3 & H3 & R3).
  exists o3. split; [exact H3 | eapply obj_kept_trans; eauto].
Qed.

Lemma kept_weaken : forall X h h', kept None h h' -> kept X h h'.
Proof. intros X h h' [L K]. split; [exact L|]. intros. apply K; [assumption | discriminate]. Qed.

(** An exception beyond the old heap is no exception. *)
Lemma kept_new : forall l h h', kept (Some l) h h' -> (length h <= l)%nat -> kept None h h'.
Proof.
  intros l h h' [L K] Hl. split; [exact L|]. intros l' o H _. apply K; [exact H|].
  intros [= ->]. assert (l < length h)%nat by (apply nth_error_Some; congruence). lia.
Qed.

Lemma kept_others : forall X h h', kept X h h' -> others_kept X h h'.
Proof.
  intros X h h' [L K]. split; [exact L|]. intros l o H HX. destruct (K l o H HX) as (o' & H' & R).
  exists o'. split; [exact H' | apply obj_kept_same; exact R].
Qed.

(** Heaps grow, strings and tuples never change. *)
Definition obj_grows (a b : obj) : Prop :=
  match a, b with
  | OList x, OList y => lo_kind x = lo_kind y /\ (lo_kind x = KTuple -> elems x = elems y)
  | OStr s, OStr t => s = t
  | OOther, OOther => True
  | _, _ => False
  end.
Definition grows (h h' : list obj) : Prop :=
  forall l o, nth_error h l = Some o -> exists o', nth_error h' l = Some o' /\ obj_grows o o'.

Lemma obj_kept_grows : forall a b, obj_kept a b -> obj_grows a b.
Proof. destruct a, b; cbn; tauto. Qed.
Lemma kept_grows : forall h h', kept None h h' -> grows h h'.
Proof.
  intros h h' [_ K] l o H. destruct (K l o H ltac:(discriminate)) as (o' & H' & R).
  exists o'. split; [exact H' | apply obj_kept_grows; exact R].
Qed.
Lemma grows_refl : forall h, grows h h.
Proof. intros h. apply kept_grows, kept_refl. Qed.
Lemma grows_trans : forall a b c, grows a b -> grows b c -> grows a c.
Proof.
  intros a b c H1 H2 l o H. destruct (H1 l o H) as (o1 & E1 & R1). destruct (H2 l o1 E1) as (o2 & E2 & R2).
  exists o2. split; [exact E2|]. destruct o, o1, o2; cbn in *; try tauto; try congruence.
  destruct R1 as [? R1], R2 as [? R2]. split; [congruence|]. intros HT. rewrite R1 by exact HT. apply R2. congruence.
Qed.
Lemma kept_grows_list : forall l h h' o o', kept (Some l) h h' ->
  nth_error h l = Some (OList o) -> nth_error h' l = Some (OList o') ->
  lo_kind o = lo_kind o' -> (lo_kind o = KTuple -> elems o = elems o') -> grows h h'.
Proof.
  intros l h h' o o' [L K] Ho Ho' Hk Ht l' x Hx. destruct (Nat.eq_dec l' l) as [->|N].
  - rewrite Ho in Hx. injection Hx as <-. exists (OList o'). split; [exact Ho' | cbn; auto].
  - destruct (K l' x Hx ltac:(congruence)) as (x' & H' & R). exists x'. split; [exact H' | apply obj_kept_grows; exact R].
Qed.

Lemma wf_poly_grows : forall h h' p, grows h h' -> wf_poly h p -> wf_poly h' p.
Proof.
  intros h h' p G H. destruct p; cbn in *; auto.
  - destruct H as (s & H). destruct (G _ _ H) as ([|t|] & H' & R); cbn in R; try contradiction. eauto.
  - destruct H as (s & H). destruct (G _ _ H) as ([|t|] & H' & R); cbn in R; try contradiction. eauto.
  - destruct (G _ _ H) as ([|t|] & H' & R); cbn in R; try contradiction. exact H'.
Qed.

Lemma tree_grows : forall h h' v p, grows h h' -> frozen v -> tree h p v -> tree h' p v.
Proof.
  intros h h' v p G. revert p. induction v as [f|s|k vs IH|u|u] using value_ind2; intros p F H; try exact H.
  - destruct H as (l & -> & H). destruct (G _ _ H) as ([|t|] & H' & R); cbn in R; try contradiction.
    subst. exists l. auto.
  - apply frozen_seq in F. destruct F as [-> F]. apply tree_seq in H. apply tree_seq.
    destruct H as (l & o & -> & Ho & Hk & Hvs). destruct (G _ _ Ho) as ([o'| |] & H' & R); cbn in R; try contradiction.
    destruct R as [Rk Re]. exists l, o'. repeat split; auto; [congruence|]. rewrite <- Re by exact Hk.
    clear -IH F Hvs. induction Hvs as [|p v ps vs Hpv _ IHH]; constructor; inversion F; inversion IH; subst; auto.
Qed.

Lemma frozen_at_grows : forall h h' p, grows h h' -> frozen_at h p -> frozen_at h' p.
Proof. intros h h' p G (v & H & F). exists v. split; [eapply tree_grows; eauto | exact F]. Qed.

Lemma wf_list_grows : forall E h h' l o o', grows h h' -> obj_kept (OList o) (OList o') ->
  wf_list E h l o -> wf_list E h' l o'.
Proof.
  intros E h h' l o o' G (Hk & Hs & Ha & Hd & He) [W1 W2 W3 W4 W6 W5]. split; try congruence; try lia.
  - rewrite <- He. eapply Forall_impl; [| exact W4]. intros p Hp. eapply wf_poly_grows; eauto.
  - rewrite <- Hk, <- He. exact W6.
  - rewrite <- Hk, <- He. intros K. destruct (W5 K) as [? F]. split; [assumption|].
    eapply Forall_impl; [| exact F]. intros p Hp. eapply frozen_at_grows; eauto.
Qed.

(** * Frames *)
Record frame (X : option loc) (m m' : mach) : Prop := {
  fr_kept : kept X (m_heap m) (m_heap m');
  fr_sp : m_sp m' = m_sp m;
  fr_stack : firstn (m_sp m) (m_stack m') = firstn (m_sp m) (m_stack m);
  fr_slen : length (m_stack m') = length (m_stack m);
  fr_empty : m_empty m' = m_empty m \/
             (m_empty m = None /\ exists l, m_empty m' = Some l /\ (length (m_heap m) <= l)%nat /\
                                            seq_at (m_heap m') l KTuple []);
  fr_epoch : (m_epoch m <= m_epoch m')%nat }.

Lemma frame_refl : forall X m, frame X m m.
Proof. intros. split; auto. apply kept_refl. Qed.

Lemma frame_weaken : forall X m m', frame None m m' -> frame X m m'.
Proof. intros X m m' []. split; auto. apply kept_weaken. assumption. Qed.

Lemma seq_at_kept : forall X h h' l k xs, kept X h h' -> Some l <> X -> seq_at h l k xs -> seq_at h' l k xs.
Proof.
  intros X h h' l k xs [_ K] N (o & Ho & Hk & He). destruct (K _ _ Ho N) as ([o'| |] & H' & R); cbn in R; try contradiction.
  destruct R as (?&?&?&?&?). exists o'. repeat split; congruence.
Qed.

Lemma frame_trans : forall X m1 m2 m3, frame X m1 m2 -> frame X m2 m3 ->
  (forall l, X = Some l -> m_empty m1 = None -> m_empty m2 <> Some l) -> frame X m1 m3.
Proof.
  intros X m1 m2 m3 [K1 S1 T1 L1 E1 P1] [K2 S2 T2 L2 E2 P2] HX. split.
  - eapply kept_trans; eauto.
  - congruence.
  - rewrite S1 in T2. congruence.
  - congruence.
  - destruct E2 as [E2|(E2 & l & E2' & Hl & Hs)].
    + destruct E1 as [E1|(E1 & l & E1' & Hl & Hs)]; [left; congruence|].
      right. split; [exact E1|]. exists l. repeat split; auto; [congruence|].
      eapply seq_at_kept; eauto. intros <-. exact (HX l eq_refl E1 E1').
    + destruct E1 as [E1|(E1 & l' & E1' & _)]; [| congruence].
      right. split; [congruence|]. exists l. repeat split; auto. destruct K1. lia.
  - lia.
Qed.

Lemma frame_trans_none : forall m1 m2 m3, frame None m1 m2 -> frame None m2 m3 -> frame None m1 m3.
Proof. intros. eapply frame_trans; eauto. intros; discriminate. Qed.

(** * Primitive operations *)
Definition pushed (p : poly) (m : mach) : mach := set_stack (upd (m_sp m) p (m_stack m)) (S (m_sp m)) m.
Definition popped (m : mach) : mach := set_stack (m_stack m) (Nat.pred (m_sp m)) m.

Definition stack_ok (E : env) (m : mach) : Prop := length (m_stack m) = e_stack E.

Lemma push_eq : forall E p m, room E 1 m -> push E p m = Some (tt, pushed p m).
Proof. intros E p m R. unfold push, room in *. destruct (Nat.eqb_spec (m_sp m) (e_stack E)); [lia | reflexivity]. Qed.

Lemma pop_pushed : forall X p m m2, (m_sp m < length (m_stack m))%nat -> frame X (pushed p m) m2 ->
  pop m2 = Some (p, popped m2) /\ frame X m (popped m2).
Proof.
  intros X p m m2 Hsp [K S T L E P].
  unfold pushed, set_stack in K, S, T, L, E, P. cbn [m_heap m_sp m_stack m_empty m_epoch] in K, S, T, L, E, P. rewrite upd_length in L.
  assert (N : nth_error (m_stack m2) (m_sp m) = Some p).
  { rewrite <- (nth_error_firstn _ _ (Datatypes.S (m_sp m))) by lia. rewrite T.
    rewrite nth_error_firstn by lia. apply nth_upd_same. exact Hsp. }
  split.
  - unfold pop, popped. rewrite S, N. reflexivity.
  - split; cbn [popped set_stack m_heap m_sp m_stack m_empty m_epoch]; try assumption; try (rewrite S; reflexivity).
    assert (T' := f_equal (firstn (m_sp m)) T). rewrite !firstn_firstn in T'.
    replace (Nat.min (m_sp m) (Datatypes.S (m_sp m))) with (m_sp m) in T' by lia.
    rewrite T'. apply upd_firstn. lia.
Qed.

Lemma runs_push : forall E B p (f : unit -> M B) m Q,
  room E 1 m -> runs (f tt) (pushed p m) Q -> runs (bind (push E p) f) m Q.
Proof. intros E B p f m Q R H. apply runs_bind. exists tt, (pushed p m). split; [apply push_eq; exact R | exact H]. Qed.

Lemma runs_push_list : forall E B l ep (f : unit -> M B) m Q,
  room E 1 m -> ep = m_epoch m -> runs (f tt) (pushed (PList l) m) Q -> runs (bind (push_list E (l, ep)) f) m Q.
Proof.
  intros E B l ep f m Q R -> H. apply runs_bind. exists tt, (pushed (PList l) m). split; [| exact H].
  unfold push_list, bind, list_to_poly. cbn [fst snd]. rewrite Nat.eqb_refl. apply push_eq. exact R.
Qed.

Lemma runs_pop : forall X B p (f : poly -> M B) m m2 Q,
  (m_sp m < length (m_stack m))%nat -> frame X (pushed p m) m2 ->
  (frame X m (popped m2) -> runs (f p) (popped m2) Q) -> runs (bind pop f) m2 Q.
Proof.
  intros X B p f m m2 Q Hsp F H. destruct (pop_pushed _ _ _ _ Hsp F) as [E F'].
  apply runs_bind. exists p, (popped m2). auto.
Qed.

Lemma runs_pop_list : forall X B l (f : ptr -> M B) m m2 Q,
  (m_sp m < length (m_stack m))%nat -> frame X (pushed (PList l) m) m2 ->
  (frame X m (popped m2) -> runs (f (l, m_epoch m2)) (popped m2) Q) -> runs (bind pop_list f) m2 Q.
Proof.
  intros X B l f m m2 Q Hsp F H. destruct (pop_pushed _ _ _ _ Hsp F) as [E F'].
  apply runs_bind. exists (l, m_epoch m2), (popped m2). split; [| auto].
  unfold pop_list, bind. rewrite E. reflexivity.
Qed.

Lemma deref_list_eq : forall l ep m o, ep = m_epoch m -> nth_error (m_heap m) l = Some (OList o) ->
  deref_list (l, ep) m = Some (o, m).
Proof. intros l ep m o -> H. unfold deref_list, deref, bind. cbn [fst snd]. rewrite Nat.eqb_refl, H. reflexivity. Qed.

Lemma runs_deref : forall B l ep o (f : lobj -> M B) m Q,
  ep = m_epoch m -> nth_error (m_heap m) l = Some (OList o) -> runs (f o) m Q ->
  runs (bind (deref_list (l, ep)) f) m Q.
Proof. intros. apply runs_bind. exists o, m. split; [apply deref_list_eq; assumption | assumption]. Qed.

Lemma assign_list_eq : forall l ep m o, ep = m_epoch m -> (l < length (m_heap m))%nat ->
  assign_list (l, ep) o m = Some (tt, set_heap (upd l (OList o) (m_heap m)) m).
Proof.
  intros l ep m o -> H. unfold assign_list, assign_obj. cbn [fst snd]. rewrite Nat.eqb_refl.
  destruct (Nat.ltb_spec l (length (m_heap m))); [reflexivity | lia].
Qed.

Lemma runs_assign : forall B l ep o (f : unit -> M B) m Q,
  ep = m_epoch m -> (l < length (m_heap m))%nat ->
  runs (f tt) (set_heap (upd l (OList o) (m_heap m)) m) Q ->
  runs (bind (assign_list (l, ep) o) f) m Q.
Proof. intros. apply runs_bind. eexists _, _. split; [apply assign_list_eq; assumption | assumption]. Qed.

Lemma kept_upd : forall l o h, kept (Some l) h (upd l o h).
Proof.
  intros. split; [rewrite upd_length; lia|]. intros l' o' H N. exists o'. split; [| apply obj_kept_refl].
  rewrite nth_upd_other by (intros ->; exact (N eq_refl)). exact H.
Qed.

Lemma frame_upd : forall l o m, frame (Some l) m (set_heap (upd l o (m_heap m)) m).
Proof. intros. split; cbn; auto. apply kept_upd. Qed.

Lemma nth_error_lt : forall A (l : list A) i x, nth_error l i = Some x -> (i < length l)%nat.
Proof. intros. apply nth_error_Some. congruence. Qed.

Lemma moved_frame : forall m, (m_sp m <= length (m_stack m))%nat -> frame None m (moved m).
Proof.
  intros m Hsp. split; cbn; auto.
  - split; [rewrite map_length; lia|]. intros l o H _. exists (moved_obj o). split; [apply map_nth_error; exact H|].
    destruct o; cbn; auto. repeat split; try reflexivity.
    + rewrite junk_above_length. reflexivity.
    + unfold elems. cbn. rewrite junk_above_firstn. reflexivity.
  - apply junk_above_firstn.
  - apply junk_above_length.
Qed.

Lemma alloc_runs : forall E size m, (m_sp m <= length (m_stack m))%nat ->
  runs (alloc E size) m (fun r m' =>
    frame None m m' /\ length (m_heap m') = length (m_heap m) /\ m_empty m' = m_empty m /\
    match r with
    | Some b => b = size_round (e_width E) (u_of (e_width E) size) /\ b <= e_pool E /\ quiet m m'
    | None => reported EMemory m m' /\
        ((exists n, e_fail E n = true) \/ e_pool E < size_round (e_width E) (u_of (e_width E) size))
    end).
Proof.
  intros E size m Hsp. unfold runs, alloc.
  set (sz := size_round _ _). set (n := m_nalloc m).
  set (m1 := set_nalloc (S n) (if e_move E n then moved m else m)).
  assert (F : frame None m m1 /\ length (m_heap m1) = length (m_heap m) /\ m_empty m1 = m_empty m /\ quiet m m1).
  { unfold m1. destruct (e_move E n).
    - split; [destruct (moved_frame m Hsp) as [A B C D G P]; split; assumption|].
      repeat split; cbn; apply map_length.
    - split; [split; cbn; auto; apply kept_refl | repeat split]. }
  destruct F as (F & L & Em & [Qa Ql]).
  destruct (e_fail E n || (e_pool E <? sz)) eqn:Ef.
  - unfold error. eexists None, _. split; [reflexivity|].
    assert (Why : (exists n, e_fail E n = true) \/ e_pool E < sz).
    { apply orb_true_iff in Ef. destruct Ef as [Ef|Ef]; [left; eauto | right; lia]. }
    destruct (m_abort m1) eqn:Ea.
    + split; [exact F|]. split; [exact L|]. split; [exact Em|]. unfold reported.
      split; [split; [exact Ea | rewrite <- Qa; exact Ql] | exact Why].
    + split; [destruct F as [A B C D G P]; split; assumption|]. split; [exact L|]. split; [exact Em|].
      split; [| exact Why]. split; [reflexivity|]. rewrite <- Qa, <- Ql. reflexivity.
  - exists (Some sz), m1. split; [reflexivity|]. split; [exact F|]. split; [exact L|]. split; [exact Em|].
    split; [reflexivity|]. split; [| split; assumption].
    apply orb_false_iff in Ef. destruct Ef as [_ Ef]. lia.
Qed.

(** * Arithmetic of sizes *)
Lemma pow_wbits : forall w, 65536 <= 2 ^ wbits w.
Proof. intros []; cbn; lia. Qed.

Lemma size_round_eq : forall w n, 0 <= n -> 4 * n + 3 < 2 ^ wbits w ->
  size_round w (u_of w (u_of w (4 * n))) = 4 * n.
Proof.
  intros w n H0 H. rewrite (u_of_small w (4 * n)) by lia.
  rewrite (u_of_small w (4 * n)) by lia. unfold size_round.
  rewrite (u_of_small w (4 * n + 3)) by lia.
  rewrite u_of_small; [| split].
  - assert ((4 * n + 3) mod 4 = 3). { replace (4 * n + 3) with (3 + n * 4) by lia. rewrite Z_mod_plus_full. reflexivity. }
    lia.
  - pose proof (Z.mod_pos_bound (4 * n + 3) 4). lia.
  - pose proof (Z.mod_pos_bound (4 * n + 3) 4). lia.
Qed.

Lemma list_alloc_eq : forall w n, 0 <= n -> fits w n ->
  n <= list_alloc w n /\ 4 * list_alloc w n + 3 < 2 ^ wbits w /\ list_alloc w n <= n + n / 8 + 6.
Proof.
  intros w n H0 H. unfold fits in H. unfold list_alloc. rewrite Z.shiftr_div_pow2 by lia. change (2 ^ 3) with 8.
  destruct (n <? 9); rewrite u_of_small by lia; lia.
Qed.

(** * Well-formedness from frames *)
Definition fresh_ok (E : env) (m m' : mach) : Prop :=
  length (m_heap m') = length (m_heap m) \/
  (length (m_heap m') = S (length (m_heap m)) /\
   forall o, nth_error (m_heap m') (length (m_heap m)) = Some (OList o) -> wf_list E (m_heap m') (length (m_heap m)) o).

Lemma seq_at_nil_grows : forall h h' l, grows h h' -> seq_at h l KTuple [] -> seq_at h' l KTuple [].
Proof.
  intros h h' l G (o & Ho & Hk & He). destruct (G _ _ Ho) as ([o'| |] & H' & R); cbn in R; try contradiction.
  destruct R as [R1 R2]. exists o'. repeat split; [exact H' | congruence | rewrite <- R2; auto].
Qed.

Lemma wf_fresh : forall E m m', wf E m -> frame None m m' -> fresh_ok E m m' -> wf E m'.
Proof.
  intros E m m' [W1 W2 W3 W4 W5] [K S T L Em P] N.
  assert (G := kept_grows _ _ K). split; try congruence; try lia.
  - intros l o Ho. destruct (le_lt_dec (length (m_heap m)) l) as [Hl|Hl].
    + assert (l < length (m_heap m'))%nat by (eapply nth_error_lt; eauto).
      destruct N as [N|[N N']]; [lia|]. assert (l = length (m_heap m)) by lia. subst l. apply N'. exact Ho.
    + destruct (nth_error (m_heap m) l) as [o0|] eqn:E0; [| apply nth_error_None in E0; lia].
      destruct K as [_ K]. destruct (K l o0 E0 ltac:(discriminate)) as (o1 & E1 & R).
      rewrite Ho in E1. injection E1 as <-. destruct o0 as [o0| |]; cbn in R; try contradiction.
      eapply wf_list_grows; eauto.
  - rewrite S, T. eapply Forall_impl; [| exact W4]. intros p Hp. eapply wf_poly_grows; eauto.
  - intros l Hl. destruct Em as [Em|(_ & l' & El' & _ & Hs)].
    + eapply seq_at_nil_grows; eauto. apply W5. congruence.
    + congruence.
Qed.

Lemma wf_changed : forall E m m' l o o', wf E m -> frame (Some l) m m' ->
  length (m_heap m') = length (m_heap m) ->
  nth_error (m_heap m) l = Some (OList o) -> nth_error (m_heap m') l = Some (OList o') ->
  lo_kind o' = lo_kind o -> lo_kind o <> KTuple ->
  (grows (m_heap m) (m_heap m') -> wf_list E (m_heap m') l o') -> wf E m'.
Proof.
  intros E m m' l o o' [W1 W2 W3 W4 W5] [K S T L Em P] N Ho Ho' Hk Ht Hw.
  assert (G : grows (m_heap m) (m_heap m')) by (eapply kept_grows_list; eauto; tauto).
  specialize (Hw G). split; try congruence; try lia.
  - intros l' x Hx. destruct (Nat.eq_dec l' l) as [->|Hl].
    + assert (x = o') by congruence. subst x. exact Hw.
    + assert (l' < length (m_heap m'))%nat by (eapply nth_error_lt; eauto).
      destruct (nth_error (m_heap m) l') as [o0|] eqn:E0; [| apply nth_error_None in E0; lia].
      destruct K as [_ K]. destruct (K l' o0 E0 ltac:(congruence)) as (o1 & E1 & R).
      rewrite Hx in E1. injection E1 as <-. destruct o0 as [o0| |]; cbn in R; try contradiction.
      eapply wf_list_grows; eauto.
  - rewrite S, T. eapply Forall_impl; [| exact W4]. intros p Hp. eapply wf_poly_grows; eauto.
  - intros l' Hl. destruct Em as [Em|(_ & l0 & El0 & _ & Hs)].
    + eapply seq_at_nil_grows; eauto. apply W5. congruence.
    + congruence.
Qed.

(** * Errors *)
Definition errored (e : emsg) (m : mach) : mach := if m_abort m then m else set_err true (e :: m_log m) m.

Lemma error_eq : forall e m, error e m = Some (tt, errored e m).
Proof. reflexivity. Qed.
Lemma errored_heap : forall e m, m_heap (errored e m) = m_heap m.
Proof. intros. unfold errored. destruct (m_abort m); reflexivity. Qed.
Lemma errored_frame : forall X e m, frame X m (errored e m).
Proof.
  intros. unfold errored. destruct (m_abort m); [apply frame_refl|].
  split; cbn; auto. apply kept_refl.
Qed.
Lemma errored_reported : forall e m, reported e m (errored e m).
Proof.
  intros. unfold errored, reported. destruct (m_abort m) eqn:A; cbn; rewrite ?A; auto.
Qed.
Lemma errored_wf : forall E e m, wf E m -> wf E (errored e m).
Proof.
  intros E e m W. unfold errored. destruct (m_abort m); [exact W|]. destruct W. split; assumption.
Qed.
Lemma runs_error : forall B e (f : unit -> M B) m Q, runs (f tt) (errored e m) Q -> runs (bind (error e) f) m Q.
Proof. intros. apply runs_bind. eexists _, _. split; [apply error_eq | assumption]. Qed.
