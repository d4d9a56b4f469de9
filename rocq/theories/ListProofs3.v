(** snek-list.c: element assignment and deletion in lists (ListModel.v). *)
From Verif Require Import Tac Base FloatModel PolyModel ValueModel OrderSpec OrderProofs SliceModel SliceSpec SliceProofs MachModel ListModel MachSpec ListSpec MachProofs FrameProofs ListProofs ListProofs2.
Local Open Scope Z_scope.
Open Scope mach_scope.

(** Writing through a list of the same kind and length. *)
Lemma wf_replaced : forall E m m' l o o', wf E m -> frame (Some l) m m' -> length (m_heap m') = length (m_heap m) ->
  nth_error (m_heap m) l = Some (OList o) -> nth_error (m_heap m') l = Some (OList o') ->
  lo_kind o = KList -> lo_kind o' = KList -> shape E o' -> Forall (wf_poly (m_heap m)) (elems o') -> wf E m'.
Proof.
  intros E m m' l o o' W F L Ho Ho' K K' S Hw.
  eapply wf_changed; eauto; try congruence. intros G. apply wf_list_new; try congruence.
  eapply Forall_wf_grows; eauto.
Qed.

Lemma store_list_runs : forall E m l xs j v,
  wf E m -> seq_at (m_heap m) l KList xs -> (j < length xs)%nat -> wf_poly (m_heap m) v ->
  runs (store ((l, m_epoch m), j) v) m (fun _ m' =>
    wf E m' /\ frame (Some l) m m' /\ length (m_heap m') = length (m_heap m) /\ quiet m m' /\
    seq_at (m_heap m') l KList (upd j v xs)).
Proof.
  intros E m l xs j v W (o & Ho & Hk & He) Hj Hv.
  assert (Hs := length_elems_of _ _ _ _ _ W Ho He).
  assert (Sh := wf_list_shape _ _ _ _ (wf_heap _ _ W _ _ Ho)). pose proof Sh as [S1 S2 S3].
  assert (Hlt : (l < length (m_heap m))%nat) by (eapply nth_error_lt; eauto).
  unfold store. cbn [fst snd]. eapply runs_deref; [reflexivity | exact Ho|].
  destruct (Nat.ltb_spec j (length (lo_data o))); [| lia].
  apply runs_bind_ret. apply runs_assign; [reflexivity | exact Hlt|]. apply runs_ret.
  set (o' := set_data o (upd j v (lo_data o))).
  assert (Hn : nth_error (upd l (OList o') (m_heap m)) l = Some (OList o')) by (apply nth_upd_same; exact Hlt).
  assert (He' : elems o' = upd j v xs).
  { unfold elems, o'. cbn [set_data lo_size lo_data]. rewrite firstn_upd_in by lia. f_equal. exact He. }
  assert (Sh' : shape E o') by (apply shape_set_data; [exact Sh | apply upd_length]).
  assert (F := frame_upd l (OList o') m). assert (L : length (upd l (OList o') (m_heap m)) = length (m_heap m)) by apply upd_length.
  split; [| split; [exact F | split; [exact L | split; [split; reflexivity|]]]].
  - eapply wf_replaced; eauto. rewrite He'. apply Forall_upd; [| exact Hv]. rewrite <- He. eapply elems_wf; eauto.
  - exists o'. auto.
Qed.

(** What an operation with an index on the list at [l] ends with: the elements
    become [f j], or the index is rejected. *)
Definition indexed_post (E : env) (m : mach) (l : loc) (p : poly) (pos : option nat) (f : nat -> list poly) (m' : mach) : Prop :=
  match pos with
  | Some j => wf E m' /\ frame (Some l) m m' /\ length (m_heap m') = length (m_heap m) /\ quiet m m' /\
              seq_at (m_heap m') l KList (f j)
  | None => m' = errored (EValue p) m
  end.

Lemma assign_list_runs : forall E m l xs f i v,
  wf E m -> wf_env E -> wbits (e_width E) <= e_int E -> seq_at (m_heap m) l KList xs -> denotes E f i ->
  wf_poly (m_heap m) v ->
  runs (elem_assign E (PList l) (PNum f) v) m (fun _ m' =>
    indexed_post E m l (PNum f) (py_pos (length xs) i) (fun j => upd j v xs) m').
Proof.
  intros E m l xs f i v W We Hw Hs [Hf Hi] Hv. pose proof Hs as (o & Ho & Hk & He).
  unfold elem_assign, poly_to_list. eapply runs_bind. exists (l, m_epoch m), m. split; [reflexivity|].
  eapply runs_deref; [reflexivity | exact Ho|]. rewrite Hk. change (readonly KList) with false. cbv iota.
  eapply runs_step; [eapply ref_list_runs with (report := true) (add := true); eauto; discriminate|].
  intros r m1 [-> Hr]. destruct (py_pos (length xs) i) as [j|] eqn:Ej; cbn [option_map indexed_post] in *; subst m1.
  - apply store_list_runs; auto. eapply py_pos_lt; eauto.
  - apply runs_ret. reflexivity.
Qed.

Lemma del_list_runs : forall E m l xs f i,
  wf E m -> wf_env E -> wbits (e_width E) <= e_int E -> seq_at (m_heap m) l KList xs -> denotes E f i ->
  runs (elem_del E (PList l) (PNum f)) m (fun _ m' =>
    indexed_post E m l (PNum f) (py_pos (length xs) i) (fun j => firstn j xs ++ skipn (S j) xs) m').
Proof.
  intros E m l xs f i W We Hw Hs [Hf Hi]. pose proof Hs as (o & Ho & Hk & He).
  unfold elem_del, list_del, hold, poly_to_list. eapply runs_bind. eexists _, m. split; [reflexivity|].
  eapply runs_bind. exists (l, m_epoch m), m. split; [reflexivity|].
  eapply runs_step; [eapply ref_list_runs with (report := true) (add := true); eauto; discriminate|].
  intros r m1 [-> Hr]. destruct (py_pos (length xs) i) as [j|] eqn:Ej; cbn [option_map indexed_post] in *; subst m1.
  2: { apply runs_ret. reflexivity. }
  apply py_pos_lt in Ej. assert (Hsz := length_elems_of _ _ _ _ _ W Ho He).
  assert (Sh := wf_list_shape _ _ _ _ (wf_heap _ _ W _ _ Ho)). pose proof Sh as [S1 S2 S3].
  assert (Hlt : (l < length (m_heap m))%nat) by (eapply nth_error_lt; eauto).
  assert (Hp : 4 * lo_alloc o <= 2 ^ wbits (e_width E)).
  { destruct We as (_ & P & _). destruct (e_width E); cbn [wbits]; lia. }
  eapply runs_deref; [reflexivity | exact Ho|]. rewrite Hk.
  eapply runs_deref; [reflexivity | exact Ho|].
  rewrite (u_of_small _ (lo_size o - Z.of_nat j)) by lia.
  assert (Hsk : skipn (j + 1) (lo_data o) = skipn (S j) xs ++ skipn (length xs) (lo_data o)).
  { rewrite <- (firstn_skipn (length xs) (lo_data o)) at 1. unfold elems in He. rewrite Hsz, Nat2Z.id in He. rewrite He.
    rewrite skipn_app. replace (j + 1)%nat with (S j) by lia. replace (S j - length xs)%nat with 0%nat by lia. reflexivity. }
  assert (Hsrc : take (Z.to_nat (lo_size o - Z.of_nat j) - 1) (skipn (j + 1) (lo_data o)) = Some (skipn (S j) xs)).
  { rewrite take_some by (rewrite skipn_length; lia). f_equal. rewrite Hsk.
    replace (Z.to_nat (lo_size o - Z.of_nat j) - 1)%nat with (length (skipn (S j) xs)) by (rewrite skipn_length; lia).
    apply firstn_app_exact. }
  eapply runs_lift_bind; [exact Hsrc|].
  eapply runs_lift_bind; [apply blit_some; rewrite skipn_length; lia|].
  set (d := firstn j (lo_data o) ++ skipn (S j) xs ++ skipn (j + length (skipn (S j) xs)) (lo_data o)).
  assert (Ld : length d = length (lo_data o)).
  { unfold d. rewrite !app_length, !skipn_length, firstn_length. lia. }
  apply runs_assign; [reflexivity | exact Hlt|].
  set (m1 := set_heap _ _).
  assert (Ho1 : nth_error (m_heap m1) l = Some (OList (set_data o d))) by (apply nth_upd_same; exact Hlt).
  eapply runs_deref; [reflexivity | exact Ho1|].
  apply runs_bind_ret. apply runs_assign; [reflexivity | eapply nth_error_lt; eauto|]. apply runs_ret.
  cbn [m1 set_heap m_heap set_data lo_size]. rewrite upd_upd. change (Z.of_nat 1) with 1.
  rewrite (u_of_small _ (lo_size o - 1)) by lia.
  set (o' := set_size (set_data o d) (lo_size o - 1)).
  change (set_heap (upd l (OList o') (m_heap m)) m1) with (set_heap (upd l (OList o') (m_heap m)) m).
  assert (He' : elems o' = firstn j xs ++ skipn (S j) xs).
  { unfold elems, o'. cbn [set_size set_data lo_size lo_data]. unfold d. rewrite app_assoc.
    replace (firstn j (lo_data o)) with (firstn j xs).
    2: { rewrite <- He. unfold elems. rewrite firstn_firstn. f_equal. lia. }
    replace (Z.to_nat (lo_size o - 1)) with (length (firstn j xs ++ skipn (S j) xs)).
    2: { rewrite app_length, firstn_length, skipn_length. lia. }
    apply firstn_app_exact. }
  assert (Sh' : shape E o').
  { split; cbn [o' set_size set_data lo_size lo_data lo_alloc]; lia. }
  assert (Hn : nth_error (upd l (OList o') (m_heap m)) l = Some (OList o')) by (apply nth_upd_same; exact Hlt).
  assert (F := frame_upd l (OList o') m). assert (L : length (upd l (OList o') (m_heap m)) = length (m_heap m)) by apply upd_length.
  split; [| split; [exact F | split; [exact L | split; [split; reflexivity|]]]].
  - eapply wf_replaced; eauto. rewrite He'. rewrite <- He. apply Forall_app.
    split; [apply Forall_firstn | apply Forall_skipn]; eapply elems_wf; eauto.
  - exists o'. auto.
Qed.

(** * Histories *)
Section WithEnv.
Variable E : env.

(** The calls made for an operation; snek-exec.c 352-356 for += *)
Definition exec_lop (op : lop) : M unit :=
  match op with
  | LSet l f _ v => elem_assign E (PList l) (PNum f) v
  | LAdd l l' => let* a := here l in let* b := here l' in list_append E a b;; ret tt
  | LDel l f _ => elem_del E (PList l) (PNum f)
  end.
(** Execution stops at the first error (snek-exec.c 763). *)
Fixpoint exec_lops (ops : list lop) : M unit :=
  match ops with
  | [] => ret tt
  | op :: ops' => exec_lop op;; fun m => if m_abort m then Some (tt, m) else exec_lops ops' m
  end.
End WithEnv.

Lemma roomy_fits : forall E m la lb ka kb xs ys, wf_env E -> roomy E -> wf E m ->
  seq_at (m_heap m) la ka xs -> seq_at (m_heap m) lb kb ys ->
  fits (e_width E) (Z.of_nat (length (xs ++ ys))).
Proof.
  intros E m la lb ka kb xs ys (P0 & P & _) R W (oa & Ha & _ & Ea) (ob & Hb & _ & Eb).
  assert (Sa := length_elems_of _ _ _ _ _ W Ha Ea). assert (Sb := length_elems_of _ _ _ _ _ W Hb Eb).
  destruct (wf_list_shape _ _ _ _ (wf_heap _ _ W _ _ Ha)). destruct (wf_list_shape _ _ _ _ (wf_heap _ _ W _ _ Hb)).
  rewrite app_length. unfold fits. destruct R as [R|R].
  - rewrite R in *. cbn [wbits]. lia.
  - pose proof (pow_wbits (e_width E)). lia.
Qed.

Lemma set_nth_upd : forall A (xs : list A) j v, (j < length xs)%nat -> upd j v xs = set_nth j v xs.
Proof.
  unfold set_nth. induction xs as [|x xs IH]; intros [|j] v H; cbn [length] in H; try lia; [reflexivity|].
  cbn [upd firstn skipn app]. f_equal. apply IH. lia.
Qed.

Lemma only_lists_refl : forall h, only_lists h h.
Proof.
  intros h. split; [reflexivity|]. intros l o H. exists o. split; [exact H|].
  destruct o as [x| |]; try apply obj_kept_same, obj_kept_refl. destruct (lo_kind x) eqn:K; try (cbn; auto; fail). eauto.
Qed.
Lemma obj_same_trans : forall a b c, obj_same a b -> obj_same b c -> obj_same a c.
Proof. destruct a, b, c; cbn; try tauto; try congruence. intros [] []. split; congruence. Qed.
Lemma only_lists_trans : forall a b c, only_lists a b -> only_lists b c -> only_lists a c.
Proof.
  intros a b c [L1 H1] [L2 H2]. split; [congruence|]. intros l o H. destruct (H1 l o H) as (o1 & E1 & R1).
  destruct (H2 l o1 E1) as (o2 & E2 & R2). exists o2. split; [exact E2|].
  destruct o as [x| |].
  - destruct (lo_kind x) eqn:K.
    + destruct R1 as (y & -> & Ky). rewrite Ky in R2. exact R2.
    + destruct o1 as [y| |]; cbn in R1; try contradiction. destruct R1 as [K1 E1']. rewrite K in K1. rewrite <- K1 in R2.
      eapply obj_same_trans; [| exact R2]. cbn. split; congruence.
    + destruct o1 as [y| |]; cbn in R1; try contradiction. destruct R1 as [K1 E1']. rewrite K in K1. rewrite <- K1 in R2.
      eapply obj_same_trans; [| exact R2]. cbn. split; congruence.
  - destruct o1 as [y| |]; cbn in R1; try contradiction. subst. exact R2.
  - destruct o1 as [y| |]; cbn in R1; try contradiction. exact R2.
Qed.

Lemma kept_only_lists : forall X l h h' xs ys, kept X h h' -> X = Some l \/ X = None -> length h' = length h ->
  seq_at h l KList xs -> seq_at h' l KList ys -> only_lists h h'.
Proof.
  intros X l h h' xs ys [_ K] HX L (o & Ho & Hk & _) (o' & Ho' & Hk' & _). split; [exact L|]. intros l' x Hx.
  destruct (Nat.eq_dec l' l) as [->|N].
  - exists (OList o'). split; [exact Ho'|]. rewrite Ho in Hx. injection Hx as <-. rewrite Hk. eauto.
  - assert (NX : Some l' <> X) by (destruct HX as [-> | ->]; congruence).
    destruct (K l' x Hx NX) as (x' & Hx' & R). exists x'. split; [exact Hx'|].
    destruct x as [x| |]; try (apply obj_kept_same; exact R).
    destruct x' as [x'| |]; cbn in R; try contradiction. destruct R as (R1 & _ & _ & _ & R2).
    destruct (lo_kind x) eqn:Kx; cbn; auto; [eauto | |]; split; congruence.
Qed.

Lemma seq_at_fun : forall h l k xs k' ys, seq_at h l k xs -> seq_at h l k' ys -> k = k' /\ xs = ys.
Proof. intros h l k xs k' ys (o & Ho & <- & <-) (o' & Ho' & <- & <-). rewrite Ho in Ho'. injection Ho' as <-. auto. Qed.

Lemma seq_at_back : forall X h h' l k xs, kept X h h' -> length h' = length h -> Some l <> X -> seq_at h' l k xs -> seq_at h l k xs.
Proof.
  intros X h h' l k xs [_ K] L N (o & Ho & Hk & He).
  assert (l < length h')%nat by (eapply nth_error_lt; eauto).
  destruct (nth_error h l) as [x|] eqn:Hx; [| apply nth_error_None in Hx; lia].
  destruct (K l x Hx N) as (x' & Hx' & R). rewrite Ho in Hx'. injection Hx' as <-.
  destruct x as [x| |]; cbn in R; try contradiction. destruct R as (R1 & _ & _ & _ & R2). exists x. repeat split; congruence.
Qed.

Lemma shows_put : forall h h' l s ys, kept (Some l) h h' -> length h' = length h -> shows h s ->
  seq_at h' l KList ys -> shows h' (put s l ys).
Proof.
  intros h h' l s ys K L S H l' xs H'. unfold put. destruct (Nat.eqb_spec l' l) as [->|N].
  - destruct (seq_at_fun _ _ _ _ _ _ H H') as [_ <-]. reflexivity.
  - apply S. eapply seq_at_back; eauto. congruence.
Qed.
Lemma shows_kept : forall h h' s, kept None h h' -> length h' = length h -> shows h s -> shows h' s.
Proof. intros h h' s K L S l xs H. apply S. eapply seq_at_back; eauto. discriminate. Qed.

(** One operation. *)
Lemma exec_lop_runs : forall E m s op,
  wf E m -> wf_env E -> roomy E -> wbits (e_width E) <= e_int E -> room E 2 m -> shows (m_heap m) s ->
  lop_ok E (m_heap m) op ->
  runs (exec_lop E op) m (fun _ m' =>
    wf E m' /\ stack_kept m m' /\ only_lists (m_heap m) (m_heap m') /\
    ((exists s', lstep s op = Some s' /\ shows (m_heap m') s' /\ quiet m m') \/
     (shows (m_heap m') s /\
      (out_of_memory E s op m m' \/ exists e, lstep s op = None /\ bad_index op = Some e /\ reported e m m')))).
Proof.
  intros E m s op W We R Hw Hroom Hs Hop. destruct op as [l f i v|l l'|l f i]; cbn [lop_ok exec_lop] in *.
  - destruct Hop as ((xs & Hx) & Hi & Hv). assert (Hsl := Hs _ _ Hx).
    eapply runs_mono; [eapply assign_list_runs; eauto|]. cbv beta. intros _ m' Hp. unfold indexed_post in Hp.
    cbn [lstep bad_index]. rewrite Hsl. destruct (py_pos (length xs) i) as [j|] eqn:Ej.
    + destruct Hp as (W' & F & L & Q & Hx'). split; [exact W'|]. split; [split; apply F|].
      split. { eapply kept_only_lists; [apply F | | exact L | exact Hx | exact Hx']; auto. }
      left. eexists. split; [reflexivity|]. split; [| exact Q]. eapply shows_put; eauto; [apply F|].
      rewrite <- set_nth_upd by (eapply py_pos_lt; eauto). exact Hx'.
    + subst m'. assert (F := errored_frame None (EValue (PNum f)) m). rewrite errored_heap.
      split; [apply errored_wf; exact W|]. split; [split; apply F|]. split; [apply only_lists_refl|].
      right. split; [exact Hs|]. right. eexists. split; [reflexivity|]. split; [reflexivity | apply errored_reported].
  - destruct Hop as ((xs & Hx) & (ys & Hy)). assert (Hsx := Hs _ _ Hx). assert (Hsy := Hs _ _ Hy).
    eapply runs_bind. exists (l, m_epoch m), m. split; [reflexivity|].
    eapply runs_bind. exists (l', m_epoch m), m. split; [reflexivity|].
    eapply runs_step; [eapply append_runs; eauto; eapply roomy_fits; eauto|].
    intros r m' (W' & L & Hr). apply runs_ret. split; [exact W'|]. destruct r as [p|].
    + destruct Hr as (F & Q & _ & Hx'). split; [split; apply F|]. split. { eapply kept_only_lists; [apply F | | exact L | exact Hx | exact Hx']; auto. }
      left. eexists. split; [reflexivity|]. split; [| exact Q]. rewrite Hsx, Hsy. eapply shows_put; eauto. apply F.
    + destruct Hr as (F & Hrep). split; [split; apply F|]. assert (Hx' := seq_at_kept _ _ _ _ _ _ (fr_kept _ _ _ F) ltac:(discriminate) Hx).
      split. { eapply kept_only_lists; [apply F | | exact L | exact Hx | exact Hx']; auto. }
      right. split; [| left; cbn; rewrite Hsx, Hsy; exact Hrep]. eapply shows_kept; eauto. apply F.
  - destruct Hop as ((xs & Hx) & Hi). assert (Hsl := Hs _ _ Hx).
    eapply runs_mono; [eapply del_list_runs; eauto|]. cbv beta. intros _ m' Hp. unfold indexed_post in Hp.
    cbn [lstep bad_index]. rewrite Hsl. destruct (py_pos (length xs) i) as [j|] eqn:Ej.
    + destruct Hp as (W' & F & L & Q & Hx'). split; [exact W'|]. split; [split; apply F|].
      split. { eapply kept_only_lists; [apply F | | exact L | exact Hx | exact Hx']; auto. }
      left. eexists. split; [reflexivity|]. split; [| exact Q]. eapply shows_put; eauto. apply F.
    + subst m'. assert (F := errored_frame None (EValue (PNum f)) m). rewrite errored_heap.
      split; [apply errored_wf; exact W|]. split; [split; apply F|]. split; [apply only_lists_refl|].
      right. split; [exact Hs|]. right. eexists. split; [reflexivity|]. split; [reflexivity | apply errored_reported].
Qed.

Lemma only_lists_seq : forall h h' l, only_lists h h' -> (exists xs, seq_at h l KList xs) -> exists xs, seq_at h' l KList xs.
Proof.
  intros h h' l [_ K] (xs & o & Ho & Hk & _). destruct (K _ _ Ho) as (o' & Ho' & R). rewrite Hk in R.
  destruct R as (y & -> & Ky). exists (elems y), y. auto.
Qed.

Lemma only_lists_wf_poly : forall h h' p, only_lists h h' -> wf_poly h p -> wf_poly h' p.
Proof.
  intros h h' p [_ K] H. destruct p; cbn in *; auto.
  - destruct H as (s & H). destruct (K _ _ H) as ([|t|] & H' & R); cbn in R; try contradiction. eauto.
  - destruct H as (o & H). destruct (K _ _ H) as (o' & H' & R). destruct (lo_kind o).
    + destruct R as (y & -> & _). eauto.
    + destruct o'; cbn in R; try contradiction. eauto.
    + destruct o'; cbn in R; try contradiction. eauto.
  - destruct (K _ _ H) as ([|t|] & H' & R); cbn in R; try contradiction. exact H'.
Qed.

Lemma only_lists_ok : forall E h h' op, only_lists h h' -> lop_ok E h op -> lop_ok E h' op.
Proof.
  intros E h h' [l f i v|l l'|l f i] K; cbn; intuition eauto using only_lists_seq, only_lists_wf_poly.
Qed.

(** A whole history: the first [n] operations take effect, all of them unless
    an error is reported at the next. *)
Lemma exec_lops_runs : forall E ops m s,
  wf E m -> wf_env E -> roomy E -> wbits (e_width E) <= e_int E -> room E 2 m -> shows (m_heap m) s ->
  m_abort m = false -> Forall (lop_ok E (m_heap m)) ops ->
  runs (exec_lops E ops) m (fun _ m' =>
    wf E m' /\ stack_kept m m' /\ only_lists (m_heap m) (m_heap m') /\
    exists n s', lsteps s (firstn n ops) = Some s' /\ shows (m_heap m') s' /\
      ((n = length ops /\ quiet m m') \/
       (exists op, nth_error ops n = Some op /\
          (out_of_memory E s' op m m' \/ exists e, lstep s' op = None /\ bad_index op = Some e /\ reported e m m')))).
Proof.
  intros E. induction ops as [|op ops IH]; intros m s W We R Hw Hroom Hs Ha Hok; cbn [exec_lops].
  - apply runs_ret. split; [exact W|]. split; [split; reflexivity|]. split; [apply only_lists_refl|].
    exists 0%nat, s. split; [reflexivity|]. split; [exact Hs|]. left. split; [reflexivity | apply quiet_refl].
  - inversion Hok as [|? ? Hop Hok']; subst.
    eapply runs_step; [eapply exec_lop_runs; eauto|]. cbv beta.
    intros _ m1 (W1 & [Sp1 St1] & O1 & Hc).
    destruct Hc as [(s1 & E1 & S1 & Q1)|[S1 Herr]].
    + destruct Q1 as [Qa Ql]. assert (Ha1 : m_abort m1 = false) by congruence.
      eapply runs_eq; [rewrite Ha1; reflexivity|].
      eapply runs_mono; [eapply IH with (s := s1); eauto|].
      * unfold room in *. lia.
      * eapply Forall_impl; [| exact Hok']. intros a. apply only_lists_ok. exact O1.
      * cbv beta. intros _ m2 (W2 & [Sp2 St2] & O2 & n & s2 & E2 & S2 & Hc).
        split; [exact W2|]. split; [split; [congruence | rewrite Sp1 in St2; congruence]|].
        split; [eapply only_lists_trans; eauto|]. exists (S n), s2.
        cbn [firstn lsteps]. rewrite E1. split; [exact E2|]. split; [exact S2|].
        destruct Hc as [[-> Q2]|(op' & Hn & Hc)].
        -- left. split; [reflexivity | eapply quiet_trans; [split; eassumption | exact Q2]].
        -- right. exists op'. split; [exact Hn|]. assert (Q1 : quiet m m1) by (split; assumption).
           destruct Hc as [Hm|(e & X & Y & Z)]; [left | right; exists e; split; [exact X | split; [exact Y | eapply quiet_reported; eauto]]].
           destruct op'; cbn in *; try contradiction. eapply quiet_oom; eauto.
    + assert (Ha1 : m_abort m1 = true) by (destruct Herr as [Hm|(e & _ & _ & [A _])]; [destruct op; cbn in Hm; try contradiction; apply Hm | exact A]).
      exists tt, m1. split; [rewrite Ha1; reflexivity|].
      split; [exact W1|]. split; [split; assumption|]. split; [exact O1|].
      exists 0%nat, s. split; [reflexivity|]. split; [exact S1|]. right. exists op. split; [reflexivity | exact Herr].
Qed.

(** * As stated in ListProps.v *)
Lemma frame_stack : forall X m m', frame X m m' -> stack_kept m m'.
Proof. intros X m m' F. split; apply F. Qed.
Lemma frame_others : forall X m m', frame X m m' -> others_kept X (m_heap m) (m_heap m').
Proof. intros X m m' F. apply kept_others, F. Qed.

Lemma new_list_seen : forall E m k xs r m', new_list_post E m k xs r m' ->
  wf E m' /\ stack_kept m m' /\ heap_kept (m_heap m) (m_heap m') /\
  match r with
  | Some (l, ep) => quiet m m' /\ ep = m_epoch m' /\ seq_at (m_heap m') l k xs /\
                    ((length (m_heap m) <= l)%nat \/ (k = KTuple /\ xs = []))
  | None => oom E (Z.of_nat (length xs)) m m'
  end.
Proof.
  intros E m k xs r m' (W & F & H). split; [exact W|]. split; [eapply frame_stack; eauto|].
  split; [eapply frame_others; eauto|]. destruct r as [[l ep]|]; exact H.
Qed.

Lemma plus_new : forall E m la lb k xs ys,
  wf_env E -> roomy E -> wf E m -> room E 3 m -> k <> KDict ->
  seq_at (m_heap m) la k xs -> seq_at (m_heap m) lb k ys ->
  runs (list_plus E (la, m_epoch m) (lb, m_epoch m)) m (fun r m' =>
    wf E m' /\ stack_kept m m' /\ heap_kept (m_heap m) (m_heap m') /\
    match r with
    | Some (l, ep) => quiet m m' /\ ep = m_epoch m' /\ seq_at (m_heap m') l k (xs ++ ys) /\
                      ((length (m_heap m) <= l)%nat \/ (k = KTuple /\ xs ++ ys = []))
    | None => oom E (Z.of_nat (length (xs ++ ys))) m m'
    end).
Proof.
  intros. eapply runs_mono; [eapply plus_runs; eauto; eapply roomy_fits; eauto|].
  intros r m'. apply new_list_seen.
Qed.

Lemma times_new : forall E m la k xs n,
  wf_env E -> wf E m -> room E 2 m -> k <> KDict ->
  seq_at (m_heap m) la k xs -> fits (e_width E) (Z.of_nat (length xs) * Z.max 0 n) ->
  runs (list_times E (la, m_epoch m) n) m (fun r m' =>
    wf E m' /\ stack_kept m m' /\ heap_kept (m_heap m) (m_heap m') /\
    let zs := concat (repeat xs (Z.to_nat n)) in
    match r with
    | Some (l, ep) => quiet m m' /\ ep = m_epoch m' /\ seq_at (m_heap m') l k zs /\
                      ((length (m_heap m) <= l)%nat \/ (k = KTuple /\ zs = []))
    | None => oom E (Z.of_nat (length zs)) m m'
    end).
Proof.
  intros. eapply runs_mono; [eapply times_runs; eauto|]. intros r m'. apply new_list_seen.
Qed.

Lemma append_inplace : forall E m la lb xs ys,
  wf_env E -> roomy E -> wf E m -> room E 2 m ->
  seq_at (m_heap m) la KList xs -> seq_at (m_heap m) lb KList ys ->
  runs (list_append E (la, m_epoch m) (lb, m_epoch m)) m (fun r m' =>
    wf E m' /\ stack_kept m m' /\
    match r with
    | Some p => p = (la, m_epoch m') /\ quiet m m' /\ others_kept (Some la) (m_heap m) (m_heap m') /\
                seq_at (m_heap m') la KList (xs ++ ys)
    | None => oom E (Z.of_nat (length (xs ++ ys))) m m' /\ heap_kept (m_heap m) (m_heap m')
    end).
Proof.
  intros E m la lb xs ys We R W Hr Ha Hb. eapply runs_mono; [eapply append_runs; eauto; eapply roomy_fits; eauto|].
  intros [p|] m' (W' & _ & H); split; auto.
  - destruct H as (F & Q & Hp & Hs). split; [eapply frame_stack; eauto|]. split; [exact Hp|]. split; [exact Q|].
    split; [apply frame_others; exact F | exact Hs].
  - destruct H as (F & O). split; [eapply frame_stack; eauto|]. split; [exact O | apply frame_others; exact F].
Qed.
