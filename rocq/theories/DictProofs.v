(** snek-list.c: dictionaries (ListModel.v): comparison and search. *)
From Verif Require Import Tac Base FloatModel PolyModel ValueModel OrderSpec OrderProofs SliceModel SliceSpec SliceProofs MachModel ListModel MachSpec ListSpec MachProofs FrameProofs ListProofs ListProofs2 ListProofs3.
Local Open Scope Z_scope.
Open Scope mach_scope.

(** * Comparison and mutability are always defined *)
Definition elems_ok (h : list obj) : Prop :=
  forall l o, nth_error h l = Some (OList o) -> Forall (wf_poly h) (elems o).

Lemma wf_elems_ok : forall E m, wf E m -> elems_ok (m_heap m).
Proof. intros E m W l o H. eapply elems_wf; eauto. Qed.

Lemma cmp_loop_def_l : forall h f xs vs ys, Forall2 (tree h) xs vs -> Forall (wf_poly h) ys ->
  (forall x v y, In v vs -> tree h x v -> wf_poly h y -> exists d, f x y = Some d) ->
  exists d, cmp_loop f xs ys = Some d.
Proof.
  intros h f xs vs ys H. revert ys. induction H as [|x v xs vs Hx _ IH]; intros [|y ys] Hy Hf; cbn [cmp_loop]; eauto.
  inversion Hy as [|? ? Hy1 Hy2]; subst. destruct (Hf x v y (or_introl eq_refl) Hx Hy1) as (d & ->).
  destruct (negb (d =? 0)); eauto. apply IH; [exact Hy2|]. intros x' v' y' Hi. apply Hf. right. exact Hi.
Qed.
Lemma cmp_loop_def_r : forall h f xs vs ys, Forall2 (tree h) xs vs -> Forall (wf_poly h) ys ->
  (forall x v y, In v vs -> tree h x v -> wf_poly h y -> exists d, f y x = Some d) ->
  exists d, cmp_loop f ys xs = Some d.
Proof.
  intros h f xs vs ys H. revert ys. induction H as [|x v xs vs Hx _ IH]; intros [|y ys] Hy Hf; cbn [cmp_loop]; eauto.
  inversion Hy as [|? ? Hy1 Hy2]; subst. destruct (Hf x v y (or_introl eq_refl) Hx Hy1) as (d & ->).
  destruct (negb (d =? 0)); eauto. apply IH; [exact Hy2|]. intros x' v' y' Hi. apply Hf. right. exact Hi.
Qed.

Lemma hcmp_def_l : forall h, elems_ok h -> forall v k p n, tree h k v -> wf_poly h p -> (vdepth v < n)%nat ->
  exists d, hcmp n h false k p = Some d.
Proof.
  intros h Hh. induction v as [f|s|lk vs IH|u|u] using value_ind2; intros k p n Hk Hp Hn;
    destruct n as [|n]; try lia.
  - cbn in Hk. subst k. destruct p; cbn in Hp |- *; eauto. contradiction.
  - destruct Hk as (l & -> & Hl). destruct p; cbn in Hp |- *; try rewrite Hl; eauto; try contradiction.
    destruct Hp as (t & ->). eauto.
  - pose proof Hk as Hk'. apply tree_seq in Hk'. destruct Hk' as (l & o & -> & Ho & Hko & Hvs).
    destruct p as [| |l'| | |]; try (cbn; eauto; fail); try (cbn in Hp; contradiction).
    destruct Hp as (o' & Ho'). cbn [hcmp poly_type]. rewrite Z.sub_diag. cbn [Z.eqb negb]. rewrite Ho, Ho'.
    destruct (negb _); [eauto|]. rewrite !live_elems.
    eapply cmp_loop_def_l; [exact Hvs | eapply Hh; eauto|].
    intros x v y Hv Hx Hy. rewrite Forall_forall in IH. apply (IH v Hv); auto.
    rewrite vdepth_seq in Hn. pose proof (vdepths_in _ _ Hv). lia.
  - cbn in Hk. destruct Hk as (l & -> & ->). destruct p; cbn in Hp |- *; eauto. contradiction.
  - cbn in Hk. subst k. destruct p; cbn in Hp |- *; eauto. contradiction.
Qed.

Lemma hcmp_def_r : forall h, elems_ok h -> forall v k p n, tree h k v -> wf_poly h p -> (vdepth v < n)%nat ->
  exists d, hcmp n h false p k = Some d.
Proof.
  intros h Hh. induction v as [f|s|lk vs IH|u|u] using value_ind2; intros k p n Hk Hp Hn;
    destruct n as [|n]; try lia.
  - cbn in Hk. subst k. destruct p; cbn in Hp |- *; eauto. contradiction.
  - destruct Hk as (l & -> & Hl). destruct p; cbn in Hp |- *; try rewrite Hl; eauto; try contradiction.
    destruct Hp as (t & ->). eauto.
  - pose proof Hk as Hk'. apply tree_seq in Hk'. destruct Hk' as (l & o & -> & Ho & Hko & Hvs).
    destruct p as [| |l'| | |]; try (cbn; eauto; fail); try (cbn in Hp; contradiction).
    destruct Hp as (o' & Ho'). cbn [hcmp poly_type]. rewrite Z.sub_diag. cbn [Z.eqb negb]. rewrite Ho, Ho'.
    destruct (negb _); [eauto|]. rewrite !live_elems.
    eapply cmp_loop_def_r; [exact Hvs | eapply Hh; eauto|].
    intros x v y Hv Hx Hy. rewrite Forall_forall in IH. apply (IH v Hv); auto.
    rewrite vdepth_seq in Hn. pose proof (vdepths_in _ _ Hv). lia.
  - cbn in Hk. destruct Hk as (l & -> & ->). destruct p; cbn in Hp |- *; eauto. contradiction.
  - cbn in Hk. subst k. destruct p; cbn in Hp |- *; eauto. contradiction.
Qed.

(** [a] compares with [b] as [d] in the heap [h]. *)
Definition cz (h : list obj) (a b : poly) (d : Z) : Prop := hcmp (cmp_fuel h) h false a b = Some d.

Lemma fuel_depth : forall h v p, tree h p v -> (vdepth v < cmp_fuel h)%nat.
Proof.
  intros h v p H. apply tree_depth in H. unfold cmp_fuel. nia.
Qed.
Lemma cz_def : forall E m k p, wf E m -> frozen_at (m_heap m) k -> wf_poly (m_heap m) p ->
  exists d, cz (m_heap m) k p d.
Proof.
  intros E m k p W (v & Hv & _) Hp. eapply hcmp_def_l; eauto using wf_elems_ok. eapply fuel_depth; eauto.
Qed.
Lemma cz_def_r : forall E m k p, wf E m -> frozen_at (m_heap m) k -> wf_poly (m_heap m) p ->
  exists d, cz (m_heap m) p k d.
Proof.
  intros E m k p W (v & Hv & _) Hp. eapply hcmp_def_r; eauto using wf_elems_ok. eapply fuel_depth; eauto.
Qed.
Lemma cz_tree : forall h a b v w, tree h a v -> tree h b w -> cz h a b (poly_cmp v w).
Proof. intros h a b v w Ha Hb. apply hcmp_tree; auto. eapply fuel_depth; eauto. Qed.
Lemma cz_fun : forall h a b d d', cz h a b d -> cz h a b d' -> d = d'.
Proof. unfold cz. intros. congruence. Qed.
Lemma cmp_eq : forall a b d m, cz (m_heap m) a b d -> cmp a b false m = Some (d, m).
Proof. unfold cz, cmp. intros a b d m ->. reflexivity. Qed.

(** snek_mutable decides whether a value can change. *)
Lemma any_spec : forall h f xs,
  Forall (fun x => exists b, f x = Some b /\ (b = false <-> frozen_at h x)) xs ->
  exists b, (fix any (l : list poly) : option bool :=
               match l with
               | [] => Some false
               | x :: l' => match f x with Some false => any l' | r => r end
               end) xs = Some b /\ (b = false <-> Forall (frozen_at h) xs).
Proof.
  intros h f xs. induction 1 as [|x xs (b & Hb & Hf) _ IH].
  - exists false. split; [reflexivity|]. split; auto.
  - rewrite Hb. destruct b.
    + exists true. split; [reflexivity|]. split; [discriminate|]. intros H. inversion H; subst.
      apply Hf. assumption.
    + destruct IH as (b & -> & Hb'). exists b. split; [reflexivity|]. rewrite Hb'. split.
      * intros H. constructor; [apply Hf; reflexivity | exact H].
      * intros H. inversion H; assumption.
Qed.

Lemma tree_list_inv : forall h l v, tree h (PList l) v ->
  exists o vs, v = VSeq (lo_kind o) vs /\ nth_error h l = Some (OList o) /\ Forall2 (tree h) (elems o) vs.
Proof.
  intros h l v H. destruct v as [f|s|k vs|u|u]; try (cbn in H; try (destruct H as (? & ? & ?)); discriminate).
  apply tree_seq in H. destruct H as (l' & o & [= <-] & Ho & <- & H2). exists o, vs. auto.
Qed.

Lemma frozen_tuple : forall h l o, nth_error h l = Some (OList o) -> lo_kind o = KTuple ->
  (Forall (frozen_at h) (elems o) <-> frozen_at h (PList l)).
Proof.
  intros h l o Ho Hk. split.
  - intros H. assert (exists vs, Forall2 (tree h) (elems o) vs /\ Forall frozen vs) as (vs & A & B).
    { induction H as [|x xs (v & Hv & Fv) _ (vs & A & B)]; [exists []; auto|].
      exists (v :: vs). auto. }
    exists (VSeq KTuple vs). split; [apply tree_seq; exists l, o; auto | apply frozen_seq; auto].
  - intros (v & Hv & Fv). apply tree_list_inv in Hv. destruct Hv as (o' & vs & -> & Ho' & H2).
    rewrite Ho in Ho'. injection Ho' as <-. apply frozen_seq in Fv. destruct Fv as [_ Fv].
    clear -H2 Fv. induction H2; constructor; inversion Fv; subst; auto. exists y. auto.
Qed.

Lemma frozen_not_tuple : forall h l o, nth_error h l = Some (OList o) -> lo_kind o <> KTuple -> ~ frozen_at h (PList l).
Proof.
  intros h l o Ho Hk (v & Hv & Fv). apply tree_list_inv in Hv. destruct Hv as (o' & vs & -> & Ho' & H2).
  apply frozen_seq in Fv. destruct Fv as [Hk' _]. congruence.
Qed.

Lemma hmutable_spec : forall E m, wf E m -> forall n p, wf_poly (m_heap m) p ->
  (match p with PList l => l + 2 <= n | _ => 1 <= n end)%nat ->
  exists b, hmutable n (m_heap m) p = Some b /\ (b = false <-> frozen_at (m_heap m) p).
Proof.
  intros E m W. induction n as [|n IH]; intros p Hp Hn; [destruct p; lia|].
  destruct p as [f|l|l|l|u|t]; cbn [hmutable]; try contradiction.
  - exists false. split; [reflexivity|]. split; [intros _; exists (VNum f); cbn; auto | reflexivity].
  - exists false. split; [reflexivity|]. split; [intros _; destruct Hp as (s & Hs); exists (VStr s); cbn; eauto | reflexivity].
  - destruct Hp as (o & Ho). rewrite Ho. destruct (readonly (lo_kind o)) eqn:Hr; cbn [negb].
    + assert (Hk : lo_kind o = KTuple) by (destruct (lo_kind o); try discriminate; reflexivity).
      destruct (wf_heap _ _ W _ _ Ho) as [_ _ _ We Wo _]. specialize (Wo Hk).
      rewrite live_elems. destruct (any_spec (m_heap m) (hmutable n (m_heap m)) (elems o)) as (b & -> & Hb).
      { rewrite Forall_forall in *. intros x Hx. apply IH; [apply We; exact Hx|].
        specialize (Wo x Hx). destruct x; cbn in Wo; lia. }
      exists b. split; [reflexivity|]. rewrite Hb. apply frozen_tuple; assumption.
    + exists true. split; [reflexivity|]. split; [discriminate|]. intros H. exfalso.
      eapply frozen_not_tuple; eauto. intros K. rewrite K in Hr. discriminate.
  - exists false. split; [reflexivity|]. split; [intros _; exists (VFunc (Z.of_nat l)); cbn; eauto | reflexivity].
  - exists false. split; [reflexivity|]. split; [intros _; exists (VBuiltin u); cbn; auto | reflexivity].
Qed.

Lemma mutable_runs : forall E m p, wf E m -> wf_poly (m_heap m) p ->
  exists b, mutable p m = Some (b, m) /\ (b = false <-> frozen_at (m_heap m) p).
Proof.
  intros E m p W Hp. destruct (hmutable_spec E m W (S (S (length (m_heap m)))) p Hp) as (b & Hb & Hf).
  - destruct p as [| |l| | |]; try lia. destruct Hp as (o & Ho). apply nth_error_lt in Ho. lia.
  - exists b. unfold mutable. rewrite Hb. auto.
Qed.

(** * Flat dictionaries *)
Fixpoint flat {A} (kvs : list (A * A)) : list A :=
  match kvs with [] => [] | (k, v) :: r => k :: v :: flat r end.

Lemma flat_length : forall A (kvs : list (A * A)), length (flat kvs) = (2 * length kvs)%nat.
Proof. induction kvs as [|[k v] r IH]; cbn [flat length]; lia. Qed.
Lemma flat_app : forall A (a b : list (A * A)), flat (a ++ b) = flat a ++ flat b.
Proof. induction a as [|[k v] a IH]; intros b; cbn; [reflexivity|]. rewrite IH. reflexivity. Qed.
Lemma flat_firstn : forall A (kvs : list (A * A)) c, flat (firstn c kvs) = firstn (2 * c) (flat kvs).
Proof.
  induction kvs as [|[k v] r IH]; intros [|c]; try reflexivity.
  replace (2 * S c)%nat with (S (S (2 * c))) by lia. cbn [firstn flat]. f_equal. f_equal. apply IH.
Qed.
Lemma flat_skipn : forall A (kvs : list (A * A)) c, flat (skipn c kvs) = skipn (2 * c) (flat kvs).
Proof.
  induction kvs as [|[k v] r IH]; intros [|c]; try reflexivity.
  replace (2 * S c)%nat with (S (S (2 * c))) by lia. cbn [skipn flat]. apply IH.
Qed.
Lemma flat_key : forall A (kvs : list (A * A)) c, nth_error (flat kvs) (2 * c) = option_map fst (nth_error kvs c).
Proof.
  induction kvs as [|[k v] r IH]; intros [|c]; try reflexivity.
  replace (2 * S c)%nat with (S (S (2 * c))) by lia. cbn [nth_error flat]. apply IH.
Qed.
Lemma flat_val : forall A (kvs : list (A * A)) c, nth_error (flat kvs) (2 * c + 1) = option_map snd (nth_error kvs c).
Proof.
  induction kvs as [|[k v] r IH]; intros [|c]; try reflexivity.
  replace (2 * S c + 1)%nat with (S (S (2 * c + 1))) by lia. cbn [nth_error flat]. apply IH.
Qed.
Lemma flat_keys : forall A (kvs : list (A * A)), keys (flat kvs) = map fst kvs.
Proof. induction kvs as [|[k v] r IH]; cbn; [reflexivity|]. rewrite IH. reflexivity. Qed.
Lemma flat_of : forall A n (xs : list A), length xs = (2 * n)%nat -> exists kvs, xs = flat kvs.
Proof.
  induction n as [|n IH]; intros xs H.
  - exists []. apply length_zero_iff_nil. lia.
  - destruct xs as [|k [|v xs]]; cbn [length] in H; try lia. destruct (IH xs ltac:(lia)) as (kvs & ->).
    exists ((k, v) :: kvs). reflexivity.
Qed.
Lemma flat_inj : forall A (a b : list (A * A)), flat a = flat b -> a = b.
Proof.
  induction a as [|[k v] a IH]; intros [|[k' v'] b] H; cbn in H; try discriminate; [reflexivity|].
  injection H as -> -> H. f_equal. apply IH. exact H.
Qed.

(** The dictionary at [l]. *)
Definition dict_at (h : list obj) (l : loc) (kvs : list (poly * poly)) : Prop := seq_at h l KDict (flat kvs).

Lemma dict_at_wf : forall E m l xs, wf E m -> seq_at (m_heap m) l KDict xs -> exists kvs, xs = flat kvs.
Proof.
  intros E m l xs W (o & Ho & Hk & He). destruct (wf_heap _ _ W _ _ Ho) as [_ _ _ _ _ Hd].
  destruct (Hd Hk) as [[n Hn] _]. rewrite He in Hn. eapply flat_of. exact Hn.
Qed.

Lemma dict_keys_frozen : forall E m l kvs, wf E m -> dict_at (m_heap m) l kvs ->
  Forall (fun kv => frozen_at (m_heap m) (fst kv)) kvs.
Proof.
  intros E m l kvs W (o & Ho & Hk & He). destruct (wf_heap _ _ W _ _ Ho) as [_ _ _ _ _ Hd].
  destruct (Hd Hk) as [_ F]. rewrite He, flat_keys in F. rewrite Forall_map in F. exact F.
Qed.
Lemma dict_wf : forall E m l kvs, wf E m -> dict_at (m_heap m) l kvs ->
  Forall (wf_poly (m_heap m)) (flat kvs).
Proof. intros E m l kvs W (o & Ho & Hk & He). rewrite <- He. eapply elems_wf; eauto. Qed.

(** * Binary search *)
(** Position [c] of the key [p]: keys before are smaller, the key there is not. *)
Definition rank (h : list obj) (kvs : list (poly * poly)) (p : poly) (a b c : nat) : Prop :=
  (a <= c <= b)%nat /\
  ((a < c)%nat -> exists kv d, nth_error kvs (c - 1) = Some kv /\ cz h (fst kv) p d /\ d < 0) /\
  ((c < b)%nat -> exists kv d, nth_error kvs c = Some kv /\ cz h (fst kv) p d /\ 0 <= d).

Lemma search_runs : forall E m o p kvs, elems o = flat kvs -> shape E o -> wf_env E ->
  (forall kv, In kv kvs -> exists d, cz (m_heap m) (fst kv) p d) ->
  forall fuel a b, (a <= b <= length kvs)%nat -> (b - a < fuel)%nat ->
  runs (dict_search E fuel o p (2 * Z.of_nat a) (2 * Z.of_nat b)) m (fun r m' =>
    m' = m /\ exists c, r = 2 * Z.of_nat c /\ rank (m_heap m) kvs p a b c).
Proof.
  intros E m o p kvs He Hsh We Hc. pose proof Hsh as [S1 S2 S3].
  assert (Hl := elems_length _ _ Hsh). rewrite He, flat_length in Hl.
  assert (Hp : 4 * lo_alloc o <= 2 ^ wbits (e_width E)).
  { destruct We as (_ & P & _). destruct (e_width E); cbn [wbits]; lia. }
  induction fuel as [|fuel IH]; intros a b Hab Hf; [lia|]. cbn [dict_search].
  destruct (Z.ltb_spec (2 * Z.of_nat a) (2 * Z.of_nat b)) as [Hlt|Hge].
  - rewrite u_of_small by lia. rewrite Z.shiftr_div_pow2 by lia. change (2 ^ 1) with 2.
    set (c := ((a + b) / 2)%nat).
    assert (Hcb : (a <= c < b)%nat) by (unfold c; lia).
    replace (2 * Z.of_nat a + 2 * Z.of_nat b) with (Z.of_nat (a + b) * 2) by lia. rewrite Z.div_mul by lia.
    assert (Hi : Z.of_nat (a + b) - Z.of_nat (a + b) mod 2 = 2 * Z.of_nat c) by (unfold c; lia).
    rewrite Hi. cbv zeta.
    destruct (nth_error kvs c) as [kv|] eqn:Ekv; [| apply nth_error_None in Ekv; lia].
    assert (Hk : nth_error (lo_data o) (Z.to_nat (2 * Z.of_nat c)) = Some (fst kv)).
    { replace (Z.to_nat (2 * Z.of_nat c)) with (2 * c)%nat by lia.
      rewrite <- (nth_error_firstn _ (lo_data o) (Z.to_nat (lo_size o))) by lia.
      fold (elems o). rewrite He, flat_key, Ekv. reflexivity. }
    unfold nth_data. eapply runs_lift_bind; [exact Hk|].
    destruct (Hc kv (nth_error_In _ _ Ekv)) as (d & Hd).
    eapply runs_bind. exists d, m. split; [apply cmp_eq; exact Hd|].
    destruct (Z.ltb_spec d 0) as [Hd0|Hd0].
    + rewrite u_of_small by lia. replace (2 * Z.of_nat c + 2) with (2 * Z.of_nat (S c)) by lia.
      eapply runs_mono; [apply IH; lia|]. cbv beta. intros r m' (-> & c' & -> & R1 & R2 & R3).
      split; [reflexivity|]. exists c'. split; [reflexivity|]. split; [lia|]. split; [| exact R3].
      intros _. destruct (Nat.eq_dec c' (S c)) as [->|N]; [| apply R2; lia].
      replace (S c - 1)%nat with c by lia. eauto.
    + eapply runs_mono; [apply IH; lia|]. cbv beta. intros r m' (-> & c' & -> & R1 & R2 & R3).
      split; [reflexivity|]. exists c'. split; [reflexivity|]. split; [lia|]. split; [exact R2|].
      intros _. destruct (Nat.eq_dec c' c) as [->|N]; [| apply R3; lia]. eauto.
  - apply runs_ret. split; [reflexivity|]. exists a. split; [reflexivity|]. split; [lia|]. split; lia.
Qed.
