From Coq Require Import Reals Lra.
From Flocq Require Import IEEE754.Binary IEEE754.Bits IEEE754.BinarySingleNaN Core.
From Verif Require Import Tac Base FloatModel PolyModel PolyProofs ValueModel OrderSpec.
Local Open Scope Z_scope.

(** ** An integer key that orders the floats *)

Definition zkey (f : float) : Z :=
  match f with
  | Binary.B754_zero _ _ _ => 0
  | Binary.B754_infinity _ _ s => if s then - 2 ^ 40 else 2 ^ 40
  | Binary.B754_nan _ _ _ _ _ => 2 ^ 41
  | Binary.B754_finite _ _ s m e _ =>
      let k := (e + 150) * 2 ^ 24 + Z.pos m in if s then - k else k
  end.

Lemma bounded32 m e : SpecFloat.bounded 24 128 m e = true ->
  0 < Z.pos m < 2 ^ 24 /\ -149 <= e <= 104.
Proof.
  intros H. apply andb_true_iff in H as [Hc He].
  unfold SpecFloat.canonical_mantissa in Hc. apply Zeq_bool_eq in Hc.
  unfold SpecFloat.fexp, SpecFloat.emin in Hc. apply Zle_bool_imp_le in He.
  rewrite Digits.Zpos_digits2_pos in Hc.
  pose proof (Digits.Zdigits_correct radix2 (Z.pos m)) as [Hd1 Hd2].
  rewrite Z.abs_eq in Hd1, Hd2 by lia.
  set (d := Digits.Zdigits radix2 (Z.pos m)) in *.
  assert (Hdle : d <= 24) by lia.
  assert (Hm : Z.pos m < 2 ^ 24).
  { eapply Z.lt_le_trans; [exact Hd2|]. apply (Z.pow_le_mono_r 2); lia. }
  clear Hd1 Hd2. lia.
Qed.

Lemma compare_key f g : f_is_nan f = false -> f_is_nan g = false ->
  b32_compare f g = Some (zkey f ?= zkey g).
Proof.
  intros Hf Hg. unfold b32_compare, Binary.Bcompare, BinarySingleNaN.Bcompare.
  destruct f as [s|s|s pl H|s m e H]; try discriminate;
  destruct g as [s'|s'|s' pl' H'|s' m' e' H']; try discriminate;
  clear Hf Hg; cbn [Binary.B2BSN B2SF SpecFloat.SFcompare zkey].
  - reflexivity.
  - destruct s'; reflexivity.
  - apply bounded32 in H'. f_equal. change (2 ^ 24) with 16777216 in *.
    destruct s'; symmetry; [apply Z.compare_gt_iff|apply Z.compare_lt_iff]; lia.
  - destruct s; reflexivity.
  - destruct s, s'; reflexivity.
  - apply bounded32 in H'. f_equal. change (2 ^ 24) with 16777216 in *. change (2 ^ 40) with 1099511627776.
    destruct s, s'; symmetry; first [apply Z.compare_gt_iff; lia|apply Z.compare_lt_iff; lia].
  - apply bounded32 in H. f_equal. change (2 ^ 24) with 16777216 in *.
    destruct s; symmetry; [apply Z.compare_lt_iff|apply Z.compare_gt_iff]; lia.
  - apply bounded32 in H. f_equal. change (2 ^ 24) with 16777216 in *. change (2 ^ 40) with 1099511627776.
    destruct s, s'; symmetry; first [apply Z.compare_gt_iff; lia|apply Z.compare_lt_iff; lia].
  - apply bounded32 in H. apply bounded32 in H'. f_equal. change (2 ^ 24) with 16777216 in *.
    change (Pos.compare_cont Eq m m') with (Z.pos m ?= Z.pos m').
    destruct s, s'.
    + destruct (Z.compare_spec e e'); destruct (Z.compare_spec (Z.pos m) (Z.pos m')); cbn [CompOpp];
        symmetry; first [apply Z.compare_eq_iff; lia|apply Z.compare_gt_iff; lia|apply Z.compare_lt_iff; lia].
    + symmetry; apply Z.compare_lt_iff; lia.
    + symmetry; apply Z.compare_gt_iff; lia.
    + destruct (Z.compare_spec e e'); destruct (Z.compare_spec (Z.pos m) (Z.pos m'));
        symmetry; first [apply Z.compare_eq_iff; lia|apply Z.compare_gt_iff; lia|apply Z.compare_lt_iff; lia].
Qed.

Lemma zkey_range f : f_is_nan f = false -> - 2 ^ 40 <= zkey f <= 2 ^ 40.
Proof.
  destruct f as [s|s|s pl H|s m e H]; intros Hn; try discriminate; clear Hn; cbn [zkey].
  - lia.
  - destruct s; lia.
  - apply bounded32 in H. change (2 ^ 24) with 16777216 in *. change (2 ^ 40) with 1099511627776.
    destruct s; lia.
Qed.

Lemma zkey_nan f : f_is_nan f = true -> zkey f = 2 ^ 41.
Proof. destruct f; intros H; try discriminate; reflexivity. Qed.

Lemma flt_key f g : f_is_nan f = false -> f_is_nan g = false -> flt f g = (zkey f <? zkey g).
Proof. intros Hf Hg. unfold flt, Z.ltb. rewrite compare_key by assumption. destruct (_ ?= _); reflexivity. Qed.

Lemma flt_nan_l f g : f_is_nan f = true -> flt f g = false.
Proof. destruct f; intros H; try discriminate. reflexivity. Qed.
Lemma flt_nan_r f g : f_is_nan g = true -> flt f g = false.
Proof.
  destruct g; intros H; try discriminate. unfold flt, b32_compare, Binary.Bcompare, BinarySingleNaN.Bcompare.
  destruct f; reflexivity.
Qed.

Lemma vnan_canonical f : canonical_num f -> vnan f = f_is_nan f.
Proof.
  intros H. unfold canonical_num in H. unfold vnan, SNEK_NAN_U, f_is_nan in *.
  destruct (Binary.is_nan 24 128 f) eqn:E.
  - rewrite (H eq_refl). reflexivity.
  - apply Z.eqb_neq. intros Hb. rewrite <- (of_bits_of_f f), Hb in E. discriminate E.
Qed.

Lemma num_cmp_key f g : canonical_num f -> canonical_num g -> num_cmp f g = word_cmp (zkey f) (zkey g).
Proof.
  intros Hf Hg. unfold num_cmp, word_cmp. rewrite !vnan_canonical by assumption.
  destruct (f_is_nan f) eqn:Ef, (f_is_nan g) eqn:Eg; cbn [b2z Z.sub Z.opp Z.add Z.eqb negb].
  - rewrite !flt_nan_l by assumption. rewrite !zkey_nan by assumption. reflexivity.
  - pose proof (zkey_range g Eg). rewrite (zkey_nan f) by assumption.
    change (2 ^ 40) with 1099511627776 in *. change (2 ^ 41) with 2199023255552 in *.
    unfold b2z. destruct (Z.ltb_spec (zkey g) 2199023255552); destruct (Z.ltb_spec 2199023255552 (zkey g)); lia.
  - pose proof (zkey_range f Ef). rewrite (zkey_nan g) by assumption.
    change (2 ^ 40) with 1099511627776 in *. change (2 ^ 41) with 2199023255552 in *.
    unfold b2z. destruct (Z.ltb_spec (zkey f) 2199023255552); destruct (Z.ltb_spec 2199023255552 (zkey f)); lia.
  - rewrite !flt_key by assumption. reflexivity.
Qed.

Lemma num_lt_key f g : num_lt f g <-> zkey f < zkey g.
Proof.
  unfold num_lt. fold (f_is_nan f). fold (f_is_nan g).
  destruct (f_is_nan f) eqn:Ef.
  - rewrite (zkey_nan f) by assumption. split.
    + intros [[? _]|[? _]]; discriminate.
    + intros H. destruct (f_is_nan g) eqn:Eg.
      * rewrite (zkey_nan g) in H by assumption. lia.
      * pose proof (zkey_range g Eg). lia.
  - pose proof (zkey_range f Ef) as Rf. destruct (f_is_nan g) eqn:Eg.
    + rewrite (zkey_nan g) by assumption. split; [intros _; lia|]. intros _. left. split; reflexivity.
    + assert (Hfin : forall f g : float, f_is_nan f = false -> f_is_nan g = false ->
        Binary.is_finite 24 128 f = true -> Binary.is_finite 24 128 g = true ->
        ((Binary.B2R 24 128 f < Binary.B2R 24 128 g)%R <-> zkey f < zkey g)).
      { clear. intros f g Ef Eg Ff Fg. pose proof (compare_key f g Ef Eg) as H.
        unfold b32_compare in H. rewrite Binary.Bcompare_correct in H by assumption.
        injection H as H. split; intros L.
        - rewrite Rcompare_Lt in H by exact L. apply Z.compare_lt_iff. congruence.
        - apply Rcompare_Lt_inv. rewrite H. apply Z.compare_lt_iff. exact L. }
      specialize (Hfin f g Ef Eg).
      split.
      * intros [[? ?]|(_ & _ & H)]; [discriminate|].
        destruct f as [s|s|s pl P|s m e P]; try discriminate;
        destruct g as [s'|s'|s' pl' P'|s' m' e' P']; try discriminate;
          try (apply Hfin; [reflexivity|reflexivity|exact H]); clear Hfin Ef Eg; subst; cbn [zkey] in *.
        -- lia.
        -- lia.
        -- destruct H; subst. lia.
        -- apply bounded32 in P'. change (2 ^ 24) with 16777216 in *. change (2 ^ 40) with 1099511627776 in *. destruct s'; lia.
        -- apply bounded32 in P. change (2 ^ 24) with 16777216 in *. change (2 ^ 40) with 1099511627776 in *. destruct s; lia.
      * intros H. right. split; [reflexivity|]. split; [reflexivity|].
        destruct f as [s|s|s pl P|s m e P]; try discriminate;
        destruct g as [s'|s'|s' pl' P'|s' m' e' P']; try discriminate;
          try (apply Hfin; [reflexivity|reflexivity|exact H]); clear Hfin Ef Eg; cbn [zkey] in *;
          try (apply bounded32 in P); try (apply bounded32 in P');
          change (2 ^ 24) with 16777216 in *; change (2 ^ 40) with 1099511627776 in *.
        -- destruct s'; [lia|reflexivity].
        -- destruct s; [reflexivity|lia].
        -- destruct s, s'; lia.
        -- destruct s; [reflexivity|destruct s'; lia].
        -- destruct s'; [destruct s; lia|reflexivity].
Qed.

Lemma num_eq_key f g : num_eq f g <-> zkey f = zkey g.
Proof. unfold num_eq. rewrite !num_lt_key. lia. Qed.

(** ** Words and strings *)

Lemma word_cmp_sgn a b : word_cmp a b = Z.sgn (a - b).
Proof. unfold word_cmp, b2z. destruct (Z.ltb_spec b a), (Z.ltb_spec a b); lia. Qed.

Lemma str_cmp_lt a : forall b, str_cmp a b < 0 <-> str_lt a b.
Proof.
  induction a as [|x a IH]; intros [|y b]; cbn [str_cmp].
  - split; [lia|intros H; inv H].
  - split; [intros; constructor|lia].
  - split; [lia|intros H; inv H].
  - destruct (Z.ltb_spec x y).
    + split; [intros; constructor; assumption|lia].
    + destruct (Z.ltb_spec y x).
      * split; [lia|intros H1; inv H1; lia].
      * assert (x = y) by lia; subst y. rewrite IH. split.
        -- intros; constructor; assumption.
        -- intros H1; inv H1; [lia|assumption].
Qed.

Lemma str_cmp_swap a : forall b, str_cmp b a = - str_cmp a b.
Proof.
  induction a as [|x a IH]; intros [|y b]; cbn [str_cmp]; try reflexivity.
  destruct (Z.ltb_spec x y), (Z.ltb_spec y x); try lia; apply IH.
Qed.

Lemma str_cmp_eq a : forall b, str_cmp a b = 0 <-> a = b.
Proof.
  induction a as [|x a IH]; intros [|y b]; cbn [str_cmp]; try (split; [lia|congruence]); try tauto.
  destruct (Z.ltb_spec x y), (Z.ltb_spec y x); try (split; [lia|intros H1; injection H1; lia]).
  assert (x = y) by lia; subst y. rewrite IH. split; [intros ->; reflexivity|intros H1; injection H1; auto].
Qed.

Lemma str_cmp_range a : forall b, -1 <= str_cmp a b <= 1.
Proof.
  induction a as [|x a IH]; intros [|y b]; cbn [str_cmp]; try lia.
  destruct (x <? y), (y <? x); try lia; apply IH.
Qed.

Lemma str_lt_trans a : forall b c, str_lt a b -> str_lt b c -> str_lt a c.
Proof.
  induction a as [|x a IH]; intros b c H1 H2.
  - inv H1. inv H2; constructor.
  - inv H1; inv H2; try (constructor; lia). apply str_lt_tail. eauto.
Qed.

(** ** Scalars *)

Lemma poly_cmp_seq k l k' l' :
  poly_cmp (VSeq k l) (VSeq k' l') =
  let d := lkind_code k - lkind_code k' in if negb (d =? 0) then d else list_cmp_loop l l'.
Proof.
  reflexivity.
Qed.

Lemma kind_rank_code v : kind_rank v = ptype_code (vtype v).
Proof. destruct v; reflexivity. Qed.

Lemma poly_cmp_kinds a b : kind_rank a <> kind_rank b -> poly_cmp a b = kind_rank a - kind_rank b.
Proof.
  intros H. rewrite !kind_rank_code in *.
  destruct a, b; cbn in *; try reflexivity; congruence.
Qed.

Lemma scalar_cmp_lt a b : scalar a -> scalar b -> (poly_cmp a b < 0 <-> scalar_lt a b).
Proof.
  intros Ha Hb. destruct (Z.eq_dec (kind_rank a) (kind_rank b)) as [E|E].
  - unfold scalar_lt. destruct a, b; cbn in E; try discriminate; try contradiction; cbn [kind_rank].
    + cbn -[num_cmp num_lt]. rewrite num_cmp_key, word_cmp_sgn, num_lt_key by assumption. lia.
    + change (poly_cmp (VStr s) (VStr s0)) with (str_cmp s s0). rewrite str_cmp_lt. split; [tauto|]. intros [?|?]; [lia|assumption].
    + change (poly_cmp (VFunc u) (VFunc u0)) with (word_cmp u u0). rewrite word_cmp_sgn. lia.
    + change (poly_cmp (VBuiltin u) (VBuiltin u0)) with (word_cmp u u0). rewrite word_cmp_sgn. lia.
  - rewrite poly_cmp_kinds by exact E. unfold scalar_lt. split; [intros; left; lia|].
    intros [H|H]; [lia|]. destruct a, b; cbn in E; try congruence; contradiction.
Qed.

Lemma scalar_cmp_swap a b : scalar a -> scalar b -> poly_cmp b a = - poly_cmp a b.
Proof.
  intros Ha Hb. destruct (Z.eq_dec (kind_rank a) (kind_rank b)) as [E|E].
  - destruct a, b; cbn in E; try discriminate; try contradiction.
    + change (poly_cmp (VNum f) (VNum f0)) with (num_cmp f f0). change (poly_cmp (VNum f0) (VNum f)) with (num_cmp f0 f).
      rewrite !num_cmp_key, !word_cmp_sgn by assumption. lia.
    + apply str_cmp_swap.
    + change (word_cmp u0 u = - word_cmp u u0). rewrite !word_cmp_sgn. lia.
    + change (word_cmp u0 u = - word_cmp u u0). rewrite !word_cmp_sgn. lia.
  - rewrite !poly_cmp_kinds by congruence. lia.
Qed.

Lemma scalar_cmp_eq a b : scalar a -> scalar b -> (poly_cmp a b = 0 <-> value_eq a b).
Proof.
  intros Ha Hb. destruct (Z.eq_dec (kind_rank a) (kind_rank b)) as [E|E].
  - destruct a, b; cbn in E; try discriminate; try contradiction.
    + change (poly_cmp (VNum f) (VNum f0)) with (num_cmp f f0). rewrite num_cmp_key, word_cmp_sgn by assumption. split.
      * intros H. constructor. apply num_eq_key. lia.
      * intros H; inv H. apply num_eq_key in H2. lia.
    + change (str_cmp s s0 = 0 <-> value_eq (VStr s) (VStr s0)). rewrite str_cmp_eq. split; [intros ->; constructor|intros H; inv H; reflexivity].
    + change (word_cmp u u0 = 0 <-> value_eq (VFunc u) (VFunc u0)). rewrite word_cmp_sgn. split.
      * intros H. replace u0 with u by lia. constructor.
      * intros H; inv H; lia.
    + change (word_cmp u u0 = 0 <-> value_eq (VBuiltin u) (VBuiltin u0)). rewrite word_cmp_sgn. split.
      * intros H. replace u0 with u by lia. constructor.
      * intros H; inv H; lia.
  - rewrite !poly_cmp_kinds by congruence. split; [lia|]. intros H; inv H; cbn in E; congruence.
Qed.

Lemma scalar_lt_trans a b c : scalar_lt a b -> scalar_lt b c -> scalar a -> scalar b -> scalar c -> scalar_lt a c.
Proof.
  intros H1 H2 Ha Hb Hc. unfold scalar_lt in *.
  destruct H1 as [H1|H1], H2 as [H2|H2].
  - left; lia.
  - assert (kind_rank b = kind_rank c) by (destruct b, c; try contradiction; reflexivity). left; lia.
  - assert (kind_rank a = kind_rank b) by (destruct a, b; try contradiction; reflexivity). left; lia.
  - right. destruct a, b, c; try contradiction; try lia.
    + rewrite num_lt_key in *. lia.
    + eapply str_lt_trans; eassumption.
Qed.

(** A preorder view used for dictionaries: the comparison of two scalars is
    that of a total preorder. *)
Lemma scalar_cmp_trans a b c : scalar a -> scalar b -> scalar c ->
  poly_cmp a b <= 0 -> poly_cmp b c <= 0 -> poly_cmp a c <= 0.
Proof.
  intros Ha Hb Hc H1 H2.
  destruct (Z_lt_le_dec 0 (poly_cmp a c)) as [H|H]; [|exact H]. exfalso.
  assert (Hca : poly_cmp c a < 0) by (rewrite (scalar_cmp_swap a c) by assumption; lia).
  destruct (Z.eq_dec (poly_cmp a b) 0) as [Eab|Nab].
  - destruct (Z.eq_dec (poly_cmp b c) 0) as [Ebc|Nbc].
    + apply scalar_cmp_eq in Eab; [|assumption..]. apply scalar_cmp_eq in Ebc; [|assumption..].
      assert (value_eq a c).
      { inv Eab; inv Ebc; try constructor; try contradiction.
        rewrite num_eq_key in *. congruence. }
      apply scalar_cmp_eq in H0; [|assumption..]. lia.
    + assert (Hbc : poly_cmp b c < 0) by lia.
      apply scalar_cmp_lt in Hbc; [|assumption..]. apply scalar_cmp_lt in Hca; [|assumption..].
      assert (Hba : scalar_lt b a) by (eapply scalar_lt_trans; eassumption).
      apply scalar_cmp_lt in Hba; [|assumption..]. rewrite (scalar_cmp_swap a b) in Hba by assumption. lia.
  - assert (Hab : poly_cmp a b < 0) by lia.
    apply scalar_cmp_lt in Hab; [|assumption..]. apply scalar_cmp_lt in Hca; [|assumption..].
    assert (Hcb : scalar_lt c b) by (eapply scalar_lt_trans; eassumption).
    apply scalar_cmp_lt in Hcb; [|assumption..]. rewrite (scalar_cmp_swap b c) in Hcb by assumption. lia.
Qed.

(** ** Lists *)

Fixpoint vsize (v : value) : nat :=
  match v with
  | VSeq _ l => S (fold_right (fun x n => vsize x + n)%nat O l)
  | _ => 1%nat
  end.

Lemma value_ind' (P : value -> Prop) :
  (forall f, P (VNum f)) -> (forall s, P (VStr s)) -> (forall u, P (VFunc u)) -> (forall u, P (VBuiltin u)) ->
  (forall k l, Forall P l -> P (VSeq k l)) -> forall v, P v.
Proof.
  intros Hn Hs Hf Hb Hl. fix IH 1. intros [f|s|k l|u|u].
  - apply Hn. - apply Hs.
  - apply Hl. induction l as [|x l IHl]; constructor; [apply IH|exact IHl].
  - apply Hf. - apply Hb.
Qed.

Lemma canonical_seq k l : canonical (VSeq k l) <-> Forall canonical l.
Proof.
  induction l as [|x l IH]; cbn; split; intros H; try constructor.
  - apply H. - apply IH. apply H.
  - inv H; assumption. - inv H. apply IH. assumption.
Qed.

Lemma canonical_scalar v : canonical v -> (forall k l, v <> VSeq k l) -> scalar v.
Proof. destruct v; cbn; auto. intros _ H. eapply H. reflexivity. Qed.

Lemma poly_cmp_eq a : canonical a -> forall b, canonical b -> (poly_cmp a b = 0 <-> value_eq a b).
Proof.
  induction a as [f|s|u|u|k l IH] using value_ind'; intros Ca b Cb.
  1-4: destruct b as [g|t|k' l'|u'|u']; try (apply scalar_cmp_eq; [exact Ca|exact Cb]);
       (split; [cbn; lia|intros H; inv H]).
  destruct b as [g|t|k' l'|u'|u']; try (split; [cbn; lia|intros H; inv H]).
  rewrite poly_cmp_seq. apply canonical_seq in Ca. apply canonical_seq in Cb.
  cbv zeta. destruct (Z.eqb_spec (lkind_code k - lkind_code k') 0) as [E|E]; cbn [negb].
  - assert (k' = k) by (destruct k, k'; cbn in E; try lia; reflexivity). subst k'. clear E.
    assert (H : list_cmp_loop l l' = 0 <-> Forall2 value_eq l l').
    { revert l' Cb. induction l as [|x l IHl]; intros [|y l'] Cb; cbn [list_cmp_loop].
      - split; [constructor|reflexivity].
      - split; [lia|intros H; inv H].
      - split; [lia|intros H; inv H].
      - inv Ca. inv Cb. inv IH. specialize (H5 H1 y H3).
        destruct (Z.eqb_spec (poly_cmp x y) 0) as [E|E]; cbn [negb].
        + rewrite IHl by assumption. split; intros H; [constructor; tauto|inv H; assumption].
        + split; [congruence|]. intros H; inv H. tauto. }
    rewrite H. split; [intros; constructor; assumption|intros H'; inv H'; assumption].
  - split; [congruence|]. intros H; inv H. lia.
Qed.

Lemma value_lt_scalar_inv a b : value_lt a b -> (forall k l, a <> VSeq k l) \/ (forall k l, b <> VSeq k l) -> scalar_lt a b.
Proof. intros H Hn. inv H; [assumption|exfalso..]; destruct Hn as [Hn|Hn]; eapply Hn; reflexivity. Qed.

Lemma poly_cmp_lt a : canonical a -> forall b, canonical b -> no_prefix a b ->
  (poly_cmp a b < 0 <-> value_lt a b) /\ Z.sgn (poly_cmp b a) = - Z.sgn (poly_cmp a b).
Proof.
  induction a as [f|s|u|u|k l IH] using value_ind'; intros Ca b Cb Np.
  1-4: (destruct b as [g|t|k' l'|u'|u'];
       [.. |
        ] ;
       try (assert (Hsc : poly_cmp (VBuiltin 0) (VBuiltin 0) = 0) by reflexivity;
            clear Hsc;
            split; [rewrite scalar_cmp_lt by (first [exact Ca|exact Cb|exact I]);
                    split; [intros; apply vlt_scalar; assumption
                           |intros H; apply value_lt_scalar_inv in H; [assumption|left; congruence]]
                   |rewrite (scalar_cmp_swap) by (first [exact Ca|exact Cb|exact I]); lia])).
  1-4: (split; [|rewrite !poly_cmp_kinds by (cbn; lia); cbn [kind_rank]; lia]);
       rewrite poly_cmp_kinds by (cbn; lia); cbn [kind_rank];
       (split; [intros H; apply vlt_scalar; left; cbn [kind_rank]; lia
               |intros H; apply value_lt_scalar_inv in H; [|left; congruence];
                destruct H as [H|H]; [cbn [kind_rank] in H; lia|contradiction]]).
  destruct b as [g|t|k' l'|u'|u'].
  1,2,4,5: (split; [|rewrite !poly_cmp_kinds by (cbn; lia); cbn [kind_rank]; lia]);
       rewrite poly_cmp_kinds by (cbn; lia); cbn [kind_rank];
       (split; [intros H; apply vlt_scalar; left; cbn [kind_rank]; lia
               |intros H; apply value_lt_scalar_inv in H; [|right; congruence];
                destruct H as [H|H]; [cbn [kind_rank] in H; lia|contradiction]]).
  rewrite !poly_cmp_seq. apply canonical_seq in Ca. apply canonical_seq in Cb. cbv zeta.
  destruct (Z.eqb_spec (lkind_code k - lkind_code k') 0) as [E|E]; cbn [negb].
  - assert (k' = k) by (destruct k, k'; cbn in E; try lia; reflexivity). subst k'. clear E.
    rewrite Z.sub_diag. cbn [Z.eqb negb].
    assert (Hn : np_list l l').
    { inv Np; [exfalso; destruct H as [H|H]; eapply H; reflexivity|congruence|assumption]. }
    assert (H : (list_cmp_loop l l' < 0 <-> seq_lt l l') /\
                Z.sgn (list_cmp_loop l' l) = - Z.sgn (list_cmp_loop l l')).
    { clear Np. revert l' Cb Hn. induction l as [|x l IHl]; intros l' Cb Hn.
      - inv Hn. cbn. split; [|reflexivity]. split; [lia|intros H; inv H].
      - inversion Ca as [|? ? Cx Cl]; subst. inversion IH as [|? ? IHx IHr]; subst.
        inversion Hn as [|? y ? l'0 Hxy Hd|? y ? l'0 Hxy Hd Hr]; subst;
        inversion Cb as [|? ? Cy Cl']; subst.
        + destruct (IHx Cx y Cy Hxy) as [IH1 IH2]. cbn [list_cmp_loop].
          rewrite <- poly_cmp_eq in Hd by assumption.
          replace (poly_cmp x y =? 0) with false by (symmetry; apply Z.eqb_neq; assumption).
          replace (poly_cmp y x =? 0) with false by (symmetry; apply Z.eqb_neq; lia).
          cbn [negb]. split; [|lia]. rewrite IH1. split; [intros; apply slt_head; assumption|].
          intros H; inversion H as [|? ? ? ? Hlt|? ? ? ? He Hlt]; subst; [assumption|]. exfalso.
          apply poly_cmp_eq in He; [|assumption..]. lia.
        + destruct (IHx Cx y Cy Hxy) as [IH1 IH2]. cbn [list_cmp_loop].
          rewrite <- poly_cmp_eq in Hd by assumption. rewrite Hd in *. replace (poly_cmp y x) with 0 by lia. cbn [Z.eqb negb].
          destruct (IHl IHr Cl l'0 Cl' Hr) as [IH3 IH4]. split; [|exact IH4].
          rewrite IH3. split.
          * intros; apply slt_tail; [apply poly_cmp_eq; assumption|assumption].
          * intros H; inversion H as [|? ? ? ? Hlt|? ? ? ? He Hlt]; subst; [apply IH1 in Hlt; lia|assumption]. }
    destruct H as [H1 H2]. split; [|exact H2]. rewrite H1.
    split; [intros; apply vlt_seq; assumption|].
    intros H; inv H; [|lia|assumption]. destruct H0 as [H0|H0]; [cbn in H0; lia|contradiction].
  - replace (lkind_code k' - lkind_code k =? 0) with false by lia. cbn [negb].
    split; [|lia]. split; [intros; apply vlt_kind; lia|].
    intros H; inv H; [destruct H0 as [H0|H0]; [cbn in H0; lia|contradiction]|lia|lia].
Qed.

(** ** The operators *)

Lemma not_nan_value a b : is_nan_value a || is_nan_value b = false -> is_nan_value a = false /\ is_nan_value b = false.
Proof. apply orb_false_iff. Qed.

Lemma compare_lt_ops a b : is_nan_value a = false -> is_nan_value b = false ->
  forall (L E G : Prop), (poly_cmp a b < 0 <-> L) -> (poly_cmp a b = 0 <-> E) -> (0 < poly_cmp a b <-> G) ->
  (snek_compare OLt a b = true <-> L) /\ (snek_compare OGt a b = true <-> G) /\
  (snek_compare OEq a b = true <-> E) /\ (snek_compare ONe a b = true <-> ~ E) /\
  (snek_compare OLe a b = true <-> L \/ E) /\ (snek_compare OGe a b = true <-> G \/ E).
Proof.
  intros Ha Hb L E G HL HE HG. unfold snek_compare. rewrite Ha, Hb. cbn [orb].
  rewrite <- HL, <- HE, <- HG. repeat split; intros; lia.
Qed.

Lemma scalar_ops a b : scalar a -> scalar b -> is_nan_value a = false -> is_nan_value b = false ->
  (snek_compare OLt a b = true <-> scalar_lt a b) /\ (snek_compare OGt a b = true <-> scalar_lt b a) /\
  (snek_compare OEq a b = true <-> value_eq a b) /\ (snek_compare ONe a b = true <-> ~ value_eq a b) /\
  (snek_compare OLe a b = true <-> scalar_lt a b \/ value_eq a b) /\
  (snek_compare OGe a b = true <-> scalar_lt b a \/ value_eq a b).
Proof.
  intros Ha Hb Na Nb. apply compare_lt_ops; try assumption.
  - apply scalar_cmp_lt; assumption.
  - apply scalar_cmp_eq; assumption.
  - rewrite <- scalar_cmp_lt, (scalar_cmp_swap a b) by assumption. lia.
Qed.

Lemma scalar_trichotomy a b : scalar a -> scalar b -> 
  (scalar_lt a b /\ ~ value_eq a b /\ ~ scalar_lt b a) \/
  (~ scalar_lt a b /\ value_eq a b /\ ~ scalar_lt b a) \/
  (~ scalar_lt a b /\ ~ value_eq a b /\ scalar_lt b a).
Proof.
  intros Ha Hb. rewrite <- !scalar_cmp_lt, <- scalar_cmp_eq by assumption.
  rewrite (scalar_cmp_swap a b) by assumption. lia.
Qed.

Lemma nan_ops op a b : is_nan_value a = true \/ is_nan_value b = true ->
  snek_compare op a b = match op with ONe => true | _ => false end.
Proof.
  intros H. unfold snek_compare. replace (is_nan_value a || is_nan_value b) with true; [reflexivity|].
  symmetry; apply orb_true_iff; exact H.
Qed.

Lemma list_eq_op a b : canonical a -> canonical b -> is_nan_value a = false -> is_nan_value b = false ->
  (snek_compare OEq a b = true <-> value_eq a b) /\ (snek_compare ONe a b = true <-> ~ value_eq a b).
Proof.
  intros Ca Cb Na Nb. unfold snek_compare. rewrite Na, Nb. cbn [orb].
  rewrite <- poly_cmp_eq by assumption. lia.
Qed.

Lemma list_order_ops a b : canonical a -> canonical b -> no_prefix a b ->
  is_nan_value a = false -> is_nan_value b = false -> 
  (snek_compare OLt a b = true <-> value_lt a b) /\
  (snek_compare OGe a b = true <-> ~ value_lt a b) /\
  (snek_compare OGt a b = snek_compare OLt b a) /\
  (snek_compare OLe a b = snek_compare OGe b a).
Proof.
  intros Ca Cb Np Na Nb. destruct (poly_cmp_lt a Ca b Cb Np) as [H1 H2].
  unfold snek_compare. rewrite Na, Nb. cbn [orb]. rewrite <- H1. lia.
Qed.

Lemma prefix_cmp k l l' : canonical (VSeq k (l ++ l')) -> l' <> [] ->
  poly_cmp (VSeq k l) (VSeq k (l ++ l')) = 1 /\ poly_cmp (VSeq k (l ++ l')) (VSeq k l) = 1.
Proof.
  intros C Hn. rewrite !poly_cmp_seq. cbv zeta. rewrite Z.sub_diag. cbn [Z.eqb negb].
  apply canonical_seq in C. induction l as [|x l IH]; cbn [app list_cmp_loop].
  - destruct l'; [congruence|]. split; reflexivity.
  - inversion C as [|? ? Cx Cl]; subst.
    assert (value_eq x x).
    { clear. induction x as [f|s|u|u|k l IH] using value_ind'; try constructor.
      - apply num_eq_key. reflexivity.
      - induction IH; constructor; assumption. }
    apply poly_cmp_eq in H; [|assumption..]. rewrite H. cbn [Z.eqb negb]. apply IH. exact Cl.
Qed.
