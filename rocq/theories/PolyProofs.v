From Flocq Require Import IEEE754.Binary IEEE754.Bits IEEE754.BinarySingleNaN Core.
From Verif Require Import Tac Base FloatModel PolyModel.
Local Open Scope Z_scope.

(** ** Masks as arithmetic *)

Lemma land_top_mask u : 0 <= u < 2 ^ 32 ->
  Z.land u SNEK_EXPONENT_MASK = 2 ^ 23 * (u / 2 ^ 23).
Proof.
  intros Hu.
  replace SNEK_EXPONENT_MASK with (Z.shiftl (Z.ones 9) 23) by reflexivity.
  rewrite (Z.mul_comm (2^23)), <- Z.shiftl_mul_pow2, <- Z.shiftr_div_pow2 by lia.
  apply Z.bits_inj'; intros n Hn.
  rewrite Z.land_spec, !Z.shiftl_spec by lia.
  destruct (Z.ltb_spec n 23).
  - rewrite !(Z.testbit_neg_r _ (n - 23)) by lia. apply andb_false_r.
  - rewrite Z.shiftr_spec by lia. replace (n - 23 + 23) with n by lia.
    destruct (Z.ltb_spec n 32).
    + rewrite Z.ones_spec_low by lia. apply andb_true_r.
    + rewrite Z.ones_spec_high by lia. rewrite andb_false_r.
      destruct (Z.eq_dec u 0) as [->|Hz]; [now rewrite Z.bits_0|].
      symmetry. apply Z.bits_above_log2; [lia|].
      apply Z.log2_lt_pow2; [lia|]. eapply Z.lt_le_trans; [apply Hu|].
      apply Z.pow_le_mono_r; lia.
Qed.

Lemma is_float_spec u : 0 <= u < 2 ^ 32 ->
  snek_is_float u = true <-> u <= 2 ^ 32 - 2 ^ 23.
Proof.
  intros Hu. unfold snek_is_float. rewrite land_top_mask by exact Hu.
  unfold SNEK_EXPONENT_MASK, SNEK_NINF.
  change (2 ^ 32) with 4294967296 in *. change (2 ^ 23) with 8388608 in *. lia.
Qed.

Lemma is_float_false u : 0 <= u < 2 ^ 32 ->
  snek_is_float u = false <-> 2 ^ 32 - 2 ^ 23 < u.
Proof.
  intros Hu. pose proof (is_float_spec u Hu). destruct (snek_is_float u); lia.
Qed.

Lemma land_off_mask u : 0 <= u < 2 ^ 32 ->
  Z.land u SNEK_OFFSET_MASK = (u mod 2 ^ 23) - (u mod 4).
Proof.
  intros Hu.
  replace SNEK_OFFSET_MASK with (Z.land (Z.ones 23) (Z.lnot (Z.ones 2))) by reflexivity.
  rewrite Z.land_assoc, Z.land_ones by lia.
  rewrite <- Z.ldiff_land.
  rewrite Z.ldiff_ones_r by lia.
  rewrite Z.shiftl_mul_pow2, Z.shiftr_div_pow2 by lia.
  change (2 ^ 2) with 4. change (2 ^ 23) with 8388608. lia.
Qed.

Lemma land_tag u : Z.land u 3 = u mod 4.
Proof. change 3 with (Z.ones 2). rewrite Z.land_ones by lia. reflexivity. Qed.

Lemma lor_add a b n : 0 <= n -> 0 <= b < 2 ^ n -> a mod 2 ^ n = 0 -> Z.lor a b = a + b.
Proof.
  intros Hn Hb Ha. symmetry.
  rewrite Z.add_nocarry_lxor.
  - symmetry. rewrite Z.lxor_lor; [reflexivity|].
    apply Z.bits_inj'; intros k Hk. rewrite Z.land_spec, Z.bits_0.
    destruct (Z.ltb_spec k n).
    + replace (Z.testbit a k) with false; [reflexivity|].
      assert (Ha' : a = Z.shiftl (a / 2 ^ n) n).
      { rewrite Z.shiftl_mul_pow2 by lia. pose proof (Z.div_mod a (2 ^ n)). nia. }
      rewrite Ha', Z.shiftl_spec_low by lia. reflexivity.
    + destruct (Z.eq_dec b 0) as [->|]; [rewrite Z.bits_0; apply andb_false_r|].
      rewrite (Z.bits_above_log2 b); [apply andb_false_r|lia|].
      apply Z.log2_lt_pow2; [lia|]. eapply Z.lt_le_trans; [apply Hb|].
      apply Z.pow_le_mono_r; lia.
  - apply Z.bits_inj'; intros k Hk. rewrite Z.land_spec, Z.bits_0.
    destruct (Z.ltb_spec k n).
    + replace (Z.testbit a k) with false; [reflexivity|].
      assert (Ha' : a = Z.shiftl (a / 2 ^ n) n).
      { rewrite Z.shiftl_mul_pow2 by lia. pose proof (Z.div_mod a (2 ^ n)). nia. }
      rewrite Ha', Z.shiftl_spec_low by lia. reflexivity.
    + destruct (Z.eq_dec b 0) as [->|]; [rewrite Z.bits_0; apply andb_false_r|].
      rewrite (Z.bits_above_log2 b); [apply andb_false_r|lia|].
      apply Z.log2_lt_pow2; [lia|]. eapply Z.lt_le_trans; [apply Hb|].
      apply Z.pow_le_mono_r; lia.
Qed.

Definition aligned_offset (o : Z) : Prop := 0 <= o < 2 ^ 23 /\ o mod 4 = 0.
Definition ref_type (t : ptype) : Prop := t <> TFloat.

Lemma tag_range t : ref_type t -> 0 <= ptype_code t < 4.
Proof. destruct t; unfold ref_type; cbn; intros; try lia. congruence. Qed.

Lemma offset_to_poly_val o t : aligned_offset o -> ref_type t ->
  snek_offset_to_poly o t = (2 ^ 32 - 2 ^ 23) + o + ptype_code t.
Proof.
  intros [Ho Ha] Ht. unfold snek_offset_to_poly.
  rewrite (lor_add SNEK_EXPONENT_MASK o 23); [|lia|lia|reflexivity].
  rewrite (lor_add _ (ptype_code t) 2).
  - reflexivity.
  - lia.
  - apply tag_range in Ht. change (2^2) with 4. lia.
  - change (2 ^ 2) with 4. unfold SNEK_EXPONENT_MASK. lia.
Qed.

Lemma ref_round_trip o t : aligned_offset o -> ref_type t ->
  (t = TBuiltin -> o <> 0) ->
  0 <= snek_offset_to_poly o t < 2 ^ 32 /\
  snek_poly_type (snek_offset_to_poly o t) = t /\
  snek_poly_to_offset (snek_offset_to_poly o t) = o.
Proof.
  intros Ho Ht Hb. rewrite offset_to_poly_val by assumption.
  pose proof (tag_range t Ht) as Hr. destruct Ho as [Ho Ha].
  assert (H0 : 0 < o + ptype_code t).
  { destruct t; cbn in *; try lia; try congruence. }
  set (u := 2 ^ 32 - 2 ^ 23 + o + ptype_code t) in *.
  assert (Hu : 0 <= u < 2 ^ 32).
  { subst u. change (2 ^ 32) with 4294967296 in *. change (2 ^ 23) with 8388608 in *. lia. }
  split; [exact Hu|]. split.
  - unfold snek_poly_type.
    replace (snek_is_float u) with false by (symmetry; apply is_float_false; [exact Hu|]; subst u; lia).
    rewrite land_tag. replace (u mod 4) with (ptype_code t).
    + destruct t; try reflexivity. congruence.
    + subst u. change (2 ^ 32) with 4294967296 in *. change (2 ^ 23) with 8388608 in *. lia.
  - unfold snek_poly_to_offset. rewrite land_off_mask by exact Hu.
    subst u. change (2 ^ 32) with 4294967296 in *. change (2 ^ 23) with 8388608 in *. lia.
Qed.

(** Every word that is not a number is exactly one reference. *)
Lemma ref_surjective u : 0 <= u < 2 ^ 32 -> snek_poly_type u <> TFloat ->
  aligned_offset (snek_poly_to_offset u) /\
  snek_offset_to_poly (snek_poly_to_offset u) (snek_poly_type u) = u.
Proof.
  intros Hu Ht. unfold snek_poly_type in *.
  destruct (snek_is_float u) eqn:E; [congruence|].
  apply is_float_false in E; [|exact Hu].
  assert (Ha : aligned_offset (snek_poly_to_offset u)).
  { unfold aligned_offset, snek_poly_to_offset. rewrite land_off_mask by exact Hu.
    change (2 ^ 23) with 8388608 in *. lia. }
  split; [exact Ha|].
  rewrite offset_to_poly_val; [|exact Ha|exact Ht].
  unfold snek_poly_to_offset. rewrite land_off_mask by exact Hu.
  rewrite land_tag in *. unfold ptype_of_tag in *.
  change (2 ^ 32) with 4294967296 in *. change (2 ^ 23) with 8388608 in *.
  destruct (Z.eqb_spec (u mod 4) 0); cbn [ptype_code]; [lia|].
  destruct (Z.eqb_spec (u mod 4) 1); cbn [ptype_code]; [lia|].
  destruct (Z.eqb_spec (u mod 4) 2); cbn [ptype_code]; lia.
Qed.

Lemma bits_range f : 0 <= bits_of_f f < 2 ^ 32.
Proof.
  unfold bits_of_f, bits_of_b32.
  assert (H := bits_of_binary_float_range 23 8 eq_refl eq_refl f).
  change (23 + 8 + 1) with 32 in H. exact H.
Qed.

Lemma of_bits_of_f f : f_of_bits (bits_of_f f) = f.
Proof.
  unfold f_of_bits, bits_of_f, b32_of_bits, bits_of_b32.
  exact (binary_float_of_bits_of_binary_float 23 8 eq_refl eq_refl eq_refl f).
Qed.

Lemma bits_of_of_bits u : 0 <= u < 2 ^ 32 -> bits_of_f (f_of_bits u) = u.
Proof.
  intros Hu. unfold f_of_bits, bits_of_f, b32_of_bits, bits_of_b32.
  exact (bits_of_binary_float_of_bits 23 8 eq_refl eq_refl eq_refl u Hu).
Qed.

(** The bit pattern of a float that is not a NaN is at most that of -inf. *)
Lemma bits_non_nan f : f_is_nan f = false -> bits_of_f f <= 2 ^ 32 - 2 ^ 23.
Proof.
  intros Hn. unfold bits_of_f, bits_of_b32.
  destruct f as [s|s|s pl H|s m e H]; cbn in Hn; try discriminate.
  - destruct s; cbn; lia.
  - destruct s; cbn; lia.
  - unfold bits_of_binary_float.
    apply (proj1 (Bool.andb_true_iff _ _)) in H as Hb. destruct Hb as [Hc He].
    unfold SpecFloat.canonical_mantissa in Hc. apply Zeq_bool_eq in Hc.
    unfold SpecFloat.fexp, SpecFloat.emin in Hc. apply Zle_bool_imp_le in He.
    rewrite Digits.Zpos_digits2_pos in Hc.
    pose proof (Digits.Zdigits_correct radix2 (Z.pos m)) as Hd.
    destruct Hd as [Hd1 Hd2]. rewrite Z.abs_eq in Hd1, Hd2 by lia.
    set (d := Digits.Zdigits radix2 (Z.pos m)) in *.
    assert (Hd0 : 0 < d) by (apply Digits.Zdigits_gt_0; lia).
    assert (Hdle : d <= 24) by lia.
    assert (Hm : Z.pos m < 2 ^ 24).
    { eapply Z.lt_le_trans; [exact Hd2|]. apply (Z.pow_le_mono_r 2); lia. }
    unfold join_bits. change (2 ^ 23) with 8388608 in *. change (2 ^ 24) with 16777216 in *.
    change (2 ^ 8) with 256. change (2 ^ 32) with 4294967296.
    rewrite Z.shiftl_mul_pow2 by lia. change (2 ^ 23) with 8388608.
    change (SpecFloat.emin (23 + 1) (2 ^ (8 - 1))) with (-149).
    clear Hd1 Hd2. rewrite !Z.shiftl_mul_pow2 by lia. change (2 ^ 23) with 8388608.
    destruct (0 <=? Z.pos m - 8388608) eqn:E; destruct s; lia.
Qed.

Lemma float_to_poly_range f : 0 <= snek_float_to_poly f < 2 ^ 32.
Proof.
  unfold snek_float_to_poly. destruct (f_is_nan f); [unfold SNEK_NAN_U; lia|apply bits_range].
Qed.

Lemma float_to_poly_type f : snek_poly_type (snek_float_to_poly f) = TFloat.
Proof.
  unfold snek_poly_type.
  replace (snek_is_float (snek_float_to_poly f)) with true; [reflexivity|].
  symmetry. apply is_float_spec; [apply float_to_poly_range|].
  unfold snek_float_to_poly. destruct (f_is_nan f) eqn:E; [unfold SNEK_NAN_U; lia|].
  apply bits_non_nan. exact E.
Qed.

Lemma float_to_poly_back f : f_is_nan f = false ->
  snek_poly_to_float (snek_float_to_poly f) = f.
Proof.
  intros H. unfold snek_poly_to_float, snek_float_to_poly. rewrite H. apply of_bits_of_f.
Qed.

Lemma float_to_poly_nan f : f_is_nan f = true ->
  snek_float_to_poly f = SNEK_NAN_U /\ f_is_nan (snek_poly_to_float SNEK_NAN_U) = true.
Proof. intros H. unfold snek_float_to_poly. rewrite H. split; reflexivity. Qed.

Lemma number_not_reference f o t : aligned_offset o -> ref_type t -> (t = TBuiltin -> o <> 0) ->
  snek_float_to_poly f <> snek_offset_to_poly o t.
Proof.
  intros Ho Ht Hb E. pose proof (float_to_poly_type f) as Hf. rewrite E in Hf.
  destruct (ref_round_trip o t Ho Ht Hb) as (_ & H & _). rewrite H in Hf. contradiction.
Qed.

Lemma word_reading u : 0 <= u < 2 ^ 32 ->
  (snek_poly_type u = TFloat /\
   forall o t, aligned_offset o -> ref_type t -> (t = TBuiltin -> o <> 0) ->
     u <> snek_offset_to_poly o t) \/
  (exists o t, aligned_offset o /\ ref_type t /\ (t = TBuiltin -> o <> 0) /\
     u = snek_offset_to_poly o t /\
     (forall f, snek_float_to_poly f <> u) /\
     forall o' t', aligned_offset o' -> ref_type t' -> (t' = TBuiltin -> o' <> 0) ->
       u = snek_offset_to_poly o' t' -> o' = o /\ t' = t).
Proof.
  intros Hu. destruct (snek_poly_type u) eqn:E.
  5: { left. split; [reflexivity|]. intros o t Ho Ht Hb ->.
       destruct (ref_round_trip o t Ho Ht Hb) as (_ & H & _). congruence. }
  all: right; (assert (Hn : snek_poly_type u <> TFloat) by congruence);
    destruct (ref_surjective u Hu Hn) as [Ha Hr]; rewrite E in Hr;
    assert (Hb : snek_poly_type u = TBuiltin -> snek_poly_to_offset u <> 0)
      by (intros Hb Hz; rewrite Hb in E; inv E; rewrite Hz in Hr; rewrite <- Hr in Hn;
          apply Hn; reflexivity);
    rewrite E in Hb;
    exists (snek_poly_to_offset u); eexists; (split; [exact Ha|]);
    (split; [|split; [|split; [symmetry; exact Hr|split]]]);
    [discriminate | first [exact Hb | discriminate] | |].
  all: try (intros f Hf; pose proof (float_to_poly_type f) as H1; rewrite Hf in H1; congruence).
  all: intros o' t' Ho' Ht' Hb' E'; destruct (ref_round_trip o' t' Ho' Ht' Hb') as (_ & H1 & H2);
    rewrite <- E' in H1, H2; split; congruence.
Qed.

Lemma builtin_id_round_trip id : 1 <= id < 2 ^ 21 ->
  snek_poly_type (snek_builtin_func_to_poly id) = TBuiltin /\
  snek_poly_to_builtin_id (snek_builtin_func_to_poly id) = id.
Proof.
  intros Hid. unfold snek_builtin_func_to_poly, snek_poly_to_builtin_id.
  rewrite Z.shiftl_mul_pow2, Z.shiftr_div_pow2 by lia. change (2 ^ 2) with 4.
  change (2 ^ 21) with 2097152 in Hid.
  destruct (ref_round_trip (id * 4) TBuiltin) as (_ & H1 & H2).
  - unfold aligned_offset. change (2 ^ 23) with 8388608. lia.
  - discriminate.
  - lia.
  - split; [exact H1|]. rewrite H2. lia.
Qed.
