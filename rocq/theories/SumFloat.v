(** The operations of fsum on numbers as operations on integers. *)
From Coq Require Import ZArith Reals Lia Lra Bool List.
From Flocq Require Import IEEE754.BinarySingleNaN IEEE754.Binary IEEE754.Bits Core.
From Verif Require Import Base FloatModel MathModel SumModel SumInt SumExact SumRound.
Import ListNotations.
Local Open Scope Z_scope.

Notation val f := (B2R 24 128 f).
(** the value in units of 2^-149 *)
Definition V (f : float) : Z := match f with Binary.B754_finite s m e _ => cond_Zopp s (Zpos m) * 2 ^ (e + 149) | _ => 0 end.
Definition maxv : Z := (2 ^ 24 - 1) * 2 ^ 253.

Lemma emin_le m e (H : SpecFloat.bounded 24 128 m e = true) : -149 <= e.
Proof.
  unfold SpecFloat.bounded in H. apply andb_prop in H. destruct H as [H _]. unfold SpecFloat.canonical_mantissa in H.
  apply Zeq_bool_eq in H. unfold SpecFloat.fexp, SpecFloat.emin in H. lia.
Qed.
Lemma V_val f : val f = (IZR (V f) * SumInt.unit)%R.
Proof.
  destruct f as [s|s|s pl H|s m e H]; cbn [B2R V]; try (rewrite Rmult_0_l; reflexivity).
  pose proof (emin_le m e H) as L. unfold F2R. cbn [Fnum Fexp]. rewrite mult_IZR, IZR_pow by lia.
  rewrite Rmult_assoc. f_equal. unfold SumInt.unit. rewrite <- bpow_plus. f_equal. lia.
Qed.
Lemma V_fits f : fits (V f).
Proof. apply fits_format. rewrite <- V_val. apply generic_format_B2R. Qed.
Lemma max_real z : fits z -> ((Rabs (IZR z * SumInt.unit) < bpow radix2 128)%R <-> Z.abs z <= maxv).
Proof.
  intros F. rewrite Rabs_mult, (Rabs_pos_eq SumInt.unit), <- abs_IZR by (left; apply unit_pos).
  replace (bpow radix2 128) with (IZR (2 ^ 277) * SumInt.unit)%R.
  2:{ rewrite IZR_pow by lia. unfold SumInt.unit. now rewrite <- bpow_plus. }
  split; intros H.
  - apply Rmult_lt_reg_r in H; [|apply unit_pos]. apply lt_IZR in H.
    destruct (Z.le_gt_cases (Z.abs z) maxv) as [?|G]; [assumption|exfalso].
    assert (E : ex z = 253).
    { unfold ex. rewrite (Z.log2_unique (Z.abs z) 276); [reflexivity|lia|].
      assert (2 ^ 276 <= maxv) by (unfold maxv; apply Z.leb_le; reflexivity). change (Z.succ 276) with 277. lia. }
    apply fits_grid in F. rewrite E in F. destruct F as [k F]. assert (P : 0 < 2 ^ 253) by (apply pow_pos; lia).
    subst z. rewrite Z.abs_mul, (Z.abs_eq (2 ^ 253)) in * by lia. unfold maxv in G.
    replace (2 ^ 277) with (2 ^ 24 * 2 ^ 253) in H by reflexivity. set (p := 2 ^ 253) in *. change (2 ^ 24) with 16777216 in *. nia.
  - apply Rmult_lt_compat_r; [apply unit_pos|]. apply IZR_lt. assert (maxv < 2 ^ 277) by (unfold maxv; apply Z.ltb_lt; reflexivity). lia.
Qed.
Lemma V_max f : Z.abs (V f) <= maxv.
Proof. apply max_real; [apply V_fits|]. rewrite <- V_val. apply abs_B2R_lt_emax. Qed.
Lemma V_zero f : f_is_finite f = false -> V f = 0.
Proof. now destruct f. Qed.
Notation fin f := (f_is_finite f = true).

Lemma fadd_ok a b : fin a -> fin b -> Z.abs (rnd (V a + V b)) <= maxv -> fin (fadd a b) /\ V (fadd a b) = rnd (V a + V b).
Proof.
  intros A B M. pose proof (Bplus_correct 24 128 eq_refl eq_refl binop_nan_pl32 mode_NE a b A B) as C.
  cbn [round_mode] in C. change (SpecFloat.fexp 24 128) with (FLT_exp (-149) 24) in C.
  rewrite !V_val, <- Rmult_plus_distr_r, <- plus_IZR, rnd_round in C.
  rewrite Rlt_bool_true in C by (apply max_real; [apply rnd_fits|exact M]). destruct C as (C1 & C2 & _).
  split; [exact C2|]. apply unit_inj. exact C1.
Qed.
Lemma fadd_fin a b : fin (fadd a b) -> fin a /\ fin b /\ V (fadd a b) = rnd (V a + V b).
Proof.
  intros F. assert (A : fin a /\ fin b).
  { clear -F. destruct a as [s|s|s pl H|s m e H], b as [s'|s'|s' pl' H'|s' m' e' H']; try (split; reflexivity);
      exfalso; revert F; unfold fadd, b32_plus, Binary.Bplus; cbn; try discriminate; destruct (Bool.eqb _ _); discriminate. }
  destruct A as [A B]. split; [exact A|]. split; [exact B|].
  destruct (Z.le_gt_cases (Z.abs (rnd (V a + V b))) maxv) as [M|M]; [now apply fadd_ok|exfalso].
  pose proof (Bplus_correct 24 128 eq_refl eq_refl binop_nan_pl32 mode_NE a b A B) as C.
  cbn [round_mode] in C. change (SpecFloat.fexp 24 128) with (FLT_exp (-149) 24) in C.
  rewrite !V_val, <- Rmult_plus_distr_r, <- plus_IZR, rnd_round in C.
  rewrite Rlt_bool_false in C.
  - destruct C as [C _]. revert F C. unfold fadd, b32_plus, f_is_finite. destruct (Binary.Bplus 24 128 _ _ _ _ _ _); discriminate.
  - apply Rnot_lt_le. intro Q. apply max_real in Q; [lia|apply rnd_fits].
Qed.
Lemma fsub_ok a b : fin a -> fin b -> Z.abs (rnd (V a - V b)) <= maxv -> fin (fsub a b) /\ V (fsub a b) = rnd (V a - V b).
Proof.
  intros A B M. pose proof (Bminus_correct 24 128 eq_refl eq_refl binop_nan_pl32 mode_NE a b A B) as C.
  cbn [round_mode] in C. change (SpecFloat.fexp 24 128) with (FLT_exp (-149) 24) in C.
  rewrite !V_val, <- Rmult_minus_distr_r, <- minus_IZR, rnd_round in C.
  rewrite Rlt_bool_true in C by (apply max_real; [apply rnd_fits|exact M]). destruct C as (C1 & C2 & _).
  split; [exact C2|]. apply unit_inj. exact C1.
Qed.
Lemma V_two : fin f_two /\ val f_two = 2%R.
Proof. split; [reflexivity|]. unfold f_two. cbn. unfold F2R. cbn. lra. Qed.
Lemma fmul_two a : fin a -> Z.abs (rnd (V a * 2)) <= maxv -> fin (fmul a f_two) /\ V (fmul a f_two) = rnd (V a * 2).
Proof.
  intros A M. destruct V_two as [B VB]. pose proof (Bmult_correct 24 128 eq_refl eq_refl binop_nan_pl32 mode_NE a f_two) as C.
  cbn [round_mode] in C. change (SpecFloat.fexp 24 128) with (FLT_exp (-149) 24) in C.
  rewrite VB, V_val in C. replace (IZR (V a) * SumInt.unit * 2)%R with (IZR (V a * 2) * SumInt.unit)%R in C by (rewrite mult_IZR; lra).
  rewrite rnd_round in C. rewrite Rlt_bool_true in C by (apply max_real; [apply rnd_fits|exact M]).
  destruct C as (C1 & C2 & _). unfold f_is_finite in A, B. rewrite A, B in C2.
  split; [exact C2|]. apply unit_inj. rewrite <- V_val. exact C1.
Qed.
Lemma cmp_V a b : fin a -> fin b -> b32_compare a b = Some (Z.compare (V a) (V b)).
Proof.
  intros A B. unfold b32_compare. rewrite (Binary.Bcompare_correct 24 128 a b A B). f_equal. rewrite !V_val.
  destruct (Z.compare_spec (V a) (V b)) as [E|L|L].
  - rewrite E. now apply Rcompare_Eq.
  - apply Rcompare_Lt, Rmult_lt_compat_r; [apply unit_pos|now apply IZR_lt].
  - apply Rcompare_Gt, Rmult_lt_compat_r; [apply unit_pos|now apply IZR_lt].
Qed.
Lemma feq_V a b : fin a -> fin b -> feq a b = (V a =? V b).
Proof. intros A B. unfold feq. rewrite cmp_V by assumption. unfold Z.eqb. destruct (Z.compare_spec (V a) (V b)); symmetry; [apply Z.eqb_eq|apply Z.eqb_neq|apply Z.eqb_neq]; lia. Qed.
Lemma flt_V a b : fin a -> fin b -> flt a b = (V a <? V b).
Proof. intros A B. unfold flt. rewrite cmp_V by assumption. unfold Z.ltb. now destruct (V a ?= V b). Qed.
Lemma abs_V a : V (f_abs a) = Z.abs (V a).
Proof.
  apply unit_inj. rewrite <- V_val. unfold f_abs, b32_abs. rewrite B2R_Babs, V_val, Rabs_mult, (Rabs_pos_eq SumInt.unit), abs_IZR; [reflexivity|left; apply unit_pos].
Qed.
Lemma abs_fin a : fin a -> fin (f_abs a).
Proof. unfold f_is_finite, f_abs, b32_abs. now rewrite is_finite_Babs. Qed.
Lemma feq_inf a b : fin a -> f_is_finite b = false -> feq a b = false.
Proof. intros A B. unfold feq, b32_compare. destruct a as [s|s|s pl H|s m e H], b as [s'|s'|s' pl' H'|s' m' e' H']; try discriminate; try destruct s; try destruct s'; reflexivity. Qed.
Lemma fsub_inf a b : f_is_finite a = false -> fin b -> f_is_finite (fsub a b) = false.
Proof.
  intros A B. unfold fsub, b32_minus, Binary.Bminus, f_is_finite.
  destruct a as [s|s|s pl H|s m e H], b as [s'|s'|s' pl' H'|s' m' e' H']; try discriminate; reflexivity.
Qed.

(** the parts of a sum *)
Lemma parts_V x y : fin x -> fin y -> Z.abs (V y) <= Z.abs (V x) -> fin (fadd x y) ->
  let lo := fsub y (fsub (fadd x y) x) in fin lo /\ V lo = V x + V y - V (fadd x y).
Proof.
  intros X Y L F lo. destruct (fadd_fin x y F) as (_ & _ & E).
  destruct (parts_bound (V x) (V y) (V_fits x) (V_fits y) L) as [B1 B2]. rewrite <- E in B1, B2.
  destruct (fsub_ok (fadd x y) x F X) as [F1 E1].
  { rewrite E in *. pose proof (V_max (fadd x y)). pose proof (V_max x). lia. }
  destruct (fsub_ok y (fsub (fadd x y) x) Y F1) as [F2 E2].
  { rewrite E1, E. rewrite two_sum by (auto using V_fits). pose proof (V_max y). lia. }
  split; [exact F2|]. unfold lo. rewrite E2, E1, E. apply two_sum; auto using V_fits.
Qed.
