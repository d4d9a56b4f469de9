(** The power of a pin as a number, and the period of a tone. *)
From Coq Require Import ZArith Reals Lia Lra Bool List.
From Flocq Require Import IEEE754.BinarySingleNaN IEEE754.Binary IEEE754.Bits Core.
From Verif Require Import Base FloatModel MathModel MathSpec MathProofs BuiltModel BuiltFloat BuiltClose PinModel PinSpec PinProofs PinProofs2.
Local Open Scope Z_scope.

Lemma trunc_val f : IZR (Btrunc 24 128 f) = IZR (Ztrunc (val f)).
Proof. rewrite Btrunc_correct by reflexivity. apply round_FIX_IZR. Qed.
Lemma to_uint_val n f : f_is_finite f = true -> (0 <= val f < IZR (2 ^ n))%R -> f_to_uint n f = Ok (Zfloor (val f)).
Proof.
  intros F [A B]. unfold f_to_uint. rewrite F. assert (Btrunc 24 128 f = Zfloor (val f)) as ->.
  { apply eq_IZR. rewrite trunc_val. f_equal. apply Ztrunc_floor, A. }
  assert (0 <= Zfloor (val f)) by (apply Zfloor_lub; exact A).
  assert (Zfloor (val f) < 2 ^ n) by (apply lt_IZR; eapply Rle_lt_trans; [apply Zfloor_lb|exact B]).
  destruct (Z.leb_spec 0 (Zfloor (val f))); [|lia]. destruct (Z.ltb_spec (Zfloor (val f)) (2 ^ n)); [reflexivity|lia].
Qed.
Lemma half_val : f_is_finite (fdiv f_one (f_of_Z 2)) = true /\ val (fdiv f_one (f_of_Z 2)) = (1 / 2)%R.
Proof.
  split; [vm_compute; reflexivity|].
  assert (is_int f_one 1) as [F1 V1] by (apply of_Z_int, small_representable; unfold small; lia).
  assert (is_int (f_of_Z 2) 2) as [F2 V2] by (apply of_Z_int, small_representable; unfold small; lia).
  pose proof (Bdiv_correct 24 128 eq_refl eq_refl binop_nan_pl32 mode_NE f_one (f_of_Z 2)) as C. rewrite V1, V2 in C. cbn [round_mode] in C. rewrite fexp32 in C.
  specialize (C ltac:(lra)).
  assert (R : rnd32 (1 / 2) = (1 / 2)%R).
  { apply round_generic; [apply valid_rnd_N|]. replace (1 / 2)%R with (bpow radix2 (-1)) by (cbn; lra). apply generic_format_bpow. vm_compute. discriminate. }
  rewrite R in C. rewrite Rlt_bool_true in C.
  - destruct C as (C & _). exact C.
  - rewrite Rabs_pos_eq by lra. apply Rlt_trans with (bpow radix2 0); [cbn; lra|apply bpow_lt; lia].
Qed.
Lemma near x : (0 <= x <= 256)%R -> (Rabs (rnd32 x - x) <= bpow radix2 (-16))%R.
Proof.
  intro H. eapply Rle_trans; [apply error_le_half_ulp; typeclasses eauto|].
  assert (ulp radix2 (FLT_exp (-149) 24) x <= bpow radix2 (-15))%R.
  { eapply Rle_trans; [apply ulp_le with (y := bpow radix2 8); try typeclasses eauto|].
    - rewrite !Rabs_pos_eq; [change (bpow radix2 8) with 256%R; lra|apply bpow_ge_0|lra].
    - rewrite ulp_bpow. apply bpow_le. vm_compute. discriminate. }
  replace (bpow radix2 (-16)) with (/ 2 * bpow radix2 (-15))%R by (cbn; lra). lra.
Qed.
Lemma rnd_le_int x z : (x <= IZR z)%R -> small z -> (rnd32 x <= IZR z)%R.
Proof. intros H S. rewrite <- (representable_round z (small_representable z S)). apply round_le; [typeclasses eauto|typeclasses eauto|exact H]. Qed.
Lemma rnd_nonneg x : (0 <= x)%R -> (0 <= rnd32 x)%R.
Proof. intro H. rewrite <- (round_0 radix2 (FLT_exp (-149) 24) ZnearestE). apply round_le; [typeclasses eauto|typeclasses eauto|exact H]. Qed.
Definition rest (p : float) : outcome Z := f_to_uint 8 (fadd (fmul p (f_of_Z 255)) (fdiv f_one (f_of_Z 2))).
Lemma rest_ok p : f_is_finite p = true -> (0 <= val p <= 1)%R ->
  exists z, rest p = Ok z /\ 0 <= z <= 255 /\ (Rabs (IZR z - 255 * val p) <= 1 / 2 + bpow radix2 (-15))%R.
Proof.
  intros F [A B]. assert (is_int (f_of_Z 255) 255) as [F2 V2] by (apply of_Z_int, small_representable; unfold small; lia).
  assert (M0 : (0 <= rnd32 (val p * 255) <= 255)%R).
  { split; [apply rnd_nonneg; lra|apply rnd_le_int; [lra|unfold small; lia]]. }
  assert (B128 : (256 < bpow radix2 128)%R) by (change 256%R with (bpow radix2 8); apply bpow_lt; lia).
  destruct (mul_cases p (f_of_Z 255) F F2) as [[[MF MV] _]|[_ X]]; rewrite V2 in *.
  2:{ exfalso. rewrite Rabs_pos_eq in X by lra. lra. }
  destruct half_val as [HF HV]. set (h := fdiv f_one (f_of_Z 2)) in *. set (m := fmul p (f_of_Z 255)) in *.
  pose proof (Bplus_correct 24 128 eq_refl eq_refl binop_nan_pl32 mode_NE m h MF HF) as C. rewrite HV in C. cbn [round_mode] in C. rewrite fexp32 in C.
  unfold is_real in MV. rewrite MV in C.
  assert (S0 : (0 <= rnd32 (rnd32 (val p * 255) + 1 / 2) < 256)%R).
  { split; [apply rnd_nonneg; lra|].
    assert (E : rnd32 (255 + 1 / 2) = (255 + 1 / 2)%R).
    { apply round_generic; [apply valid_rnd_N|]. apply generic_format_FLT. exists (Float radix2 511 (-1)); [unfold F2R; cbn; lra|cbn; lia|cbn; lia]. }
    apply Rle_lt_trans with (255 + 1 / 2)%R; [|lra]. rewrite <- E. apply round_le; [typeclasses eauto|typeclasses eauto|lra]. }
  rewrite Rlt_bool_true in C by (rewrite Rabs_pos_eq; lra). destruct C as (CV & CF & _).
  unfold rest. fold m h. exists (Zfloor (val (fadd m h))).
  assert (CV' : val (fadd m h) = rnd32 (rnd32 (val p * 255) + 1 / 2)) by exact CV.
  assert (U : f_to_uint 8 (fadd m h) = Ok (Zfloor (val (fadd m h)))).
  { apply to_uint_val; [exact CF|]. rewrite CV'. change (2 ^ 8) with 256. lra. }
  split; [exact U|]. rewrite CV'. set (s := rnd32 (rnd32 (val p * 255) + 1 / 2)) in *.
  assert (Z0 : 0 <= Zfloor s) by (apply Zfloor_lub; lra). assert (Z1 : Zfloor s < 256) by (apply lt_IZR; eapply Rle_lt_trans; [apply Zfloor_lb|lra]).
  split; [lia|].
  pose proof (near (val p * 255) ltac:(lra)) as N1. pose proof (near (rnd32 (val p * 255) + 1 / 2) ltac:(lra)) as N2. fold s in N2.
  pose proof (Zfloor_lb s) as L1. pose proof (Zfloor_ub s) as L2.
  replace (bpow radix2 (-15)) with (bpow radix2 (-16) + bpow radix2 (-16))%R by (cbn; lra).
  apply Rabs_le_inv in N1. apply Rabs_le_inv in N2. apply Rabs_le. lra.
Qed.

(** setpower takes what is below 0 as 0 and what is above 1 as 1 *)
Definition clamp (f : float) : R := match f with Binary.B754_infinity _ _ s => if s then 0%R else 1%R | _ => Rmax 0 (Rmin 1 (val f)) end.
Lemma power_val f : f_is_nan f = false ->
  exists z, power_of f = Ok z /\ 0 <= z <= 255 /\ (Rabs (IZR z - 255 * clamp f) <= 1 / 2 + bpow radix2 (-15))%R.
Proof.
  intro N. assert (is_int f_one 1) as [F1 V1] by (apply of_Z_int, small_representable; unfold small; lia).
  unfold power_of. fold (rest (if flt f_one (if flt f f_zero then f_zero else f) then f_one else if flt f f_zero then f_zero else f)).
  assert (Z0 : f_is_finite f_zero = true /\ val f_zero = 0%R) by (split; reflexivity). destruct Z0 as [FZ VZ].
  destruct (f_is_finite f) eqn:Ff.
  - assert (Hc : clamp f = Rmax 0 (Rmin 1 (val f))) by (destruct f; try discriminate; reflexivity). rewrite Hc.
    rewrite (flt_val f f_zero Ff FZ), VZ. destruct (Rlt_bool_spec (val f) 0) as [L|L].
    + rewrite (flt_val f_one f_zero F1 FZ), V1, VZ. rewrite Rlt_bool_false by lra.
      replace (Rmax 0 (Rmin 1 (val f))) with (val f_zero); [apply rest_ok; [exact FZ|rewrite VZ; lra]|]. rewrite VZ, Rmax_left; [reflexivity|]. rewrite Rmin_right; lra.
    + rewrite (flt_val f_one f F1 Ff), V1. destruct (Rlt_bool_spec 1 (val f)) as [L1|L1].
      * replace (Rmax 0 (Rmin 1 (val f))) with (val f_one); [apply rest_ok; [exact F1|rewrite V1; lra]|]. rewrite V1, Rmin_left, Rmax_right; lra.
      * replace (Rmax 0 (Rmin 1 (val f))) with (val f); [apply rest_ok; [exact Ff|lra]|]. rewrite Rmin_right, Rmax_right; lra.
  - destruct f as [s|s|s pl e|s m e E]; try discriminate. destruct s; cbn [clamp].
    + change (flt (Binary.B754_infinity 24 128 true) f_zero) with true. cbv iota. change (flt f_one f_zero) with false. cbv iota.
      replace 0%R with (val f_zero) by exact VZ. apply rest_ok; [exact FZ|rewrite VZ; lra].
    + change (flt (Binary.B754_infinity 24 128 false) f_zero) with false. cbv iota. change (flt f_one (Binary.B754_infinity 24 128 false)) with true. cbv iota.
      generalize (rest_ok f_one F1 ltac:(rewrite V1; lra)). rewrite V1. auto.
Qed.
Lemma power_nan f : f_is_nan f = true -> power_of f = UB.
Proof.
  intro N. destruct f as [s|s|s pl e|s m e E]; try discriminate. unfold power_of.
  change (flt (Binary.B754_nan 24 128 s pl e) f_zero) with false. cbv iota. change (flt f_one (Binary.B754_nan 24 128 s pl e)) with false. cbv iota.
  unfold f_to_uint. replace (f_is_finite _) with false; [reflexivity|]. symmetry.
  unfold fadd, fmul, b32_plus, b32_mult, Binary.Bmult, Binary.Bplus. destruct (f_of_Z 255); reflexivity.
Qed.

(** the half period of a tone in cycles of the clock *)
Lemma cycles_val f : f_is_finite f = true -> (0 < val f)%R -> (rnd32 (8000000 / val f) < 2 ^ 32)%R ->
  cycles f = Ok (Zfloor (rnd32 (8000000 / val f))).
Proof.
  intros F P L. assert (is_int (f_of_Z 8000000) 8000000) as [F2 V2] by (apply of_Z_int, small_representable; unfold small; lia).
  pose proof (Bdiv_correct 24 128 eq_refl eq_refl binop_nan_pl32 mode_NE (f_of_Z 8000000) f ltac:(lra)) as C. rewrite V2 in C. cbn [round_mode] in C. rewrite fexp32 in C.
  assert (Q : (0 <= 8000000 / val f)%R) by (apply Rlt_le, Rdiv_lt_0_compat; lra).
  rewrite Rlt_bool_true in C.
  - destruct C as (CV & CF & _). unfold cycles. 
    assert (V : val (fdiv (f_of_Z 8000000) f) = rnd32 (8000000 / val f)) by exact CV. rewrite <- V. apply to_uint_val.
    + unfold f_is_finite, fdiv, b32_div. rewrite CF. exact F2.
    + rewrite V. split; [apply rnd_nonneg, Q|]. replace (IZR (2 ^ 32)) with (2 ^ 32)%R; [exact L|]. change (2 ^ 32)%Z with 4294967296. lra.
  - rewrite Rabs_pos_eq by (apply rnd_nonneg, Q). eapply Rlt_trans; [exact L|]. replace (2 ^ 32)%R with (bpow radix2 32) by (cbn; lra). apply bpow_lt. lia.
Qed.
Lemma cycles_neg f : f_is_finite f = true -> (- 8000000 <= val f < 0)%R -> cycles f = UB.
Proof.
  intros F P. assert (is_int (f_of_Z 8000000) 8000000) as [F2 V2] by (apply of_Z_int, small_representable; unfold small; lia).
  pose proof (Bdiv_correct 24 128 eq_refl eq_refl binop_nan_pl32 mode_NE (f_of_Z 8000000) f ltac:(lra)) as C. rewrite V2 in C. cbn [round_mode] in C. rewrite fexp32 in C.
  assert (Q : (8000000 / val f <= -1)%R).
  { apply Rmult_le_reg_r with (- val f)%R; [lra|]. unfold Rdiv. replace (8000000 * / val f * - val f)%R with (-8000000)%R by (field; lra). lra. }
  assert (Q' : (rnd32 (8000000 / val f) <= -1)%R) by (apply (rnd_le_int _ (-1)); [exact Q|unfold small; lia]).
  unfold cycles, f_to_uint. destruct (Rlt_bool _ _) in C.
  - destruct C as (CV & CF & _). assert (V : val (fdiv (f_of_Z 8000000) f) = rnd32 (8000000 / val f)) by exact CV.
    destruct (f_is_finite (fdiv (f_of_Z 8000000) f)); [|reflexivity].
    assert (T : Btrunc 24 128 (fdiv (f_of_Z 8000000) f) <= -1).
    { apply le_IZR. rewrite trunc_val, V. rewrite Ztrunc_ceil by lra. apply IZR_le. apply Zceil_glb. exact Q'. }
    destruct (Z.leb_spec 0 (Btrunc 24 128 (fdiv (f_of_Z 8000000) f))); [lia|]. reflexivity.
  - replace (f_is_finite (fdiv (f_of_Z 8000000) f)) with false; [reflexivity|]. unfold fdiv, b32_div. destruct (Binary.Bdiv 24 128 _ _ _ _ _ _); cbn in C; try discriminate C; reflexivity.
Qed.
