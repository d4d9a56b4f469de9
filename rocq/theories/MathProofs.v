From Coq Require Import ZArith Reals Lia Lra Bool List Znumtheory.
From Flocq Require Import IEEE754.BinarySingleNaN IEEE754.Binary IEEE754.Bits Core Relative.
From Verif Require Import Base FloatModel MathModel MathSpec.
Local Open Scope Z_scope.

Notation rnd32 := (round radix2 (FLT_exp (-149) 24) ZnearestE).
Notation val f := (B2R 24 128 f).

Lemma fexp32 : SpecFloat.fexp 24 128 = FLT_exp (-149) 24.
Proof. reflexivity. Qed.

Lemma bpow_Z e : 0 <= e -> bpow radix2 e = IZR (2 ^ e).
Proof. intros H. rewrite <- IZR_Zpower by exact H. reflexivity. Qed.

(** ** Representable integers *)

Lemma representable_format z : representable z -> generic_format radix2 (FLT_exp (-149) 24) (IZR z).
Proof.
  intros (m & e & He & -> & Hm & _). apply generic_format_FLT.
  destruct (Z.eq_dec (Z.abs m) (2 ^ 24)) as [E|E].
  - exists (Float radix2 (Z.sgn m) (e + 24)).
    + unfold F2R. cbn [Fnum Fexp]. rewrite bpow_Z by lia. rewrite <- mult_IZR. f_equal.
      rewrite Z.pow_add_r by lia. rewrite <- E at 1. 
      replace (Z.sgn m * (2 ^ e * Z.abs m)) with ((Z.sgn m * Z.abs m) * 2 ^ e) by ring.
      rewrite Z.mul_comm with (n := Z.sgn m), Z.abs_sgn. reflexivity.
    + cbn [Fnum]. change (radix2 ^ 24) with 16777216. lia.
    + cbn [Fexp]. lia.
  - exists (Float radix2 m e).
    + unfold F2R. cbn [Fnum Fexp]. rewrite bpow_Z by lia. rewrite <- mult_IZR. reflexivity.
    + cbn [Fnum]. change (radix2 ^ 24) with (2 ^ 24). lia.
    + cbn [Fexp]. lia.
Qed.

Lemma representable_round z : representable z -> rnd32 (IZR z) = IZR z.
Proof. intros H. apply round_generic; [apply valid_rnd_N | apply representable_format; exact H]. Qed.

Lemma representable_bound z : representable z -> (Rabs (IZR z) < bpow radix2 128)%R.
Proof.
  intros (m & e & _ & _ & _ & H). rewrite bpow_Z by lia. rewrite <- abs_IZR. apply IZR_lt. exact H.
Qed.

Lemma small_representable z : small z -> representable z.
Proof.
  unfold small. intros H. exists z, 0. rewrite Z.pow_0_r, Z.mul_1_r.
  assert (2 ^ 24 < 2 ^ 128) by reflexivity. intuition lia.
Qed.

Lemma rnd_ok z : representable z ->
  Rlt_bool (Rabs (rnd32 (IZR z))) (bpow radix2 128) = true.
Proof.
  intros H. apply Rlt_bool_true. rewrite representable_round by exact H.
  apply representable_bound. exact H.
Qed.

(** ** The operations on integers *)

Lemma add_int a b x y : is_int a x -> is_int b y -> representable (x + y) -> is_int (fadd a b) (x + y).
Proof.
  intros [Fa Va] [Fb Vb] H.
  pose proof (Bplus_correct 24 128 eq_refl eq_refl binop_nan_pl32 mode_NE a b Fa Fb) as C.
  rewrite Va, Vb, <- plus_IZR in C. cbn [round_mode] in C. rewrite fexp32 in C. rewrite (rnd_ok _ H) in C.
  destruct C as (C1 & C2 & _). split; [exact C2|]. unfold fadd, b32_plus.
  etransitivity; [exact C1|]. apply representable_round. exact H.
Qed.

Lemma sub_int a b x y : is_int a x -> is_int b y -> representable (x - y) -> is_int (fsub a b) (x - y).
Proof.
  intros [Fa Va] [Fb Vb] H.
  pose proof (Bminus_correct 24 128 eq_refl eq_refl binop_nan_pl32 mode_NE a b Fa Fb) as C.
  rewrite Va, Vb, <- minus_IZR in C. cbn [round_mode] in C. rewrite fexp32 in C. rewrite (rnd_ok _ H) in C.
  destruct C as (C1 & C2 & _). split; [exact C2|]. unfold fsub, b32_minus.
  etransitivity; [exact C1|]. apply representable_round. exact H.
Qed.

Lemma mul_int a b x y : is_int a x -> is_int b y -> representable (x * y) -> is_int (fmul a b) (x * y).
Proof.
  intros [Fa Va] [Fb Vb] H.
  pose proof (Bmult_correct 24 128 eq_refl eq_refl binop_nan_pl32 mode_NE a b) as C.
  rewrite Va, Vb, <- mult_IZR in C. cbn [round_mode] in C. rewrite fexp32 in C. rewrite (rnd_ok _ H) in C.
  destruct C as (C1 & C2 & _). unfold f_is_finite in *. rewrite Fa, Fb in C2. split; [exact C2|]. unfold fmul, b32_mult.
  etransitivity; [exact C1|]. apply representable_round. exact H.
Qed.

Lemma neg_int a x : is_int a x -> is_int (fneg a) (- x).
Proof.
  intros [Fa Va]. split.
  - unfold f_is_finite, fneg, b32_opp. rewrite is_finite_Bopp. exact Fa.
  - unfold fneg, b32_opp. rewrite B2R_Bopp, Va, opp_IZR. reflexivity.
Qed.

Lemma abs_int a x : is_int a x -> is_int (f_abs a) (Z.abs x).
Proof.
  intros [Fa Va]. split.
  - unfold f_is_finite, f_abs, b32_abs. rewrite is_finite_Babs. exact Fa.
  - unfold f_abs, b32_abs. rewrite B2R_Babs, Va, abs_IZR. reflexivity.
Qed.

Lemma of_Z_int z : representable z -> is_int (f_of_Z z) z.
Proof.
  intros H.
  pose proof (binary_normalize_correct 24 128 prec24 prec24_emax mode_NE z 0 false) as C.
  cbn [round_mode] in C. rewrite fexp32 in C.
  replace (F2R {| Fnum := z; Fexp := 0 |}) with (IZR z) in C
    by (unfold F2R; cbn [Fnum Fexp bpow]; ring).
  rewrite (rnd_ok _ H) in C. destruct C as (C1 & C2 & _).
  split; [exact C2|]. etransitivity; [exact C1|]. apply representable_round. exact H.
Qed.

Lemma is_int_inj f x y : is_int f x -> is_int f y -> x = y.
Proof. intros [_ A] [_ B]. apply eq_IZR. congruence. Qed.

Lemma trunc_int f x : is_int f x -> Binary.Btrunc 24 128 f = x.
Proof.
  intros [_ V]. apply eq_IZR. rewrite Btrunc_correct by reflexivity. rewrite V.
  rewrite round_FIX_IZR. f_equal. apply Ztrunc_IZR.
Qed.

Lemma feq_int f g x y : is_int f x -> is_int g y -> feq f g = (x =? y).
Proof.
  intros [Ff Vf] [Fg Vg]. unfold feq, b32_compare. unfold f_is_finite in *.
  rewrite Bcompare_correct, Vf, Vg, Rcompare_IZR by assumption.
  rewrite Z.eqb_compare. destruct (x ?= y); reflexivity.
Qed.

Lemma flt_int f g x y : is_int f x -> is_int g y -> flt f g = (x <? y).
Proof.
  intros [Ff Vf] [Fg Vg]. unfold flt, b32_compare. unfold f_is_finite in *.
  rewrite Bcompare_correct, Vf, Vg, Rcompare_IZR by assumption.
  unfold Z.ltb. destruct (x ?= y); reflexivity.
Qed.

Lemma fle_int f g x y : is_int f x -> is_int g y -> fle f g = (x <=? y).
Proof.
  intros [Ff Vf] [Fg Vg]. unfold fle, b32_compare. unfold f_is_finite in *.
  rewrite Bcompare_correct, Vf, Vg, Rcompare_IZR by assumption.
  unfold Z.leb. destruct (x ?= y); reflexivity.
Qed.

(** ** Floor division *)

Lemma floor_val f : f_is_finite f = true -> is_int (ffloor f) (Zfloor (val f)).
Proof.
  intros F. destruct (Bnearbyint_correct 24 128 prec24_emax unop_nan_pl32 mode_DN f) as (A & B & _).
  split; [unfold f_is_finite; etransitivity; [exact B|exact F]|].
  unfold ffloor. rewrite A. cbn [round_mode]. apply round_FIX_IZR.
Qed.

Lemma div_real a b x y : is_int a x -> is_int b y -> y <> 0 -> small x ->
  is_real (fdiv a b) (rnd32 (IZR x / IZR y)).
Proof.
  intros [Fa Va] [Fb Vb] Hy Hx.
  assert (Hy' : IZR y <> 0%R) by (apply not_0_IZR; exact Hy).
  pose proof (Bdiv_correct 24 128 eq_refl eq_refl binop_nan_pl32 mode_NE a b) as C.
  rewrite Va, Vb in C. specialize (C Hy'). cbn [round_mode] in C. rewrite fexp32 in C.
  rewrite Rlt_bool_true in C.
  - destruct C as (C1 & C2 & _). split; [unfold f_is_finite in *; etransitivity; [exact C2|exact Fa]|exact C1].
  - apply Rle_lt_trans with (bpow radix2 24); [|apply bpow_lt; lia].
    apply abs_round_le_generic; [apply FLT_exp_valid; reflexivity|apply valid_rnd_N| |].
    + apply generic_format_bpow. unfold FLT_exp. lia.
    + unfold Rdiv. rewrite Rabs_mult, Rabs_inv. 
      apply Rle_trans with (Rabs (IZR x) * 1)%R.
      * apply Rmult_le_compat_l; [apply Rabs_pos|]. rewrite <- Rinv_1. apply Rinv_le; [lra|].
        rewrite <- abs_IZR. apply IZR_le. lia.
      * rewrite Rmult_1_r, bpow_Z, <- abs_IZR by lia. apply IZR_le. exact Hx.
Qed.

(** Rounding the quotient of two such integers does not reach the next
    integer. *)
Lemma round_quotient x y : small x -> small y -> y <> 0 ->
  Zfloor (rnd32 (IZR x / IZR y)) = x / y.
Proof.
  intros Hx Hy Hy0. set (n := x / y).
  assert (Hy' : IZR y <> 0%R) by (apply not_0_IZR; exact Hy0).
  assert (Hn : small n).
  { unfold small in *. unfold n. 
    pose proof (Z.div_mod x y Hy0). 
    assert (- Z.abs x <= x / y <= Z.abs x); [|lia].
    pose proof (Z.mod_bound_or x y Hy0). destruct H0 as [H0|H0]; nia. }
  set (q := (IZR x / IZR y)%R).
  assert (Hq : q = (IZR n + IZR (x mod y) / IZR y)%R).
  { unfold q, n. rewrite (Z.div_mod x y Hy0) at 1. rewrite plus_IZR, mult_IZR. field. exact Hy'. }
  assert (Hr : (0 <= IZR (x mod y) / IZR y <= 1 - / Rabs (IZR y))%R).
  { pose proof (Z.mod_bound_or x y Hy0) as [[B1 B2]|[B1 B2]].
    - assert (0 < y) by lia. assert (0 < IZR y)%R by (apply IZR_lt; lia). 
      rewrite Rabs_pos_eq by lra. split.
      + apply Rmult_le_pos; [apply IZR_le; lia|]. left. apply Rinv_0_lt_compat. lra.
      + apply Rmult_le_reg_r with (IZR y); [lra|]. unfold Rdiv. rewrite Rmult_assoc, Rinv_l, Rmult_1_r by lra.
        rewrite Rmult_minus_distr_r, Rinv_l, Rmult_1_l by lra. rewrite <- minus_IZR. apply IZR_le. lia.
    - assert (y < 0) by lia. assert (IZR y < 0)%R by (apply IZR_lt; lia).
      rewrite Rabs_left by lra. 
      replace (IZR (x mod y) / IZR y)%R with (IZR (- (x mod y)) / IZR (- y))%R by (rewrite !opp_IZR; field; lra).
      replace (- IZR y)%R with (IZR (- y)) by (apply opp_IZR).
      assert (0 < IZR (- y))%R by (apply IZR_lt; lia). split.
      + apply Rmult_le_pos; [apply IZR_le; lia|]. left. apply Rinv_0_lt_compat. lra.
      + apply Rmult_le_reg_r with (IZR (- y)); [lra|]. unfold Rdiv. rewrite Rmult_assoc, Rinv_l, Rmult_1_r by lra.
        rewrite Rmult_minus_distr_r, Rinv_l, Rmult_1_l by lra. rewrite <- minus_IZR. apply IZR_le. lia. }
  assert (Hinv : (0 < / Rabs (IZR y))%R) by (apply Rinv_0_lt_compat, Rabs_pos_lt; exact Hy').
  assert (L : (IZR n <= rnd32 q)%R).
  { rewrite <- (representable_round n) by (apply small_representable; exact Hn).
    apply round_le; [apply FLT_exp_valid; reflexivity|apply valid_rnd_N|lra]. }
  apply Zfloor_imp. split; [exact L|].
  destruct (Z.eq_dec x 0) as [->|Hx0].
  { unfold q. unfold Rdiv. rewrite Rmult_0_l, round_0 by apply valid_rnd_N.
    unfold n. rewrite Z.div_0_l by exact Hy0. apply IZR_lt. lia. }
  destruct (relative_error_N_FLT'_ex radix2 (-149) 24 eq_refl (fun z => negb (Z.even z)) q)
    as (eps & eta & Heps & Heta & Hz & Hround).
  destruct (Req_dec eta 0) as [E|E].
  - (* no underflow *)
    fold ZnearestE in Hround. change (Znearest (fun z => negb (Z.even z))) with ZnearestE in Hround.
    rewrite Hround, E, Rplus_0_r, plus_IZR.
    assert (Hu : (u_ro radix2 24 / (1 + u_ro radix2 24) < IZR 1 / IZR 16777216)%R).
    { unfold u_ro. change (bpow radix2 (- (24) + 1)) with (/ IZR 8388608)%R. lra. }
    assert (Habs : (Rabs (q * eps) < / Rabs (IZR y))%R).
    { rewrite Rabs_mult. unfold q, Rdiv at 1. rewrite Rabs_mult, Rabs_inv.
      rewrite (Rmult_comm (Rabs (IZR x))), Rmult_assoc. rewrite <- (Rmult_1_r (/ Rabs (IZR y))) at 2.
      apply Rmult_lt_compat_l; [exact Hinv|].
      assert (X : (Rabs (IZR x) <= IZR 16777216)%R) by (rewrite <- abs_IZR; apply IZR_le; exact Hx).
      assert (X0 : (0 < Rabs (IZR x))%R) by (apply Rabs_pos_lt, not_0_IZR; exact Hx0).
      assert (e0 : (0 <= Rabs eps)%R) by apply Rabs_pos.
      apply Rle_lt_trans with (IZR 16777216 * Rabs eps)%R; [nra|]. lra. }
    apply Rabs_def2 in Habs. lra.
  - (* the quotient is too small to be rounded relative to its size *)
    assert (eps = 0%R) by (destruct (Rmult_integral _ _ Hz); [assumption|contradiction]).
    change (Znearest (fun z => negb (Z.even z))) with ZnearestE in Hround.
    rewrite Hround, H, Rplus_0_r, Rmult_1_r, plus_IZR.
    assert (bpow radix2 (-149) <= bpow radix2 (-25))%R by (apply bpow_le; lia).
    assert (Y : (/ IZR 16777216 <= / Rabs (IZR y))%R).
    { apply Rinv_le; [apply Rabs_pos_lt; exact Hy'|]. rewrite <- abs_IZR. apply IZR_le. exact Hy. }
    change (bpow radix2 (-25)) with (/ IZR 33554432)%R in H0.
    assert (eta <= Rabs eta)%R by apply Rle_abs. lra.
Qed.

Lemma floordiv_int a b x y : is_int a x -> is_int b y -> y <> 0 -> small x -> small y ->
  is_int (ffloor (fdiv a b)) (x / y).
Proof.
  intros Ha Hb Hy Hx Hys. destruct (div_real a b x y Ha Hb Hy Hx) as [F V].
  rewrite <- (round_quotient x y Hx Hys Hy), <- V. apply floor_val. exact F.
Qed.

Lemma mod_int a b x y : is_int a x -> is_int b y -> y <> 0 -> small x -> small y ->
  representable (x / y * y) ->
  is_int (fsub a (fmul (ffloor (fdiv a b)) b)) (x mod y).
Proof.
  intros Ha Hb Hy Hx Hys Hr. rewrite Z.mod_eq by exact Hy. rewrite (Z.mul_comm y).
  apply sub_int; [exact Ha| |].
  - apply mul_int; [|exact Hb|exact Hr]. apply floordiv_int; assumption.
  - apply small_representable. rewrite Z.mul_comm, <- Z.mod_eq by exact Hy.
    unfold small in *. pose proof (Z.mod_bound_or x y Hy). lia.
Qed.

Lemma mod_same_sign x y : y <> 0 -> small x -> small y -> 0 <= x * y \/ Z.abs x + Z.abs y <= 2 ^ 24 + 1 ->
  small (x / y * y).
Proof.
  unfold small. intros Hy Hx Hys H. pose proof (Z.mod_eq x y Hy). pose proof (Z.mod_bound_or x y Hy).
  replace (x / y * y) with (x - x mod y) by lia.
  destruct H as [H|H]; [|lia].
  destruct (Z.eq_dec x 0) as [->|Hx0]; [rewrite Z.mod_0_l by exact Hy; lia|].
  destruct H1 as [B|B].
  - assert (0 < x) by nia. pose proof (Z.mod_le x y). lia.
  - assert (x < 0) by nia. pose proof (Z.mod_le (- x) (- y)). 
    rewrite Z.mod_opp_opp in H2 by lia. lia.
Qed.
