(** Seconds as numbers. *)
From Coq Require Import ZArith Reals Lia Lra Bool List.
From Flocq Require Import IEEE754.BinarySingleNaN IEEE754.Binary IEEE754.Bits Core Relative.
From Verif Require Import Base FloatModel MathModel MathSpec MathProofs BuiltModel BuiltFloat BuiltClose PinModel PinFloat TimeModel TimeSpec.
Local Open Scope Z_scope.

Lemma rel x : (Rabs (rnd32 x - x) <= bpow radix2 (-24) * Rabs x + bpow radix2 (-100))%R.
Proof.
  pose proof (bpow_ge_0 radix2 (-100)). pose proof (bpow_ge_0 radix2 (-24)). pose proof (Rabs_pos x).
  destruct (Rle_lt_dec (bpow radix2 (-126)) (Rabs x)) as [L|L].
  - pose proof (relative_error_N_FLT radix2 (-149) 24 eq_refl (fun z => negb (Z.even z)) x L) as H2.
    replace (/ 2 * bpow radix2 (- (24) + 1))%R with (bpow radix2 (-24)) in H2 by (change (- (24) + 1) with (-23); replace (bpow radix2 (-23)) with (2 * bpow radix2 (-24))%R by (change 2%R with (bpow radix2 1); rewrite <- bpow_plus; reflexivity); lra). lra.
  - eapply Rle_trans; [apply error_le_half_ulp; typeclasses eauto|].
    rewrite (ulp_FLT_small radix2 (-149) 24 x) by (eapply Rlt_le_trans; [exact L|apply bpow_le; lia]).
    assert (bpow radix2 (-149) <= bpow radix2 (-100))%R by (apply bpow_le; lia). assert (0 <= bpow radix2 (-24) * Rabs x)%R by (apply Rmult_le_pos; assumption). lra.
Qed.
Lemma relp x : (0 <= x)%R -> (x - x / 16777216 - bpow radix2 (-100) <= rnd32 x <= x + x / 16777216 + bpow radix2 (-100))%R.
Proof.
  intro H. pose proof (rel x) as R. rewrite (Rabs_pos_eq x H) in R. apply Rabs_le_inv in R. replace (bpow radix2 (-24)) with (/ 16777216)%R in R by (cbn; lra). unfold Rdiv. lra.
Qed.
Lemma tiny : (0 < bpow radix2 (-100) < / 100000000000000000000)%R.
Proof. split; [apply bpow_gt_0|]. apply Rlt_le_trans with (bpow radix2 (-80)); [apply bpow_lt; lia|]. cbn. lra. Qed.

Lemma per_second : is_int ticks_per_second 250000.
Proof.
  destruct (div_real (f_of_Z 16000000) (f_of_Z 64) 16000000 64) as [F V]; [apply of_Z_int, small_representable; unfold small; lia..|lia|unfold small; lia|].
  split; [exact F|]. unfold ticks_per_second. rewrite V. replace (16000000 / 64)%R with (IZR 250000) by lra. apply representable_round, small_representable. unfold small. lia.
Qed.
(** the number of ticks for a number of seconds up to 17179 *)
Lemma to_ticks_wide f : f_is_finite f = true -> (0 <= val f <= 17179)%R ->
  exists n, sec_to_ticks f = Ok n /\ 0 <= n < 2 ^ 32 /\ (Rabs (IZR n - 250000 * val f) <= 501 / 1000 + val f / 30)%R.
Proof.
  intros F [A B]. destruct per_second as [F2 V2]. pose proof tiny as Ty.
  destruct (relp (val f * 250000) ltac:(lra)) as [M0 M1].
  assert (B31 : (4294967296 <= bpow radix2 128)%R) by (replace 4294967296%R with (bpow radix2 32) by (cbn; lra); apply bpow_le; lia).
  assert (Mp : (0 <= rnd32 (val f * 250000))%R) by (apply rnd_nonneg; lra).
  destruct (mul_cases f ticks_per_second F F2) as [[[MF MV] _]|[_ X]]; rewrite V2 in *.
  2:{ exfalso. rewrite Rabs_pos_eq in X by lra. lra. }
  destruct half_val as [HF HV]. set (h := fdiv f_one (f_of_Z 2)) in *. set (m := fmul f ticks_per_second) in *.
  pose proof (Bplus_correct 24 128 eq_refl eq_refl binop_nan_pl32 mode_NE m h MF HF) as C. rewrite HV in C. cbn [round_mode] in C. rewrite fexp32 in C.
  unfold is_real in MV. rewrite MV in C. set (w := rnd32 (val f * 250000)) in *.
  destruct (relp (w + 1 / 2) ltac:(lra)) as [S0 S1].
  assert (Sp : (0 <= rnd32 (w + 1 / 2))%R) by (apply rnd_nonneg; lra).
  rewrite Rlt_bool_true in C by (rewrite Rabs_pos_eq; lra). destruct C as (CV & CF & _).
  assert (CV' : val (fadd m h) = rnd32 (w + 1 / 2)) by exact CV.
  exists (Zfloor (val (fadd m h))). split; [|split].
  - unfold sec_to_ticks. fold m h. apply to_uint_val; [exact CF|]. rewrite CV'. change (2 ^ 32) with 4294967296. lra.
  - rewrite CV'. split; [apply Zfloor_lub; exact Sp|]. apply lt_IZR. eapply Rle_lt_trans; [apply Zfloor_lb|]. change (2 ^ 32) with 4294967296. lra.
  - rewrite CV'. pose proof (Zfloor_lb (rnd32 (w + 1 / 2))). pose proof (Zfloor_ub (rnd32 (w + 1 / 2))). apply Rabs_le. lra.
Qed.
Lemma to_ticks f : f_is_finite f = true -> (0 <= val f <= 8589)%R ->
  exists n, sec_to_ticks f = Ok n /\ 0 <= n < 2 ^ 31 /\ (Rabs (IZR n - 250000 * val f) <= 501 / 1000 + val f / 30)%R.
Proof.
  intros F A. destruct (to_ticks_wide f F ltac:(lra)) as (n & E & B & C). exists n. split; [exact E|]. split; [|exact C]. split; [lia|].
  apply Rabs_le_inv in C. apply lt_IZR. change (2 ^ 31) with 2147483648. lra.
Qed.
Lemma to_ticks_long f : f_is_finite f = true -> (8590 <= val f <= 17179)%R ->
  exists n, sec_to_ticks f = Ok n /\ 2 ^ 31 <= n < 2 ^ 32 /\ (val f - 8590 <= seconds (n - 2 ^ 31))%R.
Proof.
  intros F A. destruct (to_ticks_wide f F ltac:(lra)) as (n & E & B & C). exists n. split; [exact E|]. apply Rabs_le_inv in C. split; [split; [|lia]|].
  - apply le_IZR. change (2 ^ 31) with 2147483648. lra.
  - unfold seconds. rewrite minus_IZR. change (2 ^ 31) with 2147483648. lra.
Qed.
(** what is not a number of ticks *)
Lemma to_ticks_negative f : f_is_finite f = true -> (val f <= - (1 / 100000))%R -> sec_to_ticks f = UB.
Proof.
  intros F A. destruct per_second as [F2 V2]. destruct half_val as [HF HV].
  assert (M : (rnd32 (val f * 250000) <= -2)%R).
  { rewrite <- (representable_round (-2)) by (apply small_representable; unfold small; lia). apply round_le; [typeclasses eauto|typeclasses eauto|lra]. }
  unfold sec_to_ticks. set (h := fdiv f_one (f_of_Z 2)) in *.
  destruct (mul_cases f ticks_per_second F F2) as [[[MF MV] _]|[X _]]; rewrite ?V2 in *.
  - set (m := fmul f ticks_per_second) in *. pose proof (Bplus_correct 24 128 eq_refl eq_refl binop_nan_pl32 mode_NE m h MF HF) as C. rewrite HV, MV in C. cbn [round_mode] in C. rewrite fexp32 in C.
    set (w := rnd32 (val f * 250000)) in *.
    assert (S : (rnd32 (w + 1 / 2) <= -1)%R).
    { rewrite <- (representable_round (-1)) by (apply small_representable; unfold small; lia). apply round_le; [typeclasses eauto|typeclasses eauto|lra]. }
    unfold f_to_uint. destruct (f_is_finite (fadd m h)) eqn:E; [|reflexivity].
    destruct (Rlt_bool_spec (Rabs (rnd32 (w + 1 / 2))) (bpow radix2 128)) as [L|L].
    + destruct C as (CV & _). assert (CV' : val (fadd m h) = rnd32 (w + 1 / 2)) by exact CV.
      assert (Z0 : Btrunc 24 128 (fadd m h) <= -1).
      { apply le_IZR. rewrite trunc_val, CV'. apply IZR_le. rewrite <- (Ztrunc_IZR (-1)). apply Ztrunc_le. exact S. }
      cbv zeta. destruct (Z.leb_spec 0 (Btrunc 24 128 (fadd m h))); [lia|reflexivity].
    + exfalso. destruct C as (CV & _). unfold f_is_finite, fadd, b32_plus in E. rewrite <- is_finite_B2FF in E. rewrite CV in E. discriminate.
  - rewrite X. unfold f_to_uint. replace (f_is_finite (fadd _ h)) with false; [reflexivity|]. symmetry.
    destruct h as [s|s|s pl e|s mm e E]; try discriminate HF; reflexivity.
Qed.
Lemma to_ticks_not_finite f : f_is_finite f = false -> sec_to_ticks f = UB.
Proof.
  intro F. destruct per_second as [F2 V2]. destruct half_val as [HF HV]. unfold sec_to_ticks. set (h := fdiv f_one (f_of_Z 2)) in *.
  assert (P : fmul f ticks_per_second = fmul f ticks_per_second /\ f_is_finite (fmul f ticks_per_second) = false).
  { split; [reflexivity|]. destruct ticks_per_second as [s|s|s pl e|s m e E]; [|discriminate F2|discriminate F2|].
    - cbn in V2. lra.
    - destruct f as [s'|s'|s' pl' e'|s' m' e' E']; try discriminate F; reflexivity. }
  destruct P as [_ P]. unfold f_to_uint. replace (f_is_finite (fadd _ h)) with false; [reflexivity|]. symmetry.
  destruct (fmul f ticks_per_second) as [s|s|s pl e|s m e E]; try discriminate P; destruct h as [s'|s'|s' pl' e'|s' m' e' E']; try discriminate HF; reflexivity.
Qed.
Lemma to_ticks_big f : f_is_finite f = true -> (17180 <= val f)%R -> sec_to_ticks f = UB.
Proof.
  intros F A. destruct per_second as [F2 V2]. destruct half_val as [HF HV].
  assert (M : (4294967296 <= rnd32 (val f * 250000))%R).
  { rewrite <- (representable_round 4294967296) by (exists 1, 32; cbn; lia). apply round_le; [typeclasses eauto|typeclasses eauto|lra]. }
  unfold sec_to_ticks. set (h := fdiv f_one (f_of_Z 2)) in *.
  destruct (mul_cases f ticks_per_second F F2) as [[[MF MV] _]|[X _]]; rewrite ?V2 in *.
  - set (m := fmul f ticks_per_second) in *. pose proof (Bplus_correct 24 128 eq_refl eq_refl binop_nan_pl32 mode_NE m h MF HF) as C. rewrite HV, MV in C. cbn [round_mode] in C. rewrite fexp32 in C.
    set (w := rnd32 (val f * 250000)) in *.
    assert (S : (4294967296 <= rnd32 (w + 1 / 2))%R).
    { rewrite <- (representable_round 4294967296) by (exists 1, 32; cbn; lia). apply round_le; [typeclasses eauto|typeclasses eauto|lra]. }
    unfold f_to_uint. destruct (f_is_finite (fadd m h)) eqn:E; [|reflexivity].
    destruct (Rlt_bool_spec (Rabs (rnd32 (w + 1 / 2))) (bpow radix2 128)) as [L|L].
    + destruct C as (CV & _). assert (CV' : val (fadd m h) = rnd32 (w + 1 / 2)) by exact CV.
      assert (Z0 : 2 ^ 32 <= Btrunc 24 128 (fadd m h)).
      { change (2 ^ 32) with 4294967296. apply le_IZR. rewrite trunc_val, CV'. apply IZR_le. rewrite <- (Ztrunc_IZR 4294967296). apply Ztrunc_le. exact S. }
      cbv zeta. destruct (Z.ltb_spec (Btrunc 24 128 (fadd m h)) (2 ^ 32)); [lia|]. rewrite andb_false_r. reflexivity.
    + exfalso. destruct C as (CV & _). unfold f_is_finite, fadd, b32_plus in E. rewrite <- is_finite_B2FF in E. rewrite CV in E. discriminate.
  - rewrite X. unfold f_to_uint. replace (f_is_finite (fadd _ h)) with false; [reflexivity|]. symmetry.
    destruct h as [s|s|s pl e|s mm e E]; try discriminate HF; reflexivity.
Qed.

(** time.monotonic *)
Lemma of_Z_val z : 0 <= z < 2 ^ 32 -> f_is_finite (f_of_Z z) = true /\ val (f_of_Z z) = rnd32 (IZR z).
Proof.
  intro H. pose proof (binary_normalize_correct 24 128 prec24 prec24_emax mode_NE z 0 false) as C. cbn [round_mode] in C. rewrite fexp32 in C.
  replace (F2R {| Fnum := z; Fexp := 0 |}) with (IZR z) in C by (unfold F2R; cbn [Fnum Fexp bpow]; ring).
  rewrite Rlt_bool_true in C; [destruct C as (C1 & C2 & _); auto|].
  assert (0 <= IZR z <= 4294967296)%R by (split; apply IZR_le; change (2 ^ 32) with 4294967296 in H; lia).
  rewrite Rabs_pos_eq by (apply rnd_nonneg; lra). apply Rle_lt_trans with (bpow radix2 32); [|apply bpow_lt; lia].
  replace (bpow radix2 32) with 4294967296%R by (cbn; lra). rewrite <- (representable_round 4294967296) by (exists 1, 32; cbn; lia). apply round_le; [typeclasses eauto|typeclasses eauto|lra].
Qed.
Definition per_tick : R := rnd32 (64 / 16000000).
Lemma per_tick_bound : (1 / 250000 - 1 / 250000 / 10000000 <= per_tick <= 1 / 250000 + 1 / 250000 / 10000000)%R.
Proof. unfold per_tick. pose proof (relp (64 / 16000000) ltac:(lra)). pose proof tiny. lra. Qed.
Lemma monotonic_val v : 0 <= v < 2 ^ 32 -> f_is_finite (monotonic v) = true /\ val (monotonic v) = rnd32 (rnd32 (IZR v) * per_tick).
Proof.
  intro H. destruct (of_Z_val v H) as [F V].
  destruct (div_real (f_of_Z 64) (f_of_Z 16000000) 64 16000000) as [F2 V2]; [apply of_Z_int, small_representable; unfold small; lia..|lia|unfold small; lia|].
  change (rnd32 (64 / 16000000)) with per_tick in V2. unfold monotonic. destruct (mul_cases _ _ F F2) as [[X _]|[_ X]]; rewrite V, V2 in X; [exact X|exfalso].
  pose proof per_tick_bound. assert (0 <= IZR v <= 4294967296)%R by (split; apply IZR_le; change (2 ^ 32) with 4294967296 in H; lia).
  destruct (relp (IZR v) ltac:(lra)) as [A1 A2]. pose proof (rnd_nonneg (IZR v) ltac:(lra)) as A0. pose proof tiny.
  set (w := rnd32 (IZR v)) in *. assert (W : (0 <= w * per_tick <= 8589934592 * 1)%R).
  { split; [apply Rmult_le_pos; lra|apply Rmult_le_compat; lra]. }
  destruct (relp (w * per_tick) ltac:(lra)) as [B1 B2]. rewrite Rabs_pos_eq in X by (apply rnd_nonneg; lra).
  assert ((bpow radix2 40 <= bpow radix2 128)%R) by (apply bpow_le; lia). replace (bpow radix2 40) with 1099511627776%R in * by (cbn; lra). lra.
Qed.
Lemma monotonic_le v w : 0 <= v <= w -> w < 2 ^ 32 -> fle (monotonic v) (monotonic w) = true.
Proof.
  intros H L. destruct (monotonic_val v ltac:(lia)) as [F1 V1]. destruct (monotonic_val w ltac:(lia)) as [F2 V2]. rewrite (fle_val _ _ F1 F2), V1, V2. apply Rle_bool_true.
  pose proof per_tick_bound. apply round_le; [typeclasses eauto|typeclasses eauto|]. apply Rmult_le_compat_r; [lra|]. apply round_le; [typeclasses eauto|typeclasses eauto|]. apply IZR_le. lia.
Qed.
Lemma monotonic_close v : 0 <= v < 2 ^ 32 -> (Rabs (val (monotonic v) - seconds v) <= seconds v / 4000000)%R.
Proof.
  intro H. destruct (monotonic_val v H) as [F V]. rewrite V. pose proof per_tick_bound as Pt. unfold seconds.
  destruct (Z.eq_dec v 0) as [->|N].
  { rewrite round_0 by typeclasses eauto. rewrite Rmult_0_l, round_0 by typeclasses eauto. replace (0 - 0 / 250000)%R with 0%R by lra. rewrite Rabs_R0. lra. }
  assert (1 <= IZR v <= 4294967296)%R by (split; apply IZR_le; change (2 ^ 32) with 4294967296 in H; lia).
  destruct (relp (IZR v) ltac:(lra)) as [A1 A2]. pose proof (rnd_nonneg (IZR v) ltac:(lra)) as A0. pose proof tiny as Ty.
  set (w := rnd32 (IZR v)) in *. set (x := IZR v) in *.
  assert (A1' : (x * (1 - 1 / 16700000) <= w <= x * (1 + 1 / 16700000))%R) by lra. clear A1 A2.
  assert (W1 : (x * (1 - 1 / 16700000) * (1 / 250000 * (1 - 1 / 10000000)) <= w * per_tick)%R) by (apply Rmult_le_compat; lra).
  assert (W2 : (w * per_tick <= x * (1 + 1 / 16700000) * (1 / 250000 * (1 + 1 / 10000000)))%R) by (apply Rmult_le_compat; lra).
  destruct (relp (w * per_tick) ltac:(lra)) as [B1 B2]. apply Rabs_le. lra.
Qed.
Lemma monotonic_wraps : flt (monotonic 0) (monotonic 4294967295) = true.
Proof. vm_compute. reflexivity. Qed.
