From Coq Require Import ZArith Reals Lia Lra Bool List Znumtheory Zpow_facts.
From Flocq Require Import IEEE754.BinarySingleNaN IEEE754.Binary IEEE754.Bits Core.
From Verif Require Import Base FloatModel MathModel MathSpec MathProofs.
From Verif Require OrderProofs.
Local Open Scope Z_scope.

(** ** The integers that are numbers *)

Lemma is_int_representable f z : is_int f z -> representable z.
Proof.
  intros [F V].
  assert (B : Z.abs z < 2 ^ 128).
  { apply lt_IZR. rewrite abs_IZR, <- V, <- bpow_Z by lia. apply abs_B2R_lt_emax. }
  destruct f as [s|s|s pl|s m e Hb]; try discriminate F.
  - cbn in V. assert (z = 0) by (apply eq_IZR; symmetry; exact V). subst. exists 0, 0. cbn. lia.
  - cbn [B2R] in V. 
    assert (Hm : Z.pos m < 2 ^ 24).
    { apply (OrderProofs.bounded32 m e Hb). }
    set (sm := cond_Zopp s (Z.pos m)) in *.
    assert (Hsm : Z.abs sm = Z.pos m) by (unfold sm; destruct s; reflexivity).
    unfold F2R in V. cbn [Fnum Fexp] in V.
    destruct (Z_le_gt_dec 0 e) as [He|He].
    + exists sm, e. rewrite bpow_Z, <- mult_IZR in V by lia. apply eq_IZR in V.
      repeat split; try lia.
    + exists z, 0. rewrite Z.pow_0_r, Z.mul_1_r. repeat split; try lia.
      apply le_IZR. rewrite abs_IZR, <- V, Rabs_mult.
      apply Rle_trans with (Rabs (IZR sm) * 1)%R.
      * apply Rmult_le_compat_l; [apply Rabs_pos|]. rewrite Rabs_pos_eq by apply bpow_ge_0.
        change 1%R with (bpow radix2 0). apply bpow_le. lia.
      * rewrite Rmult_1_r, <- abs_IZR. apply IZR_le. lia.
Qed.

Lemma to_sint_int f z : is_int f z -> int32 z -> f_to_sint 32 f = Ok z.
Proof.
  intros H R. unfold f_to_sint. destruct H as [F V]. rewrite F. rewrite (trunc_int f z) by (split; assumption).
  unfold sint, in_sint. unfold int32 in R. change (2 ^ (32 - 1)) with (2 ^ 31).
  destruct (Z.leb_spec (- 2 ^ 31) z); [|lia]. destruct (Z.ltb_spec z (2 ^ 31)); [|lia]. reflexivity.
Qed.

Lemma to_uint_int n f z : is_int f z -> 0 <= z < 2 ^ n -> f_to_uint n f = Ok z.
Proof.
  intros H R. unfold f_to_uint. destruct H as [F V]. rewrite F. rewrite (trunc_int f z) by (split; assumption).
  destruct (Z.leb_spec 0 z); [|lia]. destruct (Z.ltb_spec z (2 ^ n)); [|lia]. reflexivity.
Qed.

Lemma float_to_int_int f z : is_int f z -> int32 z -> float_to_int f = Ok (z, false).
Proof.
  intros H R. unfold float_to_int. rewrite (to_sint_int f z H R). cbn [obind].
  pose proof (of_Z_int z (is_int_representable f z H)) as H'.
  rewrite (feq_int _ _ _ _ H' H), Z.eqb_refl. reflexivity.
Qed.

(** A number with a fraction is reported. *)
Lemma float_to_int_frac f : f_is_finite f = true -> (forall z, ~ is_int f z) ->
  float_to_int f = UB \/ exists i, float_to_int f = Ok (i, true).
Proof.
  intros F H. unfold float_to_int, f_to_sint. rewrite F.
  unfold sint. destruct (in_sint 32 (Btrunc 24 128 f)) eqn:E; [|left; reflexivity].
  right. exists (Btrunc 24 128 f). cbn [obind]. f_equal. f_equal.
  destruct (feq (f_of_Z (Btrunc 24 128 f)) f) eqn:G; [|reflexivity]. exfalso.
  set (i := Btrunc 24 128 f) in *.
  pose proof (binary_normalize_correct 24 128 prec24 prec24_emax mode_NE i 0 false) as C.
  cbn [round_mode] in C. rewrite fexp32 in C.
  assert (B : Rlt_bool (Rabs (rnd32 (F2R (Float radix2 i 0)))) (bpow radix2 128) = true).
  { apply Rlt_bool_true. apply Rle_lt_trans with (bpow radix2 31); [|apply bpow_lt; lia].
    apply abs_round_le_generic; [apply FLT_exp_valid; reflexivity|apply valid_rnd_N| |].
    - apply generic_format_bpow. unfold FLT_exp. lia.
    - unfold F2R. cbn [Fnum Fexp]. rewrite Rmult_1_r, bpow_Z, <- abs_IZR by lia. apply IZR_le.
      unfold in_sint in E. apply andb_prop in E as [E1 E2]. change (32 - 1) with 31 in *. lia. }
  rewrite B in C. destruct C as (C1 & C2 & _).
  unfold feq, b32_compare in G. fold (f_of_Z i) in C1, C2. unfold f_is_finite in F.
  rewrite Bcompare_correct in G by (exact F || exact C2).
  destruct (Rcompare (val (f_of_Z i)) (val f)) eqn:K; try discriminate G.
  apply Rcompare_Eq_inv in K. rewrite C1 in K.
  (* the value of f is an integer below 2^31 in magnitude *)
  apply (H (Btrunc 24 128 f)). fold i. split; [exact F|].
  unfold F2R in K. cbn [Fnum Fexp] in K. rewrite Rmult_1_r in K.
  (* i = trunc (round i) with round i an integer *)
  assert (I : exists z, val f = IZR z).
  { rewrite <- K. 
    destruct (Z_le_gt_dec (mag radix2 (IZR i)) 24) as [M|M].
    - exists i. apply round_generic; [apply valid_rnd_N|].
      apply generic_format_FLT. exists (Float radix2 i 0).
      + unfold F2R. cbn. ring.
      + cbn [Fnum]. apply lt_IZR. rewrite abs_IZR. change (radix2 ^ 24) with (2 ^ 24). rewrite <- bpow_Z by lia.
        destruct (Req_dec (IZR i) 0) as [Z0|NZ]; [rewrite Z0, Rabs_R0; apply bpow_gt_0|].
        apply Rlt_le_trans with (bpow radix2 (mag radix2 (IZR i))); [apply bpow_mag_gt|apply bpow_le; exact M].
      + cbn. lia.
    - exists (ZnearestE (scaled_mantissa radix2 (FLT_exp (-149) 24) (IZR i)) * 2 ^ (cexp radix2 (FLT_exp (-149) 24) (IZR i))).
      unfold round, F2R. cbn [Fnum Fexp]. rewrite bpow_Z, <- mult_IZR; [reflexivity|].
      unfold cexp, FLT_exp. lia. }
  destruct I as [z I]. rewrite I. f_equal. symmetry. apply trunc_int. split; [exact F|exact I].
Qed.

(** ** Bitwise operators *)

Lemma int25_shift z : int25 z <-> Z.shiftr z 24 = 0 \/ Z.shiftr z 24 = -1.
Proof.
  unfold int25. rewrite Z.shiftr_div_pow2 by lia.
  pose proof (Z.div_mod z (2 ^ 24) ltac:(lia)). pose proof (Z.mod_pos_bound z (2 ^ 24) ltac:(lia)). lia.
Qed.

Lemma int25_land x y : int25 x -> int25 y -> int25 (Z.land x y).
Proof.
  rewrite !int25_shift, Z.shiftr_land. intros [-> | ->] [-> | ->]; auto.
Qed.
Lemma int25_lor x y : int25 x -> int25 y -> int25 (Z.lor x y).
Proof.
  rewrite !int25_shift, Z.shiftr_lor. intros [-> | ->] [-> | ->]; auto.
Qed.
Lemma int25_lxor x y : int25 x -> int25 y -> int25 (Z.lxor x y).
Proof.
  rewrite !int25_shift, Z.shiftr_lxor. intros [-> | ->] [-> | ->]; auto.
Qed.

Lemma int25_small z : int25 z -> small z.
Proof. unfold int25, small. lia. Qed.
Lemma int25_int32 z : int25 z -> int32 z.
Proof. unfold int25, int32. lia. Qed.

Lemma int_op_int g a b x y r : is_int a x -> is_int b y -> int32 x -> int32 y ->
  g x y = Ok r -> representable r ->
  exists f, int_op g a b = Ok (f, false) /\ is_int f r.
Proof.
  intros Ha Hb Hx Hy G R. exists (f_of_Z r). split; [|apply of_Z_int; exact R].
  unfold int_op. rewrite (float_to_int_int a x Ha Hx). cbn [obind].
  rewrite (float_to_int_int b y Hb Hy). cbn [obind]. rewrite G. reflexivity.
Qed.

Lemma wraps_int32 z : int32 z -> wraps 32 z = z.
Proof.
  unfold int32, wraps. intros H. change (32 - 1) with 31.
  destruct (Z_lt_ge_dec z 0) as [N|N].
  - assert (E : z mod 2 ^ 32 = z + 2 ^ 32).
    { symmetry. apply Z.mod_unique with (-1); lia. }
    rewrite E. destruct (Z.ltb_spec (z + 2 ^ 32) (2 ^ 31)); lia.
  - rewrite Z.mod_small by lia. destruct (Z.ltb_spec z (2 ^ 31)); lia.
Qed.

Lemma shl_representable x n : representable x -> 0 <= n -> Z.abs (x * 2 ^ n) < 2 ^ 128 -> representable (x * 2 ^ n).
Proof.
  intros (m & e & He & -> & Hm & _) Hn B. exists m, (e + n). rewrite Z.pow_add_r by lia.
  repeat split; try lia.
Qed.

Lemma shr_representable x n : representable x -> 0 <= n -> representable (x / 2 ^ n).
Proof.
  intros (m & e & He & E & Hm & B) Hn.
  destruct (Z_le_gt_dec n e) as [L|L].
  - exists m, (e - n). repeat split; try lia.
    + rewrite E. replace (2 ^ e) with (2 ^ (e - n) * 2 ^ n) by (rewrite <- Z.pow_add_r by lia; f_equal; lia).
      rewrite Z.mul_assoc, Z.div_mul by (apply Z.pow_nonzero; lia). reflexivity.
    + assert (0 < 2 ^ n) by (apply Z.pow_pos_nonneg; lia).
      apply Z.le_lt_trans with (Z.abs x); [|exact B].
      assert (1 <= 2 ^ n) by lia. 
      pose proof (Z.div_mod x (2 ^ n) ltac:(lia)). pose proof (Z.mod_pos_bound x (2 ^ n) ltac:(lia)). nia.
  - apply small_representable. unfold small.
    replace (x / 2 ^ n) with (m / 2 ^ (n - e)).
    + assert (0 < 2 ^ (n - e)) by (apply Z.pow_pos_nonneg; lia).
      pose proof (Z.div_mod m (2 ^ (n - e)) ltac:(lia)). pose proof (Z.mod_pos_bound m (2 ^ (n - e)) ltac:(lia)). nia.
    + rewrite E. replace (2 ^ n) with (2 ^ (n - e) * 2 ^ e) by (rewrite <- Z.pow_add_r by lia; f_equal; lia).
      rewrite Z.div_mul_cancel_r; try apply Z.pow_nonzero; lia.
Qed.

Lemma lnot_neg a x : is_int a x -> - 2 ^ 31 <= x < 0 ->
  exists f, num_lnot a = Ok (f, false) /\ val f = rnd32 (IZR (- x - 1)) /\ f_is_finite f = true.
Proof.
  intros Ha Hx. unfold num_lnot. rewrite (float_to_int_int a x Ha) by (unfold int32; lia). cbn [obind].
  assert (N : wrapu 32 (Z.lnot (wrapu 32 x)) = - x - 1).
  { unfold wrapu. replace (x mod 2 ^ 32) with (x + 2 ^ 32) by (apply Z.mod_unique with (-1); lia).
    unfold Z.lnot. replace (Z.pred (- (x + 2 ^ 32))) with (- x - 1 - 2 ^ 32) by lia.
    symmetry. apply Z.mod_unique with (-1); lia. }
  rewrite N. eexists. split; [reflexivity|].
  pose proof (binary_normalize_correct 24 128 prec24 prec24_emax mode_NE (- x - 1) 0 false) as C.
  cbn [round_mode] in C. rewrite fexp32 in C. 
  replace (F2R {| Fnum := - x - 1; Fexp := 0 |}) with (IZR (- x - 1)) in C by (unfold F2R; cbn [Fnum Fexp bpow]; ring).
  rewrite Rlt_bool_true in C.
  - destruct C as (C1 & C2 & _). split; [exact C1|exact C2].
  - apply Rle_lt_trans with (bpow radix2 31); [|apply bpow_lt; lia].
    apply abs_round_le_generic; [apply FLT_exp_valid; reflexivity|apply valid_rnd_N| |].
    + apply generic_format_bpow. unfold FLT_exp. lia.
    + rewrite bpow_Z, <- abs_IZR by lia. apply IZR_le. lia.
Qed.

Lemma lnot_nonneg a x : is_int a x -> 0 <= x < 2 ^ 31 ->
  exists f, num_lnot a = Ok (f, false) /\ f_is_finite f = true /\ (IZR (2 ^ 31) <= val f)%R.
Proof.
  intros Ha Hx. unfold num_lnot. rewrite (float_to_int_int a x Ha) by (unfold int32; lia). cbn [obind].
  assert (N : wrapu 32 (Z.lnot (wrapu 32 x)) = 2 ^ 32 - x - 1).
  { unfold wrapu. rewrite (Z.mod_small x) by lia.
    unfold Z.lnot. replace (Z.pred (- x)) with (- x - 1) by lia.
    symmetry. apply Z.mod_unique with (-1); lia. }
  rewrite N. eexists. split; [reflexivity|].
  set (y := 2 ^ 32 - x - 1). assert (Hy : 2 ^ 31 <= y <= 2 ^ 32) by (unfold y; lia). clearbody y.
  pose proof (binary_normalize_correct 24 128 prec24 prec24_emax mode_NE y 0 false) as C.
  cbn [round_mode] in C. rewrite fexp32 in C. 
  replace (F2R {| Fnum := y; Fexp := 0 |}) with (IZR y) in C by (unfold F2R; cbn [Fnum Fexp bpow]; ring).
  rewrite Rlt_bool_true in C.
  - destruct C as (C1 & C2 & _). split; [exact C2|]. 
    change (IZR (2 ^ 31) <= val (f_of_Z y))%R. eapply Rle_trans; [|right; symmetry; exact C1].
    apply round_ge_generic; [apply FLT_exp_valid; reflexivity|apply valid_rnd_N| |apply IZR_le; lia].
    rewrite <- bpow_Z by lia. apply generic_format_bpow. unfold FLT_exp. lia.
  - apply Rle_lt_trans with (bpow radix2 32); [|apply bpow_lt; lia].
    apply abs_round_le_generic; [apply FLT_exp_valid; reflexivity|apply valid_rnd_N| |].
    + apply generic_format_bpow. unfold FLT_exp. lia.
    + rewrite bpow_Z, <- abs_IZR by lia. apply IZR_le. lia.
Qed.

(** ** Powers *)

Lemma odd_part_pos p : exists o k, Z.pos p = o * 2 ^ k /\ Z.odd o = true /\ 0 <= k.
Proof.
  induction p as [p _|p (o & k & E & O & K)|].
  - exists (Z.pos p~1), 0. repeat split; lia.
  - exists o, (k + 1). rewrite Z.pow_add_r by lia. repeat split; try lia. exact O.
  - exists 1, 0. repeat split; lia.
Qed.

Lemma odd_part z : z <> 0 -> exists o k, z = o * 2 ^ k /\ Z.odd o = true /\ 0 <= k.
Proof.
  intros H. destruct z as [|p|p]; [congruence|apply odd_part_pos|].
  destruct (odd_part_pos p) as (o & k & E & O & K). exists (- o), k.
  repeat split; try lia. rewrite Z.odd_opp. exact O.
Qed.

Lemma odd_rel_prime o : Z.odd o = true -> rel_prime o 2.
Proof.
  intros H. apply Zgcd_1_rel_prime. rewrite Z.gcd_comm. 
  pose proof (Z.gcd_divide_l 2 o) as D. pose proof (Z.gcd_divide_r 2 o) as D2. pose proof (Z.gcd_nonneg 2 o).
  destruct (Z.eq_dec (Z.gcd 2 o) 2) as [E|E].
  - rewrite E in D2. destruct D2 as [k ->]. rewrite Z.odd_mul in H. cbn in H. rewrite andb_false_r in H. discriminate.
  - assert (Z.gcd 2 o <= 2) by (apply Z.divide_pos_le; [lia|exact D]).
    assert (Z.gcd 2 o <> 0). { intros Z0. rewrite Z0 in D. destruct D as [k D]. lia. } lia.
Qed.

Lemma representable_divisor d z : z <> 0 -> (d | z) -> representable z -> representable d.
Proof.
  intros Hz D (m & e & He & E & Hm & B).
  assert (Hd : d <> 0) by (intros ->; destruct D as [k D]; lia).
  destruct (odd_part d Hd) as (o & k & Ed & O & K).
  exists o, k. split; [exact K|]. split; [exact Ed|]. split.
  - assert (Dm : (o | m)).
    { apply Gauss with (2 ^ e).
      - rewrite Z.mul_comm, <- E. apply Z.divide_trans with d; [|exact D]. exists (2 ^ k). lia.
      - apply rel_prime_Zpower_r; [exact He|]. apply odd_rel_prime. exact O. }
    assert (m <> 0) by (intros ->; lia).
    destruct Dm as [c Dm]. assert (c <> 0) by (intros ->; lia). nia.
  - destruct D as [c D]. assert (c <> 0) by (intros ->; lia). nia.
Qed.

Lemma ipow_loop_int n : forall r a R A x,
  is_int r R -> (x <> 0 -> is_int a A) -> 0 <= x < 2 ^ Z.of_nat n ->
  R * A ^ x <> 0 -> representable (R * A ^ x) ->
  exists f, ipow_loop n r a x = Ok f /\ is_int f (R * A ^ x).
Proof.
  induction n as [|n IH]; intros r a R A x Hr Ha Hx NZ Rep; cbn [ipow_loop].
  - change (2 ^ Z.of_nat 0) with 1 in Hx. assert (x = 0) by lia. subst x. cbn [Z.eqb].
    rewrite Z.pow_0_r, Z.mul_1_r in *. eauto.
  - destruct (Z.eqb_spec x 0) as [->|X0].
    { rewrite Z.pow_0_r, Z.mul_1_r in *. eauto. }
    specialize (Ha X0).
    pose proof (Z.div_mod x 2 ltac:(lia)) as DM. pose proof (Z.mod_pos_bound x 2 ltac:(lia)) as MB.
    assert (Hs : Z.shiftr x 1 = x / 2) by (rewrite Z.shiftr_div_pow2 by lia; reflexivity). rewrite Hs.
    assert (Hb : 0 <= x / 2 < 2 ^ Z.of_nat n).
    { rewrite Nat2Z.inj_succ, Z.pow_succ_r in Hx by lia. lia. }
    assert (Heven : forall R', R' * A ^ x = R' * A ^ (x mod 2) * (A * A) ^ (x / 2)).
    { intros R'. rewrite DM at 1. rewrite Z.pow_add_r, Z.pow_mul_r by lia. rewrite Z.pow_2_r. ring. }
    assert (Hsq : x / 2 <> 0 -> is_int (fmul a a) (A * A)).
    { intros N. apply mul_int; [exact Ha|exact Ha|].
      apply (representable_divisor _ (R * A ^ x)); [exact NZ| |exact Rep].
      rewrite Heven. apply Z.divide_mul_r. exists ((A * A) ^ (x / 2 - 1)).
      rewrite (Z.mul_comm _ (A * A)), <- Z.pow_succ_r by lia. f_equal. lia. }
    rewrite Heven in NZ, Rep |- *.
    destruct (Z.odd x) eqn:O.
    + assert (M : x mod 2 = 1) by (rewrite Zmod_odd, O; reflexivity). rewrite M, Z.pow_1_r in *.
      apply IH; try assumption.
      apply mul_int; [exact Hr|exact Ha|].
      apply (representable_divisor _ (R * A * (A * A) ^ (x / 2))); [exact NZ| |exact Rep].
      apply Z.divide_factor_l.
    + assert (M : x mod 2 = 0) by (rewrite Zmod_odd, O; reflexivity). rewrite M, Z.pow_0_r, Z.mul_1_r in *.
      apply IH; assumption.
Qed.

Lemma zero_representable : representable 0.
Proof. apply small_representable. unfold small. lia. Qed.
Lemma one_representable : representable 1.
Proof. apply small_representable. unfold small. lia. Qed.

Lemma ipow_loop_zero n : forall r a R x,
  is_int r R -> is_int a 0 -> 0 <= x < 2 ^ Z.of_nat n ->
  exists f, ipow_loop n r a x = Ok f /\ is_int f (R * 0 ^ x).
Proof.
  induction n as [|n IH]; intros r a R x Hr Ha Hx; cbn [ipow_loop].
  - change (2 ^ Z.of_nat 0) with 1 in Hx. assert (x = 0) by lia. subst x. cbn [Z.eqb].
    rewrite Z.pow_0_r, Z.mul_1_r in *. eauto.
  - destruct (Z.eqb_spec x 0) as [->|X0].
    { rewrite Z.pow_0_r, Z.mul_1_r in *. eauto. }
    pose proof (Z.div_mod x 2 ltac:(lia)) as DM. pose proof (Z.mod_pos_bound x 2 ltac:(lia)) as MB.
    assert (Hs : Z.shiftr x 1 = x / 2) by (rewrite Z.shiftr_div_pow2 by lia; reflexivity). rewrite Hs.
    assert (Hb : 0 <= x / 2 < 2 ^ Z.of_nat n).
    { rewrite Nat2Z.inj_succ, Z.pow_succ_r in Hx by lia. lia. }
    assert (Hsq : is_int (fmul a a) 0).
    { apply (mul_int a a 0 0 Ha Ha). apply zero_representable. }
    rewrite (Z.pow_0_l x) by lia. rewrite Z.mul_0_r.
    destruct (Z.odd x) eqn:O.
    + assert (Hr0 : is_int (fmul r a) 0).
      { rewrite <- (Z.mul_0_r R). apply mul_int; [exact Hr|exact Ha|]. rewrite Z.mul_0_r. apply zero_representable. }
      destruct (IH _ _ _ _ Hr0 Hsq Hb) as (f & E & I). rewrite Z.mul_0_l in I. eauto.
    + destruct (IH _ _ _ _ Hr Hsq Hb) as (f & E & I).
      assert (x / 2 <> 0). { rewrite Zmod_odd, O in DM. lia. }
      rewrite Z.pow_0_l, Z.mul_0_r in I by lia. eauto.
Qed.

Lemma ipow_int a A x : is_int a A -> 0 <= x < 256 -> representable (A ^ x) ->
  exists f, ipow a x = Ok f /\ is_int f (A ^ x).
Proof.
  intros Ha Hx Rep. unfold ipow.
  assert (H1 : is_int f_one 1) by (apply of_Z_int, one_representable).
  rewrite <- (Z.mul_1_l (A ^ x)) in Rep |- *.
  destruct (Z.eq_dec A 0) as [->|NZ].
  - apply ipow_loop_zero; assumption.
  - apply ipow_loop_int; try assumption; [intros _; exact Ha|].
    rewrite Z.mul_1_l. apply Z.pow_nonzero; lia.
Qed.

Lemma powf_int rest a b A x : is_int a A -> is_int b x -> 0 <= x < 256 -> representable (A ^ x) ->
  exists f, snek_powf rest a b = Ok f /\ is_int f (A ^ x).
Proof.
  intros Ha Hb Hx Rep. unfold snek_powf. rewrite (to_uint_int 8 b x Hb) by exact Hx. cbn [obind].
  pose proof (of_Z_int x (is_int_representable b x Hb)) as H'.
  rewrite (feq_int _ _ _ _ H' Hb), Z.eqb_refl. apply ipow_int; assumption.
Qed.

(** ** Factorials *)

Lemma fact_divides n k : (n <= k)%nat -> (fact n | fact k).
Proof.
  induction 1 as [|k _ IH]; [apply Z.divide_refl|].
  cbn [fact]. apply Z.divide_mul_r. exact IH.
Qed.
Lemma fact_pos n : 0 < fact n.
Proof. induction n as [|n IH]; [reflexivity|]. cbn [fact]. apply Z.mul_pos_pos; lia. Qed.

Lemma fact_representable n : (n <= 13)%nat -> representable (fact n).
Proof.
  intros H. apply (representable_divisor _ (fact 13)); [pose proof (fact_pos 13); lia|apply fact_divides; exact H|].
  exists 6081075, 10. repeat split; vm_compute; congruence.
Qed.

Lemma factorial_loop_int m : forall k n r x f, (n <= 13)%nat -> (k <= n + 1)%nat -> (n + 1 <= k + m)%nat -> (1 <= k)%nat ->
  is_int r (fact (k - 1)) -> is_int x (Z.of_nat k) -> is_int f (Z.of_nat n) ->
  exists g, factorial_loop m r x f = Ok g /\ is_int g (fact n).
Proof.
  induction m as [|m IH]; intros k n r x f Hn Hk Hm H1 Hr Hx Hf; cbn [factorial_loop];
    rewrite (fle_int _ _ _ _ Hx Hf); destruct (Z.leb_spec (Z.of_nat k) (Z.of_nat n)) as [L|L].
  - lia.
  - assert (k - 1 = n)%nat by lia. subst n. eauto.
  - apply (IH (S k)); try lia; try assumption.
    + replace (S k - 1)%nat with k by lia.
      destruct k as [|k]; [lia|]. replace (S k - 1)%nat with k in Hr by lia.
      cbn [fact]. rewrite Z.mul_comm. apply mul_int; try assumption.
      rewrite Z.mul_comm. apply (fact_representable (S k)). lia.
    + rewrite Nat2Z.inj_succ. unfold Z.succ. apply add_int; [exact Hx| |].
      * apply of_Z_int, one_representable.
      * apply small_representable. unfold small. lia.
  - assert (k - 1 = n)%nat by lia. subst n. eauto.
Qed.

Lemma factorial_int f n : (n <= 13)%nat -> is_int f (Z.of_nat n) ->
  exists g, factorialf f = Ok g /\ is_int g (fact n).
Proof.
  intros Hn Hf. unfold factorialf.
  assert (H35 : is_int (f_of_Z 35) 35) by (apply of_Z_int, small_representable; unfold small; lia).
  rewrite (flt_int _ _ _ _ H35 Hf). destruct (Z.ltb_spec 35 (Z.of_nat n)); [lia|].
  destruct n as [|n].
  - (* the loop is not entered *)
    assert (H2 : is_int (f_of_Z 2) 2) by (apply of_Z_int, small_representable; unfold small; lia).
    cbn [factorial_loop]. rewrite (fle_int _ _ _ _ H2 Hf). cbn [Z.of_nat Z.leb Z.compare].
    eexists; split; [reflexivity|]. apply of_Z_int, one_representable.
  - apply (factorial_loop_int 40 2 (S n)); try lia; try assumption.
    + apply of_Z_int, one_representable.
    + apply of_Z_int, small_representable. unfold small. lia.
Qed.

(** ** Greatest common divisors *)

Lemma gcd_loop_ends n : forall a b, 0 <= a -> 0 <= b < 2 ^ Z.of_nat n ->
  exists g, gcd_loop (2 * n + 1) a b = Ok g.
Proof.
  induction n as [|n IH]; intros a b Ha Hb.
  - change (2 ^ Z.of_nat 0) with 1 in Hb. cbn [Nat.mul Nat.add gcd_loop].
    destruct (Z.ltb_spec 1 b); [lia|]. rewrite andb_false_r. eauto.
  - rewrite Nat2Z.inj_succ, Z.pow_succ_r in Hb by lia.
    replace (2 * S n + 1)%nat with (S (S (2 * n + 1))) by lia.
    cbn [gcd_loop]. destruct ((1 <? a) && (1 <? b)) eqn:E; [|eauto].
    apply andb_prop in E as [E1 E2]. apply Z.ltb_lt in E1, E2.
    rewrite (Z.rem_mod_nonneg a b) by lia. pose proof (Z.mod_pos_bound a b ltac:(lia)) as M.
    set (r := a mod b) in *.
    destruct ((1 <? b) && (1 <? r)) eqn:E'; [|eauto].
    apply andb_prop in E' as [_ E3]. apply Z.ltb_lt in E3.
    rewrite (Z.rem_mod_nonneg b r) by lia. apply IH; [lia|].
    pose proof (Z.mod_pos_bound b r ltac:(lia)). pose proof (Z.div_mod b r ltac:(lia)).
    assert (1 <= b / r) by (apply Z.div_le_lower_bound; lia). nia.
Qed.

Lemma gcd_loop_result n : forall a b g, 0 < a -> 0 <= b -> gcd_loop n a b = Ok g -> 1 < Z.gcd a b -> g = Z.gcd a b.
Proof.
  induction n as [|n IH]; intros a b g Ha Hb; cbn [gcd_loop];
    destruct ((1 <? a) && (1 <? b)) eqn:E; try discriminate.
  1, 3: intros [= <-] G; apply andb_false_iff in E as [E|E]; apply Z.ltb_ge in E;
    [assert (a = 1) by lia; subst a; rewrite Z.gcd_1_l in G; lia|];
    assert (B : b = 0 \/ b = 1) by lia; destruct B as [-> | ->];
      [rewrite Z.gcd_0_r; lia | rewrite Z.gcd_1_r in G; lia].
  intros L G. apply andb_prop in E as [E1 E2]. apply Z.ltb_lt in E1, E2.
  rewrite (Z.rem_mod_nonneg a b) in L by lia. pose proof (Z.mod_pos_bound a b ltac:(lia)).
  assert (K : Z.gcd b (a mod b) = Z.gcd a b) by (rewrite (Z.gcd_comm b), Z.gcd_mod by lia; apply Z.gcd_comm).
  rewrite <- K in G |- *. apply (IH b (a mod b) g); try assumption; lia.
Qed.

Lemma gcd_loop_coprime n : forall a b g, 1 < a -> 0 < b -> gcd_loop n a b = Ok g -> Z.gcd a b = 1 -> 1 < g.
Proof.
  induction n as [|n IH]; intros a b g Ha Hb; cbn [gcd_loop];
    destruct ((1 <? a) && (1 <? b)) eqn:E; try discriminate.
  1, 3: intros [= <-] G; exact Ha.
  intros L G. apply andb_prop in E as [E1 E2]. apply Z.ltb_lt in E1, E2.
  rewrite (Z.rem_mod_nonneg a b) in L by lia. pose proof (Z.mod_pos_bound a b ltac:(lia)).
  assert (K : Z.gcd b (a mod b) = Z.gcd a b) by (rewrite (Z.gcd_comm b), Z.gcd_mod by lia; apply Z.gcd_comm).
  apply (IH b (a mod b) g); try assumption; try lia.
  destruct (Z.eq_dec (a mod b) 0) as [Z0|]; [|lia]. rewrite Z0, Z.gcd_0_r in K. lia.
Qed.

Lemma gcd_spec a b : greatest_common_divisor a b (Z.gcd a b).
Proof.
  split; [apply Z.gcd_nonneg|]. split; [apply Z.gcd_divide_l|]. split; [apply Z.gcd_divide_r|].
  intros d. apply Z.gcd_greatest.
Qed.

Lemma gcd_representable a b x y : is_int a x -> is_int b y -> x <> 0 -> representable (Z.gcd x y).
Proof.
  intros Ha Hb Hx. apply (representable_divisor _ x); [exact Hx|apply Z.gcd_divide_l|].
  apply (is_int_representable a). exact Ha.
Qed.

Lemma gcdf_loop a b x y : is_int a x -> is_int b y -> Z.abs x < 2 ^ 31 -> Z.abs y < 2 ^ 31 -> x <> 0 -> y <> 0 ->
  exists g, gcd_loop 64 (Z.abs x) (Z.abs y) = Ok g /\ gcdf a b = Ok (f_of_Z g).
Proof.
  intros Ha Hb Rx Ry Hx Hy.
  assert (L : exists g, gcd_loop 64 (Z.abs x) (Z.abs y) = Ok g).
  { destruct (gcd_loop_ends 31 (Z.abs x) (Z.abs y) ltac:(lia)) as [g G].
    - change (2 ^ Z.of_nat 31) with (2 ^ 31). lia.
    - assert (Mono : forall n p q g, gcd_loop n p q = Ok g -> gcd_loop (S n) p q = Ok g).
      { clear. induction n as [|n IH]; intros p q g; cbn [gcd_loop];
          destruct ((1 <? p) && (1 <? q)); try discriminate; try (intros H; exact H).
        intros H. apply IH in H. exact H. }
      exists g. apply Mono. exact G. }
  destruct L as [g G]. exists g. split; [exact G|].
  unfold gcdf. rewrite (to_sint_int _ _ (abs_int a x Ha)) by (unfold int32; lia). cbn [obind].
  rewrite (to_sint_int _ _ (abs_int b y Hb)) by (unfold int32; lia). cbn [obind].
  destruct (Z.eqb_spec (Z.abs x) 0); [lia|]. destruct (Z.eqb_spec (Z.abs y) 0); [lia|]. cbn [orb].
  change (Z.to_nat 64) with 64%nat. rewrite G. reflexivity.
Qed.

Lemma gcdf_int a b x y : is_int a x -> is_int b y -> Z.abs x < 2 ^ 31 -> Z.abs y < 2 ^ 31 -> x <> 0 -> y <> 0 ->
  1 < Z.gcd x y ->
  exists f g, gcdf a b = Ok f /\ is_int f g /\ greatest_common_divisor x y g.
Proof.
  intros Ha Hb Rx Ry Hx Hy G1. destruct (gcdf_loop a b x y Ha Hb Rx Ry Hx Hy) as (g & G & E).
  exists (f_of_Z g), (Z.gcd x y). split; [exact E|]. split; [|apply gcd_spec].
  apply gcd_loop_result in G; try lia.
  - rewrite Z.gcd_abs_l, Z.gcd_abs_r in G. subst g. apply of_Z_int. eapply gcd_representable; eauto.
  - rewrite Z.gcd_abs_l, Z.gcd_abs_r. exact G1.
Qed.

Lemma f_of_Z_ge z : 1 < z -> z < 2 ^ 32 -> f_is_finite (f_of_Z z) = true /\ (IZR 2 <= val (f_of_Z z))%R.
Proof.
  intros H1 H2.
  pose proof (binary_normalize_correct 24 128 prec24 prec24_emax mode_NE z 0 false) as C.
  cbn [round_mode] in C. rewrite fexp32 in C.
  replace (F2R {| Fnum := z; Fexp := 0 |}) with (IZR z) in C by (unfold F2R; cbn [Fnum Fexp bpow]; ring).
  rewrite Rlt_bool_true in C.
  - destruct C as (C1 & C2 & _). split; [exact C2|]. 
    eapply Rle_trans; [|right; symmetry; exact C1].
    apply round_ge_generic; [apply FLT_exp_valid; reflexivity|apply valid_rnd_N| |apply IZR_le; lia].
    change 2%R with (bpow radix2 1). apply generic_format_bpow. unfold FLT_exp. lia.
  - apply Rle_lt_trans with (bpow radix2 32); [|apply bpow_lt; lia].
    apply abs_round_le_generic; [apply FLT_exp_valid; reflexivity|apply valid_rnd_N| |].
    + apply generic_format_bpow. unfold FLT_exp. lia.
    + rewrite bpow_Z, <- abs_IZR by lia. apply IZR_le. lia.
Qed.

Lemma gcd_loop_bound n : forall a b g, 0 <= a < 2 ^ 31 -> 0 <= b < 2 ^ 31 -> gcd_loop n a b = Ok g -> g < 2 ^ 31.
Proof.
  induction n as [|n IH]; intros a b g Ha Hb; cbn [gcd_loop];
    destruct ((1 <? a) && (1 <? b)) eqn:E; try discriminate.
  1, 3: intros [= <-]; lia.
  intros L. apply andb_prop in E as [E1 E2]. apply Z.ltb_lt in E1, E2.
  rewrite (Z.rem_mod_nonneg a b) in L by lia. pose proof (Z.mod_pos_bound a b ltac:(lia)).
  apply (IH b (a mod b) g); try assumption; lia.
Qed.

Lemma gcdf_coprime a b x y : is_int a x -> is_int b y -> 1 < x < 2 ^ 31 -> 1 < y < 2 ^ 31 -> Z.gcd x y = 1 ->
  exists f, gcdf a b = Ok f /\ ~ is_int f 1.
Proof.
  intros Ha Hb Rx Ry G1. destruct (gcdf_loop a b x y Ha Hb) as (g & G & E); try lia.
  rewrite !Z.abs_eq in G by lia.
  exists (f_of_Z g). split; [exact E|].
  pose proof (gcd_loop_coprime 64 x y g ltac:(lia) ltac:(lia) G G1).
  pose proof (gcd_loop_bound 64 x y g ltac:(lia) ltac:(lia) G).
  destruct (f_of_Z_ge g) as [_ V]; try lia. intros [_ I]. rewrite I in V. lra.
Qed.
