(** Multiplying by powers of ten. *)
From Coq Require Import ZArith Reals Lia Lra Bool List.
From Flocq Require Import IEEE754.BinarySingleNaN IEEE754.Binary IEEE754.Bits Core Relative.
From Verif Require Import Base FloatModel MathModel MathSpec MathProofs AtofModel AtofProofs.
Import ListNotations.
Local Open Scope R_scope.
Local Open Scope outcome_scope.

Definition ten : radix := Build_radix 10 eq_refl.
Definition u : R := bpow radix2 (-24).
Lemma u_val : u = / 16777216.
Proof. reflexivity. Qed.
(** [r] is [v] but for [m] roundings *)
Definition near (m : nat) (r v : R) : Prop := Rabs (r - v) <= ((1 + u) ^ m - 1) * v.
Lemma pow_ge1 m : 1 <= (1 + u) ^ m.
Proof. apply pow_R1_Rle. rewrite u_val. lra. Qed.
Lemma near_mul a b r v t w : 0 < v -> 0 < w -> near a r v -> near b t w -> near (a + b) (r * t) (v * w).
Proof.
  unfold near. intros V W A B. pose proof (pow_ge1 a) as PA. pose proof (pow_ge1 b) as PB. rewrite pow_add.
  set (p := (1 + u) ^ a) in *. set (q := (1 + u) ^ b) in *.
  replace (r * t - v * w) with ((r - v) * (t - w) + v * (t - w) + w * (r - v)) by ring.
  assert (H1 : Rabs ((r - v) * (t - w)) <= ((p - 1) * v) * ((q - 1) * w)) by (rewrite Rabs_mult; apply Rmult_le_compat; auto using Rabs_pos).
  assert (H2 : Rabs (v * (t - w)) <= v * ((q - 1) * w)) by (rewrite Rabs_mult, (Rabs_pos_eq v) by lra; apply Rmult_le_compat_l; lra).
  assert (H3 : Rabs (w * (r - v)) <= w * ((p - 1) * v)) by (rewrite Rabs_mult, (Rabs_pos_eq w) by lra; apply Rmult_le_compat_l; lra).
  eapply Rle_trans; [apply Rabs_triang|]. eapply Rle_trans; [apply Rplus_le_compat_r, Rabs_triang|].
  replace ((p * q - 1) * (v * w)) with ((p - 1) * v * ((q - 1) * w) + v * ((q - 1) * w) + w * ((p - 1) * v)) by ring. lra.
Qed.
Lemma rnd_rel x : bpow radix2 (-126) <= Rabs x -> Rabs (rnd32 x - x) <= u * Rabs x.
Proof.
  intros H. pose proof (relative_error_N_FLT radix2 (-149) 24 ltac:(reflexivity) (fun z => negb (Z.even z)) x H) as E.
  eapply Rle_trans; [exact E|]. apply Rmult_le_compat_r; [apply Rabs_pos|]. rewrite u_val. cbn. lra.
Qed.
Lemma near_rnd m r v : 0 < v -> near m r v -> bpow radix2 (-126) <= Rabs r -> near (S m) (rnd32 r) v.
Proof.
  unfold near. intros V A L. pose proof (rnd_rel r L) as E. pose proof (pow_ge1 m) as P. cbn [pow]. set (p := (1 + u) ^ m) in *.
  assert (R : Rabs r <= p * v) by (replace r with ((r - v) + v) by ring; eapply Rle_trans; [apply Rabs_triang|]; rewrite (Rabs_pos_eq v) by lra; lra).
  replace (rnd32 r - v) with ((rnd32 r - r) + (r - v)) by ring. eapply Rle_trans; [apply Rabs_triang|].
  assert (u * Rabs r <= u * (p * v)) by (apply Rmult_le_compat_l; [rewrite u_val; lra|exact R]).
  replace (((1 + u) * p - 1) * v) with (u * (p * v) + (p - 1) * v) by ring. lra.
Qed.
Lemma pow_small m : (m <= 15)%nat -> (1 + u) ^ m - 1 <= INR m * (65 / 64) * u.
Proof.
  induction m as [|m IH]; intros L; [cbn; lra|]. specialize (IH ltac:(lia)). cbn [pow]. rewrite S_INR.
  assert (M : 0 <= INR m <= 14) by (split; [apply pos_INR|]; replace 14 with (INR 14) by (cbn; lra); apply le_INR; lia).
  set (n := INR m) in *. set (p := (1 + u) ^ m) in *. rewrite u_val in *.
  assert (n * n <= 14 * 14) by (apply Rmult_le_compat; lra). nra.
Qed.
Lemma near_more m m' r v : 0 <= v -> (m <= m')%nat -> near m r v -> near m' r v.
Proof.
  unfold near. intros V L N. eapply Rle_trans; [exact N|]. apply Rmult_le_compat_r; [exact V|].
  assert ((1 + u) ^ m <= (1 + u) ^ m') by (apply Rle_pow; [rewrite u_val; lra|exact L]). lra.
Qed.
Lemma near_bound m r v : 0 < v -> (m <= 15)%nat -> near m r v -> v * (1 - / 1048576) <= r <= v * (1 + / 1048576).
Proof.
  unfold near. intros V L N. pose proof (pow_small m L) as P.
  assert (M : INR m <= 15) by (replace 15 with (INR 15) by (cbn; lra); apply le_INR; lia).
  assert (B : (1 + u) ^ m - 1 <= / 1048576) by (rewrite u_val in P at 2; lra).
  assert (((1 + u) ^ m - 1) * v <= / 1048576 * v) by (apply Rmult_le_compat_r; lra).
  apply Rabs_le_inv in N. lra.
Qed.

(** the range of numbers of full precision *)
Definition low : R := bpow radix2 (-126) * (1 + / 524288).
Definition high : R := bpow radix2 128 * (1 - / 524288).
Lemma low_pos : 0 < low.
Proof. unfold low. pose proof (bpow_gt_0 radix2 (-126)). nra. Qed.
Lemma fmul_near m x v f w : (m <= 12)%nat -> f_is_finite x = true -> f_is_finite f = true -> 0 < v -> 0 < w ->
  near m (val x) v -> near 1 (val f) w -> low <= v * w <= high ->
  f_is_finite (fmul x f) = true /\ near (S (S m)) (val (fmul x f)) (v * w).
Proof.
  intros M FX FF V W NX NF [L H]. pose proof (near_mul m 1 _ _ _ _ V W NX NF) as N. replace (m + 1)%nat with (S m) in N by lia.
  assert (VW : 0 < v * w) by nra. pose proof (near_bound (S m) _ _ VW ltac:(lia) N) as B.
  pose proof (bpow_gt_0 radix2 (-126)) as P0. pose proof (bpow_gt_0 radix2 128) as P1. unfold low, high in *.
  assert (LB : bpow radix2 (-126) <= Rabs (val x * val f)) by (rewrite Rabs_pos_eq; nra).
  pose proof (near_rnd (S m) _ _ VW N LB) as NR. pose proof (near_bound (S (S m)) _ _ VW ltac:(lia) NR) as BR.
  pose proof (Bmult_correct 24 128 eq_refl eq_refl binop_nan_pl32 mode_NE x f) as C.
  change (SpecFloat.fexp 24 128) with (FLT_exp (-149) 24) in C. cbn [round_mode] in C.
  rewrite Rlt_bool_true in C.
  - destruct C as (E & F & _). unfold fmul, b32_mult, f_is_finite in *. rewrite F, FX, FF, E. split; [reflexivity|exact NR].
  - rewrite Rabs_pos_eq by nra. nra.
Qed.

(** ** The tables *)
Lemma lit_val m e : (Z.abs m < 2 ^ 24)%Z -> (-149 <= e <= 103)%Z -> f_is_finite (lit m e) = true /\ val (lit m e) = IZR m * bpow radix2 e.
Proof.
  intros M E. pose proof (binary_normalize_correct 24 128 prec24 prec24_emax mode_NE m e false) as C.
  change (SpecFloat.fexp 24 128) with (FLT_exp (-149) 24) in C. cbn [round_mode] in C.
  assert (G : rnd32 (F2R (Float radix2 m e)) = F2R (Float radix2 m e)).
  { apply round_generic; [apply valid_rnd_N|]. apply generic_format_FLT. exists (Float radix2 m e); [reflexivity|cbn; exact M|cbn; lia]. }
  rewrite G in C. rewrite Rlt_bool_true in C.
  - destruct C as (B & F & _). unfold lit, f_is_finite. rewrite F, B. split; reflexivity.
  - rewrite <- F2R_Zabs. unfold F2R. cbn [Fnum Fexp]. replace (bpow radix2 128) with (bpow radix2 (128 - e) * bpow radix2 e) by (rewrite <- bpow_plus; f_equal; lia).
    apply Rmult_lt_compat_r; [apply bpow_gt_0|].
    apply Rlt_le_trans with (bpow radix2 24); [|apply bpow_le; lia]. change (bpow radix2 24) with (IZR (2 ^ 24)). now apply IZR_lt.
Qed.
Lemma near_up m e p : (0 <= e)%Z -> (0 <= p)%Z -> (Z.abs m < 2 ^ 24)%Z -> (e <= 103)%Z ->
  (Z.abs (m * 2 ^ e - 10 ^ p) * 16777216 <= 10 ^ p)%Z -> f_is_finite (lit m e) = true /\ near 1 (val (lit m e)) (bpow ten p).
Proof.
  intros E P M E' H. destruct (lit_val m e M ltac:(lia)) as [F ->]. split; [exact F|]. unfold near. rewrite pow_1, u_val.
  rewrite <- (IZR_Zpower ten) by exact P. change (Zpower ten p) with (10 ^ p)%Z.
  rewrite <- (IZR_Zpower radix2) by exact E. change (Zpower radix2 e) with (2 ^ e)%Z.
  rewrite <- mult_IZR, <- minus_IZR, <- abs_IZR. apply IZR_le in H. rewrite mult_IZR in H. lra.
Qed.
Lemma near_down m e p : (0 < e)%Z -> (0 < p)%Z -> (Z.abs m < 2 ^ 24)%Z -> (e <= 149)%Z ->
  (Z.abs (m * 10 ^ p - 2 ^ e) * 16777216 <= 2 ^ e)%Z -> f_is_finite (lit m (- e)) = true /\ near 1 (val (lit m (- e))) (bpow ten (- p)).
Proof.
  intros E P M E' H. destruct (lit_val m (- e) M ltac:(lia)) as [F ->]. split; [exact F|]. unfold near. rewrite pow_1, u_val.
  rewrite !bpow_opp. rewrite <- (IZR_Zpower ten) by lia. change (Zpower ten p) with (10 ^ p)%Z.
  rewrite <- (IZR_Zpower radix2) by lia. change (Zpower radix2 e) with (2 ^ e)%Z.
  assert (A : 0 < IZR (10 ^ p)) by (apply IZR_lt, Z.pow_pos_nonneg; lia). assert (B : 0 < IZR (2 ^ e)) by (apply IZR_lt, Z.pow_pos_nonneg; lia).
  apply IZR_le in H. rewrite mult_IZR, abs_IZR, minus_IZR, mult_IZR in H.
  set (a := IZR (10 ^ p)) in *. set (b := IZR (2 ^ e)) in *.
  replace (IZR m * / b - / a) with ((IZR m * a - b) * / (a * b)) by (field; lra).
  rewrite Rabs_mult, (Rabs_pos_eq (/ (a * b))) by (left; apply Rinv_0_lt_compat; nra).
  replace ((1 + / 16777216 - 1) * / a) with ((b / 16777216) * / (a * b)) by (field; lra).
  apply Rmult_le_compat_r; [left; apply Rinv_0_lt_compat; nra|lra].
Qed.
Definition good (s : Z) (t : list (Z * float)) : Prop :=
  Forall (fun e => f_is_finite (snd e) = true /\ near 1 (val (snd e)) (bpow ten (s * fst e))) t.
Lemma p10_good : good 1 pwr_p10.
Proof.
  unfold good, pwr_p10. repeat (apply Forall_nil || apply Forall_cons); cbn [fst snd]; rewrite Z.mul_1_l; (eapply near_up; [discriminate..|vm_compute; reflexivity|discriminate|vm_compute; discriminate]). Qed.
Lemma m10_good : good (-1) pwr_m10.
Proof.
  unfold good, pwr_m10. repeat (apply Forall_nil || apply Forall_cons); cbn [fst snd]; rewrite Z.mul_comm, <- Z.opp_eq_mul_m1;
  match goal with |- context [lit ?m (Zneg ?e)] => change (Zneg e) with (- Zpos e)%Z end; (eapply near_down; [reflexivity|reflexivity|vm_compute; reflexivity|discriminate|vm_compute; discriminate]). Qed.
