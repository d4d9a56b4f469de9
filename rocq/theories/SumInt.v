(** Rounding to 24 bits of integers: the values of numbers in units of 2^-149. *)
From Coq Require Import ZArith Reals Lia Lra Bool List.
From Flocq Require Import Core Pff2Flocq.
Import ListNotations.
Local Open Scope Z_scope.

Notation rnd32 := (round radix2 (FLT_exp (-149) 24) ZnearestE).
#[local] Instance valid32 : Valid_exp (FLT_exp (-149) 24).
Proof. apply FLT_exp_valid. reflexivity. Qed.
Definition unit : R := bpow radix2 (-149).
Definition ex (z : Z) : Z := Z.max 0 (Z.log2 (Z.abs z) - 23).
Definition rnd (z : Z) : Z := 2 ^ ex z * ZnearestE (IZR z / IZR (2 ^ ex z)).

Lemma unit_pos : (0 < unit)%R.
Proof. apply bpow_gt_0. Qed.
Lemma pow_pos e : 0 <= e -> 0 < 2 ^ e.
Proof. intros H. apply Z.pow_pos_nonneg; lia. Qed.
Lemma ex_nonneg z : 0 <= ex z.
Proof. unfold ex. lia. Qed.
Lemma IZR_pow e : 0 <= e -> IZR (2 ^ e) = bpow radix2 e.
Proof. intros H. rewrite <- (IZR_Zpower radix2) by exact H. reflexivity. Qed.

Lemma mag_unit z : z <> 0 -> mag radix2 (IZR z * unit) = (Z.log2 (Z.abs z) + 1 - 149) :> Z.
Proof.
  intros H. unfold unit. rewrite mag_mult_bpow by (apply IZR_neq; exact H).
  rewrite (mag_unique_pos radix2 (Rabs (IZR z)) (Z.log2 (Z.abs z) + 1)) || idtac.
  assert (M : mag radix2 (IZR z) = (Z.log2 (Z.abs z) + 1) :> Z).
  { apply mag_unique. rewrite <- abs_IZR. pose proof (Z.log2_spec (Z.abs z) ltac:(lia)) as [A B].
    pose proof (Z.log2_nonneg (Z.abs z)).
    replace (Z.log2 (Z.abs z) + 1 - 1) with (Z.log2 (Z.abs z)) by lia.
    rewrite <- !IZR_pow by lia. split; [apply IZR_le|apply IZR_lt]; [exact A|now rewrite Z.add_1_r]. }
  lia.
Qed.
Lemma cexp_unit z : z <> 0 -> cexp radix2 (FLT_exp (-149) 24) (IZR z * unit) = ex z - 149.
Proof. intros H. unfold cexp. rewrite mag_unit by exact H. unfold FLT_exp, ex. lia. Qed.
Theorem rnd_round z : rnd32 (IZR z * unit) = (IZR (rnd z) * unit)%R.
Proof.
  destruct (Z.eq_dec z 0) as [->|H].
  - rewrite Rmult_0_l, round_0 by apply valid_rnd_N. unfold rnd, ex. cbn -[ZnearestE IZR].
    unfold Rdiv. rewrite Rmult_0_l. replace (ZnearestE 0) with 0; [cbn; lra|].
    symmetry. apply (Znearest_imp _ 0 0). rewrite Rminus_0_r, Rabs_R0. lra.
  - unfold round, F2R. cbn [Fnum Fexp]. unfold scaled_mantissa. rewrite cexp_unit by exact H.
    pose proof (ex_nonneg z). unfold rnd. rewrite mult_IZR, IZR_pow by lia.
    replace (IZR z * unit * bpow radix2 (- (ex z - 149)))%R with (IZR z / bpow radix2 (ex z))%R.
    + replace (bpow radix2 (ex z - 149)) with (bpow radix2 (ex z) * unit)%R; [ring|].
      unfold unit. now rewrite <- bpow_plus.
    + unfold Rdiv, unit. rewrite <- bpow_opp, Rmult_assoc, <- bpow_plus. do 2 f_equal. lia.
Qed.

Lemma unit_inj x y : (IZR x * unit = IZR y * unit)%R -> x = y.
Proof. intros H. apply eq_IZR. apply Rmult_eq_reg_r with unit; [exact H|]. pose proof unit_pos. lra. Qed.
Lemma rnd_opp z : rnd (- z) = - rnd z.
Proof.
  apply unit_inj. rewrite <- rnd_round, !opp_IZR, Ropp_mult_distr_l_reverse.
  rewrite round_NE_opp, rnd_round. lra.
Qed.
(** multiples stay multiples *)
Lemma rnd_fix z : (2 ^ ex z | z) -> rnd z = z.
Proof.
  intros [k E]. unfold rnd. rewrite E at 2. rewrite mult_IZR. pose proof (pow_pos (ex z) (ex_nonneg z)).
  assert (IZR (2 ^ ex z) <> 0)%R by (apply IZR_neq; lia).
  unfold Rdiv. rewrite Rmult_assoc, Rinv_r, Rmult_1_r by assumption.
  rewrite Zrnd_IZR by apply valid_rnd_N. lia.
Qed.
Lemma rnd_grid z : (2 ^ ex z | rnd z).
Proof. exists (ZnearestE (IZR z / IZR (2 ^ ex z))). unfold rnd. ring. Qed.
Lemma pow_divide a b : 0 <= a <= b -> (2 ^ a | 2 ^ b).
Proof. intros H. exists (2 ^ (b - a)). rewrite <- Z.pow_add_r by lia. f_equal. lia. Qed.
Lemma rnd_divide s z : 0 <= s -> (2 ^ s | z) -> (2 ^ s | rnd z).
Proof.
  intros S H. pose proof (ex_nonneg z). destruct (Z.le_gt_cases (ex z) s).
  - rewrite rnd_fix; [exact H|]. eapply Z.divide_trans; [|exact H]. apply pow_divide. lia.
  - eapply Z.divide_trans; [|apply rnd_grid]. apply pow_divide. lia.
Qed.
(** the error *)
Lemma rnd_error z : 2 * Z.abs (z - rnd z) <= 2 ^ ex z.
Proof.
  unfold rnd. pose proof (pow_pos (ex z) (ex_nonneg z)) as P. set (p := 2 ^ ex z) in *.
  pose proof (Znearest_half (fun x => negb (Z.even x)) (IZR z / IZR p)) as H.
  assert (0 < IZR p)%R by (apply IZR_lt; exact P).
  set (n := ZnearestE (IZR z / IZR p)) in *.
  assert (Rabs (IZR z - IZR p * IZR n) <= / 2 * IZR p)%R.
  { replace (IZR z - IZR p * IZR n)%R with ((IZR z / IZR p - IZR n) * IZR p)%R by (field; lra).
    rewrite Rabs_mult, (Rabs_pos_eq (IZR p)) by lra. apply Rmult_le_compat_r; lra. }
  apply le_IZR. rewrite mult_IZR, abs_IZR, minus_IZR, mult_IZR. lra.
Qed.
Lemma rnd_small z : Z.abs z < 2 ^ 24 -> rnd z = z.
Proof.
  intros H. apply rnd_fix. unfold ex. destruct (Z.eq_dec z 0) as [->|N]; [apply Z.divide_0_r|].
  pose proof (Z.log2_lt_pow2 (Z.abs z) 24 ltac:(lia)) as L. replace (Z.max 0 (Z.log2 (Z.abs z) - 23)) with 0 by lia.
  apply Z.divide_1_l.
Qed.

(** [z] is the value of a number, overflow apart *)
Definition fits (z : Z) : Prop := rnd z = z.
Lemma fits_format z : fits z <-> generic_format radix2 (FLT_exp (-149) 24) (IZR z * unit).
Proof.
  split; intros H.
  - unfold fits in H. rewrite <- H at 1. rewrite <- rnd_round. apply generic_format_round; [apply FLT_exp_valid; reflexivity|apply valid_rnd_N].
  - apply unit_inj. rewrite <- rnd_round. apply round_generic; [apply valid_rnd_N|exact H].
Qed.
Lemma rnd_fits z : fits (rnd z).
Proof. apply fits_format. rewrite <- rnd_round. apply generic_format_round; [apply FLT_exp_valid; reflexivity|apply valid_rnd_N]. Qed.
Lemma rnd_nearest z g : fits g -> Z.abs (rnd z - z) <= Z.abs (g - z).
Proof.
  intros G. apply fits_format in G.
  pose proof (round_N_pt radix2 (FLT_exp (-149) 24) (fun x => negb (Z.even x)) (IZR z * unit)) as [_ H].
  specialize (H _ G). rewrite rnd_round, <- !Rmult_minus_distr_r, !Rabs_mult in H.
  apply Rmult_le_reg_r in H; [|apply Rabs_pos_lt; pose proof unit_pos; lra].
  rewrite <- !minus_IZR, <- !abs_IZR in H. now apply le_IZR.
Qed.
(** the error is at most the smaller operand *)
Lemma error_small x y : fits x -> fits y -> Z.abs (x + y - rnd (x + y)) <= Z.min (Z.abs x) (Z.abs y).
Proof. intros X Y. pose proof (rnd_nearest (x + y) x X). pose proof (rnd_nearest (x + y) y Y). lia. Qed.

(** Dekker: the error of a sum is found exactly *)
Theorem two_sum x y : fits x -> fits y -> Z.abs y <= Z.abs x ->
  rnd (y - rnd (rnd (x + y) - x)) = x + y - rnd (x + y).
Proof.
  intros X Y L.
  pose proof (Fast2Sum_correct (-149) 24 (fun x => negb (Z.even x)) ltac:(lia) ltac:(lia)) as H.
  assert (S : forall x, negb (Z.even x) = negb (negb (Z.even (- (x + 1))))).
  { intro t. rewrite Z.even_opp, Z.even_add. destruct (Z.even t); reflexivity. }
  specialize (H S _ _ (proj1 (fits_format x) X) (proj1 (fits_format y) Y)).
  rewrite !Rabs_mult, <- !abs_IZR in H.
  assert (E : (IZR (Z.abs y) * Rabs unit <= IZR (Z.abs x) * Rabs unit)%R).
  { apply Rmult_le_compat_r; [apply Rabs_pos|now apply IZR_le]. }
  specialize (H E). rewrite <- !Rmult_plus_distr_r, <- plus_IZR, !rnd_round, <- Rmult_minus_distr_r, <- minus_IZR, rnd_round in H.
  rewrite <- Rmult_plus_distr_r, <- plus_IZR, rnd_round, <- Rmult_plus_distr_r, <- plus_IZR in H.
  apply unit_inj in H.
  replace (x - rnd (x + y)) with (- (rnd (x + y) - x)) in H by lia. rewrite rnd_opp in H.
  replace (y - rnd (rnd (x + y) - x)) with (y + - rnd (rnd (x + y) - x)) by lia. lia.
Qed.
