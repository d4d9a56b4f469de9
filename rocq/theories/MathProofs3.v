(** Random numbers. *)
From Coq Require Import ZArith Reals Lia Lra Bool List.
From Flocq Require Import IEEE754.BinarySingleNaN IEEE754.Binary IEEE754.Bits Core.
From Verif Require Import Base FloatModel MathModel MathSpec MathProofs MathProofs2.
Local Open Scope Z_scope.

(** Conversion of a 32-bit integer. *)
Lemma of_Z_real z : 0 <= z < 2 ^ 32 -> is_real (f_of_Z z) (rnd32 (IZR z)).
Proof.
  intros H.
  pose proof (binary_normalize_correct 24 128 prec24 prec24_emax mode_NE z 0 false) as C.
  cbn [round_mode] in C. rewrite fexp32 in C.
  replace (F2R {| Fnum := z; Fexp := 0 |}) with (IZR z) in C by (unfold F2R; cbn [Fnum Fexp bpow]; ring).
  rewrite Rlt_bool_true in C.
  - destruct C as (C1 & C2 & _). split; [exact C2|exact C1].
  - apply Rle_lt_trans with (bpow radix2 32); [|apply bpow_lt; lia].
    apply abs_round_le_generic; [apply FLT_exp_valid; reflexivity|apply valid_rnd_N| |].
    + apply generic_format_bpow. unfold FLT_exp. lia.
    + rewrite bpow_Z, <- abs_IZR by lia. apply IZR_le. lia.
Qed.

Lemma rnd_le_int z n : z <= n -> representable n -> (rnd32 (IZR z) <= IZR n)%R.
Proof.
  intros H R. rewrite <- (representable_round n R).
  apply round_le; [apply FLT_exp_valid; reflexivity|apply valid_rnd_N|apply IZR_le; exact H].
Qed.
Lemma rnd_ge_int z n : n <= z -> representable n -> (IZR n <= rnd32 (IZR z))%R.
Proof.
  intros H R. rewrite <- (representable_round n R).
  apply round_le; [apply FLT_exp_valid; reflexivity|apply valid_rnd_N|apply IZR_le; exact H].
Qed.

Lemma randrange_runs f n r : is_int f n -> 1 <= n < 2 ^ 32 ->
  exists z, randrange f r = Ok (f_of_Z z, next_random r) /\ 0 <= z < n.
Proof.
  intros H R. exists (rnd_x (next_random r) mod n). split; [|apply Z.mod_pos_bound; lia].
  unfold randrange. rewrite (to_uint_int 32 f n H) by lia. cbn [obind].
  destruct (Z.eqb_spec n 0); [lia|]. reflexivity.
Qed.

Lemma small_randrange_runs f n r : is_int f n -> 1 <= n < 2 ^ 32 ->
  exists z, small_randrange f r = Ok (f_of_Z z, small_next r) /\ 0 <= z < n.
Proof.
  intros H R. exists (small_next r mod n). split; [|apply Z.mod_pos_bound; lia].
  unfold small_randrange. rewrite (to_uint_int 32 f n H) by lia. cbn [obind].
  destruct (Z.eqb_spec n 0); [lia|]. reflexivity.
Qed.

Lemma draw_in_range n z : 0 <= z < n -> n <= 2 ^ 24 -> is_int (f_of_Z z) z.
Proof. intros H R. apply of_Z_int, small_representable. unfold small. lia. Qed.

Lemma draw_at_most n f z : is_int f n -> 0 <= z < n -> n < 2 ^ 32 ->
  exists v, is_real (f_of_Z z) v /\ (0 <= v <= IZR n)%R.
Proof.
  intros H B R. exists (rnd32 (IZR z)). split; [apply of_Z_real; lia|]. split.
  - apply (rnd_ge_int z 0); [lia|apply zero_representable].
  - apply rnd_le_int; [lia|]. apply (is_int_representable f). exact H.
Qed.

(** random: a 32-bit integer scaled by 2^-32. *)
Lemma scaled_real z : 0 <= z < 2 ^ 32 ->
  is_real (binary_normalize 24 128 prec24 prec24_emax mode_NE z (-32) false) (rnd32 (IZR z / IZR (2 ^ 32))).
Proof.
  intros H.
  pose proof (binary_normalize_correct 24 128 prec24 prec24_emax mode_NE z (-32) false) as C.
  cbn [round_mode] in C. rewrite fexp32 in C.
  replace (F2R {| Fnum := z; Fexp := -32 |}) with (IZR z / IZR (2 ^ 32))%R in C
    by (unfold F2R; cbn [Fnum Fexp]; change (-32) with (- (32)); rewrite bpow_opp, bpow_Z by lia; reflexivity).
  rewrite Rlt_bool_true in C.
  - destruct C as (C1 & C2 & _). split; [exact C2|exact C1].
  - apply Rle_lt_trans with (bpow radix2 0); [|apply bpow_lt; lia].
    apply abs_round_le_generic; [apply FLT_exp_valid; reflexivity|apply valid_rnd_N| |].
    + apply generic_format_bpow. unfold FLT_exp. lia.
    + cbn [bpow]. assert (0 <= IZR z)%R by (apply IZR_le; lia). assert (IZR z <= IZR (2 ^ 32))%R by (apply IZR_le; lia).
      change (IZR (2 ^ 32)) with 4294967296%R in *. rewrite Rabs_pos_eq; lra.
Qed.

Lemma rnd_frac_bounds z : 0 <= z < 2 ^ 32 -> (0 <= rnd32 (IZR z / IZR (2 ^ 32)) <= 1)%R.
Proof.
  intros H. assert (0 <= IZR z)%R by (apply IZR_le; lia). assert (IZR z <= IZR (2 ^ 32))%R by (apply IZR_le; lia).
  change (IZR (2 ^ 32)) with 4294967296%R in *. split.
  - apply round_ge_generic; [apply FLT_exp_valid; reflexivity|apply valid_rnd_N|apply generic_format_0|]. lra.
  - apply round_le_generic; [apply FLT_exp_valid; reflexivity|apply valid_rnd_N| |lra].
    change 1%R with (bpow radix2 0). apply generic_format_bpow. unfold FLT_exp. lia.
Qed.

Lemma rnd_frac_below z : 0 <= z < 2 ^ 32 - 128 -> (rnd32 (IZR z / IZR (2 ^ 32)) < 1)%R.
Proof.
  intros H. set (x := (IZR z / IZR (2 ^ 32))%R).
  assert (Hx0 : (0 <= x)%R).
  { unfold x. assert (0 <= IZR z)%R by (apply IZR_le; lia). change (IZR (2 ^ 32)) with 4294967296%R. lra. }
  assert (Hx1 : (x < 1 - / 33554432)%R).
  { unfold x. assert (IZR z < IZR (2 ^ 32 - 128))%R by (apply IZR_lt; lia).
    change (IZR (2 ^ 32)) with 4294967296%R. change (IZR (2 ^ 32 - 128)) with 4294967168%R in *. lra. }
  (* the float below 1 is closer *)
  set (p := (1 - / 16777216)%R).
  assert (Fp : generic_format radix2 (FLT_exp (-149) 24) p).
  { apply generic_format_FLT. exists (Float radix2 16777215 (-24)); [|reflexivity|cbn; lia].
    unfold p, F2R. cbn [Fnum Fexp]. change (bpow radix2 (-24)) with (/ 16777216)%R. lra. }
  destruct (Rle_lt_dec x p) as [L|L].
  - apply Rle_lt_trans with p; [|unfold p; lra].
    apply round_le_generic; [apply FLT_exp_valid; reflexivity|apply valid_rnd_N|exact Fp|exact L].
  - destruct (round_N_pt radix2 (FLT_exp (-149) 24) (fun z => negb (Z.even z)) x) as [_ N].
    specialize (N p Fp). change (Znearest (fun z => negb (Z.even z))) with ZnearestE in N.
    destruct (Rlt_le_dec (rnd32 x) 1) as [G|G]; [exact G|]. exfalso.
    rewrite Rabs_pos_eq in N by lra. rewrite Rabs_left in N by lra. unfold p in N, L. lra.
Qed.

Lemma next_random_wf r : 0 <= rnd_x (next_random r) < 2 ^ 64.
Proof.
  cbn [next_random rnd_x].
  set (x := wrapu 64 (wrapu 64 (rnd_x r * rnd_x r) + wrapu 64 (rnd_w r + random_s))).
  assert (Hx : 0 <= x < 2 ^ 64) by (apply Z.mod_pos_bound; lia).
  assert (Hy : 0 <= wrapu 64 (Z.shiftl x 32) < 2 ^ 64) by (apply Z.mod_pos_bound; lia).
  assert (Hs : 0 <= Z.shiftr x 32 < 2 ^ 64).
  { rewrite Z.shiftr_div_pow2 by lia. split; [apply Z.div_pos; lia|]. 
    apply Z.le_lt_trans with x; [|lia]. apply Z.div_le_upper_bound; lia. }
  split.
  - apply Z.lor_nonneg. lia.
  - apply Z.log2_lt_cancel. rewrite Z.log2_lor by lia. rewrite Z.log2_pow2 by lia.
    apply Z.max_lub_lt.
    + destruct (Z.eq_dec (Z.shiftr x 32) 0) as [E|E]; [rewrite E; reflexivity|]. apply Z.log2_lt_pow2; lia.
    + destruct (Z.eq_dec (wrapu 64 (Z.shiftl x 32)) 0) as [E|E]; [rewrite E; reflexivity|]. apply Z.log2_lt_pow2; lia.
Qed.

Lemma random_range r : exists v, is_real (fst (random_random r)) v /\ (0 <= v <= 1)%R /\
  (rnd_x (next_random r) mod 2 ^ 32 < 2 ^ 32 - 128 -> (v < 1)%R).
Proof.
  cbn [random_random fst].
  assert (H : 0 <= wrapu 32 (rnd_x (next_random r)) < 2 ^ 32) by (apply Z.mod_pos_bound; lia).
  exists (rnd32 (IZR (wrapu 32 (rnd_x (next_random r))) / IZR (2 ^ 32))). 
  split; [apply scaled_real; exact H|]. split; [apply rnd_frac_bounds; exact H|].
  intros L. apply rnd_frac_below. unfold wrapu in *. lia.
Qed.
