(** The functions on numbers behind the builtins, over the reals. *)
From Coq Require Import ZArith Reals Lia Lra Bool List.
From Flocq Require Import IEEE754.BinarySingleNaN IEEE754.Binary IEEE754.Bits Core.
From Verif Require Import Base FloatModel MathModel MathSpec MathProofs BuiltModel.
Local Open Scope Z_scope.
Lemma Rmult_neg_pos x y : (x < 0 -> 0 < y -> x * y < 0)%R.
Proof. intros. nra. Qed.
Notation sgn f := (Binary.Bsign 24 128 f).

(** ** Rounding to an integer *)
Lemma nearby_val md f : f_is_finite f = true ->
  is_int (Binary.Bnearbyint 24 128 prec24_emax unop_nan_pl32 md f) (round_mode md (val f)) /\
  sgn (Binary.Bnearbyint 24 128 prec24_emax unop_nan_pl32 md f) = sgn f.
Proof.
  intros F. destruct (Bnearbyint_correct 24 128 prec24_emax unop_nan_pl32 md f) as (A & B & C).
  assert (G : f_is_finite (Binary.Bnearbyint 24 128 prec24_emax unop_nan_pl32 md f) = true) by (unfold f_is_finite; etransitivity; [exact B|exact F]).
  split; [split; [exact G|]|].
  - rewrite A. apply round_FIX_IZR.
  - apply C. clear -G. destruct (Binary.Bnearbyint _ _ _ _ _ _); try reflexivity; discriminate G.
Qed.
Lemma nearby_inf md s : Binary.Bnearbyint 24 128 prec24_emax unop_nan_pl32 md (Binary.B754_infinity 24 128 s) = Binary.B754_infinity 24 128 s.
Proof. reflexivity. Qed.
Lemma nearby_nan md f : f_is_nan f = true -> f_is_nan (Binary.Bnearbyint 24 128 prec24_emax unop_nan_pl32 md f) = true.
Proof. destruct f; try discriminate. reflexivity. Qed.

Lemma round_away f : f_is_finite f = true -> exists z, is_int (fround f) z /\ sgn (fround f) = sgn f /\
  (Rabs (IZR z - val f) <= / 2)%R /\ (Rabs (IZR z - val f) = / 2 -> Rabs (val f) < Rabs (IZR z))%R.
Proof.
  intros F. destruct (nearby_val mode_NA f F) as (A & B). exists (ZnearestA (val f)).
  split; [exact A|]. split; [exact B|]. pose proof (Znearest_half (Zle_bool 0) (val f)) as H.
  rewrite (Rabs_minus_sym (IZR _)). split; [exact H|]. clear A B F. generalize dependent (val f). intros x H Q.
  unfold ZnearestA, Znearest in *. pose proof (Zfloor_lb x) as L. pose proof (Zfloor_ub x) as U.
  assert (C : forall z, (x - z = / 2 \/ x - z = - / 2)%R -> Rabs (x - z) = (/ 2)%R) by (intros z [-> | ->]; [rewrite Rabs_pos_eq|rewrite Rabs_Ropp, Rabs_pos_eq]; lra).
  destruct (Rcompare_spec (x - IZR (Zfloor x)) (/ 2)) as [S|S|S].
  - rewrite Rabs_pos_eq in Q by lra. lra.
  - destruct (Zle_bool 0 (Zfloor x)) eqn:e.
    + apply Zle_bool_imp_le in e. apply IZR_le in e. rewrite Zceil_floor_neq in *; [|lra|lra..].
      rewrite plus_IZR in *. rewrite !Rabs_pos_eq by lra. lra.
    + apply Z.leb_gt in e. assert (IZR (Zfloor x) <= -1)%R by (apply IZR_le; lia). rewrite (Rabs_left (IZR (Zfloor x))), (Rabs_left x) by lra. lra.
  - assert (IZR (Zfloor x) <> x) by lra. rewrite Zceil_floor_neq in * by assumption. rewrite plus_IZR in *. rewrite Rabs_left in Q by lra. lra.
Qed.
(** Python's round(x) is even when two integers are as near *)
Lemma round_up_half f n : f_is_finite f = true -> 0 <= n -> (val f = IZR n + / 2)%R -> is_int (fround f) (n + 1).
Proof.
  intros F H Q. destruct (round_away f F) as (z & A & _ & B & C). replace (n + 1) with z; [exact A|].
  rewrite Q in *. assert (IZR n >= 0)%R by (apply Rle_ge, IZR_le; exact H).
  assert (z <= n + 1 /\ n <= z) as [H1 H2].
  { apply Rabs_le_inv in B. split; apply Z.lt_succ_r; apply lt_IZR; unfold Z.succ; rewrite ?plus_IZR; lra. }
  destruct (Z.eq_dec z n) as [->|N]; [|lia]. exfalso. rewrite (Rabs_left (IZR n - _)) in C by lra. rewrite !Rabs_pos_eq in C by lra. lra.
Qed.

(** ** Square root and sign *)
Lemma sqrt_val f : f_is_finite f = true -> (0 <= val f)%R -> is_real (fsqrt f) (rnd32 (sqrt (val f))).
Proof.
  intros F P. destruct (Bsqrt_correct 24 128 eq_refl eq_refl unop_nan_pl32 mode_NE f) as (A & B & _).
  split; [|exact A]. unfold f_is_finite. etransitivity; [exact B|]. destruct f as [s|s|s pl e|s m e H]; try discriminate F; [reflexivity|].
  destruct s; [|reflexivity]. exfalso. cbn [B2R] in P. unfold F2R in P. cbn [Fnum Fexp cond_Zopp] in P.
  assert (IZR (- Z.pos m) * bpow radix2 e < 0)%R; [|lra]. apply Rmult_neg_pos; [apply IZR_lt; lia|apply bpow_gt_0].
Qed.
Lemma sqrt_neg f : f_is_nan f = false -> (val f < 0)%R \/ f = Binary.B754_infinity 24 128 true -> f_is_nan (fsqrt f) = true.
Proof.
  intros _ [H|H]; [|subst; reflexivity]. destruct f as [s|s|s pl e|s m e E]; cbn [B2R] in H; try lra.
  destruct s; [reflexivity|]. exfalso. unfold F2R in H. cbn [Fnum Fexp cond_Zopp] in H.
  assert (0 < IZR (Z.pos m) * bpow radix2 e)%R; [|lra]. apply Rmult_lt_0_compat; [apply IZR_lt; lia|apply bpow_gt_0].
Qed.
Lemma abs_val f : f_is_finite f = true -> is_real (f_abs f) (Rabs (val f)) /\ sgn (f_abs f) = false.
Proof.
  intros F. split; [split|].
  - unfold f_is_finite, f_abs, b32_abs. rewrite is_finite_Babs. exact F.
  - unfold f_abs, b32_abs. apply B2R_Babs.
  - destruct f; try discriminate F; reflexivity.
Qed.
Lemma abs_inf s : f_abs (Binary.B754_infinity 24 128 s) = f_inf.
Proof. reflexivity. Qed.

(** ** Scale and parts *)
Lemma inj_fin a b : f_is_finite a = true -> f_is_finite b = true -> val a = val b -> sgn a = sgn b -> a = b.
Proof. intros. apply B2R_Bsign_inj; assumption. Qed.
Lemma sign_val f : (val f < 0)%R -> sgn f = true.
Proof.
  destruct f as [s|s|s pl e|s m e H]; cbn [B2R]; try lra. intros L. destruct s; [reflexivity|]. exfalso. unfold F2R in L. cbn [Fnum Fexp cond_Zopp] in L.
  assert (0 < IZR (Z.pos m) * bpow radix2 e)%R; [|lra]. apply Rmult_lt_0_compat; [apply IZR_lt; lia|apply bpow_gt_0].
Qed.
Lemma sign_val_pos f : (0 < val f)%R -> sgn f = false.
Proof.
  destruct f as [s|s|s pl e|s m e H]; cbn [B2R]; try lra. intros L. destruct s; [|reflexivity]. exfalso. unfold F2R in L. cbn [Fnum Fexp cond_Zopp] in L.
  assert (IZR (- Z.pos m) * bpow radix2 e < 0)%R; [|lra]. apply Rmult_neg_pos; [apply IZR_lt; lia|apply bpow_gt_0].
Qed.
Lemma val_format f : generic_format radix2 (FLT_exp (-149) 24) (val f).
Proof. rewrite <- fexp32. apply generic_format_B2R. Qed.
Lemma val_bound f : (Rabs (val f) < bpow radix2 128)%R.
Proof. apply abs_B2R_lt_emax. Qed.

Lemma ldexp_val f e : f_is_finite f = true -> (Rabs (rnd32 (val f * bpow radix2 e)) < bpow radix2 128)%R ->
  is_real (fldexp f e) (rnd32 (val f * bpow radix2 e)) /\ sgn (fldexp f e) = sgn f.
Proof.
  intros F H. pose proof (Bldexp_correct 24 128 prec24 prec24_emax mode_NE f e) as C. cbn [round_mode] in C. rewrite fexp32 in C.
  rewrite Rlt_bool_true in C by exact H. destruct C as (A & B & D). split; [split|exact D]; [|exact A]. unfold f_is_finite. etransitivity; [exact B|exact F].
Qed.
Lemma ldexp_over f e : f_is_finite f = true -> (bpow radix2 128 <= Rabs (rnd32 (val f * bpow radix2 e)))%R ->
  fldexp f e = Binary.B754_infinity 24 128 (sgn f).
Proof.
  intros F H. pose proof (Bldexp_correct 24 128 prec24 prec24_emax mode_NE f e) as C. cbn [round_mode] in C. rewrite fexp32 in C.
  rewrite Rlt_bool_false in C by exact H. unfold fldexp. destruct (Bldexp 24 128 prec24 prec24_emax mode_NE f e); cbn in C; try discriminate C. unfold Binary.binary_overflow in C. cbn in C. congruence.
Qed.
Lemma frexp_val f : f_is_finite f = true -> (val f <> 0)%R ->
  let (m, e) := ffrexp f in
  f_is_finite m = true /\ (/ 2 <= Rabs (val m) < 1)%R /\ (val f = val m * bpow radix2 e)%R /\ sgn m = sgn f /\ -148 <= e <= 128.
Proof.
  intros F Nz. destruct f as [s|s|s pl e|s m e H]; try discriminate F; [cbn [B2R] in Nz; lra|]. unfold ffrexp. set (f := Binary.B754_finite 24 128 s m e H) in *.
  pose proof (Bfrexp_correct 24 128 prec24 eq_refl f eq_refl) as C. cbv zeta in C. destruct (Binary.Bfrexp 24 128 prec24 f) as [z k]. cbn [fst snd] in C. destruct C as (C1 & C2 & C3).
  assert (Z0 : val z <> 0%R). { intros Z0. rewrite Z0, Rabs_R0 in C1. lra. }
  assert (Fz : f_is_finite z = true). { destruct z; try reflexivity; cbn [B2R] in Z0; lra. }
  split; [exact Fz|]. split; [exact C1|]. split; [exact C2|]. split.
  - pose proof (bpow_gt_0 radix2 k) as P. destruct (Rtotal_order (val z) 0) as [L|[L|L]]; [|contradiction|].
    + rewrite (sign_val z L). symmetry. apply sign_val. rewrite C2. apply Rmult_neg_pos; assumption.
    + rewrite (sign_val_pos z) by lra. symmetry. apply sign_val_pos. rewrite C2. apply Rmult_lt_0_compat; lra.
  - rewrite C3. split.
    + apply mag_ge_bpow. pose proof (abs_B2R_ge_emin 24 128 f eq_refl) as Q. exact Q.
    + apply mag_le_bpow; [exact Nz|]. apply val_bound.
Qed.
Lemma frexp_ldexp f : f_is_finite f = true -> (val f <> 0)%R -> let (m, e) := ffrexp f in fldexp m e = f.
Proof.
  intros F Nz. pose proof (frexp_val f F Nz) as H. destruct (ffrexp f) as [m e]. destruct H as (Fm & _ & V & S & _).
  assert (R : rnd32 (val m * bpow radix2 e) = val f) by (rewrite <- V; apply round_generic; [apply valid_rnd_N|apply val_format]).
  destruct (ldexp_val m e Fm) as ((A & B) & C). { rewrite R. apply val_bound. }
  apply inj_fin; [exact A|exact F|congruence|congruence].
Qed.

Lemma copysign_val a b : f_is_finite a = true -> f_is_finite (fcopysign a b) = true /\ Rabs (val (fcopysign a b)) = Rabs (val a) /\ sgn (fcopysign a b) = sgn b.
Proof.
  intros F. unfold fcopysign, sign_of. destruct (Bool.eqb (sgn a) (sgn b)) eqn:e.
  - apply Bool.eqb_prop in e. auto.
  - apply Bool.eqb_false_iff in e. unfold fneg, b32_opp. split; [unfold f_is_finite; rewrite is_finite_Bopp; exact F|]. split.
    + rewrite B2R_Bopp. apply Rabs_Ropp.
    + generalize dependent (sgn b). intros t e. destruct a as [s|s|s pl H|s m e' H]; try discriminate F; cbn in *; destruct s, t; (reflexivity || congruence).
Qed.
(** the fraction is a number *)
Lemma frac_format x : generic_format radix2 (FLT_exp (-149) 24) x -> generic_format radix2 (FLT_exp (-149) 24) (x - IZR (Ztrunc x)) /\ (Rabs (x - IZR (Ztrunc x)) <= Rabs x)%R.
Proof.
  intros H. split.
  - apply FLT_format_generic in H; [|reflexivity]. destruct H as [[m e] Hx Hm He]. cbn [Fnum Fexp] in *. unfold F2R in Hx. cbn [Fnum Fexp] in Hx.
    destruct (Z_le_gt_dec 0 e) as [P|P].
    + assert (Hz : x = IZR (m * 2 ^ e)) by (rewrite mult_IZR, <- bpow_Z by exact P; exact Hx). rewrite Hz, Ztrunc_IZR, Rminus_diag_eq by reflexivity. apply generic_format_0.
    + set (z := Ztrunc x). apply generic_format_FLT. exists (Float radix2 (m - z * 2 ^ (- e)) e); cbn [Fnum Fexp]; [| |exact He].
      * unfold F2R. cbn [Fnum Fexp]. rewrite minus_IZR, mult_IZR, <- bpow_Z by lia. rewrite Rmult_minus_distr_r, Rmult_assoc, <- bpow_plus.
        replace (- e + e) with 0 by lia. cbn [bpow]. rewrite Rmult_1_r. rewrite <- Hx. reflexivity.
      * assert (B : (Rabs (IZR (m - z * 2 ^ (- e))) <= Rabs (IZR m))%R); [|rewrite <- !abs_IZR in B; apply le_IZR in B; lia].
        assert (Q : (IZR (m - z * 2 ^ (- e)) = (x - IZR z) * bpow radix2 (- e))%R).
        { rewrite minus_IZR, mult_IZR, <- bpow_Z by lia. rewrite Hx, Rmult_minus_distr_r, Rmult_assoc, <- bpow_plus. replace (e + - e) with 0 by lia. cbn [bpow]. ring. }
        assert (Q2 : (IZR m = x * bpow radix2 (- e))%R). { rewrite Hx, Rmult_assoc, <- bpow_plus. replace (e + - e) with 0 by lia. cbn [bpow]. ring. }
        rewrite Q, Q2, !Rabs_mult. apply Rmult_le_compat_r; [apply Rabs_pos|]. clear. subst z.
        destruct (Rle_or_lt 0 x) as [L|L].
        -- rewrite Ztrunc_floor by exact L. pose proof (Zfloor_lb x). assert (0 <= IZR (Zfloor x))%R by (apply IZR_le, Zfloor_lub; exact L). rewrite !Rabs_pos_eq by lra. lra.
        -- rewrite Ztrunc_ceil by lra. pose proof (Zceil_ub x). assert (IZR (Zceil x) <= 0)%R by (apply IZR_le, Zceil_glb; lra). rewrite !Rabs_left1 by lra. lra.
  - destruct (Rle_or_lt 0 x) as [L|L].
    + rewrite Ztrunc_floor by exact L. pose proof (Zfloor_lb x). assert (0 <= IZR (Zfloor x))%R by (apply IZR_le, Zfloor_lub; exact L). rewrite !Rabs_pos_eq by lra. lra.
    + rewrite Ztrunc_ceil by lra. pose proof (Zceil_ub x). assert (IZR (Zceil x) <= 0)%R by (apply IZR_le, Zceil_glb; lra). rewrite !Rabs_left1 by lra. lra.
Qed.
Lemma modf_val f : f_is_finite f = true -> let (r, i) := fmodf_parts f in
  is_int i (Ztrunc (val f)) /\ f_is_finite r = true /\ (val r + val i = val f)%R /\ (Rabs (val r) < 1)%R /\ sgn r = sgn f /\ sgn i = sgn f.
Proof.
  intros F. unfold fmodf_parts. assert (f_is_nan f = false) as -> by (destruct f; try reflexivity; discriminate F). rewrite F.
  destruct (nearby_val mode_ZR f F) as (A & B). fold (ftrunc f) in A, B. cbn [round_mode] in A. pose proof A as [Fi Vi].
  destruct (frac_format (val f) (val_format f)) as [Gf Lf].
  pose proof (Bminus_correct 24 128 eq_refl eq_refl binop_nan_pl32 mode_NE f (ftrunc f) F Fi) as C. cbn [round_mode] in C. rewrite fexp32, Vi in C.
  rewrite (round_generic radix2 (FLT_exp (-149) 24) ZnearestE _ Gf) in C. rewrite Rlt_bool_true in C by (eapply Rle_lt_trans; [exact Lf|apply val_bound]).
  destruct C as (C1 & C2 & C3). fold (fsub f (ftrunc f)) in *. change (Binary.Bminus 24 128 eq_refl eq_refl binop_nan_pl32 mode_NE f (ftrunc f)) with (fsub f (ftrunc f)) in *.
  destruct (copysign_val (fsub f (ftrunc f)) f C2) as (K1 & K2 & K3).
  split; [exact A|]. split; [exact K1|]. rewrite C1 in K2.
  assert (V : val (fcopysign (fsub f (ftrunc f)) f) = (val f - IZR (Ztrunc (val f)))%R).
  { set (r := fcopysign (fsub f (ftrunc f)) f) in *. clearbody r. clear -K2 K3 F. set (x := val f) in *.
    destruct (Rtotal_order x 0) as [L|[L|L]].
    - rewrite Ztrunc_ceil in * by lra. pose proof (Zceil_ub x) as U. rewrite (Rabs_left1 (x - _)) in K2 by lra.
      destruct (Rle_or_lt (val r) 0) as [N|N]; [rewrite Rabs_left1 in K2 by lra; lra|]. apply sign_val_pos in N. apply sign_val in L. congruence.
    - rewrite L, Ztrunc_IZR in *. rewrite Rminus_diag_eq in * by reflexivity. rewrite Rabs_R0 in K2. destruct (Req_dec (val r) 0) as [Z0|Z0]; [exact Z0|]. apply Rabs_no_R0 in Z0. contradiction.
    - rewrite Ztrunc_floor in * by lra. pose proof (Zfloor_lb x) as U. rewrite (Rabs_pos_eq (x - _)) in K2 by lra.
      destruct (Rle_or_lt 0 (val r)) as [N|N]; [rewrite Rabs_pos_eq in K2 by lra; lra|]. apply sign_val in N. apply sign_val_pos in L. congruence. }
  split; [rewrite V, Vi; lra|]. split; [|split; [exact K3|exact B]].
  rewrite V. clear. set (x := val f). destruct (Rle_or_lt 0 x) as [L|L].
  - rewrite Ztrunc_floor by exact L. pose proof (Zfloor_lb x). pose proof (Zfloor_ub x). rewrite Rabs_pos_eq by lra. lra.
  - rewrite Ztrunc_ceil by lra. pose proof (Zceil_ub x). pose proof (Zceil_lb x). rewrite Rabs_left1 by lra. lra.
Qed.
