(** math.isclose. *)
From Coq Require Import ZArith Reals Lia Lra Bool List.
From Flocq Require Import IEEE754.BinarySingleNaN IEEE754.Binary IEEE754.Bits Core.
From Verif Require Import Base FloatModel MathModel MathSpec MathProofs BuiltModel BuiltFloat.
Import ListNotations.
Local Open Scope Z_scope.

Lemma fle_val f g : f_is_finite f = true -> f_is_finite g = true -> fle f g = Rle_bool (val f) (val g).
Proof.
  intros F G. unfold fle, b32_compare, f_is_finite in *. rewrite Bcompare_correct by assumption. unfold Rle_bool.
  destruct (Rcompare (val f) (val g)); reflexivity.
Qed.
Lemma flt_val f g : f_is_finite f = true -> f_is_finite g = true -> flt f g = Rlt_bool (val f) (val g).
Proof.
  intros F G. unfold flt, b32_compare, f_is_finite in *. rewrite Bcompare_correct by assumption. unfold Rlt_bool.
  destruct (Rcompare (val f) (val g)); reflexivity.
Qed.
Lemma fle_nan f g : f_is_nan f = true -> fle f g = false.
Proof. destruct f; try discriminate. reflexivity. Qed.
Lemma abs_nan f : f_is_nan (f_abs f) = f_is_nan f.
Proof. destruct f; reflexivity. Qed.
Lemma abs_finite f : f_is_finite (f_abs f) = f_is_finite f.
Proof. destruct f; reflexivity. Qed.
Lemma abs_eq f g : f_is_finite f = true -> f_is_finite g = true -> Rabs (val f) = Rabs (val g) -> f_abs f = f_abs g.
Proof.
  intros F G H. destruct (abs_val f F) as ((A1 & A2) & A3). destruct (abs_val g G) as ((B1 & B2) & B3).
  apply inj_fin; auto; congruence.
Qed.
Lemma sub_cases a b : f_is_finite a = true -> f_is_finite b = true ->
  is_real (fsub a b) (rnd32 (val a - val b)) /\ (Rabs (rnd32 (val a - val b)) < bpow radix2 128)%R \/
  (exists s, fsub a b = Binary.B754_infinity 24 128 s) /\ (bpow radix2 128 <= Rabs (rnd32 (val a - val b)))%R.
Proof.
  intros F G. pose proof (Bminus_correct 24 128 eq_refl eq_refl binop_nan_pl32 mode_NE a b F G) as C. cbn [round_mode] in C. rewrite fexp32 in C.
  destruct (Rlt_bool_spec (Rabs (rnd32 (val a - val b))) (bpow radix2 128)) as [L|L].
  - left. destruct C as (A & B & _). split; [split; [exact B|exact A]|exact L].
  - right. split; [|exact L]. destruct C as [C _]. exists (sgn a). unfold fsub, b32_minus.
    destruct (Binary.Bminus 24 128 _ _ binop_nan_pl32 mode_NE a b); cbn in C; try discriminate C. unfold Binary.binary_overflow in C. cbn in C. congruence.
Qed.
Lemma rnd32_opp x : rnd32 (- x) = (- rnd32 x)%R.
Proof. apply round_NE_opp. Qed.
Lemma dist_finite a b : f_is_finite a = true -> f_is_finite b = true -> f_abs (fsub a b) = f_abs (fsub b a).
Proof.
  intros F G. assert (O : rnd32 (val b - val a) = (- rnd32 (val a - val b))%R) by (rewrite <- rnd32_opp; f_equal; lra).
  destruct (sub_cases a b F G) as [((A1 & A2) & A3)|((s & A1) & A2)], (sub_cases b a G F) as [((B1 & B2) & B3)|((s' & B1) & B2)]; rewrite O, Rabs_Ropp in *; try lra.
  - apply abs_eq; auto. rewrite A2, B2, Rabs_Ropp. reflexivity.
  - rewrite A1, B1. reflexivity.
Qed.
Lemma dist_sym a b : f_is_nan (fsub a b) = true /\ f_is_nan (fsub b a) = true \/ f_abs (fsub a b) = f_abs (fsub b a) /\ f_is_nan a = false /\ f_is_nan b = false.
Proof.
  destruct (f_is_finite a) eqn:F, (f_is_finite b) eqn:G.
  - right. split; [apply dist_finite; assumption|]. destruct a, b; try discriminate; auto.
  - destruct a as [s|s|s pl e|s m e H], b as [s'|s'|s' pl' e'|s' m' e' H']; try discriminate; try (right; split; [reflexivity|split; reflexivity]); left; split; reflexivity.
  - destruct a as [s|s|s pl e|s m e H], b as [s'|s'|s' pl' e'|s' m' e' H']; try discriminate; try (right; split; [reflexivity|split; reflexivity]); left; split; reflexivity.
  - destruct a as [s|s|s pl e|s m e H], b as [s'|s'|s' pl' e'|s' m' e' H']; try discriminate; try (left; split; reflexivity).
    destruct s, s'; try (right; split; [reflexivity|split; reflexivity]); left; split; reflexivity.
Qed.
Lemma max_sym a b : f_is_nan a = false -> f_is_nan b = false -> fmaxf (f_abs a) (f_abs b) = fmaxf (f_abs b) (f_abs a).
Proof.
  intros Na Nb. unfold fmaxf. rewrite !abs_nan, Na, Nb. destruct (f_is_finite a) eqn:F, (f_is_finite b) eqn:G.
  - rewrite !flt_val by (rewrite abs_finite; assumption). destruct (abs_val a F) as ((_ & A2) & _), (abs_val b G) as ((_ & B2) & _). rewrite A2, B2.
    destruct (Rlt_bool_spec (Rabs (val a)) (Rabs (val b))), (Rlt_bool_spec (Rabs (val b)) (Rabs (val a))); try lra; try reflexivity. apply abs_eq; auto. lra.
  - destruct b; try discriminate. destruct a; try discriminate; reflexivity.
  - destruct a; try discriminate. destruct b; try discriminate; reflexivity.
  - destruct a; try discriminate. destruct b; try discriminate; reflexivity.
Qed.
Lemma close_sym a b r t : is_close a b r t = is_close b a r t.
Proof.
  unfold is_close. destruct (dist_sym a b) as [(A & B)|(A & Na & Nb)].
  - rewrite !fle_nan by (rewrite abs_nan; assumption). reflexivity.
  - rewrite A, (max_sym a b Na Nb). reflexivity.
Qed.
Lemma close_inf s r t : is_close (Binary.B754_infinity 24 128 s) (Binary.B754_infinity 24 128 s) r t = false.
Proof. unfold is_close. destruct s; apply fle_nan; reflexivity. Qed.
Lemma close_nan a b r t : f_is_nan a = true \/ f_is_nan b = true -> is_close a b r t = false.
Proof.
  intros H. unfold is_close. apply fle_nan. rewrite abs_nan. destruct H as [H|H]; [destruct a; try discriminate; destruct b; reflexivity|].
  destruct b; try discriminate. destruct a; reflexivity.
Qed.

(** What is compared, for finite numbers: the rounded distance with the greater
    of the rounded relative and the absolute tolerance. *)
Lemma mul_cases a b : f_is_finite a = true -> f_is_finite b = true ->
  is_real (fmul a b) (rnd32 (val a * val b)) /\ (Rabs (rnd32 (val a * val b)) < bpow radix2 128)%R \/
  fmul a b = Binary.B754_infinity 24 128 (xorb (sgn a) (sgn b)) /\ (bpow radix2 128 <= Rabs (rnd32 (val a * val b)))%R.
Proof.
  intros F G. pose proof (Bmult_correct 24 128 eq_refl eq_refl binop_nan_pl32 mode_NE a b) as C. cbn [round_mode] in C. rewrite fexp32 in C.
  destruct (Rlt_bool_spec (Rabs (rnd32 (val a * val b))) (bpow radix2 128)) as [L|L].
  - left. destruct C as (A & B & _). split; [split; [|exact A]|exact L].
    unfold f_is_finite in *. etransitivity; [exact B|]. rewrite F, G. reflexivity.
  - right. split; [|exact L]. unfold fmul, b32_mult.
    destruct (Binary.Bmult 24 128 _ _ binop_nan_pl32 mode_NE a b); cbn in C; try discriminate C. unfold Binary.binary_overflow in C. cbn in C. congruence.
Qed.
Lemma max_val a b : f_is_finite a = true -> f_is_finite b = true -> is_real (fmaxf a b) (Rmax (val a) (val b)).
Proof.
  intros F G. unfold fmaxf. assert (f_is_nan a = false) as -> by (destruct a; auto; discriminate). assert (f_is_nan b = false) as -> by (destruct b; auto; discriminate).
  rewrite flt_val by assumption. destruct (Rlt_bool_spec (val a) (val b)); split; auto; [rewrite Rmax_right|rewrite Rmax_left]; auto; lra.
Qed.
Lemma sign_nonneg f : f_is_finite f = true -> sgn f = false -> (0 <= val f)%R.
Proof. intros F H. destruct f as [s|s|s pl e|s m e E]; cbn in *; subst; try discriminate; try lra. unfold F2R. cbn [Fnum Fexp cond_Zopp]. left. apply Rmult_lt_0_compat; [apply IZR_lt; lia|apply bpow_gt_0]. Qed.
Lemma close_val a b r t : f_is_finite a = true -> f_is_finite b = true -> f_is_finite r = true -> f_is_finite t = true -> sgn r = false ->
  let scale := rnd32 (val r * Rmax (Rabs (val a)) (Rabs (val b))) in
  (Rabs (rnd32 (val a - val b)) < bpow radix2 128)%R ->
  is_close a b r t = true <-> (Rabs (rnd32 (val a - val b)) <= Rmax scale (val t))%R.
Proof.
  intros Fa Fb Fr Ft Sr scale Hd. unfold is_close.
  destruct (sub_cases a b Fa Fb) as [((A1 & A2) & A3)|((s & A1) & A2)]; [|lra]. clear A3.
  destruct (abs_val _ A1) as ((D1 & D2) & _). rewrite A2 in D2.
  destruct (abs_val a Fa) as ((E1 & E2) & E3), (abs_val b Fb) as ((G1 & G2) & G3).
  destruct (max_val _ _ E1 G1) as (M1 & M2). rewrite E2, G2 in M2. set (mx := fmaxf (f_abs a) (f_abs b)) in *.
  assert (Smx : sgn mx = false).
  { unfold mx, fmaxf. destruct (f_is_nan (f_abs a)), (f_is_nan (f_abs b)), (flt (f_abs a) (f_abs b)); assumption. }
  destruct (mul_cases r mx Fr M1) as [((B1 & B2) & _)|(B1 & B2)].
  - rewrite M2 in B2. fold scale in B2. destruct (max_val _ _ B1 Ft) as (C1 & C2). rewrite B2 in C2.
    rewrite fle_val by assumption. rewrite D2, C2. split; intros H.
    + destruct (Rle_bool_spec (Rabs (rnd32 (val a - val b))) (Rmax scale (val t))); [assumption|discriminate].
    + apply Rle_bool_true. exact H.
  - rewrite B1, Sr, Smx. cbn [xorb]. rewrite M2 in B2. fold scale in B2.
    assert (P : (0 <= scale)%R).
    { unfold scale. rewrite <- (round_0 radix2 (FLT_exp (-149) 24) ZnearestE). apply round_le; try typeclasses eauto.
      apply Rmult_le_pos; [apply sign_nonneg; assumption|]. eapply Rle_trans; [apply Rabs_pos|apply Rmax_l]. }
    rewrite Rabs_pos_eq in B2 by exact P. split; intros _.
    + eapply Rle_trans; [|apply Rmax_l]. lra.
    + assert (fmaxf (Binary.B754_infinity 24 128 false) t = Binary.B754_infinity 24 128 false) as -> by (destruct t as [s|s|s pl e|s m e H]; try discriminate Ft; reflexivity).
      destruct (f_abs (fsub a b)) as [s|s|s pl e|s m e H]; try discriminate D1; destruct s; reflexivity.
Qed.
Lemma close_refl a r t : f_is_finite a = true -> f_is_finite r = true -> f_is_finite t = true -> sgn r = false -> is_close a a r t = true.
Proof.
  intros A R T S. assert (Z : rnd32 (val a - val a) = 0%R) by (rewrite Rminus_diag_eq by reflexivity; apply round_0; typeclasses eauto).
  apply close_val; auto; rewrite Z, Rabs_R0; [apply bpow_gt_0|]. eapply Rle_trans; [|apply Rmax_l].
  rewrite <- (round_0 radix2 (FLT_exp (-149) 24) ZnearestE). apply round_le; try typeclasses eauto.
  apply Rmult_le_pos; [apply sign_nonneg; assumption|]. eapply Rle_trans; [apply Rabs_pos|apply Rmax_l].
Qed.
