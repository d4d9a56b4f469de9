(** Numbers that compare equal are the same, except zeros of different sign. *)
From Coq Require Import ZArith Reals Bool List Lia Lra.
From Flocq Require Import IEEE754.BinarySingleNaN IEEE754.Binary IEEE754.Bits Core.
From Verif Require Import Base FloatModel MathModel MathSpec MathProofs EvalSpec PolyProofs.
Local Open Scope Z_scope.

Lemma feq_finite a b : f_is_finite a = true -> feq a b = true -> f_is_finite b = true /\ val b = val a.
Proof.
  intros Ha H. assert (Hb : f_is_finite b = true).
  { unfold feq, b32_compare in H. destruct a as [sa|sa|sa pl Hpl|sa ma ea Hab]; try discriminate Ha;
      destruct b as [sb|sb|sb plb Hplb|sb mb eb Hbb]; try reflexivity; cbn in H; try discriminate H; destruct sb; discriminate H. }
  split; [exact Hb|]. unfold feq, b32_compare in H. rewrite Bcompare_correct in H by assumption.
  destruct (Rcompare _ _) eqn:e in H; try discriminate. apply Rcompare_Eq_inv in e. symmetry. exact e.
Qed.

Definition is_zero (f : float) : Prop := exists s, f = Binary.B754_zero 24 128 s.

Lemma feq_same a b : f_is_finite a = true -> feq a b = true -> b = a \/ (is_zero a /\ is_zero b).
Proof.
  intros Ha H. destruct (feq_finite a b Ha H) as [Hb Hv]. unfold val in Hv.
  destruct a as [sa|sa|sa pl Hpl|sa ma ea Hab]; try discriminate Ha;
    destruct b as [sb|sb|sb plb Hplb|sb mb eb Hbb]; try discriminate Hb.
  - right. split; eexists; reflexivity.
  - exfalso. cbn [B2R] in Hv. destruct sb.
    + assert (@F2R radix2 {| Fnum := cond_Zopp true (Z.pos mb); Fexp := eb |} < 0)%R by (apply F2R_lt_0; reflexivity).  lra.
    + assert (0 < @F2R radix2 {| Fnum := cond_Zopp false (Z.pos mb); Fexp := eb |})%R by (apply F2R_gt_0; reflexivity). lra.
  - exfalso. cbn [B2R] in Hv. destruct sa.
    + assert (@F2R radix2 {| Fnum := cond_Zopp true (Z.pos ma); Fexp := ea |} < 0)%R by (apply F2R_lt_0; reflexivity). lra.
    + assert (0 < @F2R radix2 {| Fnum := cond_Zopp false (Z.pos ma); Fexp := ea |})%R by (apply F2R_gt_0; reflexivity). lra.
  - left. apply Binary.B2R_Bsign_inj; [reflexivity|reflexivity|exact Hv|]. cbn [B2R] in Hv. cbn [Bsign].
    destruct sa, sb; try reflexivity; exfalso.
    + assert (@F2R radix2 {| Fnum := cond_Zopp true (Z.pos ma); Fexp := ea |} < 0)%R by (apply F2R_lt_0; reflexivity).
      assert (0 < @F2R radix2 {| Fnum := cond_Zopp false (Z.pos mb); Fexp := eb |})%R by (apply F2R_gt_0; reflexivity). lra.
    + assert (@F2R radix2 {| Fnum := cond_Zopp true (Z.pos mb); Fexp := eb |} < 0)%R by (apply F2R_lt_0; reflexivity).
      assert (0 < @F2R radix2 {| Fnum := cond_Zopp false (Z.pos ma); Fexp := ea |})%R by (apply F2R_gt_0; reflexivity). lra.
Qed.

Lemma is_neg_zero f : neg_zero f = true -> f = Binary.B754_zero 24 128 true.
Proof.
  unfold neg_zero. intro H. apply Z.eqb_eq in H. rewrite <- (of_bits_of_f f), H. reflexivity.
Qed.
Lemma of_Z_zero : f_of_Z 0 = f_zero.
Proof. reflexivity. Qed.
Lemma of_Z_not_neg_zero z : neg_zero (f_of_Z z) = false.
Proof.
  destruct (neg_zero (f_of_Z z)) eqn:e; [|reflexivity]. exfalso. apply is_neg_zero in e.
  destruct (Z.eq_dec z 0) as [->|Hz]; [discriminate e|].
  pose proof (binary_normalize_correct 24 128 prec24 prec24_emax mode_NE z 0 false) as C.
  unfold f_of_Z in e. rewrite e in C. destruct (Rlt_bool _ _) in C; [|discriminate C].
  destruct C as (C & _). cbn [B2R round_mode] in C. rewrite fexp32 in C.
  replace (F2R {| Fnum := z; Fexp := 0 |}) with (IZR z) in C by (unfold F2R; cbn [Fnum Fexp bpow]; ring).
  destruct (Z_lt_le_dec z 0) as [Hn|Hp].
  - assert (IZR z <= IZR (-1))%R by (apply IZR_le; lia).
    apply (round_le radix2 (FLT_exp (-149) 24) ZnearestE) in H. rewrite <- C, representable_round in H; [lra|].
    apply small_representable. unfold small. lia.
  - assert (IZR 1 <= IZR z)%R by (apply IZR_le; lia).
    apply (round_le radix2 (FLT_exp (-149) 24) ZnearestE) in H. rewrite <- C, representable_round in H; [lra|].
    apply small_representable. unfold small. lia.
Qed.
Lemma literal z f : -128 <= z < 128 -> feq (f_of_Z z) f = true -> neg_zero f = false -> f = f_of_Z z.
Proof.
  intros Hz H Hn. assert (Hr : representable z) by (apply small_representable; unfold small; lia).
  destruct (of_Z_int z Hr) as [Hf _]. destruct (feq_same _ _ Hf H) as [->|[(s & Hs) (s' & ->)]]; [reflexivity|].
  destruct s'; [discriminate Hn|]. destruct s; [|symmetry; exact Hs].
  pose proof (of_Z_not_neg_zero z) as Hq. rewrite Hs in Hq. discriminate Hq.
Qed.
