(** IEEE-754 single precision, as used for every snek number.
    The type and the operations are Flocq's [binary32]; C's [float] arithmetic
    is taken to be IEEE round-to-nearest-even, evaluated in single precision
    (snek is built with FLT_EVAL_METHOD 0 on all its targets). *)
From Coq Require Import ZArith Lia Bool.
From Flocq Require Import IEEE754.Binary IEEE754.Bits IEEE754.BinarySingleNaN Core.
From Verif Require Import Base.
Local Open Scope Z_scope.

Definition float := binary32.

Lemma prec24 : Prec_gt_0 24. Proof. reflexivity. Qed.
Lemma prec24_emax : Prec_lt_emax 24 128. Proof. reflexivity. Qed.
#[global] Existing Instance prec24.
#[global] Existing Instance prec24_emax.

(** snek.h 76-79: the union of [uint32_t u] and [float f]. *)
Definition f_of_bits (u : Z) : float := b32_of_bits u.
Definition bits_of_f (f : float) : Z := bits_of_b32 f.

Definition f_is_nan (f : float) : bool := Binary.is_nan 24 128 f.
Definition f_is_finite (f : float) : bool := Binary.is_finite 24 128 f.

Definition fadd (a b : float) : float := b32_plus mode_NE a b.
Definition fsub (a b : float) : float := b32_minus mode_NE a b.
Definition fmul (a b : float) : float := b32_mult mode_NE a b.
Definition fdiv (a b : float) : float := b32_div mode_NE a b.
Definition fneg (a : float) : float := b32_opp a.
(** floorf *)
Definition ffloor (a : float) : float :=
  Binary.Bnearbyint 24 128 prec24_emax unop_nan_pl32 mode_DN a.

(** C comparisons; false when an operand is a NaN. *)
Definition flt (a b : float) : bool :=
  match b32_compare a b with Some Lt => true | _ => false end.
Definition feq (a b : float) : bool :=
  match b32_compare a b with Some Eq => true | _ => false end.
Definition fle (a b : float) : bool :=
  match b32_compare a b with Some Lt | Some Eq => true | _ => false end.

(** Conversion of an integer to float (round to nearest even). *)
Definition f_of_Z (z : Z) : float :=
  Binary.binary_normalize 24 128 prec24 prec24_emax mode_NE z 0 false.

(** Conversion of a float to a signed integer of [n] bits: truncation, undefined
    when the truncated value does not fit (C11 6.3.1.4p1). *)
Definition f_to_sint (n : Z) (f : float) : outcome Z :=
  if f_is_finite f then sint n (Binary.Btrunc 24 128 f) else UB.

Definition f_zero : float := Binary.B754_zero 24 128 false.
Definition f_one : float := f_of_Z 1.
