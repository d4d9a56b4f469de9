(** What numbers are expected to do, without reference to the code. *)
From Coq Require Import ZArith Reals Lia List.
From Flocq Require Import IEEE754.Binary Core.
From Verif Require Import FloatModel.
Local Open Scope Z_scope.

(** The number [f] is the integer [z]. *)
Definition is_int (f : float) (z : Z) : Prop :=
  f_is_finite f = true /\ B2R 24 128 f = IZR z.

(** The number [f] has the real value [x]. *)
Definition is_real (f : float) (x : R) : Prop :=
  f_is_finite f = true /\ B2R 24 128 f = x.

(** The integers a snek number can be: 24 significant bits and a binary scale. *)
Definition representable (z : Z) : Prop :=
  exists m e, 0 <= e /\ z = m * 2 ^ e /\ Z.abs m <= 2 ^ 24 /\ Z.abs z < 2 ^ 128.

(** The range in which every integer is a number. *)
Definition small (z : Z) : Prop := Z.abs z <= 2 ^ 24.

(** Integers in 32-bit two's complement. *)
Definition int32 (z : Z) : Prop := - 2 ^ 31 <= z < 2 ^ 31.

(** Integers in 25-bit two's complement: those in which every bit pattern is a
    number. *)
Definition int25 (z : Z) : Prop := - 2 ^ 24 <= z < 2 ^ 24.

(** [f] has the same sign and size, [n] factorial. *)
Fixpoint fact (n : nat) : Z :=
  match n with O => 1 | S n' => Z.of_nat n * fact n' end.

(** [g] is the greatest common divisor of [a] and [b]. *)
Definition greatest_common_divisor (a b g : Z) : Prop :=
  0 <= g /\ (g | a) /\ (g | b) /\ forall d, (d | a) -> (d | b) -> (d | g).
