(** Arithmetic, bitwise operators, powers, number theory and random numbers
    (C47, C48, C49, C50). *)
From Coq Require Import ZArith Reals Lia Lra Bool List.
From Flocq Require Import IEEE754.BinarySingleNaN IEEE754.Binary IEEE754.Bits Core.
From Verif Require Import Base FloatModel MathModel MathSpec MathProofs MathProofs2 MathProofs3 MathProofs4.
Import ListNotations.
Local Open Scope Z_scope.

(** A number for an integer. *)
Definition numz (z : Z) : float := f_of_Z z.

(** ** C50: integer arithmetic is exact *)

(** For all numbers [a] and [b] that are integers [x] and [y]: if the true sum,
    difference or product is an integer a number can hold, the operator gives
    exactly that and reports no error. *)
Theorem C50_sum p a b x y : is_int a x -> is_int b y -> representable (x + y) ->
  exists r, num_binary p Nplus a b = Ok (r, false) /\ is_int r (x + y).
Proof. intros Ha Hb R. eexists. split; [reflexivity|]. exact (add_int a b x y Ha Hb R). Qed.
Theorem C50_difference p a b x y : is_int a x -> is_int b y -> representable (x - y) ->
  exists r, num_binary p Nminus a b = Ok (r, false) /\ is_int r (x - y).
Proof. intros Ha Hb R. eexists. split; [reflexivity|]. exact (sub_int a b x y Ha Hb R). Qed.
Theorem C50_product p a b x y : is_int a x -> is_int b y -> representable (x * y) ->
  exists r, num_binary p Ntimes a b = Ok (r, false) /\ is_int r (x * y).
Proof. intros Ha Hb R. eexists. split; [reflexivity|]. exact (mul_int a b x y Ha Hb R). Qed.

(** In particular every result within 2^24 is exact. *)
Theorem C50_range z : Z.abs z <= 2 ^ 24 -> representable z.
Proof. exact (small_representable z). Qed.

(** And the representable integers are exactly those some number is. *)
Theorem C50_numbers z : representable z <-> exists f, is_int f z.
Proof.
  split; [intros H; exists (f_of_Z z); exact (of_Z_int z H)
         | intros [f H]; exact (is_int_representable f z H)].
Qed.

(** Floor division of integers within 2^24 is the floor of the true
    quotient. *)
Theorem C50_floordiv p a b x y : is_int a x -> is_int b y -> y <> 0 ->
  Z.abs x <= 2 ^ 24 -> Z.abs y <= 2 ^ 24 ->
  exists r q, num_binary p Ndiv a b = Ok (r, false) /\ is_int r q /\
    (IZR q <= IZR x / IZR y < IZR q + 1)%R.
Proof. exact (floordiv_spec p a b x y). Qed.

(** The remainder is right when the signs agree or the operands are small
    enough that the multiple of [y] below [x] stays within 2^24. *)
Theorem C50_mod_partial p a b x y : is_int a x -> is_int b y -> y <> 0 ->
  Z.abs x <= 2 ^ 24 -> Z.abs y <= 2 ^ 24 ->
  0 <= x * y \/ Z.abs x + Z.abs y <= 2 ^ 24 + 1 ->
  exists r m q, num_binary p Nmod a b = Ok (r, false) /\ is_int r m /\
    x = q * y + m /\ (0 <= m < y \/ y < m <= 0).
Proof. exact (mod_spec p a b x y). Qed.

(** Outside that range it can be wrong: -16777215 % 8388607 gives 8388605
    instead of 8388606. *)
Theorem C50_mod_refuted p : exists a b x y r, is_int a x /\ is_int b y /\ y <> 0 /\
  Z.abs x <= 2 ^ 24 /\ Z.abs y <= 2 ^ 24 /\
  num_binary p Nmod a b = Ok (r, false) /\ is_int r (x mod y - 1) /\ ~ is_int r (x mod y).
Proof. exact (mod_wrong p). Qed.

Example C50_applies :
  is_int (numz 16777215) 16777215 /\ is_int (numz (-3)) (-3) /\
  (exists r, num_binary nopow Nplus (numz 16777215) (numz (-3)) = Ok (r, false) /\ is_int r 16777212) /\
  (exists r, num_binary nopow Ndiv (numz 16777213) (numz (-3)) = Ok (r, false) /\ is_int r (-5592405)) /\
  representable (2 ^ 100 * 3).
Proof.
  split; [exact (small_int 16777215 eq_refl)|]. split; [exact (small_int (-3) eq_refl)|].
  split.
  { apply (C50_sum nopow _ _ 16777215 (-3)); [exact (small_int 16777215 eq_refl)|exact (small_int (-3) eq_refl)|].
    apply C50_range. lia. }
  split.
  { eexists. split; [reflexivity|].
    exact (floordiv_int _ _ 16777213 (-3) (small_int 16777213 eq_refl) (small_int (-3) eq_refl)
             ltac:(lia) ltac:(unfold small; lia) ltac:(unfold small; lia)). }
  exists 3, 100. repeat split; vm_compute; congruence.
Qed.

(** ** C49: bitwise operators *)

(** For integers in [-2^24, 2^24) each bit of [a & b], [a | b], [a ^ b] is the
    operator applied to that bit of the operands in two's complement, at every
    position. *)
Theorem C49_and p a b x y : is_int a x -> is_int b y -> int25 x -> int25 y ->
  exists r z, num_binary p Nland a b = Ok (r, false) /\ is_int r z /\
    forall n, 0 <= n -> Z.testbit z n = andb (Z.testbit x n) (Z.testbit y n).
Proof. exact (land_spec p a b x y). Qed.
Theorem C49_or p a b x y : is_int a x -> is_int b y -> int25 x -> int25 y ->
  exists r z, num_binary p Nlor a b = Ok (r, false) /\ is_int r z /\
    forall n, 0 <= n -> Z.testbit z n = orb (Z.testbit x n) (Z.testbit y n).
Proof. exact (lor_spec p a b x y). Qed.
Theorem C49_xor p a b x y : is_int a x -> is_int b y -> int25 x -> int25 y ->
  exists r z, num_binary p Nlxor a b = Ok (r, false) /\ is_int r z /\
    forall n, 0 <= n -> Z.testbit z n = xorb (Z.testbit x n) (Z.testbit y n).
Proof. exact (lxor_spec p a b x y). Qed.

(** Shifts by 0 to 31 of any 32-bit integer that is a number multiply by, and
    divide by (rounding down), a power of two, as long as the product fits. *)
Theorem C49_shift_left_partial p a b x n : is_int a x -> is_int b n -> int32 x -> 0 <= n < 32 -> int32 (x * 2 ^ n) ->
  exists r, num_binary p Nlshift a b = Ok (r, false) /\ is_int r (x * 2 ^ n).
Proof. exact (lshift_spec p a b x n). Qed.
Theorem C49_shift_right_partial p a b x n : is_int a x -> is_int b n -> int32 x -> 0 <= n < 32 ->
  exists r, num_binary p Nrshift a b = Ok (r, false) /\ is_int r (x / 2 ^ n).
Proof. exact (rshift_spec p a b x n). Qed.

(** A shift count outside 0 to 31 is undefined behaviour, and so is an operand
    beyond 32 bits, e.g. 1 << 32, 1 >> 32, 1 << -1 and 2**31 & 1. *)
Theorem C49_shift_refuted p : forall n, 32 <= n < 2 ^ 24 \/ - 2 ^ 24 < n < 0 ->
  exists b, is_int b n /\ num_binary p Nlshift (numz 1) b = UB /\ num_binary p Nrshift (numz 1) b = UB.
Proof. exact (shift_ub p). Qed.
Theorem C49_range_refuted p : forall op, In op [Nland; Nlor; Nlxor; Nlshift; Nrshift] ->
  exists a b, is_int a (2 ^ 31) /\ is_int b 1 /\ num_binary p op a b = UB.
Proof. exact (range_ub p). Qed.

(** A number with a fraction is reported, whatever the other operand. *)
Theorem C49_fraction p op a b : In op [Nland; Nlor; Nlxor; Nlshift; Nrshift] ->
  f_is_finite a = true -> (forall z, ~ is_int a z) ->
  forall r e, num_binary p op a b = Ok (r, e) -> e = true.
Proof. exact (fraction_reported p op a b). Qed.

(** The complement is right for negative integers only ... *)
Theorem C49_not_partial a x : is_int a x -> - 2 ^ 24 <= x < 0 ->
  exists r, num_lnot a = Ok (r, false) /\ is_int r (- x - 1).
Proof. exact (lnot_spec a x). Qed.
(** ... and wrong for every other one: [~ x] is a number of at least 2^31
    instead of - x - 1. *)
Theorem C49_not_refuted a x : is_int a x -> 0 <= x < 2 ^ 31 ->
  exists r, num_lnot a = Ok (r, false) /\ ~ is_int r (- x - 1).
Proof. exact (lnot_wrong a x). Qed.

Example C49_applies :
  (exists r, num_binary nopow Nland (numz (-2)) (numz 16777215) = Ok (r, false) /\ is_int r 16777214) /\
  (exists r, num_binary nopow Nlxor (numz 12) (numz 10) = Ok (r, false) /\ is_int r 6) /\
  (exists r, num_binary nopow Nlshift (numz (-3)) (numz 20) = Ok (r, false) /\ is_int r (-3145728)) /\
  (exists r, num_binary nopow Nlor (numz 1) (fdiv (numz 1) (numz 2)) = Ok (r, true)) /\
  (exists r, num_lnot (numz 5) = Ok (r, false) /\ is_int r 4294967296) /\
  (exists r, num_lnot (numz (-6)) = Ok (r, false) /\ is_int r 5).
Proof. exact bitwise_examples. Qed.

(** ** C48: number theory and powers *)

(** snek-pow.c: for every integer [x] and exponent 0..255 whose power a number
    can hold (e.g. 2**100, 3**15, (-7)**8), [x ** n] is exact. *)
Theorem C48_power p rest a b x n : is_int a x -> is_int b n -> 0 <= n < 256 -> representable (x ^ n) ->
  p = snek_powf rest ->
  exists r, num_binary p Npow a b = Ok (r, false) /\ is_int r (x ^ n).
Proof. exact (power_spec p rest a b x n). Qed.

(** factorial(n) is n! for every n whose factorial a number can hold. *)
Theorem C48_factorial f n : (n <= 13)%nat -> is_int f (Z.of_nat n) ->
  exists r, factorialf f = Ok r /\ is_int r (fact n).
Proof. exact (factorial_int f n). Qed.

(** math.gcd is the greatest common divisor of two non-zero integers that have
    a common factor ... *)
Theorem C48_gcd_partial a b x y : is_int a x -> is_int b y -> Z.abs x < 2 ^ 31 -> Z.abs y < 2 ^ 31 ->
  x <> 0 -> y <> 0 -> (exists d, 1 < d /\ (d | x) /\ (d | y)) ->
  exists r g, gcdf a b = Ok r /\ is_int r g /\ greatest_common_divisor x y g.
Proof. exact (gcd_common a b x y). Qed.
(** ... and wrong for every pair of coprime integers above one (gcd(3,2) is
    2) ... *)
Theorem C48_gcd_refuted a b x y : is_int a x -> is_int b y -> 1 < x < 2 ^ 31 -> 1 < y < 2 ^ 31 ->
  (forall d, 0 < d -> (d | x) -> (d | y) -> d = 1) ->
  exists r, gcdf a b = Ok r /\ forall g, greatest_common_divisor x y g -> ~ is_int r g.
Proof. exact (gcd_coprime_wrong a b x y). Qed.
(** ... and for zero: gcd(x, 0) is 0 instead of |x|. *)
Theorem C48_gcd_zero_refuted a b x : is_int a x -> is_int b 0 -> Z.abs x < 2 ^ 31 -> x <> 0 ->
  exists r, gcdf a b = Ok r /\ is_int r 0 /\ forall g, greatest_common_divisor x 0 g -> ~ is_int r g.
Proof. exact (gcd_zero_wrong a b x). Qed.

Example C48_applies :
  (exists r, num_binary (snek_powf nopow) Npow (numz (-7)) (numz 8) = Ok (r, false) /\ is_int r 5764801) /\
  (exists r, num_binary (snek_powf nopow) Npow (numz 2) (numz 100) = Ok (r, false) /\ is_int r (2 ^ 100)) /\
  (exists r, factorialf (numz 13) = Ok r /\ is_int r 6227020800) /\
  (exists r, gcdf (numz 12) (numz (-18)) = Ok r /\ is_int r 6) /\
  (exists r, gcdf (numz 3) (numz 2) = Ok r /\ is_int r 2).
Proof. exact number_examples. Qed.

(** ** C47: random numbers *)

(** The calls a program makes after seeding and what they return. *)
Inductive draw := Random | Randrange (n : float).
Definition do_draw (d : draw) (r : rnd) : outcome (float * rnd) :=
  match d with Random => Ok (random_random r) | Randrange n => randrange n r end.
Fixpoint draws (l : list draw) (r : rnd) : list (outcome float) :=
  match l with
  | [] => []
  | d :: l' =>
      match do_draw d r with
      | Ok (v, r') => Ok v :: draws l' r'
      | Err => Err :: draws l' r
      | UB => [UB]
      end
  end.

(** Whatever was drawn before, the whole sequence after seed(u) is a function
    of [u]. *)
Theorem C47_seed u l r1 r2 : draws l (random_seed u r1) = draws l (random_seed u r2).
Proof. exact eq_refl. Qed.

(** randrange(n), in any state: an integer from 0 to n-1 for n up to 2^24. *)
Theorem C47_randrange_partial a n r : is_int a n -> 1 <= n <= 2 ^ 24 ->
  exists v r' z, randrange a r = Ok (v, r') /\ is_int v z /\ 0 <= z < n.
Proof. exact (randrange_spec a n r). Qed.
Theorem C47_small_randrange_partial a n r : is_int a n -> 1 <= n <= 2 ^ 24 ->
  exists v r' z, small_randrange a r = Ok (v, r') /\ is_int v z /\ 0 <= z < n.
Proof. exact (small_randrange_spec a n r). Qed.
(** Above, the bound itself can come back: seed(5694970), randrange(2**31). *)
Theorem C47_randrange_refuted : exists v r',
  randrange (numz (2 ^ 31)) (random_seed (bits_of_f (numz 5694970)) (Rnd 0 0)) = Ok (v, r') /\ is_int v (2 ^ 31).
Proof. exact randrange_wrong. Qed.
(** randrange(0) is an error; in snek-random-small.c it divides by zero. *)
Theorem C47_randrange_zero a r : is_int a 0 -> randrange a r = Err.
Proof. exact (randrange_zero a r). Qed.
Theorem C47_small_randrange_refuted a r : is_int a 0 -> small_randrange a r = UB.
Proof. exact (small_randrange_zero a r). Qed.

(** random(), in any state, lies in [0, 1], and below 1 unless the generator's
    low word is one of the 128 largest. *)
Theorem C47_random_partial r : exists v, is_real (fst (random_random r)) v /\ (0 <= v <= 1)%R /\
  (rnd_x (next_random r) mod 2 ^ 32 < 2 ^ 32 - 128 -> (v < 1)%R).
Proof. exact (random_range r). Qed.
(** That happens: after seed(591238) the second random() is 1. *)
Theorem C47_random_refuted :
  exists v w, draws [Random; Random] (random_seed (bits_of_f (numz 591238)) (Rnd 0 0)) = [Ok v; Ok w] /\ is_int w 1.
Proof. eexists. eexists. split; [reflexivity|exact random_wrong]. Qed.
(** Up to 2^32 the draw is between 0 and n. *)
Theorem C47_randrange_upto a n r : is_int a n -> 1 <= n < 2 ^ 32 ->
  exists v r' x, randrange a r = Ok (v, r') /\ is_real v x /\ (0 <= x <= IZR n)%R.
Proof. exact (randrange_upto a n r). Qed.
(** In snek-random-small.c random() exceeds 1, e.g. after seed(15). *)
Theorem C47_small_random_refuted :
  exists v, is_real (fst (small_random (small_seed (bits_of_f (numz 15)) 0))) v /\ (1 < v)%R.
Proof. exact small_random_wrong. Qed.

Example C47_applies : is_int (numz 6) 6 /\
  match draws [Randrange (numz 6); Random] (random_seed (bits_of_f (numz 42)) (Rnd 7 9)) with
  | [Ok v; Ok w] => feq v (numz 2) && flt (numz 0) w && flt w (numz 1)
  | _ => false
  end = true.
Proof. split; [exact (small_int 6 eq_refl)|]. vm_compute. reflexivity. Qed.

Print Assumptions C50_sum.
Print Assumptions C50_difference.
Print Assumptions C50_product.
Print Assumptions C50_range.
Print Assumptions C50_numbers.
Print Assumptions C50_floordiv.
Print Assumptions C50_mod_partial.
Print Assumptions C50_mod_refuted.
Print Assumptions C49_and.
Print Assumptions C49_or.
Print Assumptions C49_xor.
Print Assumptions C49_shift_left_partial.
Print Assumptions C49_shift_right_partial.
Print Assumptions C49_shift_refuted.
Print Assumptions C49_range_refuted.
Print Assumptions C49_fraction.
Print Assumptions C49_not_partial.
Print Assumptions C49_not_refuted.
Print Assumptions C48_power.
Print Assumptions C48_factorial.
Print Assumptions C48_gcd_partial.
Print Assumptions C48_gcd_refuted.
Print Assumptions C48_gcd_zero_refuted.
Print Assumptions C47_seed.
Print Assumptions C47_randrange_partial.
Print Assumptions C47_small_randrange_partial.
Print Assumptions C47_randrange_refuted.
Print Assumptions C47_randrange_zero.
Print Assumptions C47_small_randrange_refuted.
Print Assumptions C47_random_partial.
Print Assumptions C47_random_refuted.
Print Assumptions C47_randrange_upto.
Print Assumptions C47_small_random_refuted.
