(** Numbers: the operators of two floats, the integer powers, the number
    theory of snek-math.c and the two random number generators. *)
From Coq Require Import ZArith Lia Bool List.
From Flocq Require Import IEEE754.Binary IEEE754.Bits IEEE754.BinarySingleNaN Core.
From Verif Require Import Base FloatModel.
Import ListNotations.
Local Open Scope Z_scope.
Local Open Scope outcome_scope.

(** Conversion of a float to an unsigned integer of [n] bits: truncation,
    undefined when the truncated value does not fit (C11 6.3.1.4p1). *)
Definition f_to_uint (n : Z) (f : float) : outcome Z :=
  if f_is_finite f then
    let t := Binary.Btrunc 24 128 f in
    if (0 <=? t) && (t <? 2 ^ n) then Ok t else UB
  else UB.

(** ** The operators of two numbers (snek-exec.c) *)

(** snek-exec.c 243-250: snek_float_to_int.  The second component says whether
    snek_error_value was called; [i != f] converts [i] to float. *)
Definition float_to_int (f : float) : outcome (Z * bool) :=
  let! i := f_to_sint 32 f in Ok (i, negb (feq (f_of_Z i) f)).

(** snek.h 97-127, the operators snek_binary applies to two numbers. *)
Inductive numop :=
| Nplus | Nminus | Ntimes | Ndivide | Ndiv | Nmod | Npow
| Nland | Nlor | Nlxor | Nlshift | Nrshift.

(** C11 6.5.7: shifting by a negative count or by at least the width is
    undefined.  Shifting a negative value left, and bits into or past the sign,
    is taken as gcc and clang define it: reduction modulo 2^32. *)
Definition shl32 (a n : Z) : outcome Z :=
  if (0 <=? n) && (n <? 32) then Ok (wraps 32 (Z.shiftl a n)) else UB.
Definition shr32 (a n : Z) : outcome Z :=
  if (0 <=? n) && (n <? 32) then Ok (Z.shiftr a n) else UB.

(** The five cases of snek-exec.c 352-368: both operands converted, an int32_t
    operation, the result converted back. *)
Definition int_op (g : Z -> Z -> outcome Z) (af bf : float) : outcome (float * bool) :=
  let! (a, ea) := float_to_int af in
  let! (b, eb) := float_to_int bf in
  let! r := g a b in
  Ok (f_of_Z r, ea || eb).

(** snek-exec.c 322-372: the part of snek_binary for two floats.  The second
    component says whether an error was reported.  [powf] is the C library's,
    or that of snek-pow.c. *)
Definition num_binary (powf : float -> float -> outcome float)
    (op : numop) (af bf : float) : outcome (float * bool) :=
  match op with
  | Nplus => Ok (fadd af bf, false)
  | Nminus => Ok (fsub af bf, false)
  | Ntimes => Ok (fmul af bf, false)
  | Ndivide => Ok (fdiv af bf, false)
  | Ndiv => Ok (ffloor (fdiv af bf), false)
  | Nmod => Ok (fsub af (fmul (ffloor (fdiv af bf)) bf), false)
  | Npow => let! r := powf af bf in Ok (r, false)
  | Nland => int_op (fun a b => Ok (Z.land a b)) af bf
  | Nlor => int_op (fun a b => Ok (Z.lor a b)) af bf
  | Nlxor => int_op (fun a b => Ok (Z.lxor a b)) af bf
  | Nlshift => int_op shl32 af bf
  | Nrshift => int_op shr32 af bf
  end.

(** snek-exec.c 859-861: snek_op_uminus on a number. *)
Definition num_uminus (f : float) : float := fneg f.

(** snek-exec.c 862-864: snek_op_lnot on a number; the complement is taken in
    uint32_t. *)
Definition num_lnot (f : float) : outcome (float * bool) :=
  let! (i, e) := float_to_int f in
  Ok (f_of_Z (wrapu 32 (Z.lnot (wrapu 32 i))), e).

(** ** Integer powers (snek-pow.c) *)

(** snek-pow.c 119-130: ipow; [x] is a uint8_t.  The loop halves [x], which
    is counted by the binary digits of [x]. *)
Fixpoint ipow_loop (n : nat) (r a : float) (x : Z) : outcome float :=
  if x =? 0 then Ok r else
  match n with
  | O => UB
  | S n' =>
      let r' := if Z.odd x then fmul r a else r in
      ipow_loop n' r' (fmul a a) (Z.shiftr x 1)
  end.
Definition ipow (a : float) (x : Z) : outcome float := ipow_loop 8 f_one a x.

(** snek-pow.c 132-139: powf; [rest] stands for expf(logf(a) * b). *)
Definition snek_powf (rest : float -> float -> outcome float) (a b : float) : outcome float :=
  let! u := f_to_uint 8 b in
  if feq (f_of_Z u) b then ipow a u else rest a b.

(** ** snek-math.c *)

(** fabsf *)
Definition f_abs (f : float) : float := b32_abs f.

Definition f_inf : float := Binary.B754_infinity 24 128 false.

(** snek-math.c 39-48: factorialf.  [n] bounds the loop: [x] grows by one and
    stays below 35. *)
Fixpoint factorial_loop (n : nat) (result x f : float) : outcome float :=
  if fle x f then
    match n with
    | O => UB
    | S n' => factorial_loop n' (fmul result x) (fadd x f_one) f
    end
  else Ok result.
Definition factorialf (f : float) : outcome float :=
  if flt (f_of_Z 35) f then Ok f_inf
  else factorial_loop 40 f_one (f_of_Z 2) f.

(** snek-math.c 160-174: gcdf, with a 32-bit int.  [n] bounds the number of
    divisions (see gcd_loop_ends). *)
Fixpoint gcd_loop (n : nat) (a b : Z) : outcome Z :=
  if (1 <? a) && (1 <? b) then
    match n with
    | O => UB
    | S n' => gcd_loop n' b (Z.rem a b)
    end
  else Ok a.
Definition gcdf (af bf : float) : outcome float :=
  let! a := f_to_sint 32 (f_abs af) in
  let! b := f_to_sint 32 (f_abs bf) in
  if (a =? 0) || (b =? 0) then Ok f_zero
  else let! g := gcd_loop (Z.to_nat 64) a b in Ok (f_of_Z g).

(** ** snek-random.c *)

(** snek-random.c 17 *)
Record rnd := Rnd { rnd_x : Z; rnd_w : Z }.

(** snek-random.c 19 *)
Definition random_s : Z := 0xb5ad4eceda1ce2a9.

(** snek-random.c 21-28; the argument is the value word. *)
Definition random_seed (u : Z) (r : rnd) : rnd :=
  let r := {| rnd_x := u; rnd_w := rnd_w r |} in
  let r := {| rnd_x := Z.lor (rnd_x r) (wrapu 64 (Z.shiftl (rnd_x r) 32)); rnd_w := rnd_w r |} in
  {| rnd_x := rnd_x r; rnd_w := 0 |}.

(** snek-random.c 30-37 *)
Definition next_random (r : rnd) : rnd :=
  let x := wrapu 64 (rnd_x r * rnd_x r) in
  let w := wrapu 64 (rnd_w r + random_s) in
  let x := wrapu 64 (x + w) in
  Rnd (Z.lor (Z.shiftr x 32) (wrapu 64 (Z.shiftl x 32))) w.

(** snek-random.c 39-50, for a number. *)
Definition randrange (a : float) (r : rnd) : outcome (float * rnd) :=
  let! m := f_to_uint 32 a in
  if m =? 0 then Err
  else let r' := next_random r in
       Ok (f_of_Z (rnd_x r' mod m), r').

(** snek-random.c 52-57: the quotient is computed in double, where it is exact
    (32 bits divided by a power of two), and rounded to float on return. *)
Definition random_random (r : rnd) : float * rnd :=
  let r' := next_random r in
  (Binary.binary_normalize 24 128 prec24 prec24_emax mode_NE (wrapu 32 (rnd_x r')) (-32) false, r').

(** ** snek-random-small.c *)

(** snek-random-small.c 19-24 *)
Definition small_seed (u : Z) (r : Z) : Z := u.

(** snek-random-small.c 26-30 *)
Definition small_next (r : Z) : Z := wrapu 32 (r * 1103515245 + 12345).

(** snek-random-small.c 32-37; the remainder by zero is undefined. *)
Definition small_randrange (a : float) (r : Z) : outcome (float * Z) :=
  let r' := small_next r in
  let! m := f_to_uint 32 a in
  if m =? 0 then UB else Ok (f_of_Z (r' mod m), r').

(** snek-random-small.c 39-44: [random_next] is converted to float, then
    divided in float. *)
Definition small_random (r : Z) : float * Z :=
  let r' := small_next r in
  (fdiv (f_of_Z r') (f_of_Z (2 ^ 31)), r').
