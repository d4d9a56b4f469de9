(** Reading a number: snek-atof.c, which the AVR boards use in place of strtof
    (chips/avr/snek-avr.h 33, chips/atmega/snek-atmega.h 83) for the literals of
    a program (snek-lex.c 273) and for float (snek-input.c 52).  There int has 16
    bits and unsigned long 32.  The text is the bytes from nptr on to the end of
    the array; a byte after that is undefined. *)
From Coq Require Import ZArith Bool List.
From Flocq Require Import IEEE754.Binary.
From Verif Require Import Base FloatModel.
Import ListNotations.
Local Open Scope Z_scope.
Local Open Scope outcome_scope.

(** 45-50: the tables.  [lit m e] is m 2^e. *)
Definition lit (m e : Z) : float := Binary.binary_normalize 24 128 prec24 prec24_emax BinarySingleNaN.mode_NE m e false.
Definition pwr_p10 : list (Z * float) :=
  [(32, lit 10339758 83); (16, lit 9313226 30); (8, lit 12500000 3); (4, lit 10000 0); (2, lit 100 0); (1, lit 10 0)].
Definition pwr_m10 : list (Z * float) :=
  [(32, lit 13611295 (-130)); (16, lit 15111573 (-77)); (8, lit 11258999 (-50)); (4, lit 13743895 (-37));
   (2, lit 10737418 (-30)); (1, lit 13421773 (-27))].

(** *nptr++ *)
Definition next (s : list Z) : outcome (Z * list Z) := match s with [] => UB | c :: s => Ok (c, s) end.
(** 75: TOLOWER *)
Definition tolower (c : Z) : Z := Z.lor c 32.

(** 106-129: the digits.  [c] is the byte read; gives the byte after them less
    '0', what follows, the mantissa and the exponent. *)
Fixpoint scan (c : Z) (s : list Z) (x exp : Z) (ovfl dot : bool) {struct s} : outcome (Z * list Z * Z * Z) :=
  let c := wrapu 8 (c - 48) in
  if c <=? 9 then
    let! (x, exp, ovfl) :=
      (if ovfl then
         if negb dot then let! exp := sint 16 (exp + 1) in Ok (x, exp, ovfl) else Ok (x, exp, ovfl)
       else
         let! exp := (if dot then sint 16 (exp - 1) else Ok exp) in
         let x := wrapu 32 (x * 10 + c) in
         Ok (x, exp, (2 ^ 32 - 1 - 9) / 10 <=? x)) in
    match s with [] => UB | c :: s => scan c s x exp ovfl dot end
  else if (c =? 254) && negb dot then
    match s with [] => UB | c :: s => scan c s x exp ovfl true end
  else Ok (c, s, x, exp).

(** 149-153: the digits of the exponent; [c] is one *)
Fixpoint scan_exp (c : Z) (s : list Z) (i : Z) {struct s} : outcome Z :=
  let! i := (if i <? 3200 then sint 16 (i * 10 + c) else Ok i) in
  match s with
  | [] => UB
  | c :: s => let c := wrapu 8 (c - 48) in if c <=? 9 then scan_exp c s i else Ok i
  end.
(** 131-158 *)
Definition exponent (c : Z) (s : list Z) (exp : Z) : outcome Z :=
  if tolower c =? 101 - 48 then
    let! (c, s) := next s in
    let! (c, s, minus) :=
      (if c =? 45 then let! (c, s) := next s in Ok (c, s, true)
       else if c =? 43 then let! (c, s) := next s in Ok (c, s, false)
       else Ok (c, s, false)) in
    let c := wrapu 8 (c - 48) in
    if 9 <? c then Ok exp
    else
      let! i := scan_exp c s 0 in
      sint 16 (exp + (if minus then - i else i))
  else Ok exp.

(** 173-174: the inner loop; [fuel] bounds the rounds *)
Fixpoint mul_while (fuel : nat) (pwr : Z) (f : float) (exp : Z) (x : float) : outcome (float * Z) :=
  if pwr <=? exp then
    match fuel with O => Err | S fuel => mul_while fuel pwr f (exp - pwr) (fmul x f) end
  else Ok (x, exp).
(** 172-176 *)
Fixpoint mul_all (t : list (Z * float)) (exp : Z) (x : float) : outcome float :=
  match t with
  | [] => Ok x
  | (pwr, f) :: t => let! (x, exp) := mul_while (Z.to_nat exp) pwr f exp x in mul_all t exp x
  end.
(** 160-177 *)
Definition scale (x exp : Z) : outcome float :=
  let f := f_of_Z x in
  if negb (feq f f_zero) then
    if exp <? 0 then let! exp := sint 16 (- exp) in mul_all pwr_m10 exp f else mul_all pwr_p10 exp f
  else Ok f.

(** 77-180: [has_float]: whether SNEK_BUILTIN_float is defined *)
Definition f_nan : float := Binary.B754_nan 24 128 false 4194304 eq_refl.
Definition f_infinity : float := Binary.B754_infinity 24 128 false.
Definition atoff (has_float : bool) (s : list Z) : outcome float :=
  let! (c, s) := next s in
  if has_float && (tolower c =? 110) then Ok f_nan
  else if has_float && (tolower c =? 105) then Ok f_infinity
  else
    let! (c, s, x, exp) := scan c s 0 0 false false in
    let! exp := exponent c s exp in
    scale x exp.
