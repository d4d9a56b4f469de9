(** Shared vocabulary of the model: C integer conversions and the possible
    outcomes of a modelled operation. *)
From Coq Require Import ZArith Lia Bool List.
Import ListNotations.
Local Open Scope Z_scope.

(** Outcome of a modelled C function.
    [Ok a]  - it returns [a];
    [Err]   - it reports an interpreter error (snek-error.c sets [snek_abort]);
    [UB]    - the C code has undefined behaviour on this input (signed
              overflow, out-of-range float-to-integer conversion, access
              outside an object). *)
Inductive outcome (A : Type) : Type :=
| Ok (a : A)
| Err
| UB.
Arguments Ok {A} a.
Arguments Err {A}.
Arguments UB {A}.

Definition obind {A B} (x : outcome A) (f : A -> outcome B) : outcome B :=
  match x with Ok a => f a | Err => Err | UB => UB end.
Definition omap {A B} (f : A -> B) (x : outcome A) : outcome B :=
  obind x (fun a => Ok (f a)).

Declare Scope outcome_scope.
Delimit Scope outcome_scope with outcome.
Notation "'let!' x := a 'in' b" := (obind a (fun x => b))
  (at level 200, x pattern, a at level 100, b at level 200) : outcome_scope.

(** Conversion to an unsigned C integer type of [n] bits (C11 6.3.1.3p2). *)
Definition wrapu (n x : Z) : Z := x mod 2 ^ n.

(** Conversion to a two's complement signed type of [n] bits
    (C11 6.3.1.3p3, implementation defined; every compiler snek supports
    reduces modulo 2^n). *)
Definition wraps (n x : Z) : Z :=
  let y := x mod 2 ^ n in if y <? 2 ^ (n - 1) then y else y - 2 ^ n.

(** Signed arithmetic: the result if it fits, undefined behaviour if not
    (C11 6.5p5). *)
Definition in_sint (n x : Z) : bool := (- 2 ^ (n - 1) <=? x) && (x <? 2 ^ (n - 1)).
Definition sint (n x : Z) : outcome Z := if in_sint n x then Ok x else UB.

(** snek.h 60-70: the two widths of [snek_offset_t]. *)
Inductive width := W16 | W32.
Definition wbits (w : width) : Z := match w with W16 => 16 | W32 => 32 end.
(** snek.h 63, 68: SNEK_OFFSET_NONE *)
Definition OFFSET_NONE (w : width) : Z := match w with W16 => 65532 | W32 => 4294967292 end.
(** snek.h 64, 69: SNEK_SOFFSET_NONE *)
Definition SOFFSET_NONE (w : width) : Z := match w with W16 => 32764 | W32 => 2147483644 end.

Definition u_of (w : width) (x : Z) : Z := wrapu (wbits w) x.
Definition s_of (w : width) (x : Z) : Z := wraps (wbits w) x.
Definition in_soffset (w : width) (x : Z) : bool := in_sint (wbits w) x.
