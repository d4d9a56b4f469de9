(** The 32-bit value word, snek.h and snek-poly.c. *)
From Coq Require Import ZArith Lia Bool.
From Verif Require Import Base FloatModel.
Local Open Scope Z_scope.

(** snek.h 179-185: snek_type_t *)
Inductive ptype := TBuiltin | TList | TString | TFunc | TFloat.
Definition ptype_code (t : ptype) : Z :=
  match t with TBuiltin => 0 | TList => 1 | TString => 2 | TFunc => 3 | TFloat => 4 end.
(** The enumerator with the given value of [v.u & 3]. *)
Definition ptype_of_tag (z : Z) : ptype :=
  if z =? 0 then TBuiltin else if z =? 1 then TList else if z =? 2 then TString else TFunc.

(** snek.h 56-58 *)
Definition SNEK_OFFSET_MASK : Z := 0x007ffffc.
Definition SNEK_EXPONENT_MASK : Z := 0xff800000.
Definition SNEK_NINF : Z := 0xff800000.
(** snek.h 318-327 *)
Definition SNEK_NAN_U : Z := 0x7fffffff.
Definition SNEK_NULL_U : Z := 0xfffffffc.
Definition SNEK_GLOBAL_U : Z := 0xfffffff8.
Definition SNEK_INVALID_U : Z := 0xfffffff4.

(** snek-poly.c 47-53: snek_is_float *)
Definition snek_is_float (u : Z) : bool :=
  negb (Z.land u SNEK_EXPONENT_MASK =? SNEK_EXPONENT_MASK) || (u =? SNEK_NINF).

(** snek-poly.c 61-65: snek_poly_type *)
Definition snek_poly_type (u : Z) : ptype :=
  if snek_is_float u then TFloat else ptype_of_tag (Z.land u 3).

(** snek.h 897-901: snek_offset_to_poly *)
Definition snek_offset_to_poly (offset : Z) (t : ptype) : Z :=
  Z.lor (Z.lor SNEK_EXPONENT_MASK offset) (ptype_code t).

(** snek.h 903-907: snek_poly_to_offset *)
Definition snek_poly_to_offset (u : Z) : Z := Z.land u SNEK_OFFSET_MASK.

(** snek-poly.c 33-39: snek_float_to_poly *)
Definition snek_float_to_poly (f : float) : Z :=
  if f_is_nan f then SNEK_NAN_U else bits_of_f f.

(** snek.h 909-913: snek_poly_to_float *)
Definition snek_poly_to_float (u : Z) : float := f_of_bits u.

(** snek.h 950-956: snek_builtin_id_to_poly, function builtins.
    SNEK_ALLOC_SHIFT is 2 (snek.h 41). *)
Definition snek_builtin_func_to_poly (id : Z) : Z :=
  snek_offset_to_poly (Z.shiftl id 2) TBuiltin.
(** snek.h 958-962: snek_poly_to_builtin_id *)
Definition snek_poly_to_builtin_id (u : Z) : Z := Z.shiftr (snek_poly_to_offset u) 2.

(** snek-poly.c 166-170: snek_is_nan *)
Definition snek_is_nan (u : Z) : bool := u =? SNEK_NAN_U.
