(** C01: values are unambiguous. *)
From Flocq Require Import IEEE754.Binary IEEE754.Bits.
From Verif Require Import Tac Base FloatModel PolyModel PolyProofs.
Local Open Scope Z_scope.

(** Wrapping an aligned offset below 8 MiB as a reference and unwrapping it
    gives back kind and offset.  The only excluded pair is a builtin at offset
    0, whose word would be -inf; builtin ids start at 1 (snek-builtin.py). *)
Theorem C01_reference_round_trip : forall o t,
  0 <= o < 2 ^ 23 /\ o mod 4 = 0 -> t <> TFloat -> (t = TBuiltin -> o <> 0) ->
  0 <= snek_offset_to_poly o t < 2 ^ 32 /\
  snek_poly_type (snek_offset_to_poly o t) = t /\
  snek_poly_to_offset (snek_offset_to_poly o t) = o.
Proof. exact ref_round_trip. Qed.
Print Assumptions C01_reference_round_trip.

Example C01_reference_nonvacuous :
  (0 <= 4096 < 2 ^ 23 /\ 4096 mod 4 = 0) /\ TString <> TFloat /\ (TString = TBuiltin -> 4096 <> 0).
Proof. repeat split; try lia; discriminate. Qed.

(** Wrapping any float gives a word read as a number, the same number unless it
    is a NaN, which becomes the one canonical NaN. *)
Theorem C01_number_round_trip : forall f,
  0 <= snek_float_to_poly f < 2 ^ 32 /\
  snek_poly_type (snek_float_to_poly f) = TFloat /\
  (is_nan 24 128 f = false -> snek_poly_to_float (snek_float_to_poly f) = f) /\
  (is_nan 24 128 f = true ->
     snek_float_to_poly f = 0x7fffffff /\
     is_nan 24 128 (snek_poly_to_float (snek_float_to_poly f)) = true).
Proof.
  intros f. split; [apply float_to_poly_range|].
  split; [apply float_to_poly_type|]. split; [apply float_to_poly_back|].
  intros H. destruct (float_to_poly_nan f H) as [-> H2]. split; [reflexivity|exact H2].
Qed.
Print Assumptions C01_number_round_trip.

(** Every 32-bit word is a number or exactly one reference, never both. *)
Theorem C01_word_reading : forall u, 0 <= u < 2 ^ 32 ->
  (snek_poly_type u = TFloat /\
   forall o t, (0 <= o < 2 ^ 23 /\ o mod 4 = 0) -> t <> TFloat -> (t = TBuiltin -> o <> 0) ->
     u <> snek_offset_to_poly o t) \/
  (exists o t, (0 <= o < 2 ^ 23 /\ o mod 4 = 0) /\ t <> TFloat /\ (t = TBuiltin -> o <> 0) /\
     u = snek_offset_to_poly o t /\
     (forall f, snek_float_to_poly f <> u) /\
     forall o' t', (0 <= o' < 2 ^ 23 /\ o' mod 4 = 0) -> t' <> TFloat -> (t' = TBuiltin -> o' <> 0) ->
       u = snek_offset_to_poly o' t' -> o' = o /\ t' = t).
Proof. exact word_reading. Qed.
Print Assumptions C01_word_reading.

(** Builtin functions: the id survives the packing. *)
Theorem C01_builtin_round_trip : forall id, 1 <= id < 2 ^ 21 ->
  snek_poly_type (snek_builtin_func_to_poly id) = TBuiltin /\
  snek_poly_to_builtin_id (snek_builtin_func_to_poly id) = id.
Proof. exact builtin_id_round_trip. Qed.
Print Assumptions C01_builtin_round_trip.

(** Both readings occur: -inf is a number, its successor word is a list. *)
Example C01_edges :
  snek_poly_type 0xff800000 = TFloat /\ snek_poly_type 0xff800001 = TList /\
  snek_poly_type 0x7f800000 = TFloat /\ snek_poly_type 0xfffffffc = TBuiltin.
Proof. repeat split; reflexivity. Qed.
