(** C02-C04: comparison.  See OrderSpec.v for the orders spoken of. *)
From Coq Require Import ZArith Bool List.
From Flocq Require Import IEEE754.Binary.
From Verif Require Import Base FloatModel PolyModel ValueModel OrderSpec OrderProofs.
Import ListNotations.
Local Open Scope Z_scope.

(** C02.  On scalars other than NaN the six operators are those of one order
    and one equality ... *)
Theorem C02_scalar_operators : forall a b, scalar a -> scalar b ->
  is_nan_value a = false -> is_nan_value b = false ->
  (snek_compare OLt a b = true <-> scalar_lt a b) /\
  (snek_compare OGt a b = true <-> scalar_lt b a) /\
  (snek_compare OEq a b = true <-> value_eq a b) /\
  (snek_compare ONe a b = true <-> ~ value_eq a b) /\
  (snek_compare OLe a b = true <-> scalar_lt a b \/ value_eq a b) /\
  (snek_compare OGe a b = true <-> scalar_lt b a \/ value_eq a b).
Proof. exact scalar_ops. Qed.
Print Assumptions C02_scalar_operators.

(** ... which is total (exactly one of <, ==, > holds) ... *)
Theorem C02_scalar_trichotomy : forall a b, scalar a -> scalar b ->
  (scalar_lt a b /\ ~ value_eq a b /\ ~ scalar_lt b a) \/
  (~ scalar_lt a b /\ value_eq a b /\ ~ scalar_lt b a) \/
  (~ scalar_lt a b /\ ~ value_eq a b /\ scalar_lt b a).
Proof. exact scalar_trichotomy. Qed.
Print Assumptions C02_scalar_trichotomy.

(** ... and transitive, also of the internal comparison that orders
    dictionary keys. *)
Theorem C02_scalar_transitive : forall a b c, scalar a -> scalar b -> scalar c ->
  poly_cmp a b <= 0 -> poly_cmp b c <= 0 -> poly_cmp a c <= 0.
Proof. exact scalar_cmp_trans. Qed.
Print Assumptions C02_scalar_transitive.

(** A NaN operand makes != true and every other operator false. *)
Theorem C02_nan_operators : forall op a b, is_nan_value a = true \/ is_nan_value b = true ->
  snek_compare op a b = match op with ONe => true | _ => false end.
Proof. exact nan_ops. Qed.
Print Assumptions C02_nan_operators.

(** Without the restriction to numbers produced by the interpreter's own
    arithmetic the claim is false: the builtin constant math.nan is the word
    0x7fc00000 (snek-math.builtin), a NaN that the interpreter does not
    recognise; it is equal to both 1 and 2. *)
Definition math_nan : value := VNum (f_of_bits 0x7fc00000).
Theorem C02_math_nan_refuted : exists a b c,
  snek_compare OEq a b = true /\ snek_compare OEq b c = true /\ snek_compare OEq a c = false.
Proof.
  exists (VNum (f_of_bits 0x3f800000)), math_nan, (VNum (f_of_bits 0x40000000)).
  vm_compute. repeat split; reflexivity.
Qed.
Print Assumptions C02_math_nan_refuted.

Example C02_applies : scalar (VNum (f_of_bits 0x3f800000)) /\ scalar (VStr [97]) /\
  is_nan_value (VNum (f_of_bits 0x3f800000)) = false /\
  snek_compare OLt (VStr [97]) (VNum (f_of_bits 0x3f800000)) = true.
Proof. repeat split. cbn. discriminate. Qed.
Example C02_nan_applies : is_nan_value (VNum (f_of_bits 0x7fffffff)) = true.
Proof. reflexivity. Qed.

(** C03.  == is structural equality, at every depth. *)
Theorem C03_equality_structural : forall a b, canonical a -> canonical b ->
  is_nan_value a = false -> is_nan_value b = false ->
  (snek_compare OEq a b = true <-> value_eq a b) /\ (snek_compare ONe a b = true <-> ~ value_eq a b).
Proof. exact list_eq_op. Qed.
Print Assumptions C03_equality_structural.

Definition ex_list : value :=
  VSeq KList [VNum (f_of_bits 0x3f800000); VSeq KTuple [VStr [97; 98]; VNone]; VNum (f_of_bits 0x7fffffff)].
Example C03_applies : canonical ex_list /\ is_nan_value ex_list = false /\ snek_compare OEq ex_list ex_list = true.
Proof. repeat split. cbn. discriminate. Qed.

(** C04.  The order of lists is not lexicographic: a proper prefix is neither
    below the longer list nor is the relation antisymmetric. *)
Theorem C04_prefix_refuted : exists a b, canonical a /\ canonical b /\ value_lt a b /\
  snek_compare OLt a b = false /\ snek_compare OGt a b = true /\ snek_compare OGt b a = true.
Proof.
  exists (VSeq KList [VNone]), (VSeq KList [VNone; VNone]). repeat split.
  apply vlt_seq. apply slt_tail; [apply veq_builtin|]. apply slt_prefix.
Qed.
Print Assumptions C04_prefix_refuted.

(** Every proper prefix shows it. *)
Theorem C04_every_prefix_wrong : forall k l l', canonical (VSeq k (l ++ l')) -> l' <> [] ->
  poly_cmp (VSeq k l) (VSeq k (l ++ l')) = 1 /\ poly_cmp (VSeq k (l ++ l')) (VSeq k l) = 1.
Proof. exact prefix_cmp. Qed.
Print Assumptions C04_every_prefix_wrong.

(** That is the only deviation: where the comparison meets no proper prefix
    it is the lexicographic order.  Missing for the full claim: the prefix case,
    where the claim is false. *)
Theorem C04_lexicographic_partial : forall a b, canonical a -> canonical b -> no_prefix a b ->
  is_nan_value a = false -> is_nan_value b = false ->
  (snek_compare OLt a b = true <-> value_lt a b) /\
  (snek_compare OGe a b = true <-> ~ value_lt a b) /\
  (snek_compare OGt a b = snek_compare OLt b a) /\
  (snek_compare OLe a b = snek_compare OGe b a).
Proof. exact list_order_ops. Qed.
Print Assumptions C04_lexicographic_partial.

Example C04_applies :
  no_prefix (VSeq KList [VNone; VStr [97]]) (VSeq KList [VNone; VStr [98]; VNone]).
Proof.
  apply np_seq. apply npl_same; [|constructor|].
  - apply np_other. left; discriminate.
  - apply npl_diff; [apply np_other; left; discriminate|]. intros H; inversion H.
Qed.
