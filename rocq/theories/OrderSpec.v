(** Independent notion of order for C02-C04. *)
From Coq Require Import ZArith Bool List Reals.
From Flocq Require Import IEEE754.Binary.
From Verif Require Import Base FloatModel PolyModel ValueModel.
Import ListNotations.
Local Open Scope Z_scope.

(** A number the interpreter's own arithmetic can produce: a NaN is the
    canonical one (snek_float_to_poly). *)
Definition canonical_num (f : float) : Prop := is_nan 24 128 f = true -> bits_of_f f = 0x7fffffff.

Definition scalar (v : value) : Prop :=
  match v with
  | VNum f => canonical_num f
  | VSeq _ _ => False
  | _ => True
  end.

(** All numbers inside are canonical. *)
Fixpoint canonical (v : value) : Prop :=
  match v with
  | VNum f => canonical_num f
  | VSeq _ l => (fix all (l : list value) : Prop :=
                   match l with [] => True | x :: l' => canonical x /\ all l' end) l
  | _ => True
  end.

(** Bytewise lexicographic order of strings. *)
Inductive str_lt : list Z -> list Z -> Prop :=
| str_lt_nil : forall y b, str_lt [] (y :: b)
| str_lt_head : forall x y a b, x < y -> str_lt (x :: a) (y :: b)
| str_lt_tail : forall x a b, str_lt a b -> str_lt (x :: a) (x :: b).

(** Order of numbers by value; a NaN is above every other number. *)
Definition num_lt (f g : float) : Prop :=
  (is_nan 24 128 f = false /\ is_nan 24 128 g = true) \/
  (is_nan 24 128 f = false /\ is_nan 24 128 g = false /\
   match f, g with
   | B754_infinity _ _ sf, B754_infinity _ _ sg => sf = true /\ sg = false
   | B754_infinity _ _ sf, _ => sf = true
   | _, B754_infinity _ _ sg => sg = false
   | _, _ => (B2R 24 128 f < B2R 24 128 g)%R
   end).

(** Kinds in the order builtin, list, string, function, number. *)
Definition kind_rank (v : value) : Z :=
  match v with VBuiltin _ => 0 | VSeq _ _ => 1 | VStr _ => 2 | VFunc _ => 3 | VNum _ => 4 end.

Definition scalar_lt (a b : value) : Prop :=
  kind_rank a < kind_rank b \/
  match a, b with
  | VNum f, VNum g => num_lt f g
  | VStr s, VStr t => str_lt s t
  | VFunc u, VFunc u' => u < u'
  | VBuiltin u, VBuiltin u' => u < u'
  | _, _ => False
  end.

(** Equality of numbers: same value, or both NaN; -0 = +0. *)
Definition num_eq (f g : float) : Prop := ~ num_lt f g /\ ~ num_lt g f.

(** Structural equality of values. *)
Inductive value_eq : value -> value -> Prop :=
| veq_num : forall f g, num_eq f g -> value_eq (VNum f) (VNum g)
| veq_str : forall s, value_eq (VStr s) (VStr s)
| veq_func : forall u, value_eq (VFunc u) (VFunc u)
| veq_builtin : forall u, value_eq (VBuiltin u) (VBuiltin u)
| veq_seq : forall k l l', Forall2 value_eq l l' -> value_eq (VSeq k l) (VSeq k l').

(** Lexicographic order of sequences over the order of elements; a proper
    prefix comes first. *)
Inductive value_lt : value -> value -> Prop :=
| vlt_scalar : forall a b, scalar_lt a b -> value_lt a b
| vlt_kind : forall k k' l l', lkind_code k < lkind_code k' -> value_lt (VSeq k l) (VSeq k' l')
| vlt_seq : forall k l l', seq_lt l l' -> value_lt (VSeq k l) (VSeq k l')
with seq_lt : list value -> list value -> Prop :=
| slt_prefix : forall y l', seq_lt [] (y :: l')
| slt_head : forall x y l l', value_lt x y -> seq_lt (x :: l) (y :: l')
| slt_tail : forall x y l l', value_eq x y -> seq_lt l l' -> seq_lt (x :: l) (y :: l').

(** Comparing [a] with [b] position by position, up to the first difference,
    never meets two sequences one of which is a proper prefix of the other. *)
Inductive no_prefix : value -> value -> Prop :=
| np_other : forall a b, (forall k l, a <> VSeq k l) \/ (forall k l, b <> VSeq k l) -> no_prefix a b
| np_kind : forall k k' l l', k <> k' -> no_prefix (VSeq k l) (VSeq k' l')
| np_seq : forall k l l', np_list l l' -> no_prefix (VSeq k l) (VSeq k l')
with np_list : list value -> list value -> Prop :=
| npl_nil : np_list [] []
| npl_diff : forall x y l l', no_prefix x y -> ~ value_eq x y -> np_list (x :: l) (y :: l')
| npl_same : forall x y l l', no_prefix x y -> value_eq x y -> np_list l l' -> np_list (x :: l) (y :: l').
