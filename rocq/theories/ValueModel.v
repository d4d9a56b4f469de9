(** Values as the interpreter's user sees them, and their comparison
    (snek-poly.c, snek-list.c).  A list is given with its elements, i.e. the
    heap is unfolded; a list that contains itself has no such unfolding and is
    outside this file (on one, snek_list_cmp recurses without bound). *)
From Coq Require Import ZArith Bool List.
From Verif Require Import Base FloatModel PolyModel.
Import ListNotations.
Local Open Scope Z_scope.

(** snek.h 202-208: snek_list_type_t *)
Inductive lkind := KList | KTuple | KDict.
Definition lkind_code (k : lkind) : Z := match k with KList => 0 | KTuple => 1 | KDict => 2 end.

(** A string is its bytes up to the terminating NUL.  A function is known by
    its word, a builtin by its word (None is the builtin word 0xfffffffc,
    snek.h 320).  The elements of a dictionary alternate keys and values
    (snek-list.c 143-171). *)
Inductive value :=
| VNum (f : float)
| VStr (s : list Z)
| VSeq (k : lkind) (l : list value)
| VFunc (u : Z)
| VBuiltin (u : Z).

Definition VNone : value := VBuiltin SNEK_NULL_U.

(** snek-poly.c 61-65, on unfolded values *)
Definition vtype (v : value) : ptype :=
  match v with
  | VNum _ => TFloat | VStr _ => TString | VSeq _ _ => TList
  | VFunc _ => TFunc | VBuiltin _ => TBuiltin
  end.

Definition b2z (b : bool) : Z := if b then 1 else 0.

(** snek-poly.c 166-170: only the canonical NaN word counts as NaN *)
Definition vnan (f : float) : bool := bits_of_f f =? SNEK_NAN_U.

(** snek-poly.c 89-93: comparison of two numbers *)
Definition num_cmp (a b : float) : Z :=
  let tdiff := b2z (vnan a) - b2z (vnan b) in
  if negb (tdiff =? 0) then tdiff else b2z (flt b a) - b2z (flt a b).

(** snek-poly.c 94-96: strcmp compares as unsigned char; the result is reduced
    to its sign *)
Fixpoint str_cmp (a b : list Z) : Z :=
  match a, b with
  | [], [] => 0
  | [], _ :: _ => -1
  | _ :: _, [] => 1
  | x :: a', y :: b' => if x <? y then -1 else if y <? x then 1 else str_cmp a' b'
  end.

(** snek-poly.c 105: comparison of words *)
Definition word_cmp (a b : Z) : Z := b2z (b <? a) - b2z (a <? b).

(** snek-poly.c 78-107: snek_poly_cmp with is == false, and snek-list.c 252-271:
    snek_list_cmp, whose loop over the two arrays is the inner recursion *)
Fixpoint poly_cmp (a b : value) {struct a} : Z :=
  let tdiff := ptype_code (vtype a) - ptype_code (vtype b) in
  if negb (tdiff =? 0) then tdiff
  else match a, b with
       | VNum f, VNum g => num_cmp f g
       | VStr s, VStr t => str_cmp s t
       | VSeq k l, VSeq k' l' =>
           let diff := lkind_code k - lkind_code k' in
           if negb (diff =? 0) then diff
           else (fix go (x y : list value) {struct x} : Z :=
                   match x, y with
                   | [], [] => 0
                   | [], _ :: _ => 1            (* return b->size > o *)
                   | _ :: _, [] => 1            (* o >= b->size *)
                   | e :: x', e' :: y' =>
                       let d := poly_cmp e e' in
                       if negb (d =? 0) then d else go x' y'
                   end) l l'
       | VFunc u, VFunc u' => word_cmp u u'
       | VBuiltin u, VBuiltin u' => word_cmp u u'
       | _, _ => 0
       end.

(** The comparison loop by itself (snek-list.c 262-270) *)
Fixpoint list_cmp_loop (x y : list value) : Z :=
  match x, y with
  | [], [] => 0
  | [], _ :: _ => 1
  | _ :: _, [] => 1
  | e :: x', e' :: y' =>
      let d := poly_cmp e e' in if negb (d =? 0) then d else list_cmp_loop x' y'
  end.

(** snek-exec.c 273-305: the comparison operators of snek_binary *)
Inductive cmpop := OEq | ONe | OGt | OLt | OGe | OLe.
Definition is_nan_value (v : value) : bool := match v with VNum f => vnan f | _ => false end.
Definition snek_compare (op : cmpop) (a b : value) : bool :=
  if is_nan_value a || is_nan_value b
  then match op with ONe => true | _ => false end
  else let c := poly_cmp a b in
       match op with
       | OEq => c =? 0 | ONe => negb (c =? 0)
       | OGt => 0 <? c | OLt => c <? 0
       | OGe => 0 <=? c | OLe => c <=? 0
       end.

(** snek-poly.c 109-122: snek_poly_true *)
Definition poly_true (v : value) : bool :=
  match v with
  | VNum f => negb (feq f f_zero)
  | VSeq _ l => negb (match l with [] => true | _ => false end)
  | VStr s => negb (match s with [] => true | _ => false end)
  | VFunc _ | VBuiltin _ => false
  end.
