(** snek_binary and the element case of snek_assign (snek-exec.c). *)
From Coq Require Import ZArith Bool List.
From Verif Require Import Base FloatModel PolyModel ValueModel SliceModel MathModel MachModel ListModel StrModel.
Import ListNotations.
Local Open Scope Z_scope.
Open Scope mach_scope.

(** snek.h 80-113: the operators of snek_binary *)
Inductive bop := BCmp (c : cmpop) | BIs | BIsNot | BIn | BNotIn | BArray | BNum (n : numop).

(** snek-poly.c 32-38: snek_float_to_poly; 54-58: snek_bool_to_poly; 166-170: snek_is_nan *)
Definition float_to_poly (f : float) : poly := PNum (if f_is_nan f then f_of_bits SNEK_NAN_U else f).
Definition bool_to_poly (b : bool) : poly := if b then POne else PZero.
Definition is_nan_poly (p : poly) : bool := match p with PNum f => vnan f | _ => false end.

(** snek-exec.c 282-303 *)
Definition cmp_holds (c : cmpop) (d : Z) : bool :=
  match c with
  | OEq => d =? 0 | ONe => negb (d =? 0)
  | OGt => 0 <? d | OLt => d <? 0
  | OGe => 0 <=? d | OLe => d <=? 0
  end.

(** strstr *)
Fixpoint starts_with (b a : list Z) : bool :=
  match a, b with
  | [], _ => true
  | x :: a', y :: b' => (x =? y) && starts_with b' a'
  | _, _ => false
  end.
Fixpoint strstr (b a : list Z) : bool :=
  starts_with b a || match b with [] => false | _ :: b' => strstr b' a end.

(** The operand an int operation complains about (snek-exec.c 243-250): C does
    not say which of the two is converted first; here the left one. *)
Definition bad_operand (af bf : float) : float :=
  match float_to_int af with Ok (_, true) => af | _ => bf end.

Section WithEnv.
Variable E : env.
Variable T : texts.
Variable powf : float -> float -> outcome float.

(** snek-exec.c 322-372: two numbers; the operators without a case there leave
    the left operand *)
Definition num_op (op : bop) (af bf : float) : M poly :=
  match op with
  | BNum n =>
      match num_binary powf n af bf with
      | Ok (r, bad) => (if bad then error (EValue (PNum (bad_operand af bf))) else ret tt);; ret (float_to_poly r)
      | _ => undef
      end
  | _ => ret (float_to_poly af)
  end.

(** snek-exec.c 381-410: in, not in *)
Definition in_op (a b : poly) (positive : bool) : M poly :=
  match b with
  | PList _ =>
      let* bl := poly_to_list b in
      let* found := list_in E a bl in
      ret (bool_to_poly (Bool.eqb found positive))
  | PStr _ =>
      match a with
      | PStr _ =>
          let* bs := (let* p := poly_to_str b in deref_str p) in
          let* as_ := (let* p := poly_to_str a in deref_str p) in
          ret (bool_to_poly (Bool.eqb (strstr bs as_) positive))
      | _ => ret PInvalid
      end
  | _ => ret PInvalid
  end.

(** snek-exec.c 411-438: plus *)
Definition plus_op (a b : poly) (inplace : bool) : M poly :=
  match a, b with
  | PStr _, PStr _ =>
      let* p := poly_to_str a in
      let* q := poly_to_str b in
      string_cat E p q
  | PList _, PList _ =>
      let* al := poly_to_list a in
      let* bl := poly_to_list b in
      let* ao := deref_list al in
      let* bo := deref_list bl in
      if lkind_eqb (lo_kind ao) (lo_kind bo) && negb (lkind_eqb (lo_kind ao) KDict) then
        let* r := (if inplace && negb (readonly (lo_kind ao)) then list_append E al bl else list_plus E al bl) in
        list_to_poly r
      else ret PInvalid
  | _, _ => ret PInvalid
  end.

(** snek-exec.c 439-463: times, the number on the right *)
Definition times_op (a b : poly) : M poly :=
  match b with
  | PNum _ =>
      let* bo := get_soffset E b in
      if bo <? 0 then ret PNull
      else match a with
           | PList _ =>
               let* al := poly_to_list a in
               let* ao := deref_list al in
               if negb (lkind_eqb (lo_kind ao) KDict)
               then let* r := list_times E al bo in list_to_poly r
               else ret PInvalid
           | PStr _ => let* p := poly_to_str a in string_times E p bo
           | _ => ret PInvalid
           end
  | _ => ret PInvalid
  end.

(** snek-exec.c 374-470: not two numbers *)
Definition other_op (a : poly) (op : bop) (b : poly) (inplace : bool) : M poly :=
  match op with
  | BIn => in_op a b true
  | BNotIn => in_op a b false
  | BNum Nplus => plus_op a b inplace
  | BNum Ntimes => times_op a b
  | BNum Nmod =>
      match a with
      | PStr _ => let* p := poly_to_str a in string_interpolate E T p b
      | _ => ret PInvalid
      end
  | _ => ret PInvalid
  end.

(** snek-exec.c 312-321 *)
Definition array_op (a b : poly) : M poly :=
  match a with
  | PList _ => let* l := poly_to_list a in list_get E l b true
  | PStr _ => let* p := poly_to_str a in string_get E p b true
  | _ => ret PInvalid
  end.

(** snek-exec.c 260-475: snek_binary.  [a] and [b] are C parameters, read again
    for the report at the end. *)
Definition binary (a : poly) (op : bop) (b : poly) (inplace : bool) : M poly :=
  match op with
  | BCmp c =>
      if is_nan_poly a || is_nan_poly b then ret (bool_to_poly (match c with ONe => true | _ => false end))
      else let* d := cmp a b false in ret (bool_to_poly (cmp_holds c d))
  | BIs => let* d := cmp a b true in ret (bool_to_poly (d =? 0))
  | BIsNot => let* d := cmp a b true in ret (bool_to_poly (negb (d =? 0)))
  | _ =>
      (* 440-441: number * x is x * number *)
      let '(a, b) := match op, a, b with
                     | BNum Ntimes, PNum _, PNum _ => (a, b)
                     | BNum Ntimes, PNum _, _ => (b, a)
                     | _, _, _ => (a, b)
                     end in
      let* ha := hold a in
      let* hb := hold b in
      let* r := match op, a, b with
                | BArray, _, _ => array_op a b
                | _, PNum af, PNum bf => num_op op af bf
                | _, _, _ => other_op a op b inplace
                end in
      if is_invalid r then
        let* a := use ha in
        let* b := use hb in
        error (EType2 a b);; ret PNull
      else ret r
  end.

(** snek-exec.c 616-639: the reference of [lp[ip]], both on the stack *)
Definition elem_ref : M (option eref) :=
  let* ip := pop in
  let* lp := pop in
  match lp with
  | PList _ =>
      let* l := poly_to_list lp in
      let* o := deref_list l in
      if readonly (lo_kind o) then error (EType1 lp);; ret None
      else list_ref E l ip true
  | _ => error (EType1 lp);; ret None
  end.

(** snek-exec.c 588-666 with id == SNEK_ID_NONE: [lp[ip] = a] and
    [lp[ip] op= a]; the result is the new snek_a.  649-650: the two slots are
    taken again as they are now; the reference is then computed anew. *)
Definition assign_elem (a : poly) : M poly :=
  let* r := elem_ref in
  match r with None => ret a | Some r => store r a;; ret a end.
Definition unpop2 : M unit := fun m => Some (tt, set_stack (m_stack m) (m_sp m + 2) m).
Definition augment_elem (op : numop) (a : poly) : M poly :=
  let* r := elem_ref in
  match r with
  | None => ret a
  | Some r =>
      unpop2;;
      let* v := load r in
      let* a := binary v (BNum op) a true in
      assign_elem a
  end.
End WithEnv.
