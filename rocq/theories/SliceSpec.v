(** What indexing and slicing mean (the rule of the Python reference). *)
From Coq Require Import ZArith Bool List.
From Verif Require Import Base.
Import ListNotations.
Local Open Scope Z_scope.

(** Element selected by index [i] in a sequence [l]. *)
Definition py_index {A} (l : list A) (i : Z) : option A :=
  let n := Z.of_nat (length l) in
  if (0 <=? i) && (i <? n) then nth_error l (Z.to_nat i)
  else if (- n <=? i) && (i <? 0) then nth_error l (Z.to_nat (n + i))
  else None.

(** Its position. *)
Definition py_pos (n : nat) (i : Z) : option nat :=
  if (0 <=? i) && (i <? Z.of_nat n) then Some (Z.to_nat i)
  else if (- Z.of_nat n <=? i) && (i <? 0) then Some (Z.to_nat (Z.of_nat n + i))
  else None.

(** Bounds of a slice after Python's adjustment: a given bound counts from the
    end when negative and is clipped; an omitted one is the far end. *)
Definition clip (lo hi x : Z) : Z := Z.max lo (Z.min hi x).
Definition from_end (n x : Z) : Z := if x <? 0 then n + x else x.
Definition py_start (n stride : Z) (s : option Z) : Z :=
  match s with
  | None => if 0 <? stride then 0 else n - 1
  | Some s => if 0 <? stride then clip 0 n (from_end n s) else clip (-1) (n - 1) (from_end n s)
  end.
Definition py_end (n stride : Z) (e : option Z) : Z :=
  match e with
  | None => if 0 <? stride then n else -1
  | Some e => if 0 <? stride then clip 0 n (from_end n e) else clip (-1) (n - 1) (from_end n e)
  end.

(** [p] comes before the bound [e] in the direction of the stride. *)
Definition before (stride p e : Z) : Prop := if 0 <? stride then p < e else e < p.

(** [r] consists of the elements of [l] at start, start+stride, ... as long as
    these are before the end, and stops there. *)
Definition py_slice {A} (l : list A) (start_o end_o : option Z) (stride : Z) (r : list A) : Prop :=
  let n := Z.of_nat (length l) in
  let s := py_start n stride start_o in
  let e := py_end n stride end_o in
  (forall k x, nth_error r k = Some x ->
     let p := s + Z.of_nat k * stride in
     0 <= p < n /\ before stride p e /\ nth_error l (Z.to_nat p) = Some x) /\
  ~ before stride (s + Z.of_nat (length r) * stride) e.

(** A given operand fits the integer type / is far from its limits; an omitted
    stride is 1. *)
Definition opt_ok (w : width) (o : option Z) : Prop :=
  match o with Some x => in_soffset w x = true | None => True end.
Definition stride_of (o : option Z) : Z := match o with Some x => x | None => 1 end.
Definition small (w : width) (o : option Z) : Prop :=
  match o with Some x => Z.abs x <= 2 ^ (wbits w - 3) | None => True end.
