(** math.fsum: snek-math.c 59-157.  The list of partial sums is an array of
    numbers [parts] whose length is the size of the list object; an index
    outside it is undefined.  [room k] says whether the list can be made to have
    [k] elements.  An element of the argument that is not a number is read as
    the bits of its word (snek.h: snek_poly_to_float), which is a NaN.  That the
    argument is a list is not checked by the code and assumed here. *)
From Coq Require Import ZArith Bool List.
From Verif Require Import Base FloatModel MathModel.
Import ListNotations.
Local Open Scope outcome_scope.

(** 59-67: getf, putf *)
Definition getf (parts : list float) (o : nat) : outcome float :=
  match nth_error parts o with Some f => Ok f | None => UB end.
Fixpoint putf (parts : list float) (o : nat) (v : float) : outcome (list float) :=
  match parts, o with
  | [], _ => UB
  | _ :: r, O => Ok (v :: r)
  | x :: r, S k => let! r := putf r k v in Ok (x :: r)
  end.

Definition f_two : float := f_of_Z 2.

(** 103-118: for (j = 0; j < n; j++); [k] is n - j.  Gives x and i. *)
Fixpoint add_parts (k j i : nat) (x : float) (parts : list float) : outcome (float * nat * list float) :=
  match k with
  | O => Ok (x, i, parts)
  | S k =>
      let! y := getf parts j in
      let '(x, y) := if flt (f_abs x) (f_abs y) then (y, x) else (x, y) in
      let hi := fadd x y in
      let yr := fsub hi x in
      let lo := fsub y yr in
      if negb (feq lo f_zero) then
        let! parts := putf parts i lo in add_parts k (S j) (S i) hi parts
      else add_parts k (S j) i hi parts
  end.

(** 121-127: snek_list_resize (snek-list.c 29-53): the elements are kept.  A new
    one is what memory held, here 0; it is written before it is read. *)
Definition resize (parts : list float) (m : nat) : list float :=
  firstn m parts ++ repeat f_zero (m - length parts).

(** 98-132: one element; [n] partial sums, [m] the size of the list *)
Definition add_one (room : nat -> bool) (x : float) (n m : nat) (parts : list float) : outcome (nat * nat * list float) :=
  let! (r, parts) := add_parts n 0 0 x parts in
  let '(x, n) := r in
  if negb (feq x f_zero) then
    let! (m, parts) := (if Nat.leb m n then if room (n + 1)%nat then Ok ((n + 1)%nat, resize parts (n + 1)) else Err else Ok (m, parts)) in
    let! parts := putf parts n x in
    Ok (S n, m, parts)
  else Ok (n, m, parts).
Fixpoint add_all (room : nat -> bool) (l : list float) (n m : nat) (parts : list float) : outcome (nat * list float) :=
  match l with
  | [] => Ok (n, parts)
  | x :: l => let! (r, parts) := add_one room x n m parts in add_all room l (fst r) (snd r) parts
  end.

(** 137-145: while (n > 0); gives hi, n and lo, which has no value if there was
    no round *)
Fixpoint collapse (n : nat) (hi : float) (lo : option float) (parts : list float) : outcome (float * nat * option float) :=
  match n with
  | O => Ok (hi, O, lo)
  | S n =>
      let x := hi in
      let! y := getf parts n in
      let hi := fadd x y in
      let yr := fsub hi x in
      let lo := fsub y yr in
      if negb (feq lo f_zero) then Ok (hi, n, Some lo) else collapse n hi (Some lo) parts
  end.
(** 134-156 *)
Definition round_parts (n : nat) (parts : list float) : outcome float :=
  match n with
  | O => Ok f_zero
  | S n =>
      let! hi := getf parts n in
      let! (r, lo) := collapse n hi None parts in
      let '(hi, n) := r in
      match n with
      | O => Ok hi
      | S k =>
          match lo with
          | None => UB   (* lo has no value *)
          | Some lo =>
              let! p := getf parts k in
              if (flt lo f_zero && flt p f_zero) || (flt f_zero lo && flt f_zero p) then
                let y := fmul lo f_two in
                let x := fadd hi y in
                let yr := fsub x hi in
                Ok (if feq y yr then x else hi)
              else Ok hi
          end
      end
  end.

(** 76-97: the elements added: for a dictionary, every second one from the first *)
Fixpoint every_other (l : list float) : list float :=
  match l with x :: _ :: r => x :: every_other r | [x] => [x] | [] => [] end.
(** 69-157: [Err] stands for the return of None when memory runs out *)
Definition fsum (room : nat -> bool) (dict : bool) (l : list float) : outcome float :=
  if room 4%nat then
    let! (n, parts) := add_all room (if dict then every_other l else l) 0 4 (repeat f_zero 4) in
    round_parts n parts
  else Err.
