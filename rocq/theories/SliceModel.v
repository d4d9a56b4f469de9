(** Indexing and slicing: the index computations of snek-list.c and
    snek-string.c, and snek_slice of snek-exec.c.  Sequences are given by their
    elements; the objects are in ListModel.v. *)
From Coq Require Import ZArith Bool List.
From Verif Require Import Base FloatModel.
Import ListNotations.
Local Open Scope Z_scope.
Local Open Scope outcome_scope.

(** [w] is the width of snek_offset_t, [ni] the number of bits of C's [int]
    (16 on AVR, 32 elsewhere).  C evaluates snek_soffset_t expressions in
    [int], so signed overflow is judged at [ni] bits. *)

(** snek-list.c 196-203: position of index [so] in a list of [size]
    elements; [None] when the index is rejected *)
Definition list_index (w : width) (ni size so : Z) : outcome (option Z) :=
  let! o := (if so <? 0
             then let! neg := sint ni (- so) in Ok (u_of w (size - u_of w neg))
             else Ok (u_of w so)) in
  if size <=? o then Ok None else Ok (Some o).

(** snek-string.c 40-51: the same for a string of [len] characters *)
Definition string_index (w : width) (ni len so : Z) : outcome (option Z) :=
  let! o := (if so <? 0
             then let! neg := sint ni (- so) in Ok (u_of w (len - neg))
             else Ok (u_of w so)) in
  if len <=? o then Ok None else Ok (Some o).

(** snek-poly.c 160-164: snek_poly_get_soffset on a number: a C conversion of
    a float to snek_soffset_t *)
Definition float_index (w : width) (f : float) : outcome Z := f_to_sint (wbits w) f.

(** snek.h 265-277: snek_slice_t *)
Record slice := { sl_count : Z; sl_pos : Z; sl_stride : Z; sl_identity : bool }.

(** snek-exec.c 477-480 *)
Definition soffset_sgn (s : Z) : Z := Z.sgn s.

(** snek-exec.c 486-560: snek_slice after the operands have been popped.
    [None] is an operand absent from the source text, for which the code uses
    SNEK_SOFFSET_NONE (start, end) or 1 (stride). *)
Definition snek_slice_setup (w : width) (ni len : Z) (start_o end_o stride_o : option Z) : outcome slice :=
  let none := SOFFSET_NONE w in
  let start := match start_o with Some s => s | None => none end in
  let end_ := match end_o with Some e => e | None => none end in
  let stride := match stride_o with Some s => s | None => 1 end in
  if stride =? 0 then Err
  else
    let! start := (if start <? 0 then sint ni (len + start) else Ok start) in
    let! end_ := (if end_ <? 0 then sint ni (len + end_) else Ok end_) in
    let '(start, end_) :=
      if 0 <? stride then
        (if (start =? none) || (start <? 0) then 0 else start,
         if (end_ =? none) || (len <? end_) then len else end_)
      else
        (if (start =? none) || (len <=? start) then len - 1 else start,
         if (end_ =? none) || (end_ <? -1) then -1 else end_) in
    let! t := sint ni (end_ + stride) in
    let! t := sint ni (t - soffset_sgn stride) in
    let! t := sint ni (t - start) in
    let count := s_of w (Z.quot t stride) in
    let count := if count <? 0 then 0 else count in
    Ok {| sl_count := u_of w count; sl_pos := u_of w start; sl_stride := stride;
          sl_identity := (start =? 0) && (count =? len) && (stride =? 1) |}.

(** snek.h 884-895 (snek_slice_test, snek_slice_step) and the copy loops of
    snek-list.c 335-336 and snek-string.c 93-94.  [n] is the loop count
    sl_count, which is checked to be what is left; reading outside the
    sequence is undefined. *)
Fixpoint slice_copy {A} (w : width) (n : nat) (pos stride : Z) (l : list A) : outcome (list A) :=
  match n with
  | O => Ok []
  | S n' =>
      match nth_error l (Z.to_nat pos) with
      | None => UB
      | Some x => let! r := slice_copy w n' (u_of w (pos + stride)) stride l in Ok (x :: r)
      end
  end.

(** snek-exec.c 486-573 on a list, tuple or string with elements [l]
    (dictionaries: see ListModel.v) *)
Definition snek_slice {A} (w : width) (ni : Z) (l : list A) (start_o end_o stride_o : option Z)
  : outcome (list A) :=
  let! s := snek_slice_setup w ni (Z.of_nat (length l)) start_o end_o stride_o in
  if sl_identity s then Ok l       (* snek-string.c 84-85, snek-list.c 323-325 *)
  else slice_copy w (Z.to_nat (sl_count s)) (sl_pos s) (sl_stride s) l.
