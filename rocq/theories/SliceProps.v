(** C05-C07: indexing and slicing.  See SliceSpec.v for the Python rule.
    [w] is the width of offsets, [ni] that of C's int. *)
From Coq Require Import ZArith Bool List.
From Verif Require Import Base FloatModel SliceModel SliceSpec SliceProofs.
Import ListNotations.
Local Open Scope Z_scope.

(** C05.  The element found is the one the Python rule names, and the index is
    rejected exactly when the rule has no element; for lists and tuples ... *)
Theorem C05_list_index : forall A w ni (l : list A) i,
  wbits w <= ni -> Z.of_nat (length l) < 2 ^ wbits w ->
  - 2 ^ (wbits w - 1) < i < 2 ^ (wbits w - 1) ->
  exists r, list_index w ni (Z.of_nat (length l)) i = Ok r /\
    match r with Some o => nth_error l (Z.to_nat o) | None => None end = py_index l i /\
    (r = None <-> py_index l i = None).
Proof. exact @list_index_py. Qed.
Print Assumptions C05_list_index.

(** ... and for strings. *)
Theorem C05_string_index : forall w ni (s : list Z) i,
  wbits w <= ni -> Z.of_nat (length s) < 2 ^ wbits w ->
  - 2 ^ (wbits w - 1) < i < 2 ^ (wbits w - 1) ->
  exists r, string_index w ni (Z.of_nat (length s)) i = Ok r /\
    match r with Some o => nth_error s (Z.to_nat o) | None => None end = py_index s i /\
    (r = None <-> py_index s i = None).
Proof.
  intros w ni s i Hw Hl Hi. rewrite <- string_index_list; [exact (list_index_py w ni s i Hw Hl Hi)|].
  split; [apply Nat2Z.is_nonneg|exact Hl].
Qed.
Print Assumptions C05_string_index.

(** An index outside the integer type is not rejected: the C conversion, or
    the negation of the smallest integer, is undefined.  0x501502f9 is 1e10. *)
Theorem C05_index_refuted :
  (exists f, f_is_finite f = true /\ float_index W32 f = UB) /\
  (exists f i, float_index W32 f = Ok i /\ list_index W32 32 3 i = UB).
Proof.
  split.
  - exists (f_of_bits 0x501502f9). vm_compute. split; reflexivity.
  - exists (f_of_bits 0xcf000000), (-2147483648). vm_compute. split; reflexivity.
Qed.
Print Assumptions C05_index_refuted.

Example C05_applies : list_index W16 16 3 (-1) = Ok (Some 2) /\ py_index [10; 20; 30] (-1) = Some 30 /\
  list_index W16 16 3 (-4) = Ok None /\ float_index W16 (f_of_bits 0xbf800000) = Ok (-1).
Proof. vm_compute. repeat split. Qed.

(** C06.  Whenever the operation is defined its result is Python's. *)
Theorem C06_slice_is_python : forall A w ni (l r : list A) start_o end_o stride_o,
  Z.of_nat (length l) <= SOFFSET_NONE w ->
  opt_ok w start_o -> opt_ok w end_o -> opt_ok w stride_o ->
  start_o <> Some (SOFFSET_NONE w) -> end_o <> Some (SOFFSET_NONE w) ->
  snek_slice w ni l start_o end_o stride_o = Ok r ->
  stride_of stride_o <> 0 /\ py_slice l start_o end_o (stride_of stride_o) r.
Proof. exact @slice_py. Qed.
Print Assumptions C06_slice_is_python.

(** It is defined when the operands are not close to the limits of the integer
    type; a zero stride is an error. *)
Theorem C06_slice_defined : forall A w ni (l : list A) start_o end_o stride_o,
  wbits w <= ni -> Z.of_nat (length l) <= 2 ^ (ni - 3) -> Z.of_nat (length l) <= SOFFSET_NONE w ->
  small w start_o -> small w end_o -> small w stride_o -> stride_of stride_o <> 0 ->
  exists r, snek_slice w ni l start_o end_o stride_o = Ok r.
Proof. exact @slice_total. Qed.
Print Assumptions C06_slice_defined.

Theorem C06_zero_stride : forall A w ni (l : list A) start_o end_o,
  snek_slice w ni l start_o end_o (Some 0) = Err.
Proof. reflexivity. Qed.
Print Assumptions C06_zero_stride.

Example C06_applies :
  snek_slice W16 16 [1; 2; 3; 4; 5] (Some (-1)) None (Some (-2)) = Ok [5; 3; 1] /\
  snek_slice W32 32 [1; 2; 3; 4; 5] (Some 1) (Some 100) None = Ok [2; 3; 4; 5] /\
  opt_ok W16 (Some (-1)) /\ small W32 (Some 100).
Proof. vm_compute. repeat split; discriminate. Qed.

(** C07 is false: with operands near the limits the count overflows (here
    x[::2147483520] on a sequence of 200), on 16-bit offsets an explicit bound
    can be taken for an omitted one, and (16-bit offsets, 32-bit int)
    x[32767:-32768] reads outside the sequence. *)
Theorem C07_slice_overflow_refuted :
  (exists n, snek_slice_setup W32 32 n None None (Some 2147483520) = UB /\ 0 <= n <= 200) /\
  (snek_slice W16 32 [1; 2; 3] (Some 32764) None None = Ok [1; 2; 3] /\ py_slice [1; 2; 3] (Some 32764) None 1 []) /\
  (exists s, snek_slice_setup W16 32 3 (Some 32767) (Some (-32768)) None = Ok s /\ sl_count s = 4 /\ sl_pos s = 32767 /\
             py_slice [1; 2; 3] (Some 32767) (Some (-32768)) 1 []).
Proof.
  split; [exact slice_overflow|]. split; [split; [reflexivity|]|eexists; split; [reflexivity|split; [reflexivity|split; [reflexivity|]]]].
  - split; [intros [|k] x H; discriminate|vm_compute; discriminate].
  - split; [intros [|k] x H; discriminate|vm_compute; discriminate].
Qed.
Print Assumptions C07_slice_overflow_refuted.

(** It holds in the range of C06_slice_defined: in particular, with 32-bit
    offsets, for all operands up to 2^29 in absolute value. *)
Theorem C07_no_overflow_partial : forall A (l : list A) start_o end_o stride_o,
  Z.of_nat (length l) <= 2 ^ 29 -> small W32 start_o -> small W32 end_o -> small W32 stride_o ->
  stride_of stride_o <> 0 -> exists r, snek_slice W32 32 l start_o end_o stride_o = Ok r.
Proof.
  intros A l s e st Hl Hs He Ht Hz. apply (slice_total W32 32 l s e st); try assumption; try discriminate.
  eapply Z.le_trans; [exact Hl|]. discriminate.
Qed.
Print Assumptions C07_no_overflow_partial.
Example C07_applies : small W32 (Some 536870912) /\ small W32 (Some (-536870912)).
Proof. split; vm_compute; discriminate. Qed.
