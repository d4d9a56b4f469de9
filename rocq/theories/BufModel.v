(** The buffer in which the compiler collects its bytes, with the space it has
    (snek-code.c 22-189, 271-280, snek.h 436-486, 1064-1091).  [CodeModel] has a
    buffer that can always be extended; here every extension asks for memory
    and may be refused. *)
From Coq Require Import List ZArith Bool Lia.
From Verif Require Import Base FloatModel PolyModel ValueModel MathModel MachModel BinModel CodeModel.
Import ListNotations.
Local Open Scope Z_scope.
Local Open Scope outcome_scope.
Set Implicit Arguments.

(** snek-code.c 26-30.  [b_mem]: the block at snek_compile, compile_alloc bytes
    long (NULL has none); [b_asked]: how often memory has been asked for. *)
Record buf := { b_mem : list Z; b_size : nat; b_prev : nat; b_pprev : nat; b_asked : nat }.
Definition b_alloc (b : buf) : nat := length (b_mem b).
Definition set_mem (m : list Z) (b : buf) : buf :=
  {| b_mem := m; b_size := b_size b; b_prev := b_prev b; b_pprev := b_pprev b; b_asked := b_asked b |}.
(** as the C program starts *)
Definition b_init : buf := {| b_mem := []; b_size := 0; b_prev := 0; b_pprev := 0; b_asked := 0 |}.

(** What the parser can ask for. *)
Inductive call :=
| AddOp (o : op)
| AddOff (o : op) (v : Z)
| AddU8 (o : op) (v : Z)
| AddNum (f : float)
| AddStr (l : nat)
| AddFwd (f : fwd) (o : Z)
| AddRange (id nactual depth : Z)
| AddEnum (id depth : Z)
| DelPrev
| SetPush (off : nat)
| PatchBranch (branch : nat) (target : Z)
| PatchForward (start stop : nat) (f : fwd) (target : Z)
| ResetCode.

Section Buf.
Variable w : width.
Variable i8 : float -> Z.
(** is the nth request for memory refused? *)
Variable refused : nat -> bool.

(** snek-code.c 32 *)
Definition COMPILE_INC : nat := 32.

(** snek-code.c 97-111: compile_extend.  snek_alloc clears what it returns
    (snek-memory.c 728).  Simplified: the offsets do not wrap (a block of 2^16
    bytes is never granted), and the strings named in the bytes stay where
    they are. *)
Definition b_extend (bs : list Z) (b : buf) : outcome buf :=
  let put (m : list Z) (n : nat) :=
    let! m := put_at (b_size b) bs m in
    Ok {| b_mem := m; b_size := b_size b + length bs; b_prev := b_prev b; b_pprev := b_pprev b; b_asked := n |} in
  if Nat.ltb (b_alloc b) (b_size b + length bs) then
    if refused (b_asked b)
    then Ok {| b_mem := b_mem b; b_size := b_size b; b_prev := b_prev b; b_pprev := b_pprev b; b_asked := S (b_asked b) |}
    else
      match MachModel.take (b_size b) (b_mem b) with
      | None => UB
      | Some old =>
          let! m := put_at 0 old (repeat 0 (b_alloc b + COMPILE_INC)) in
          put m (S (b_asked b))
      end
  else put (b_mem b) (b_asked b).

(** snek-code.c 119-124: snek_code_delete_prev *)
Definition b_delete_prev (b : buf) : buf :=
  {| b_mem := b_mem b; b_size := b_prev b; b_prev := b_pprev b; b_pprev := b_pprev b; b_asked := b_asked b |}.
(** snek-code.c 129-135: snek_code_add_op *)
Definition b_add_op (o : op) (b : buf) : outcome buf :=
  b_extend [op_code o]
    {| b_mem := b_mem b; b_size := b_size b; b_prev := b_size b; b_pprev := b_prev b; b_asked := b_asked b |}.
(** snek-code.c 141-146: snek_code_add_op_offset; snek.h 436-440 *)
Definition b_add_off (o : op) (v : Z) (b : buf) : outcome buf :=
  let! b := b_add_op o b in b_extend (le_bytes (obytes w) v) b.
(** snek-code.c 152-157: snek_code_add_op_uint8; snek.h 466-470 *)
Definition b_add_u8 (o : op) (v : Z) (b : buf) : outcome buf :=
  let! b := b_add_op o b in b_extend [v mod 256] b.
(** snek-code.c 165-175: snek_code_add_number *)
Definition b_add_number (f : float) (b : buf) : outcome buf :=
  let i := i8 f in
  if feq (f_of_Z i) f then b_add_u8 KInt (i mod 256) b
  else let! b := b_add_op KNum b in b_extend (le_bytes 4 (bits_of_f f)) b.
(** snek-code.c 180-189: snek_code_add_string.  The operand is put in place
    after the instruction has been added: at snek_compile_prev + 1, whether or
    not it has been.  Simplified: the stack has room for the string. *)
Definition b_add_string (l : nat) (b : buf) : outcome buf :=
  let! b := b_add_off KString 0 b in
  let! m := put_at (b_prev b + 1) (le_bytes (obytes w) (Z.of_nat l)) (b_mem b) in
  Ok (set_mem m b).
(** snek.h 442-450: snek_code_add_forward_op *)
Definition b_add_forward (f : fwd) (o : Z) (b : buf) : outcome buf :=
  b_add_off KForward (fwd_code f + 256 * o) b.
(** an instruction with an offset, a depth and a name (snek-code.c 198-200,
    203-205, 232-234) *)
Definition b_add_step (o : op) (v depth id : Z) (b : buf) : outcome buf :=
  let! b := b_add_off o v b in
  let! b := b_extend [depth mod 256] b in
  b_extend (le_bytes (obytes w) id) b.
(** snek-code.c 195-206: snek_code_add_in_range *)
Definition b_add_in_range (id nactual depth : Z) (b : buf) : outcome buf :=
  let! b := b_add_step KRangeStart (nactual mod 256) depth id b in
  b_add_step KRangeStep 0 depth id b.
(** snek-code.c 212-235: snek_code_add_in_enum *)
Definition b_add_in_enum (id depth : Z) (b : buf) : outcome buf :=
  let! b := b_add_off KAssign (for_tmp w depth 0) b in
  let! b := b_add_number f_zero b in
  let! b := b_add_off KAssign (for_tmp w depth 1) b in
  b_add_step KInStep 0 depth id b.
(** snek.h 1087-1091: snek_code_set_push *)
Definition b_set_push (off : nat) (b : buf) : outcome buf :=
  match nth_error (b_mem b) off with
  | None => UB
  | Some x => Ok (set_mem (upd off (byte_op x + 128) (b_mem b)) b)
  end.
(** snek.h 482-486: snek_code_patch_branch *)
Definition b_patch_branch (branch : nat) (target : Z) (b : buf) : outcome buf :=
  let! m := put_at (branch + 1) (le_bytes (obytes w) target) (b_mem b) in
  Ok (set_mem m b).
(** snek-code.c 246-269: snek_code_patch_forward; the loop is that of
    [CodeModel], on the whole block *)
Definition b_patch_forward (start stop : nat) (f : fwd) (target : Z) (b : buf) : outcome buf :=
  let! m := patch_loop_ w (S stop) start stop f target (b_mem b) in
  Ok (set_mem m b).
(** snek-code.c 274-280: snek_code_reset *)
Definition b_reset (b : buf) : buf :=
  {| b_mem := []; b_size := 0; b_prev := b_prev b; b_pprev := b_pprev b; b_asked := b_asked b |}.

Definition b_call (c : call) (b : buf) : outcome buf :=
  match c with
  | AddOp o => b_add_op o b
  | AddOff o v => b_add_off o v b
  | AddU8 o v => b_add_u8 o v b
  | AddNum f => b_add_number f b
  | AddStr l => b_add_string l b
  | AddFwd f o => b_add_forward f o b
  | AddRange id n d => b_add_in_range id n d b
  | AddEnum id d => b_add_in_enum id d b
  | DelPrev => Ok (b_delete_prev b)
  | SetPush off => b_set_push off b
  | PatchBranch br t => b_patch_branch br t b
  | PatchForward s e f t => b_patch_forward s e f t b
  | ResetCode => Ok (b_reset b)
  end.
Fixpoint b_calls (cs : list call) (b : buf) : outcome buf :=
  match cs with [] => Ok b | c :: cs' => let! b := b_call c b in b_calls cs' b end.
(** snek-code.c 285-301: snek_code_finish copies the first snek_compile_size
    bytes of the block *)
Definition b_code (b : buf) : option (list Z) := MachModel.take (b_size b) (b_mem b).
End Buf.
