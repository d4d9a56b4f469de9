(** What is expected of the buffer: it behaves as the list of bytes of
    [CodeModel]. *)
From Coq Require Import List ZArith Bool.
From Verif Require Import Base FloatModel PolyModel ValueModel MathModel MachModel BinModel CodeModel BufModel.
Import ListNotations.
Local Open Scope Z_scope.
Local Open Scope outcome_scope.
Set Implicit Arguments.

Section Buf.
Variable w : width.
Variable i8 : float -> Z.

(** The same calls on a buffer that can always be extended.  An instruction
    may be removed only while it is there. *)
Definition c_call (c : call) (b : cbuf) : outcome cbuf :=
  match c with
  | AddOp o => Ok (add_op o b)
  | AddOff o v => Ok (add_off w o v b)
  | AddU8 o v => Ok (add_u8 o v b)
  | AddNum f => Ok (add_number i8 f b)
  | AddStr l => Ok (add_string w l b)
  | AddFwd f o => Ok (add_forward_op w f o b)
  | AddRange id n d => Ok (add_in_range w id n d b)
  | AddEnum id d => Ok (add_in_enum w i8 id d b)
  | DelPrev => if Nat.leb (c_prev b) (c_size b) then Ok (delete_prev b) else UB
  | SetPush off => set_push off b
  | PatchBranch br t => patch_branch w br t b
  | PatchForward s e f t => patch_forward w s e f t b
  | ResetCode => Ok (code_reset b)
  end.
Fixpoint c_calls (cs : list call) (b : cbuf) : outcome cbuf :=
  match cs with [] => Ok b | c :: cs' => let! b := c_call c b in c_calls cs' b end.

(** the block holds these bytes, and some space after them *)
Definition holds (b : buf) (c : cbuf) : Prop :=
  (exists rest, b_mem b = c_buf c ++ rest) /\ b_size b = length (c_buf c) /\ b_prev b = c_prev c /\ b_pprev b = c_pprev c.
(** no request for memory will be refused *)
Definition granted (refused : nat -> bool) (b : buf) : Prop := forall n, (b_asked b <= n)%nat -> refused n = false.

(** calls that append, without reaching back *)
Definition appends (c : call) : bool :=
  match c with
  | AddOp _ | AddOff _ _ | AddU8 _ _ | AddNum _ | AddFwd _ _ | AddRange _ _ _ | AddEnum _ _ => true
  | _ => false
  end.
(** from now on no memory is granted *)
Definition exhausted (refused : nat -> bool) (b : buf) : Prop := forall n, (b_asked b <= n)%nat -> refused n = true.
(** the bytes left *)
Definition room (b : buf) : nat := (length (b_mem b) - b_size b)%nat.
(** number of bytes of an instruction with an offset *)
Definition insn_bytes : nat := (1 + obytes w)%nat.
End Buf.
