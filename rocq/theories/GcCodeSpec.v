(** Compiled code in the heap, and the strings it mentions. *)
From Coq Require Import ZArith Bool List.
From Verif Require Import Base FloatModel PolyModel ValueModel MathModel MachModel BinModel CodeModel CompModel FrameModel ExecModel LayoutSpec GcModel GcSpec GcHeapSpec.
Import ListNotations.
Local Open Scope Z_scope.

Fixpoint lies (m : mem) (a : Z) (bs : list Z) : Prop :=
  match bs with [] => True | b :: bs => m a = b /\ lies m (a + 1) bs end.

Section Spec.
Variable w : width.
Variables POOL calloc csize : Z.
Variable NCHUNK : nat.

(** the code object at [o] holds these instructions *)
Definition holds (m : mem) (o : Z) (l : list instr) : Prop :=
  get (obytes w) m o = Z.of_nat (size w l) /\ lies m (o + Z.of_nat (obytes w)) (encs w l).
(** an instruction has the operand its opcode takes, according to the table *)
Definition sized (i : instr) : Prop :=
  length (arg_bytes w (i_arg i)) = operand_size w (op_code (i_op i)) /\
  (i_op i = KString -> exists v, i_arg i = AOff v /\ 0 <= v < 2 ^ wbits w).
(** the text of a string *)
Definition text (m : mem) (a : Z) : option (list Z) :=
  match strlen POOL m a with
  | Some n => Some (map (fun i => m (a + Z.of_nat i)) (seq 0 (Z.to_nat n)))
  | None => None
  end.
(** an instruction with the text of its string in place of the address *)
Definition spelled (m : mem) (i : instr) : op * bool * (arg + option (list Z)) :=
  (i_op i, i_push i,
   match i_op i, i_arg i with
   | KString, AOff v => inr (if v =? OFFSET_NONE w then None else text m v)
   | _, a => inl a
   end).

(** any number of collections and allocations *)
Inductive later : roots -> gc -> roots -> gc -> Prop :=
| later_now : forall R g, later R g R g
| later_collect : forall full n R g R1 g1 R2 g2, collect w POOL NCHUNK calloc csize full R g = Some (n, R1, g1) ->
    later R1 g1 R2 g2 -> later R g R2 g2
| later_alloc : forall size r R g R1 g1 R2 g2, 0 <= size -> size + 3 < 2 ^ wbits w ->
    alloc w POOL NCHUNK calloc csize size R g = Some (r, R1, g1) -> later R1 g1 R2 g2 -> later R g R2 g2.
End Spec.
