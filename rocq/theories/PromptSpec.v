(** What is seen of a command at the prompt. *)
From Coq Require Import ZArith Bool List.
From Verif Require Import Base FloatModel PolyModel ValueModel MathModel MachModel BinModel VarSpec FrameModel CompModel ExecModel.
Import ListNotations.
Local Open Scope Z_scope.

(** The name [id] can be stored without the pool being compacted: it is there
    already, or the frame with one more variable is allocated at once. *)
Definition at_hand (E : env) (id : Z) (s : st) : Prop :=
  lookup id (s_globals s) <> None \/
  (let n := Datatypes.S (length (s_globals s)) in
   fits_vars E n /\ sizeof_frame E + Z.of_nat n * sizeof_var E + 3 <= e_pool E /\
   e_move E (m_nalloc (s_m s)) = false /\ e_fail E (m_nalloc (s_m s)) = false).

(** A command that is an expression. *)
Definition value_of_line (line : Z) (e : expr) : stmt := SSeq (SLine line) (SSeq (SExpr e) SSkip).
(** Two of them on a line. *)
Definition values_of_line (line : Z) (a b : expr) : stmt := SSeq (SLine line) (SSeq (SExpr a) (SSeq (SExpr b) SSkip)).

(** A command with an assignment or del in it, or a compound one. *)
Inductive silent : stmt -> Prop :=
| si_assign : forall a t e, silent (SAssign a t e)
| si_del : forall t, silent (SDel t)
| si_if : forall c s r, silent (SIf c s r)
| si_while : forall c s els, silent (SWhile c s els)
| si_range : forall i a s els, silent (SRange i a s els)
| si_for : forall i e s els, silent (SFor i e s els)
| si_first : forall s t, silent s -> silent (SSeq s t)
| si_then : forall s t, silent t -> silent (SSeq s t).
