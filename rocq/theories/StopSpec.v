(** What is asked of an interrupt: ^C, which sets snek_abort
    (ports/posix/snek-main.c 101-107, chips/atmega/snek-atmega-serial.c 165-172). *)
From Coq Require Import List ZArith.
From Verif Require Import Base FloatModel PolyModel ValueModel MathModel MachModel ListModel StrModel BinModel FrameModel CodeModel ExecModel.
Import ListNotations.

(** the flag is set, whatever is being done *)
Definition interrupted (v : vm) : vm :=
  {| v_s := set_m (set_err true (m_log (s_m (v_s v))) (s_m (v_s v))) (v_s v);
     v_code := v_code v; v_ip := v_ip v; v_links := v_links v |}.

Section Stop.
Variable K : conf.
Variable F : loc -> option (func (list Z)).
(** [n] functions in turn, each at the end of its code, return *)
Inductive unwinds : nat -> vm -> vm -> Prop :=
| unwinds_here v : unwinds 0 v v
| unwinds_return n v v1 v2 : (length (v_code v) <= v_ip v)%nat -> step K F v = Some (Next v1) ->
    length (v_links v1) = pred (length (v_links v)) -> unwinds n v1 v2 -> unwinds (Datatypes.S n) v v2.
End Stop.
