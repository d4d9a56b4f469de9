(** What every part of the interpreter does to the error state and to the
    operand stack. *)
From Coq Require Import ZArith Bool List.
From Verif Require Import Base MachModel FrameModel.
Import ListNotations.

(** Nothing was reported, or one error, which is then pending; nothing at all
    while one is pending. *)
Definition at_most_one (m m' : mach) : Prop :=
  if m_abort m then m_abort m' = true /\ m_log m' = m_log m
  else (m_abort m' = false /\ m_log m' = m_log m) \/
       (m_abort m' = true /\ exists e, m_log m' = e :: m_log m).

(** The stack has its size, and the stack pointer is in it. *)
Definition sane (E : env) (m : mach) : Prop := length (m_stack m) = e_stack E /\ (m_sp m <= e_stack E)%nat.

(** Unless there is an error: the top [n] values of the stack are replaced by
    [n'] values; those below stay. *)
Definition level (n n' : nat) (m m' : mach) : Prop :=
  forall base, m_sp m = (base + n)%nat ->
    m_sp m' = (base + n')%nat /\ firstn base (m_stack m') = firstn base (m_stack m).

Definition tame (E : env) {T A} (pr : T -> mach) (n n' : nat) (x : T -> option (A * T)) : Prop :=
  forall s a s', x s = Some (a, s') ->
    at_most_one (pr s) (pr s') /\ length (m_stack (pr s')) = length (m_stack (pr s)) /\
    (m_abort (pr s') = false -> level n n' (pr s) (pr s') /\ (sane E (pr s) -> sane E (pr s'))).
Definition mtame (E : env) {A} (n n' : nat) (x : M A) : Prop := tame E (fun m => m) n n' x.
Definition stame (E : env) {A} (n n' : nat) (x : S A) : Prop := tame E s_m n n' x.
