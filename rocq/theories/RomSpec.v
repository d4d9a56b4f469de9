(** What is asked of the program store. *)
From Coq Require Import ZArith List Bool.
From Verif Require Import RomModel.
Import ListNotations.
Local Open Scope Z_scope.

(** a program as text: bytes without the two that end it, and without the two
    that mean something to the link to the host *)
Definition text (l : list Z) : Prop := Forall (fun c => 0 <= c < 255 /\ c <> 4 /\ c <> 5 /\ c <> 13) l.

(** what is received of what a host sends: ENQ is part of the link, a carriage
    return ends a line *)
Definition received (l : list Z) : list Z :=
  flat_map (fun c => if c =? 5 then [] else if c =? 13 then [10] else [c]) l.
Definition enquiries (l : list Z) : list Z := flat_map (fun c => if c =? 5 then [6] else []) l.
Definition sendable (l : list Z) : Prop := Forall (fun c => 0 <= c < 255 /\ c <> 4) l.

(** the text in the store: all before the first byte that is 255 *)
Fixpoint stored (l : list Z) : list Z :=
  match l with [] => [] | c :: l' => if c =? 255 then [] else c :: stored l' end.
(** and what follows that byte *)
Fixpoint beyond (l : list Z) : list Z :=
  match l with [] => [] | c :: l' => if c =? 255 then l' else beyond l' end.

(** between STX and ETX when asked for *)
Definition quoted (q : bool) (t : list Z) : list Z := if q then 2 :: t ++ [3] else t.

Definition nexts (l : list boot_step) : nat := length (filter (fun b => match b with Next => true | _ => false end) l).
