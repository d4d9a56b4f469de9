(** What is expected of the serial line. *)
From Coq Require Import ZArith List Bool.
From Verif Require Import Base UartModel.
Import ListNotations.
Local Open Scope Z_scope.

(** [c] is made of the members of [a] and of [b], each in their order *)
Inductive woven : list Z -> list Z -> list Z -> Prop :=
| woven_nil : woven [] [] []
| woven_left : forall x a b c, woven a b c -> woven (x :: a) b (x :: c)
| woven_right : forall x a b c, woven a b c -> woven a (x :: b) (x :: c).

(** the characters a program sends, and those that arrive, in order *)
Definition puts (l : list act) : list Z := flat_map (fun a => match a with Put c => [c] | Get => [] end) l.
Definition arrivals (es : list event) : list Z := flat_map (fun e => match e with Rx c => [c] | _ => [] end) es.
Definition takes (l : list act) : nat := length (filter (fun a => match a with Get => true | _ => false end) l).

(** ^Q and ^S in turn, [n] in all *)
Fixpoint flows_ (q : bool) (n : nat) : list Z :=
  match n with O => [] | S n' => (if q then 17 else 19) :: flows_ (negb q) n' end.
Definition flows : nat -> list Z := flows_ true.

(** what is in a ring, oldest first *)
Definition queue (k : Z) (r : ring) : list Z :=
  map (fun i => nth (Z.to_nat ((r_read r + Z.of_nat i) mod 2 ^ k)) (r_buf r) 0) (seq 0 (Z.to_nat (r_count r))).
(** what has left the program's memory: on the line or in the data register *)
Definition gone (s : uart) : list Z := u_wire s ++ match u_reg s with Some c => [c] | None => [] end.

(** characters that are not commands to the driver *)
Definition plain (c : Z) : bool := negb (c =? 3) && negb (c =? 17) && negb (c =? 19) && negb (c =? 20).

(** has the host asked for silence?  Of ^S and ^Q the last one arrived was ^S. *)
Definition paused (l : list Z) : bool :=
  fold_left (fun b c => if c =? 19 then true else if c =? 17 then false else b) l false.

(** the hardware runs on, with nothing else happening *)
Fixpoint ticks (n : nat) : list event := match n with O => [] | S n' => Shift :: Udre :: ticks n' end.

(** * A sender that obeys ^S *)
(** May it send?  The last of ^Q and ^S seen was ^Q. *)
Definition told (wire : list Z) : bool :=
  fold_left (fun b c => if c =? 17 then true else if c =? 19 then false else b) wire false.

(** The two directions of the line have the same speed: between two characters
    arriving, one can leave. *)
Inductive moment := Prog | Due | Arrive (c : Z) | Tick.
Definition events (m : moment) : list event :=
  match m with Prog => [Main] | Due => [Udre] | Arrive c => [Rx c] | Tick => [Shift; Udre] end.

(** It sends at most [lag] plain characters after it has been told to stop
    (or before it is first told to start).  [busy]: one has arrived since the
    last tick; [used]: how many came since it was told to stop. *)
Fixpoint obeys (k : Z) (lag : nat) (busy : bool) (used : nat) (ms : list moment) (x : world) : Prop :=
  match ms with
  | [] => True
  | m :: ms' =>
      forall x', run k (events m) x = Ok x' ->
      match m with
      | Arrive c =>
          plain c = true /\ busy = false /\ (told (u_wire (w_uart x)) = true \/ (used < lag)%nat) /\
          obeys k lag true (if told (u_wire (w_uart x)) then used else S used) ms' x'
      | Tick => obeys k lag false (if told (u_wire (w_uart x')) then O else if told (u_wire (w_uart x)) then O else used) ms' x'
      | _ => obeys k lag busy used ms' x'
      end
  end.

(** nothing is going out, and the host has not asked for silence *)
Definition quiet (s : uart) : Prop := u_reg s = None /\ u_dre s = false /\ u_txflow s = false.
