(** Words for the claims about time. *)
From Coq Require Import ZArith Reals List Bool.
From Verif Require Import Base TimeModel.
Import ListNotations.
Local Open Scope Z_scope.

Definition word (x : Z) : Prop := 0 <= x < 2 ^ 32.
Definition ended (k : clock) : Prop := exists v, k_task k = Done v.
(** the states the clock can be in: from the start, whatever happens and
    whatever is called when nothing is running *)
Inductive reach : clock -> Prop :=
| reach_start : reach clock_start
| reach_event e k k' : reach k -> happen e k = Some k' -> reach k'
| reach_call t b a c k : reach k -> ended k -> word b -> word a -> 0 <= c < 256 -> (forall v, t <> Done v) ->
    reach (call t b a c k).
(** counts of the timer from one state to another; there are 250000 in a second *)
Definition elapsed (k k' : clock) : Z := k_now k' - k_now k.
Definition seconds (z : Z) : R := (IZR z / 250000)%R.
Definition runs (l : list event) : nat := length (filter (fun e => match e with Run => true | _ => false end) l).
(** a call of snek_ticks, or of time.sleep with a number of ticks, in the state
    [k], during which [l] happens and after which the state is [k'] *)
Definition ticks_call (k : clock) (l : list event) (k' : clock) (v : Z) : Prop :=
  reach k /\ ended k /\ exists b a c, word b /\ word a /\ 0 <= c < 256 /\ events l (call Ticks b a c k) = Some k' /\ k_task k' = Done v.
Definition sleep_call (n : Z) (k : clock) (l : list event) (k' : clock) : Prop :=
  reach k /\ ended k /\ exists b a c, word b /\ word a /\ 0 <= c < 256 /\ events l (call (Begin n) b a c k) = Some k'.
