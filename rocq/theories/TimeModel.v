(** time.sleep and time.monotonic of the ATmega328P: chips/atmega/snek-atmega-time.c,
    with the timer that chips/atmega/snek-328p.c 86-95 sets up.

    The processor runs instruction by instruction; between two instructions the
    timer may count and an interrupt may be served.  A 32-bit variable is read
    byte by byte; the interrupt handler is one step.  Simplifications: other
    interrupts only take time; an overflow is served before the next one, 256
    counts later; the argument is a number; F_CPU is 16000000. *)
From Coq Require Import ZArith List Bool.
From Flocq Require Import IEEE754.Binary.
From Verif Require Import Base FloatModel PinModel.
Import ListNotations.
Local Open Scope Z_scope.
Local Open Scope outcome_scope.

(** what calls snek_ticks: 50-68 itself, 79 and 81 in time.sleep (with the number
    of ticks to wait, and with [then]); then the end, with what snek_ticks gave last *)
Inductive task := Ticks | Begin (n : Z) | Sleeping (end_ : Z) | Done (v : Z).
(** The timer has counted [k_now] times since it started (TCNT2 is the last 8
    bits of it); [k_over] is TOV2; timer_tocks (41); [k_ints] is the interrupt
    flag of the processor, and [k_shadow] is set while the instruction after sei
    has not been run; [k_pc] is the place in snek_ticks, [k_before], [k_after] and
    [k_cnt] its variables (53-54); snek_abort; [k_calls] counts the calls of
    snek_ticks that have returned and is not in the code. *)
Record clock := {
  k_now : Z; k_over : bool; k_tocks : Z; k_ints : bool; k_shadow : bool;
  k_pc : nat; k_before : Z; k_after : Z; k_cnt : Z;
  k_task : task; k_abort : bool; k_calls : nat }.
Definition at_pc p k := {| k_now := k_now k; k_over := k_over k; k_tocks := k_tocks k; k_ints := k_ints k; k_shadow := k_shadow k; k_pc := p; k_before := k_before k; k_after := k_after k; k_cnt := k_cnt k; k_task := k_task k; k_abort := k_abort k; k_calls := k_calls k |}.
Definition ints b sh k := {| k_now := k_now k; k_over := k_over k; k_tocks := k_tocks k; k_ints := b; k_shadow := sh; k_pc := k_pc k; k_before := k_before k; k_after := k_after k; k_cnt := k_cnt k; k_task := k_task k; k_abort := k_abort k; k_calls := k_calls k |}.
Definition set_before x k := {| k_now := k_now k; k_over := k_over k; k_tocks := k_tocks k; k_ints := k_ints k; k_shadow := k_shadow k; k_pc := k_pc k; k_before := x; k_after := k_after k; k_cnt := k_cnt k; k_task := k_task k; k_abort := k_abort k; k_calls := k_calls k |}.
Definition set_after x k := {| k_now := k_now k; k_over := k_over k; k_tocks := k_tocks k; k_ints := k_ints k; k_shadow := k_shadow k; k_pc := k_pc k; k_before := k_before k; k_after := x; k_cnt := k_cnt k; k_task := k_task k; k_abort := k_abort k; k_calls := k_calls k |}.
Definition set_cnt x k := {| k_now := k_now k; k_over := k_over k; k_tocks := k_tocks k; k_ints := k_ints k; k_shadow := k_shadow k; k_pc := k_pc k; k_before := k_before k; k_after := k_after k; k_cnt := x; k_task := k_task k; k_abort := k_abort k; k_calls := k_calls k |}.
Definition set_task x k := {| k_now := k_now k; k_over := k_over k; k_tocks := k_tocks k; k_ints := k_ints k; k_shadow := k_shadow k; k_pc := k_pc k; k_before := k_before k; k_after := k_after k; k_cnt := k_cnt k; k_task := x; k_abort := k_abort k; k_calls := S (k_calls k) |}.

(** byte [i] of [x] put in byte [i] of [y] *)
Definition byte (i x : Z) : Z := x / 256 ^ i mod 256.
Definition put_byte (i x y : Z) : Z := y + (byte i x - byte i y) * 256 ^ i.

(** 79-82: what time.sleep does with what snek_ticks returns *)
Definition returned (v : Z) (k : clock) : clock :=
  set_task match k_task k with
           | Ticks => Done v
           | Begin n => Sleeping (wrapu 32 (v + n))
           | Sleeping e => if negb (k_abort k) && (0 <? wraps 32 (e - v)) then Sleeping e else Done v
           | Done v => Done v
           end k.
(** 49-68: an instruction of snek_ticks: 0 cli (60), 1-4 read timer_tocks (61),
    5 sei (62), 6 read the counter (63), 7 cli (64), 8-11 read timer_tocks (65),
    12 sei (66), 13 the end of the loop and return (67-68) *)
Definition execute (k : clock) : option clock :=
  let k' := ints (k_ints k) false (at_pc (S (k_pc k)) k) in
  match k_pc k with
  | 0%nat | 7%nat => Some (ints false false k')
  | 1%nat => Some (set_before (put_byte 0 (k_tocks k) (k_before k)) k')
  | 2%nat => Some (set_before (put_byte 1 (k_tocks k) (k_before k)) k')
  | 3%nat => Some (set_before (put_byte 2 (k_tocks k) (k_before k)) k')
  | 4%nat => Some (set_before (put_byte 3 (k_tocks k) (k_before k)) k')
  | 5%nat | 12%nat => Some (ints true true k')
  | 6%nat => Some (set_cnt (k_now k mod 256) k')
  | 8%nat => Some (set_after (put_byte 0 (k_tocks k) (k_after k)) k')
  | 9%nat => Some (set_after (put_byte 1 (k_tocks k) (k_after k)) k')
  | 10%nat => Some (set_after (put_byte 2 (k_tocks k) (k_after k)) k')
  | 11%nat => Some (set_after (put_byte 3 (k_tocks k) (k_after k)) k')
  | 13%nat =>
      let k' := at_pc 0 k' in
      if k_before k =? k_after k
      then Some (returned (Z.lor (wrapu 32 (Z.shiftl (k_before k) 8)) (k_cnt k)) k')
      else Some k'
  | _ => None
  end.
Definition instruction (k : clock) : option clock := match k_task k with Done _ => None | _ => execute k end.

(** What happens: the timer counts, its interrupt is served (43-47), the program
    does an instruction, or snek_abort is set by another interrupt.  A pending
    interrupt is served before the next instruction, but not between sei and the
    instruction after it. *)
Inductive event := Count | Serve | Run | Stop.
Definition may_serve (k : clock) : bool := k_over k && k_ints k && negb (k_shadow k).
Definition happen (e : event) (k : clock) : option clock :=
  match e with
  | Count =>
      let o := (k_now k + 1) mod 256 =? 0 in
      if o && k_over k then None
      else Some {| k_now := k_now k + 1; k_over := k_over k || o; k_tocks := k_tocks k; k_ints := k_ints k; k_shadow := k_shadow k; k_pc := k_pc k; k_before := k_before k; k_after := k_after k; k_cnt := k_cnt k; k_task := k_task k; k_abort := k_abort k; k_calls := k_calls k |}
  | Serve =>
      if may_serve k
      then Some {| k_now := k_now k; k_over := false; k_tocks := wrapu 32 (k_tocks k + 1); k_ints := k_ints k; k_shadow := k_shadow k; k_pc := k_pc k; k_before := k_before k; k_after := k_after k; k_cnt := k_cnt k; k_task := k_task k; k_abort := k_abort k; k_calls := k_calls k |}
      else None
  | Run => if may_serve k then None else instruction k
  | Stop => Some {| k_now := k_now k; k_over := k_over k; k_tocks := k_tocks k; k_ints := k_ints k; k_shadow := k_shadow k; k_pc := k_pc k; k_before := k_before k; k_after := k_after k; k_cnt := k_cnt k; k_task := k_task k; k_abort := true; k_calls := k_calls k |}
  end.
Fixpoint events (l : list event) (k : clock) : option clock :=
  match l with [] => Some k | e :: l => match happen e k with Some k => events l k | None => None end end.

(** the timer at the start (86-95 of snek-328p.c; timer_tocks, 41) *)
Definition clock_start : clock :=
  {| k_now := 0; k_over := false; k_tocks := 0; k_ints := true; k_shadow := false; k_pc := 0; k_before := 0; k_after := 0; k_cnt := 0; k_task := Done 0; k_abort := false; k_calls := 0 |}.
(** calling one of the functions; the variables of snek_ticks hold anything *)
Definition call (t : task) (b a c : Z) (k : clock) : clock :=
  {| k_now := k_now k; k_over := k_over k; k_tocks := k_tocks k; k_ints := k_ints k; k_shadow := k_shadow k; k_pc := 0; k_before := b; k_after := a; k_cnt := c; k_task := t; k_abort := k_abort k; k_calls := 0 |}.

(** 70-74: snek_sec_to_ticks; TICKS_PER_SECOND (38) *)
Definition ticks_per_second : float := fdiv (f_of_Z 16000000) (f_of_Z 64).
Definition sec_to_ticks (f : float) : outcome Z := f_to_uint 32 (fadd (fmul f ticks_per_second) (fdiv f_one (f_of_Z 2))).
(** 76-84: time.sleep; [Ok] the task it is *)
Definition time_sleep (f : float) : outcome task := let! n := sec_to_ticks f in Ok (Begin n).
(** 86-90: time.monotonic, from what snek_ticks returns; SECONDS_PER_TICK (39) *)
Definition monotonic (v : Z) : float := fmul (f_of_Z v) (fdiv (f_of_Z 64) (f_of_Z 16000000)).
