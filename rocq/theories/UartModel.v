(** The serial line of the ATmega boards: chips/atmega/snek-atmega-serial.c
    29-224, with the interrupts that share its variables. *)
From Coq Require Import ZArith List Bool.
From Verif Require Import Base.
Import ListNotations.
Local Open Scope Z_scope.
Local Open Scope outcome_scope.

(** 29-33: uart_ring *)
Record ring := { r_read : Z; r_count : Z; r_buf : list Z }.

(** 35-37: the variables, with snek_abort; [u_dre]: the interrupt for an empty
    data register is enabled; [u_reg]: what is in the data register, and
    [u_wire]: what went out on the line, in order. *)
Record uart := {
  u_rx : ring; u_tx : ring; u_rxflow : Z; u_txflow : bool; u_abort : bool;
  u_dre : bool; u_reg : option Z; u_wire : list Z }.

Definition with_rx v s := {| u_rx := v; u_tx := u_tx s; u_rxflow := u_rxflow s; u_txflow := u_txflow s; u_abort := u_abort s; u_dre := u_dre s; u_reg := u_reg s; u_wire := u_wire s |}.
Definition with_tx v s := {| u_rx := u_rx s; u_tx := v; u_rxflow := u_rxflow s; u_txflow := u_txflow s; u_abort := u_abort s; u_dre := u_dre s; u_reg := u_reg s; u_wire := u_wire s |}.
Definition with_rxflow v s := {| u_rx := u_rx s; u_tx := u_tx s; u_rxflow := v; u_txflow := u_txflow s; u_abort := u_abort s; u_dre := u_dre s; u_reg := u_reg s; u_wire := u_wire s |}.
Definition with_txflow v s := {| u_rx := u_rx s; u_tx := u_tx s; u_rxflow := u_rxflow s; u_txflow := v; u_abort := u_abort s; u_dre := u_dre s; u_reg := u_reg s; u_wire := u_wire s |}.
Definition with_abort v s := {| u_rx := u_rx s; u_tx := u_tx s; u_rxflow := u_rxflow s; u_txflow := u_txflow s; u_abort := v; u_dre := u_dre s; u_reg := u_reg s; u_wire := u_wire s |}.
Definition with_dre v s := {| u_rx := u_rx s; u_tx := u_tx s; u_rxflow := u_rxflow s; u_txflow := u_txflow s; u_abort := u_abort s; u_dre := v; u_reg := u_reg s; u_wire := u_wire s |}.
Definition with_reg v s := {| u_rx := u_rx s; u_tx := u_tx s; u_rxflow := u_rxflow s; u_txflow := u_txflow s; u_abort := u_abort s; u_dre := u_dre s; u_reg := v; u_wire := u_wire s |}.

(** Writing the data register: what was still in it would be overwritten *)
Definition tx_data (c : Z) (s : uart) : uart := with_reg (Some c) s.
(** the hardware has sent what is in the data register *)
Definition shift (s : uart) : uart :=
  match u_reg s with
  | None => s
  | Some c => {| u_rx := u_rx s; u_tx := u_tx s; u_rxflow := u_rxflow s; u_txflow := u_txflow s; u_abort := u_abort s; u_dre := u_dre s; u_reg := None; u_wire := u_wire s ++ [c] |}
  end.
(** 53, 66: TX_EMPTY *)
Definition tx_empty (s : uart) : bool := match u_reg s with None => true | Some _ => false end.

Fixpoint set_nth (l : list Z) (n : nat) (v : Z) : option (list Z) :=
  match l, n with
  | [], _ => None
  | _ :: l', O => Some (v :: l')
  | a :: l', S n' => match set_nth l' n' v with Some l2 => Some (a :: l2) | None => None end
  end.

Section Uart.
(** UART_RINGSIZE is 16 (25-27) or 64 (ports/narrow-1284); here 2 to the k *)
Variable k : Z.
Definition RINGSIZE : Z := 2 ^ k.

(** 69-82 *)
Definition ring_full (r : ring) : bool := r_count r =? RINGSIZE.
Definition ring_empty (r : ring) : bool := r_count r =? 0.
Definition ring_mostly_full (r : ring) : bool := RINGSIZE / 2 <=? r_count r.

(** 84-93: ring_get; [None] is -1.  Outside the array is undefined. *)
Definition ring_get (r : ring) : outcome (option Z * ring) :=
  if ring_empty r then Ok (None, r)
  else
    match nth_error (r_buf r) (Z.to_nat (r_read r)) with
    | None => UB
    | Some c => Ok (Some c, {| r_read := wrapu 8 (Z.land (r_read r + 1) (RINGSIZE - 1)); r_count := wrapu 8 (r_count r - 1); r_buf := r_buf r |})
    end.

(** 95-104: ring_put *)
Definition ring_put (r : ring) (c : Z) : outcome (bool * ring) :=
  if ring_full r then Ok (false, r)
  else
    let write := wrapu 8 (Z.land (r_read r + r_count r) (RINGSIZE - 1)) in
    match set_nth (r_buf r) (Z.to_nat write) c with
    | None => UB
    | Some b => Ok (true, {| r_read := r_read r; r_count := wrapu 8 (r_count r + 1); r_buf := b |})
    end.

(** 106-110: next_flow; 40-43: FLOW_EMPTY, FLOW_RUNNING, FLOW_FULL and
    FLOW_STOPPED are 0 to 3 *)
Definition next_flow (s : uart) : uart := with_rxflow (Z.land (u_rxflow s + 1) 3) s.

(** 112-134: _snek_uart_tx_start *)
Definition tx_start (s : uart) : outcome uart :=
  if tx_empty s && negb (u_txflow s) then
    if Z.land (u_rxflow s) 1 =? 0 then
      let s := next_flow s in
      Ok (tx_data (if u_rxflow s =? 1 then 17 else 19) (with_dre true s))
    else
      let! (ic, r) := ring_get (u_tx s) in
      match ic with
      | None => Ok s
      | Some c => Ok (tx_data c (with_dre true (with_tx r s)))
      end
  else Ok s.

(** 136-141: _snek_uart_flow_do *)
Definition flow_do (s : uart) : outcome uart := tx_start (next_flow s).
(** 143-155: _snek_uart_xon, _snek_uart_xoff *)
Definition xon (s : uart) : outcome uart :=
  if (u_rxflow s =? 3) && ring_empty (u_rx s) then flow_do s else Ok s.
Definition xoff (s : uart) : outcome uart :=
  if (u_rxflow s =? 1) && ring_mostly_full (u_rx s) then flow_do s else Ok s.

(** 157-162: ISR(UDRE_vect) *)
Definition isr_udre (s : uart) : outcome uart :=
  let! s := xon (with_dre false s) in tx_start s.

(** 164-189: ISR(RX_vect); waiting for an empty register is [shift] *)
Definition isr_rx (c : Z) (s : uart) : outcome uart :=
  let put s :=
    let! (_, r) := ring_put (u_rx s) c in
    xoff (with_rx r s) in
  if c =? 3 then
    let s := with_abort true s in
    put (with_rx {| r_read := r_read (u_rx s); r_count := 0; r_buf := r_buf (u_rx s) |} s)
  else if c =? 19 then Ok (with_txflow true s)
  else if c =? 17 then tx_start (with_txflow false s)
  else if c =? 20 then Ok (tx_data c (shift s))
  else put s.

(** 191-205: one round of the loop of snek_uart_getch, between cli and sei;
    [None]: nothing there, go round again *)
Definition get_try (s : uart) : outcome (option Z * uart) :=
  let! (ic, r) := ring_get (u_rx s) in
  match ic with
  | None => Ok (None, s)
  | Some c => let! s := xon (with_rx r s) in Ok (Some c, s)
  end.

(** 215-223: one round of the loop of snek_uart_putch; false: go round again *)
Definition put_try (c : Z) (s : uart) : outcome (bool * uart) :=
  let! (ok, r) := ring_put (u_tx s) c in
  if ok then let! s := tx_start (with_tx r s) in Ok (true, s) else Ok (false, s).

(** * Running *)
(** What the program does with the line, one character at a time. *)
Inductive act := Put (c : Z) | Get.
(** 207-214: snek_uart_putch sends a carriage return first *)
Definition putch (c : Z) : list act := if c =? 10 then [Put 13; Put 10] else [Put c].

(** What can happen next: the program tries its next action with interrupts
    off, a character arrives, the hardware is done with a character, the
    interrupt for an empty register comes if it is due. *)
Inductive event := Main | Rx (c : Z) | Shift | Udre.

(** the line, what the program has still to do, what it has been given *)
Record world := { w_uart : uart; w_todo : list act; w_got : list Z }.

Definition step (e : event) (x : world) : outcome world :=
  let s := w_uart x in
  match e with
  | Main =>
      match w_todo x with
      | [] => Ok x
      | Put c :: l =>
          let! (ok, s) := put_try c s in
          Ok {| w_uart := s; w_todo := if ok then l else w_todo x; w_got := w_got x |}
      | Get :: l =>
          let! (c, s) := get_try s in
          Ok match c with
             | Some c => {| w_uart := s; w_todo := l; w_got := w_got x ++ [c] |}
             | None => {| w_uart := s; w_todo := w_todo x; w_got := w_got x |}
             end
      end
  | Rx c => let! s := isr_rx c s in Ok {| w_uart := s; w_todo := w_todo x; w_got := w_got x |}
  | Shift => Ok {| w_uart := shift s; w_todo := w_todo x; w_got := w_got x |}
  | Udre =>
      if u_dre s && tx_empty s
      then let! s := isr_udre s in Ok {| w_uart := s; w_todo := w_todo x; w_got := w_got x |}
      else Ok x
  end.
Fixpoint run (es : list event) (x : world) : outcome world :=
  match es with [] => Ok x | e :: es' => let! x := step e x in run es' x end.

(** switched on: static storage is zero *)
Definition no_ring : ring := {| r_read := 0; r_count := 0; r_buf := repeat 0 (Z.to_nat RINGSIZE) |}.
Definition uart_on : uart :=
  {| u_rx := no_ring; u_tx := no_ring; u_rxflow := 0; u_txflow := false; u_abort := false; u_dre := false; u_reg := None; u_wire := [] |}.
Definition world_on (l : list act) : world := {| w_uart := uart_on; w_todo := l; w_got := [] |}.
End Uart.
