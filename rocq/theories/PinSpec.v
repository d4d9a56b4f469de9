(** What is at a pin, by the registers (ATmega328P data sheet, 14.2.3, 15.7 to
    15.9), and what programs ask of each pin. *)
From Coq Require Import ZArith Bool List.
From Verif Require Import Base FloatModel PinModel.
Import ListNotations.
Local Open Scope Z_scope.

Inductive drive :=
| Input (pull : bool)      (* not driven; with the pull-up resistor or not *)
| Low | High
| Pwm (n : Z)              (* high for n of 255 parts *)
| PwmInv (n : Z)
| Square (n cs : Z)        (* changed every n ticks of the clock chosen by cs *)
| Still.                   (* neither changed nor set *)

(** where the pins of the board are wired, and the unit of a timer behind them: the
    timer and the higher of its two mode bits *)
Definition wire (p : Z) : port * Z := if p <=? 7 then (PD, p) else if p <=? 13 then (PB, p - 8) else (PC, p - 14).
Definition unit_of (p : Z) : option (timer * Z) :=
  if p =? 3 then Some (T2, 5)        (* OC2B *)
  else if p =? 5 then Some (T0, 5)   (* OC0B *)
  else if p =? 6 then Some (T0, 7)   (* OC0A *)
  else if p =? 9 then Some (T1, 7)   (* OC1A *)
  else if p =? 10 then Some (T1, 5)  (* OC1B *)
  else if p =? 11 then Some (T2, 7)  (* OC2A *)
  else None.
Definition bit_at (r : port -> Z) (p : Z) : bool := Z.testbit (r (fst (wire p))) (snd (wire p)).
Definition level (b : bool) : drive := if b then High else Low.
Definition drive_at (g : pins) (p : Z) : drive :=
  if bit_at (g_ddr g) p then
    match unit_of p with
    | None => level (bit_at (g_port g) p)
    | Some (t, b) =>
        let r := g_tcc g t in
        match Z.testbit r b, Z.testbit r (b - 1), Z.testbit r 0 with
        | false, false, _ | false, true, true => level (bit_at (g_port g) p)
        | true, false, true => Pwm (g_ocr g p)
        | true, true, true => PwmInv (g_ocr g p)
        | false, true, false => if g_ocr g p <=? g_ocr g 6 then Square (g_ocr g 6 + 1) (g_tcc0b g) else Still
        | true, false, false => if g_ocr g p <=? g_ocr g 6 then Low else Still
        | true, true, false => if g_ocr g p <=? g_ocr g 6 then High else Still
        end
    end
  else Input (bit_at (g_port g) p).

(** the clock is divided by this (table 15-9) *)
Definition divisor (cs : Z) : Z := nth (Z.to_nat cs) [1; 1; 8; 64; 256; 1024] 1.

(** cycles of the processor in a period of the pulses on D5 and D6, if timer 0 makes
    pulses (fast PWM, table 15-8) *)
Definition period0 (g : pins) : option Z := if Z.land (g_tcc g T0) 3 =? 3 then Some (256 * divisor (g_tcc0b g)) else None.

(** each pin by itself: an output or not, on or off, its power, whether it is to
    be pulled up, whether it is (as of the last read), and what was asked of it
    last, if it has not been read since *)
Record apin := { a_out : bool; a_on : bool; a_pow : Z; a_pull : bool; a_in : bool; a_shown : option drive }.
Record board := { b_pin : Z -> apin; b_power : Z; b_dir : Z }.
Definition board_start : board :=
  {| b_pin := fun p => {| a_out := false; a_on := false; a_pow := 255; a_pull := p <? 14; a_in := false; a_shown := None |};
     b_power := 0; b_dir := 0 |}.
Definition change (p : Z) (f : apin -> apin) (b : board) : board :=
  {| b_pin := fun q => if q =? p then f (b_pin b q) else b_pin b q; b_power := b_power b; b_dir := b_dir b |}.
(** the pins that can be on for part of the time; the others are on or off *)
Definition partly (p : Z) : bool := existsb (Z.eqb p) [3; 5; 6; 9; 10; 11].
Definition wanted (p : Z) (a : apin) : drive :=
  if a_on a then if a_pow a =? 0 then Low else if (a_pow a =? 255) || negb (partly p) then High else Pwm (a_pow a) else Low.
Definition show (p : Z) (a : apin) : apin :=
  {| a_out := a_out a; a_on := a_on a; a_pow := a_pow a; a_pull := a_pull a; a_in := a_in a; a_shown := Some (wanted p a) |}.
Definition as_out (a : apin) : apin :=
  {| a_out := true; a_on := a_on a; a_pow := a_pow a; a_pull := a_pull a; a_in := a_in a; a_shown := a_shown a |}.
Definition as_in (a : apin) : apin :=
  {| a_out := false; a_on := a_on a; a_pow := a_pow a; a_pull := a_pull a; a_in := a_pull a; a_shown := None |}.
Definition switch (x : bool) (p : Z) (a : apin) : apin :=
  show p {| a_out := a_out a; a_on := x; a_pow := a_pow a; a_pull := a_pull a; a_in := a_in a; a_shown := a_shown a |}.
Definition powered (n : Z) (p : Z) (a : apin) : apin :=
  show p {| a_out := a_out a; a_on := a_on a; a_pow := n; a_pull := a_pull a; a_in := a_in a; a_shown := a_shown a |}.
Definition pulled (x : bool) (a : apin) : apin :=
  {| a_out := a_out a; a_on := a_on a; a_pow := a_pow a; a_pull := x; a_in := a_in a; a_shown := a_shown a |}.

(** the operations; [n] is the power as a number from 0 to 255 *)
Inductive aop := ATalkto (p d : Z) | ASetpower (n : Z) | ADir (b : bool) | APower (b : bool) | APull (b : bool) (p : Z) | ARead (p : Z) | AStop.
Definition ask (o : aop) (b : board) : board :=
  match o with
  | ATalkto p d => let b := change d as_out (change p as_out b) in {| b_pin := b_pin b; b_power := p; b_dir := d |}
  | ASetpower n => change (b_power b) (powered n (b_power b)) b
  | ADir x => change (b_dir b) (switch x (b_dir b)) b
  | APower x => change (b_power b) (switch x (b_power b)) b
  | APull x p => change p (pulled x) b
  | ARead p => change p as_in b
  | AStop => {| b_pin := fun p => if a_on (b_pin b p) then switch false p (b_pin b p) else b_pin b p; b_power := b_power b; b_dir := b_dir b |}
  end.
Definition asks (l : list aop) (b : board) : board := fold_left (fun b o => ask o b) l b.

(** the pins: 19 (A5) is left out *)
Definition pin_ok (p : Z) : Prop := 0 <= p < 21 /\ p <> 19.
(** what an operation of the program asks for; tone is left out, and the pull-up
    resistors of pins 15 and above *)
Inductive means : pop -> list aop -> Prop :=
| means_talkto p d : pin_ok p -> pin_ok d -> means (Talkto p d) [ATalkto p d]
| means_setpower f n : power_of f = Ok n -> means (Setpower f) [ASetpower n]
| means_left : means Setleft [ADir true]
| means_right : means Setright [ADir false]
| means_on : means On [APower true]
| means_off : means Off [APower false]
| means_onfor : means Onfor [APower true; APower false]
| means_pullup p : 0 <= p < 15 -> means (Pullup p) [APull true p]
| means_pullnone p : 0 <= p < 15 -> means (Pullnone p) [APull false p]
| means_read p : pin_ok p -> means (Read p) [ARead p]
| means_stop : means Stopall [AStop].

(** what the board shows for pin [p]: an output shows what was asked last; an
    input is pulled up if it was to be when read *)
Definition shows_pin (g : pins) (b : board) (p : Z) : Prop :=
  let a := b_pin b p in
  (a_out a = true -> forall d, a_shown a = Some d -> drive_at g p = d) /\
  (a_out a = false -> a_shown a = None -> drive_at g p = Input (a_in a)) /\
  (a_out a = false -> exists x, drive_at g p = Input x) /\
  (a_out a = true -> a_shown a = None -> forall x, drive_at g p <> Input x).
