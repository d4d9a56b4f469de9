(** The pins of the ATmega328P (chips/atmega/snek-328p.c): talkto, setpower, on,
    off, read, the pull resistors, tone and stopall.  Left out: what read returns,
    waiting (time.sleep), and initialising the timers other than their mode.
    int has 16 bits there.  tccr0a and tccr0b (31-32) are copies of what is
    written to the timer at once and are left out. *)
From Coq Require Import ZArith Bool List.
From Flocq Require Import IEEE754.Binary.
From Verif Require Import Base FloatModel.
Import ListNotations.
Local Open Scope Z_scope.
Open Scope outcome_scope.

Inductive port := PD | PB | PC.
Inductive timer := T0 | T1 | T2.
Definition port_eqb (a b : port) : bool := match a, b with PD, PD | PB, PB | PC, PC => true | _, _ => false end.
Definition timer_eqb (a b : timer) : bool := match a, b with T0, T0 | T1, T1 | T2, T2 => true | _, _ => false end.

(** the registers (of the timers TCCRnA, TCCR0B and the compare registers, each
    named by the pin it drives) and snek-328p.c 19-32 *)
Record pins := {
  g_ddr : port -> Z; g_port : port -> Z;
  g_tcc : timer -> Z; g_tcc0b : Z; g_ocr : Z -> Z;
  g_power_pin : Z; g_dir_pin : Z;
  g_power : Z -> Z; g_on : Z; g_pull : Z;
  g_err : bool;          (* snek_abort *)
  g_lines : nat          (* lines written to the console *)
}.
Definition set_ddr x g := {| g_ddr := x; g_port := g_port g; g_tcc := g_tcc g; g_tcc0b := g_tcc0b g; g_ocr := g_ocr g; g_power_pin := g_power_pin g; g_dir_pin := g_dir_pin g; g_power := g_power g; g_on := g_on g; g_pull := g_pull g; g_err := g_err g; g_lines := g_lines g |}.
Definition set_port x g := {| g_ddr := g_ddr g; g_port := x; g_tcc := g_tcc g; g_tcc0b := g_tcc0b g; g_ocr := g_ocr g; g_power_pin := g_power_pin g; g_dir_pin := g_dir_pin g; g_power := g_power g; g_on := g_on g; g_pull := g_pull g; g_err := g_err g; g_lines := g_lines g |}.
Definition set_tcc x g := {| g_ddr := g_ddr g; g_port := g_port g; g_tcc := x; g_tcc0b := g_tcc0b g; g_ocr := g_ocr g; g_power_pin := g_power_pin g; g_dir_pin := g_dir_pin g; g_power := g_power g; g_on := g_on g; g_pull := g_pull g; g_err := g_err g; g_lines := g_lines g |}.
Definition set_tcc0b x g := {| g_ddr := g_ddr g; g_port := g_port g; g_tcc := g_tcc g; g_tcc0b := x; g_ocr := g_ocr g; g_power_pin := g_power_pin g; g_dir_pin := g_dir_pin g; g_power := g_power g; g_on := g_on g; g_pull := g_pull g; g_err := g_err g; g_lines := g_lines g |}.
Definition set_ocr x g := {| g_ddr := g_ddr g; g_port := g_port g; g_tcc := g_tcc g; g_tcc0b := g_tcc0b g; g_ocr := x; g_power_pin := g_power_pin g; g_dir_pin := g_dir_pin g; g_power := g_power g; g_on := g_on g; g_pull := g_pull g; g_err := g_err g; g_lines := g_lines g |}.
Definition set_talk x y g := {| g_ddr := g_ddr g; g_port := g_port g; g_tcc := g_tcc g; g_tcc0b := g_tcc0b g; g_ocr := g_ocr g; g_power_pin := x; g_dir_pin := y; g_power := g_power g; g_on := g_on g; g_pull := g_pull g; g_err := g_err g; g_lines := g_lines g |}.
Definition set_power x g := {| g_ddr := g_ddr g; g_port := g_port g; g_tcc := g_tcc g; g_tcc0b := g_tcc0b g; g_ocr := g_ocr g; g_power_pin := g_power_pin g; g_dir_pin := g_dir_pin g; g_power := x; g_on := g_on g; g_pull := g_pull g; g_err := g_err g; g_lines := g_lines g |}.
Definition set_ons x g := {| g_ddr := g_ddr g; g_port := g_port g; g_tcc := g_tcc g; g_tcc0b := g_tcc0b g; g_ocr := g_ocr g; g_power_pin := g_power_pin g; g_dir_pin := g_dir_pin g; g_power := g_power g; g_on := x; g_pull := g_pull g; g_err := g_err g; g_lines := g_lines g |}.
Definition set_pull x g := {| g_ddr := g_ddr g; g_port := g_port g; g_tcc := g_tcc g; g_tcc0b := g_tcc0b g; g_ocr := g_ocr g; g_power_pin := g_power_pin g; g_dir_pin := g_dir_pin g; g_power := g_power g; g_on := g_on g; g_pull := x; g_err := g_err g; g_lines := g_lines g |}.
Definition set_abort g := {| g_ddr := g_ddr g; g_port := g_port g; g_tcc := g_tcc g; g_tcc0b := g_tcc0b g; g_ocr := g_ocr g; g_power_pin := g_power_pin g; g_dir_pin := g_dir_pin g; g_power := g_power g; g_on := g_on g; g_pull := g_pull g; g_err := true; g_lines := g_lines g |}.
Definition say g := {| g_ddr := g_ddr g; g_port := g_port g; g_tcc := g_tcc g; g_tcc0b := g_tcc0b g; g_ocr := g_ocr g; g_power_pin := g_power_pin g; g_dir_pin := g_dir_pin g; g_power := g_power g; g_on := g_on g; g_pull := g_pull g; g_err := g_err g; g_lines := S (g_lines g) |}.

Definition put {A} (eqb : A -> A -> bool) (k : A) (v : Z) (f : A -> Z) : A -> Z := fun x => if eqb x k then v else f x.

Definition NUM_PIN : Z := 21.                                    (* snek-328p.c 17 *)
(** 28, 63-98: at the start; the mode bits WGMn0 are set in all timers *)
Definition pins_start : pins :=
  {| g_ddr := fun _ => 0; g_port := fun _ => 0;
     g_tcc := fun t => match t with T0 => 3 | T1 => 1 | T2 => 3 end; g_tcc0b := 1; g_ocr := fun _ => 0;
     g_power_pin := 0; g_dir_pin := 0; g_power := fun _ => 255; g_on := 0; g_pull := 16383; g_err := false; g_lines := 0 |}.

(** 125-165: ddr_reg, pin_reg, port_reg, bit *)
Definition port_of (p : Z) : port := if p <? 8 then PD else if p <? 14 then PB else PC.
Definition bit_of (p : Z) : Z := if p <? 8 then p else if p <? 14 then p - 8 else p - 14.
(** 167-171: is_pull *)
Definition is_pull (p : Z) (g : pins) : bool := Z.testbit (g_pull g) p.
(** 173-182: has_pwm *)
Definition has_pwm (p : Z) : bool := existsb (Z.eqb (Z.land p 15)) [3; 5; 6; 9; 10; 11].
(** 184-225: the tables of registers by pin; [None] where the entry is null or
    beyond the end of the table *)
Definition channel (p : Z) : option (timer * Z) :=
  nth (Z.to_nat p) [None; None; None; Some (T2, 5); None; Some (T0, 5); Some (T0, 7); None; None; Some (T1, 7); Some (T1, 5); Some (T2, 7)] None.

Definition set_bit (b : bool) (i r : Z) : Z := if b then Z.setbit r i else Z.clearbit r i.
Definition put_port (b : bool) (p : Z) (g : pins) : pins :=
  set_port (put port_eqb (port_of p) (set_bit b (bit_of p) (g_port g (port_of p))) (g_port g)) g.
Definition put_ddr (b : bool) (p : Z) (g : pins) : pins :=
  set_ddr (put port_eqb (port_of p) (set_bit b (bit_of p) (g_ddr g (port_of p))) (g_ddr g)) g.
Definition put_tcc (b : bool) (c : timer * Z) (g : pins) : pins :=
  set_tcc (put timer_eqb (fst c) (set_bit b (snd c) (g_tcc g (fst c))) (g_tcc g)) g.

(** 227-243: set_dir *)
Definition set_dir (p : Z) (out : bool) (g : pins) : pins :=
  let g := put_ddr out p g in
  if out then g else put_port (is_pull p g) p g.

(** 245-252: snek_poly_get_pin; the pin is used only if there is no error *)
Definition get_pin (p : Z) (g : pins) : pins := if (p <? 0) || (NUM_PIN <=? p) then set_abort g else g.

(** 254-274: talkto, with a pin or a pair of pins *)
Definition talkto (p d : Z) (g : pins) : outcome pins :=
  let g := get_pin d (get_pin p g) in
  if g_err g then Ok g else Ok (set_talk p d (set_dir d true (set_dir p true g))).

(** 276-292: is_on, set_on, set_off *)
Definition is_on (p : Z) (g : pins) : bool := Z.testbit (g_on g) p.
Definition turn (b : bool) (p : Z) (g : pins) : pins := set_ons (set_bit b p (g_on g)) g.

(** 294-315: set_out *)
Definition set_out (p : Z) (g : pins) : outcome pins :=
  let v := if is_on p g then g_power g p else 0 in
  if has_pwm p then
    match channel p with
    | None => UB
    | Some c =>
        if (0 <? v) && (v <? 255) then Ok (put_tcc true c (set_ocr (put Z.eqb p v (g_ocr g)) g))
        else Ok (put_port (negb (v =? 0)) p (put_tcc false c g))
    end
  else Ok (put_port (negb (v =? 0)) p g).

(** Conversion of a float to an unsigned integer (C11 6.3.1.4p1) *)
Definition f_to_uint (n : Z) (f : float) : outcome Z :=
  if f_is_finite f then let z := Btrunc 24 128 f in if (0 <=? z) && (z <? 2 ^ n) then Ok z else UB else UB.

(** 41-51: tcc0_reset *)
Definition tcc0_reset (g : pins) : pins := set_tcc0b 1 (set_tcc (put timer_eqb T0 3 (g_tcc g)) g).
(** 341-352: choosing the prescaler; [None] goes to off *)
Fixpoint prescale (fuel : nat) (val cs : Z) : option (Z * Z) :=
  if 256 <? val then
    match fuel with
    | O => None
    | S fuel =>
        let val := val / 2 ^ (if cs <? 3 then 3 else 2) in
        if 5 <? cs + 1 then None else prescale fuel val (cs + 1)
    end
  else Some (val, cs).
(** 319-366: tone; F_CPU is 16000000.  The loop is left at cs = 6 at the latest. *)
Definition tone_off (g : pins) : pins := turn false 5 (tcc0_reset g).
Definition tone (f : float) (g : pins) : outcome pins :=
  if feq f f_zero then Ok (tone_off g)
  else let! val := f_to_uint 32 (fdiv (f_of_Z 8000000) f) in
       match prescale 6 val 1 with
       | None => Ok (tone_off g)
       | Some (val, cs) =>
           let g := set_tcc0b cs (set_tcc (put timer_eqb T0 18 (g_tcc g)) g) in
           let g := set_ocr (put Z.eqb 6 ((val - 1) mod 256) (g_ocr g)) g in
           Ok (turn true 5 (set_dir 5 true g))
       end.

(** 380-389: setpower *)
Definition power_of (f : float) : outcome Z :=
  let p := if flt f f_zero then f_zero else f in
  let p := if flt f_one p then f_one else p in
  f_to_uint 8 (fadd (fmul p (f_of_Z 255)) (fdiv f_one (f_of_Z 2))).
Definition setpower (f : float) (g : pins) : outcome pins :=
  let g := say g in                                          (* printf("%p\n", &p) *)
  let! v := power_of f in
  set_out (g_power_pin g) (set_power (put Z.eqb (g_power_pin g) v (g_power g)) g).

(** 391-417: setleft, setright, on, off *)
Definition setleft (g : pins) : outcome pins := set_out (g_dir_pin g) (turn true (g_dir_pin g) g).
Definition setright (g : pins) : outcome pins := set_out (g_dir_pin g) (turn false (g_dir_pin g) g).
Definition on (g : pins) : outcome pins := set_out (g_power_pin g) (turn true (g_power_pin g) g).
Definition off (g : pins) : outcome pins := set_out (g_power_pin g) (turn false (g_power_pin g) g).
(** 419-425: onfor, the waiting left out *)
Definition onfor (g : pins) : outcome pins := let! g := on g in off g.
(** 369-376: tonefor *)
Definition tonefor (f : float) (g : pins) : outcome pins := let! g := tone f g in let! g := on g in tone f_zero g.

(** [1 << p] as an int of 16 bits (GCC: bits move into the sign), converted to
    uint32_t *)
Definition one_shl (p : Z) : outcome Z :=
  if p <? 15 then Ok (2 ^ p) else if p =? 15 then Ok (2 ^ 32 - 2 ^ 15) else UB.
(** 427-443: pullnone, pullup *)
Definition pullnone (p : Z) (g : pins) : outcome pins :=
  let g := get_pin p g in
  if g_err g then Ok g else let! b := one_shl p in Ok (set_pull (Z.ldiff (g_pull g) b) g).
Definition pullup (p : Z) (g : pins) : outcome pins :=
  let g := get_pin p g in
  if g_err g then Ok g else let! b := one_shl p in Ok (set_pull (Z.lor (g_pull g) b) g).

(** 447-469: read *)
Definition read_pin (p : Z) (g : pins) : outcome pins :=
  let g := get_pin p g in
  if g_err g then Ok g else Ok (set_dir p false g).

(** 471-484: stopall; SNEK_builtin_tone (475) is not defined, the macro being
    called SNEK_BUILTIN_tone *)
Fixpoint stop_from (n : nat) (p : Z) (g : pins) : outcome pins :=
  match n with
  | O => Ok g
  | S n => let! g := (if is_on p g then set_out p (turn false p g) else Ok g) in stop_from n (p + 1) g
  end.
Definition stopall (g : pins) : outcome pins := stop_from (Z.to_nat NUM_PIN) 0 g.

Inductive pop := Talkto (p d : Z) | Setpower (f : float) | Setleft | Setright | On | Off | Onfor
               | Pullup (p : Z) | Pullnone (p : Z) | Read (p : Z) | Stopall | Tone (f : float) | Tonefor (f : float).
Definition pin_op (o : pop) : pins -> outcome pins :=
  match o with
  | Talkto p d => talkto p d | Setpower f => setpower f | Setleft => setleft | Setright => setright | On => on | Off => off | Onfor => onfor
  | Pullup p => pullup p | Pullnone p => pullnone p | Read p => read_pin p | Stopall => stopall | Tone f => tone f | Tonefor f => tonefor f
  end.
Fixpoint pin_ops (l : list pop) (g : pins) : outcome pins :=
  match l with [] => Ok g | o :: l => let! g := pin_op o g in pin_ops l g end.
