(** snek-i2c.c and chips/atmega/snek-atmega-i2c.c: i2c.put and i2c.get.
    Outside of the code: the two-wire controller of the ATmega as master, and
    devices with registers as its data sheet and those of usual sensors describe them.
    Simplified: one master and no arbitration; devices never stretch the clock; a STOP
    is done at once.  Waiting for TWINT that never comes is [None]. *)
From Coq Require Import ZArith List Bool.
From Verif Require Import Base FloatModel MathModel.
Local Open Scope Z_scope.
Local Open Scope outcome_scope.

(** A device: a pointer to a register and the registers; the first byte written after
    its address sets the pointer, which goes on with each byte read or written. *)
Record dev := Dev { d_ptr : Z; d_regs : Z -> Z }.
(** What the controller is doing: nothing; a START was sent; sending to or receiving
    from the device at an address; nobody answers ([true]: while receiving). *)
Inductive mode := Idle | Addr | Tx (a : Z) (first : bool) | Rx (a : Z) | Lost (rd : bool).
(** snek-atmega-i2c.c 53 been_here; TWBR; TWDR; the rest is outside *)
Record twi := Twi { t_here : bool; t_rate : Z; t_dr : Z; t_mode : mode; t_dev : Z -> option dev }.

Definition set_mode (m : mode) (t : twi) : twi := Twi (t_here t) (t_rate t) (t_dr t) m (t_dev t).
Definition set_dr (v : Z) (t : twi) : twi := Twi (t_here t) (t_rate t) v (t_mode t) (t_dev t).
Definition set_dev (a : Z) (d : dev) (t : twi) : twi :=
  Twi (t_here t) (t_rate t) (t_dr t) (t_mode t) (fun x => if x =? a then Some d else t_dev t x).

(** 24-30 snek_i2c_cr with TWINT and TWEN, and TWEA if [ack] *)
Definition cr (ack : bool) (t : twi) : option twi :=
  match t_mode t with
  | Idle => None
  | Addr =>
      let a := t_dr t / 2 in
      match t_dev t a with
      | None => Some (set_mode (Lost (Z.odd (t_dr t))) t)
      | Some _ => Some (set_mode (if Z.odd (t_dr t) then Rx a else Tx a true) t)
      end
  | Tx a first =>
      match t_dev t a with
      | None => Some (set_mode (Lost false) t)
      | Some d =>
          Some (set_mode (Tx a false)
            (set_dev a (if first then Dev (t_dr t) (d_regs d)
                        else Dev ((d_ptr d + 1) mod 256) (fun r => if r =? d_ptr d then t_dr t else d_regs d r)) t))
      end
  | Rx a =>
      match t_dev t a with
      | None => Some (set_mode (Lost true) t)
      | Some d => Some (set_mode (if ack then Rx a else Lost true)
                    (set_dr (d_regs d (d_ptr d)) (set_dev a (Dev ((d_ptr d + 1) mod 256) (d_regs d)) t)))
      end
  | Lost rd => Some (if rd then set_dr 255 t else t)
  end.
(** 24-30 with TWSTA as well: a START, or a repeated one *)
Definition cr_start (t : twi) : option twi := Some (set_mode Addr t).

Definition obnd {A B} (x : option A) (f : A -> option B) : option B := match x with Some a => f a | None => None end.

(** 39-44 snek_i2c_read_nak *)
Definition read_nak (t : twi) : option (Z * twi) := obnd (cr false t) (fun t => Some (t_dr t, t)).
(** 46-51 snek_i2c_write *)
Definition i2c_write (v : Z) (t : twi) : option twi := cr false (set_dr v t).
(** 55-76 snek_i2c_start; F_CPU is 16 MHz *)
Definition i2c_start (addr : Z) (t : twi) : option twi :=
  let t := if t_here t then t else Twi true ((16000000 / 400000 - 16) / 2) (t_dr t) (t_mode t) (t_dev t) in
  obnd (cr_start t) (i2c_write addr).
(** 78-82 snek_i2c_stop *)
Definition i2c_stop (t : twi) : twi := set_mode Idle t.
(** 84-91 snek_i2c_put; SNEK_I2C_WRITE is 0, SNEK_I2C_READ is 1 (snek-i2c.h 20-21) *)
Definition put (addr reg v : Z) (t : twi) : option twi :=
  obnd (i2c_start (Z.lor addr 0) t) (fun t =>
  obnd (i2c_write reg t) (fun t =>
  obnd (i2c_write v t) (fun t => Some (i2c_stop t)))).
(** 93-103 snek_i2c_get *)
Definition get (addr reg : Z) (t : twi) : option (Z * twi) :=
  obnd (i2c_start (Z.lor addr 0) t) (fun t =>
  obnd (i2c_write reg t) (fun t =>
  obnd (i2c_start (Z.lor addr 1) t) (fun t =>
  obnd (read_nak t) (fun '(v, t) => Some (v, i2c_stop t))))).

(** snek-poly.c 149-164 snek_poly_get_soffset, and the conversion to uint8_t; [None] is
    a value that is no number; the second part is whether there was an error *)
Definition get_byte (x : option float) : outcome (Z * bool) :=
  match x with
  | Some f => let! z := f_to_sint 16 f in Ok (z mod 256, false)
  | None => Ok (0, true)
  end.

Inductive result (A : Type) := Hangs | Error (t : twi) | Done (a : A) (t : twi).
Arguments Hangs {A}. Arguments Error {A} t. Arguments Done {A} a t.

(** snek-i2c.c 21-33 snek_builtin_i2c_put *)
Definition builtin_put (addr reg v : option float) (t : twi) : outcome (result unit) :=
  let! (a, e1) := get_byte addr in
  let! (r, e2) := get_byte reg in
  let! (v, e3) := get_byte v in
  if e1 || e2 || e3 then Ok (Error t)
  else Ok (match put a r v t with None => Hangs | Some t => Done tt t end).
(** snek-i2c.c 35-47 snek_builtin_i2c_get *)
Definition builtin_get (addr reg : option float) (t : twi) : outcome (result float) :=
  let! (a, e1) := get_byte addr in
  let! (r, e2) := get_byte reg in
  if e1 || e2 then Ok (Error t)
  else Ok (match get a r t with None => Hangs | Some (v, t) => Done (f_of_Z v) t end).
