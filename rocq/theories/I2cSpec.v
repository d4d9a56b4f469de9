(** What i2c.put and i2c.get are to do to the devices. *)
From Coq Require Import ZArith List Bool.
From Verif Require Import Base FloatModel MathSpec I2cModel.
Local Open Scope Z_scope.

(** a number that is a byte (or an integer of 16 bits taken as one) *)
Definition as_byte (x : option float) (b : Z) : Prop := exists f z, x = Some f /\ is_int f z /\ - 32768 <= z <= 32767 /\ b = z mod 256.
(** the contents of the device at an address, if there is one *)
Definition regs (t : twi) (a : Z) : option (Z -> Z) := match t_dev t a with Some d => Some (d_regs d) | None => None end.
Definition same_regs (x y : option (Z -> Z)) : Prop :=
  match x, y with Some f, Some g => forall r, f r = g r | None, None => True | _, _ => False end.
(** the bus is free and, once used, runs at 400 kHz *)
Definition ready (t : twi) : Prop := t_mode t = Idle /\ (t_here t = true -> 16000000 / (16 + 2 * t_rate t) = 400000).
(** registers hold bytes *)
Definition byte_regs (t : twi) : Prop := forall a g r, regs t a = Some g -> 0 <= g r < 256.
