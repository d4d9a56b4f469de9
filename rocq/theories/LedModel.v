(** chips/samd21/snek-gpio.c 694-773, ao-neopixel.c, ao-apa102.c and ao-snek.h
    91-113: neopixel() on the SAMD21, from the list of colours to what the port of
    the chip does on the pins.
    Simplified: the argument is a tree of values instead of a place in the heap
    (nothing changes it during the call); each pin of the board is its own line;
    blocking interrupts is left out; time is counted in ao_arch_nop only. *)
From Coq Require Import ZArith List Bool.
From Verif Require Import Base FloatModel MathModel BuiltModel PinModel.
Import ListNotations.
Local Open Scope Z_scope.
Local Open Scope outcome_scope.

(** The values a call can see: numbers, lists (tuples) or dictionaries, and the rest. *)
Inductive item := INum (f : float) | IList (dict : bool) (l : list item) | IOther.

(** ao-snek.h 91-98: the bytes of a pixel, lowest address first, and the word over them
    (the chip is little endian) *)
Record pixel := Pix { x_extra : Z; x_b : Z; x_r : Z; x_g : Z }.
Definition word (x : pixel) : Z := x_g x * 2 ^ 24 + x_r x * 2 ^ 16 + x_b x * 2 ^ 8 + x_extra x.

(** What the port is told, and the waiting in between. *)
Inductive event := Tgl (pin : Z) | Put (pin : Z) (v : bool) | Nop.

(** 703-704 snek_neopixels (what lies there and behind it; None is NULL) and
    snek_neopixel_count; snek_abort; and all that was done to the pins. *)
Record led := Led { l_buf : option (nat -> pixel); l_count : Z; l_abort : bool; l_wire : list event }.

Definition nops (n : nat) : list event := repeat Nop n.
Definition s32 (x : Z) : Z := (x + 2 ^ 31) mod 2 ^ 32 - 2 ^ 31.

(** ao-neopixel.c 32-90: one bit *)
Definition np_bit (pin p : Z) : list event :=
  Tgl pin :: nops 8 ++ (if p <? 0 then nops 18 ++ [Tgl pin] else Tgl pin :: nops 13) ++ nops 6.
(** ao-neopixel.c 31-95: the bits of a pixel *)
Fixpoint np_bits (n : nat) (pin p : Z) : list event :=
  match n with O => [] | Datatypes.S n => np_bit pin p ++ np_bits n pin (s32 (p * 2)) end.
(** ao-neopixel.c 22-98: [i] is how far [pixels] has gone *)
Fixpoint np_write (n : nat) (pin : Z) (i : nat) (buf : nat -> pixel) : list event :=
  match n with O => [] | Datatypes.S n => np_bits 24 pin (s32 (word (buf i))) ++ np_write n pin (Datatypes.S i) buf end.

(** ao-apa102.c 22-29 *)
Definition ap_bit (d c : Z) (v : bool) : list event := [Tgl c; Nop; Put d v; Nop; Tgl c; Nop].
(** ao-apa102.c 31-37: [_bit_] goes from 0x80 down *)
Definition ap_byte (d c v : Z) : list event := flat_map (fun i => ap_bit d c (Z.testbit v i)) [7; 6; 5; 4; 3; 2; 1; 0].
(** ao-apa102.c 39-43 *)
Definition ap_repeat (d c : Z) (v : bool) (n : nat) : list event := concat (repeat (ap_bit d c v) n).
(** ao-apa102.c 58-63: [pixels] stays where it is *)
Fixpoint ap_pixels (n : nat) (d c : Z) (x : pixel) : list event :=
  match n with
  | O => []
  | Datatypes.S n => ap_byte d c 255 ++ ap_byte d c (x_b x) ++ ap_byte d c (x_g x) ++ ap_byte d c (x_r x) ++ ap_pixels n d c x
  end.
(** ao-apa102.c 45-65 *)
Definition ap_write (n : nat) (d c : Z) (buf : nat -> pixel) : list event :=
  Put c true :: nops 32 ++ ap_repeat d c false 32 ++ ap_pixels n d c (buf O) ++ ap_repeat d c true 32.

Definition fail (s : led) : led := Led (l_buf s) (l_count s) true (l_wire s).

(** snek-gpio.c 694-701 snek_poly_to_inten: snek_poly_get_float gives 0 after the error *)
Definition inten (f : float) : outcome Z :=
  let f := if flt f f_zero then f_zero else f in
  let f := if flt f_one f then f_one else f in
  f_to_uint 8 (fadd (fmul f (f_of_Z 255)) (fdiv f_one (f_of_Z 2))).
Definition to_inten (a : item) (s : led) : outcome (Z * led) :=
  match a with
  | INum f => let! z := inten f in Ok (z, s)
  | _ => let! z := inten f_zero in Ok (z, fail s)
  end.

Definition store (p : nat) (x : pixel) (s : led) : led :=
  Led (match l_buf s with Some b => Some (fun i => if Nat.eqb i p then x else b i) | None => None end) (l_count s) (l_abort s) (l_wire s).

(** snek-gpio.c 706-719 set_neopixel; _extra is left alone; a write behind the pixels
    that were allocated is undefined *)
Definition set_neopixel (p : nat) (px : item) (s : led) : outcome led :=
  match px with
  | IList false [a; b; c] =>
      match l_buf s with
      | None => UB
      | Some m =>
          let! (r, s) := to_inten a s in
          let! (g, s) := to_inten b s in
          let! (bl, s) := to_inten c s in
          if Z.of_nat p <? l_count s then Ok (store p (Pix (x_extra (m p)) bl r g) s) else UB
      end
  | _ => Ok (fail s)
  end.

(** snek-gpio.c 752-756: the loop; [true] is the return on snek_abort *)
Fixpoint set_all (p : nat) (l : list item) (s : led) : outcome (bool * led) :=
  match l with
  | [] => Ok (false, s)
  | px :: l =>
      let! s := set_neopixel p px s in
      if l_abort s then Ok (true, s) else set_all (Datatypes.S p) l s
  end.

Definition is_num (a : item) : bool := match a with INum _ => true | _ => false end.
(** snek-gpio.c 733-737 *)
Definition immediate (l : list item) : bool := match l with [a; _; _] => is_num a | _ => false end.

(** snek-gpio.c 758-767 *)
Definition send (power dir : Z) (n : nat) (s : led) : outcome led :=
  match l_buf s with
  | None => UB
  | Some m => Ok (Led (l_buf s) (l_count s) (l_abort s)
                    (l_wire s ++ (if power =? dir then np_write n power O m else ap_write n power dir m)))
  end.

(** snek-gpio.c 721-768 snek_builtin_neopixel; [alloc n] is what snek_alloc finds for
    [n] pixels: the place (its contents, and what lies behind it) or NULL, after an
    error *)
Definition neopixel (alloc : Z -> option (nat -> pixel)) (power dir : Z) (pixels : item) (s : led) : outcome led :=
  match pixels with
  | IList false l =>
      let size := if immediate l then 1 else Z.of_nat (length l) in
      let fits := match l_buf s with None => false | Some _ => negb (l_count s <? size) end in
      let place := if fits then Some s
                   else match alloc size with
                        | None => None
                        | Some m => Some (Led (Some m) size (l_abort s) (l_wire s))
                        end in
      match place with
      | None => Ok (Led None (l_count s) true (l_wire s))
      | Some s =>
          if immediate l then let! s := set_neopixel O pixels s in send power dir (length l) s
          else let! (gone, s) := set_all O l s in if gone then Ok s else send power dir (length l) s
      end
  | _ => Ok (fail s)
  end.
