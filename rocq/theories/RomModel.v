(** Programs kept in the EEPROM: eeprom.write, eeprom.show and eeprom.erase and
    the reading of the program at start, chips/atmega/snek-atmega-eeprom.c and
    chips/avr/snek-avr-eeprom.c.

    Simplifications: the memory is a list of bytes (avr-libc's eeprom_read_byte
    and eeprom_write_byte, and the registers snek-avr-eeprom.c uses, 21-47), a
    byte written is there when read; input not yet sent leaves a function
    waiting, which is [None].  snek_offset_t and snek_soffset_t have 16 bits on
    these processors. *)
From Coq Require Import ZArith List Bool.
From Verif Require Import Base.
Import ListNotations.
Local Open Scope Z_scope.

(** [r_in] is what is still to come from the host and [r_out] what was sent to
    it; [r_addr] is snek_eeprom_addr (snek-atmega-eeprom.c 64,
    snek-avr-eeprom.c 75); [r_boot] says that the input stream reads the EEPROM
    (snek_interactive is its negation); [r_abort] is snek_abort *)
Record rom := { r_mem : list Z; r_in : list Z; r_out : list Z; r_addr : Z; r_boot : bool; r_abort : bool }.

Definition with_mem v s := {| r_mem := v; r_in := r_in s; r_out := r_out s; r_addr := r_addr s; r_boot := r_boot s; r_abort := r_abort s |}.
Definition with_io i o s := {| r_mem := r_mem s; r_in := i; r_out := o; r_addr := r_addr s; r_boot := r_boot s; r_abort := r_abort s |}.
Definition with_addr v s := {| r_mem := r_mem s; r_in := r_in s; r_out := r_out s; r_addr := v; r_boot := r_boot s; r_abort := r_abort s |}.
Definition with_boot v s := {| r_mem := r_mem s; r_in := r_in s; r_out := r_out s; r_addr := r_addr s; r_boot := v; r_abort := r_abort s |}.

(** the two files *)
Inductive chip := ATmega | AVR.

(** E2END + 1 *)
Definition rom_size (s : rom) : Z := Z.of_nat (length (r_mem s)).

Definition putc (c : Z) (s : rom) : rom := with_io (r_in s) (r_out s ++ [c]) s.

(** snek-io.h 39-53: snek_raw_getc; ENQ is answered with ACK *)
Fixpoint raw_getc (i o : list Z) : option (Z * list Z * list Z) :=
  match i with
  | [] => None
  | c :: i' => if c =? 5 then raw_getc i' (o ++ [6]) else Some (if c =? 13 then 10 else c, i', o)
  end.

Fixpoint poke (l : list Z) (n : nat) (v : Z) : list Z :=
  match l, n with
  | [], _ => []
  | _ :: l', O => v :: l'
  | a :: l', S n' => a :: poke l' n' v
  end.

(** avr-libc eeprom_write_byte, eeprom_read_byte; snek-avr-eeprom.c 29-47 *)
Definition write_byte (a v : Z) (s : rom) : rom := with_mem (poke (r_mem s) (Z.to_nat a) v) s.
Definition read_byte (a : Z) (s : rom) : Z := nth (Z.to_nat a) (r_mem s) 255.

(** snek-atmega-eeprom.c 29-39, snek-avr-eeprom.c 61-71: the loop.  A size
    that the address never meets would go round for ever; [fuel] is the size *)
Fixpoint write_loop (fuel : nat) (addr : Z) (s : rom) : option rom :=
  match fuel with
  | O => None
  | S fuel' =>
      match raw_getc (r_in s) (r_out s) with
      | None => None
      | Some (c, i, o) =>
          let c := if c =? 4 then 255 else c in
          let s := write_byte addr c (with_io i o s) in
          let addr := wrapu 16 (addr + 1) in
          if addr =? rom_size s then Some s else if c =? 255 then Some s else write_loop fuel' addr s
      end
  end.
(** snek-atmega-eeprom.c 23-41, snek-avr-eeprom.c 55-73: eeprom.write *)
Definition rom_write (s : rom) : option rom := write_loop (length (r_mem s)) 0 s.

(** snek-atmega-eeprom.c 53-58 *)
Fixpoint show_loop (n : nat) (addr : Z) (s : rom) : rom :=
  match n with
  | O => s
  | S n' => let c := read_byte addr s in
            if c =? 255 then s else show_loop n' (wrapu 16 (addr + 1)) (putc c s)
  end.

(** snek-avr-eeprom.c 88-94: eeprom_getc *)
Definition getc (s : rom) : Z * rom :=
  if r_addr s <=? rom_size s - 1 then (read_byte (r_addr s) s, with_addr (wraps 16 (r_addr s + 1)) s) else (255, s).

(** snek-avr-eeprom.c 106-107; the memory ends the loop *)
Fixpoint getc_loop (n : nat) (s : rom) : rom :=
  let '(c, s) := getc s in
  if c =? 255 then s else match n with O => s | S n' => getc_loop n' (putc c s) end.

(** snek-atmega-eeprom.c 43-62, snek-avr-eeprom.c 96-111: eeprom.show; [quote]
    is that an argument was given *)
Definition rom_show (k : chip) (quote : bool) (s : rom) : rom :=
  let s := if quote then putc 2 s else s in
  let s := match k with
           | ATmega => show_loop (length (r_mem s)) 0 s
           | AVR => getc_loop (length (r_mem s)) (with_addr 0 s)
           end in
  if quote then putc 3 s else s.

(** snek-atmega-eeprom.c 66-72, snek-avr-eeprom.c 113-119: eeprom.erase *)
Definition rom_erase (s : rom) : rom := if read_byte 0 s =? 255 then s else write_byte 0 255 s.

(** snek-atmega-eeprom.c 74-86, snek-avr-eeprom.c 121-133:
    snek_eeprom_getchar *)
Definition rom_getchar (k : chip) (s : rom) : Z * rom :=
  let stop s := (-1, with_boot false s) in
  match k with
  | ATmega =>
      if (r_addr s <? rom_size s) && negb (r_abort s) then
        let c := read_byte (r_addr s) s in
        let s := with_addr (wrapu 16 (r_addr s + 1)) s in
        if c =? 255 then stop s else (c, s)
      else stop s
  | AVR =>
      if r_abort s then stop s
      else let '(c, s) := getc s in if c =? 255 then stop s else (c, s)
  end.

(** switching on: static storage is zero and the stream reads the EEPROM
    (chips/atmega/snek-328p.c 100, snek-avr-eeprom.c 19) *)
Definition power_on (s : rom) : rom :=
  {| r_mem := r_mem s; r_in := r_in s; r_out := r_out s; r_addr := 0; r_boot := true; r_abort := false |}.

(** what the program being read does: take the next character, or call
    eeprom.show *)
Inductive boot_step := Next | Show (quote : bool).
Fixpoint boot_run (k : chip) (l : list boot_step) (s : rom) : list Z * rom :=
  match l with
  | [] => ([], s)
  | Show q :: l' => boot_run k l' (rom_show k q s)
  | Next :: l' => let '(c, s) := rom_getchar k s in let '(cs, s) := boot_run k l' s in (c :: cs, s)
  end.
