(** Programs kept in the flash memory of the ATmega4809:
    chips/atmega/snek-atmega-flash.c.

    Simplifications: the addresses from MAPPED_PROGMEM_START on are a list of
    bytes, address 0 of the data space (a register of the pins) is one byte,
    every other address is undefined; the controller of the flash is its page
    buffer; waiting for it, and for ENQ before a page is written (89-100), takes
    no time. *)
From Coq Require Import ZArith List Bool.
From Verif Require Import Base RomModel.
Import ListNotations.
Local Open Scope Z_scope.
Local Open Scope outcome_scope.

(** [f_rom]: the memory, the link to the host and what reads the program at
    start, as in [RomModel], with [r_addr] for snek_flash_off (173);
    [f_append] is FUSE_APPEND, [f_pins] what is at address 0; [f_buf] is the page
    buffer and [f_last] the address written last; then flash_write_addr and
    flash_write_page_pending (20-21). *)
Record flash := { f_rom : rom; f_append : Z; f_pins : Z; f_buf : list Z; f_last : Z; f_addr : Z; f_pending : bool }.
Definition with_rom v s := {| f_rom := v; f_append := f_append s; f_pins := f_pins s; f_buf := f_buf s; f_last := f_last s; f_addr := f_addr s; f_pending := f_pending s |}.
Definition with_buf v s := {| f_rom := f_rom s; f_append := f_append s; f_pins := f_pins s; f_buf := v; f_last := f_last s; f_addr := f_addr s; f_pending := f_pending s |}.
Definition with_last v s := {| f_rom := f_rom s; f_append := f_append s; f_pins := f_pins s; f_buf := f_buf s; f_last := v; f_addr := f_addr s; f_pending := f_pending s |}.
Definition with_waddr v s := {| f_rom := f_rom s; f_append := f_append s; f_pins := f_pins s; f_buf := f_buf s; f_last := f_last s; f_addr := v; f_pending := f_pending s |}.
Definition with_pending v s := {| f_rom := f_rom s; f_append := f_append s; f_pins := f_pins s; f_buf := f_buf s; f_last := f_last s; f_addr := f_addr s; f_pending := v |}.

(** PROGMEM_PAGE_SIZE *)
Definition PAGE : Z := 128.

(** 23-31: flash_start; [None] is NULL *)
Definition flash_start (s : flash) : option Z := if f_append s =? 0 then None else Some (f_append s * 256).
(** 33-37 *)
Definition flash_end (s : flash) : Z := rom_size (f_rom s) - 1.
(** 39-46: flash_size, of type ptrdiff_t *)
Definition flash_size (s : flash) : outcome Z :=
  match flash_start s with
  | None => Ok 0
  | Some a => let n := flash_end s - a + 1 in if n <? 32768 then Ok n else UB
  end.
(** 53-56: flash_end_of_page *)
Definition end_of_page (a : Z) : bool := Z.land (a + 1) (PAGE - 1) =? 0.

(** 69-75: flash_cmd, PAGEBUFCLR and PAGEERASEWRITE: the page of the address
    written last becomes what is in the buffer *)
Definition cmd_clear (s : flash) : flash := with_buf (repeat 255 (Z.to_nat PAGE)) s.
Definition cmd_erase_write (s : flash) : flash :=
  let m := r_mem (f_rom s) in
  let a := Z.to_nat (f_last s / PAGE * PAGE) in
  cmd_clear (with_rom (with_mem (firstn a m ++ f_buf s ++ skipn (a + length (f_buf s)) m) (f_rom s)) s).

(** 77-83: flash_write_init; NULL is -1 here *)
Definition write_init (s : flash) : flash :=
  cmd_clear (with_pending false (with_waddr match flash_start s with Some a => a | None => -1 end s)).
(** 85-103: flash_write_flush *)
Definition write_flush (s : flash) : flash := if f_pending s then cmd_erase_write (with_pending false s) else s.
(** 105-113: flash_write_byte; a write to the flash goes to the page buffer *)
Definition flash_write_byte (c : Z) (s : flash) : outcome flash :=
  let a := f_addr s in
  if (0 <=? a) && (a <? rom_size (f_rom s)) then
    let s := with_last a (with_buf (poke (f_buf s) (Z.to_nat (a mod PAGE)) c) s) in
    let s := with_pending true s in
    let s := if end_of_page a then write_flush s else s in
    Ok (with_waddr (a + 1) s)
  else UB.
(** 63-67: flash_write_full *)
Definition write_full (s : flash) : bool := f_addr s =? flash_end s.

(** 127-136: the loop of eeprom.write; [Ok None]: waiting for input *)
Fixpoint flash_loop (fuel : nat) (s : flash) : outcome (option flash) :=
  match fuel with
  | O => UB
  | S fuel' =>
      match raw_getc (r_in (f_rom s)) (r_out (f_rom s)) with
      | None => Ok None
      | Some (c, i, o) =>
          let s := with_rom (with_io i o (f_rom s)) s in
          let c := if c =? 4 then 255 else c in
          let! s := flash_write_byte c s in
          if write_full s then Ok (Some s) else if c =? 255 then Ok (Some s) else flash_loop fuel' s
      end
  end.
(** 121-139: eeprom.write *)
Definition flash_write (s : flash) : outcome (option flash) :=
  let! r := flash_loop (length (r_mem (f_rom s))) (write_init s) in
  Ok match r with Some s => Some (write_flush s) | None => None end.

(** 115-119: flash_read_byte *)
Definition flash_read (a : Z) (s : flash) : outcome Z :=
  match nth_error (r_mem (f_rom s)) (Z.to_nat a) with Some c => if 0 <=? a then Ok c else UB | None => UB end.

(** 150-155: the loop of eeprom.show; the last address is the last there is *)
Fixpoint flash_show_loop (fuel : nat) (a : Z) (s : flash) : outcome flash :=
  match fuel with
  | O => UB
  | S fuel' =>
      let! c := flash_read a s in
      if c =? 255 then Ok s
      else flash_show_loop fuel' (a + 1) (with_rom (putc c (f_rom s)) s)
  end.
(** 141-160: eeprom.show *)
Definition flash_show (quote : bool) (s : flash) : outcome flash :=
  let s := if quote then with_rom (putc 2 (f_rom s)) s else s in
  match flash_start s with
  | None => UB
  | Some a =>
      let! s := flash_show_loop (length (r_mem (f_rom s))) a s in
      Ok (if quote then with_rom (putc 3 (f_rom s)) s else s)
  end.

(** 162-171: eeprom.erase; it looks at address 0 *)
Definition flash_erase (s : flash) : outcome flash :=
  if f_pins s =? 255 then Ok s
  else let! s := flash_write_byte 255 (write_init s) in Ok (write_flush s).

(** 175-187: snek_eeprom_getchar *)
Definition flash_getchar (s : flash) : outcome (Z * flash) :=
  let stop s := Ok (-1, with_rom (with_boot false (f_rom s)) s) in
  let! n := flash_size s in
  if (r_addr (f_rom s) <? n) && negb (r_abort (f_rom s)) then
    match flash_start s with
    | None => UB
    | Some a =>
        let! c := flash_read (a + r_addr (f_rom s)) s in
        let s := with_rom (with_addr (r_addr (f_rom s) + 1) (f_rom s)) s in
        if c =? 255 then stop s else Ok (c, s)
    end
  else stop s.
(** reading [n] characters *)
Fixpoint flash_boot (n : nat) (s : flash) : outcome (list Z * flash) :=
  match n with
  | O => Ok ([], s)
  | S n' => let! (c, s) := flash_getchar s in let! (l, s) := flash_boot n' s in Ok (c :: l, s)
  end.
(** switching on *)
Definition flash_on (s : flash) : flash :=
  {| f_rom := power_on (f_rom s); f_append := f_append s; f_pins := f_pins s; f_buf := f_buf s; f_last := f_last s; f_addr := 0; f_pending := false |}.
