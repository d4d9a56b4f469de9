(** Programs kept in the flash memory of the SAMD21: chips/samd21/snek-eeprom.c
    and chips/samd21/ao-flash-samd21.c.

    Simplifications: the flash is a function from addresses to bytes; the
    controller is its page buffer, its address register and its lock register,
    with CTRLB.MANW set (ao-timer.c 276-277: writing to the flash only fills the
    page buffer); its commands take no time; INTFLAG, flushing stdout and blocking interrupts
    are left out.  From the data sheet: WP can only
    clear bits; a set bit of LOCK says that the region is not locked; commands on
    a locked region do nothing.  [after] is what WP leaves in the page buffer;
    nothing here relies on it. *)
From Coq Require Import ZArith List Bool.
From Verif Require Import Base RomModel.
Import ListNotations.
Local Open Scope Z_scope.
Local Open Scope outcome_scope.

(** the flash and its controller *)
Record nvm := { v_mem : Z -> Z; v_psz : Z; v_pages : Z; v_lock : Z; v_addr : Z; v_buf : Z -> Z }.
(** [n_start] and [n_end] are __flash__ and __flash_end__ (snek-samd21.ld 21,
    165-166); [n_off], [n_byte] and [n_pend] the static variables of 109-111,
    [n_read] that of 207; the link to the host as in [RomModel]; [n_boot] says
    that stdin->get is snek_eeprom_getchar *)
Record store := { n_nvm : nvm; n_start : Z; n_end : Z; n_off : Z; n_byte : Z; n_pend : bool; n_read : Z;
                  n_in : list Z; n_out : list Z; n_boot : bool; n_abort : bool }.

Definition v_set_mem v m := {| v_mem := v; v_psz := v_psz m; v_pages := v_pages m; v_lock := v_lock m; v_addr := v_addr m; v_buf := v_buf m |}.
Definition v_set_lock v m := {| v_mem := v_mem m; v_psz := v_psz m; v_pages := v_pages m; v_lock := v; v_addr := v_addr m; v_buf := v_buf m |}.
Definition v_set_addr v m := {| v_mem := v_mem m; v_psz := v_psz m; v_pages := v_pages m; v_lock := v_lock m; v_addr := v; v_buf := v_buf m |}.
Definition v_set_buf v m := {| v_mem := v_mem m; v_psz := v_psz m; v_pages := v_pages m; v_lock := v_lock m; v_addr := v_addr m; v_buf := v |}.
Definition n_set_nvm v s := {| n_nvm := v; n_start := n_start s; n_end := n_end s; n_off := n_off s; n_byte := n_byte s; n_pend := n_pend s; n_read := n_read s; n_in := n_in s; n_out := n_out s; n_boot := n_boot s; n_abort := n_abort s |}.
Definition n_set_write o b p s := {| n_nvm := n_nvm s; n_start := n_start s; n_end := n_end s; n_off := o; n_byte := b; n_pend := p; n_read := n_read s; n_in := n_in s; n_out := n_out s; n_boot := n_boot s; n_abort := n_abort s |}.
Definition n_set_read v s := {| n_nvm := n_nvm s; n_start := n_start s; n_end := n_end s; n_off := n_off s; n_byte := n_byte s; n_pend := n_pend s; n_read := v; n_in := n_in s; n_out := n_out s; n_boot := n_boot s; n_abort := n_abort s |}.
Definition n_set_io i o s := {| n_nvm := n_nvm s; n_start := n_start s; n_end := n_end s; n_off := n_off s; n_byte := n_byte s; n_pend := n_pend s; n_read := n_read s; n_in := i; n_out := o; n_boot := n_boot s; n_abort := n_abort s |}.
Definition n_set_boot v s := {| n_nvm := n_nvm s; n_start := n_start s; n_end := n_end s; n_off := n_off s; n_byte := n_byte s; n_pend := n_pend s; n_read := n_read s; n_in := n_in s; n_out := n_out s; n_boot := v; n_abort := n_abort s |}.

(** samd21.h 615-620: samd21_nvmctrl_page_size *)
Definition page (m : nvm) : Z := 2 ^ (3 + v_psz m).
(** ao-interrupt.c 28-36: samd21_flash_size *)
Definition total (m : nvm) : Z := v_pages m * 2 ^ (3 + v_psz m).
(** ao-flash-samd21.c 24-27: samd21_nvmctrl_row_size *)
Definition row (m : nvm) : Z := page m * 4.
(** 30-34: samd21_nvmctrl_lock_region *)
Definition lock_region (m : nvm) : Z := total m / 16.
(** 36-41: ao_flash_lock_region_bit; also how the controller finds the region *)
Definition region_bit (a : Z) (m : nvm) : Z := a / lock_region m.
(** 43-47: ao_flash_is_locked *)
Definition is_locked (a : Z) (m : nvm) : bool := Z.testbit (v_lock m) (region_bit a m).

(** the controller: may the region of the address register be changed? *)
Definition open (m : nvm) : bool := Z.testbit (v_lock m) (region_bit (v_addr m * 2) m).

Section After.
Variable after : (Z -> Z) -> Z -> Z.

(** 52-63: _ao_flash_execute *)
Inductive command := ER | WP | UR | PBC.
Definition execute (c : command) (m : nvm) : nvm :=
  let a := v_addr m * 2 in
  match c with
  | ER => if open m then let b := a / row m * row m in
            v_set_mem (fun x => if (b <=? x) && (x <? b + row m) then 255 else v_mem m x) m
          else m
  | WP => v_set_buf (after (v_buf m))
            (if open m then let b := a / page m * page m in
               v_set_mem (fun x => if (b <=? x) && (x <? b + page m) then Z.land (v_mem m x) (v_buf m (x - b)) else v_mem m x) m
             else m)
  | UR => v_set_lock (Z.lor (v_lock m) (2 ^ region_bit a m)) m
  | PBC => v_set_buf (fun _ => 255) m
  end.
(** 66-74: _ao_flash_set_addr *)
Definition set_addr (a : Z) (m : nvm) : nvm := v_set_addr (a / 2) m.
(** 77-85: _ao_flash_unlock *)
Definition unlock (a : Z) (m : nvm) : nvm := if is_locked a m then execute UR (set_addr a m) else m.
(** 101-107: _ao_flash_erase_row *)
Definition erase_row (a : Z) (m : nvm) : nvm := execute ER (set_addr a (unlock a m)).

(** reading and writing the flash; there is nothing beyond its end *)
Definition peek (a : Z) (m : nvm) : outcome Z := if (0 <=? a) && (a <? total m) then Ok (v_mem m a) else UB.
(** a halfword goes to the page buffer, where it too can only clear bits *)
Definition fill (a lo hi : Z) (m : nvm) : outcome nvm :=
  if (0 <=? a) && (a + 1 <? total m) then
    let o := a mod page m in
    Ok (v_set_buf (fun x => if x =? o then Z.land (v_buf m x) lo else if x =? o + 1 then Z.land (v_buf m x) hi else v_buf m x) m)
  else UB.

(** 124-135: _ao_flash_row_erased, with [n] bytes to go *)
Fixpoint row_erased (n : nat) (a : Z) (m : nvm) : outcome bool :=
  match n with
  | O => Ok true
  | S n' => let! c := peek a m in if c =? 255 then row_erased n' (a + 1) m else Ok false
  end.

(** 138-154: ao_flash_start_page *)
Definition start_page (dst : Z) (m : nvm) : outcome nvm :=
  let! m :=
    if Z.land dst (row m - 1) =? 0 then
      let m := unlock dst m in
      let! e := row_erased (Z.to_nat (row m)) dst m in
      Ok (if e then m else erase_row dst m)
    else Ok m in
  Ok (execute PBC m).
(** 156-166: ao_flash_finish_page *)
Definition finish_page (dst : Z) (m : nvm) : nvm := execute WP (set_addr dst m).

(** 168-173: ao_flash_write_init *)
Definition write_init (s : store) : store := n_set_write 0 (n_byte s) false s.
(** 175-195: ao_flash_write_byte *)
Definition write_byte (c : Z) (s : store) : outcome store :=
  let P := page (n_nvm s) in
  let! m := if n_off s mod P =? 0 then start_page (n_start s + n_off s) (n_nvm s) else Ok (n_nvm s) in
  let s := n_set_nvm m s in
  let! s :=
    if n_pend s then
      let! m := fill (n_start s + n_off s) (n_byte s) c (n_nvm s) in
      Ok (n_set_write (n_off s + 2) (n_byte s) false (n_set_nvm m s))
    else Ok (n_set_write (n_off s) c true s) in
  Ok (if n_off s mod P =? 0 then n_set_nvm (finish_page (n_start s + n_off s - P) (n_nvm s)) s else s).
(** 197-205: ao_flash_write_flush *)
Definition write_flush (s : store) : outcome store :=
  let P := page (n_nvm s) in
  let! s := if n_pend s then write_byte 255 s else Ok s in
  Ok (if n_off s mod P =? 0 then s else n_set_nvm (finish_page (n_start s + n_off s / P * P) (n_nvm s)) s).

(** snek-eeprom.c 28-36: the loop of eeprom.write; [Ok None]: waiting for input.
    Each round takes a byte of the input *)
Fixpoint nvm_loop (fuel : nat) (s : store) : outcome (option store) :=
  match fuel with
  | O => UB
  | S fuel' =>
      match raw_getc (n_in s) (n_out s) with
      | None => Ok None
      | Some (c, i, o) =>
          let c := if c =? 4 then 255 else c in
          let! s := write_byte c (n_set_io i o s) in
          if c =? 255 then Ok (Some s) else nvm_loop fuel' s
      end
  end.
(** snek-eeprom.c 21-39: eeprom.write *)
Definition nvm_write (s : store) : outcome (option store) :=
  let! r := nvm_loop (S (length (n_in s))) (write_init s) in
  match r with
  | None => Ok None
  | Some s => let! s := write_flush s in Ok (Some s)
  end.

(** ao-flash-samd21.c 215-221: ao_flash_read_byte *)
Definition read_flash (s : store) : outcome (Z * store) :=
  if n_end s - n_start s <=? n_read s then Ok (255, s)
  else let! c := peek (n_start s + n_read s) (n_nvm s) in Ok (c, n_set_read (n_read s + 1) s).

Definition n_putc (c : Z) (s : store) : store := n_set_io (n_in s) (n_out s ++ [c]) s.
(** snek-eeprom.c 51-56: the loop of eeprom.show *)
Fixpoint nvm_show_loop (fuel : nat) (s : store) : outcome store :=
  match fuel with
  | O => UB
  | S fuel' => let! (c, s) := read_flash s in if c =? 255 then Ok s else nvm_show_loop fuel' (n_putc c s)
  end.
(** snek-eeprom.c 41-60: eeprom.show *)
Definition nvm_show (quote : bool) (s : store) : outcome store :=
  let s := if quote then n_putc 2 s else s in
  let! s := nvm_show_loop (S (Z.to_nat (n_end s - n_start s))) (n_set_read 0 s) in
  Ok (if quote then n_putc 3 s else s).

(** ao-flash-samd21.c 223-234: ao_flash_first_erased, with [n] bytes to go *)
Fixpoint first_erased (n : nat) (start : Z) (m : nvm) : Z :=
  match n with
  | O => 0
  | S n' => if v_mem m (start + Z.of_nat n') =? 255 then first_erased n' start m else Z.of_nat n
  end.
(** ao-flash-samd21.c 247-255: the loop of ao_flash_erase_all *)
Fixpoint erase_loop (fuel : nat) (start offset : Z) (m : nvm) : outcome nvm :=
  match fuel with
  | O => UB
  | S fuel' =>
      let m := erase_row (start + offset) (unlock (start + offset) m) in
      if offset =? 0 then Ok m else erase_loop fuel' start (wrapu 32 (offset - row m)) m
  end.
(** ao-flash-samd21.c 236-256, snek-eeprom.c 64-69: eeprom.erase *)
Definition nvm_erase (s : store) : outcome store :=
  let m := n_nvm s in
  let offset := first_erased (Z.to_nat (n_end s - n_start s)) (n_start s) m in
  if offset =? 0 then Ok s
  else let offset := (offset - 1) / row m * row m in
       let! m := erase_loop (S (Z.to_nat (offset / row m))) (n_start s) offset m in
       Ok (n_set_nvm m s).

(** snek-eeprom.c 80-92: snek_eeprom_getchar *)
Definition nvm_getchar (s : store) : outcome (Z * store) :=
  let stop s := Ok (-1, n_set_boot false s) in
  if n_abort s then stop s
  else let! (c, s) := read_flash s in if c =? 255 then stop s else Ok (c, s).
(** reading [n] characters *)
Fixpoint nvm_boot (n : nat) (s : store) : outcome (list Z * store) :=
  match n with
  | O => Ok ([], s)
  | S n' => let! (c, s) := nvm_getchar s in let! (l, s) := nvm_boot n' s in Ok (c :: l, s)
  end.
End After.

(** switching on, and snek_eeprom_load (snek-eeprom.c 71-78) *)
Definition nvm_on (s : store) : store :=
  {| n_nvm := n_nvm s; n_start := n_start s; n_end := n_end s; n_off := 0; n_byte := 0; n_pend := false; n_read := 0;
     n_in := n_in s; n_out := n_out s; n_boot := true; n_abort := false |}.
