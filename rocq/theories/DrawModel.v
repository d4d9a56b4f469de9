(** The drawing functions of snek-ssd1315.c: the frame buffer, the bytes sent
    to the display over the I2C bus, and the builtins draw.erase, draw.color,
    draw.line and draw.move.

    Simplifications: the two-wire bus is the sequence of its start conditions,
    bytes and stop conditions (chips/atmega/snek-atmega-i2c.c 43-84; the
    registers of the AVR and waiting on them are left out, and a missing
    acknowledge goes unnoticed there as here).  An access outside the frame
    buffer is undefined behaviour; merely computing such an address, as line
    131 does after the last row, is not counted. *)
From Coq Require Import ZArith List Bool.
From Verif Require Import Base FloatModel SliceModel MachModel ListModel.
Import ListNotations.
Local Open Scope Z_scope.
Local Open Scope outcome_scope.

(** snek-i2c.h 35-52: what the low level functions put on the bus *)
Inductive bus := BStart (addr : Z) | BByte (b : Z) | BStop.

(** snek-ssd1315.c 87, 139, 151, 206: the static variables; [d_bus] is what was
    sent so far, the latest first, and [d_abort] is snek_abort (snek-error.c) *)
Record draw := {
  d_fb : list Z; d_color : Z; d_here : bool; d_x : Z; d_y : Z;
  d_bus : list bus; d_abort : bool }.

Definition with_fb v s := {| d_fb := v; d_color := d_color s; d_here := d_here s; d_x := d_x s; d_y := d_y s; d_bus := d_bus s; d_abort := d_abort s |}.
Definition with_color v s := {| d_fb := d_fb s; d_color := v; d_here := d_here s; d_x := d_x s; d_y := d_y s; d_bus := d_bus s; d_abort := d_abort s |}.
Definition with_here v s := {| d_fb := d_fb s; d_color := d_color s; d_here := v; d_x := d_x s; d_y := d_y s; d_bus := d_bus s; d_abort := d_abort s |}.
Definition with_pos x y s := {| d_fb := d_fb s; d_color := d_color s; d_here := d_here s; d_x := x; d_y := y; d_bus := d_bus s; d_abort := d_abort s |}.
Definition with_bus v s := {| d_fb := d_fb s; d_color := d_color s; d_here := d_here s; d_x := d_x s; d_y := d_y s; d_bus := v; d_abort := d_abort s |}.
Definition with_abort v s := {| d_fb := d_fb s; d_color := d_color s; d_here := d_here s; d_x := d_x s; d_y := d_y s; d_bus := d_bus s; d_abort := v |}.

(** snek-ssd1315.c 24, 77-85 *)
Definition SSD_ADDR : Z := 120.
Definition SCALE : Z := 2.
Definition SCREEN_WIDTH : Z := 128.
Definition SCREEN_HEIGHT : Z := 64.
Definition PAGE_HEIGHT : Z := 8.
Definition FB_WIDTH : Z := SCREEN_WIDTH / SCALE.
Definition FB_HEIGHT : Z := SCREEN_HEIGHT / SCALE.
Definition FB_STRIDE : Z := (FB_WIDTH + 7) / 8.
Definition BITS : Z := Z.shiftl 1 SCALE - 1.
Definition FB_SIZE : Z := FB_STRIDE * FB_HEIGHT.

(** the C program at start: static storage is zero except the colour *)
Definition draw_start : draw :=
  {| d_fb := repeat 0 (Z.to_nat FB_SIZE); d_color := 1; d_here := false; d_x := 0; d_y := 0; d_bus := []; d_abort := false |}.

(** snek-i2c.h 41-52 *)
Definition send (b : bus) (s : draw) : draw := with_bus (b :: d_bus s) s.

(** access to the array fb *)
Definition fb_get (i : Z) (s : draw) : outcome Z :=
  if i <? 0 then UB else match nth_error (d_fb s) (Z.to_nat i) with Some b => Ok b | None => UB end.
Fixpoint set_nth (l : list Z) (n : nat) (v : Z) : option (list Z) :=
  match l, n with
  | [], _ => None
  | _ :: l', O => Some (v :: l')
  | a :: l', S n' => match set_nth l' n' v with Some l2 => Some (a :: l2) | None => None end
  end.
Definition fb_put (i v : Z) (s : draw) : outcome draw :=
  if i <? 0 then UB else match set_nth (d_fb s) (Z.to_nat i) v with Some l => Ok (with_fb l s) | None => UB end.

(** snek-ssd1315.c 89-93: bit_addr, as an index into fb *)
Definition bit_addr (x y : Z) : Z := y * FB_STRIDE + Z.shiftr x 3.

(** snek-ssd1315.c 95-100: ssd_start *)
Definition ssd_start (mode : Z) (s : draw) : draw := send (BByte mode) (send (BStart SSD_ADDR) s).

(** snek-ssd1315.c 26, 27, 38, 102-113: ssd_start_write *)
Definition ssd_start_write (col page : Z) (s : draw) : draw :=
  let s := ssd_start 0 s in
  let s := send (BByte (Z.lor 16 (Z.shiftr col 4))) s in
  let s := send (BByte (Z.lor 0 (Z.land col 15))) s in
  let s := send (BByte (Z.lor 176 page)) s in
  let s := send BStop s in
  ssd_start 64 s.

(** snek-ssd1315.c 128-133: the loop of paint_block *)
Fixpoint block_bits (n : nat) (p bit bits b : Z) (s : draw) : outcome Z :=
  match n with
  | O => Ok b
  | S n' =>
      let! v := fb_get p s in
      let b := if negb (Z.land v bit =? 0) then wrapu 8 (Z.lor b bits) else b in
      block_bits n' (p + FB_STRIDE) bit (wrapu 8 (Z.shiftl bits SCALE)) b s
  end.

(** snek-ssd1315.c 134-135 *)
Fixpoint send_times (n : nat) (b : Z) (s : draw) : draw :=
  match n with O => s | S n' => send_times n' b (send (BByte b) s) end.

(** snek-ssd1315.c 115-137: paint_block *)
Definition paint_block (x y : Z) (s : draw) : outcome draw :=
  let page := wrapu 8 (y / (PAGE_HEIGHT / SCALE)) in
  let col := wrapu 8 (x * SCALE) in
  let s := ssd_start_write col page s in
  let y := wrapu 8 (Z.land y (Z.lnot (PAGE_HEIGHT / SCALE - 1))) in
  let bit := wrapu 8 (Z.shiftl 1 (Z.land x 7)) in
  let! b := block_bits (Z.to_nat (PAGE_HEIGHT / SCALE)) (bit_addr x y) bit BITS 0 s in
  Ok (send BStop (send_times (Z.to_nat SCALE) b s)).

(** snek-ssd1315.c 141-149: set_bit; its arguments are converted to uint8_t *)
Definition set_bit (x y : Z) (s : draw) : outcome draw :=
  let x := wrapu 8 x in
  let y := wrapu 8 y in
  let i := bit_addr x y in
  let ix := Z.land x 7 in
  let mask := wrapu 8 (Z.shiftl 1 ix) in
  let! v := fb_get i s in
  let! s := fb_put i (wrapu 8 (Z.lor (Z.land v (Z.lnot mask)) (Z.shiftl (d_color s) ix))) s in
  paint_block x y s.

(** snek-ssd1315.c 160-165: the loop of snek_builtin_draw_erase; each page is
    sent (128 * 64) >> 3 bytes *)
Fixpoint erase_pages (n : nat) (page : Z) (s : draw) : draw :=
  match n with
  | O => s
  | S n' =>
      let s := ssd_start_write 0 page s in
      let s := send_times (Z.to_nat (Z.shiftr (SCREEN_WIDTH * SCREEN_HEIGHT) 3)) 0 s in
      erase_pages n' (page + 1) (send BStop s)
  end.

(** snek-ssd1315.c 153-167: snek_builtin_draw_erase *)
Definition draw_erase (s : draw) : draw :=
  erase_pages 8 0 (with_fb (repeat 0 (Z.to_nat FB_SIZE)) s).

(** snek-ssd1315.c 56-73: setup *)
Definition setup : list Z :=
  [0; 174; 64; 129; 127; 166; 168; 63; 160; 192; 211; 0; 213; 128; 217; 34; 218; 18; 219; 32; 141; 21; 46; 175].

(** snek-ssd1315.c 169-181: snek_oled_init *)
Definition oled_init (s : draw) : draw :=
  if d_here s then s
  else
    let s := ssd_start 0 (with_here true s) in
    let s := fold_left (fun s b => send (BByte b) s) setup s in
    draw_erase (send BStop s).

(** snek-poly.c 149-164: snek_poly_get_soffset; anything but a number is an
    error and gives zero *)
Definition arg_offset (w : width) (p : poly) (s : draw) : outcome (Z * draw) :=
  match p with
  | PNum f => let! z := float_index w f in Ok (z, s)
  | _ => Ok (0, with_abort true s)
  end.

(** snek-ssd1315.c 183-192: snek_get_coord *)
Definition get_coord (w : width) (p : poly) (max : Z) (s : draw) : outcome (Z * draw) :=
  let! (v, s) := arg_offset w p s in
  let v := if v <? 0 then 0 else v in
  let v := if max <? v then max else v in
  Ok (wraps 8 v, s).

(** snek-ssd1315.c 194-204: snek_get_x, snek_get_y *)
Definition get_x (w : width) (p : poly) := get_coord w p (FB_WIDTH - 1).
Definition get_y (w : width) (p : poly) := get_coord w p (FB_HEIGHT - 1).

(** snek-ssd1315.c 208-213: snek_builtin_draw_color *)
Definition draw_color (w : width) (p : poly) (s : draw) : outcome draw :=
  let! (v, s) := arg_offset w p s in
  Ok (with_color (if v =? 0 then 0 else 1) s).

(** snek-ssd1315.c 241-254: the loop of draw.line.  [len] is an int8_t that
    goes down by one each time and so meets zero within 256 rounds; running
    out of [fuel] is [Err] and does not happen. *)
Fixpoint line_loop (fuel : nat) (dx dy step_x step_y len err : Z) (s : draw) : outcome draw :=
  match fuel with
  | O => Err
  | S fuel' =>
      let! s := set_bit (d_x s) (d_y s) s in
      let e2 := wraps 8 (err * 2) in
      if len =? 0 then Ok s
      else
        let len := wraps 8 (len - 1) in
        let '(err, x) := if dy <=? e2 then (wraps 8 (err + dy), wraps 8 (d_x s + step_x)) else (err, d_x s) in
        let '(err, y) := if e2 <=? dx then (wraps 8 (err + dx), wraps 8 (d_y s + step_y)) else (err, d_y s) in
        line_loop fuel' dx dy step_x step_y len err (with_pos x y s)
  end.

(** snek-ssd1315.c 223-255 *)
Definition line_to (ix iy : Z) (s : draw) : outcome draw :=
  let dx := wraps 8 (ix - d_x s) in
  let '(dx, step_x) := if dx <? 0 then (wraps 8 (- dx), -1) else (dx, 1) in
  let dy := wraps 8 (iy - d_y s) in
  let '(dy, step_y) := if 0 <? dy then (wraps 8 (- dy), 1) else (dy, -1) in
  let len := if dx <? - dy then wraps 8 (- dy) else dx in
  line_loop (Z.to_nat 256) dx dy step_x step_y len (wraps 8 (dx + dy)) s.

(** snek-ssd1315.c 215-256: snek_builtin_draw_line *)
Definition draw_line (w : width) (x y : poly) (s : draw) : outcome draw :=
  let! (ix, s) := get_x w x s in
  let! (iy, s) := get_y w y s in
  line_to ix iy (oled_init s).

(** snek-ssd1315.c 258-264: snek_builtin_draw_move *)
Definition draw_move (w : width) (x y : poly) (s : draw) : outcome draw :=
  let! (ix, s) := get_x w x s in
  let s := with_pos ix (d_y s) s in
  let! (iy, s) := get_y w y s in
  Ok (with_pos (d_x s) iy s).

(** the calls of a program to the four builtins, one after the other *)
Inductive call := CErase | CColor (v : poly) | CMove (x y : poly) | CLine (x y : poly).
Definition do_call (w : width) (c : call) (s : draw) : outcome draw :=
  match c with
  | CErase => Ok (draw_erase s)
  | CColor v => draw_color w v s
  | CMove x y => draw_move w x y s
  | CLine x y => draw_line w x y s
  end.
Fixpoint do_calls (w : width) (cs : list call) (s : draw) : outcome draw :=
  match cs with [] => Ok s | c :: cs' => let! s := do_call w c s in do_calls w cs' s end.
