(** What the two kinds of coloured lights make of the lines they hang on, written
    from their data sheets, without the code's helpers. *)
From Coq Require Import ZArith Reals List Bool.
From Flocq Require Import IEEE754.BinarySingleNaN IEEE754.Binary.
From Verif Require Import Base FloatModel LedModel.
Import ListNotations.
Local Open Scope Z_scope.

(** ** WS2812: one line; each pulse is a bit, 1 when it is longer than [th] *)
Definition seen := (bool * Z * list bool)%type.
Definition ws_step (th pin : Z) (s : seen) (e : event) : seen :=
  let '(lvl, t, bits) := s in
  let edge := if (lvl : bool) then (false, 0, bits ++ [th <? t]) else (true, 0, bits) in
  match e with
  | Tgl p => if p =? pin then edge else s
  | Put p v => if p =? pin then (if Bool.eqb v lvl then s else edge) else s
  | Nop => if lvl then (lvl, t + 1, bits) else s
  end.
Definition ws_see (th pin : Z) (tr : list event) : seen := fold_left (ws_step th pin) tr (false, 0, []).
(** the bits, when the line was low before and is again *)
Definition ws_bits (th pin : Z) (tr : list event) : option (list bool) :=
  let '(lvl, _, bits) := ws_see th pin tr in if lvl then None else Some bits.

(** a number from its bits, the most significant first *)
Definition number (l : list bool) : Z := fold_left (fun a b => 2 * a + (if (b : bool) then 1 else 0)) l 0.

(** Each light takes 24 bits, green, red and blue, and hands on the rest. Colours
    are (red, green, blue). *)
Fixpoint ws_lights (n : nat) (bits : list bool) : list (Z * Z * Z) :=
  match n with
  | O => []
  | Datatypes.S n =>
      (number (firstn 8 (skipn 8 bits)), number (firstn 8 bits), number (firstn 8 (skipn 16 bits)))
      :: ws_lights n (skipn 24 bits)
  end.

(** ** APA102: a data and a clock line; the data count when the clock rises *)
Definition clocked := (bool * bool * list bool)%type.
Definition ap_step (d c : Z) (s : clocked) (e : event) : clocked :=
  let '(dl, cl, bits) := s in
  let clk (v : bool) := (dl, v, if v then (if cl then bits else bits ++ [dl]) else bits) in
  match e with
  | Tgl p => if p =? c then clk (negb cl) else if p =? d then (negb dl, cl, bits) else s
  | Put p v => if p =? c then clk v else if p =? d then (v, cl, bits) else s
  | Nop => s
  end.
Definition ap_bits (d c : Z) (dl cl : bool) (tr : list event) : list bool :=
  let '(_, _, bits) := fold_left (ap_step d c) tr (dl, cl, []) in bits.
(** at least 32 zeros, up to a one *)
Fixpoint ap_start (n : nat) (bits : list bool) : list bool :=
  match bits with
  | [] => []
  | false :: r => ap_start (Datatypes.S n) r
  | true :: r => if (32 <=? n)%nat then bits else ap_start O r
  end.
(** Each light takes 32 bits: three ones, five for the brightness of all, blue, green
    and red. A frame: (brightness, (red, green, blue)) *)
Fixpoint ap_lights (n : nat) (bits : list bool) : list (Z * (Z * Z * Z)) :=
  match n with
  | O => []
  | Datatypes.S n =>
      (number (firstn 5 (skipn 3 bits)),
       (number (firstn 8 (skipn 24 bits)), number (firstn 8 (skipn 16 bits)), number (firstn 8 (skipn 8 bits))))
      :: ap_lights n (skipn 32 bits)
  end.

(** ** The colours asked for *)
Definition amount (f : float) : R :=
  match f with Binary.B754_infinity _ _ s => if s then 0%R else 1%R | _ => Rmax 0 (Rmin 1 (B2R 24 128 f)) end.
(** 255 times the number, kept between 0 and 1, to the nearest but for the rounding of floats *)
Definition level (f : float) (z : Z) : Prop := 0 <= z <= 255 /\ (Rabs (IZR z - 255 * amount f) <= 1 / 2 + / 32768)%R.
Definition shade (px : item) (x : Z * Z * Z) : Prop :=
  exists a b c, px = IList false [INum a; INum b; INum c] /\
    let '(r, g, bl) := x in level a r /\ level b g /\ level c bl.
Definition proper (f : float) : Prop := f_is_nan f = false.
(** a colour: three numbers *)
Definition colour (px : item) : Prop := exists a b c, px = IList false [INum a; INum b; INum c] /\ proper a /\ proper b /\ proper c.
Definition no_nan (a : item) : Prop := match a with INum f => proper f | _ => True end.
(** not a colour (and without NaN among its numbers) *)
Definition no_colour (px : item) : Prop :=
  match px with
  | IList false [a; b; c] => no_nan a /\ no_nan b /\ no_nan c /\ (is_num a && is_num b && is_num c = false)
  | _ => True
  end.
(** the lights of the board are only driven through the pins given *)
Definition touches (pins : list Z) (tr : list event) : Prop :=
  Forall (fun e => match e with Tgl p | Put p _ => In p pins | Nop => True end) tr.
(** memory for what is asked for *)
Definition roomy (alloc : Z -> option (nat -> pixel)) (n : Z) : Prop := exists m, alloc n = Some m.
Definition bytes (x : pixel) : Prop := (0 <= x_extra x < 256) /\ (0 <= x_b x < 256) /\ (0 <= x_r x < 256) /\ (0 <= x_g x < 256).
Definition wide (m : nat -> pixel) : Prop := forall i, bytes (m i).
Definition rgb (x : pixel) : Z * Z * Z := (x_r x, x_g x, x_b x).
(** memory holds bytes *)
Definition sane (alloc : Z -> option (nat -> pixel)) (s : led) : Prop :=
  (forall n m, alloc n = Some m -> wide m) /\ (forall m, l_buf s = Some m -> wide m).
(** a single colour given instead of a list of colours *)
Definition direct (l : list item) : Prop := exists f b c, l = [INum f; b; c].
(** where the one pixel of a single colour is put, with what lies there and behind *)
Definition place (alloc : Z -> option (nat -> pixel)) (s : led) (m : nat -> pixel) : Prop :=
  (l_buf s = Some m /\ 1 <= l_count s) \/ ((l_buf s = None \/ l_count s < 1) /\ alloc 1 = Some m).
