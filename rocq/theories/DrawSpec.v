(** What the drawing functions promise, in terms of a picture and of the
    display.

    Pictures are functions from a place (x to the right, y down) to whether it
    is lit.  The display is the SSD1315 controller as its data sheet describes
    it for page addressing mode, the mode it is in after a reset. *)
From Coq Require Import ZArith List Bool.
From Verif Require Import Base FloatModel SliceModel MachModel DrawModel.
Import ListNotations.
Local Open Scope Z_scope.

(** * Lines *)

(** [a / l] to the nearest integer, halves upward *)
Definition nearest (a l : Z) : Z := if l =? 0 then 0 else (2 * a + l) / (2 * l).

(** the number of steps from one place to another when a step may go to any of
    the eight neighbours *)
Definition steps (x0 y0 x1 y1 : Z) : Z := Z.max (Z.abs (x1 - x0)) (Z.abs (y1 - y0)).

(** the [k]th place of the straight line: the place nearest to the point that
    is the fraction [k / steps] of the way along *)
Definition line_x (x0 y0 x1 y1 k : Z) : Z :=
  x0 + Z.sgn (x1 - x0) * nearest (Z.abs (x1 - x0) * k) (steps x0 y0 x1 y1).
Definition line_y (x0 y0 x1 y1 k : Z) : Z :=
  y0 + Z.sgn (y1 - y0) * nearest (Z.abs (y1 - y0) * k) (steps x0 y0 x1 y1).
Definition on_line (x0 y0 x1 y1 x y : Z) : Prop :=
  exists k, 0 <= k <= steps x0 y0 x1 y1 /\ x = line_x x0 y0 x1 y1 k /\ y = line_y x0 y0 x1 y1 k.

(** how far the line has run ahead in y of the exact line at step [k], times
    the width of the line *)
Definition ahead (dx dy k : Z) : Z := dx * nearest (dy * k) dx - dy * k.

(** the lines whose error term, twice it, stays within an int8_t: always so
    when the line is at most 42 places wide or level *)
Definition narrow (x0 y0 x1 y1 : Z) : Prop :=
  let dx := Z.abs (x1 - x0) in
  let dy := Z.abs (y1 - y0) in
  dy <= dx -> forall k, 0 <= k < dx -> 2 * (ahead dx dy k + dx - dy) <= 127.

Definition in_frame (x y : Z) : Prop := 0 <= x < 64 /\ 0 <= y < 32.
Definition clamp (max v : Z) : Z := Z.max 0 (Z.min max v).

(** * The frame buffer as a picture *)
Definition lit (fb : list Z) (x y : Z) : bool := Z.testbit (nth (Z.to_nat (y * 8 + x / 8)) fb 0) (x mod 8).

(** * The display *)
Inductive stage := SIdle | SControl | SCommand | SData | SOther.
Record panel := { v_stage : stage; v_args : nat; v_col : Z; v_page : Z; v_on : bool; v_ram : Z -> Z -> Z }.

(** the number of bytes that follow a command (SSD1315 data sheet, command
    table) *)
Definition arg_bytes (b : Z) : nat :=
  if existsb (Z.eqb b) [32; 129; 168; 211; 213; 217; 218; 219; 141; 35; 214] then 1
  else if existsb (Z.eqb b) [33; 34; 163] then 2
  else if existsb (Z.eqb b) [38; 39; 44; 45] then 6
  else if existsb (Z.eqb b) [41; 42] then 7
  else 0.

Definition panel_command (b : Z) (v : panel) : panel :=
  match v_args v with
  | S n => {| v_stage := v_stage v; v_args := n; v_col := v_col v; v_page := v_page v; v_on := v_on v; v_ram := v_ram v |}
  | O =>
      let col := if (0 <=? b) && (b <? 16) then v_col v / 16 * 16 + b
                 else if (16 <=? b) && (b <? 24) then (b - 16) * 16 + v_col v mod 16
                 else v_col v in
      let page := if (176 <=? b) && (b <? 184) then b - 176 else v_page v in
      let on := if b =? 174 then false else if b =? 175 then true else v_on v in
      {| v_stage := v_stage v; v_args := arg_bytes b; v_col := col; v_page := page; v_on := on; v_ram := v_ram v |}
  end.

Definition in_stage (g : stage) (v : panel) : panel :=
  {| v_stage := g; v_args := v_args v; v_col := v_col v; v_page := v_page v; v_on := v_on v; v_ram := v_ram v |}.

(** a byte of data goes to the current page and column; the column then moves
    on and wraps round within the page *)
Definition panel_data (b : Z) (v : panel) : panel :=
  {| v_stage := v_stage v; v_args := v_args v; v_col := (v_col v + 1) mod 128; v_page := v_page v; v_on := v_on v;
     v_ram := fun p c => if (p =? v_page v) && (c =? v_col v) then b else v_ram v p c |}.

Definition panel_step (e : bus) (v : panel) : panel :=
  match e with
  | BStart a => in_stage (if a =? 120 then SControl else SOther) v
  | BStop => in_stage SIdle v
  | BByte b =>
      match v_stage v with
      | SControl => in_stage (if b =? 0 then SCommand else if b =? 64 then SData else SOther) v
      | SCommand => panel_command b v
      | SData => panel_data b v
      | _ => v
      end
  end.

(** the display after everything on the bus, the latest first *)
Definition panel_after (v : panel) (l : list bus) : panel := fold_right panel_step v l.

(** what is seen at column [x] of 128 and row [y] of 64 *)
Definition seen (v : panel) (x y : Z) : bool := Z.testbit (v_ram v (y / 8) x) (y mod 8).

(** a display as it may be found: any contents, at the end of any exchange *)
Definition panel_ready (v : panel) : Prop :=
  v_stage v = SIdle /\ v_args v = 0%nat /\ 0 <= v_col v < 128 /\ 0 <= v_page v < 8.

(** * Pictures drawn by a program *)
Inductive action := AErase | AColor (v : Z) | AMove (x y : Z) | ALine (x y : Z).
Record sketch := { k_x : Z; k_y : Z; k_ink : bool; k_pic : Z -> Z -> bool }.
Definition sketch_start : sketch := {| k_x := 0; k_y := 0; k_ink := true; k_pic := fun _ _ => false |}.

(** what an action does to the picture *)
Definition act (a : action) (k k' : sketch) : Prop :=
  match a with
  | AErase => k_x k' = k_x k /\ k_y k' = k_y k /\ k_ink k' = k_ink k /\
              forall x y, in_frame x y -> k_pic k' x y = false
  | AColor v => k_x k' = k_x k /\ k_y k' = k_y k /\ k_ink k' = negb (v =? 0) /\
                forall x y, in_frame x y -> k_pic k' x y = k_pic k x y
  | AMove x1 y1 => k_x k' = clamp 63 x1 /\ k_y k' = clamp 31 y1 /\ k_ink k' = k_ink k /\
                   forall x y, in_frame x y -> k_pic k' x y = k_pic k x y
  | ALine x1 y1 =>
      k_x k' = clamp 63 x1 /\ k_y k' = clamp 31 y1 /\ k_ink k' = k_ink k /\
      forall x y, in_frame x y ->
        (on_line (k_x k) (k_y k) (clamp 63 x1) (clamp 31 y1) x y -> k_pic k' x y = k_ink k) /\
        (~ on_line (k_x k) (k_y k) (clamp 63 x1) (clamp 31 y1) x y -> k_pic k' x y = k_pic k x y)
  end.

(** the number an argument stands for *)
Definition stands (w : width) (p : poly) (v : Z) : Prop := exists f, p = PNum f /\ float_index w f = Ok v.

Inductive stands_for (w : width) : call -> action -> Prop :=
| sf_erase : stands_for w CErase AErase
| sf_color p v : stands w p v -> stands_for w (CColor p) (AColor v)
| sf_move p q x y : stands w p x -> stands w q y -> stands_for w (CMove p q) (AMove x y)
| sf_line p q x y : stands w p x -> stands w q y -> stands_for w (CLine p q) (ALine x y).

(** every line among the actions is narrow, starting from the place [x], [y] *)
Fixpoint all_narrow (x y : Z) (l : list action) : Prop :=
  match l with
  | [] => True
  | AMove x1 y1 :: l' => all_narrow (clamp 63 x1) (clamp 31 y1) l'
  | ALine x1 y1 :: l' => narrow x y (clamp 63 x1) (clamp 31 y1) /\ all_narrow (clamp 63 x1) (clamp 31 y1) l'
  | _ :: l' => all_narrow x y l'
  end.

Inductive acts : list action -> sketch -> sketch -> Prop :=
| acts_nil k : acts [] k k
| acts_cons a l k k' k'' : act a k k' -> acts l k' k'' -> acts (a :: l) k k''.

(** is the display reached at all *)
Definition paints (a : action) : bool := match a with AErase | ALine _ _ => true | _ => false end.
