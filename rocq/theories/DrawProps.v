(** C92 and C93: drawing on the display. *)
From Coq Require Import ZArith Lia List Bool.
From Verif Require Import Base FloatModel SliceModel MachModel DrawModel DrawSpec DrawProofs DrawProofs2 DrawProofs3.
Import ListNotations.
Local Open Scope Z_scope.

Definition dn (z : Z) : poly := PNum (f_of_Z z).
Lemma dn_stands : forall z, float_index W16 (f_of_Z z) = Ok z -> stands W16 (dn z) z.
Proof. intros z H. exists (f_of_Z z). split; [reflexivity|exact H]. Qed.

(** C92: draw.line draws the straight line from the current place to the one
    given (moved inside the frame): every place on it takes the colour, no
    other place changes, and the current place is then its end.  Only for lines
    whose error term fits its int8_t (see [narrow_when]) *)
Theorem C92_line_partial : forall w p q x y s, draw_wf s -> stands w p x -> stands w q y ->
  narrow (d_x s) (d_y s) (clamp 63 x) (clamp 31 y) ->
  exists s', draw_line w p q s = Ok s' /\ draw_wf s' /\ d_abort s' = d_abort s /\ d_color s' = d_color s /\
    d_x s' = clamp 63 x /\ d_y s' = clamp 31 y /\
    forall a b, in_frame a b ->
      (on_line (d_x s) (d_y s) (clamp 63 x) (clamp 31 y) a b -> lit (d_fb s') a b = negb (d_color s =? 0)) /\
      (~ on_line (d_x s) (d_y s) (clamp 63 x) (clamp 31 y) a b -> lit (d_fb s') a b = lit (d_fb s) a b).
Proof.
  intros w p q x y s W P Q N. destruct (line_runs w p q x y s W P Q N) as (s' & E & Ab & D1 & D2 & D3 & D4 & D5 & D6 & _).
  exists s'. do 6 (split; [assumption|]). intros a b Hab. destruct (D6 a b Hab) as [[J L]|[J L]]; split; intro K; try contradiction; exact L.
Qed.

(** lines at most 42 places wide, level lines and lines steeper than diagonal
    are all drawn *)
Theorem C92_narrow : forall x0 y0 x1 y1, in_frame x0 y0 -> in_frame x1 y1 ->
  Z.abs (x1 - x0) <= 42 \/ y0 = y1 \/ Z.abs (x1 - x0) < Z.abs (y1 - y0) -> narrow x0 y0 x1 y1.
Proof. intros x0 y0 x1 y1 [A B] [C D] H. apply narrow_when; [lia|exact H]. Qed.

(** the line is a path from its start to its end: each step goes to one of the
    eight neighbours *)
Theorem C92_path : forall x0 y0 x1 y1,
  (line_x x0 y0 x1 y1 0 = x0 /\ line_y x0 y0 x1 y1 0 = y0) /\
  (line_x x0 y0 x1 y1 (steps x0 y0 x1 y1) = x1 /\ line_y x0 y0 x1 y1 (steps x0 y0 x1 y1) = y1) /\
  forall k, 0 <= k < steps x0 y0 x1 y1 ->
    Z.abs (line_x x0 y0 x1 y1 (k + 1) - line_x x0 y0 x1 y1 k) <= 1 /\
    Z.abs (line_y x0 y0 x1 y1 (k + 1) - line_y x0 y0 x1 y1 k) <= 1.
Proof. exact path. Qed.

(** every other line goes astray: the error term overflows and the line never
    reaches its end *)
Theorem C92_wide_refuted : forall w p q x y s s', draw_wf s -> stands w p x -> stands w q y ->
  ~ narrow (d_x s) (d_y s) (clamp 63 x) (clamp 31 y) ->
  draw_line w p q s = Ok s' -> d_x s' <> clamp 63 x.
Proof. exact line_lost. Qed.

(** and it may write outside the frame buffer, as the line from the left end of
    the last row but one to the right end of the last does, whatever was drawn
    before *)
Theorem C92_frame_refuted : forall w p q x y s, draw_wf s -> stands w p x -> stands w q y ->
  63 <= x -> 31 <= y -> d_x s = 0 -> d_y s = 30 -> draw_line w p q s = UB.
Proof. intros w p q x y s W P Q X Y. apply (line_ub w p q x y s W P Q); unfold clamp; lia. Qed.

(** a number that does not fit snek_soffset_t is not moved inside the frame:
    converting it is undefined *)
Theorem C92_clamp_refuted : forall w f q s, float_index w f = UB -> draw_line w (PNum f) q s = UB.
Proof. exact line_convert. Qed.

(** a call that reports an error still draws: anything but a number stands for
    0 *)
Theorem C92_error_refuted : forall w p q y s, draw_wf s -> is_num p = false -> stands w q y ->
  narrow (d_x s) (d_y s) 0 (clamp 31 y) ->
  exists s', draw_line w p q s = Ok s' /\ d_abort s' = true /\ d_x s' = 0 /\ d_y s' = clamp 31 y /\
    lit (d_fb s') 0 (clamp 31 y) = negb (d_color s =? 0).
Proof.
  intros w p q y s W P Q N. destruct (line_type w p q y s W P Q N) as (s' & E & Ab & D1 & D2 & D3 & D4 & D5 & D6 & _).
  exists s'. do 4 (split; [assumption|]). assert (In : in_frame 0 (clamp 31 y)) by (pose proof (clamp_range 31 y ltac:(lia)); split; lia).
  destruct (D6 0 (clamp 31 y) In) as [[_ L]|[NJ _]]; [exact L|]. exfalso. apply NJ.
  destruct (path (d_x s) (d_y s) 0 (clamp 31 y)) as (_ & [Px Py] & _).
  exists (steps (d_x s) (d_y s) 0 (clamp 31 y)). split; [unfold steps; lia|]. split; symmetry; assumption.
Qed.

Example C92_applies :
  draw_wf draw_start /\ stands W16 (dn 5) 5 /\ stands W16 (dn 99) 99 /\
  narrow 0 0 (clamp 63 5) (clamp 31 99) /\ narrow 0 0 63 0 /\ ~ narrow 0 0 63 1 /\ is_num PNull = false /\
  float_index W16 (f_of_Z 100000) = UB /\
  line_x 0 0 5 3 2 = 2 /\ line_y 0 0 5 3 2 = 1.
Proof.
  split; [exact start_wf|]. split; [apply dn_stands; reflexivity|]. split; [apply dn_stands; reflexivity|].
  split; [apply narrow_when; cbn; lia|]. split; [apply narrow_when; cbn; lia|].
  split; [|repeat split].
  intro N. unfold narrow in N. cbv zeta in N. specialize (N ltac:(cbn; lia) 32 ltac:(cbn; lia)). vm_compute in N. apply N. reflexivity.
Qed.

(** C93: after any sequence of calls whose lines are narrow, starting from
    power on and whatever the display held, the frame buffer is the picture the
    calls describe, and once a line was drawn or the picture erased the display
    shows it, each place as a square of two by two; a line also switches the
    display on *)
Theorem C93_display_partial : forall w cs acs k,
  Forall2 (stands_for w) cs acs -> all_narrow 0 0 acs -> acts acs sketch_start k ->
  exists s, do_calls w cs draw_start = Ok s /\ d_abort s = false /\ d_x s = k_x k /\ d_y s = k_y k /\
    (forall x y, in_frame x y -> lit (d_fb s) x y = k_pic k x y) /\
    forall v, panel_ready v ->
      (existsb paints acs = true -> forall x y, 0 <= x < 128 -> 0 <= y < 64 ->
         seen (panel_after v (d_bus s)) x y = k_pic k (x / 2) (y / 2)) /\
      (existsb line_in acs = true -> v_on (panel_after v (d_bus s)) = true).
Proof. exact program_runs. Qed.

(** draw.erase alone never switches the display on *)
Theorem C93_erase_refuted : forall v n s, panel_ready (panel_after v (d_bus s)) ->
  v_on (panel_after v (d_bus (Nat.iter n draw_erase s))) = v_on (panel_after v (d_bus s)).
Proof.
  intros v n s R. assert (K : panel_ready (panel_after v (d_bus (Nat.iter n draw_erase s))) /\
    v_on (panel_after v (d_bus (Nat.iter n draw_erase s))) = v_on (panel_after v (d_bus s))); [|apply K].
  induction n as [|n [IH1 IH2]]; [split; [exact R|reflexivity]|]. change (Nat.iter (S n) draw_erase s) with (draw_erase (Nat.iter n draw_erase s)).
  destruct (erase_runs (Nat.iter n draw_erase s)) as (_ & _ & _ & P). destruct (P v IH1) as (P1 & P2 & _).
  split; [exact P1|]. rewrite P2. exact IH2.
Qed.

(** a diagonal, then part of it rubbed out *)
Definition demo_calls : list call := [CMove (dn 2) (dn 3); CLine (dn 5) (dn 6); CColor (dn 0); CLine (dn 4) (dn 5)].
Definition demo_acts : list action := [AMove 2 3; ALine 5 6; AColor 0; ALine 4 5].
Definition demo_pic (x y : Z) : bool := ((x =? 2) && (y =? 3)) || ((x =? 3) && (y =? 4)).
Definition full_pic (x y : Z) : bool := (2 <=? x) && (x <=? 5) && (y =? x + 1).
Example C93_applies :
  Forall2 (stands_for W16) demo_calls demo_acts /\ all_narrow 0 0 demo_acts /\
  acts demo_acts sketch_start {| k_x := 4; k_y := 5; k_ink := false; k_pic := demo_pic |} /\
  panel_ready {| v_stage := SIdle; v_args := 0; v_col := 5; v_page := 3; v_on := false; v_ram := fun p c => 170 |}.
Proof.
  split; [|split; [|split]].
  - repeat constructor; apply dn_stands; reflexivity.
  - cbn [all_narrow demo_acts]. split; [apply narrow_when; cbn; lia|]. split; [apply narrow_when; cbn; lia|exact I].
  - apply acts_cons with {| k_x := 2; k_y := 3; k_ink := true; k_pic := fun _ _ => false |}; [repeat split|].
    apply acts_cons with {| k_x := 5; k_y := 6; k_ink := true; k_pic := full_pic |}.
    { split; [reflexivity|]. split; [reflexivity|]. split; [reflexivity|]. cbn [k_x k_y k_ink k_pic]. intros x y _.
      change (clamp 63 5) with 5. change (clamp 31 6) with 6. split.
      - intros (j & J & Jx & Jy). change (steps 2 3 5 6) with 3 in J.
        assert (A : j = 0 \/ j = 1 \/ j = 2 \/ j = 3) by lia. decompose [or] A; subst j x y; reflexivity.
      - intro NJ. destruct (full_pic x y) eqn:E; [|reflexivity]. exfalso. apply NJ. unfold full_pic in E. rewrite !andb_true_iff in E.
        destruct E as ((E1 & E2) & E3). apply Z.leb_le in E1, E2. apply Z.eqb_eq in E3.
        exists (x - 2). split; [change (steps 2 3 5 6) with 3; lia|]. 
        assert (A : x = 2 \/ x = 3 \/ x = 4 \/ x = 5) by lia. decompose [or] A; subst; split; reflexivity. }
    apply acts_cons with {| k_x := 5; k_y := 6; k_ink := false; k_pic := full_pic |}; [repeat split|].
    apply acts_cons with {| k_x := 4; k_y := 5; k_ink := false; k_pic := demo_pic |}; [|constructor].
    split; [reflexivity|]. split; [reflexivity|]. split; [reflexivity|]. cbn [k_x k_y k_ink k_pic]. intros x y _.
    change (clamp 63 4) with 4. change (clamp 31 5) with 5. split.
    + intros (j & J & Jx & Jy). change (steps 5 6 4 5) with 1 in J.
      assert (A : j = 0 \/ j = 1) by lia. decompose [or] A; subst j x y; reflexivity.
    + intro NJ. assert (N5 : ~ (x = 5 /\ y = 6)).
      { intros [-> ->]. apply NJ. exists 0. split; [change (steps 5 6 4 5) with 1; lia|]. split; reflexivity. }
      assert (N4 : ~ (x = 4 /\ y = 5)).
      { intros [-> ->]. apply NJ. exists 1. split; [change (steps 5 6 4 5) with 1; lia|]. split; reflexivity. }
      unfold demo_pic, full_pic. destruct (Z.eqb_spec x 2), (Z.eqb_spec x 3), (Z.eqb_spec y 3), (Z.eqb_spec y 4), (Z.leb_spec 2 x), (Z.leb_spec x 5), (Z.eqb_spec y (x + 1)); cbn; try reflexivity; exfalso; lia.
  - split; [reflexivity|]. split; [reflexivity|]. split; cbn; lia.
Qed.

Print Assumptions C92_line_partial.
Print Assumptions C92_narrow.
Print Assumptions C92_path.
Print Assumptions C92_wide_refuted.
Print Assumptions C92_frame_refuted.
Print Assumptions C92_clamp_refuted.
Print Assumptions C92_error_refuted.
Print Assumptions C93_display_partial.
Print Assumptions C93_erase_refuted.
