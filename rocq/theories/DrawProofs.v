(** Lemmas about the frame buffer and about single places. *)
From Coq Require Import ZArith Lia List Bool.
From Verif Require Import Base FloatModel SliceModel MachModel DrawModel DrawSpec.
Import ListNotations.
Local Open Scope Z_scope.

Definition fb_ok (l : list Z) : Prop := length l = Z.to_nat 256.

Lemma set_nth_runs : forall l n v, (n < length l)%nat ->
  exists l', set_nth l n v = Some l' /\ length l' = length l /\
    forall i, nth i l' 0 = if Nat.eqb i n then v else nth i l 0.
Proof.
  induction l as [|a l IH]; intros n v H; [cbn in H; lia|]. destruct n as [|n].
  - exists (v :: l). split; [reflexivity|]. split; [reflexivity|]. intros [|i]; reflexivity.
  - cbn in H. destruct (IH n v ltac:(lia)) as (l' & E & L & N). exists (a :: l'). cbn. rewrite E.
    split; [reflexivity|]. split; [lia|]. intros [|i]; [reflexivity|]. cbn. apply N.
Qed.

Lemma fb_get_runs : forall i s, fb_ok (d_fb s) -> 0 <= i < 256 -> fb_get i s = Ok (nth (Z.to_nat i) (d_fb s) 0).
Proof.
  intros i s F H. unfold fb_get. destruct (Z.ltb_spec i 0); [lia|].
  erewrite (nth_error_nth' _ 0) by (unfold fb_ok in F; lia). reflexivity.
Qed.

Lemma fb_get_outside : forall i s, fb_ok (d_fb s) -> ~ 0 <= i < 256 -> fb_get i s = UB.
Proof.
  intros i s F H. unfold fb_get. destruct (Z.ltb_spec i 0); [reflexivity|].
  destruct (nth_error (d_fb s) (Z.to_nat i)) eqn:E; [|reflexivity].
  assert (K : nth_error (d_fb s) (Z.to_nat i) <> None) by congruence. apply nth_error_Some in K. unfold fb_ok in F. lia.
Qed.

Lemma fb_put_runs : forall i v s, fb_ok (d_fb s) -> 0 <= i < 256 ->
  exists l, fb_put i v s = Ok (with_fb l s) /\ fb_ok l /\
    forall j, nth j l 0 = if Nat.eqb j (Z.to_nat i) then v else nth j (d_fb s) 0.
Proof.
  intros i v s F H. unfold fb_put. destruct (Z.ltb_spec i 0); [lia|].
  destruct (set_nth_runs (d_fb s) (Z.to_nat i) v) as (l & E & L & N); [unfold fb_ok in F; lia|].
  exists l. rewrite E. split; [reflexivity|]. split; [unfold fb_ok in *; lia|exact N].
Qed.

(** * Bits *)
Lemma mask_is : forall i, 0 <= i < 8 -> wrapu 8 (Z.shiftl 1 i) = 2 ^ i.
Proof.
  intros i H. rewrite Z.shiftl_1_l. unfold wrapu. apply Z.mod_small.
  split; [apply Z.pow_nonneg; lia|]. apply Z.pow_lt_mono_r; lia.
Qed.

Lemma land_mask : forall v i, 0 <= i < 8 -> negb (Z.land v (wrapu 8 (Z.shiftl 1 i)) =? 0) = Z.testbit v i.
Proof.
  intros v i H. rewrite mask_is by exact H. destruct (Z.testbit v i) eqn:T.
  - destruct (Z.eqb_spec (Z.land v (2 ^ i)) 0) as [E|]; [|reflexivity].
    assert (K : Z.testbit (Z.land v (2 ^ i)) i = false) by (rewrite E; apply Z.testbit_0_l).
    rewrite Z.land_spec, T, Z.pow2_bits_true in K by lia. discriminate K.
  - destruct (Z.eqb_spec (Z.land v (2 ^ i)) 0) as [|N]; [reflexivity|]. exfalso. apply N. apply Z.bits_inj'. intros n Hn.
    rewrite Z.land_spec, Z.testbit_0_l, Z.pow2_bits_eqb by lia. destruct (Z.eqb_spec i n) as [<-|]; [rewrite T; reflexivity|apply andb_false_r].
Qed.

Lemma wrapu_bit : forall v j, 0 <= j < 8 -> Z.testbit (wrapu 8 v) j = Z.testbit v j.
Proof. intros v j H. unfold wrapu. apply Z.mod_pow2_bits_low. lia. Qed.

Definition ink_of (c : Z) : bool := negb (c =? 0).

Lemma put_bit : forall v c i j, 0 <= i < 8 -> 0 <= j < 8 -> c = 0 \/ c = 1 ->
  Z.testbit (wrapu 8 (Z.lor (Z.land v (Z.lnot (wrapu 8 (Z.shiftl 1 i)))) (Z.shiftl c i))) j
  = if j =? i then ink_of c else Z.testbit v j.
Proof.
  intros v c i j Hi Hj Hc. rewrite wrapu_bit by exact Hj. rewrite Z.lor_spec, Z.land_spec, Z.lnot_spec, mask_is by lia.
  rewrite Z.pow2_bits_eqb, Z.shiftl_spec by lia.
  destruct (Z.eqb_spec j i) as [->|N].
  - rewrite Z.eqb_refl. cbn. rewrite andb_false_r. cbn. rewrite Z.sub_diag. destruct Hc as [->| ->]; reflexivity.
  - replace (i =? j) with false by (symmetry; apply Z.eqb_neq; lia). cbn. rewrite andb_true_r.
    replace (Z.testbit c (j - i)) with false; [apply orb_false_r|]. symmetry.
    destruct (Z.ltb_spec j i); [apply Z.testbit_neg_r; lia|].
    destruct Hc as [->| ->]; [apply Z.testbit_0_l|]. replace 1 with (2 ^ 0) by reflexivity. apply Z.pow2_bits_false. lia.
Qed.

(** * Addresses *)
Lemma bit_addr_is : forall x y, bit_addr x y = y * 8 + x / 8.
Proof. intros x y. unfold bit_addr. rewrite Z.shiftr_div_pow2 by lia. reflexivity. Qed.

Lemma land7 : forall x, Z.land x 7 = x mod 8.
Proof. intro x. change 7 with (Z.ones 3). rewrite Z.land_ones by lia. reflexivity. Qed.

Lemma bit_addr_range : forall x y, in_frame x y -> 0 <= y * 8 + x / 8 < 256.
Proof. intros x y [Hx Hy]. assert (0 <= x / 8 < 8) by (split; [apply Z.div_pos; lia|apply Z.div_lt_upper_bound; lia]). lia. Qed.

Lemma addr_inj : forall x y x' y', in_frame x y -> in_frame x' y' ->
  y * 8 + x / 8 = y' * 8 + x' / 8 -> x mod 8 = x' mod 8 -> x = x' /\ y = y'.
Proof.
  intros x y x' y' [Hx Hy] [Hx' Hy'] E M.
  assert (0 <= x / 8 < 8) by (split; [apply Z.div_pos; lia|apply Z.div_lt_upper_bound; lia]).
  assert (0 <= x' / 8 < 8) by (split; [apply Z.div_pos; lia|apply Z.div_lt_upper_bound; lia]).
  pose proof (Z.div_mod x 8 ltac:(lia)). pose proof (Z.div_mod x' 8 ltac:(lia)). lia.
Qed.

Lemma row_base : forall y, 0 <= y < 32 -> wrapu 8 (Z.land y (Z.lnot 3)) = y / 4 * 4.
Proof.
  intros y H. assert (E : Z.land y (Z.lnot 3) = y / 4 * 4).
  { rewrite <- Z.ldiff_land. change 3 with (Z.ones 2). rewrite Z.ldiff_ones_r by lia.
    rewrite Z.shiftr_div_pow2, Z.shiftl_mul_pow2 by lia. reflexivity. }
  rewrite E. unfold wrapu. apply Z.mod_small. pose proof (Z.div_mod y 4 ltac:(lia)). pose proof (Z.mod_pos_bound y 4 ltac:(lia)).
  change (2 ^ 8) with 256. lia.
Qed.

(** * One block of the display *)
Definition pack (b0 b1 b2 b3 : bool) : Z :=
  (if b0 then 3 else 0) + (if b1 then 12 else 0) + (if b2 then 48 else 0) + (if b3 then 192 else 0).

(** the byte of the display that covers the place [x], [y] *)
Definition block_byte (fb : list Z) (x y : Z) : Z :=
  let y := y / 4 * 4 in pack (lit fb x y) (lit fb x (y + 1)) (lit fb x (y + 2)) (lit fb x (y + 3)).

Lemma block_byte_bit : forall fb x y j, 0 <= j < 8 -> Z.testbit (block_byte fb x y) j = lit fb x (y / 4 * 4 + j / 2).
Proof.
  intros fb x y j H. unfold block_byte.
  assert (J : j = 0 \/ j = 1 \/ j = 2 \/ j = 3 \/ j = 4 \/ j = 5 \/ j = 6 \/ j = 7) by lia.
  decompose [or] J; subst; cbn [Z.div Z.div_eucl Z.pos_div_eucl Z.leb Z.ltb Z.compare Pos.compare Pos.compare_cont Z.mul Z.add Pos.add Pos.mul Z.sub Z.opp Z.pos_sub Z.succ_double Z.pred_double fst snd Pos.pred_double Z.double];
  try rewrite Z.add_0_r;
  destruct (lit fb x (y / 4 * 4)), (lit fb x (y / 4 * 4 + 1)), (lit fb x (y / 4 * 4 + 2)), (lit fb x (y / 4 * 4 + 3)); reflexivity.
Qed.

(** what paint_block sends, the latest first *)
Definition block_msg (fb : list Z) (x y : Z) : list bus :=
  let b := block_byte fb x y in
  [BStop; BByte b; BByte b; BByte 64; BStart 120; BStop; BByte (Z.lor 176 (y / 4)); BByte (Z.land (x * 2) 15);
   BByte (Z.lor 16 (Z.shiftr (x * 2) 4)); BByte 0; BStart 120].

Lemma block_bits_runs : forall x y s, fb_ok (d_fb s) -> in_frame x y ->
  block_bits 4 (bit_addr x (y / 4 * 4)) (wrapu 8 (Z.shiftl 1 (Z.land x 7))) BITS 0 s = Ok (block_byte (d_fb s) x y).
Proof.
  intros x y s F [Hx Hy]. rewrite bit_addr_is, land7.
  pose proof (Z.mod_pos_bound x 8 ltac:(lia)) as Hm.
  assert (0 <= x / 8 < 8) by (split; [apply Z.div_pos; lia|apply Z.div_lt_upper_bound; lia]).
  assert (0 <= y / 4 < 8) by (split; [apply Z.div_pos; lia|apply Z.div_lt_upper_bound; lia]).
  unfold block_byte, lit. set (y0 := y / 4 * 4) in *. set (a := y0 * 8 + x / 8) in *.
  assert (A : 0 <= a <= 231) by (unfold a, y0; lia).
  replace ((y0 + 1) * 8 + x / 8) with (a + 8) by (unfold a; lia).
  replace ((y0 + 2) * 8 + x / 8) with (a + 8 + 8) by (unfold a; lia).
  replace ((y0 + 3) * 8 + x / 8) with (a + 8 + 8 + 8) by (unfold a; lia).
  cbn [block_bits]. change FB_STRIDE with 8.
  rewrite (fb_get_runs a) by (auto; lia). cbn [obind]. rewrite land_mask by exact Hm.
  rewrite (fb_get_runs (a + 8)) by (auto; lia). cbn [obind]. rewrite land_mask by exact Hm.
  rewrite (fb_get_runs (a + 8 + 8)) by (auto; lia). cbn [obind]. rewrite land_mask by exact Hm.
  rewrite (fb_get_runs (a + 8 + 8 + 8)) by (auto; lia). cbn [obind]. rewrite land_mask by exact Hm.
  destruct (Z.testbit (nth (Z.to_nat a) (d_fb s) 0) (x mod 8)), (Z.testbit (nth (Z.to_nat (a + 8)) (d_fb s) 0) (x mod 8)),
    (Z.testbit (nth (Z.to_nat (a + 8 + 8)) (d_fb s) 0) (x mod 8)), (Z.testbit (nth (Z.to_nat (a + 8 + 8 + 8)) (d_fb s) 0) (x mod 8)); reflexivity.
Qed.

Lemma paint_block_runs : forall x y s, fb_ok (d_fb s) -> in_frame x y ->
  paint_block x y s = Ok (with_bus (block_msg (d_fb s) x y ++ d_bus s) s).
Proof.
  intros x y s F H. pose proof H as [Hx Hy]. unfold paint_block. change (PAGE_HEIGHT / SCALE) with 4. change (Z.to_nat 4) with 4%nat. change (4 - 1) with 3.
  assert (0 <= y / 4 < 8) by (split; [apply Z.div_pos; lia|apply Z.div_lt_upper_bound; lia]).
  rewrite row_base by exact Hy. change SCALE with 2. change (Z.to_nat 2) with 2%nat.
  assert (E1 : wrapu 8 (y / 4) = y / 4) by (apply Z.mod_small; change (2 ^ 8) with 256; lia).
  assert (E2 : wrapu 8 (x * 2) = x * 2) by (apply Z.mod_small; change (2 ^ 8) with 256; lia).
  rewrite E1, E2, block_bits_runs by assumption. reflexivity.
Qed.

(** [s'] differs from [s] in the frame buffer and what was sent only *)
Record same_rest (s s' : draw) : Prop := {
  sr_color : d_color s' = d_color s; sr_here : d_here s' = d_here s;
  sr_x : d_x s' = d_x s; sr_y : d_y s' = d_y s; sr_abort : d_abort s' = d_abort s }.

Definition ink_ok (c : Z) : Prop := c = 0 \/ c = 1.

Lemma set_bit_runs : forall x y s, fb_ok (d_fb s) -> ink_ok (d_color s) -> in_frame x y ->
  exists s', set_bit x y s = Ok s' /\ same_rest s s' /\ fb_ok (d_fb s') /\
    d_bus s' = block_msg (d_fb s') x y ++ d_bus s /\
    forall x' y', in_frame x' y' ->
      lit (d_fb s') x' y' = if (x' =? x) && (y' =? y) then ink_of (d_color s) else lit (d_fb s) x' y'.
Proof.
  intros x y s F C H. pose proof H as [Hx Hy]. unfold set_bit.
  assert (Ex : wrapu 8 x = x) by (apply Z.mod_small; change (2 ^ 8) with 256; lia).
  assert (Ey : wrapu 8 y = y) by (apply Z.mod_small; change (2 ^ 8) with 256; lia).
  rewrite Ex, Ey, bit_addr_is, land7. pose proof (bit_addr_range x y H) as R. pose proof (Z.mod_pos_bound x 8 ltac:(lia)) as Hm.
  rewrite (fb_get_runs (y * 8 + x / 8)) by assumption. cbn [obind].
  set (v := nth (Z.to_nat (y * 8 + x / 8)) (d_fb s) 0).
  destruct (fb_put_runs (y * 8 + x / 8) (wrapu 8 (Z.lor (Z.land v (Z.lnot (wrapu 8 (Z.shiftl 1 (x mod 8))))) (Z.shiftl (d_color s) (x mod 8)))) s F R)
    as (l & E & L & N).
  rewrite E. cbn [obind]. rewrite paint_block_runs by assumption.
  eexists. split; [reflexivity|]. split; [constructor; reflexivity|]. split; [exact L|]. split; [reflexivity|].
  intros x' y' H'. cbn [d_fb with_fb with_bus]. pose proof (bit_addr_range x' y' H') as R'.
  pose proof (Z.mod_pos_bound x' 8 ltac:(lia)) as Hm'. unfold lit at 1. rewrite N.
  destruct (Nat.eqb_spec (Z.to_nat (y' * 8 + x' / 8)) (Z.to_nat (y * 8 + x / 8))) as [A|A].
  - assert (A' : y' * 8 + x' / 8 = y * 8 + x / 8) by lia. rewrite put_bit by assumption.
    destruct (Z.eqb_spec (x' mod 8) (x mod 8)) as [B|B].
    + destruct (addr_inj x' y' x y H' H A' B) as [-> ->]. rewrite !Z.eqb_refl. reflexivity.
    + destruct (Z.eqb_spec x' x) as [->|]; [contradiction|]. cbn [andb]. unfold lit, v. rewrite A'. reflexivity.
  - destruct (Z.eqb_spec x' x) as [->|]; [|reflexivity]. destruct (Z.eqb_spec y' y) as [->|]; [contradiction A; reflexivity|reflexivity].
Qed.

Lemma set_bit_outside : forall x y s, fb_ok (d_fb s) -> 0 <= x < 64 -> 32 <= y < 256 -> set_bit x y s = UB.
Proof.
  intros x y s F Hx Hy. unfold set_bit.
  assert (Ex : wrapu 8 x = x) by (apply Z.mod_small; change (2 ^ 8) with 256; lia).
  assert (Ey : wrapu 8 y = y) by (apply Z.mod_small; change (2 ^ 8) with 256; lia).
  rewrite Ex, Ey, bit_addr_is. assert (0 <= x / 8) by (apply Z.div_pos; lia).
  rewrite fb_get_outside by (auto; lia). reflexivity.
Qed.

(** * The display *)
Lemma panel_app : forall v a b, panel_after v (a ++ b) = panel_after (panel_after v b) a.
Proof. intros. unfold panel_after. apply fold_right_app. Qed.

Lemma hi_nib : forall c, 0 <= c < 128 -> Z.lor 16 (Z.shiftr c 4) = 16 + c / 16.
Proof.
  intros c H. rewrite Z.shiftr_div_pow2 by lia. change (2 ^ 4) with 16.
  assert (K : 0 <= c / 16 < 8) by (split; [apply Z.div_pos; lia|apply Z.div_lt_upper_bound; lia]).
  assert (J : c / 16 = 0 \/ c / 16 = 1 \/ c / 16 = 2 \/ c / 16 = 3 \/ c / 16 = 4 \/ c / 16 = 5 \/ c / 16 = 6 \/ c / 16 = 7) by lia.
  decompose [or] J; match goal with E : c / 16 = _ |- _ => rewrite E end; reflexivity.
Qed.

Lemma page_byte : forall p, 0 <= p < 8 -> Z.lor 176 p = 176 + p.
Proof. intros p H. assert (J : p = 0 \/ p = 1 \/ p = 2 \/ p = 3 \/ p = 4 \/ p = 5 \/ p = 6 \/ p = 7) by lia. decompose [or] J; subst; reflexivity. Qed.

Lemma lo_nib : forall c, Z.land c 15 = c mod 16.
Proof. intro c. change 15 with (Z.ones 4). rewrite Z.land_ones by lia. reflexivity. Qed.

Lemma arg_none : forall b, 0 <= b < 24 \/ 176 <= b < 184 -> arg_bytes b = 0%nat.
Proof.
  intros b H. unfold arg_bytes. cbn [existsb].
  repeat match goal with |- context [Z.eqb b ?n] => destruct (Z.eqb_spec b n); [lia|] end. reflexivity.
Qed.

(** the messages that choose a page and a column *)
Definition at_msg (col page : Z) : list bus :=
  [BByte 64; BStart 120; BStop; BByte (Z.lor 176 page); BByte (Z.land col 15); BByte (Z.lor 16 (Z.shiftr col 4)); BByte 0; BStart 120].

Lemma cmd_hi : forall g c p on r h, 0 <= h < 8 ->
  panel_command (16 + h) (Build_panel g 0 c p on r) = Build_panel g 0 (h * 16 + c mod 16) p on r.
Proof.
  intros g c p on r h H. unfold panel_command. cbn [v_stage v_args v_col v_page v_on v_ram]. rewrite arg_none by lia.
  replace (16 + h <? 16) with false by (symmetry; apply Z.ltb_ge; lia).
  replace (16 <=? 16 + h) with true by (symmetry; apply Z.leb_le; lia).
  replace (16 + h <? 24) with true by (symmetry; apply Z.ltb_lt; lia).
  replace (176 <=? 16 + h) with false by (symmetry; apply Z.leb_gt; lia).
  replace (16 + h =? 174) with false by (symmetry; apply Z.eqb_neq; lia).
  replace (16 + h =? 175) with false by (symmetry; apply Z.eqb_neq; lia).
  rewrite andb_false_r. cbn [andb]. replace (16 + h - 16) with h by lia. reflexivity.
Qed.

Lemma cmd_lo : forall g c p on r h, 0 <= h < 16 ->
  panel_command h (Build_panel g 0 c p on r) = Build_panel g 0 (c / 16 * 16 + h) p on r.
Proof.
  intros g c p on r h H. unfold panel_command. cbn [v_stage v_args v_col v_page v_on v_ram]. rewrite arg_none by lia.
  replace (0 <=? h) with true by (symmetry; apply Z.leb_le; lia).
  replace (h <? 16) with true by (symmetry; apply Z.ltb_lt; lia).
  replace (176 <=? h) with false by (symmetry; apply Z.leb_gt; lia).
  replace (h =? 174) with false by (symmetry; apply Z.eqb_neq; lia).
  replace (h =? 175) with false by (symmetry; apply Z.eqb_neq; lia). reflexivity.
Qed.

Lemma cmd_page : forall g c p on r h, 0 <= h < 8 ->
  panel_command (176 + h) (Build_panel g 0 c p on r) = Build_panel g 0 c h on r.
Proof.
  intros g c p on r h H. unfold panel_command. cbn [v_stage v_args v_col v_page v_on v_ram]. rewrite arg_none by lia.
  replace (176 + h <? 16) with false by (symmetry; apply Z.ltb_ge; lia).
  replace (176 + h <? 24) with false by (symmetry; apply Z.ltb_ge; lia).
  replace (176 <=? 176 + h) with true by (symmetry; apply Z.leb_le; lia).
  replace (176 + h <? 184) with true by (symmetry; apply Z.ltb_lt; lia).
  replace (176 + h =? 174) with false by (symmetry; apply Z.eqb_neq; lia).
  replace (176 + h =? 175) with false by (symmetry; apply Z.eqb_neq; lia).
  rewrite !andb_false_r. cbn [andb]. replace (176 + h - 176) with h by lia. reflexivity.
Qed.

Lemma step_command : forall b a c p on r,
  panel_step (BByte b) (Build_panel SCommand a c p on r) = panel_command b (Build_panel SCommand a c p on r).
Proof. reflexivity. Qed.

Lemma at_runs : forall v col page, panel_ready v -> 0 <= col < 128 -> 0 <= page < 8 ->
  panel_after v (at_msg col page) =
  {| v_stage := SData; v_args := 0; v_col := col; v_page := page; v_on := v_on v; v_ram := v_ram v |}.
Proof.
  intros v col page (Hs & Ha & Hc & Hp) C P. unfold at_msg. rewrite hi_nib, lo_nib, page_byte by assumption.
  assert (K : 0 <= col / 16 < 8) by (split; [apply Z.div_pos; lia|apply Z.div_lt_upper_bound; lia]).
  pose proof (Z.mod_pos_bound col 16 ltac:(lia)) as M.
  destruct v as [g a c p on r]. cbn [v_stage v_args v_col v_page v_on v_ram] in *. subst g a.
  unfold panel_after. cbn [fold_right].
  change (panel_step (BByte 0) (panel_step (BStart 120) (Build_panel SIdle 0 c p on r))) with (Build_panel SCommand 0 c p on r).
  rewrite step_command, cmd_hi, step_command, cmd_lo, step_command, cmd_page by assumption.
  cbn [panel_step in_stage v_stage v_args v_col v_page v_on v_ram Z.eqb Pos.eqb].
  unfold in_stage. cbn [v_stage v_args v_col v_page v_on v_ram]. f_equal.
  pose proof (Z.mod_pos_bound c 16 ltac:(lia)).
  replace (col / 16 * 16 + c mod 16) with (c mod 16 + col / 16 * 16) by lia.
  rewrite Z.div_add, Z.div_small by lia. pose proof (Z.div_mod col 16 ltac:(lia)). lia.
Qed.

Lemma block_shows : forall v fb x y, panel_ready v -> in_frame x y ->
  let v' := panel_after v (block_msg fb x y) in
  panel_ready v' /\ v_on v' = v_on v /\
  forall p c, v_ram v' p c = if (p =? y / 4) && (c / 2 =? x) then block_byte fb x y else v_ram v p c.
Proof.
  intros v fb x y Hv [Hx Hy].
  assert (P : 0 <= y / 4 < 8) by (split; [apply Z.div_pos; lia|apply Z.div_lt_upper_bound; lia]).
  set (b := block_byte fb x y).
  assert (E : block_msg fb x y = [BStop; BByte b; BByte b] ++ at_msg (x * 2) (y / 4)) by reflexivity.
  cbv zeta. rewrite E, panel_app, at_runs by (auto; lia).
  unfold panel_after. cbn [fold_right panel_step in_stage panel_data v_stage v_args v_col v_page v_on v_ram].
  split; [|split; [reflexivity|]].
  - unfold panel_ready. cbn [v_stage v_args v_col v_page]. split; [reflexivity|]. split; [reflexivity|].
    split; [apply Z.mod_pos_bound; lia|exact P].
  - intros p c. rewrite (Z.mod_small (x * 2 + 1)) by lia. destruct (Z.eqb_spec p (y / 4)); [|reflexivity]. cbn [andb].
    pose proof (Z.div_mod c 2 ltac:(lia)). pose proof (Z.mod_pos_bound c 2 ltac:(lia)).
    destruct (Z.eqb_spec c (x * 2 + 1)); destruct (Z.eqb_spec c (x * 2)); destruct (Z.eqb_spec (c / 2) x); try reflexivity; lia.
Qed.

(** the display shows the frame buffer *)
Definition mirrors (v : panel) (fb : list Z) : Prop :=
  forall x y, 0 <= x < 128 -> 0 <= y < 64 -> seen v x y = lit fb (x / 2) (y / 2).

Lemma block_mirrors : forall v fb fb' x y, panel_ready v -> in_frame x y -> mirrors v fb ->
  (forall x' y', in_frame x' y' -> (x', y') <> (x, y) -> lit fb' x' y' = lit fb x' y') ->
  mirrors (panel_after v (block_msg fb' x y)) fb'.
Proof.
  intros v fb fb' x y Hv [Hx Hy] M D X Y HX HY. destruct (block_shows v fb' x y Hv (conj Hx Hy)) as (_ & _ & R).
  assert (0 <= X / 2 < 64) by (split; [apply Z.div_pos; lia|apply Z.div_lt_upper_bound; lia]).
  assert (0 <= Y / 2 < 32) by (split; [apply Z.div_pos; lia|apply Z.div_lt_upper_bound; lia]).
  unfold seen. rewrite R. destruct (Z.eqb_spec (Y / 8) (y / 4)) as [EY|NY].
  - destruct (Z.eqb_spec (X / 2) x) as [EX|NX]; cbn [andb].
    + rewrite block_byte_bit by (apply Z.mod_pos_bound; lia). rewrite EX, <- EY. f_equal.
      pose proof (Z.div_mod Y 8 ltac:(lia)). pose proof (Z.mod_pos_bound Y 8 ltac:(lia)).
      replace (Y / 2) with ((Y mod 8 + Y / 8 * 4 * 2) / 2) by (f_equal; lia). rewrite Z.div_add by lia. lia.
    + fold (seen v X Y). rewrite (M X Y HX HY). symmetry. apply D; [split; lia|]. intro E. inversion E. contradiction.
  - cbn [andb]. fold (seen v X Y). rewrite (M X Y HX HY). symmetry. apply D; [split; lia|]. intro E. inversion E; subst.
    apply NY. rewrite Z.div_div by lia. reflexivity.
Qed.

(** * Erasing *)
Lemma send_times_bus : forall n b s, send_times n b s = with_bus (repeat (BByte b) n ++ d_bus s) s.
Proof.
  induction n as [|n IH]; intros b s; [destruct s; reflexivity|]. cbn [send_times]. rewrite IH. unfold send, with_bus. cbn [d_bus d_fb d_color d_here d_x d_y d_abort].
  f_equal. change (BByte b :: d_bus s) with ([BByte b] ++ d_bus s). rewrite app_assoc. f_equal.
  rewrite <- repeat_cons. reflexivity.
Qed.

Lemma zeros_run : forall n g p on r col, 0 <= col < 128 -> exists r',
  panel_after {| v_stage := SData; v_args := g; v_col := col; v_page := p; v_on := on; v_ram := r |} (repeat (BByte 0) n) =
  {| v_stage := SData; v_args := g; v_col := (col + Z.of_nat n) mod 128; v_page := p; v_on := on; v_ram := r' |} /\
  (forall q c, q <> p -> r' q c = r q c) /\
  (forall c, r' p c = r p c \/ r' p c = 0) /\
  (forall i, 0 <= i < Z.of_nat n -> r' p ((col + i) mod 128) = 0).
Proof.
  induction n as [|n IH]; intros g p on r col H.
  - exists r. split; [cbn; rewrite Z.add_0_r, Z.mod_small by lia; reflexivity|]. split; [reflexivity|]. split; [auto|]. intros; lia.
  - destruct (IH g p on r col H) as (r1 & E & A & B & C). cbn [repeat]. 
    change (BByte 0 :: repeat (BByte 0) n) with ([BByte 0] ++ repeat (BByte 0) n). rewrite panel_app, E.
    eexists. split.
    + unfold panel_after. cbn [fold_right panel_step panel_data v_stage v_args v_col v_page v_on v_ram]. unfold panel_data. cbn [v_stage v_args v_col v_page v_on v_ram].
      rewrite Zplus_mod_idemp_l. replace (col + Z.of_nat n + 1) with (col + Z.of_nat (S n)) by lia. reflexivity.
    + split; [|split].
      * intros q c N. cbv beta. destruct (Z.eqb_spec q p); [contradiction|]. cbn [andb]. apply A; assumption.
      * intro c. cbv beta. rewrite Z.eqb_refl. cbn [andb]. destruct (c =? (col + Z.of_nat n) mod 128); [right; reflexivity|apply B].
      * intros i Hi. cbv beta. rewrite Z.eqb_refl. cbn [andb]. destruct (Z.eqb_spec ((col + i) mod 128) ((col + Z.of_nat n) mod 128)); [reflexivity|].
        apply C. destruct (Z.eq_dec i (Z.of_nat n)); [congruence|lia].
Qed.

Definition page_msg (page : Z) : list bus := BStop :: repeat (BByte 0) (Z.to_nat 1024) ++ at_msg 0 page.

Lemma page_runs : forall v page, panel_ready v -> 0 <= page < 8 ->
  let v' := panel_after v (page_msg page) in
  panel_ready v' /\ v_on v' = v_on v /\
  (forall p c, p <> page -> v_ram v' p c = v_ram v p c) /\ (forall c, 0 <= c < 128 -> v_ram v' page c = 0).
Proof.
  intros v page Hv P. cbv zeta. unfold page_msg.
  change (BStop :: repeat (BByte 0) (Z.to_nat 1024) ++ at_msg 0 page) with ([BStop] ++ (repeat (BByte 0) (Z.to_nat 1024) ++ at_msg 0 page)).
  rewrite !panel_app, at_runs by (auto; lia).
  destruct (zeros_run (Z.to_nat 1024) 0 page (v_on v) (v_ram v) 0 ltac:(lia)) as (r & E & A & _ & C). rewrite E.
  unfold panel_after. cbn [fold_right panel_step in_stage v_stage v_args v_col v_page v_on v_ram].
  split; [|split; [reflexivity|split]].
  - unfold panel_ready. cbn [v_stage v_args v_col v_page]. split; [reflexivity|]. split; [reflexivity|]. split; [apply Z.mod_pos_bound; lia|exact P].
  - intros p c N. apply A; assumption.
  - intros c Hc. rewrite <- (Z.mod_small c 128) by lia. replace c with (0 + c) at 1 by lia. apply C. rewrite Z2Nat.id by lia. lia.
Qed.

Fixpoint pages_msg (n : nat) (page : Z) (l : list bus) : list bus :=
  match n with O => l | S n' => pages_msg n' (page + 1) (page_msg page ++ l) end.

Lemma erase_pages_bus : forall n page s, erase_pages n page s = with_bus (pages_msg n page (d_bus s)) s.
Proof.
  induction n as [|n IH]; intros page s; [destruct s; reflexivity|]. cbn [erase_pages pages_msg]. rewrite IH.
  change (Z.shiftr (SCREEN_WIDTH * SCREEN_HEIGHT) 3) with 1024. rewrite send_times_bus.
  unfold send, with_bus. cbn [d_bus d_fb d_color d_here d_x d_y d_abort]. f_equal.
Qed.

Lemma pages_runs : forall n page l v, panel_ready (panel_after v l) -> 0 <= page -> page + Z.of_nat n <= 8 ->
  let v0 := panel_after v l in let v' := panel_after v (pages_msg n page l) in
  panel_ready v' /\ v_on v' = v_on v0 /\
  (forall p c, 0 <= c < 128 -> v_ram v' p c = if (page <=? p) && (p <? page + Z.of_nat n) then 0 else v_ram v0 p c).
Proof.
  induction n as [|n IH]; intros page l v Hv P Q; cbv zeta; cbn [pages_msg].
  - split; [exact Hv|]. split; [reflexivity|]. intros p c _. destruct (Z.leb_spec page p); [|reflexivity].
    destruct (Z.ltb_spec p (page + Z.of_nat 0)); [lia|reflexivity].
  - destruct (page_runs (panel_after v l) page Hv ltac:(lia)) as (R & O & A & B). rewrite <- panel_app in R, O, A, B.
    destruct (IH (page + 1) (page_msg page ++ l) v R ltac:(lia) ltac:(lia)) as (R' & O' & A').
    split; [exact R'|]. split; [congruence|]. intros p c Hc. rewrite (A' p c Hc).
    destruct (Z.eq_dec p page) as [->|N].
    + replace (page + 1 <=? page) with false by (symmetry; apply Z.leb_gt; lia). cbn [andb]. rewrite (B c Hc).
      rewrite Z.leb_refl. replace (page <? page + Z.of_nat (S n)) with true by (symmetry; apply Z.ltb_lt; lia). reflexivity.
    + rewrite (A p c N). destruct (Z.leb_spec (page + 1) p), (Z.leb_spec page p), (Z.ltb_spec p (page + 1 + Z.of_nat n)), (Z.ltb_spec p (page + Z.of_nat (S n))); cbn; try reflexivity; lia.
Qed.

Lemma repeat_lit : forall n x y, lit (repeat 0 n) x y = false.
Proof. intros n x y. unfold lit. rewrite nth_repeat. apply Z.testbit_0_l. Qed.

Lemma erase_runs : forall s, same_rest s (draw_erase s) /\ fb_ok (d_fb (draw_erase s)) /\
  (forall x y, lit (d_fb (draw_erase s)) x y = false) /\
  forall v, panel_ready (panel_after v (d_bus s)) ->
    panel_ready (panel_after v (d_bus (draw_erase s))) /\ v_on (panel_after v (d_bus (draw_erase s))) = v_on (panel_after v (d_bus s)) /\
    mirrors (panel_after v (d_bus (draw_erase s))) (d_fb (draw_erase s)).
Proof.
  intro s. unfold draw_erase. rewrite erase_pages_bus. split; [constructor; reflexivity|].
  split; [unfold fb_ok; cbn [d_fb with_fb with_bus]; apply repeat_length|]. split; [intros; apply repeat_lit|].
  intros v Hv. cbn [d_bus d_fb with_fb with_bus].
  destruct (pages_runs 8 0 (d_bus s) v Hv ltac:(lia) ltac:(lia)) as (R & O & A). split; [exact R|]. split; [exact O|].
  intros x y Hx Hy. rewrite repeat_lit. unfold seen. rewrite (A _ _ Hx).
  assert (0 <= y / 8 < 8) by (split; [apply Z.div_pos; lia|apply Z.div_lt_upper_bound; lia]).
  replace (0 <=? y / 8) with true by (symmetry; apply Z.leb_le; lia).
  replace (y / 8 <? 0 + Z.of_nat 8) with true by (symmetry; apply Z.ltb_lt; lia). apply Z.testbit_0_l.
Qed.

Definition send_setup (s : draw) : draw :=
  send BStop (fold_left (fun s b => send (BByte b) s) setup (ssd_start 0 (with_here true s))).

Lemma setup_panel : forall v, panel_ready v ->
  let v' := panel_after v (BStop :: rev (map BByte setup) ++ [BByte 0; BStart 120]) in panel_ready v' /\ v_on v' = true.
Proof.
  intros [g a c p on r] (R1 & R2 & R3 & R4). cbn in R1, R2, R3, R4. subst g a.
  assert (E : panel_after (Build_panel SIdle 0 c p on r) (BStop :: rev (map BByte setup) ++ [BByte 0; BStart 120])
    = Build_panel SIdle 0 (c / 16 * 16 + 0) p true r) by (cbv -[Z.div Z.mul Z.add]; reflexivity).
  cbv zeta. rewrite E. split; [|reflexivity]. unfold panel_ready. cbn [v_stage v_args v_col v_page]. split; [reflexivity|]. split; [reflexivity|]. split; [|exact R4].
  assert (0 <= c / 16 < 8) by (split; [apply Z.div_pos; lia|apply Z.div_lt_upper_bound; lia]). lia.
Qed.

Lemma setup_bus : forall s, d_bus (send_setup s) = (BStop :: rev (map BByte setup) ++ [BByte 0; BStart 120]) ++ d_bus s.
Proof. reflexivity. Qed.

Lemma setup_rest : forall s, d_color (send_setup s) = d_color s /\ d_x (send_setup s) = d_x s /\ d_y (send_setup s) = d_y s /\
  d_abort (send_setup s) = d_abort s /\ d_here (send_setup s) = true.
Proof. intro s. repeat split. Qed.

Lemma oled_init_is : forall s, oled_init s = if d_here s then s else draw_erase (send_setup s).
Proof. reflexivity. Qed.

Lemma init_runs : forall s, fb_ok (d_fb s) ->
  let s' := oled_init s in
  d_color s' = d_color s /\ d_x s' = d_x s /\ d_y s' = d_y s /\ d_abort s' = d_abort s /\ d_here s' = true /\ fb_ok (d_fb s') /\
  (d_here s = true -> s' = s) /\ (d_here s = false -> forall x y, lit (d_fb s') x y = false) /\
  forall v, panel_ready (panel_after v (d_bus s)) -> (d_here s = true -> v_on (panel_after v (d_bus s)) = true) ->
    (d_here s = true -> mirrors (panel_after v (d_bus s)) (d_fb s)) ->
    panel_ready (panel_after v (d_bus s')) /\ v_on (panel_after v (d_bus s')) = true /\
    mirrors (panel_after v (d_bus s')) (d_fb s').
Proof.
  intros s F. cbv zeta. rewrite oled_init_is. destruct (d_here s) eqn:Hh.
  - do 4 (split; [reflexivity|]). split; [exact Hh|]. split; [exact F|]. split; [reflexivity|]. split; [discriminate|]. intros v R O M. auto.
  - destruct (setup_rest s) as (T1 & T2 & T3 & T4 & T5). pose proof (setup_bus s) as TB. revert T1 T2 T3 T4 T5 TB.
    generalize (send_setup s). intros s1 T1 T2 T3 T4 T5 TB.
    destruct (erase_runs s1) as ([S1 S2 S3 S4 S5] & F' & L & P). revert S1 S2 S3 S4 S5 F' L P. generalize (draw_erase s1). intros s2 S1 S2 S3 S4 S5 F' L P.
    split; [congruence|]. split; [congruence|]. split; [congruence|]. split; [congruence|]. split; [congruence|].
    split; [exact F'|]. split; [discriminate|]. split; [intros _; exact L|].
    intros v R _ _. destruct (setup_panel _ R) as [K1 K2]. rewrite <- panel_app, <- TB in K1, K2.
    destruct (P v K1) as (P1 & P2 & P3). split; [exact P1|]. split; [congruence|exact P3].
Qed.
