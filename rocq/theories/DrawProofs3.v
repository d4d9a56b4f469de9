(** Lemmas about sequences of calls to the drawing functions. *)
From Coq Require Import ZArith Lia List Bool.
From Verif Require Import Base FloatModel SliceModel MachModel DrawModel DrawSpec DrawProofs DrawProofs2.
Import ListNotations.
Local Open Scope Z_scope.

(** what holds of the variables between calls: the frame buffer is 256 bytes,
    the colour is 0 or 1, the place is inside, and nothing is lit before the
    display is first used *)
Definition draw_wf (s : draw) : Prop :=
  length (d_fb s) = Z.to_nat 256 /\ (d_color s = 0 \/ d_color s = 1) /\ in_frame (d_x s) (d_y s) /\
  (d_here s = false -> forall x y, in_frame x y -> lit (d_fb s) x y = false).

Lemma start_wf : draw_wf draw_start.
Proof.
  split; [apply repeat_length|]. split; [right; reflexivity|]. split; [split; cbn; lia|]. intros _ x y _. apply repeat_lit.
Qed.

Lemma clamp_range : forall m v, 0 <= m -> 0 <= clamp m v <= m.
Proof. intros m v H. unfold clamp. lia. Qed.

Lemma coord_runs : forall w p v m s, 0 <= m <= 127 -> stands w p v -> get_coord w p m s = Ok (clamp m v, s).
Proof.
  intros w p v m s M (f & -> & E). unfold get_coord. cbn [arg_offset]. rewrite E. cbn [obind].
  cbv zeta. set (v0 := if v <? 0 then 0 else v).
  assert (V : (if m <? v0 then m else v0) = clamp m v).
  { unfold v0, clamp. destruct (Z.ltb_spec v 0); [destruct (Z.ltb_spec m 0)|destruct (Z.ltb_spec m v)]; lia. }
  rewrite V, wraps8 by (unfold clamp; lia). reflexivity.
Qed.

Definition is_num (p : poly) : bool := match p with PNum _ => true | _ => false end.

Lemma coord_error : forall w p m s, 0 <= m <= 127 -> is_num p = false -> get_coord w p m s = Ok (0, with_abort true s).
Proof.
  intros w p m s M H. unfold get_coord.
  assert (E : arg_offset w p s = Ok (0, with_abort true s)) by (destruct p; try reflexivity; discriminate H).
  rewrite E. cbn [obind]. destruct (Z.ltb_spec m (if 0 <? 0 then 0 else 0)); [cbn in *; lia|]. reflexivity.
Qed.

(** what a call must leave *)
Definition line_done (x1 y1 : Z) (s s' : draw) : Prop :=
  d_x s' = x1 /\ d_y s' = y1 /\ d_color s' = d_color s /\ d_here s' = true /\ draw_wf s' /\
  (forall x y, in_frame x y ->
     on_line (d_x s) (d_y s) x1 y1 x y /\ lit (d_fb s') x y = ink_of (d_color s) \/
     ~ on_line (d_x s) (d_y s) x1 y1 x y /\ lit (d_fb s') x y = lit (d_fb s) x y) /\
  forall v, panel_ready (panel_after v (d_bus s)) -> (d_here s = true -> v_on (panel_after v (d_bus s)) = true) ->
    (d_here s = true -> mirrors (panel_after v (d_bus s)) (d_fb s)) ->
    panel_ready (panel_after v (d_bus s')) /\ v_on (panel_after v (d_bus s')) = true /\ mirrors (panel_after v (d_bus s')) (d_fb s').

Lemma line_after_init : forall x1 y1 s, draw_wf s -> in_frame x1 y1 -> narrow (d_x s) (d_y s) x1 y1 ->
  exists s', line_to x1 y1 (oled_init s) = Ok s' /\ d_abort s' = d_abort s /\ line_done x1 y1 s s'.
Proof.
  intros x1 y1 s (F & C & P & B) H1 N. destruct (init_runs s F) as (I1 & I2 & I3 & I4 & I5 & I6 & I7 & I8 & I9).
  remember (oled_init s) as s1 eqn:Es1. clear Es1.
  destruct (line_to_runs x1 y1 s1) as (s' & E & T1 & T2 & T3 & T4 & T5 & T6 & T7 & T8);
    try rewrite I2, I3; try rewrite I1; auto.
  exists s'. split; [exact E|]. split; [congruence|]. unfold line_done. rewrite I2, I3, I1 in *.
  split; [exact T1|]. split; [exact T2|]. split; [exact T3|]. split; [congruence|]. split; [|split].
  - split; [exact T6|]. split; [rewrite T3; exact C|]. split; [rewrite T1, T2; exact H1|]. intro Hf. congruence.
  - intros x y Hxy. destruct (T7 x y Hxy) as [?|[NJ L]]; [left; assumption|]. right. split; [exact NJ|]. rewrite L.
    destruct (d_here s) eqn:Hh; [rewrite (I7 eq_refl); reflexivity|]. rewrite (I8 eq_refl), (B eq_refl) by exact Hxy. reflexivity.
  - intros v R O M. destruct (I9 v R O M) as (J1 & J2 & J3). destruct (T8 v J1 J3) as (U1 & U2 & U3).
    split; [exact U1|]. split; [congruence|exact U3].
Qed.

Lemma line_runs : forall w p q x y s, draw_wf s -> stands w p x -> stands w q y ->
  narrow (d_x s) (d_y s) (clamp 63 x) (clamp 31 y) ->
  exists s', draw_line w p q s = Ok s' /\ d_abort s' = d_abort s /\ line_done (clamp 63 x) (clamp 31 y) s s'.
Proof.
  intros w p q x y s W P Q N. unfold draw_line, get_x, get_y. change (FB_WIDTH - 1) with 63. change (FB_HEIGHT - 1) with 31.
  rewrite (coord_runs w p x) by (auto; lia). cbn [obind]. rewrite (coord_runs w q y) by (auto; lia). cbn [obind].
  apply line_after_init; auto. pose proof (clamp_range 63 x ltac:(lia)). pose proof (clamp_range 31 y ltac:(lia)). split; lia.
Qed.

Lemma line_type : forall w p q y s, draw_wf s -> is_num p = false -> stands w q y ->
  narrow (d_x s) (d_y s) 0 (clamp 31 y) ->
  exists s', draw_line w p q s = Ok s' /\ d_abort s' = true /\ line_done 0 (clamp 31 y) s s'.
Proof.
  intros w p q y s W P Q N. unfold draw_line, get_x, get_y. change (FB_WIDTH - 1) with 63. change (FB_HEIGHT - 1) with 31.
  rewrite (coord_error w p) by (auto; lia). cbn [obind]. rewrite (coord_runs w q y) by (auto; lia). cbn [obind].
  apply (line_after_init 0 (clamp 31 y) (with_abort true s)); auto. pose proof (clamp_range 31 y ltac:(lia)). split; lia.
Qed.

Lemma line_lost : forall w p q x y s s', draw_wf s -> stands w p x -> stands w q y ->
  ~ narrow (d_x s) (d_y s) (clamp 63 x) (clamp 31 y) ->
  draw_line w p q s = Ok s' -> d_x s' <> clamp 63 x.
Proof.
  intros w p q x y s s' (F & C & In & B) P Q N E. unfold draw_line, get_x, get_y in E. change (FB_WIDTH - 1) with 63 in E. change (FB_HEIGHT - 1) with 31 in E.
  rewrite (coord_runs w p x) in E by (auto; lia). cbn [obind] in E. rewrite (coord_runs w q y) in E by (auto; lia). cbn [obind] in E.
  destruct (init_runs s F) as (I1 & I2 & I3 & _).
  pose proof (clamp_range 63 x ltac:(lia)). pose proof (clamp_range 31 y ltac:(lia)).
  eapply line_to_lost; [| | |exact E]; rewrite ?I2, ?I3; auto. split; lia.
Qed.

(** * Whole programs *)
Definition matches (s : draw) (k : sketch) : Prop :=
  k_x k = d_x s /\ k_y k = d_y s /\ k_ink k = ink_of (d_color s) /\
  forall x y, in_frame x y -> k_pic k x y = lit (d_fb s) x y.

Definition shown (touched : bool) (s : draw) : Prop :=
  (d_here s = true -> touched = true) /\
  forall v, panel_ready v -> panel_ready (panel_after v (d_bus s)) /\
    (d_here s = true -> v_on (panel_after v (d_bus s)) = true) /\
    (touched = true -> mirrors (panel_after v (d_bus s)) (d_fb s)).

Definition line_in (a : action) : bool := match a with ALine _ _ => true | _ => false end.

Lemma call_runs : forall w c a s t k k', stands_for w c a -> draw_wf s -> shown t s -> matches s k -> act a k k' ->
  (forall x y, a = ALine x y -> narrow (d_x s) (d_y s) (clamp 63 x) (clamp 31 y)) ->
  exists s', do_call w c s = Ok s' /\ draw_wf s' /\ shown (t || paints a) s' /\ matches s' k' /\
    d_here s' = d_here s || line_in a /\ d_abort s' = d_abort s.
Proof.
  intros w c a s t k k' Sf W Sh M A N. destruct Sf as [|p v V|p q x y P Q|p q x y P Q]; cbn [do_call].
  - destruct (erase_runs s) as ([S1 S2 S3 S4 S5] & F & L & R). revert S1 S2 S3 S4 S5 F L R. generalize (draw_erase s). intros s' S1 S2 S3 S4 S5 F L R.
    exists s'. split; [reflexivity|]. destruct W as (W1 & W2 & W3 & W4). destruct Sh as [Sh1 Sh2]. destruct M as (M1 & M2 & M3 & M4). destruct A as (A1 & A2 & A3 & A4).
    split; [|split; [|split; [|split]]].
    + split; [exact F|]. split; [rewrite S1; exact W2|]. split; [rewrite S3, S4; exact W3|]. intros; apply L.
    + split; [intros _; apply orb_true_r|]. intros v Hv. destruct (Sh2 v Hv) as (R1 & R2 & R3). destruct (R v R1) as (Q1 & Q2 & Q3).
      split; [exact Q1|]. split; [rewrite S2, Q2; exact R2|]. intros _. exact Q3.
    + split; [congruence|]. split; [congruence|]. split; [congruence|]. intros x y Hxy. rewrite A4, L by exact Hxy. reflexivity.
    + cbn. rewrite orb_false_r. exact S2.
    + exact S5.
  - destruct V as (f & -> & E). unfold draw_color, arg_offset. rewrite E. cbn [obind]. eexists. split; [reflexivity|].
    destruct W as (W1 & W2 & W3 & W4). destruct M as (M1 & M2 & M3 & M4). destruct A as (A1 & A2 & A3 & A4).
    cbn [paints]. rewrite orb_false_r. split; [|split; [exact Sh|split; [|split; [cbn; rewrite orb_false_r; reflexivity|reflexivity]]]].
    + split; [exact W1|]. split; [cbn; destruct (v =? 0); auto|]. split; [exact W3|exact W4].
    + split; [cbn; congruence|]. split; [cbn; congruence|]. split; [cbn; rewrite A3; destruct (v =? 0); reflexivity|].
      intros x y Hxy. rewrite A4 by exact Hxy. apply M4; exact Hxy.
  - unfold draw_move, get_x, get_y. change (FB_WIDTH - 1) with 63. change (FB_HEIGHT - 1) with 31.
    rewrite (coord_runs w p x) by (auto; lia). cbn [obind]. rewrite (coord_runs w q y) by (auto; lia). cbn [obind]. eexists. split; [reflexivity|].
    destruct W as (W1 & W2 & W3 & W4). destruct M as (M1 & M2 & M3 & M4). destruct A as (A1 & A2 & A3 & A4).
    cbn [paints]. rewrite orb_false_r. split; [|split; [exact Sh|split; [|split; [cbn; rewrite orb_false_r; reflexivity|reflexivity]]]].
    + split; [exact W1|]. split; [exact W2|]. split; [|exact W4]. cbn.
      pose proof (clamp_range 63 x ltac:(lia)). pose proof (clamp_range 31 y ltac:(lia)). split; lia.
    + split; [exact A1|]. split; [exact A2|]. split; [cbn; congruence|]. intros a b Hab. rewrite A4 by exact Hab. apply M4; exact Hab.
  - destruct (line_runs w p q x y s W P Q (N x y eq_refl)) as (s' & E & Ab & D1 & D2 & D3 & D4 & D5 & D6 & D7).
    exists s'. split; [exact E|]. split; [exact D5|]. destruct Sh as [Sh1 Sh2]. destruct M as (M1 & M2 & M3 & M4). destruct A as (A1 & A2 & A3 & A4).
    split; [|split; [|split; [cbn; rewrite orb_true_r; exact D4|exact Ab]]].
    + split; [intros _; apply orb_true_r|]. intros v Hv. destruct (Sh2 v Hv) as (R1 & R2 & R3).
      destruct (D7 v R1 R2 (fun h => R3 (Sh1 h))) as (Q1 & Q2 & Q3). split; [exact Q1|]. split; [intros _; exact Q2|intros _; exact Q3].
    + split; [congruence|]. split; [congruence|]. split; [congruence|]. intros a b Hab.
      destruct (A4 a b Hab) as [A5 A6]. rewrite M1, M2 in *. destruct (D6 a b Hab) as [[J L]|[J L]].
      * rewrite (A5 J), L. exact M3.
      * rewrite (A6 J), L. apply M4; exact Hab.
Qed.

Lemma calls_run : forall w cs acs, Forall2 (stands_for w) cs acs -> forall s t k k', draw_wf s -> shown t s -> matches s k ->
  all_narrow (d_x s) (d_y s) acs -> acts acs k k' ->
  exists s', do_calls w cs s = Ok s' /\ draw_wf s' /\ shown (t || existsb paints acs) s' /\ matches s' k' /\
    d_here s' = d_here s || existsb line_in acs /\ d_abort s' = d_abort s.
Proof.
  intros w cs acs F. induction F as [|c a cs acs Hca F IH]; intros s t k k' W Sh M N A.
  - inversion A; subst. exists s. cbn. rewrite !orb_false_r. auto 10.
  - inversion A as [|a' l' k0 k1 k2 Ha Hs]; subst.
    assert (Hn : (forall x y, a = ALine x y -> narrow (d_x s) (d_y s) (clamp 63 x) (clamp 31 y)) /\ all_narrow (k_x k1) (k_y k1) acs).
    { destruct M as (M1 & M2 & _). destruct a; cbn in N, Ha.
      - destruct Ha as (A1 & A2 & _). split; [discriminate|congruence].
      - destruct Ha as (A1 & A2 & _). split; [discriminate|congruence].
      - destruct Ha as (A1 & A2 & _). split; [discriminate|congruence].
      - destruct Ha as (A1 & A2 & _). destruct N as [N1 N2]. split; [intros x0 y0 E0; inversion E0; subst; exact N1|congruence]. }
    destruct Hn as [Hn1 Hn2].
    destruct (call_runs w c a s t k k1 Hca W Sh M Ha Hn1) as (s1 & E1 & W1 & Sh1 & M1 & H1 & B1).
    pose proof M1 as (K1 & K2 & _). rewrite K1, K2 in Hn2.
    destruct (IH s1 (t || paints a) k1 k' W1 Sh1 M1 Hn2 Hs) as (s' & E & W' & Sh' & M' & H' & B').
    exists s'. cbn [do_calls existsb]. rewrite E1. cbn [obind]. rewrite !orb_assoc.
    split; [exact E|]. split; [exact W'|]. split; [exact Sh'|]. split; [exact M'|]. split; [rewrite H', H1; reflexivity|congruence].
Qed.

Lemma start_shown : shown false draw_start.
Proof. split; [discriminate|]. intros v Hv. split; [exact Hv|]. split; [discriminate|discriminate]. Qed.

Lemma start_matches : matches draw_start sketch_start.
Proof. split; [reflexivity|]. split; [reflexivity|]. split; [reflexivity|]. intros x y _. symmetry. apply repeat_lit. Qed.

Lemma program_runs : forall w cs acs k, Forall2 (stands_for w) cs acs -> all_narrow 0 0 acs -> acts acs sketch_start k ->
  exists s, do_calls w cs draw_start = Ok s /\ d_abort s = false /\ d_x s = k_x k /\ d_y s = k_y k /\
    (forall x y, in_frame x y -> lit (d_fb s) x y = k_pic k x y) /\
    forall v, panel_ready v ->
      (existsb paints acs = true -> forall x y, 0 <= x < 128 -> 0 <= y < 64 ->
         seen (panel_after v (d_bus s)) x y = k_pic k (x / 2) (y / 2)) /\
      (existsb line_in acs = true -> v_on (panel_after v (d_bus s)) = true).
Proof.
  intros w cs acs k F N A.
  destruct (calls_run w cs acs F draw_start false sketch_start k start_wf start_shown start_matches N A) as (s & E & W & [Sh1 Sh2] & (M1 & M2 & M3 & M4) & H & B).
  exists s. split; [exact E|]. split; [exact B|]. split; [congruence|]. split; [congruence|].
  split; [intros x y Hxy; symmetry; apply M4; exact Hxy|]. intros v Hv. destruct (Sh2 v Hv) as (R1 & R2 & R3). cbn [orb] in *. split.
  - intros T x y Hx Hy. rewrite (R3 T x y Hx Hy). symmetry. apply M4.
    assert (0 <= x / 2 < 64) by (split; [apply Z.div_pos; lia|apply Z.div_lt_upper_bound; lia]).
    assert (0 <= y / 2 < 32) by (split; [apply Z.div_pos; lia|apply Z.div_lt_upper_bound; lia]). split; lia.
  - intro T. apply R2. rewrite H, T. apply orb_true_r.
Qed.

(** the path from one place to another *)
Lemma nearest_step : forall a d l, 0 < l -> 0 <= d <= l -> 0 <= nearest (a + d) l - nearest a l <= 1.
Proof. intros a d l H D. pose proof (nearest_bounds a l H). pose proof (nearest_bounds (a + d) l H). nia. Qed.

Lemma path : forall x0 y0 x1 y1,
  (line_x x0 y0 x1 y1 0 = x0 /\ line_y x0 y0 x1 y1 0 = y0) /\
  (line_x x0 y0 x1 y1 (steps x0 y0 x1 y1) = x1 /\ line_y x0 y0 x1 y1 (steps x0 y0 x1 y1) = y1) /\
  forall k, 0 <= k < steps x0 y0 x1 y1 ->
    Z.abs (line_x x0 y0 x1 y1 (k + 1) - line_x x0 y0 x1 y1 k) <= 1 /\
    Z.abs (line_y x0 y0 x1 y1 (k + 1) - line_y x0 y0 x1 y1 k) <= 1.
Proof.
  intros x0 y0 x1 y1. split; [split; [apply lx_0|apply ly_0]|]. split; [split; [apply lx_end|apply ly_end]|].
  intros k K. assert (L : 0 < steps x0 y0 x1 y1) by lia.
  pose proof (nearest_step (Z.abs (x1 - x0) * k) (Z.abs (x1 - x0)) _ L ltac:(unfold steps; lia)) as A.
  pose proof (nearest_step (Z.abs (y1 - y0) * k) (Z.abs (y1 - y0)) _ L ltac:(unfold steps; lia)) as B.
  unfold line_x, line_y. replace (Z.abs (x1 - x0) * (k + 1)) with (Z.abs (x1 - x0) * k + Z.abs (x1 - x0)) by lia.
  replace (Z.abs (y1 - y0) * (k + 1)) with (Z.abs (y1 - y0) * k + Z.abs (y1 - y0)) by lia.
  destruct (Z.sgn_spec (x1 - x0)) as [[? E]|[[? E]|[? E]]]; rewrite E;
  destruct (Z.sgn_spec (y1 - y0)) as [[? E']|[[? E']|[? E']]]; rewrite E'; lia.
Qed.

Lemma line_convert : forall w f q s, float_index w f = UB -> draw_line w (PNum f) q s = UB.
Proof. intros w f q s H. unfold draw_line, get_x, get_coord, arg_offset. rewrite H. reflexivity. Qed.

(** * Lines that leave the frame buffer *)
Definition inside (x y : Z) : bool := (0 <=? x) && (x <? 64) && (0 <=? y) && (y <? 32).
Definition below (x y : Z) : bool := (0 <=? x) && (x <? 64) && (32 <=? y) && (y <? 256).

(** does the loop come to a row below the last *)
Fixpoint leaves (fuel : nat) (dx dy step_x step_y len err x y : Z) : bool :=
  match fuel with
  | O => false
  | S fuel' =>
      if below x y then true
      else if negb (inside x y) || (len =? 0) then false
      else
        let e2 := wraps 8 (err * 2) in
        let len := wraps 8 (len - 1) in
        let '(err, x) := if dy <=? e2 then (wraps 8 (err + dy), wraps 8 (x + step_x)) else (err, x) in
        let '(err, y) := if e2 <=? dx then (wraps 8 (err + dx), wraps 8 (y + step_y)) else (err, y) in
        leaves fuel' dx dy step_x step_y len err x y
  end.

Lemma leaves_ub : forall fuel dx dy step_x step_y len err s, fb_ok (d_fb s) -> ink_ok (d_color s) ->
  leaves fuel dx dy step_x step_y len err (d_x s) (d_y s) = true -> line_loop fuel dx dy step_x step_y len err s = UB.
Proof.
  induction fuel as [|fuel IH]; intros dx dy step_x step_y len err s F C H; cbn [leaves] in H; [discriminate H|]. cbn [line_loop].
  destruct (below (d_x s) (d_y s)) eqn:B.
  - unfold below in B. rewrite !andb_true_iff in B. destruct B as (((B1 & B2) & B3) & B4).
    apply Z.leb_le in B1, B3. apply Z.ltb_lt in B2, B4. rewrite set_bit_outside by (auto; lia). reflexivity.
  - destruct (inside (d_x s) (d_y s)) eqn:In; [|discriminate H]. cbn [negb orb] in H.
    unfold inside in In. rewrite !andb_true_iff in In. destruct In as (((B1 & B2) & B3) & B4).
    apply Z.leb_le in B1, B3. apply Z.ltb_lt in B2, B4.
    destruct (set_bit_runs (d_x s) (d_y s) s F C ltac:(split; lia)) as (s1 & E & [S1 S2 S3 S4 S5] & F1 & _). rewrite E. cbn [obind].
    destruct (len =? 0); [discriminate H|]. rewrite S3, S4.
    destruct (if dy <=? wraps 8 (err * 2) then _ else _) as [e1 xx].
    destruct (if wraps 8 (err * 2) <=? dx then _ else _) as [e2 yy].
    apply IH; [exact F1|cbn [d_color with_pos]; rewrite S1; exact C|exact H].
Qed.

Lemma line_ub : forall w p q x y s, draw_wf s -> stands w p x -> stands w q y -> clamp 63 x = 63 -> clamp 31 y = 31 ->
  d_x s = 0 -> d_y s = 30 -> draw_line w p q s = UB.
Proof.
  intros w p q x y s (F & C & In & B) P Q Cx Cy X Y. unfold draw_line, get_x, get_y. change (FB_WIDTH - 1) with 63. change (FB_HEIGHT - 1) with 31.
  rewrite (coord_runs w p x) by (auto; lia). cbn [obind]. rewrite (coord_runs w q y) by (auto; lia). cbn [obind]. rewrite Cx, Cy.
  destruct (init_runs s F) as (I1 & I2 & I3 & I4 & I5 & I6 & _). revert I1 I2 I3 I4 I5 I6. generalize (oled_init s). intros s1 I1 I2 I3 I4 I5 I6.
  assert (D : in_frame 0 30) by (split; lia). assert (D' : in_frame 63 31) by (split; lia).
  rewrite (line_to_is 0 30 63 31 D D' s1) by congruence. apply leaves_ub; [exact I6|rewrite I1; exact C|].
  rewrite I2, I3, X, Y. vm_compute. reflexivity.
Qed.
