(** Lemmas about the line drawn by draw.line. *)
From Coq Require Import ZArith Lia List Bool.
From Verif Require Import Base FloatModel SliceModel MachModel DrawModel DrawSpec DrawProofs.
Import ListNotations.
Local Open Scope Z_scope.

Lemma wraps8 : forall v, -128 <= v <= 127 -> wraps 8 v = v.
Proof.
  intros v H. unfold wraps. change (2 ^ 8) with 256. change (2 ^ (8 - 1)) with 128.
  destruct (Z.ltb_spec v 0).
  - assert (E : v mod 256 = v + 256) by (symmetry; apply (Z.mod_unique_pos v 256 (-1)); lia). rewrite E.
    destruct (Z.ltb_spec (v + 256) 128); lia.
  - rewrite Z.mod_small by lia. destruct (Z.ltb_spec v 128); lia.
Qed.

Lemma wraps8_over : forall v, 128 <= v < 256 -> wraps 8 v = v - 256.
Proof.
  intros v H. unfold wraps. change (2 ^ 8) with 256. change (2 ^ (8 - 1)) with 128.
  rewrite Z.mod_small by lia. destruct (Z.ltb_spec v 128); lia.
Qed.

(** * The nearest place *)
Lemma nearest_bounds : forall a l, 0 < l -> - l < 2 * (l * nearest a l - a) <= l.
Proof.
  intros a l H. unfold nearest. destruct (Z.eqb_spec l 0); [lia|].
  pose proof (Z.div_mod (2 * a + l) (2 * l) ltac:(lia)) as D. pose proof (Z.mod_pos_bound (2 * a + l) (2 * l) ltac:(lia)) as M.
  set (q := (2 * a + l) / (2 * l)) in *. nia.
Qed.

Lemma nearest_unique : forall a l n, 0 < l -> - l < 2 * (l * n - a) <= l -> n = nearest a l.
Proof. intros a l n H B. pose proof (nearest_bounds a l H). nia. Qed.

Lemma nearest_exact : forall l k, 0 < l -> nearest (l * k) l = k.
Proof. intros l k H. symmetry. apply nearest_unique; nia. Qed.

Lemma nearest_0 : forall l, 0 <= l -> nearest 0 l = 0.
Proof.
  intros l H. destruct (Z.eq_dec l 0) as [->|]; [reflexivity|]. symmetry. apply nearest_unique; lia.
Qed.

Lemma nearest_range : forall a l m, 0 < l -> 0 <= a <= l * m -> 0 <= nearest a l <= m.
Proof. intros a l m H B. pose proof (nearest_bounds a l H). nia. Qed.

(** * One step of the error term *)
Definition err_at (dx dy x y : Z) : Z := dx * (y + 1) - dy * (x + 1).

Lemma step_ok : forall dx dy l k, 0 <= dx <= 63 -> 0 <= dy <= 31 -> l = Z.max dx dy -> 0 <= k < l ->
  (dy <= dx -> 2 * (ahead dx dy k + dx - dy) <= 127) ->
  let x := nearest (dx * k) l in let y := nearest (dy * k) l in let e := err_at dx dy x y in
  -128 <= e <= 127 /\ -128 <= 2 * e <= 127 /\
  nearest (dx * (k + 1)) l = (if - dy <=? 2 * e then x + 1 else x) /\
  nearest (dy * (k + 1)) l = (if 2 * e <=? dx then y + 1 else y) /\
  (- dy <= 2 * e -> -128 <= e - dy <= 127) /\
  (2 * e <= dx -> -128 <= e + dx <= 127) /\ (- dy <= 2 * e -> 2 * e <= dx -> -128 <= e - dy + dx <= 127).
Proof.
  intros dx dy l k Hx Hy Hl Hk N. cbv zeta. unfold err_at. destruct (Z.leb_spec dy dx) as [C|C].
  - replace l with dx in * by lia. clear Hl. specialize (N C). unfold ahead in N. rewrite !nearest_exact by lia.
    pose proof (nearest_bounds (dy * k) dx ltac:(lia)) as B. set (y := nearest (dy * k) dx) in *.
    assert (E1 : - dy <= 2 * (dx * (y + 1) - dy * (k + 1))) by lia.
    split; [lia|]. split; [lia|]. split; [destruct (Z.leb_spec (- dy) (2 * (dx * (y + 1) - dy * (k + 1)))); lia|].
    split; [|lia]. symmetry. apply nearest_unique; [lia|].
    destruct (Z.leb_spec (2 * (dx * (y + 1) - dy * (k + 1))) dx); lia.
  - replace l with dy in * by lia. clear Hl N. rewrite !nearest_exact by lia.
    pose proof (nearest_bounds (dx * k) dy ltac:(lia)) as B. set (x := nearest (dx * k) dy) in *.
    assert (E1 : 2 * (dx * (k + 1) - dy * (x + 1)) <= dx) by lia.
    split; [lia|]. split; [lia|]. split; [|split; [destruct (Z.leb_spec (2 * (dx * (k + 1) - dy * (x + 1))) dx); lia|lia]].
    symmetry. apply nearest_unique; [lia|].
    destruct (Z.leb_spec (- dy) (2 * (dx * (k + 1) - dy * (x + 1)))); lia.
Qed.

Lemma step_lost : forall dx dy k, 0 <= dx <= 63 -> 0 <= dy <= 31 -> dy <= dx -> 0 <= k < dx ->
  127 < 2 * (ahead dx dy k + dx - dy) ->
  let e := err_at dx dy (nearest (dx * k) dx) (nearest (dy * k) dx) in
  wraps 8 (2 * e) < - dy.
Proof.
  intros dx dy k Hx Hy C Hk N. cbv zeta. unfold err_at, ahead in *. rewrite nearest_exact by lia.
  pose proof (nearest_bounds (dy * k) dx ltac:(lia)) as B. set (y := nearest (dy * k) dx) in *.
  rewrite wraps8_over by lia. lia.
Qed.

Lemma narrow_when : forall x0 y0 x1 y1, Z.abs (x1 - x0) <= 63 ->
  Z.abs (x1 - x0) <= 42 \/ y0 = y1 \/ Z.abs (x1 - x0) < Z.abs (y1 - y0) -> narrow x0 y0 x1 y1.
Proof.
  intros x0 y0 x1 y1 W H. unfold narrow. cbv zeta. set (dx := Z.abs (x1 - x0)) in *. set (dy := Z.abs (y1 - y0)) in *.
  intros C k K. unfold ahead. destruct H as [H|[H|H]]; [| |lia].
  - pose proof (nearest_bounds (dy * k) dx ltac:(lia)). unfold dy in *. lia.
  - replace dy with 0 by (unfold dy; lia). rewrite Z.mul_0_l, nearest_0 by lia. lia.
Qed.

(** * Places *)
Section Line.
Variables x0 y0 x1 y1 : Z.
Hypothesis H0 : in_frame x0 y0.
Hypothesis H1 : in_frame x1 y1.
Let dx := Z.abs (x1 - x0).
Let dy := Z.abs (y1 - y0).
Let l := steps x0 y0 x1 y1.
Let lx := line_x x0 y0 x1 y1.
Let ly := line_y x0 y0 x1 y1.

Lemma lx_0 : lx 0 = x0.
Proof. unfold lx, line_x. rewrite Z.mul_0_r, nearest_0 by (unfold steps; lia). lia. Qed.
Lemma ly_0 : ly 0 = y0.
Proof. unfold ly, line_y. rewrite Z.mul_0_r, nearest_0 by (unfold steps; lia). lia. Qed.

Lemma near_x : forall k, 0 <= k <= l -> 0 <= nearest (dx * k) l <= dx.
Proof.
  intros k H. destruct (Z.eq_dec l 0) as [E|N].
  - rewrite E. cbn. unfold dx. lia.
  - apply nearest_range; [unfold l, steps in *; lia|]. unfold dx in *. nia.
Qed.
Lemma near_y : forall k, 0 <= k <= l -> 0 <= nearest (dy * k) l <= dy.
Proof.
  intros k H. destruct (Z.eq_dec l 0) as [E|N].
  - rewrite E. cbn. unfold dy. lia.
  - apply nearest_range; [unfold l, steps in *; lia|]. unfold dy in *. nia.
Qed.

Lemma lx_range : forall k, 0 <= k <= l -> Z.min x0 x1 <= lx k <= Z.max x0 x1.
Proof. intros k H. pose proof (near_x k H) as N. unfold lx, line_x. fold dx l. set (n := nearest (dx * k) l) in *. unfold dx in *. destruct (Z.sgn_spec (x1 - x0)) as [[? E]|[[? E]|[? E]]]; rewrite E; lia. Qed.
Lemma ly_range : forall k, 0 <= k <= l -> Z.min y0 y1 <= ly k <= Z.max y0 y1.
Proof. intros k H. pose proof (near_y k H) as N. unfold ly, line_y. fold dy l. set (n := nearest (dy * k) l) in *. unfold dy in *. destruct (Z.sgn_spec (y1 - y0)) as [[? E]|[[? E]|[? E]]]; rewrite E; lia. Qed.

Lemma l_frame : forall k, 0 <= k <= l -> in_frame (lx k) (ly k).
Proof. intros k H. pose proof (lx_range k H). pose proof (ly_range k H). destruct H0, H1. split; lia. Qed.

Lemma lx_end : lx l = x1.
Proof.
  unfold lx, line_x. fold dx l. destruct (Z.eq_dec l 0) as [E|N].
  - rewrite E. cbn. unfold l, steps in E. lia.
  - replace (dx * l) with (l * dx) by lia. rewrite nearest_exact by (unfold l, steps in *; lia). unfold dx.
    destruct (Z.sgn_spec (x1 - x0)) as [[? E]|[[? E]|[? E]]]; rewrite E; lia.
Qed.
Lemma ly_end : ly l = y1.
Proof.
  unfold ly, line_y. fold dy l. destruct (Z.eq_dec l 0) as [E|N].
  - rewrite E. cbn. unfold l, steps in E. lia.
  - replace (dy * l) with (l * dy) by lia. rewrite nearest_exact by (unfold l, steps in *; lia). unfold dy.
    destruct (Z.sgn_spec (y1 - y0)) as [[? E]|[[? E]|[? E]]]; rewrite E; lia.
Qed.

Definition sx : Z := if x1 - x0 <? 0 then -1 else 1.
Definition sy : Z := if 0 <? y1 - y0 then 1 else -1.
Definition e_at (k : Z) : Z := err_at dx dy (nearest (dx * k) l) (nearest (dy * k) l).

(** one round of the loop, from the [k]th place to the next *)
Lemma round_ok : forall k, 0 <= k < l -> (dy <= dx -> 2 * (ahead dx dy k + dx - dy) <= 127) ->
  let e2 := wraps 8 (e_at k * 2) in
  (let '(e, x) := if - dy <=? e2 then (wraps 8 (e_at k + - dy), wraps 8 (lx k + sx)) else (e_at k, lx k) in
   let '(e, y) := if e2 <=? dx then (wraps 8 (e + dx), wraps 8 (ly k + sy)) else (e, ly k) in (e, x, y))
  = (e_at (k + 1), lx (k + 1), ly (k + 1)).
Proof.
  intros k K N. cbv zeta. pose proof H0 as [A0 B0]. pose proof H1 as [A1 B1].
  destruct (step_ok dx dy l k) as (R1 & R2 & X & Y & Q1 & Q2 & Q3); try assumption; try (unfold dx, dy; lia); [reflexivity|].
  fold (e_at k) in *. replace (e_at k * 2) with (2 * e_at k) by lia. rewrite (wraps8 (2 * e_at k)) by exact R2.
  pose proof (l_frame (k + 1) ltac:(lia)) as [F1 F2]. pose proof (l_frame k ltac:(lia)) as [F3 F4].
  pose proof (near_x (k + 1) ltac:(lia)) as NX. pose proof (near_y (k + 1) ltac:(lia)) as NY.
  pose proof (near_x k ltac:(lia)) as NX0. pose proof (near_y k ltac:(lia)) as NY0.
  assert (SX : - dy <= 2 * e_at k -> wraps 8 (lx k + sx) = lx (k + 1)).
  { intro G. rewrite wraps8 by (unfold sx; destruct (x1 - x0 <? 0); lia). apply Z.leb_le in G. rewrite G in X.
    unfold lx, line_x. fold dx l. rewrite X in *. unfold sx. set (n := nearest (dx * k) l) in *. unfold dx in NX, NX0. destruct (Z.ltb_spec (x1 - x0) 0); destruct (Z.sgn_spec (x1 - x0)) as [[? E]|[[? E]|[? E]]]; rewrite E; lia. }
  assert (SY : 2 * e_at k <= dx -> wraps 8 (ly k + sy) = ly (k + 1)).
  { intro G. rewrite wraps8 by (unfold sy; destruct (0 <? y1 - y0); lia). apply Z.leb_le in G. rewrite G in Y.
    unfold ly, line_y. fold dy l. rewrite Y in *. unfold sy. set (n := nearest (dy * k) l) in *. unfold dy in NY, NY0. destruct (Z.ltb_spec 0 (y1 - y0)); destruct (Z.sgn_spec (y1 - y0)) as [[? E]|[[? E]|[? E]]]; rewrite E; lia. }
  assert (SX' : 2 * e_at k < - dy -> lx k = lx (k + 1)).
  { intro G. apply Z.leb_gt in G. rewrite G in X. unfold lx, line_x. fold dx l. rewrite X. reflexivity. }
  assert (SY' : dx < 2 * e_at k -> ly k = ly (k + 1)).
  { intro G. apply Z.leb_gt in G. rewrite G in Y. unfold ly, line_y. fold dy l. rewrite Y. reflexivity. }
  assert (EE : e_at (k + 1) = err_at dx dy (nearest (dx * (k + 1)) l) (nearest (dy * (k + 1)) l)) by reflexivity.
  rewrite X, Y in EE. unfold err_at in EE.
  assert (EK : e_at k = dx * (nearest (dy * k) l + 1) - dy * (nearest (dx * k) l + 1)) by reflexivity.
  destruct (Z.leb_spec (- dy) (2 * e_at k)) as [G|G], (Z.leb_spec (2 * e_at k) dx) as [G'|G'].
  - rewrite (SX G), (SY G'), (wraps8 (e_at k + - dy)) by lia. rewrite wraps8 by lia. repeat f_equal. lia.
  - rewrite (SX G), <- (SY' G'), (wraps8 (e_at k + - dy)) by lia. repeat f_equal. lia.
  - rewrite <- (SX' G), (SY G'), (wraps8 (e_at k + dx)) by lia. repeat f_equal. lia.
  - rewrite <- (SX' G), <- (SY' G'). repeat f_equal. lia.
Qed.

(** the loop from the [k]th place on *)
Lemma loop_runs : narrow x0 y0 x1 y1 -> forall n k fuel s, Z.of_nat n = l - k -> 0 <= k -> (n < fuel)%nat ->
  d_x s = lx k -> d_y s = ly k -> fb_ok (d_fb s) -> ink_ok (d_color s) ->
  exists s', line_loop fuel dx (- dy) sx sy (l - k) (e_at k) s = Ok s' /\
    d_x s' = x1 /\ d_y s' = y1 /\ d_color s' = d_color s /\ d_here s' = d_here s /\ d_abort s' = d_abort s /\ fb_ok (d_fb s') /\
    (forall x y, in_frame x y ->
       (exists j, k <= j <= l /\ x = lx j /\ y = ly j) /\ lit (d_fb s') x y = ink_of (d_color s) \/
       ~ (exists j, k <= j <= l /\ x = lx j /\ y = ly j) /\ lit (d_fb s') x y = lit (d_fb s) x y) /\
    forall v, panel_ready (panel_after v (d_bus s)) -> mirrors (panel_after v (d_bus s)) (d_fb s) ->
      panel_ready (panel_after v (d_bus s')) /\ v_on (panel_after v (d_bus s')) = v_on (panel_after v (d_bus s)) /\
      mirrors (panel_after v (d_bus s')) (d_fb s').
Proof.
  intros Nar n. induction n as [|n IH]; intros k fuel s Hn Hk Hf X Y F C; (destruct fuel as [|fuel]; [lia|]); cbn [line_loop];
    pose proof (l_frame k ltac:(lia)) as Fr; rewrite X, Y;
    destruct (set_bit_runs (lx k) (ly k) s F C Fr) as (s1 & E & [S1 S2 S3 S4 S5] & F1 & B1 & L1); rewrite E; cbn [obind].
  - replace (l - k) with 0 by lia. cbn [Z.eqb]. exists s1. assert (k = l) by lia. subst k.
    split; [reflexivity|]. split; [rewrite S3, X; apply lx_end|]. split; [rewrite S4, Y; apply ly_end|].
    split; [exact S1|]. split; [exact S2|]. split; [exact S5|]. split; [exact F1|]. split.
    + intros x y Hxy. rewrite (L1 x y Hxy). destruct (Z.eqb_spec x (lx l)) as [->|NE]; cbn [andb].
      * destruct (Z.eqb_spec y (ly l)) as [->|NE]; [left|right]; (split; [|reflexivity]); [exists l; split; [lia|auto]|].
        intros (j & J & _ & Ey). replace j with l in Ey by lia. contradiction.
      * right. split; [|reflexivity]. intros (j & J & Ex & _). replace j with l in Ex by lia. contradiction.
    + intros v R M. rewrite B1, panel_app. destruct (block_shows _ (d_fb s1) (lx l) (ly l) R Fr) as (R' & O' & _).
      split; [exact R'|]. split; [exact O'|]. eapply block_mirrors; eauto. intros x' y' Hxy' NE. rewrite (L1 x' y' Hxy').
      destruct (Z.eqb_spec x' (lx l)); [|reflexivity]. destruct (Z.eqb_spec y' (ly l)); [|reflexivity]. subst. contradiction.
  - destruct (Z.eqb_spec (l - k) 0); [lia|].
    pose proof (round_ok k ltac:(lia)) as Rd. cbv zeta in Rd. 
    assert (N' : dy <= dx -> 2 * (ahead dx dy k + dx - dy) <= 127). { intro G. apply Nar; [exact G|]. fold dx. assert (l = dx) by (unfold l, steps; fold dx dy; lia). lia. }
    specialize (Rd N'). rewrite S3, S4, X, Y in *.
    assert (W : wraps 8 (l - k - 1) = l - (k + 1)). { rewrite wraps8; [lia|]. destruct H0, H1. assert (l <= 63) by (unfold l, steps; lia). lia. }
    rewrite W.
    destruct (if - dy <=? wraps 8 (e_at k * 2) then (wraps 8 (e_at k + - dy), wraps 8 (lx k + sx)) else (e_at k, lx k)) as [e1 xx].
    destruct (if wraps 8 (e_at k * 2) <=? dx then (wraps 8 (e1 + dx), wraps 8 (ly k + sy)) else (e1, ly k)) as [e3 yy].
    inversion Rd; subst e3 xx yy; clear Rd.
    destruct (IH (k + 1) fuel (with_pos (lx (k + 1)) (ly (k + 1)) s1) ltac:(lia) ltac:(lia) ltac:(lia) eq_refl eq_refl F1) as (s' & E' & T1 & T2 & T3 & T4 & T5 & T6 & T7 & T8);
      [cbn [d_color with_pos]; rewrite S1; exact C|].
    exists s'. cbn [d_color d_here d_abort d_fb d_bus with_pos] in *.
    split; [exact E'|]. split; [exact T1|]. split; [exact T2|]. split; [congruence|]. split; [congruence|]. split; [congruence|]. split; [exact T6|]. split.
    + intros x y Hxy. destruct (T7 x y Hxy) as [[(j & J & Jx & Jy) L2]|[NJ L2]].
      * left. split; [exists j; split; [lia|auto]|congruence].
      * rewrite L2, (L1 x y Hxy). destruct (Z.eqb_spec x (lx k)) as [Ex|NE]; cbn [andb].
        -- destruct (Z.eqb_spec y (ly k)) as [Ey|NE]; [left; split; [exists k; split; [lia|auto]|reflexivity]|right; split; [|reflexivity]].
           intros (j & J & Jx & Jy). destruct (Z.eq_dec j k); [subst j; contradiction|]. apply NJ. exists j. split; [lia|auto].
        -- right. split; [|reflexivity]. intros (j & J & Jx & Jy). destruct (Z.eq_dec j k); [subst j; contradiction|]. apply NJ. exists j. split; [lia|auto].
    + intros v R M. destruct (block_shows _ (d_fb s1) (lx k) (ly k) R Fr) as (R' & O' & _). rewrite <- panel_app, <- B1 in R', O'.
      destruct (T8 v R') as (U1 & U2 & U3).
      { rewrite B1, panel_app. eapply block_mirrors; eauto. intros x' y' Hxy' NE. rewrite (L1 x' y' Hxy').
        destruct (Z.eqb_spec x' (lx k)); [|reflexivity]. destruct (Z.eqb_spec y' (ly k)); [|reflexivity]. subst. contradiction. }
      split; [exact U1|]. split; [congruence|exact U3].
Qed.

Lemma line_to_is : forall s, d_x s = x0 -> d_y s = y0 ->
  line_to x1 y1 s = line_loop (Z.to_nat 256) dx (- dy) sx sy l (e_at 0) s.
Proof.
  intros s X Y. pose proof H0 as [A0 B0]. pose proof H1 as [A1 B1]. unfold line_to. rewrite X, Y, (wraps8 (x1 - x0)), (wraps8 (y1 - y0)) by lia.
  assert (E1 : (if x1 - x0 <? 0 then (wraps 8 (- (x1 - x0)), -1) else (x1 - x0, 1)) = (dx, sx)).
  { unfold dx, sx. destruct (Z.ltb_spec (x1 - x0) 0); [rewrite wraps8 by lia|]; f_equal; lia. }
  assert (E2 : (if 0 <? y1 - y0 then (wraps 8 (- (y1 - y0)), 1) else (y1 - y0, -1)) = (- dy, sy)).
  { unfold dy, sy. destruct (Z.ltb_spec 0 (y1 - y0)); [rewrite wraps8 by lia|]; f_equal; lia. }
  rewrite E1, E2. rewrite wraps8 by (unfold dy; lia). rewrite wraps8 by (unfold dx, dy; lia).
  replace (if dx <? - - dy then - - dy else dx) with l.
  2:{ unfold l, steps. fold dx dy. destruct (Z.ltb_spec dx (- - dy)); lia. }
  f_equal. unfold e_at, err_at. rewrite !Z.mul_0_r, nearest_0 by (unfold l, steps; lia). lia.
Qed.

(** ** Lines that are not narrow *)
Lemma set_bit_pos : forall x y s s', set_bit x y s = Ok s' -> d_x s' = d_x s /\ d_y s' = d_y s.
Proof.
  intros x y s s' H. unfold set_bit in H. destruct (fb_get _ s) as [v| |]; cbn [obind] in H; try discriminate.
  match type of H with obind (fb_put ?i ?v s) _ = _ => destruct (fb_put i v s) as [s1| |] eqn:E end; cbn [obind] in H; try discriminate.
  assert (P : d_x s1 = d_x s /\ d_y s1 = d_y s).
  { unfold fb_put in E. destruct (_ <? 0); [discriminate|]. destruct (set_nth _ _ _); inversion E. split; reflexivity. }
  unfold paint_block in H. match type of H with obind ?b _ = _ => destruct b as [b'| |] end; cbn [obind] in H; try discriminate.
  rewrite send_times_bus in H. inversion H. cbn. exact P.
Qed.

(** from a place [m] steps of x behind where it should be, the line cannot
    reach its end *)
Lemma loop_short : 0 < dx -> forall n fuel len e i s s', Z.of_nat n = len -> len <= 63 -> 0 <= i -> i + len < dx ->
  d_x s = x0 + sx * i ->
  line_loop fuel dx (- dy) sx sy len e s = Ok s' -> d_x s' <> x1.
Proof.
  intros Dx n. pose proof H0 as [A0 B0]. pose proof H1 as [A1 B1].
  assert (NE : forall i, 0 <= i < dx -> 0 <= x0 + sx * i <= 63 /\ x0 + sx * i <> x1).
  { intros i Hi. unfold sx, dx in *. destruct (Z.ltb_spec (x1 - x0) 0); lia. }
  induction n as [|n IH]; intros fuel len e i s s' Hn Hl Hi Hd X E; (destruct fuel as [|fuel]; [discriminate E|]); cbn [line_loop] in E;
    destruct (set_bit (d_x s) (d_y s) s) as [s1| |] eqn:Es; cbn [obind] in E; try discriminate;
    destruct (set_bit_pos _ _ _ _ Es) as [P _].
  - replace len with 0 in E by lia. cbn [Z.eqb] in E. inversion E; subst s1. rewrite P, X. apply NE. lia.
  - destruct (Z.eqb_spec len 0); [lia|]. rewrite (wraps8 (len - 1)) in E by lia. rewrite P, X in E.
    destruct (NE i ltac:(lia)) as [R0 _]. destruct (NE (i + 1) ltac:(lia)) as [R1 _].
    rewrite (wraps8 (x0 + sx * i + sx)) in E by lia.
    destruct (- dy <=? wraps 8 (e * 2)).
    + destruct (if wraps 8 (e * 2) <=? dx then _ else _) as [e3 yy] in E.
      eapply (IH _ (len - 1) _ (i + 1)); [lia|lia|lia|lia| |exact E]. cbn [d_x with_pos]. lia.
    + destruct (if wraps 8 (e * 2) <=? dx then _ else _) as [e3 yy] in E.
      eapply (IH _ (len - 1) _ i); [lia|lia|lia|lia| |exact E]. reflexivity.
Qed.

Lemma loop_lost : dy <= dx -> forall n k fuel s s', Z.of_nat n = l - k -> 0 <= k ->
  (exists j, k <= j < dx /\ 127 < 2 * (ahead dx dy j + dx - dy)) ->
  d_x s = lx k -> d_y s = ly k -> line_loop fuel dx (- dy) sx sy (l - k) (e_at k) s = Ok s' -> d_x s' <> x1.
Proof.
  intros W n. pose proof H0 as [A0 B0]. pose proof H1 as [A1 B1].
  assert (Ll : l = dx) by (unfold l, steps; fold dx dy; lia).
  induction n as [|n IH]; intros k fuel s s' Hn Hk (j & J & Bad) X Y E; [lia|].
  destruct fuel as [|fuel]; [discriminate E|]. cbn [line_loop] in E.
  destruct (set_bit (d_x s) (d_y s) s) as [s1| |] eqn:Es; cbn [obind] in E; try discriminate.
  destruct (set_bit_pos _ _ _ _ Es) as [P Q]. rewrite P, Q, X, Y in E. destruct (Z.eqb_spec (l - k) 0); [lia|].
  assert (Wl : wraps 8 (l - k - 1) = l - (k + 1)) by (rewrite wraps8; unfold dx in *; lia). rewrite Wl in E.
  destruct (Z.leb_spec (2 * (ahead dx dy k + dx - dy)) 127) as [G|G].
  - pose proof (round_ok k ltac:(lia) (fun _ => G)) as Rd. cbv zeta in Rd.
    destruct (if - dy <=? wraps 8 (e_at k * 2) then (wraps 8 (e_at k + - dy), wraps 8 (lx k + sx)) else (e_at k, lx k)) as [e1 xx].
    destruct (if wraps 8 (e_at k * 2) <=? dx then (wraps 8 (e1 + dx), wraps 8 (ly k + sy)) else (e1, ly k)) as [e3 yy].
    inversion Rd; subst e3 xx yy; clear Rd.
    eapply (IH (k + 1)); [lia|lia| | | |exact E]; [|reflexivity|reflexivity].
    exists j. split; [|exact Bad]. destruct (Z.eq_dec j k); [subst; lia|lia].
  - pose proof (step_lost dx dy k ltac:(unfold dx; lia) ltac:(unfold dy; lia) W ltac:(lia) G) as Lo. cbv zeta in Lo.
    assert (Ee : e_at k = err_at dx dy (nearest (dx * k) dx) (nearest (dy * k) dx)) by (unfold e_at; rewrite Ll; reflexivity).
    rewrite <- Ee in Lo. replace (e_at k * 2) with (2 * e_at k) in E by lia.
    destruct (Z.leb_spec (- dy) (wraps 8 (2 * e_at k))); [lia|].
    destruct (if wraps 8 (2 * e_at k) <=? dx then _ else _) as [e3 yy] in E.
    eapply (loop_short ltac:(lia) n fuel (l - (k + 1)) _ k); [lia|unfold dx in *; lia|lia|lia| |exact E]. cbn [d_x with_pos].
    unfold lx, line_x. fold dx l. rewrite Ll, nearest_exact by lia. unfold sx, dx in *. destruct (Z.ltb_spec (x1 - x0) 0); destruct (Z.sgn_spec (x1 - x0)) as [[? Eg]|[[? Eg]|[? Eg]]]; rewrite Eg; lia.
Qed.
End Line.

(** * draw.line between given places *)
Lemma line_to_runs : forall x1 y1 s, in_frame (d_x s) (d_y s) -> in_frame x1 y1 -> narrow (d_x s) (d_y s) x1 y1 ->
  fb_ok (d_fb s) -> ink_ok (d_color s) ->
  exists s', line_to x1 y1 s = Ok s' /\
    d_x s' = x1 /\ d_y s' = y1 /\ d_color s' = d_color s /\ d_here s' = d_here s /\ d_abort s' = d_abort s /\ fb_ok (d_fb s') /\
    (forall x y, in_frame x y ->
       on_line (d_x s) (d_y s) x1 y1 x y /\ lit (d_fb s') x y = ink_of (d_color s) \/
       ~ on_line (d_x s) (d_y s) x1 y1 x y /\ lit (d_fb s') x y = lit (d_fb s) x y) /\
    forall v, panel_ready (panel_after v (d_bus s)) -> mirrors (panel_after v (d_bus s)) (d_fb s) ->
      panel_ready (panel_after v (d_bus s')) /\ v_on (panel_after v (d_bus s')) = v_on (panel_after v (d_bus s)) /\
      mirrors (panel_after v (d_bus s')) (d_fb s').
Proof.
  intros x1 y1 s H0 H1 N F C. rewrite (line_to_is (d_x s) (d_y s) x1 y1 H0 H1 s eq_refl eq_refl).
  assert (L : 0 <= steps (d_x s) (d_y s) x1 y1 <= 63) by (destruct H0, H1; unfold steps; lia).
  destruct (loop_runs (d_x s) (d_y s) x1 y1 H0 H1 N (Z.to_nat (steps (d_x s) (d_y s) x1 y1)) 0 (Z.to_nat 256) s) as (s' & E & R);
    [lia|lia|lia| | |exact F|exact C|].
  - symmetry. apply lx_0.
  - symmetry. apply ly_0.
  - rewrite Z.sub_0_r in E. exists s'. split; [exact E|exact R].
Qed.

Lemma line_to_lost : forall x1 y1 s s', in_frame (d_x s) (d_y s) -> in_frame x1 y1 -> ~ narrow (d_x s) (d_y s) x1 y1 ->
  line_to x1 y1 s = Ok s' -> d_x s' <> x1.
Proof.
  intros x1 y1 s s' H0 H1 N E. rewrite (line_to_is (d_x s) (d_y s) x1 y1 H0 H1 s eq_refl eq_refl) in E.
  set (dx := Z.abs (x1 - d_x s)) in *. set (dy := Z.abs (y1 - d_y s)) in *.
  destruct (Z.leb_spec dy dx) as [W|W]; [|exfalso; apply N; unfold narrow; cbv zeta; fold dx dy; lia].
  assert (B : exists j, 0 <= j < dx /\ 127 < 2 * (ahead dx dy j + dx - dy)).
  { assert (D : forall n, (forall k, 0 <= k < Z.of_nat n -> 2 * (ahead dx dy k + dx - dy) <= 127) \/
                          exists j, 0 <= j < Z.of_nat n /\ 127 < 2 * (ahead dx dy j + dx - dy)).
    { induction n as [|n [IH|(j & J & B)]]; [left; lia| |right; exists j; split; [lia|exact B]].
      destruct (Z.leb_spec (2 * (ahead dx dy (Z.of_nat n) + dx - dy)) 127) as [G|G].
      - left. intros k K. destruct (Z.eq_dec k (Z.of_nat n)); [subst; exact G|apply IH; lia].
      - right. exists (Z.of_nat n). split; [lia|exact G]. }
    destruct (D (Z.to_nat dx)) as [G|(j & J & B)].
    - exfalso. apply N. unfold narrow. cbv zeta. fold dx dy. intros _ k K. apply G. lia.
    - exists j. split; [lia|exact B]. }
  eapply (loop_lost (d_x s) (d_y s) x1 y1 H0 H1 W (Z.to_nat (steps (d_x s) (d_y s) x1 y1)) 0); [unfold steps; lia|lia| | | |rewrite Z.sub_0_r; exact E].
  - exact B.
  - symmetry. apply lx_0.
  - symmetry. apply ly_0.
Qed.
