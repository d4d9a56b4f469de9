(** C103 to C105: the pins of the ATmega328P. *)
From Coq Require Import ZArith Reals Lia Lra Bool List.
From Flocq Require Import IEEE754.BinarySingleNaN IEEE754.Binary IEEE754.Bits Core.
From Verif Require Import Base FloatModel MathSpec MathProofs PinModel PinSpec PinProofs PinProofs2 PinFloat.
Import ListNotations.
Local Open Scope Z_scope.
Notation val f := (B2R 24 128 f).
Notation nearest_number x := (round radix2 (FLT_exp (-149) 24) ZnearestE x).

(** ** C103 *)
(** After any sequence of operations on pins other than A5, without tones, every
    pin shows what was asked of it alone. *)
Theorem C103_pins_partial : forall os ls, Forall2 means os ls ->
  exists g, pin_ops os pins_start = Ok g /\ forall p, pin_ok p -> shows_pin g (asks (concat ls) board_start) p.
Proof.
  intros os ls H. destruct (ops_ok os ls H _ _ inv_start) as (g & R & I). exists g. split; [exact R|]. intros p Hp. exact (inv_shows _ _ p I Hp).
Qed.
Print Assumptions C103_pins_partial.
(** The power is 255 times the argument, taken as 0 below 0 and 1 above 1, to the
    nearest whole number but for the rounding of the float. *)
Theorem C103_power_partial : forall f, f_is_nan f = false ->
  exists z, power_of f = Ok z /\ 0 <= z <= 255 /\ (Rabs (IZR z - 255 * clamp f) <= 1 / 2 + bpow radix2 (-15))%R.
Proof. exact power_val. Qed.
Print Assumptions C103_power_partial.
(** A pin that does not exist is an error and changes no pin. *)
Theorem C103_invalid : forall g p, p < 0 \/ 21 <= p -> g_err g = false ->
  forall o, (exists d, o = Talkto p d \/ o = Talkto d p) \/ o = Read p \/ o = Pullup p \/ o = Pullnone p ->
  exists g', pin_op o g = Ok g' /\ g_err g' = true /\ (forall q, drive_at g' q = drive_at g q) /\
             g_power_pin g' = g_power_pin g /\ g_dir_pin g' = g_dir_pin g /\ g_pull g' = g_pull g /\ g_on g' = g_on g.
Proof.
  intros g p H E o Ho. exists (set_abort g). destruct (bad_pin g p H E) as (B1 & B2 & B3 & B4 & B5).
  split; [|repeat split]. destruct Ho as [(d & [->| ->])|[->|[->| ->]]]; cbn [pin_op]; auto.
Qed.
Print Assumptions C103_invalid.
(** talkto((3, 4)), setpower(0.5), on(), talkto(13), on(), read(8) *)
Definition half : float := fdiv f_one (f_of_Z 2).
Definition demo_ops : list pop := [Talkto 3 4; Setpower half; On; Talkto 13 13; On; Read 8].
Definition demo_means : list (list aop) := [[ATalkto 3 4]; [ASetpower 128]; [APower true]; [ATalkto 13 13]; [APower true]; [ARead 8]].
Definition drives (l : list Z) (x : outcome pins) : list drive := match x with Ok g => map (drive_at g) l | _ => [] end.
Example C103_applies : Forall2 means demo_ops demo_means /\
  drives [3; 4; 8; 9; 13] (pin_ops demo_ops pins_start) = [Pwm 128; Low; Input true; Input false; High].
Proof.
  split; [|vm_compute; reflexivity].
  repeat constructor; unfold pin_ok; try lia.
Qed.
Example C103_power_applies : f_is_nan half = false /\ power_of half = Ok 128 /\ power_of (f_of_Z (-3)) = Ok 0 /\ power_of (f_of_Z 7) = Ok 255.
Proof. vm_compute. repeat split. Qed.
Example C103_invalid_applies : match pin_op (Talkto 21 3) pins_start with Ok g => g_err g | _ => false end = true.
Proof. reflexivity. Qed.

(** A5: after talkto(A5) switching or setting the power uses entries beyond the
    end of the tables. *)
Theorem C103_a5_refuted : forall g, g_err g = false -> exists g1, talkto 19 19 g = Ok g1 /\
  on g1 = UB /\ off g1 = UB /\ onfor g1 = UB /\ forall f n, power_of f = Ok n -> setpower f g1 = UB.
Proof. exact a5. Qed.
Print Assumptions C103_a5_refuted.
(** The pull-up resistors: undefined from A2 on; A1 takes A2 to A5 along. *)
Theorem C103_pull_refuted : forall g p, g_err g = false -> 16 <= p < 21 -> pullup p g = UB /\ pullnone p g = UB.
Proof. exact pull_high. Qed.
Print Assumptions C103_pull_refuted.
Theorem C103_pull_a1_refuted : forall g, g_err g = false -> exists g1 g2, pullup 15 g = Ok g1 /\ pullnone 15 g = Ok g2 /\
  forall q, 15 <= q < 21 -> is_pull q g1 = true /\ is_pull q g2 = false.
Proof. exact pull_15. Qed.
Print Assumptions C103_pull_a1_refuted.
(** A pin that is off and pulled up when read is driven high by talkto. *)
Theorem C103_read_refuted : forall os ls g p, Forall2 means os ls -> pin_ops os pins_start = Ok g -> pin_ok p ->
  a_on (b_pin (asks (concat ls) board_start) p) = false -> a_pull (b_pin (asks (concat ls) board_start) p) = true ->
  exists g1, pin_ops [Read p; Talkto p p] g = Ok g1 /\ drive_at g1 p = High /\ is_on p g1 = false.
Proof.
  intros os ls g p H R Hp. destruct (ops_ok os ls H _ _ inv_start) as (g' & R' & I). rewrite R in R'. injection R' as <-. exact (read_talk _ _ p I Hp).
Qed.
Print Assumptions C103_read_refuted.
Example C103_read_applies : a_on (b_pin (asks (concat demo_means) board_start) 8) = false /\ a_pull (b_pin (asks (concat demo_means) board_start) 8) = true /\
  drives [8] (pin_ops (demo_ops ++ [Read 8; Talkto 8 8]) pins_start) = [High].
Proof. vm_compute. repeat split. Qed.
(** setpower of a NaN is undefined; every other call writes a line. *)
Theorem C103_setpower_refuted : forall f g, (f_is_nan f = true -> setpower f g = UB) /\ forall g', setpower f g = Ok g' -> g_lines g' = S (g_lines g).
Proof.
  intros f g. split; [|apply setpower_lines]. intro N. unfold setpower. rewrite (power_nan f N). reflexivity.
Qed.
Print Assumptions C103_setpower_refuted.
Example C103_setpower_applies : f_is_nan (fdiv f_zero f_zero) = true /\
  match pin_ops demo_ops pins_start with Ok g => g_lines g | _ => 9%nat end = 1%nat.
Proof. vm_compute. repeat split. Qed.

(** ** C104 *)
(** For a frequency up to 8 MHz, tone makes D5 change after the half period in
    cycles of the clock, divided by the least divisor for which it fits the
    counter and cut to a whole number; if the pin had not more power before than
    that number. *)
Theorem C104_tone_partial : forall g f, let v := Zfloor (nearest_number (8000000 / val f)) in
  f_is_finite f = true -> (0 < val f)%R -> (nearest_number (8000000 / val f) < 2 ^ 32)%R -> 1 <= v -> v / 1024 <= 256 ->
  exists g' n cs, tone f g = Ok g' /\ 1 <= cs <= 5 /\ n = v / divisor cs /\ 1 <= n <= 256 /\ (1 < cs -> 256 < v / divisor (cs - 1)) /\
    (g_ocr g 5 < n -> drive_at g' 5 = Square n cs).
Proof.
  intros g f v F P L V1 V2. pose proof (cycles_val f F P L) as C. fold v in C.
  assert (Z0 : feq f f_zero = false).
  { unfold feq, b32_compare. rewrite Bcompare_correct by (exact F || reflexivity). change (val f_zero) with 0%R. rewrite Rcompare_Gt by lra. reflexivity. }
  pose proof (prescale_spec v ltac:(lia)) as S. destruct (prescale 6 v 1) as [[n cs]|] eqn:e; [|lia]. destruct S as (S1 & S2 & S3 & S4).
  assert (N : 1 <= n).
  { destruct (Z.eq_dec cs 1) as [->|]; [change (divisor 1) with 1 in S2; rewrite Z.div_1_r in S2; lia|].
    specialize (S4 ltac:(lia)). assert (cs = 2 \/ cs = 3 \/ cs = 4 \/ cs = 5) as [->|[->|[->| ->]]] by lia;
      [change (divisor (2 - 1)) with 1 in S4; change (divisor 2) with 8 in S2|change (divisor (3 - 1)) with 8 in S4; change (divisor 3) with 64 in S2
      |change (divisor (4 - 1)) with 64 in S4; change (divisor 4) with 256 in S2|change (divisor (5 - 1)) with 256 in S4; change (divisor 5) with 1024 in S2];
      Z.div_mod_to_equations; lia. }
  destruct (tone_drive g f v n cs Z0 C e) as (g' & R & _ & D). exists g', n, cs. split; [exact R|]. repeat (split; [auto; lia|]).
  intro G. rewrite D, Z.mod_small by lia. destruct (Z.leb_spec (g_ocr g 5) (n - 1)); [|lia]. f_equal. lia.
Qed.
Print Assumptions C104_tone_partial.
(** 440 Hz: 18181 cycles, 71 of 256 *)
Example C104_applies : drives [5] (tone (f_of_Z 440) pins_start) = [Square 71 4] /\ divisor 4 = 256 /\ g_ocr pins_start 5 < 71.
Proof. split; [vm_compute; reflexivity|split; [reflexivity|cbn; lia]]. Qed.
(** A higher frequency gives 31250 Hz. *)
Theorem C104_high_refuted : forall g f, f_is_finite f = true -> (0 < val f)%R -> Zfloor (nearest_number (8000000 / val f)) = 0 -> g_ocr g 5 <= 255 ->
  exists g', tone f g = Ok g' /\ drive_at g' 5 = Square 256 1.
Proof.
  intros g f F P V G. assert (L : (nearest_number (8000000 / val f) < 1)%R).
  { pose proof (Zfloor_ub (nearest_number (8000000 / val f))) as U. rewrite V in U. cbn in U. lra. }
  assert (L' : (nearest_number (8000000 / val f) < 2 ^ 32)%R) by (eapply Rlt_trans; [exact L|]; lra).
  pose proof (cycles_val f F P L') as C. rewrite V in C.
  assert (Z0 : feq f f_zero = false).
  { unfold feq, b32_compare. rewrite Bcompare_correct by (exact F || reflexivity). change (val f_zero) with 0%R. rewrite Rcompare_Gt by lra. reflexivity. }
  destruct (tone_drive g f 0 0 1 Z0 C eq_refl) as (g' & R & _ & D). exists g'. split; [exact R|]. rewrite D. change ((0 - 1) mod 256) with 255.
  destruct (Z.leb_spec (g_ocr g 5) 255); [reflexivity|lia].
Qed.
Print Assumptions C104_high_refuted.
Example C104_high_applies : drives [5] (tone (f_of_Z 9000000) pins_start) = [Square 256 1].
Proof. vm_compute. reflexivity. Qed.
(** A negative frequency is undefined. *)
Theorem C104_negative_refuted : forall g f, f_is_finite f = true -> (- 8000000 <= val f < 0)%R -> tone f g = UB.
Proof.
  intros g f F P. unfold tone. pose proof (cycles_neg f F P) as C. unfold cycles in C. rewrite C.
  replace (feq f f_zero) with false; [reflexivity|]. unfold feq, b32_compare. rewrite Bcompare_correct by (exact F || reflexivity). change (val f_zero) with 0%R. rewrite Rcompare_Lt by lra. reflexivity.
Qed.
Print Assumptions C104_negative_refuted.
(** After power has been set for D5 there may be no tone: 440 Hz with 0.5. *)
Theorem C104_power_refuted : exists g, pin_ops [Talkto 5 5; Setpower half; On] pins_start = Ok g /\
  forall f v n cs, feq f f_zero = false -> cycles f = Ok v -> prescale 6 v 1 = Some (n, cs) -> 1 <= n <= 128 ->
  exists g', tone f g = Ok g' /\ drive_at g' 5 = Still.
Proof.
  destruct (pin_ops [Talkto 5 5; Setpower half; On] pins_start) as [g| |] eqn:e; [|vm_compute in e; discriminate|vm_compute in e; discriminate].
  exists g. split; [reflexivity|]. assert (O : g_ocr g 5 = 128).
  { assert (X : match pin_ops [Talkto 5 5; Setpower half; On] pins_start with Ok g => g_ocr g 5 | _ => 0 end = 128) by (vm_compute; reflexivity). rewrite e in X. exact X. }
  intros f v n cs Z0 C P N. destruct (tone_drive g f v n cs Z0 C P) as (g' & R & _ & D). exists g'. split; [exact R|]. rewrite D, O, Z.mod_small by lia.
  destruct (Z.leb_spec 128 (n - 1)); [lia|reflexivity].
Qed.
Print Assumptions C104_power_refuted.
Example C104_power_applies : cycles (f_of_Z 440) = Ok 18181 /\ prescale 6 18181 1 = Some (71, 4) /\
  drives [5] (pin_ops [Talkto 5 5; Setpower half; On; Tone (f_of_Z 440)] pins_start) = [Still].
Proof. vm_compute. repeat split. Qed.
(** tone(0) ends a tone, and D5 and D6 are pulsed at the frequency they were pulsed
    at before any tone. *)
Theorem C104_off g : exists g', tone f_zero g = Ok g' /\ period0 g' = period0 pins_start /\
  (forall n cs, drive_at g' 5 <> Square n cs) /\ drive_at g' 5 <> Still.
Proof.
  exists (tone_off g). split; [reflexivity|]. split; [reflexivity|].
  assert (T : g_tcc (tone_off g) T0 = 3) by reflexivity. unfold drive_at. change (unit_of 5) with (Some (T0, 5)). cbv iota zeta beta. rewrite T.
  change (Z.testbit 3 5) with false. change (Z.testbit 3 (5 - 1)) with false. cbv iota. unfold level.
  destruct (bit_at (g_ddr (tone_off g)) 5), (bit_at (g_port (tone_off g)) 5); split; discriminate.
Qed.
Print Assumptions C104_off.
Definition period_of (x : outcome pins) : option (option Z) := match x with Ok g => Some (period0 g) | _ => None end.
Example C104_off_applies : period_of (pin_ops [Tone (f_of_Z 440)] pins_start) = Some None /\ period_of (pin_ops [Tone (f_of_Z 440); Tone f_zero] pins_start) = Some (Some 256).
Proof. vm_compute. repeat split. Qed.
(** tone changes what no pin but D5 and D6 shows. *)
Theorem C104_others : forall f g g' q, tone f g = Ok g' -> (forall t, t <> T0 -> Z.testbit (g_tcc g t) 0 = true) -> 0 <= q -> q <> 5 -> q <> 6 ->
  drive_at g' q = drive_at g q.
Proof. exact tone_others. Qed.
Print Assumptions C104_others.
(** D6 is no longer pulsed when a tone is played. *)
Theorem C104_d6_refuted : forall f v n cs g, feq f f_zero = false -> cycles f = Ok v -> prescale 6 v 1 = Some (n, cs) ->
  exists g', tone f g = Ok g' /\ forall m, drive_at g' 6 <> Pwm m.
Proof. exact tone_six. Qed.
Print Assumptions C104_d6_refuted.
Definition six : list pop := [Talkto 3 3; Setpower half; On; Talkto 6 6; Setpower half; On].
Example C104_others_applies : drives [3; 6] (pin_ops six pins_start) = [Pwm 128; Pwm 128] /\
  drives [3; 6] (pin_ops (six ++ [Tone (f_of_Z 440)]) pins_start) = [Pwm 128; Low].
Proof. vm_compute. repeat split. Qed.
(** tonefor leaves the power pin on. *)
Theorem C104_tonefor_refuted : forall f g g', tonefor f g = Ok g' -> 0 <= g_power_pin g -> g_power_pin g <> 5 -> is_on (g_power_pin g) g' = true.
Proof. exact tonefor_on. Qed.
Print Assumptions C104_tonefor_refuted.
Example C104_tonefor_applies : drives [13] (pin_ops [Talkto 13 13; Off] pins_start) = [Low] /\
  drives [13] (pin_ops [Talkto 13 13; Off; Tonefor (f_of_Z 440)] pins_start) = [High].
Proof. vm_compute. repeat split. Qed.

(** ** C105 *)
(** After stopall no pin is on or pulsed, and the outputs that were on are low. *)
Theorem C105_stopall_partial : forall os ls, Forall2 means os ls ->
  exists g g', pin_ops os pins_start = Ok g /\ stopall g = Ok g' /\ forall p, pin_ok p ->
    is_on p g' = false /\ (is_on p g = true -> a_out (b_pin (asks (concat ls) board_start) p) = true -> drive_at g' p = Low) /\
    forall n, drive_at g' p <> Pwm n.
Proof.
  intros os ls H. destruct (ops_ok os ls H _ _ inv_start) as (g & R & I). destruct (stopall_all _ _ I) as (g' & R' & S). exists g, g'. auto.
Qed.
Print Assumptions C105_stopall_partial.
Example C105_applies : drives [3; 13] (pin_ops (demo_ops ++ [Stopall]) pins_start) = [Low; Low].
Proof. vm_compute. reflexivity. Qed.
(** A tone goes on. *)
Theorem C105_tone_refuted : forall g f v n cs, feq f f_zero = false -> cycles f = Ok v -> prescale 6 v 1 = Some (n, cs) -> g_ocr g 5 <= (n - 1) mod 256 ->
  Z.testbit (g_on g) 19 = false ->
  exists g1 g2, tone f g = Ok g1 /\ stopall g1 = Ok g2 /\ drive_at g1 5 = Square ((n - 1) mod 256 + 1) cs /\ drive_at g2 5 = drive_at g1 5.
Proof. exact stop_tone. Qed.
Print Assumptions C105_tone_refuted.
Example C105_tone_applies : drives [5] (pin_ops (demo_ops ++ [Tone (f_of_Z 440); Stopall]) pins_start) = [Square 71 4].
Proof. vm_compute. reflexivity. Qed.
