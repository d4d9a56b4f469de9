From Coq Require Import ZArith Bool List Lia.
From Verif Require Import Base FloatModel PinModel PinSpec PinProofs.
Import ListNotations.
Local Open Scope Z_scope.
Open Scope outcome_scope.

Definition fine_talk p d g (H : 0 <= p < 21) (H' : 0 <= d < 21) : g_err g = false -> talkto p d g = Ok (set_talk p d (set_dir d true (set_dir p true g))).
Proof. intro E. unfold talkto. rewrite !get_pin_ok by assumption. rewrite E. reflexivity. Qed.

(** A5 *)
Lemma a5 g : g_err g = false -> exists g1, talkto 19 19 g = Ok g1 /\ on g1 = UB /\ off g1 = UB /\ onfor g1 = UB /\ forall f n, power_of f = Ok n -> setpower f g1 = UB.
Proof.
  intro E. eexists. split; [apply fine_talk; [lia|lia|exact E]|]. repeat split.
  intros f n H. unfold setpower. rewrite H. reflexivity.
Qed.

(** the pull-up resistors *)
Lemma pull_high g p : g_err g = false -> 16 <= p < 21 -> pullup p g = UB /\ pullnone p g = UB.
Proof.
  intros E H. unfold pullup, pullnone. rewrite get_pin_ok by lia. rewrite E. unfold one_shl.
  destruct (Z.ltb_spec p 15); [lia|]. destruct (Z.eqb_spec p 15); [lia|]. auto.
Qed.
Lemma top_bits q : 15 <= q < 32 -> Z.testbit (2 ^ 32 - 2 ^ 15) q = true.
Proof.
  intro H. replace (2 ^ 32 - 2 ^ 15) with (Z.shiftl (Z.ones 17) 15) by reflexivity. rewrite Z.shiftl_spec by lia. apply Z.ones_spec_low. lia.
Qed.
Lemma pull_15 g : g_err g = false -> exists g1 g2, pullup 15 g = Ok g1 /\ pullnone 15 g = Ok g2 /\
  forall q, 15 <= q < 21 -> is_pull q g1 = true /\ is_pull q g2 = false.
Proof.
  intro E. assert (X : forall g', get_pin 15 g' = g') by (intro; apply get_pin_ok; lia).
  eexists. eexists. unfold pullup, pullnone. rewrite X, E. split; [reflexivity|]. split; [reflexivity|].
  intros q H. unfold is_pull. cbn [obind g_pull set_pull]. rewrite Z.lor_spec, Z.ldiff_spec, !top_bits by lia. split; [apply orb_true_r|apply andb_false_r].
Qed.

(** an input that is made an output *)
Lemma read_talk g b p : inv g b -> pin_ok p -> a_on (b_pin b p) = false -> a_pull (b_pin b p) = true ->
  exists g1, pin_ops [Read p; Talkto p p] g = Ok g1 /\ drive_at g1 p = High /\ is_on p g1 = false.
Proof.
  intros I Hp Hc Pl. pose proof I as (E & _ & _ & _ & _ & _ & _ & A). destruct (A p Hp) as (F1 & F2 & F3 & F4 & F5 & FC & F6). pose proof (ok_nonneg _ Hp) as H0.
  assert (R : 0 <= p < 21) by (unfold pin_ok in Hp; lia).
  cbn [pin_ops pin_op]. unfold read_pin. rewrite get_pin_ok by assumption. rewrite E. cbn [obind].
  rewrite fine_talk by assumption. cbn [obind]. eexists. split; [reflexivity|].
  split; [|exact (eq_trans F1 Hc)].
  assert (T : bit_at (g_port (set_talk p p (set_dir p true (set_dir p true (set_dir p false g))))) p = true).
  { unfold set_dir. gcbn. rewrite !bit_at_put, !Z.eqb_refl by assumption. unfold is_pull. gcbn. rewrite F4. exact Pl. }
  assert (D : bit_at (g_ddr (set_talk p p (set_dir p true (set_dir p true (set_dir p false g))))) p = true).
  { unfold set_dir. gcbn. rewrite !bit_at_put, !Z.eqb_refl by assumption. reflexivity. }
  unfold drive_at; rewrite ?unit_eq. rewrite T, D. destruct (channel p) as [[t i]|] eqn:e; [|reflexivity]. unfold set_dir. gcbn.
  specialize (FC Hc). unfold com in FC. rewrite e in FC. rewrite FC.
  pose proof I as (_ & _ & _ & _ & _ & M & _). destruct (M t) as (M0 & M4 & M6). rewrite M0. destruct (Z.testbit (g_tcc g t) (i - 1)); reflexivity.
Qed.

(** pins that do not exist *)
Lemma bad_pin g p : p < 0 \/ 21 <= p -> g_err g = false ->
  (forall d, talkto p d g = Ok (set_abort g)) /\ (forall d, talkto d p g = Ok (set_abort g)) /\ read_pin p g = Ok (set_abort g) /\ pullup p g = Ok (set_abort g) /\ pullnone p g = Ok (set_abort g).
Proof.
  intros H E. assert (G : forall g, get_pin p g = set_abort g).
  { intro g'. unfold get_pin, NUM_PIN. destruct (Z.ltb_spec p 0); [reflexivity|]. destruct (Z.leb_spec 21 p); [reflexivity|lia]. }
  unfold talkto, read_pin, pullup, pullnone. split; [|split; [|rewrite !G; auto]].
  - intro d. rewrite G. unfold get_pin at 1. destruct (_ || _) eqn:e; cbn; unfold get_pin; rewrite e; cbn; reflexivity.
  - intro d. rewrite G. unfold get_pin. destruct (_ || _); reflexivity.
Qed.

(** setpower *)
Lemma set_out_lines p g g' : set_out p g = Ok g' -> g_lines g' = g_lines g /\ g_on g' = g_on g /\ g_power_pin g' = g_power_pin g.
Proof.
  unfold set_out. destruct (has_pwm p); [destruct (channel p); [destruct (_ && _)|discriminate]|]; intros [= <-]; repeat split.
Qed.
Lemma setpower_lines f g g' : setpower f g = Ok g' -> g_lines g' = S (g_lines g).
Proof.
  unfold setpower. destruct (power_of f); cbn [obind]; try discriminate. intro H. apply set_out_lines in H. destruct H as [-> _]. reflexivity.
Qed.

(** tone *)
Lemma prescale_spec v : 0 <= v ->
  match prescale 6 v 1 with
  | Some (n, cs) => 1 <= cs <= 5 /\ n = v / divisor cs /\ n <= 256 /\ (1 < cs -> 256 < v / divisor (cs - 1))
  | None => 256 < v / 1024
  end.
Proof.
  intro H. assert (D : forall a b, 0 < a -> 0 < b -> v / a / b = v / (a * b)) by (intros; apply Z.div_div; lia).
  cbn [prescale]. destruct (Z.ltb_spec 256 v) as [A|A].
  2:{ split; [lia|]. change (divisor 1) with 1. rewrite Z.div_1_r. lia. }
  change (5 <? 1 + 1) with false. change (2 ^ (if 1 <? 3 then 3 else 2)) with 8. cbv iota. change (1 + 1) with 2. 
  destruct (Z.ltb_spec 256 (v / 8)) as [A2|A2]. 2:{ split; [lia|]. split; [reflexivity|]. split; [lia|]. intros _. change (divisor (2 - 1)) with 1. rewrite Z.div_1_r. lia. }
  change (5 <? 2 + 1) with false. change (2 ^ (if 2 <? 3 then 3 else 2)) with 8. cbv iota. change (2 + 1) with 3. rewrite D by lia. change (8 * 8) with 64.
  destruct (Z.ltb_spec 256 (v / 64)) as [A3|A3]. 2:{ split; [lia|]. split; [reflexivity|]. split; [lia|]. intros _. change (divisor (3 - 1)) with 8. lia. }
  change (5 <? 3 + 1) with false. change (2 ^ (if 3 <? 3 then 3 else 2)) with 4. cbv iota. change (3 + 1) with 4. rewrite D by lia. change (64 * 4) with 256.
  destruct (Z.ltb_spec 256 (v / 256)) as [A4|A4]. 2:{ split; [lia|]. split; [reflexivity|]. split; [lia|]. intros _. change (divisor (4 - 1)) with 64. lia. }
  change (5 <? 4 + 1) with false. change (2 ^ (if 4 <? 3 then 3 else 2)) with 4. cbv iota. change (4 + 1) with 5. rewrite D by lia. change (256 * 4) with 1024.
  destruct (Z.ltb_spec 256 (v / 1024)) as [A5|A5]. 2:{ split; [lia|]. split; [reflexivity|]. split; [lia|]. intros _. change (divisor (5 - 1)) with 256. lia. }
  change (5 <? 5 + 1) with true. cbv iota. exact A5.
Qed.
Definition cycles (f : float) : outcome Z := f_to_uint 32 (fdiv (f_of_Z 8000000) f).
Lemma tone_drive g f v n cs : feq f f_zero = false -> cycles f = Ok v -> prescale 6 v 1 = Some (n, cs) ->
  exists g', tone f g = Ok g' /\ is_on 5 g' = true /\
    drive_at g' 5 = if g_ocr g 5 <=? (n - 1) mod 256 then Square ((n - 1) mod 256 + 1) cs else Still.
Proof.
  intros Z0 C P. unfold tone. rewrite Z0. fold (cycles f). rewrite C. cbn [obind]. rewrite P. eexists. split; [reflexivity|].
  split.
  - unfold is_on, turn, set_dir. gcbn. rewrite set_bit_spec by lia. reflexivity.
  - unfold drive_at, turn, set_dir; rewrite ?unit_eq. gcbn. rewrite bit_at_put by lia. cbn [Z.eqb Pos.eqb channel Z.to_nat Pos.to_nat Pos.iter_op nth].
    change (channel 5) with (Some (T0, 5)). unfold put. cbn [timer_eqb Z.eqb Pos.eqb set_tcc0b g_tcc g_tcc0b g_ocr set_tcc set_ocr].
    change (Z.testbit 18 5) with false. change (Z.testbit 18 (5 - 1)) with true. change (Z.testbit 18 0) with false. reflexivity.
Qed.

(** stopall while a tone is played *)
Definition playing (g g' : pins) : Prop :=
  g_ddr g' = g_ddr g /\ g_ocr g' = g_ocr g /\ g_tcc0b g' = g_tcc0b g /\
  forall i, i = 0 \/ i = 4 -> Z.testbit (g_tcc g' T0) i = Z.testbit (g_tcc g T0) i.
Lemma stop_one p g : pin_ok p -> exists g', set_out p (turn false p g) = Ok g' /\ playing g g' /\
  (Z.testbit (g_tcc g T0) 5 = false -> Z.testbit (g_tcc g' T0) 5 = false) /\ forall q, 0 <= q -> Z.testbit (g_on g') q = if q =? p then false else Z.testbit (g_on g) q.
Proof.
  intros Hp. pose proof (ok_nonneg _ Hp) as H0. unfold set_out. replace (is_on p (turn false p g)) with false.
  2:{ unfold is_on, turn. gcbn. rewrite set_bit_spec, Z.eqb_refl by assumption. reflexivity. }
  change ((0 <? 0) && (0 <? 255)) with false. cbv iota. change (negb (0 =? 0)) with false. rewrite (pwm_channel p Hp).
  assert (B : forall q, Z.testbit (set_bit false p (g_on g)) q = if q =? p then false else Z.testbit (g_on g) q) by (intro; apply set_bit_spec; assumption).
  destruct (channel p) as [c|] eqn:e.
  - eexists. split; [reflexivity|]. split; [|split].
    + split; [reflexivity|]. split; [reflexivity|]. split; [reflexivity|]. intros i Hi. unfold put_port. gcbn.
      rewrite (mode_put false p c (turn false p g) T0 i H0 e ltac:(tauto)). reflexivity.
    + intro F. unfold put_port. gcbn. unfold put_tcc, put. gcbn. destruct (timer_eqb T0 (fst c)) eqn:t; [|exact F].
      apply timer_eqb_eq in t. unfold turn. gcbn. rewrite <- t. pose proof (channel_cases _ _ e H0) as Q. decompose [or and] Q; subst c; cbn [fst snd] in *; try discriminate; rewrite set_bit_spec by lia; cbn [Z.eqb Pos.eqb]; auto.
    + intros q _. apply B.
  - eexists. split; [reflexivity|]. split; [repeat split|]. split; [auto|]. intros q _. apply B.
Qed.
Lemma stop_playing n : forall k g, 0 <= k -> k + Z.of_nat n = 21 -> Z.testbit (g_on g) 19 = false -> Z.testbit (g_tcc g T0) 5 = false ->
  exists g', stop_from n k g = Ok g' /\ playing g g' /\ Z.testbit (g_tcc g' T0) 5 = false.
Proof.
  induction n as [|n IH]; intros k g Hk E N T; cbn [stop_from].
  - exists g. split; [reflexivity|]. split; [repeat split|exact T].
  - unfold is_on. destruct (Z.testbit (g_on g) k) eqn:e.
    + assert (pin_ok k) as Ok' by (unfold pin_ok; split; [lia|intros ->; congruence]).
      destruct (stop_one k g Ok') as (g1 & R & (P1 & P2 & P3 & P4) & F & B). rewrite R. cbn [obind].
      destruct (IH (k + 1) g1) as (g2 & R2 & (Q1 & Q2 & Q3 & Q4) & F2); [lia|lia| |auto|].
      * rewrite B by lia. destruct (19 =? k); [reflexivity|exact N].
      * exists g2. split; [exact R2|]. split; [|exact F2]. split; [congruence|]. split; [congruence|]. split; [congruence|].
        intros i Hi. rewrite Q4, P4 by assumption. reflexivity.
    + cbn [obind]. apply IH; auto; lia.
Qed.
Lemma stop_tone g f v n cs : feq f f_zero = false -> cycles f = Ok v -> prescale 6 v 1 = Some (n, cs) -> g_ocr g 5 <= (n - 1) mod 256 ->
  Z.testbit (g_on g) 19 = false ->
  exists g1 g2, tone f g = Ok g1 /\ stopall g1 = Ok g2 /\ drive_at g1 5 = Square ((n - 1) mod 256 + 1) cs /\ drive_at g2 5 = drive_at g1 5.
Proof.
  intros Z0 C P L N. destruct (tone_drive g f v n cs Z0 C P) as (g1 & R & _ & D). exists g1.
  destruct (Z.leb_spec (g_ocr g 5) ((n - 1) mod 256)) as [_|]; [|lia].
  assert (S : Z.testbit (g_on g1) 19 = false /\ g_tcc g1 T0 = 18).
  { revert R. unfold tone. rewrite Z0. fold (cycles f). rewrite C. cbn [obind]. rewrite P. intros [= <-].
    unfold turn, set_dir. gcbn. rewrite set_bit_spec by lia. split; [exact N|reflexivity]. }
  destruct S as [S T]. destruct (stop_playing 21 0 g1) as (g2 & R2 & (P1 & P2 & P3 & P4) & F); [lia|reflexivity|exact S|rewrite T; reflexivity|].
  exists g2. split; [exact R|]. split; [exact R2|]. split; [exact D|].
  unfold drive_at; rewrite ?unit_eq. rewrite P1, P2, P3. change (channel 5) with (Some (T0, 5)). cbv zeta iota beta. change (5 - 1) with 4.
  rewrite F, (P4 4), (P4 0), T by tauto. change (Z.testbit 18 5) with false. change (Z.testbit 18 4) with true. change (Z.testbit 18 0) with false.
  destruct (bit_at (g_ddr g1) 5) eqn:X; [reflexivity|]. exfalso. unfold drive_at in D; rewrite ?unit_eq in D. rewrite X in D. discriminate.
Qed.

(** tonefor *)
Lemma tonefor_on f g g' : tonefor f g = Ok g' -> 0 <= g_power_pin g -> g_power_pin g <> 5 -> is_on (g_power_pin g) g' = true.
Proof.
  unfold tonefor. destruct (tone f g) as [g1| |] eqn:e; cbn [obind]; try discriminate.
  assert (P : g_power_pin g1 = g_power_pin g).
  { revert e. unfold tone. destruct (feq f f_zero); [intros [= <-]; reflexivity|]. destruct (f_to_uint _ _); cbn [obind]; try discriminate.
    destruct (prescale _ _ _) as [[a0 c0]|]; intros [= <-]; reflexivity. }
  destruct (on g1) as [g2| |] eqn:e2; cbn [obind]; try discriminate. intros H H0 N. unfold on in e2. apply set_out_lines in e2. destruct e2 as (_ & O & _).
  assert (H' : Ok (tone_off g2) = Ok g') by exact H. injection H' as <-. unfold is_on, tone_off, turn. gcbn. rewrite set_bit_spec by lia.
  rewrite (proj2 (Z.eqb_neq _ _) N). change (g_on (tcc0_reset g2)) with (g_on g2). rewrite O. unfold turn. gcbn. rewrite set_bit_spec by lia. rewrite P, Z.eqb_refl. reflexivity.
Qed.

(** after stopall *)
Lemma stopall_all g b : inv g b -> exists g', stopall g = Ok g' /\ forall p, pin_ok p ->
  is_on p g' = false /\ (is_on p g = true -> a_out (b_pin b p) = true -> drive_at g' p = Low) /\
  forall n, drive_at g' p <> Pwm n.
Proof.
  intro I. destruct (stopall_ok g b I) as (g' & R & J). exists g'. split; [exact R|]. intros p Hp.
  pose proof (inv_shows _ _ p J Hp) as (S1 & _). pose proof I as (_ & _ & _ & _ & _ & _ & _ & A). destruct (A p Hp) as (F1 & _).
  pose proof J as (_ & _ & _ & _ & _ & M & _ & A'). destruct (A' p Hp) as (G1 & _ & _ & _ & G5 & GC & _). cbn [ask b_pin] in *.
  assert (Off : a_on (if a_on (b_pin b p) then switch false p (b_pin b p) else b_pin b p) = false).
  { destruct (a_on (b_pin b p)) eqn:e; [reflexivity|exact e]. }
  split; [rewrite <- Off; exact G1|]. split.
  - intros O T. unfold is_on in O. rewrite <- F1, O in S1. apply S1; [exact T|reflexivity].
  - intros n. specialize (GC Off). unfold com in GC. unfold drive_at, level; rewrite ?unit_eq. intro Q. destruct (bit_at (g_ddr g') p); [|discriminate].
    destruct (channel p) as [[t i]|]; [|destruct (bit_at (g_port g') p); discriminate]. rewrite GC in Q. destruct (M t) as (M0 & _). rewrite M0 in Q.
    destruct (Z.testbit (g_tcc g' t) (i - 1)), (bit_at (g_port g') p); discriminate.
Qed.

(** what tone does to other pins *)
Lemma tone_others f g g' q : tone f g = Ok g' -> (forall t, t <> T0 -> Z.testbit (g_tcc g t) 0 = true) -> 0 <= q -> q <> 5 -> q <> 6 -> drive_at g' q = drive_at g q.
Proof.
  intros H M H0 N5 N6.
  assert (X : bit_at (g_ddr g') q = bit_at (g_ddr g) q /\ g_port g' = g_port g /\ g_ocr g' q = g_ocr g q /\ forall t, t <> T0 -> g_tcc g' t = g_tcc g t).
  { revert H. unfold tone. destruct (feq f f_zero).
    - intros [= <-]. repeat split. intros [] N; [congruence|reflexivity|reflexivity].
    - destruct (f_to_uint _ _); cbn [obind]; try discriminate. destruct (prescale _ _ _) as [[n cs]|]; intros [= <-].
      + split; [unfold turn, set_dir; gcbn; rewrite bit_at_put by lia; rewrite (proj2 (Z.eqb_neq q 5) N5); reflexivity|]. split; [reflexivity|].
        split; [unfold turn, set_dir, put; gcbn; rewrite (proj2 (Z.eqb_neq q 6) N6); reflexivity|]. intros [] N; [congruence|reflexivity|reflexivity].
      + repeat split. intros [] N; [congruence|reflexivity|reflexivity]. }
  destruct X as (X1 & X2 & X3 & X4). unfold drive_at; rewrite ?unit_eq. rewrite X1, X2, X3. destruct (channel q) as [[t i]|] eqn:e; [|reflexivity].
  assert (T : t <> T0). { pose proof (channel_cases _ _ e H0) as Q. decompose [or and] Q; try congruence. }
  rewrite (X4 t T), (M t T). reflexivity.
Qed.
Lemma tone_six f v n cs g : feq f f_zero = false -> cycles f = Ok v -> prescale 6 v 1 = Some (n, cs) ->
  exists g', tone f g = Ok g' /\ forall m, drive_at g' 6 <> Pwm m.
Proof.
  intros Z0 C P. unfold tone. rewrite Z0. fold (cycles f). rewrite C. cbn [obind]. rewrite P. eexists. split; [reflexivity|].
  intros m Q. unfold drive_at in Q; rewrite ?unit_eq in Q. destruct (bit_at _ _) in Q; [|discriminate]. change (channel 6) with (Some (T0, 7)) in Q. cbv iota in Q.
  unfold turn, set_dir in Q. cbn [g_tcc set_ons put_ddr set_ddr set_ocr set_tcc0b set_tcc] in Q. unfold put in Q. cbn [timer_eqb] in Q.
  change (Z.testbit 18 7) with false in Q. change (Z.testbit 18 (7 - 1)) with false in Q. cbv iota zeta in Q. unfold level in Q. destruct (bit_at _ _) in Q; discriminate.
Qed.
