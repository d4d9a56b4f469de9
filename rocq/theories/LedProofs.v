(** The lines, as the lights see them. *)
From Coq Require Import ZArith Lia List Bool.
From Verif Require Import Base FloatModel MathModel BuiltModel PinModel LedModel LedSpec.
Import ListNotations.
Local Open Scope Z_scope.

(** ** Numbers and their bits *)
Definition places : list Z := [7; 6; 5; 4; 3; 2; 1; 0].
Definition byte_bits (v : Z) : list bool := map (Z.testbit v) places.
Lemma byte_number v : 0 <= v < 256 -> number (byte_bits v) = v.
Proof.
  intro H. assert (A : forallb (fun n => number (byte_bits (Z.of_nat n)) =? Z.of_nat n) (seq 0 256) = true) by (vm_compute; reflexivity).
  rewrite forallb_forall in A. specialize (A (Z.to_nat v)). rewrite Z2Nat.id in A by lia. apply Z.eqb_eq, A, in_seq. lia.
Qed.
Lemma s32_cong x : (s32 x) mod 2 ^ 32 = x mod 2 ^ 32.
Proof. unfold s32. rewrite <- Zminus_mod_idemp_l, Zmod_mod, Zminus_mod_idemp_l. f_equal. lia. Qed.
Lemma s32_of x y : x mod 2 ^ 32 = y mod 2 ^ 32 -> s32 x = s32 y.
Proof. intro H. unfold s32. f_equal. rewrite <- Zplus_mod_idemp_l, H, Zplus_mod_idemp_l. reflexivity. Qed.
Lemma s32_twice x : s32 (s32 x * 2) = s32 (x * 2).
Proof. apply s32_of. rewrite <- Zmult_mod_idemp_l, s32_cong, Zmult_mod_idemp_l. reflexivity. Qed.
Lemma s32_sign x : (s32 x <? 0) = Z.testbit x 31.
Proof.
  assert (H : Z.testbit x 31 = Z.testbit (x mod 2 ^ 32) 31) by (symmetry; apply Z.mod_pow2_bits_low; lia).
  rewrite H. unfold s32. rewrite <- Zplus_mod_idemp_l. pose proof (Z.mod_pos_bound x (2 ^ 32) ltac:(lia)) as B. generalize dependent (x mod 2 ^ 32). clear. intros y _ B.
  rewrite Z.testbit_eqb by lia.
  destruct (Z_lt_dec y (2 ^ 31)) as [L|L].
  - rewrite Z.mod_small by lia. rewrite Z.div_small by lia. apply Z.ltb_ge. lia.
  - replace (y + 2 ^ 31) with (y - 2 ^ 31 + 1 * 2 ^ 32) by lia. rewrite Z.mod_add by lia. rewrite Z.mod_small by lia.
    replace (y / 2 ^ 31) with 1 by (apply Z.div_unique with (y - 2 ^ 31); lia). apply Z.ltb_lt. lia.
Qed.

(** ** WS2812 *)
Section Ws.
Context (th pin : Z) (Hth : 8 <= th < 26).
Notation step := (ws_step th pin).
Lemma ws_nops_high n : forall t bits, fold_left step (nops n) (true, t, bits) = (true, t + Z.of_nat n, bits).
Proof. induction n; intros t bits; [cbn; now rewrite Z.add_0_r|]. cbn [nops repeat fold_left]. change (repeat Nop n) with (nops n). cbn [ws_step]. rewrite IHn. replace (t + 1 + Z.of_nat n) with (t + Z.of_nat (Datatypes.S n)) by lia. reflexivity. Qed.
Lemma ws_nops_low n : forall t bits, fold_left step (nops n) (false, t, bits) = (false, t, bits).
Proof. induction n; intros t bits; [reflexivity|]. cbn [nops repeat fold_left]. change (repeat Nop n) with (nops n). cbn [ws_step]. apply IHn. Qed.
Lemma ws_up bits t : step (false, t, bits) (Tgl pin) = (true, 0, bits).
Proof. cbn. now rewrite Z.eqb_refl. Qed.
Lemma ws_down bits t : step (true, t, bits) (Tgl pin) = (false, 0, bits ++ [th <? t]).
Proof. cbn. now rewrite Z.eqb_refl. Qed.
Lemma ws_bit p bits : fold_left step (np_bit pin p) (false, 0, bits) = (false, 0, bits ++ [p <? 0]).
Proof.
  unfold np_bit. cbn [fold_left]. rewrite ws_up, !fold_left_app, ws_nops_high. destruct (p <? 0).
  - rewrite fold_left_app, ws_nops_high. cbn [fold_left]. rewrite ws_down, ws_nops_low. do 3 f_equal. apply Z.ltb_lt. lia.
  - cbn [fold_left]. rewrite ws_down, !ws_nops_low. do 3 f_equal. apply Z.ltb_ge. lia.
Qed.
Fixpoint tops (n : nat) (i : Z) (w : Z) : list bool := match n with O => [] | Datatypes.S n => Z.testbit w i :: tops n (i - 1) w end.
Lemma ws_word n : forall k w bits, 0 <= k -> Z.of_nat n + k <= 32 ->
  fold_left step (np_bits n pin (s32 (w * 2 ^ k))) (false, 0, bits) = (false, 0, bits ++ tops n (31 - k) w).
Proof.
  induction n as [|n IH]; intros k w bits Hk Hn; [cbn; now rewrite app_nil_r|].
  cbn [np_bits tops]. rewrite fold_left_app, ws_bit, s32_sign, s32_twice.
  replace (w * 2 ^ k * 2) with (w * 2 ^ (k + 1)) by (rewrite Z.pow_add_r by lia; lia). rewrite IH by lia.
  rewrite <- app_assoc. cbn [app]. replace (31 - (k + 1)) with (31 - k - 1) by lia.
  rewrite Z.mul_pow2_bits by lia. reflexivity.
Qed.
Lemma word_bits x : bytes x -> tops 24 31 (word x) = byte_bits (x_g x) ++ byte_bits (x_r x) ++ byte_bits (x_b x).
Proof.
  intros (E & B & R & G). unfold word. set (w := _ + x_extra x).
  assert (G' : forall i, 0 <= i -> Z.testbit w (i + 24) = Z.testbit (x_g x) i).
  { intros i Hi. rewrite <- Z.div_pow2_bits by lia. f_equal. symmetry. apply Z.div_unique with (x_r x * 2 ^ 16 + x_b x * 2 ^ 8 + x_extra x); unfold w; lia. }
  assert (R' : forall i, 0 <= i < 8 -> Z.testbit w (i + 16) = Z.testbit (x_r x) i).
  { intros i Hi. rewrite <- Z.div_pow2_bits by lia. rewrite <- (Z.mod_pow2_bits_low _ 8 i) by lia. f_equal.
    replace (w / 2 ^ 16) with (x_g x * 256 + x_r x) by (apply Z.div_unique with (x_b x * 2 ^ 8 + x_extra x); unfold w; lia).
    change (2 ^ 8) with 256. rewrite Z.add_comm, Z.mod_add, Z.mod_small by lia. reflexivity. }
  assert (B' : forall i, 0 <= i < 8 -> Z.testbit w (i + 8) = Z.testbit (x_b x) i).
  { intros i Hi. rewrite <- Z.div_pow2_bits by lia. rewrite <- (Z.mod_pow2_bits_low _ 8 i) by lia. f_equal.
    replace (w / 2 ^ 8) with (x_b x + (x_g x * 256 + x_r x) * 256) by (apply Z.div_unique with (x_extra x); unfold w; lia).
    change (2 ^ 8) with 256. rewrite Z.mod_add, Z.mod_small by lia. reflexivity. }
  clearbody w. cbn [tops byte_bits places map app].
  repeat match goal with |- context [Z.testbit w (?a - 1)] => let v := eval cbv in (a - 1) in change (a - 1) with v end.
  rewrite <- !G', <- !R', <- !B' by lia. reflexivity.
Qed.
Definition px_bits (x : pixel) : list bool := byte_bits (x_g x) ++ byte_bits (x_r x) ++ byte_bits (x_b x).
Fixpoint slice (n i : nat) (m : nat -> pixel) : list pixel := match n with O => [] | Datatypes.S n => m i :: slice n (Datatypes.S i) m end.
Lemma ws_written m : wide m -> forall n i bits,
  fold_left step (np_write n pin i m) (false, 0, bits) = (false, 0, bits ++ flat_map px_bits (slice n i m)).
Proof.
  intro W. induction n as [|n IH]; intros i bits; [cbn; now rewrite app_nil_r|].
  cbn [np_write slice flat_map]. rewrite fold_left_app.
  pose proof (ws_word 24 0 (word (m i)) bits ltac:(lia) ltac:(lia)) as E. replace (word (m i) * 2 ^ 0) with (word (m i)) in E by lia. rewrite E. clear E.
  change (31 - 0) with 31. rewrite word_bits by apply W. rewrite IH, <- app_assoc. reflexivity.
Qed.
End Ws.
Lemma px_len x : length (px_bits x) = 24%nat. Proof. reflexivity. Qed.
Lemma ws_light n x r : bytes x -> ws_lights (Datatypes.S n) (px_bits x ++ r) = rgb x :: ws_lights n r.
Proof.
  intros (E & B & R & G). unfold px_bits. cbn [ws_lights].
  change (firstn 8 ((byte_bits (x_g x) ++ byte_bits (x_r x) ++ byte_bits (x_b x)) ++ r)) with (byte_bits (x_g x)).
  change (firstn 8 (skipn 8 ((byte_bits (x_g x) ++ byte_bits (x_r x) ++ byte_bits (x_b x)) ++ r))) with (byte_bits (x_r x)).
  change (firstn 8 (skipn 16 ((byte_bits (x_g x) ++ byte_bits (x_r x) ++ byte_bits (x_b x)) ++ r))) with (byte_bits (x_b x)).
  change (skipn 24 ((byte_bits (x_g x) ++ byte_bits (x_r x) ++ byte_bits (x_b x)) ++ r)) with r.
  rewrite !byte_number by lia. reflexivity.
Qed.
Lemma ws_shown l : Forall bytes l -> ws_lights (length l) (flat_map px_bits l) = map rgb l.
Proof.
  induction 1 as [|x l H F IH]; [reflexivity|]. cbn [length flat_map map]. now rewrite ws_light, IH.
Qed.
Lemma slice_len n : forall i m, length (slice n i m) = n. Proof. induction n; intros; cbn; [reflexivity|now rewrite IHn]. Qed.
Lemma slice_wide m : wide m -> forall n i, Forall bytes (slice n i m).
Proof. intros W. induction n; intro i; cbn; constructor; [apply W|apply IHn]. Qed.
Lemma np_write_ok th pin n m : 8 <= th < 26 -> wide m ->
  exists bits, ws_bits th pin (np_write n pin O m) = Some bits /\ length bits = (24 * n)%nat /\ ws_lights n bits = map rgb (slice n O m).
Proof.
  intros T W. exists (flat_map px_bits (slice n O m)). unfold ws_bits, ws_see. rewrite (ws_written th pin T m W n O []). split; [reflexivity|]. split.
  - generalize (slice_len n O m). generalize (slice n O m). clear. intros l <-. induction l as [|x l IH]; [reflexivity|]. cbn [flat_map length]. rewrite app_length, IH, px_len. lia.
  - rewrite <- (slice_len n O m) at 1. apply ws_shown, slice_wide, W.
Qed.
Lemma touches_app l a b : touches l a -> touches l b -> touches l (a ++ b).
Proof. intros. apply Forall_app; auto. Qed.
Lemma touches_nops l n : touches l (nops n).
Proof. apply Forall_forall. intros e H. apply repeat_spec in H. subst. exact I. Qed.
Lemma np_touches pin m : forall n i, touches [pin] (np_write n pin i m).
Proof.
  assert (Bt : forall p, touches [pin] (np_bit pin p)).
  { intro p. unfold np_bit. constructor; [now left|]. apply touches_app; [apply touches_nops|]. apply touches_app; [|apply touches_nops].
    destruct (p <? 0); [apply touches_app; [apply touches_nops|]|constructor; [now left|apply touches_nops]]. constructor; [now left|constructor]. }
  assert (Bs : forall k p, touches [pin] (np_bits k pin p)) by (induction k; intro p; [constructor|cbn [np_bits]; apply touches_app; [apply Bt|apply IHk]]).
  induction n; intro i; [constructor|]. cbn [np_write]. apply touches_app; [apply Bs|apply IHn].
Qed.

(** ** APA102 *)
Section Ap.
Context (d c : Z) (Hdc : d <> c).
Notation step := (ap_step d c).
(** after each bit the clock is high and the data line is as it was put *)
Lemma ap_bit_ok v dl bits : fold_left step (ap_bit d c v) (dl, true, bits) = (v, true, bits ++ [v]).
Proof.
  assert (N : (d =? c) = false) by now apply Z.eqb_neq. unfold ap_bit. cbn [fold_left].
  repeat (unfold ap_step at 1; rewrite ?Z.eqb_refl, ?N; cbv iota beta; cbn [negb]). reflexivity.
Qed.
Lemma ap_map vs : forall dl bits, exists dl', fold_left step (flat_map (ap_bit d c) vs) (dl, true, bits) = (dl', true, bits ++ vs).
Proof.
  induction vs as [|v vs IH]; intros dl bits; [exists dl; cbn; now rewrite app_nil_r|]. cbn [flat_map]. rewrite fold_left_app, ap_bit_ok.
  destruct (IH v (bits ++ [v])) as [dl' E]. exists dl'. rewrite E, <- app_assoc. reflexivity.
Qed.
Lemma ap_byte_map v : ap_byte d c v = flat_map (ap_bit d c) (byte_bits v).
Proof. reflexivity. Qed.
Lemma ap_repeat_map v n : ap_repeat d c v n = flat_map (ap_bit d c) (repeat v n).
Proof. unfold ap_repeat. induction n; [reflexivity|]. cbn [repeat concat flat_map]. now rewrite IHn. Qed.
Definition frame (x : pixel) : list bool := byte_bits 255 ++ byte_bits (x_b x) ++ byte_bits (x_g x) ++ byte_bits (x_r x).
Lemma ap_pixels_map n x : ap_pixels n d c x = flat_map (ap_bit d c) (flat_map frame (repeat x n)).
Proof.
  induction n; [reflexivity|]. cbn [ap_pixels repeat flat_map]. rewrite IHn, !ap_byte_map. unfold frame. rewrite !flat_map_app, <- !app_assoc. reflexivity.
Qed.
Lemma ap_written n m dl cl : exists pre, ap_bits d c dl cl (ap_write n d c m) = pre ++ repeat false 32 ++ flat_map frame (repeat (m O) n) ++ repeat true 32 /\ (pre = [] \/ pre = [dl]).
Proof.
  unfold ap_bits, ap_write. cbn [fold_left]. rewrite ap_pixels_map, !ap_repeat_map, <- !flat_map_app, fold_left_app.
  set (st := step (dl, cl, []) (Put c true)).
  assert (S0 : st = (dl, true, if cl then [] else [dl])) by (unfold st; cbn; rewrite Z.eqb_refl; destruct cl; reflexivity). rewrite S0. clear st S0.
  assert (N : forall k s, fold_left step (nops k) s = s) by (induction k; intros ((a, b), e); [reflexivity|cbn [nops repeat fold_left]; apply IHk]).
  rewrite N. destruct (ap_map (repeat false 32 ++ flat_map frame (repeat (m O) n) ++ repeat true 32) dl (if cl then [] else [dl])) as [dl' E]. rewrite E.
  exists (if cl then [] else [dl]). split; [reflexivity|]. destruct cl; auto.
Qed.
End Ap.
Lemma ap_start_ok pre r : (pre = [] \/ exists b, pre = [b]) -> ap_start O (pre ++ repeat false 32 ++ true :: r) = true :: r.
Proof. intros [->|[[|] ->]]; reflexivity. Qed.
Lemma ap_light n x r : bytes x -> ap_lights (Datatypes.S n) (frame x ++ r) = (31, rgb x) :: ap_lights n r.
Proof.
  intros (E & B & R & G). cbn [ap_lights].
  change (firstn 8 (skipn 24 (frame x ++ r))) with (byte_bits (x_r x)).
  change (firstn 8 (skipn 16 (frame x ++ r))) with (byte_bits (x_g x)).
  change (firstn 8 (skipn 8 (frame x ++ r))) with (byte_bits (x_b x)).
  change (skipn 32 (frame x ++ r)) with r. change (number (firstn 5 (skipn 3 (frame x ++ r)))) with 31.
  rewrite !byte_number by lia. reflexivity.
Qed.
Definition white : pixel := Pix 0 255 255 255.
(** all lights take the first colour, and the one behind them the end as white *)
Lemma ap_write_ok d c n m dl cl : d <> c -> wide m ->
  ap_lights (Datatypes.S n) (ap_start O (ap_bits d c dl cl (ap_write n d c m))) = repeat (31, rgb (m O)) n ++ [(31, (255, 255, 255))].
Proof.
  intros H W. destruct (ap_written d c H n m dl cl) as (pre & E & P). rewrite E.
  change (repeat true 32) with (frame white ++ []).
  assert (Q : exists r, flat_map frame (repeat (m O) n) ++ frame white ++ [] = true :: r) by (destruct n; eexists; reflexivity).
  destruct Q as [r Q]. rewrite Q, ap_start_ok by (destruct P; eauto). rewrite <- Q. clear Q r E.
  induction n as [|n IH]; [reflexivity|]. cbn [repeat flat_map app]. rewrite <- app_assoc, ap_light by apply W. now rewrite IH.
Qed.
Lemma ap_touches d c n m : touches [d; c] (ap_write n d c m).
Proof.
  unfold ap_write. rewrite ap_pixels_map, !ap_repeat_map. constructor; [right; now left|]. apply touches_app; [apply touches_nops|]. rewrite <- !flat_map_app.
  apply Forall_forall. intros e H. apply in_flat_map in H. destruct H as (v & _ & H). unfold ap_bit in H. cbn in H.
  repeat destruct H as [<-|H]; try exact I; try (now left); try (right; now left). destruct H.
Qed.
