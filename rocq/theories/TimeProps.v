(** C106-C108: the time on the ATmega328P (snek-atmega-time.c). *)
From Coq Require Import ZArith Reals Lia Lra List Bool.
From Flocq Require Import IEEE754.Binary Core.
From Verif Require Import Base FloatModel MathSpec MathProofs BuiltClose PinModel TimeModel TimeSpec TimeProofs TimeProofs2 TimeProofs3 TimeFloat.
Import ListNotations.
Local Open Scope Z_scope.
Notation val f := (B2R 24 128 f).

(** C106: wherever the timer overflows and its interrupt is served during the call,
    snek_ticks returns the lowest 32 bits of the number of counts at a moment
    between the call and the return. *)
Theorem C106_ticks k l k' v : ticks_call k l k' v -> elapsed k k' < 2 ^ 32 ->
  exists t, k_now k <= t <= k_now k' /\ v = t mod 2 ^ 32.
Proof. intros (R & D & b & a & c & Wb & Wa & Wc & H & E) L. exact (ticks_time k b a c l k' v R D Wb Wa Wc H E L). Qed.
Print Assumptions C106_ticks.
(** the timer overflows between the two readings and the call reads again *)
Definition long_call : list event := repeat Run 3 ++ [Count] ++ repeat Run 4 ++ [Serve] ++ repeat Run 21.
Definition near_overflow : list event := repeat Count 255.
Example C106_applies : exists k k', ticks_call k long_call k' 256 /\ elapsed k k' = 1 /\ k_now k = 255.
Proof.
  destruct (events near_overflow clock_start) as [k|] eqn:E; [|vm_compute in E; discriminate].
  assert (R : reach k) by (eapply reach_events; [apply reach_start|exact E]).
  destruct (events long_call (call Ticks 7 9 1 k)) as [k'|] eqn:E'.
  - exists k, k'. vm_compute in E. injection E as <-. vm_compute in E'. injection E' as <-.
    split; [|split; reflexivity]. split; [exact R|]. split; [exists 0; reflexivity|]. exists 7, 9, 1. rewrite !word_eq. split; [lia|]. split; [lia|]. split; [lia|]. split; vm_compute; reflexivity.
  - exfalso. vm_compute in E. injection E as <-. vm_compute in E'. discriminate.
Qed.
(** and it does return: within 28 instructions without the interrupt of the timer. *)
Theorem C106_returns k l k' : reach k -> events l k = Some k' -> ~ In Serve l -> (28 <= runs l)%nat -> (k_calls k < k_calls k')%nat.
Proof. exact (ticks_returns k l k'). Qed.
Print Assumptions C106_returns.
Example C106_returns_applies : exists k', reach (call (Begin 5000) 0 0 0 clock_start) /\ events (repeat Run 28) (call (Begin 5000) 0 0 0 clock_start) = Some k' /\ k_calls k' = 2%nat.
Proof.
  eexists. split; [apply reach_call; [apply reach_start|exists 0; reflexivity|rewrite word_eq; lia|rewrite word_eq; lia|lia|discriminate]|].
  split; [vm_compute; reflexivity|reflexivity].
Qed.

(** C107: time.sleep with up to 8589 seconds waits that long, less at most half a
    tick (two microseconds) and a part in seven million, if nothing sets snek_abort. *)
Theorem C107_sleep_partial f : f_is_finite f = true -> (0 <= val f <= 8589)%R ->
  exists n, time_sleep f = Ok (Begin n) /\ (Rabs (IZR n - 250000 * val f) <= 501 / 1000 + val f / 30)%R /\
  forall k l k', sleep_call n k l k' -> ended k' -> k_abort k' = false ->
    (val f - (501 / 1000 + val f / 30) / 250000 <= seconds (elapsed k k'))%R.
Proof.
  intros F V. destruct (to_ticks f F V) as (n & E & N & A). exists n. unfold time_sleep. rewrite E. split; [reflexivity|]. split; [exact A|].
  intros k l k' (R & D & b & a & c & Wb & Wa & Wc & H) En Ab.
  pose proof (IZR_le _ _ (sleep_waits k b a c n l k' R D Wb Wa Wc N H En Ab)) as L. apply Rabs_le_inv in A. unfold seconds. lra.
Qed.
Print Assumptions C107_sleep_partial.
(** It is not late either: when the ticks have gone by since it began to wait, it
    reads the time at most twice more (C106 bounds each reading). *)
Theorem C107_prompt k n l1 l2 l3 kS k1 k2 e : 0 <= n < 2 ^ 31 ->
  sleep_call n k l1 kS -> k_task kS = Sleeping e -> events l2 kS = Some k1 -> k_now kS + n <= k_now k1 ->
  events l3 k1 = Some k2 -> elapsed k k2 < 2 ^ 31 -> ended k2 \/ (k_calls k2 <= k_calls k1 + 1)%nat.
Proof. intros N (R & D & b & a & c & Wb & Wa & Wc & H1). exact (sleep_prompt k b a c n l1 l2 l3 kS k1 k2 e R D Wb Wa Wc N H1). Qed.
Print Assumptions C107_prompt.
(** And an interrupt stops it: once snek_abort is set, it reads the time at most twice
    more, however long it was to wait. *)
Theorem C107_stop k n l1 l2 k1 k2 : sleep_call n k l1 k1 -> k_abort k1 = true -> events l2 k1 = Some k2 -> ended k2 \/ (k_calls k2 <= k_calls k1 + 1)%nat.
Proof.
  intros (R & D & b & a & c & Wb & Wa & Wc & H1) Ab H2.
  destruct (sleep_reach l1 _ k1 n H1 (or_introl eq_refl)) as [[v X]|X]; [left; exists v; apply (done_stays l2 k1 k2 v X H2)|].
  assert (R1 : reach k1) by (eapply reach_events; [apply reach_call; [exact R|exact D|exact Wb|exact Wa|exact Wc|]|exact H1]; discriminate).
  destruct (reach_inv k1 R1) as [I _]. exact (sleep_abort l2 0 n k1 k2 I X Ab H2).
Qed.
Print Assumptions C107_stop.
Example C107_stop_applies : exists k1 k2, sleep_call 5000 clock_start (repeat Run 20 ++ [Stop]) k1 /\ k_abort k1 = true /\ k_calls k1 = 1%nat /\ events (repeat Run 8) k1 = Some k2 /\ ended k2.
Proof.
  destruct (events (repeat Run 20 ++ [Stop]) (call (Begin 5000) 0 0 0 clock_start)) as [k1|] eqn:E1; [|vm_compute in E1; discriminate].
  destruct (events (repeat Run 8) k1) as [k2|] eqn:E2; [|vm_compute in E1; injection E1 as <-; vm_compute in E2; discriminate].
  exists k1, k2. split; [split; [apply reach_start|split; [exists 0; reflexivity|exists 0, 0, 0; rewrite !word_eq; split; [lia|split; [lia|split; [lia|exact E1]]]]]|].
  vm_compute in E1. injection E1 as <-. split; [reflexivity|]. split; [reflexivity|]. split; [exact E2|]. vm_compute in E2. injection E2 as <-. exists 0. reflexivity.
Qed.
Example C107_applies : f_is_finite (f_of_Z 2) = true /\ time_sleep (f_of_Z 2) = Ok (Begin 500000) /\
  exists l1 l2 l3 kS k1 k2 e, sleep_call 3 clock_start l1 kS /\ k_task kS = Sleeping e /\ events l2 kS = Some k1 /\ k_now kS + 3 <= k_now k1 /\ events l3 k1 = Some k2 /\ elapsed clock_start k2 < 2 ^ 31 /\
    ended k2 /\ k_abort k2 = false /\ k_calls k2 = 3%nat.
Proof.
  split; [reflexivity|]. split; [vm_compute; reflexivity|].
  destruct (events (repeat Run 14) (call (Begin 3) 0 0 0 clock_start)) as [kS|] eqn:E1; [|vm_compute in E1; discriminate].
  destruct (events (repeat Run 14 ++ [Count; Count; Count]) kS) as [k1|] eqn:E2; [|vm_compute in E1; injection E1 as <-; vm_compute in E2; discriminate].
  destruct (events (repeat Run 14) k1) as [k2|] eqn:E3; [|vm_compute in E1; injection E1 as <-; vm_compute in E2; injection E2 as <-; vm_compute in E3; discriminate].
  exists (repeat Run 14), (repeat Run 14 ++ [Count; Count; Count]), (repeat Run 14), kS, k1, k2, 3.
  split; [split; [apply reach_start|split; [exists 0; reflexivity|exists 0, 0, 0; rewrite !word_eq; split; [lia|split; [lia|split; [lia|exact E1]]]]]|].
  split; [vm_compute in E1; injection E1 as <-; reflexivity|]. split; [exact E2|].
  vm_compute in E1. injection E1 as <-. vm_compute in E2. injection E2 as <-. split; [cbn; lia|]. split; [exact E3|]. vm_compute in E3. injection E3 as <-.
  split; [vm_compute; reflexivity|]. split; [exists 3; reflexivity|]. split; reflexivity.
Qed.
(** But it does not wait at least that long: the number of ticks is rounded, and
    whenever it is rounded down the wait can be shorter than asked. *)
Theorem C107_early_refuted f n t : f_is_finite f = true -> (0 <= val f <= 8589)%R -> 0 <= t -> time_sleep f = Ok (Begin n) -> (IZR n < 250000 * val f)%R ->
  exists k l k', k_now k = t /\ sleep_call n k l k' /\ ended k' /\ k_abort k' = false /\ (seconds (elapsed k k') < val f)%R.
Proof.
  intros F V Ht E L. destruct (to_ticks f F V) as (m & E' & N & _). unfold time_sleep in E. rewrite E' in E. injection E as ->.
  destruct (sleep_tight t n Ht N) as (k & l & k' & A & B & C & D & X). exists k, l, k'. rewrite X. repeat (split; [assumption|]). unfold seconds. lra.
Qed.
Print Assumptions C107_early_refuted.
Example C107_early_applies : let f := fdiv (f_of_Z 1) (f_of_Z 1048576) in time_sleep f = Ok (Begin 0) /\ f_is_finite f = true /\ (0 < val f <= 8589)%R.
Proof.
  cbv zeta. split; [vm_compute; reflexivity|]. split; [vm_compute; reflexivity|].
  destruct (div_real (f_of_Z 1) (f_of_Z 1048576) 1 1048576) as [_ V]; [apply of_Z_int, small_representable; unfold small; lia..|lia|unfold small; lia|]. rewrite V.
  rewrite round_generic; [lra|apply valid_rnd_N|]. replace (1 / 1048576)%R with (bpow radix2 (-20)) by (cbn; lra). apply generic_format_bpow. vm_compute. discriminate.
Qed.
(** From 8590 seconds on it ends when it has read the time twice. *)
Theorem C107_long_refuted f : f_is_finite f = true -> (8590 <= val f <= 17179)%R ->
  exists n, time_sleep f = Ok (Begin n) /\
  forall k l k', sleep_call n k l k' -> (2 <= k_calls k')%nat -> (seconds (elapsed k k') <= val f - 8590)%R -> ended k'.
Proof.
  intros F V. destruct (to_ticks_long f F V) as (n & E & N & A). exists n. unfold time_sleep. rewrite E. split; [reflexivity|].
  intros k l k' (R & D & b & a & c & Wb & Wa & Wc & H) C L. apply (sleep_long k b a c n l k' R D Wb Wa Wc N H); [|exact C].
  apply le_IZR. unfold seconds in *. lra.
Qed.
Print Assumptions C107_long_refuted.
Example C107_long_applies : time_sleep (f_of_Z 10000) = Ok (Begin 2500000000) /\
  exists k', sleep_call 2500000000 clock_start (repeat Run 28) k' /\ k_calls k' = 2%nat /\ ended k' /\ elapsed clock_start k' = 0.
Proof.
  split; [vm_compute; reflexivity|]. destruct (events (repeat Run 28) (call (Begin 2500000000) 0 0 0 clock_start)) as [k'|] eqn:E; [|vm_compute in E; discriminate].
  exists k'. split; [split; [apply reach_start|split; [exists 0; reflexivity|exists 0, 0, 0; rewrite !word_eq; split; [lia|split; [lia|split; [lia|exact E]]]]]|].
  vm_compute in E. injection E as <-. split; [reflexivity|]. split; [exists 0; reflexivity|reflexivity].
Qed.
(** Less than no time, more than 17180 seconds, infinity and NaN are undefined. *)
Theorem C107_undefined_refuted f : f_is_finite f = false \/ (val f <= - (1 / 100000))%R \/ (17180 <= val f)%R -> time_sleep f = UB.
Proof.
  intro H. unfold time_sleep. destruct (f_is_finite f) eqn:F; [|rewrite (to_ticks_not_finite f F); reflexivity].
  destruct H as [H|[H|H]]; [discriminate|rewrite (to_ticks_negative f F H); reflexivity|rewrite (to_ticks_big f F H); reflexivity].
Qed.
Print Assumptions C107_undefined_refuted.
Example C107_undefined_applies : is_int (f_of_Z (-1)) (-1) /\ is_int (f_of_Z 20000) 20000 /\ f_is_finite (fdiv f_one f_zero) = false.
Proof. split; [apply of_Z_int, small_representable; unfold small; lia|]. split; [apply of_Z_int, small_representable; unfold small; lia|reflexivity]. Qed.

(** C108: time.monotonic does not go back, and is right to a part in four million,
    in the first [2 ^ 32] counts (4.7 hours). *)
Theorem C108_monotonic_partial k1 l1 k1' v1 k2 l2 k2' v2 : ticks_call k1 l1 k1' v1 -> ticks_call k2 l2 k2' v2 ->
  k_now k1' <= k_now k2 -> k_now k2' < 2 ^ 32 -> fle (monotonic v1) (monotonic v2) = true.
Proof.
  intros C1 C2 L M. pose proof C1 as (R1 & _). pose proof C2 as (R2 & _). destruct (reach_inv _ R1) as [[(A1 & _) _] _]. destruct (reach_inv _ R2) as [[(A2 & _) _] _].
  assert (O : k_now k1 <= k_now k1' /\ k_now k2 <= k_now k2').
  { destruct C1 as (_ & _ & b & a & c & _ & _ & _ & H1 & _). destruct C2 as (_ & _ & b' & a' & c' & _ & _ & _ & H2 & _). split; [exact (proj1 (events_now _ _ _ H1))|exact (proj1 (events_now _ _ _ H2))]. }
  destruct (C106_ticks _ _ _ _ C1) as (t1 & T1 & ->); [unfold elapsed; lia|]. destruct (C106_ticks _ _ _ _ C2) as (t2 & T2 & ->); [unfold elapsed; lia|].
  rewrite !Z.mod_small by lia. apply monotonic_le; lia.
Qed.
Print Assumptions C108_monotonic_partial.
Theorem C108_close_partial k l k' v : ticks_call k l k' v -> k_now k' < 2 ^ 32 ->
  exists t, k_now k <= t <= k_now k' /\ f_is_finite (monotonic v) = true /\ (Rabs (val (monotonic v) - seconds t) <= seconds t / 4000000)%R.
Proof.
  intros C M. pose proof C as (R & _). destruct (reach_inv _ R) as [[(A & _) _] _]. destruct (C106_ticks _ _ _ _ C) as (t & T & ->); [unfold elapsed; lia|].
  exists t. split; [exact T|]. rewrite Z.mod_small by lia. split; [apply monotonic_val; lia|apply monotonic_close; lia].
Qed.
Print Assumptions C108_close_partial.
Example C108_applies : exists k1 l1 k1' k2 l2 k2', ticks_call k1 l1 k1' 1000000 /\ ticks_call k2 l2 k2' 2000000 /\ k_now k1' <= k_now k2 /\ k_now k2' < 2 ^ 32.
Proof.
  destruct (reach_at 1000000 ltac:(lia)) as (k1 & R1 & D1 & N1 & O1 & _). destruct (reach_at 2000000 ltac:(lia)) as (k2 & R2 & D2 & N2 & O2 & _).
  destruct (read_at k1 R1 D1 O1) as (l1 & k1' & C1 & M1 & _). destruct (read_at k2 R2 D2 O2) as (l2 & k2' & C2 & M2 & _).
  rewrite N1 in C1, M1. rewrite N2 in C2, M2. change (1000000 mod 2 ^ 32) with 1000000 in C1. change (2000000 mod 2 ^ 32) with 2000000 in C2.
  exists k1, l1, k1', k2, l2, k2'. repeat (split; [assumption|]). change (2 ^ 32) with 4294967296. lia.
Qed.
(** Each time [2 ^ 32] counts are full it goes back to zero. *)
Theorem C108_wraps_refuted j : 0 < j -> exists k1 l1 k1' v1 k2 l2 k2' v2,
  ticks_call k1 l1 k1' v1 /\ ticks_call k2 l2 k2' v2 /\ k_now k1' < k_now k2 /\ k_now k2 = j * 2 ^ 32 /\ flt (monotonic v2) (monotonic v1) = true.
Proof.
  intro J. change (2 ^ 32) with 4294967296. destruct (reach_at (j * 4294967296 - 1) ltac:(lia)) as (k1 & R1 & D1 & N1 & O1 & _). destruct (reach_at (j * 4294967296) ltac:(lia)) as (k2 & R2 & D2 & N2 & O2 & _).
  destruct (read_at k1 R1 D1 O1) as (l1 & k1' & C1 & M1 & _). destruct (read_at k2 R2 D2 O2) as (l2 & k2' & C2 & M2 & _).
  exists k1, l1, k1', (k_now k1 mod 2 ^ 32), k2, l2, k2', (k_now k2 mod 2 ^ 32). split; [exact C1|]. split; [exact C2|]. split; [lia|]. split; [exact N2|].
  rewrite N1, N2. change (2 ^ 32) with 4294967296. rewrite Z.mod_mul by lia. replace (j * 4294967296 - 1) with (4294967295 + (j - 1) * 4294967296) by lia. rewrite Z_mod_plus_full. exact monotonic_wraps.
Qed.
Print Assumptions C108_wraps_refuted.
