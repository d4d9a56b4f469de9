(** Runs that exist: reading the time at any moment, and sleeping no longer than asked. *)
From Coq Require Import ZArith Lia List Bool.
From Verif Require Import Base TimeModel TimeSpec TimeProofs TimeProofs2.
Import ListNotations.
Local Open Scope Z_scope.

Definition running (k : clock) : Prop := forall v, k_task k <> Done v.
Lemma instr_running k : running k -> instruction k = execute k.
Proof. intro N. unfold instruction. destruct (k_task k) eqn:E; try reflexivity. exfalso. apply (N v). exact E. Qed.
Lemma part_read T k : inv T k -> running k -> k_over k = false -> k_pc k = 0%nat -> forall i, (i <= 13)%nat ->
  exists k0, events (repeat Run i) k = Some k0 /\ inv T k0 /\ k_pc k0 = i /\ fresh k0 /\ stays k k0.
Proof.
  intros I N O P. induction i as [|i IH]; intro L.
  - exists k. cbn. unfold fresh, stays. rewrite P. repeat split; auto; try apply I.
  - destruct IH as (k0 & E & I0 & P0 & F0 & (S1 & S2 & S3 & S4 & S5 & S6)); [lia|].
    assert (O0 : k_over k0 = false) by congruence.
    assert (Em : may_serve k0 = false) by (unfold may_serve; rewrite O0; reflexivity).
    assert (X : exists k1, execute k0 = Some k1) by (unfold execute; rewrite P0; do 13 (destruct i as [|i]; [eexists; reflexivity|]); lia).
    destruct X as [k1 X]. assert (N0 : running k0) by (unfold running; rewrite S4; exact N).
    destruct (instr_inv T k0 k1 I0 Em X) as [[I1 (R1 & R2 & R3 & R4 & R5 & R6)]|(Y & _)]; [|lia].
    destruct (run_pc T k0 k1 I0 X R5) as [[Z1 Z2]|(Z1 & _)]; [|lia].
    exists k1. replace (repeat Run (S i)) with (repeat Run i ++ [Run]) by (rewrite <- repeat_cons; reflexivity). rewrite events_app, E. cbn [events happen]. rewrite Em, (instr_running k0 N0), X.
    split; [reflexivity|]. split; [exact I1|]. split; [rewrite Z1, P0; reflexivity|]. split; [apply Z2, F0|]. unfold stays. repeat split; congruence.
Qed.
Lemma whole_read T k : inv T k -> running k -> k_over k = false -> k_pc k = 0%nat ->
  exists l k0, events l k = Some (back k0) /\ inv T k0 /\ k_pc k0 = 13%nat /\ k_before k0 = k_after k0 /\ stays k k0.
Proof.
  intros I N O P. destruct (part_read T k I N O P 13 (le_n _)) as (k0 & E & I0 & P0 & F0 & S0). exists (repeat Run 13 ++ [Run]), k0.
  unfold fresh in F0. rewrite P0 in F0. destruct F0 as [F1 F2]. assert (B : k_before k0 = k_after k0) by congruence.
  split; [|auto]. rewrite events_app, E. cbn [events happen]. pose proof S0 as (S1 & S2 & S3 & S4 & S5 & S6).
  unfold may_serve. rewrite S2, O. cbn [andb]. rewrite instr_running by (unfold running; rewrite S4; exact N).
  unfold execute. rewrite P0, B, Z.eqb_refl. unfold back, result. rewrite B. reflexivity.
Qed.
(** time passes *)
Lemma tick_on T k : inv T k -> k_over k = false -> k_pc k = 0%nat ->
  exists l k', events l k = Some k' /\ inv T k' /\ k_over k' = false /\ k_pc k' = 0%nat /\ k_now k' = k_now k + 1 /\ k_task k' = k_task k /\ k_abort k' = k_abort k /\ k_calls k' = k_calls k.
Proof.
  intros I O P. destruct I as [(A & B & C & D & E & F & G) H]. assert (I : inv T k) by (split; [repeat (split; [assumption|]); assumption|assumption]).
  unfold flags in G. rewrite P in G. destruct G as [G1 G2].
  set (k1 := {| k_now := k_now k + 1; k_over := (k_now k + 1) mod 256 =? 0; k_tocks := k_tocks k; k_ints := k_ints k; k_shadow := k_shadow k; k_pc := k_pc k; k_before := k_before k; k_after := k_after k; k_cnt := k_cnt k; k_task := k_task k; k_abort := k_abort k; k_calls := k_calls k |}).
  assert (H1 : happen Count k = Some k1) by (cbn [happen]; rewrite O, andb_false_r; reflexivity).
  pose proof (count_inv T k k1 I H1) as I1. destruct ((k_now k + 1) mod 256 =? 0) eqn:Eo.
  - assert (Ms : may_serve k1 = true) by (unfold may_serve, k1; kcbn; rewrite G1, G2; reflexivity).
    destruct (happen Serve k1) as [k2|] eqn:H2; [|cbn [happen] in H2; rewrite Ms in H2; discriminate].
    exists [Count; Serve], k2. cbn [events]. rewrite H1, H2. split; [reflexivity|]. split; [apply (serve_inv T k1 k2 I1 H2)|].
    cbn [happen] in H2. rewrite Ms in H2. injection H2 as <-. subst k1. kcbn. repeat split; auto.
  - exists [Count], k1. cbn [events]. rewrite H1. split; [reflexivity|]. split; [exact I1|]. subst k1. kcbn. repeat split; auto.
Qed.
Lemma time_on T k (n : nat) : inv T k -> k_over k = false -> k_pc k = 0%nat ->
  exists l k', events l k = Some k' /\ inv T k' /\ k_over k' = false /\ k_pc k' = 0%nat /\ k_now k' = k_now k + Z.of_nat n /\ k_task k' = k_task k /\ k_abort k' = k_abort k /\ k_calls k' = k_calls k.
Proof.
  intros I O P. induction n as [|n (l & k1 & E & I1 & O1 & P1 & N1 & T1 & A1 & C1)].
  - exists [], k. cbn. repeat split; auto; try apply I. lia.
  - destruct (tick_on T k1 I1 O1 P1) as (l2 & k2 & E2 & I2 & O2 & P2 & N2 & T2 & A2 & C2). exists (l ++ l2), k2. rewrite events_app, E.
    split; [exact E2|]. split; [exact I2|]. repeat split; auto; try congruence. lia.
Qed.
Lemma reach_events l : forall k k', reach k -> events l k = Some k' -> reach k'.
Proof.
  induction l as [|e l IH]; intros k k' R H; cbn [events] in H; [injection H as <-; exact R|].
  destruct (happen e k) as [k1|] eqn:E; [|discriminate]. apply (IH k1 k'); [eapply reach_event; eauto|exact H].
Qed.
Lemma reach_at (t : Z) : 0 <= t -> exists k, reach k /\ ended k /\ k_now k = t /\ k_over k = false /\ k_abort k = false.
Proof.
  intro H. destruct (reach_inv clock_start reach_start) as [I _].
  destruct (time_on 0 clock_start (Z.to_nat t) I eq_refl eq_refl) as (l & k & E & _ & O & _ & N & T & A & _).
  exists k. split; [eapply reach_events; [apply reach_start|exact E]|]. split; [exists 0; exact T|]. split; [rewrite N; cbn [k_now clock_start]; lia|]. auto.
Qed.
(** the time can be read at any moment *)
Theorem read_at k : reach k -> ended k -> k_over k = false -> exists l k', ticks_call k l k' (k_now k mod 2 ^ 32) /\ k_now k' = k_now k /\ k_over k' = false.
Proof.
  intros R D O. assert (W0 : word 0) by (rewrite word_eq; lia). pose proof (call_inv Ticks 0 0 0 k R D W0 W0 ltac:(lia)) as I.
  destruct (whole_read (k_now k) (call Ticks 0 0 0 k) I ltac:(intros v; discriminate) O eq_refl) as (l & k0 & E & I0 & P0 & B0 & (S1 & S2 & S3 & S4 & S5 & S6)).
  exists l, (back k0). cbn [call k_now k_over k_task] in S1, S2, S4. destruct (return_val _ _ I0 P0 B0) as (t & T1 & T2); [rewrite S1, Z.sub_diag; reflexivity|]. rewrite S1 in T1. assert (t = k_now k) by lia. subst t.
  split; [|split; [exact S1|cbn; congruence]]. split; [exact R|]. split; [exact D|]. exists 0, 0, 0. split; [exact W0|]. split; [exact W0|]. split; [lia|]. split; [exact E|].
  unfold back, returned. cbn [k_task set_task at_pc ints]. rewrite S4, T2. reflexivity.
Qed.
(** and time.sleep may end as soon as the ticks have gone by *)
Theorem sleep_tight t n : 0 <= t -> 0 <= n < 2 ^ 31 -> exists k l k', k_now k = t /\ sleep_call n k l k' /\ ended k' /\ k_abort k' = false /\ elapsed k k' = n.
Proof.
  intros Ht Hn. destruct (reach_at t Ht) as (k & R & D & N & O & A). assert (W0 : word 0) by (rewrite word_eq; lia).
  pose proof (call_inv (Begin n) 0 0 0 k R D W0 W0 ltac:(lia)) as I.
  destruct (whole_read (k_now k) (call (Begin n) 0 0 0 k) I ltac:(intros v; discriminate) O eq_refl) as (l1 & k0 & E1 & I0 & P0 & B0 & (S1 & S2 & S3 & S4 & S5 & S6)).
  cbn [call k_now k_over k_task k_abort] in S1, S2, S4, S6. destruct (return_val _ _ I0 P0 B0) as (s & T1 & T2); [rewrite S1, Z.sub_diag; reflexivity|]. rewrite S1 in T1. assert (s = k_now k) by lia. subst s.
  destruct (back_ok (k_now k) (k_now k) k0 I0 P0 ltac:(lia)) as (I1 & P1 & N1 & A1 & C1).
  assert (Tk : k_task (back k0) = until (k_now k) n) by (unfold back, returned; cbn [k_task set_task at_pc ints]; rewrite S4, T2; reflexivity).
  assert (O1 : k_over (back k0) = false) by (cbn; congruence).
  destruct (time_on (k_now k) (back k0) (Z.to_nat n) I1 O1 P1) as (l2 & k2 & E2 & I2 & O2 & P2 & N2 & T3 & A3 & _). rewrite N1, S1 in N2.
  assert (I3 : inv (k_now k2) k2).
  { destruct I2 as [(X & Y) _]. split; [split; [lia|exact Y]|]. unfold place. rewrite P2. exact Logic.I. }
  destruct (whole_read (k_now k2) k2 I3 ltac:(intros v; rewrite T3, Tk; discriminate) O2 P2) as (l3 & k3 & E3 & I4 & P3 & B3 & (Q1 & Q2 & Q3 & Q4 & Q5 & Q6)).
  destruct (return_val _ _ I4 P3 B3) as (t3 & U1 & U2); [rewrite Q1, Z.sub_diag; reflexivity|]. assert (t3 = k_now k2) by lia. subst t3.
  exists k, (l1 ++ l2 ++ l3), (back k3). split; [exact N|]. split.
  { split; [exact R|]. split; [exact D|]. exists 0, 0, 0. split; [exact W0|]. split; [exact W0|]. split; [lia|]. rewrite events_app, E1, events_app, E2. exact E3. }
  split; [|split; [cbn; congruence|unfold elapsed; cbn [back returned k_now set_task at_pc ints]; lia]].
  exists (result k3). unfold back, returned. cbn [k_task set_task at_pc ints k_abort]. rewrite Q4, T3, Tk. unfold until. rewrite U2.
  rewrite (wraps_mod _ (k_now k + n - k_now k2)) by apply left_val. rewrite (wraps_val _ 0); [rewrite andb_false_r; reflexivity| |lia]. f_equal. lia.
Qed.
