(** time.sleep, and how long snek_ticks takes. *)
From Coq Require Import ZArith Lia List Bool.
From Verif Require Import Base TimeModel TimeSpec TimeProofs.
Import ListNotations.
Local Open Scope Z_scope.

Lemma happen_now e k k' : happen e k = Some k' -> k_now k <= k_now k' /\ (k_abort k = true -> k_abort k' = true) /\ (k_calls k <= k_calls k')%nat.
Proof.
  destruct e; cbn [happen]; intro H.
  - destruct (_ && _) in H; [discriminate|]. injection H as <-. kcbn. repeat split; auto; lia.
  - destruct (may_serve k); [|discriminate]. injection H as <-. kcbn. repeat split; auto; lia.
  - destruct (may_serve k); [discriminate|]. unfold instruction in H. assert (G : execute k = Some k') by (destruct (k_task k); try exact H; discriminate). clear H.
    unfold execute in G. destruct (k_pc k) as [|[|[|[|[|[|[|[|[|[|[|[|[|[|n]]]]]]]]]]]]]]; [..|discriminate];
      try (injection G as <-; cbn; repeat split; auto; lia).
    destruct (_ =? _) in G; injection G as <-; cbn; repeat split; auto; lia.
  - injection H as <-. kcbn. repeat split; auto; lia.
Qed.
Lemma events_now l : forall k k', events l k = Some k' -> k_now k <= k_now k' /\ (k_abort k = true -> k_abort k' = true) /\ (k_calls k <= k_calls k')%nat.
Proof.
  induction l as [|e l IH]; intros k k' H; cbn [events] in H; [injection H as <-; repeat split; auto; lia|].
  destruct (happen e k) as [k1|] eqn:E; [|discriminate]. apply happen_now in E as (E1 & E2 & E3). apply IH in H as (H1 & H2 & H3). repeat split; auto; lia.
Qed.
Lemma events_app l1 : forall l2 k, events (l1 ++ l2) k = match events l1 k with Some k => events l2 k | None => None end.
Proof. induction l1 as [|e l IH]; intros l2 k; cbn [events app]; [reflexivity|]. destruct (happen e k); [apply IH|reflexivity]. Qed.

(** one event *)
Definition back (k : clock) : clock := returned (result k) (at_pc 0 (ints (k_ints k) false (at_pc 14 k))).
Lemma event_inv T e k k' : inv T k -> happen e k = Some k' ->
  inv T k' /\ k_task k' = k_task k /\ k_calls k' = k_calls k \/
  k_pc k = 13%nat /\ k_before k = k_after k /\ k' = back k /\ e = Run /\ forall v, k_task k <> Done v.
Proof.
  intros I H. destruct e.
  - left. split; [eapply count_inv; eauto|]. cbn [happen] in H. destruct (_ && _) in H; [discriminate|]. injection H as <-. auto.
  - left. split; [eapply serve_inv; eauto|]. cbn [happen] in H. destruct (may_serve k); [|discriminate]. injection H as <-. auto.
  - cbn [happen] in H. destruct (may_serve k) eqn:Em; [discriminate|]. unfold instruction in H. 
    assert (G : execute k = Some k' /\ forall v, k_task k <> Done v) by (destruct (k_task k); try (split; [exact H|discriminate]); discriminate).
    destruct G as [G N]. destruct (instr_inv T k k' I Em G) as [[A (B1 & B2 & B3 & B4 & B5 & B6)]|(A & B & C)]; [left; auto|right; auto].
  - left. split; [eapply stop_inv; eauto|]. injection H as <-. auto.
Qed.
Lemma back_ok T T' k : inv T k -> k_pc k = 13%nat -> 0 <= T' <= k_now k -> inv T' (back k) /\ k_pc (back k) = 0%nat /\ k_now (back k) = k_now k /\ k_abort (back k) = k_abort k /\ k_calls (back k) = S (k_calls k).
Proof. intros [A P] Ep L. split; [apply (back_inv T T' k); try reflexivity; assumption|repeat split]. Qed.
Lemma done_stays l : forall k k' v, k_task k = Done v -> events l k = Some k' -> k_task k' = Done v /\ k_calls k' = k_calls k.
Proof.
  induction l as [|e l IH]; intros k k' v D H; cbn [events] in H; [injection H as <-; auto|].
  destruct (happen e k) as [k1|] eqn:E; [|discriminate].
  assert (k_task k1 = Done v /\ k_calls k1 = k_calls k) as [D1 C1].
  { destruct e; cbn [happen] in E.
    - destruct (_ && _) in E; [discriminate|]. injection E as <-. auto.
    - destruct (may_serve k); [|discriminate]. injection E as <-. auto.
    - destruct (may_serve k); [discriminate|]. unfold instruction in E. rewrite D in E. discriminate.
    - injection E as <-. auto. }
  rewrite <- C1. eapply IH; eauto.
Qed.
Lemma reach_inv k : reach k -> inv 0 k /\ (ended k -> k_pc k = 0%nat).
Proof.
  induction 1 as [|e k k' R [I E] H|t b a c k R [I E] D Wb Wa Wc N].
  - split; [|reflexivity]. split; [|exact Logic.I]. unfold base. rewrite !word_eq. cbn. repeat split; lia || reflexivity.
  - destruct (event_inv 0 e k k' I H) as [(A & B & C)|(A & B & -> & C & N)].
    + split; [exact A|]. intros [v D]. rewrite B in D. pose proof (E (ex_intro _ v D)) as P.
      destruct e; cbn [happen] in H.
      * destruct (_ && _) in H; [discriminate|]. injection H as <-. exact P.
      * destruct (may_serve k); [|discriminate]. injection H as <-. exact P.
      * destruct (may_serve k); [discriminate|]. unfold instruction in H. rewrite D in H. discriminate.
      * injection H as <-. exact P.
    + destruct I as [I P]. destruct (back_ok 0 0 k (conj I P) A) as (G & G1 & _); [destruct I as (? & _); lia|]. split; [exact G|auto].
  - split; [|reflexivity]. specialize (E D). destruct I as [(A & B & C & _ & _ & _ & F) _]. split; [|exact Logic.I]. unfold flags in F. rewrite E in F.
    unfold base. repeat (split; [assumption|]). exact F.
Qed.
Lemma call_inv t b a c k : reach k -> ended k -> word b -> word a -> 0 <= c < 256 -> inv (k_now k) (call t b a c k).
Proof.
  intros R D Wb Wa Wc. destruct (reach_inv k R) as [[(A & B & C & _ & _ & _ & F) _] E]. specialize (E D). unfold flags in F. rewrite E in F. split; [|exact I].
  unfold base. split; [cbn; lia|]. repeat (split; [assumption|]). exact F.
Qed.

(** snek_ticks gives the time of a moment between call and return *)
Lemma ticks_run l : forall T k k' v, inv T k -> k_task k = Ticks -> events l k = Some k' -> k_task k' = Done v -> k_now k' - T < 2 ^ 32 ->
  exists t, T <= t <= k_now k' /\ v = t mod 2 ^ 32.
Proof.
  induction l as [|e l IH]; intros T k k' v I Tk H D L; cbn [events] in H; [injection H as <-; congruence|].
  destruct (happen e k) as [k1|] eqn:E; [|discriminate]. destruct (event_inv T e k k1 I E) as [(A & B & C)|(A & B & -> & C & N)].
  - rewrite Tk in B. apply (IH T k1 k' v A B H D L).
  - destruct (events_now l _ _ H) as (M & _). change (k_now (back k)) with (k_now k) in M.
    assert (Db : k_task (back k) = Done (result k)) by (unfold back, returned; cbn; rewrite Tk; reflexivity).
    destruct (done_stays l _ _ _ Db H) as [D' _]. rewrite D' in D. injection D as <-.
    destruct (return_val T k I A B ltac:(lia)) as (t & T1 & T2). exists t. split; [lia|exact T2].
Qed.
Theorem ticks_time k b a c l k' v : reach k -> ended k -> word b -> word a -> 0 <= c < 256 ->
  events l (call Ticks b a c k) = Some k' -> k_task k' = Done v -> elapsed k k' < 2 ^ 32 ->
  exists t, k_now k <= t <= k_now k' /\ v = t mod 2 ^ 32.
Proof. intros R D Wb Wa Wc H Dn L. apply (ticks_run l (k_now k) (call Ticks b a c k)); try assumption; [apply call_inv; assumption|reflexivity]. Qed.

(** signed differences *)
Lemma wraps_val x d : x mod 2 ^ 32 = d mod 2 ^ 32 -> - 2 ^ 31 <= d < 2 ^ 31 -> wraps 32 x = d.
Proof.
  intros E L. unfold wraps. rewrite E. change (2 ^ (32 - 1)) with 2147483648. change (2 ^ 32) with 4294967296 in *. change (2 ^ 31) with 2147483648 in *.
  destruct (Z.leb_spec 0 d).
  - rewrite Z.mod_small by lia. destruct (Z.ltb_spec d 2147483648); lia.
  - replace (d mod 4294967296) with (d + 4294967296); [destruct (Z.ltb_spec (d + 4294967296) 2147483648); lia|].
    symmetry. rewrite <- (Z_mod_plus_full d 1). rewrite Z.mod_small; lia.
Qed.
Lemma left_val s n t : wrapu 32 (wrapu 32 (s mod 2 ^ 32 + n) - t mod 2 ^ 32) = (s + n - t) mod 2 ^ 32.
Proof. unfold wrapu. rewrite Zplus_mod_idemp_l, Zminus_mod_idemp_l, Zminus_mod_idemp_r. reflexivity. Qed.

Lemma wraps_mod x y : x mod 2 ^ 32 = y mod 2 ^ 32 -> wraps 32 x = wraps 32 y.
Proof. intro E. unfold wraps. rewrite E. reflexivity. Qed.

(** an event while time.sleep waits; [s]: when it read the time first *)
Definition until (s n : Z) : task := Sleeping (wrapu 32 (s mod 2 ^ 32 + n)).
Lemma nap_event s n T e k k' : inv T k -> k_task k = until s n -> happen e k = Some k' -> k_now k' - T < 2 ^ 32 ->
  inv T k' /\ k_task k' = k_task k /\ k_calls k' = k_calls k \/
  exists t, T <= t <= k_now k /\ k_now k' = k_now k /\ k_abort k' = k_abort k /\ k_calls k' = S (k_calls k) /\ inv (k_now k) k' /\
    k_task k' = if negb (k_abort k) && (0 <? wraps 32 (s + n - t)) then until s n else Done (result k).
Proof.
  intros I Tk H L. destruct (event_inv T e k k' I H) as [X|(A & B & -> & C & N)]; [left; exact X|right].
  change (k_now (back k)) with (k_now k) in *. destruct (return_val T k I A B L) as (t & T1 & T2). exists t.
  assert (0 <= k_now k) by (destruct I as [(? & _) _]; lia).
  destruct (back_ok T (k_now k) k I A ltac:(lia)) as (G & _). split; [exact T1|]. do 3 (split; [reflexivity|]). split; [exact G|].
  unfold back, returned. cbn [k_task set_task at_pc ints k_abort]. rewrite Tk. unfold until. rewrite T2.
  rewrite (wraps_mod _ (s + n - t)); [reflexivity|]. apply left_val.
Qed.
Lemma begin_event n T e k k' : inv T k -> k_task k = Begin n -> happen e k = Some k' -> k_now k' - T < 2 ^ 32 ->
  inv T k' /\ k_task k' = k_task k /\ k_calls k' = k_calls k \/
  exists s, T <= s <= k_now k /\ k_now k' = k_now k /\ k_abort k' = k_abort k /\ k_calls k' = S (k_calls k) /\ inv (k_now k) k' /\ k_task k' = until s n.
Proof.
  intros I Tk H L. destruct (event_inv T e k k' I H) as [X|(A & B & -> & C & N)]; [left; exact X|right].
  change (k_now (back k)) with (k_now k) in *. destruct (return_val T k I A B L) as (t & T1 & T2). exists t.
  assert (0 <= k_now k) by (destruct I as [(? & _) _]; lia).
  destruct (back_ok T (k_now k) k I A ltac:(lia)) as (G & _). split; [exact T1|]. do 3 (split; [reflexivity|]). split; [exact G|].
  unfold back, returned. cbn [k_task set_task at_pc ints k_abort]. rewrite Tk, T2. reflexivity.
Qed.
Lemma inv_now T k : inv T k -> T <= k_now k.
Proof. intros [(? & _) _]. lia. Qed.

(** it waits at least [n] ticks *)
Lemma nap_waits l : forall s n T k k', inv T k -> k_task k = until s n -> s <= T -> 0 <= n < 2 ^ 31 -> events l k = Some k' -> ended k' -> k_abort k' = false -> s + n <= k_now k'.
Proof.
  induction l as [|e l IH]; intros s n T k k' I Tk L N H [v D] Ab; cbn [events] in H; [injection H as <-; rewrite Tk in D; discriminate|].
  destruct (Z.leb_spec (s + n) (k_now k')) as [|Lt]; [assumption|exfalso]. change (2 ^ 31) with 2147483648 in *.
  destruct (happen e k) as [k1|] eqn:E; [|discriminate]. destruct (events_now l _ _ H) as (M & M2 & _). change (2 ^ 32) with 4294967296 in *.
  destruct (nap_event s n T e k k1 I Tk E) as [(A & B & C)|(t & T1 & A & B & C & F & G)]; [change (2 ^ 32) with 4294967296; lia| |].
  - rewrite Tk in B. assert (s + n <= k_now k') by (apply (IH s n T k1); auto; exists v; exact D). lia.
  - assert (Ak : k_abort k = false) by (destruct (k_abort k); [rewrite (M2 B) in Ab; discriminate|reflexivity]).
    rewrite (wraps_val (s + n - t) (s + n - t) eq_refl) in G by (change (2 ^ 31) with 2147483648; lia). rewrite Ak in G. destruct (Z.ltb_spec 0 (s + n - t)); [|lia]. cbn [negb andb] in G.
    assert (s + n <= k_now k') by (apply (IH s n (k_now k) k1); auto; [lia|exists v; exact D]). lia.
Qed.
Lemma begin_waits l : forall n T k k', inv T k -> k_task k = Begin n -> 0 <= n < 2 ^ 31 -> events l k = Some k' -> ended k' -> k_abort k' = false -> T + n <= k_now k'.
Proof.
  induction l as [|e l IH]; intros n T k k' I Tk N H [v D] Ab; cbn [events] in H; [injection H as <-; rewrite Tk in D; discriminate|].
  destruct (Z.leb_spec (T + n) (k_now k')) as [|Lt]; [assumption|exfalso]. change (2 ^ 31) with 2147483648 in *.
  destruct (happen e k) as [k1|] eqn:E; [|discriminate]. destruct (events_now l _ _ H) as (M & M2 & _).
  destruct (begin_event n T e k k1 I Tk E) as [(A & B & C)|(s & T1 & A & B & C & F & G)]; [change (2 ^ 32) with 4294967296; lia| |].
  - rewrite Tk in B. assert (T + n <= k_now k') by (apply (IH n T k1); auto; exists v; exact D). lia.
  - assert (s + n <= k_now k') by (apply (nap_waits l s n (k_now k) k1); auto; [lia|exists v; exact D]). lia.
Qed.
Theorem sleep_waits k b a c n l k' : reach k -> ended k -> word b -> word a -> 0 <= c < 256 -> 0 <= n < 2 ^ 31 ->
  events l (call (Begin n) b a c k) = Some k' -> ended k' -> k_abort k' = false -> n <= elapsed k k'.
Proof.
  intros R D Wb Wa Wc N H E Ab. pose proof (begin_waits l n (k_now k) _ k' (call_inv (Begin n) b a c k R D Wb Wa Wc) eq_refl N H E Ab). unfold elapsed. lia.
Qed.

(** and not longer than needed *)
Lemma nap_late l : forall s n T k k', inv T k -> k_task k = until s n -> s + n <= T -> 0 <= n -> events l k = Some k' -> k_now k' - s < 2 ^ 31 -> ended k' \/ k_calls k' = k_calls k.
Proof.
  induction l as [|e l IH]; intros s n T k k' I Tk L N H B0; cbn [events] in H; [injection H as <-; auto|].
  destruct (happen e k) as [k1|] eqn:E; [|discriminate]. destruct (events_now l _ _ H) as (M & M2 & _). pose proof (inv_now T k I) as L2. change (2 ^ 31) with 2147483648 in *.
  destruct (nap_event s n T e k k1 I Tk E) as [(A & B & C)|(t & T1 & A & B & C & F & G)]; [change (2 ^ 32) with 4294967296; lia| |].
  - rewrite Tk in B. rewrite <- C. apply (IH s n T); auto.
  - left. rewrite (wraps_val (s + n - t) (s + n - t) eq_refl) in G by (change (2 ^ 31) with 2147483648; lia). destruct (Z.ltb_spec 0 (s + n - t)); [lia|]. rewrite andb_false_r in G.
    destruct (done_stays l _ _ _ G H) as [D _]. eexists; exact D.
Qed.
Lemma nap_soon l : forall s n T k k', inv T k -> k_task k = until s n -> s <= T -> s + n <= k_now k -> 0 <= n < 2 ^ 31 -> events l k = Some k' -> k_now k' - s < 2 ^ 31 -> ended k' \/ (k_calls k' <= k_calls k + 1)%nat.
Proof.
  induction l as [|e l IH]; intros s n T k k' I Tk L Ln N H B0; cbn [events] in H; [injection H as <-; right; lia|].
  destruct (happen e k) as [k1|] eqn:E; [|discriminate]. destruct (events_now l _ _ H) as (M & M2 & _). destruct (happen_now _ _ _ E) as (M0 & _). change (2 ^ 31) with 2147483648 in *.
  destruct (nap_event s n T e k k1 I Tk E) as [(A & B & C)|(t & T1 & A & B & C & F & G)]; [change (2 ^ 32) with 4294967296; lia| |].
  - rewrite Tk in B. rewrite <- C. apply (IH s n T); auto. lia.
  - destruct (negb (k_abort k) && (0 <? wraps 32 (s + n - t))).
    + destruct (nap_late l s n (k_now k) k1 k' F G Ln ltac:(lia) H) as [D|D]; [change (2 ^ 31) with 2147483648; lia|left; exact D|right; lia].
    + left. destruct (done_stays l _ _ _ G H) as [D _]. eexists; exact D.
Qed.
Lemma nap_stays l : forall s n T k k', inv T k -> k_task k = until s n -> s <= T -> events l k = Some k' -> k_now k' - s < 2 ^ 32 -> ended k' \/ exists T', inv T' k' /\ k_task k' = until s n /\ s <= T'.
Proof.
  induction l as [|e l IH]; intros s n T k k' I Tk L H B0; cbn [events] in H; [injection H as <-; right; exists T; auto|].
  destruct (happen e k) as [k1|] eqn:E; [|discriminate]. destruct (events_now l _ _ H) as (M & M2 & _). destruct (happen_now _ _ _ E) as (M0 & _).
  destruct (nap_event s n T e k k1 I Tk E) as [(A & B & C)|(t & T1 & A & B & C & F & G)]; [lia| |].
  - rewrite Tk in B. apply (IH s n T k1); auto.
  - destruct (negb (k_abort k) && (0 <? wraps 32 (s + n - t))).
    + apply (IH s n (k_now k) k1); auto. lia.
    + left. destruct (done_stays l _ _ _ G H) as [D _]. eexists; exact D.
Qed.
Lemma begin_stays l : forall n T k k', inv T k -> k_task k = Begin n -> events l k = Some k' -> k_now k' - T < 2 ^ 32 ->
  k_task k' = Begin n /\ k_calls k' = k_calls k \/ ended k' \/ exists s T', inv T' k' /\ k_task k' = until s n /\ T <= s <= T'.
Proof.
  induction l as [|e l IH]; intros n T k k' I Tk H B0; cbn [events] in H; [injection H as <-; auto|].
  destruct (happen e k) as [k1|] eqn:E; [|discriminate]. destruct (events_now l _ _ H) as (M & M2 & _). destruct (happen_now _ _ _ E) as (M0 & _).
  destruct (begin_event n T e k k1 I Tk E) as [(A & B & C)|(s & T1 & A & B & C & F & G)]; [lia| |].
  - rewrite Tk in B. rewrite <- C. apply (IH n T k1); auto.
  - right. destruct (nap_stays l s n (k_now k) k1 k' F G ltac:(lia) H ltac:(lia)) as [D|(T' & X1 & X2 & X3)]; [left; exact D|right; exists s, T'; split; [exact X1|split; [exact X2|lia]]].
Qed.
Theorem sleep_prompt k b a c n l1 l2 l3 kS k1 k2 e : reach k -> ended k -> word b -> word a -> 0 <= c < 256 -> 0 <= n < 2 ^ 31 ->
  events l1 (call (Begin n) b a c k) = Some kS -> k_task kS = Sleeping e -> events l2 kS = Some k1 -> k_now kS + n <= k_now k1 ->
  events l3 k1 = Some k2 -> elapsed k k2 < 2 ^ 31 -> ended k2 \/ (k_calls k2 <= k_calls k1 + 1)%nat.
Proof.
  intros R D Wb Wa Wc N H1 Hs H2 Ln H3 L. unfold elapsed in L. pose proof (call_inv (Begin n) b a c k R D Wb Wa Wc) as I.
  destruct (events_now _ _ _ H2) as (M2 & _). destruct (events_now _ _ _ H3) as (M3 & _). destruct (events_now _ _ _ H1) as (M1 & _). cbn [k_now call] in M1. change (2 ^ 31) with 2147483648 in *.
  destruct (begin_stays l1 n (k_now k) _ kS I eq_refl H1) as [[X _]|[[v X]|(s & T & X1 & X2 & X3)]]; [change (2 ^ 32) with 4294967296; lia|congruence|congruence|].
  pose proof (inv_now _ _ X1).
  destruct (nap_stays l2 s n T kS k1 X1 X2 ltac:(lia) H2) as [[v Y]|(T' & Y1 & Y2 & Y3)]; [change (2 ^ 32) with 4294967296; lia| |].
  - destruct (done_stays l3 _ _ _ Y H3) as [Y' _]. left. exists v. exact Y'.
  - apply (nap_soon l3 s n T' k1 k2 Y1 Y2 Y3); try assumption; change (2 ^ 31) with 2147483648; lia.
Qed.

(** from [2 ^ 31] ticks on it does not wait *)
Lemma nap_long l : forall s n T k k', inv T k -> k_task k = until s n -> s <= T -> 2 ^ 31 <= n < 2 ^ 32 -> events l k = Some k' -> k_now k' - s <= n - 2 ^ 31 -> ended k' \/ k_calls k' = k_calls k.
Proof.
  induction l as [|e l IH]; intros s n T k k' I Tk L N H B0; cbn [events] in H; [injection H as <-; auto|].
  destruct (happen e k) as [k1|] eqn:E; [|discriminate]. destruct (events_now l _ _ H) as (M & M2 & _). change (2 ^ 31) with 2147483648 in *. change (2 ^ 32) with 4294967296 in *.
  destruct (nap_event s n T e k k1 I Tk E) as [(A & B & C)|(t & T1 & A & B & C & F & G)]; [change (2 ^ 32) with 4294967296; lia| |].
  - rewrite Tk in B. rewrite <- C. apply (IH s n T); auto.
  - left. rewrite (wraps_val (s + n - t) (s + n - t - 4294967296)) in G.
    + destruct (Z.ltb_spec 0 (s + n - t - 4294967296)); [lia|]. rewrite andb_false_r in G. destruct (done_stays l _ _ _ G H) as [D _]. eexists; exact D.
    + change (2 ^ 32) with 4294967296. rewrite <- (Z_mod_plus_full (s + n - t - 4294967296) 1). f_equal. lia.
    + change (2 ^ 31) with 2147483648. lia.
Qed.
Lemma begin_long l : forall n T k k', inv T k -> k_task k = Begin n -> 2 ^ 31 <= n < 2 ^ 32 -> events l k = Some k' -> k_now k' - T <= n - 2 ^ 31 -> ended k' \/ (k_calls k' <= k_calls k + 1)%nat.
Proof.
  induction l as [|e l IH]; intros n T k k' I Tk N H B0; cbn [events] in H; [injection H as <-; right; lia|].
  destruct (happen e k) as [k1|] eqn:E; [|discriminate]. destruct (events_now l _ _ H) as (M & M2 & _). change (2 ^ 31) with 2147483648 in *. change (2 ^ 32) with 4294967296 in *.
  destruct (begin_event n T e k k1 I Tk E) as [(A & B & C)|(s & T1 & A & B & C & F & G)]; [change (2 ^ 32) with 4294967296; lia| |].
  - rewrite Tk in B. rewrite <- C. apply (IH n T k1); auto.
  - destruct (nap_long l s n (k_now k) k1 k' F G) as [D|D]; auto; [lia| |right; lia]. change (2 ^ 31) with 2147483648. lia.
Qed.
Theorem sleep_long k b a c n l k' : reach k -> ended k -> word b -> word a -> 0 <= c < 256 -> 2 ^ 31 <= n < 2 ^ 32 ->
  events l (call (Begin n) b a c k) = Some k' -> elapsed k k' <= n - 2 ^ 31 -> (2 <= k_calls k')%nat -> ended k'.
Proof.
  intros R D Wb Wa Wc N H L C. destruct (begin_long l n (k_now k) _ k' (call_inv (Begin n) b a c k R D Wb Wa Wc) eq_refl N H L) as [E|E]; [exact E|cbn in E; lia].
Qed.

(** snek_ticks returns unless it is interrupted again and again *)
Definition fresh (k : clock) : Prop :=
  match k_pc k with
  | 2%nat => k_before k mod 256 = k_tocks k mod 256
  | 3%nat => k_before k mod 65536 = k_tocks k mod 65536
  | 4%nat => k_before k mod 16777216 = k_tocks k mod 16777216
  | 5%nat | 6%nat | 7%nat | 8%nat => k_before k = k_tocks k
  | 9%nat => k_before k = k_tocks k /\ k_after k mod 256 = k_tocks k mod 256
  | 10%nat => k_before k = k_tocks k /\ k_after k mod 65536 = k_tocks k mod 65536
  | 11%nat => k_before k = k_tocks k /\ k_after k mod 16777216 = k_tocks k mod 16777216
  | 12%nat | 13%nat => k_before k = k_tocks k /\ k_after k = k_tocks k
  | _ => True
  end.
Lemma run_pc T k k' : inv T k -> execute k = Some k' -> k_calls k' = k_calls k ->
  k_pc k' = S (k_pc k) /\ (fresh k -> fresh k') \/ k_pc k = 13%nat /\ k_before k <> k_after k /\ k_pc k' = 0%nat.
Proof.
  intros [A P] H C. pose proof A as (A1 & A2 & A3 & A4 & A5 & A6 & A7). pose proof (tocks_word T k A) as W.
  unfold flags in A7. unfold execute in H. unfold fresh. destruct (k_pc k) as [|[|[|[|[|[|[|[|[|[|[|[|[|[|n]]]]]]]]]]]]]] eqn:Ep; [..|destruct A7].
  all: try (injection H as <-; left; split; [reflexivity|cbn [k_pc set_before set_after set_cnt ints at_pc]; cbn [k_before k_after k_tocks set_before set_after set_cnt ints at_pc]; try (intros F; exact F)]).
  - intros _. apply put0; assumption.
  - intros F. apply put1; assumption.
  - intros F. apply put2; assumption.
  - intros F. apply put3; assumption.
  - intros F. split; [exact F|]. apply put0; assumption.
  - intros [F0 F]. split; [exact F0|]. apply put1; assumption.
  - intros [F0 F]. split; [exact F0|]. apply put2; assumption.
  - intros [F0 F]. split; [exact F0|]. apply put3; assumption.
  - right. destruct (Z.eqb_spec (k_before k) (k_after k)); injection H as <-; [cbn in C; lia|auto].
Qed.
Lemma ticks_bound l : forall T k k', inv T k -> ~ In Serve l -> events l k = Some k' -> k_calls k' = k_calls k ->
  (k_pc k + runs l <= 27)%nat /\ (fresh k -> k_pc k + runs l <= 13)%nat.
Proof.
  induction l as [|e l IH]; intros T k k' I S H C; cbn [events] in H.
  - injection H as <-. pose proof (pc_cases T k (proj1 I)). cbn. lia.
  - destruct (happen e k) as [k1|] eqn:E; [|discriminate]. destruct (events_now l _ _ H) as (_ & _ & M). destruct (happen_now _ _ _ E) as (_ & _ & M0).
    assert (C1 : k_calls k1 = k_calls k) by lia. destruct (event_inv T e k k1 I E) as [(A & B & _)|(A & B & -> & _)].
    2:{ exfalso. cbn in C1. lia. }
    specialize (IH T k1 k' A (fun X => S (or_intror X)) H ltac:(lia)). destruct IH as [I1 I2].
    destruct e; cbn [happen] in E.
    + destruct (_ && _) in E; [discriminate|]. injection E as <-. exact (conj I1 I2).
    + exfalso. apply S. left. reflexivity.
    + destruct (may_serve k); [discriminate|]. assert (G : execute k = Some k1) by (unfold instruction in E; destruct (k_task k); try exact E; discriminate).
      unfold runs in *. cbn [filter length]. destruct (run_pc T k k1 I G C1) as [[X Y]|(X & Y & Z)].
      * rewrite X in *. split; [lia|]. intro F. specialize (I2 (Y F)). lia.
      * rewrite X, Z in *. split; [|intros F; exfalso; apply Y; unfold fresh in F; rewrite X in F; destruct F; congruence].
        assert (F : fresh k1) by (unfold fresh; rewrite Z; exact Logic.I). specialize (I2 F). lia.
    + injection E as <-. exact (conj I1 I2).
Qed.
Theorem ticks_returns k l k' : reach k -> events l k = Some k' -> ~ In Serve l -> (28 <= runs l)%nat -> (k_calls k < k_calls k')%nat.
Proof.
  intros R H S N. destruct (reach_inv k R) as [I _]. destruct (events_now l _ _ H) as (_ & _ & M).
  destruct (Nat.eq_dec (k_calls k') (k_calls k)) as [C|]; [|lia]. destruct (ticks_bound l 0 k k' I S H C). lia.
Qed.

(** snek_abort ends the wait *)
Lemma nap_abort l : forall T e k k', inv T k -> k_task k = Sleeping e -> k_abort k = true -> events l k = Some k' -> ended k' \/ k_calls k' = k_calls k.
Proof.
  induction l as [|ev l IH]; intros T e k k' I Tk Ab H; cbn [events] in H; [injection H as <-; auto|].
  destruct (happen ev k) as [k1|] eqn:E; [|discriminate]. destruct (happen_now _ _ _ E) as (_ & A1 & _). destruct (event_inv T ev k k1 I E) as [(A & B & C)|(A & B & -> & C & N)].
  - rewrite <- C. apply (IH T e); auto. congruence.
  - left. assert (D : k_task (back k) = Done (result k)) by (unfold back, returned; cbn [k_task set_task at_pc ints k_abort]; rewrite Tk, Ab; reflexivity).
    destruct (done_stays l _ _ _ D H) as [D' _]. eexists. exact D'.
Qed.
Lemma sleep_abort l : forall T n k k', inv T k -> k_task k = Begin n \/ (exists e, k_task k = Sleeping e) -> k_abort k = true -> events l k = Some k' -> ended k' \/ (k_calls k' <= k_calls k + 1)%nat.
Proof.
  induction l as [|ev l IH]; intros T n k k' I Tk Ab H; [injection H as <-; right; lia|]. destruct Tk as [Tk|[e Tk]].
  2:{ destruct (nap_abort _ _ _ _ _ I Tk Ab H) as [D|D]; [auto|right; lia]. }
  cbn [events] in H. destruct (happen ev k) as [k1|] eqn:E; [|discriminate]. destruct (happen_now _ _ _ E) as (_ & A1 & _). destruct (event_inv T ev k k1 I E) as [(A & B & C)|(A & B & -> & C & N)].
  - rewrite <- C. apply (IH T n); auto. left. congruence.
  - destruct (back_ok T T k I A) as (I1 & _ & _ & A2 & C2); [destruct I as [(? & _) _]; lia|].
    assert (D : k_task (back k) = Sleeping (wrapu 32 (result k + n))) by (unfold back, returned; cbn [k_task set_task at_pc ints]; rewrite Tk; reflexivity).
    destruct (nap_abort l T _ _ _ I1 D (eq_trans A2 Ab) H) as [X|X]; [auto|right; lia].
Qed.
Lemma sleep_reach l : forall k k' n, events l k = Some k' -> k_task k = Begin n \/ (exists e, k_task k = Sleeping e) -> ended k' \/ k_task k' = Begin n \/ (exists e, k_task k' = Sleeping e).
Proof.
  induction l as [|ev l IH]; intros k k' n H Tk; cbn [events] in H; [injection H as <-; auto|].
  destruct (happen ev k) as [k1|] eqn:E; [|discriminate].
  assert (X : k_task k1 = k_task k \/ exists v, k1 = returned v (at_pc 0 (ints (k_ints k) false (at_pc (S (k_pc k)) k)))).
  { destruct ev; cbn [happen] in E.
    - destruct (_ && _) in E; [discriminate|]. injection E as <-. auto.
    - destruct (may_serve k); [|discriminate]. injection E as <-. auto.
    - destruct (may_serve k); [discriminate|]. assert (G : execute k = Some k1) by (unfold instruction in E; destruct (k_task k); try exact E; discriminate).
      unfold execute in G. destruct (k_pc k) as [|[|[|[|[|[|[|[|[|[|[|[|[|[|m]]]]]]]]]]]]]]; [..|discriminate]; try (injection G as <-; left; reflexivity).
      destruct (_ =? _) in G; injection G as <-; [right; eexists; reflexivity|left; reflexivity].
    - injection E as <-. auto. }
  destruct X as [X|[v X]].
  - apply (IH k1 k' n H). rewrite X. exact Tk.
  - assert (Y : ended k1 \/ exists e, k_task k1 = Sleeping e).
    { subst k1. unfold ended, returned. cbn [k_task set_task at_pc ints k_abort]. destruct Tk as [-> |[e ->]]; [right; eexists; reflexivity|]. destruct (_ && _); [right|left]; eexists; reflexivity. }
    destruct Y as [[w Y]|Y]; [left; exists w; apply (done_stays l k1 k' w Y H)|apply (IH k1 k' n H); right; exact Y].
Qed.
