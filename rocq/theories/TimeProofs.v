(** snek_ticks under interrupts. *)
From Coq Require Import ZArith Lia List Bool.
From Verif Require Import Base TimeModel TimeSpec.
Import ListNotations.
Local Open Scope Z_scope.

Lemma word_eq x : word x <-> 0 <= x < 4294967296.
Proof. reflexivity. Qed.
Ltac dm := unfold put_byte, byte in *; change (256 ^ 0) with 1 in *; change (256 ^ 1) with 256 in *; change (256 ^ 2) with 65536 in *; change (256 ^ 3) with 16777216 in *; change (256 ^ 4) with 4294967296 in *.
Lemma put0 x y : word x -> word y -> word (put_byte 0 x y) /\ (put_byte 0 x y) mod 256 = x mod 256.
Proof. rewrite !word_eq. intros X Y. dm. rewrite !Z.div_1_r, Z.mul_1_r. pose proof (Z.div_mod y 256). pose proof (Z.mod_pos_bound x 256). pose proof (Z.mod_pos_bound y 256).
  assert (E : y + (x mod 256 - y mod 256) = x mod 256 + y / 256 * 256) by lia. rewrite E, Z_mod_plus_full, Z.mod_mod by lia. split; [|reflexivity].
  assert (0 <= y / 256 < 16777216) by (split; [apply Z.div_pos; lia|apply Z.div_lt_upper_bound; lia]). rewrite ?word_eq. lia. Qed.
Lemma put_any p q x y : 0 < p -> p * 256 * q = 4294967296 -> 0 < q -> word x -> word y -> y mod p = x mod p ->
  let z := y + (x / p mod 256 - y / p mod 256) * p in word z /\ z mod (p * 256) = x mod (p * 256).
Proof.
  rewrite !word_eq. intros P Q Qp X Y E z.
  pose proof (Z.div_mod y p ltac:(lia)) as Dy. pose proof (Z.div_mod (y / p) 256 ltac:(lia)) as Dy2. pose proof (Z.mod_pos_bound (x / p) 256 ltac:(lia)) as Bx. pose proof (Z.mod_pos_bound y p P) as By.
  assert (z = (y mod p + p * (x / p mod 256)) + (y / p / 256) * (p * 256)) as -> by (subst z; clear - Dy Dy2; generalize dependent (y mod p); generalize dependent (y / p); intros yp Dy2 ym Dy; generalize dependent (yp / 256); generalize dependent (yp mod 256); intros r q Dy2; subst yp y; ring).
  assert (M : (y mod p + p * (x / p mod 256)) = x mod (p * 256)) by (rewrite E; rewrite Z.rem_mul_r by lia; reflexivity). rewrite M.
  rewrite Z_mod_plus_full, Z.mod_mod by lia. split; [|reflexivity].
  pose proof (Z.mod_pos_bound x (p * 256) ltac:(lia)). rewrite Z.div_div by lia.
  assert (Hq : 0 <= y / (p * 256) < q) by (split; [apply Z.div_pos; lia|apply Z.div_lt_upper_bound; lia]).
  assert (Hm : (y / (p * 256)) * (p * 256) <= p * 256 * q - p * 256) by (replace (p * 256 * q - p * 256) with ((q - 1) * (p * 256)) by ring; apply Z.mul_le_mono_nonneg_r; lia).
  assert (0 <= (y / (p * 256)) * (p * 256)) by (apply Z.mul_nonneg_nonneg; lia). rewrite word_eq. lia.
Qed.
Lemma put1 x y : word x -> word y -> y mod 256 = x mod 256 -> word (put_byte 1 x y) /\ (put_byte 1 x y) mod 65536 = x mod 65536.
Proof. intros X Y E. apply (put_any 256 65536 x y); [lia|reflexivity|lia|exact X|exact Y|exact E]. Qed.
Lemma put2 x y : word x -> word y -> y mod 65536 = x mod 65536 -> word (put_byte 2 x y) /\ (put_byte 2 x y) mod 16777216 = x mod 16777216.
Proof. intros X Y E. apply (put_any 65536 256 x y); [lia|reflexivity|lia|exact X|exact Y|exact E]. Qed.
Lemma put3 x y : word x -> word y -> y mod 16777216 = x mod 16777216 -> put_byte 3 x y = x.
Proof.
  intros X Y E. destruct (put_any 16777216 1 x y ltac:(lia) eq_refl ltac:(lia) X Y E) as [W M].
  change (put_byte 3 x y) with (y + (x / 16777216 mod 256 - y / 16777216 mod 256) * 16777216). rewrite word_eq in W, X.
  change (16777216 * 256) with 4294967296 in M. rewrite (Z.mod_small _ _ W), (Z.mod_small _ _ X) in M. exact M.
Qed.

(** interrupts served since the start *)
Definition served (k : clock) : Z := k_now k / 256 - Z.b2z (k_over k).
Definition flags (k : clock) : Prop :=
  match k_pc k with
  | 0%nat | 7%nat => k_ints k = true /\ k_shadow k = false
  | 6%nat | 13%nat => k_ints k = true /\ k_shadow k = true
  | 1%nat | 2%nat | 3%nat | 4%nat | 5%nat | 8%nat | 9%nat | 10%nat | 11%nat | 12%nat => k_ints k = false /\ k_shadow k = false
  | _ => False
  end.
Definition base (T : Z) (k : clock) : Prop :=
  0 <= T <= k_now k /\ k_tocks k = served k mod 2 ^ 32 /\ 0 <= served k /\ word (k_before k) /\ word (k_after k) /\ 0 <= k_cnt k < 256 /\ flags k.
(** [B]: what is in tocks_before, before it is cut to 32 bits; [t]: when the
    counter was read *)
Definition sampled (T : Z) (k : clock) (t B : Z) : Prop :=
  T <= t <= k_now k /\ k_cnt k = t mod 256 /\ k_before k = B mod 2 ^ 32 /\ t / 256 - 1 <= B <= t / 256 /\ B <= served k.
Definition ahead (k : clock) (t B : Z) : Prop := B < t / 256 -> t / 256 <= served k.
Definition place (T : Z) (k : clock) : Prop :=
  match k_pc k with
  | 2%nat => k_before k mod 256 = k_tocks k mod 256
  | 3%nat => k_before k mod 65536 = k_tocks k mod 65536
  | 4%nat => k_before k mod 16777216 = k_tocks k mod 16777216
  | 5%nat | 6%nat => k_before k = k_tocks k
  | 7%nat => exists t B, sampled T k t B /\ (ahead k t B \/ k_over k = true)
  | 8%nat => exists t B, sampled T k t B /\ ahead k t B
  | 9%nat => exists t B, sampled T k t B /\ ahead k t B /\ k_after k mod 256 = k_tocks k mod 256
  | 10%nat => exists t B, sampled T k t B /\ ahead k t B /\ k_after k mod 65536 = k_tocks k mod 65536
  | 11%nat => exists t B, sampled T k t B /\ ahead k t B /\ k_after k mod 16777216 = k_tocks k mod 16777216
  | 12%nat => exists t B, sampled T k t B /\ ahead k t B /\ k_after k = k_tocks k
  | 13%nat => exists t B A, sampled T k t B /\ k_after k = A mod 2 ^ 32 /\ (B < t / 256 -> t / 256 <= A) /\ A <= k_now k / 256
  | _ => True
  end.
Definition inv (T : Z) (k : clock) : Prop := base T k /\ place T k.

Lemma tocks_word T k : base T k -> word (k_tocks k).
Proof. intros (_ & -> & _). rewrite word_eq. change (2 ^ 32) with 4294967296. apply Z.mod_pos_bound. lia. Qed.

Ltac kcbn := cbn [k_now k_over k_tocks k_ints k_shadow k_pc k_before k_after k_cnt k_task k_abort k_calls] in *.
Lemma count_served k : 0 <= k_now k -> ((k_now k + 1) mod 256 =? 0) && k_over k = false ->
  (k_now k + 1) / 256 - Z.b2z (k_over k || ((k_now k + 1) mod 256 =? 0)) = served k.
Proof.
  intros P H. unfold served. pose proof (Z.div_mod (k_now k) 256 ltac:(lia)) as D. pose proof (Z.mod_pos_bound (k_now k) 256 ltac:(lia)).
  pose proof (Z.div_mod (k_now k + 1) 256 ltac:(lia)) as D'. pose proof (Z.mod_pos_bound (k_now k + 1) 256 ltac:(lia)).
  destruct (Z.eqb_spec ((k_now k + 1) mod 256) 0) as [E|E]; destruct (k_over k); try discriminate; cbn [orb Z.b2z]; lia.
Qed.
Lemma pc_cases T k : base T k -> (k_pc k < 14)%nat.
Proof. intros (_ & _ & _ & _ & _ & _ & F). unfold flags in F. destruct (k_pc k) as [|[|[|[|[|[|[|[|[|[|[|[|[|[|n]]]]]]]]]]]]]]; [lia..|destruct F]. Qed.
Lemma place_mono T k k' : k_pc k' = k_pc k -> k_before k' = k_before k -> k_after k' = k_after k -> k_cnt k' = k_cnt k -> k_tocks k' = k_tocks k ->
  served k' = served k -> k_now k <= k_now k' -> (k_over k = true -> k_over k' = true) -> place T k -> place T k'.
Proof.
  intros Ep Eb Ea Ec Et Sv Nn Ov P.
  assert (Dn : k_now k / 256 <= k_now k' / 256) by (apply Z.div_le_mono; lia).
  assert (Sm : forall t B, sampled T k t B -> sampled T k' t B) by (intros t B0 (a & b & c & d & e); unfold sampled; rewrite Sv, Ec, Eb; repeat split; try assumption; first [apply a|apply d|lia]).
  assert (Ah : forall t B, ahead k t B -> ahead k' t B) by (intros t B0 h; unfold ahead; rewrite Sv; exact h).
  unfold place in *. rewrite Ep, Eb, Ea, Et.
  destruct (k_pc k) as [|[|[|[|[|[|[|[|[|[|[|[|[|[|n]]]]]]]]]]]]]]; try exact P.
  1: destruct P as (t & B & P1 & [P2|P2]); exists t, B; auto.
  1: destruct P as (t & B & P1 & P2); exists t, B; auto.
  1-4: destruct P as (t & B & P1 & P2 & P3); exists t, B; auto.
  destruct P as (t & B & A & P1 & P2 & P3 & P4). exists t, B, A. split; [apply Sm, P1|]. split; [exact P2|]. split; [exact P3|lia].
Qed.
Lemma count_inv T k k' : inv T k -> happen Count k = Some k' -> inv T k'.
Proof.
  intros [(A & B & C & D & E & F & G) P] H. cbn [happen] in H. destruct (((k_now k + 1) mod 256 =? 0) && k_over k) eqn:Eb; [discriminate|].
  pose proof (count_served k ltac:(lia) Eb) as V. injection H as <-.
  match goal with |- inv T ?x => set (k' := x) end.
  assert (Sv : served k' = served k) by exact V. split.
  - unfold base. rewrite Sv. repeat split; kcbn; try assumption; try apply A; try apply F; try apply D; try apply E; subst k'; kcbn; lia.
  - apply (place_mono T k k'); try reflexivity; try assumption; subst k'; kcbn; [lia|intros ->; reflexivity].
Qed.
Lemma stop_inv T k k' : inv T k -> happen Stop k = Some k' -> inv T k'.
Proof. intros [A P] H. injection H as <-. split; [exact A|]. apply (place_mono T k); try reflexivity; try assumption. intro H; exact H. Qed.
Lemma serve_inv T k k' : inv T k -> happen Serve k = Some k' -> inv T k'.
Proof.
  intros [(A & B & C & D & E & F & G) P] H. cbn [happen] in H. destruct (may_serve k) eqn:Em; [|discriminate]. injection H as <-.
  unfold may_serve in Em. apply andb_prop in Em as [Em Es]. apply andb_prop in Em as [Eo Ei]. apply negb_true_iff in Es.
  match goal with |- inv T ?x => set (k' := x) end.
  assert (Sv : served k' = served k + 1) by (unfold served; subst k'; kcbn; rewrite Eo; cbn [Z.b2z]; lia). split.
  - unfold base. rewrite Sv. split; [exact A|]. split.
    { subst k'. kcbn. unfold wrapu. rewrite B. apply Z.add_mod_idemp_l. discriminate. }
    split; [lia|]. repeat (split; [assumption|]). exact G.
  - unfold flags in G. unfold place in *. change (k_pc k') with (k_pc k).
    destruct (k_pc k) as [|[|[|[|[|[|[|[|[|[|[|[|[|[|n]]]]]]]]]]]]]]; try exact I; try (destruct G; congruence).
    destruct P as (t & B0 & (S1 & S2 & S3 & S4 & S5) & _). exists t, B0. split; [repeat split; try assumption; try apply S1; try apply S4; lia|].
    left. intros _. rewrite Sv. unfold served. rewrite Eo. cbn [Z.b2z]. assert (t / 256 <= k_now k / 256) by (apply Z.div_le_mono; lia). lia.
Qed.
(** what snek_ticks returns *)
Definition result (k : clock) : Z := Z.lor (wrapu 32 (Z.shiftl (k_before k) 8)) (k_cnt k).
Lemma result_val k t B : k_before k = B mod 2 ^ 32 -> k_cnt k = t mod 256 -> B = t / 256 -> result k = t mod 2 ^ 32.
Proof.
  intros Hb Hc ->. unfold result, wrapu. rewrite Hb, Hc, Z.shiftl_mul_pow2 by lia. change (2 ^ 8) with 256. change (2 ^ 32) with 4294967296.
  set (q := t / 256). assert (E : ((q mod 4294967296) * 256) mod 4294967296 = (q mod 16777216) * 256).
  { rewrite Zmult_mod_idemp_l. change 4294967296 with (16777216 * 256). apply Z.mul_mod_distr_r; lia. }
  rewrite E. assert (L : Z.lor (q mod 16777216 * 256) (t mod 256) = q mod 16777216 * 256 + t mod 256).
  { rewrite <- Z.lxor_lor; [symmetry; apply Z.add_nocarry_lxor|];
    (apply Z.bits_inj'; intros i Hi; rewrite Z.land_spec, Z.bits_0; change 256 with (2 ^ 8); destruct (Z.ltb_spec i 8);
     [rewrite Z.mul_pow2_bits_low by lia; reflexivity|rewrite Z.mod_pow2_bits_high by lia; apply andb_false_r]). }
  rewrite L. subst q. change 4294967296 with (256 * 16777216). rewrite Z.rem_mul_r by lia. lia.
Qed.
Lemma back_inv T T' k k' : base T k -> k_pc k = 13%nat -> 0 <= T' <= k_now k -> k_now k' = k_now k -> k_over k' = k_over k -> k_tocks k' = k_tocks k -> k_before k' = k_before k -> k_after k' = k_after k -> k_cnt k' = k_cnt k ->
  k_ints k' = k_ints k -> k_shadow k' = false -> k_pc k' = 0%nat -> inv T' k'.
Proof.
  intros (A & B & C & D & E & F & G) Pc T0 En Eo Et Eb Ea Ec Ei Es Ep. unfold flags in G. rewrite Pc in G. split; [|unfold place; rewrite Ep; exact I].
  assert (Sv : served k' = served k) by (unfold served; rewrite En, Eo; reflexivity). unfold base. rewrite Sv, En, Et, Eb, Ea, Ec.
  repeat (split; [assumption|]). unfold flags. rewrite Ep, Ei, Es. split; [apply G|reflexivity].
Qed.
(** an instruction that is not a return *)
Lemma move_base T k k' : base T k -> k_now k' = k_now k -> k_over k' = k_over k -> k_tocks k' = k_tocks k -> word (k_before k') -> word (k_after k') -> 0 <= k_cnt k' < 256 -> flags k' -> base T k'.
Proof.
  intros (A & B & C & _) En Eo Et Hb Ha Hc F. assert (Sv : served k' = served k) by (unfold served; rewrite En, Eo; reflexivity).
  unfold base. rewrite Sv, En, Et. repeat (split; [assumption|]). exact F.
Qed.
Definition stays (k k' : clock) : Prop := k_now k' = k_now k /\ k_over k' = k_over k /\ k_tocks k' = k_tocks k /\ k_task k' = k_task k /\ k_calls k' = k_calls k /\ k_abort k' = k_abort k.
Lemma instr_inv T k k' : inv T k -> may_serve k = false -> execute k = Some k' ->
  inv T k' /\ stays k k' \/
  k_pc k = 13%nat /\ k_before k = k_after k /\ k' = returned (result k) (at_pc 0 (ints (k_ints k) false (at_pc 14 k))).
Proof.
  intros [A P] Em H. pose proof A as (A1 & A2 & A3 & A4 & A5 & A6 & A7). pose proof (tocks_word T k A) as W.
  unfold execute in H. unfold place in P. unfold flags in A7.
  assert (Mv : forall x, k_now x = k_now k -> k_over x = k_over k -> k_tocks x = k_tocks k -> word (k_before x) -> word (k_after x) -> 0 <= k_cnt x < 256 -> flags x -> base T x) by (intros; eapply move_base; eauto).
  assert (Ah : forall x t B, k_now x = k_now k -> k_over x = k_over k -> ahead k t B -> ahead x t B) by (intros x t B E1 E2 h; unfold ahead, served in *; rewrite E1, E2; exact h).
  assert (Sm : forall x t B, k_now x = k_now k -> k_over x = k_over k -> k_cnt x = k_cnt k -> k_before x = k_before k -> sampled T k t B -> sampled T x t B) by (intros x t B E1 E2 E3 E4 h; unfold sampled, served in *; rewrite E1, E2, E3, E4; exact h).
  destruct (k_pc k) as [|[|[|[|[|[|[|[|[|[|[|[|[|[|n]]]]]]]]]]]]]] eqn:Ep; [..|destruct A7].
  all: try (injection H as <-; left; split; [split|repeat split; fail]).
  all: try (destruct (k_before k =? k_after k) eqn:Eb; [injection H as <-; right|injection H as <-; left; split; [split|repeat split; fail]]).
  all: try match goal with |- base _ _ => apply Mv; try reflexivity; try assumption; try (split; first [reflexivity|apply A7]) end.
  - exact I.
  - apply put0; assumption.
  - apply put0; assumption.
  - apply put1; assumption.
  - apply put1; assumption.
  - apply put2; assumption.
  - apply put2; assumption.
  - cbn [k_before set_before]. rewrite put3; assumption.
  - unfold place. cbn [k_pc set_before ints at_pc]. cbn [k_before k_tocks set_before ints at_pc]. rewrite put3; [reflexivity|assumption..].
  - exact P.
  - cbn [k_cnt set_cnt]. apply Z.mod_pos_bound. lia.
  - change (exists t B, sampled T (set_cnt (k_now k mod 256) (ints (k_ints k) false (at_pc 7 k))) t B /\ (ahead (set_cnt (k_now k mod 256) (ints (k_ints k) false (at_pc 7 k))) t B \/ k_over k = true)).
    exists (k_now k), (served k). assert (Sv : served (set_cnt (k_now k mod 256) (ints (k_ints k) false (at_pc 7 k))) = served k) by reflexivity.
    split.
    + unfold sampled. rewrite Sv. cbn [k_now k_cnt k_before set_cnt ints at_pc]. split; [lia|]. split; [reflexivity|]. split; [rewrite P; exact A2|].
      unfold served. destruct (k_over k); cbn [Z.b2z]; lia.
    + destruct (k_over k) eqn:Eo; [right; reflexivity|left]. unfold ahead. rewrite Sv. unfold served. rewrite Eo. cbn [Z.b2z]. lia.
  - destruct P as (t & B & P1 & P2). exists t, B. split; [apply Sm; [reflexivity..|exact P1]|]. destruct P2 as [P2|P2]; [apply Ah; [reflexivity..|exact P2]|].
    exfalso. unfold may_serve in Em. destruct A7 as [I1 I2]. rewrite P2, I1, I2 in Em. discriminate.
  - apply put0; assumption.
  - destruct P as (t & B & P1 & P2). exists t, B. split; [apply Sm; [reflexivity..|exact P1]|]. split; [apply Ah; [reflexivity..|exact P2]|]. apply put0; assumption.
  - destruct P as (t & B & P1 & P2 & P3). apply put1; assumption.
  - destruct P as (t & B & P1 & P2 & P3). exists t, B. split; [apply Sm; [reflexivity..|exact P1]|]. split; [apply Ah; [reflexivity..|exact P2]|]. apply put1; assumption.
  - destruct P as (t & B & P1 & P2 & P3). apply put2; assumption.
  - destruct P as (t & B & P1 & P2 & P3). exists t, B. split; [apply Sm; [reflexivity..|exact P1]|]. split; [apply Ah; [reflexivity..|exact P2]|]. apply put2; assumption.
  - destruct P as (t & B & P1 & P2 & P3). cbn [k_after set_after]. rewrite put3; assumption.
  - destruct P as (t & B & P1 & P2 & P3). exists t, B. split; [apply Sm; [reflexivity..|exact P1]|]. split; [apply Ah; [reflexivity..|exact P2]|]. cbn [k_after k_tocks set_after ints at_pc]. rewrite put3; [reflexivity|assumption..].
  - destruct P as (t & B & P1 & P2 & P3). exists t, B, (served k). split; [apply Sm; [reflexivity..|exact P1]|]. split; [cbn [k_after ints at_pc]; rewrite P3; exact A2|].
    split; [exact P2|]. cbn [k_now ints at_pc]. unfold served. destruct (k_over k); cbn [Z.b2z]; lia.
  - split; [reflexivity|]. split; [apply Z.eqb_eq, Eb|reflexivity].
  - exact I.
Qed.
Lemma return_val T k : inv T k -> k_pc k = 13%nat -> k_before k = k_after k -> k_now k - T < 2 ^ 32 ->
  exists t, T <= t <= k_now k /\ result k = t mod 2 ^ 32.
Proof.
  intros [A P] Ep E L. unfold place in P. rewrite Ep in P. destruct P as (t & B & A0 & (S1 & S2 & S3 & S4 & S5) & P2 & P3 & P4).
  exists t. split; [exact S1|]. apply (result_val k t B S3 S2). destruct (Z.eq_dec B (t / 256)) as [|N]; [assumption|exfalso].
  specialize (P3 ltac:(lia)). rewrite S3, P2 in E.
  assert (D : (A0 - B) mod 2 ^ 32 = 0) by (rewrite Zminus_mod, E, Z.sub_diag; reflexivity).
  assert (H : 0 < A0 - B < 2 ^ 32); [|rewrite Z.mod_small in D by lia; lia].
  split; [lia|]. change (2 ^ 32) with 4294967296 in *. destruct A as ((A1 & A1') & _).
  assert (k_now k / 256 <= t / 256 + 4294967296 / 256).
  { replace (t / 256 + 4294967296 / 256) with ((t + 16777216 * 256) / 256) by (rewrite Z.div_add by lia; reflexivity). apply Z.div_le_mono; lia. }
  change (4294967296 / 256) with 16777216 in *. lia.
Qed.
