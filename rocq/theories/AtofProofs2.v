(** The number read from a text. *)
From Coq Require Import ZArith Reals Lia Lra Bool List.
From Flocq Require Import IEEE754.BinarySingleNaN IEEE754.Binary IEEE754.Bits Core Relative.
From Verif Require Import Base FloatModel MathModel MathSpec MathProofs AtofModel AtofProofs AtofFloat.
Import ListNotations.
Local Open Scope R_scope.
Local Open Scope outcome_scope.

Lemma while_once p f e x : (0 < p)%Z -> (0 <= e < 2 * p)%Z ->
  mul_while (Z.to_nat e) p f e x = Ok (if (p <=? e)%Z then (fmul x f, (e - p)%Z) else (x, e)).
Proof.
  intros P E. destruct (Z.to_nat e) as [|n] eqn:N; cbn [mul_while].
  - destruct (Z.leb_spec p e); [lia|reflexivity].
  - destruct (Z.leb_spec p e); [|reflexivity]. destruct n; cbn [mul_while]; (destruct (Z.leb_spec p (e - p)); [lia|reflexivity]).
Qed.
Lemma while_ends p f : (0 < p)%Z -> forall n e x, (e <= Z.of_nat n)%Z -> exists y e', mul_while n p f e x = Ok (y, e') /\ (e' <= e)%Z /\ (0 <= e -> 0 <= e')%Z.
Proof.
  intros P. induction n as [|n IH]; intros e x E; cbn [mul_while].
  - destruct (Z.leb_spec p e); [lia|]. exists x, e. repeat split; lia.
  - destruct (Z.leb_spec p e); [|exists x, e; repeat split; lia].
    destruct (IH (e - p)%Z (fmul x f) ltac:(lia)) as (y & e' & -> & L & N). exists y, e'. repeat split; lia.
Qed.
Lemma all_ends t : Forall (fun e => (0 < fst e)%Z) t -> forall e x, (0 <= e)%Z -> exists y, mul_all t e x = Ok y.
Proof.
  induction 1 as [|[p f] t P F IH]; intros e x E; cbn [mul_all]; [eauto|]. cbn [fst] in P.
  destruct (while_ends p f P (Z.to_nat e) e x ltac:(lia)) as (y & e' & -> & L & N). cbn [obind]. apply IH. lia.
Qed.
Lemma scale_ends x e : (Z.abs e < 32768)%Z -> exists f, scale x e = Ok f.
Proof.
  intros E. unfold scale. destruct (negb _); [|eauto]. destruct (Z.ltb_spec e 0).
  - rewrite sint16 by lia. cbn [obind]. apply all_ends; [repeat constructor|lia].
  - apply all_ends; [repeat constructor|lia].
Qed.

(** ** Accuracy *)
Fixpoint pows (k : nat) (t : list (Z * float)) : Prop :=
  match k, t with O, [] => True | S k, (q, _) :: t => q = (2 ^ Z.of_nat k)%Z /\ pows k t | _, _ => False end.
Lemma ten_ge1 e : (0 <= e)%Z -> 1 <= bpow ten e.
Proof. intros H. change 1 with (bpow ten 0). now apply bpow_le. Qed.
Lemma ten_le1 e : (e <= 0)%Z -> bpow ten e <= 1.
Proof. intros H. change 1 with (bpow ten 0). now apply bpow_le. Qed.
Lemma all_near s V : (s = 1 \/ s = -1)%Z -> low <= V <= high -> forall k t m e x v, good s t -> pows k t -> (0 <= e < 2 ^ Z.of_nat k)%Z ->
  (m + 2 * k <= 13)%nat -> f_is_finite x = true -> near m (val x) v -> low <= v <= high -> v * bpow ten (s * e) = V ->
  exists y, mul_all t e x = Ok y /\ f_is_finite y = true /\ near 13 (val y) V.
Proof.
  intros S R. pose proof low_pos as LP. induction k as [|k IH]; intros t m e x v G H E M FX N B Q; (destruct t as [|[q f] t]; cbn [pows] in H; try tauto); cbn [mul_all].
  - change (2 ^ Z.of_nat 0)%Z with 1%Z in E. assert (e = 0)%Z by lia. subst e. exists x. rewrite Z.mul_0_r in Q. cbn [bpow] in Q. rewrite Rmult_1_r in Q. subst V.
    repeat split; auto. apply (near_more m); [lra|lia|exact N].
  - destruct H as (-> & H). inversion G as [|? ? [FF NF] G']; subst. cbn [fst snd] in *.
    rewrite Nat2Z.inj_succ, Z.pow_succ_r in E by lia. assert (P : (0 < 2 ^ Z.of_nat k)%Z) by (apply Z.pow_pos_nonneg; lia). set (p := (2 ^ Z.of_nat k)%Z) in *.
    rewrite while_once by lia. destruct (Z.leb_spec p e) as [L|L]; cbn [obind].
    + assert (W0 : 0 < bpow ten (s * p)) by apply bpow_gt_0.
      assert (QQ : v * bpow ten (s * p) * bpow ten (s * (e - p)) = v * bpow ten (s * e)).
      { rewrite Rmult_assoc, <- bpow_plus. do 2 f_equal. lia. }
      assert (B' : low <= v * bpow ten (s * p) <= high).
      { pose proof (bpow_gt_0 ten (s * (e - p))). destruct S as [-> | ->].
        - pose proof (ten_ge1 (1 * p) ltac:(lia)). pose proof (ten_ge1 (1 * (e - p)) ltac:(lia)). rewrite <- QQ in R. split; nra.
        - pose proof (ten_le1 (-1 * p) ltac:(lia)). pose proof (ten_le1 (-1 * (e - p)) ltac:(lia)). rewrite <- QQ in R. split; nra. }
      destruct (fmul_near m x v f (bpow ten (s * p))) as [F' N']; auto; try lia; try lra.
      apply (IH t (Datatypes.S (Datatypes.S m)) (e - p)%Z (fmul x f) (v * bpow ten (s * p))); auto; lia.
    + apply (IH t m e x v); auto; lia.
Qed.
Lemma of_Z_near x : (0 < x < 2 ^ 32)%Z -> f_is_finite (f_of_Z x) = true /\ val (f_of_Z x) = rnd32 (IZR x) /\ near 1 (val (f_of_Z x)) (IZR x).
Proof.
  intros X. pose proof (binary_normalize_correct 24 128 prec24 prec24_emax mode_NE x 0 false) as C.
  change (SpecFloat.fexp 24 128) with (FLT_exp (-149) 24) in C. cbn [round_mode] in C.
  assert (E : F2R (Float radix2 x 0) = IZR x) by (unfold F2R; cbn; ring). rewrite E in C.
  assert (X1 : 1 <= IZR x) by (apply IZR_le; lia). assert (X2 : IZR x <= 4294967296) by (apply IZR_le; change (2 ^ 32)%Z with 4294967296%Z in X; lia).
  assert (L : bpow radix2 (-126) <= Rabs (IZR x)).
  { rewrite Rabs_pos_eq by lra. apply Rle_trans with 1; [change 1 with (bpow radix2 0); apply bpow_le; lia|exact X1]. }
  pose proof (rnd_rel (IZR x) L) as RR. rewrite (Rabs_pos_eq (IZR x)), u_val in RR by lra. apply Rabs_le_inv in RR.
  rewrite Rlt_bool_true in C.
  - destruct C as (B & F & _). unfold f_of_Z, f_is_finite. rewrite F, B. repeat split. unfold near. rewrite pow_1, u_val. apply Rabs_le. lra.
  - rewrite Rabs_pos_eq by lra. apply Rle_lt_trans with (bpow radix2 34); [|apply bpow_lt; lia]. change (bpow radix2 34) with 17179869184. lra.
Qed.
Lemma feq_zero f : f_is_finite f = true -> val f <> 0 -> feq f f_zero = false.
Proof.
  intros F N. unfold feq, b32_compare. rewrite Bcompare_correct by (auto; reflexivity). cbn [B2R f_zero].
  destruct (Rcompare_spec (val f) 0); congruence.
Qed.
Lemma low_1 : low <= 1.
Proof. unfold low. assert (bpow radix2 (-126) <= / 2) by (change (/ 2) with (bpow radix2 (-1)); apply bpow_le; lia). pose proof (bpow_gt_0 radix2 (-126)). nra. Qed.
Lemma high_32 : 4294967296 <= high.
Proof. unfold high. assert (bpow radix2 33 <= bpow radix2 128) by (apply bpow_le; lia). change (bpow radix2 33) with 8589934592 in *. nra. Qed.
Theorem scale_near x e : (0 < x < 2 ^ 32)%Z -> low <= IZR x * bpow ten e <= high ->
  exists f, scale x e = Ok f /\ f_is_finite f = true /\ near 13 (val f) (IZR x * bpow ten e).
Proof.
  intros X R. destruct (of_Z_near x X) as (F & E & N). pose proof low_1. pose proof high_32.
  assert (X1 : 1 <= IZR x) by (apply IZR_le; lia). assert (X2 : IZR x <= 4294967296) by (apply IZR_le; change (2 ^ 32)%Z with 4294967296%Z in X; lia).
  assert (NZ : val (f_of_Z x) <> 0) by (pose proof (near_bound 1 (val (f_of_Z x)) (IZR x) ltac:(lra) ltac:(lia) N); lra).
  assert (EB : (-64 < e < 64)%Z).
  { split.
    - destruct (Z.lt_ge_cases (-64) e); [assumption|exfalso]. assert (bpow ten e <= bpow ten (-64)) by (apply bpow_le; lia).
      assert (T : bpow ten (-64) * 4294967296 < bpow radix2 (-126)).
      { change (bpow ten (-64)) with (/ IZR (10 ^ 64)). change (bpow radix2 (-126)) with (/ IZR (2 ^ 126)).
        apply Rmult_lt_reg_r with (IZR (10 ^ 64) * IZR (2 ^ 126)); [rewrite <- mult_IZR; apply IZR_lt; reflexivity|].
        replace (/ IZR (10 ^ 64) * 4294967296 * (IZR (10 ^ 64) * IZR (2 ^ 126))) with (IZR (4294967296 * 2 ^ 126)) by (rewrite mult_IZR; field; apply IZR_neq; discriminate).
        replace (/ IZR (2 ^ 126) * (IZR (10 ^ 64) * IZR (2 ^ 126))) with (IZR (10 ^ 64)) by (field; apply IZR_neq; discriminate).
        apply IZR_lt. reflexivity. }
      pose proof (bpow_gt_0 ten e). pose proof (bpow_gt_0 radix2 (-126)). unfold low in R.
      assert (IZR x * bpow ten e <= 4294967296 * bpow ten (-64)) by (apply Rmult_le_compat; lra). nra.
    - destruct (Z.lt_ge_cases e 64); [assumption|exfalso]. assert (bpow ten 64 <= bpow ten e) by (apply bpow_le; lia).
      assert (T : bpow radix2 128 < bpow ten 64) by (apply IZR_lt; reflexivity).
      pose proof (bpow_gt_0 radix2 128). unfold high in R. nra. }
  unfold scale. rewrite (feq_zero _ F NZ). cbn [negb]. destruct (Z.ltb_spec e 0).
  - rewrite sint16 by lia. cbn [obind].
    apply (all_near (-1) _ ltac:(lia) R 6 pwr_m10 1 (- e)%Z (f_of_Z x) (IZR x)); auto using m10_good; try lia; try lra.
    + cbn. tauto.
    + now replace (-1 * - e)%Z with e by lia.
  - apply (all_near 1 _ ltac:(lia) R 6 pwr_p10 1 e (f_of_Z x) (IZR x)); auto using p10_good; try lia; try lra.
    + cbn. tauto.
    + now rewrite Z.mul_1_l.
Qed.

(** what the text denotes *)
Definition denotes ds frac ex : R := IZR (num (mantissa ds frac)) * bpow ten (power ex - places frac).
Lemma mantissa_digits ds frac ex : well_formed ds frac ex -> Forall digit (mantissa ds frac).
Proof. intros (A & B & _). unfold mantissa. apply Forall_app. split; [exact A|]. destruct frac; [exact B|constructor]. Qed.
Lemma read_num pre x d : Forall digit pre -> read pre x d -> 
  (x * 10 ^ d <= num pre < (x + 1) * 10 ^ d)%Z /\ (0 <= d)%Z /\ (0 <= x < 2 ^ 32)%Z /\ (d = 0 \/ limit <= x)%Z.
Proof.
  intros F (k & dr & -> & -> & -> & X & L). apply Forall_app in F. destruct F as [F1 F2].
  pose proof (num_app k dr F2 ltac:(lia)). repeat split; try lia. destruct dr; [left; reflexivity|right; apply L; discriminate].
Qed.
Theorem atoff_near has_float ds frac ex junk : well_formed ds frac ex -> (Z.of_nat (length (mantissa ds frac)) < 768)%Z ->
  bpow radix2 (-126) * (1 + / 262144) <= denotes ds frac ex <= bpow radix2 128 * (1 - / 262144) ->
  exists f, atoff has_float (text ds frac ex ++ 0%Z :: junk) = Ok f /\ f_is_finite f = true /\
    Rabs (val f - denotes ds frac ex) <= 15 * u * denotes ds frac ex.
Proof.
  intros W L R. destruct (atoff_reads has_float ds frac ex junk W L) as (x & d & e & RD & PR & ->).
  pose proof (mantissa_digits _ _ _ W) as FM. destruct (read_num _ _ _ FM RD) as (NB & D0 & X & DL).
  pose proof (bpow_gt_0 radix2 (-126)) as P0. pose proof (bpow_gt_0 radix2 128) as P1.
  set (n := num (mantissa ds frac)) in *.
  assert (T10 : (0 < 10 ^ d)%Z) by (apply Z.pow_pos_nonneg; lia).
  assert (PL : (0 <= places frac < 768)%Z) by (unfold mantissa, places in *; destruct frac; [rewrite app_length in L|]; lia).
  assert (NN : (0 < n)%Z).
  { destruct (Z.lt_ge_cases 0 n); [assumption|exfalso]. assert (n = 0)%Z by (pose proof (num_nonneg _ FM); fold n in H0; lia).
    unfold denotes in R. fold n in R. rewrite H0, Rmult_0_l in R. nra. }
  assert (X0 : (0 < x)%Z). { destruct (Z.eq_dec x 0) as [->|]; [|lia]. unfold limit in DL. destruct DL as [->|]; [change (10 ^ 0)%Z with 1%Z in NB|]; lia. }
  assert (NT : (n < 10 ^ 768)%Z).
  { pose proof (num_from_le _ FM 0 ltac:(lia)) as [_ B]. fold (num (mantissa ds frac)) in B. fold n in B.
    pose proof (Z.pow_le_mono_r 10 (Z.of_nat (length (mantissa ds frac))) 768 ltac:(lia) ltac:(lia)). lia. }
  (* the exponent was read exactly *)
  assert (EQ : e = power ex).
  { assert (HUGE : (Z.abs (power ex) < 32000)%Z).
    { destruct (Z.lt_ge_cases (Z.abs (power ex)) 32000); [assumption|exfalso]. unfold denotes in R. fold n in R.
      assert (N1 : 1 <= IZR n) by (apply IZR_le; lia).
      assert (N2 : IZR n <= bpow ten 768).
      { rewrite <- (IZR_Zpower ten) by lia. apply IZR_le. change (Zpower ten 768) with (10 ^ 768)%Z. lia. }
      destruct (Z.le_gt_cases 0 (power ex)).
      - assert (A : bpow ten 39 <= bpow ten (power ex - places frac)) by (apply bpow_le; lia).
        assert (T : bpow radix2 128 < bpow ten 39) by (apply IZR_lt; reflexivity). nra.
      - assert (A : bpow ten (power ex - places frac) <= bpow ten (-32000)) by (apply bpow_le; lia).
        assert (B : bpow ten 768 * bpow ten (-32000) <= bpow ten (-38)) by (rewrite <- bpow_plus; apply bpow_le; lia).
        assert (T : bpow ten (-38) < bpow radix2 (-126)).
        { change (bpow ten (-38)) with (/ IZR (10 ^ 38)). change (bpow radix2 (-126)) with (/ IZR (2 ^ 126)).
          apply Rinv_lt_contravar; [rewrite <- mult_IZR|]; apply IZR_lt; reflexivity. }
        pose proof (bpow_gt_0 ten (power ex - places frac)).
        assert (IZR n * bpow ten (power ex - places frac) <= bpow ten 768 * bpow ten (-32000)) by (apply Rmult_le_compat; lra). nra. }
    destruct W as (_ & _ & WE). clear -PR HUGE WE. unfold power, power_read, clamp in *. destruct ex as [[[m s] es]|]; [|exact PR].
    destruct WE as (_ & _ & F). pose proof (num_nonneg es F). destruct s; (destruct (Z.ltb_spec (num es) 3200); [lia|]); lia. }
  subst e.
  (* the value read is at most a little less *)
  set (v := IZR x * bpow ten (d - places frac + power ex)).
  assert (BD : v <= denotes ds frac ex <= v * (1 + / 268435456)).
  { unfold denotes, v. fold n. replace (d - places frac + power ex)%Z with (d + (power ex - places frac))%Z by lia.
    rewrite bpow_plus, <- (IZR_Zpower ten d) by lia. change (Zpower ten d) with (10 ^ d)%Z. set (w := bpow ten (power ex - places frac)).
    assert (W0 : 0 < w) by apply bpow_gt_0. rewrite <- Rmult_assoc, <- mult_IZR. split.
    - apply Rmult_le_compat_r; [lra|]. apply IZR_le. lia.
    - replace (IZR (x * 10 ^ d) * w * (1 + / 268435456)) with ((IZR (x * 10 ^ d) * (1 + / 268435456)) * w) by ring.
      apply Rmult_le_compat_r; [lra|]. destruct DL as [->|LX].
      + change (10 ^ 0)%Z with 1%Z in *. assert (n = x)%Z by lia. subst x. rewrite Z.mul_1_r. assert (0 < IZR n) by (apply IZR_lt; lia). lra.
      + assert (H : (n * 268435456 <= x * 10 ^ d * 268435457)%Z) by (unfold limit in LX; nia). apply IZR_le in H. rewrite !(mult_IZR _ 268435456), (mult_IZR _ 268435457) in H. lra. }
  assert (V0 : 0 < v) by (unfold v; apply Rmult_lt_0_compat; [apply IZR_lt; lia|apply bpow_gt_0]).
  destruct (scale_near x (d - places frac + power ex)) as (f & E & F & N); [lia| |].
  { fold v. unfold low, high. split; nra. }
  exists f. split; [exact E|]. split; [exact F|]. fold v in N. unfold near in N. pose proof (pow_small 13 ltac:(lia)) as PS.
  replace (INR 13) with 13 in PS by (cbn; lra). set (t := denotes ds frac ex) in *.
  assert (N' : Rabs (val f - v) <= 13 * (65 / 64) * u * v) by (eapply Rle_trans; [exact N|]; apply Rmult_le_compat_r; lra).
  rewrite u_val in *. apply Rabs_le_inv in N'. apply Rabs_le. lra.
Qed.
