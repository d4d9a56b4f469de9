(** Sums kept as a list of numbers whose digits do not overlap (Shewchuk). *)
From Coq Require Import ZArith Reals Lia Lra Bool List.
From Flocq Require Import Core.
From Verif Require Import SumInt.
Import ListNotations.
Local Open Scope Z_scope.

Fixpoint sum (l : list Z) : Z := match l with [] => 0 | x :: l => x + sum l end.
Lemma sum_app a b : sum (a ++ b) = sum a + sum b.
Proof. induction a; cbn; lia. Qed.

(** Smallest first, none zero, each below the last digit of those after it *)
Fixpoint apart (ps : list Z) : Prop :=
  match ps with
  | [] => True
  | p :: r => p <> 0 /\ (exists u, 0 <= u /\ Z.abs p < 2 ^ u /\ Forall (fun q => (2 ^ u | q)) r) /\ apart r
  end.
Lemma sum_divide d l : Forall (fun q => (d | q)) l -> (d | sum l).
Proof. induction 1; cbn; [apply Z.divide_0_r|]. now apply Z.divide_add_r. Qed.
Lemma divide_le u v z : 0 <= u <= v -> (2 ^ v | z) -> (2 ^ u | z).
Proof. intros H D. eapply Z.divide_trans; [|exact D]. now apply pow_divide. Qed.
Lemma multiple_small u z : 0 <= u -> (2 ^ u | z) -> Z.abs z < 2 ^ u -> z = 0.
Proof. intros H [k E] L. subst. pose proof (pow_pos u H). destruct (Z.eq_dec k 0) as [->|N]; [reflexivity|]. rewrite Z.abs_mul, (Z.abs_eq (2 ^ u)) in L by lia. nia. Qed.
Lemma multiple_gap u v z : 0 <= u <= v -> (2 ^ u | z) -> Z.abs z < 2 ^ v -> Z.abs z <= 2 ^ v - 2 ^ u.
Proof.
  intros H [k E] L. replace v with (u + (v - u)) in * by lia. rewrite Z.pow_add_r in * by lia.
  pose proof (pow_pos u ltac:(lia)). pose proof (pow_pos (v - u) ltac:(lia)). subst. rewrite Z.abs_mul, (Z.abs_eq (2 ^ u)) in * by lia.
  assert (Z.abs k < 2 ^ (v - u)) by nia. nia.
Qed.

Lemma apart_app ps qs : apart (ps ++ qs) -> apart ps /\ apart qs.
Proof.
  induction ps as [|p ps IH]; cbn; [tauto|]. intros (N & (u & U & L & D) & A). destruct (IH A) as [A1 A2].
  apply Forall_app in D. repeat split; auto. exists u. tauto.
Qed.
(** the sum of the lower ones is below the last digit of the upper ones *)
Lemma apart_sum ps qs : apart (ps ++ qs) -> ps <> [] -> exists u, 0 <= u /\ Z.abs (sum ps) < 2 ^ u /\ Forall (fun q => (2 ^ u | q)) qs.
Proof.
  induction ps as [|p ps IH]; [congruence|]. cbn [app apart]. intros (N & (u & U & L & D) & A) _.
  destruct ps as [|p' ps].
  - exists u. cbn. rewrite Z.add_0_r. auto.
  - destruct (IH A) as (v & V & L' & D'); [discriminate|]. apply Forall_app in D. destruct D as [D1 D2].
    pose proof (sum_divide _ _ D1) as S. set (t := sum (p' :: ps)) in *.
    change (sum (p :: p' :: ps)) with (p + t).
    destruct (Z.le_gt_cases u v).
    + exists v. split; [exact V|]. split; [|exact D']. pose proof (multiple_gap u v t ltac:(lia) S L'). lia.
    + exists u. split; [exact U|]. split; [|exact D2].
      assert (t = 0); [|lia]. apply (multiple_small u); auto. pose proof (Z.pow_le_mono_r 2 v u ltac:(lia) ltac:(lia)). lia.
Qed.
Lemma apart_last ps q : apart (ps ++ [q]) -> q <> 0.
Proof. intros A. apply apart_app in A. cbn in A. tauto. Qed.
Lemma apart_sign ps q : apart (ps ++ [q]) -> Z.sgn (sum (ps ++ [q])) = Z.sgn q /\ sum (ps ++ [q]) <> 0.
Proof.
  intros A. pose proof (apart_last _ _ A) as N. rewrite sum_app. cbn [sum]. rewrite Z.add_0_r.
  destruct ps as [|p ps]; [cbn; auto|].
  destruct (apart_sum _ _ A) as (u & U & L & D); [discriminate|]. inversion D as [|? ? [k E] _]; subst.
  set (t := sum (p :: ps)) in *. pose proof (pow_pos u U).
  assert (k <> 0) by (intros ->; lia).
  assert (2 ^ u <= Z.abs (k * 2 ^ u)) by (rewrite Z.abs_mul, (Z.abs_eq (2 ^ u)) by lia; assert (1 <= Z.abs k) by lia; nia).
  split; lia.
Qed.

(** ** Adding one *)
Fixpoint grow (x : Z) (ps : list Z) : list Z * Z :=
  match ps with
  | [] => ([], x)
  | p :: ps =>
      let hi := rnd (x + p) in let lo := x + p - hi in
      let (l, q) := grow hi ps in
      ((if lo =? 0 then l else lo :: l), q)
  end.
Definition add (x : Z) (ps : list Z) : list Z := let (l, q) := grow x ps in if q =? 0 then l else l ++ [q].

Lemma grow_sum ps : forall x, sum (fst (grow x ps)) + snd (grow x ps) = x + sum ps.
Proof.
  induction ps as [|p ps IH]; intro x; cbn [grow]; [cbn; lia|].
  specialize (IH (rnd (x + p))). destruct (grow (rnd (x + p)) ps) as [l q]. cbn [fst snd sum] in *.
  destruct (Z.eqb_spec (x + p - rnd (x + p)) 0); cbn [sum]; lia.
Qed.
Lemma add_sum x ps : sum (add x ps) = x + sum ps.
Proof.
  unfold add. pose proof (grow_sum ps x) as H. destruct (grow x ps) as [l q]. cbn [fst snd] in H.
  destruct (Z.eqb_spec q 0); [lia|]. rewrite sum_app. cbn. lia.
Qed.
Lemma grow_divide u ps : 0 <= u -> forall x, (2 ^ u | x) -> Forall (fun q => (2 ^ u | q)) ps ->
  Forall (fun q => (2 ^ u | q)) (fst (grow x ps)) /\ (2 ^ u | snd (grow x ps)).
Proof.
  intros U. induction ps as [|p ps IH]; intros x X F; cbn [grow]; [now cbn|].
  inversion F as [|? ? P F']; subst. assert (D : (2 ^ u | x + p)) by now apply Z.divide_add_r.
  pose proof (rnd_divide u _ U D) as R. destruct (IH _ R F') as [A B].
  destruct (grow (rnd (x + p)) ps) as [l q]. cbn [fst snd] in *. split; [|exact B].
  destruct (_ =? 0); [exact A|]. constructor; [|exact A]. now apply Z.divide_sub_r.
Qed.
Lemma error_fits x y : fits x -> fits y -> Z.abs y <= Z.abs x -> fits (x + y - rnd (x + y)).
Proof. intros X Y L. rewrite <- two_sum by assumption. apply rnd_fits. Qed.
Lemma error_fits' x y : fits x -> fits y -> fits (x + y - rnd (x + y)).
Proof.
  intros X Y. destruct (Z.le_gt_cases (Z.abs y) (Z.abs x)); [now apply error_fits|].
  replace (x + y) with (y + x) by lia. apply error_fits; auto. lia.
Qed.
Lemma grow_fits ps : forall x, fits x -> Forall fits ps -> Forall fits (fst (grow x ps)) /\ fits (snd (grow x ps)).
Proof.
  induction ps as [|p ps IH]; intros x X F; cbn [grow]; [now cbn|].
  inversion F as [|? ? P F']; subst. destruct (IH _ (rnd_fits (x + p)) F') as [A B].
  destruct (grow (rnd (x + p)) ps) as [l q]. cbn [fst snd] in *. split; [|exact B].
  destruct (_ =? 0); [exact A|]. constructor; [|exact A]. now apply error_fits'.
Qed.
Lemma grow_length ps : forall x, (length (fst (grow x ps)) <= length ps)%nat.
Proof.
  induction ps as [|p ps IH]; intro x; cbn [grow]; [cbn; lia|]. specialize (IH (rnd (x + p))).
  destruct (grow (rnd (x + p)) ps) as [l q]. cbn [fst length] in *. destruct (_ =? 0); cbn [length]; lia.
Qed.
Lemma grow_apart ps : forall x, fits x -> Forall fits ps -> apart ps -> apart (add x ps).
Proof.
  unfold add. induction ps as [|p ps IH]; intros x X F A.
  - cbn. destruct (Z.eqb_spec x 0); cbn; [trivial|]. repeat split; auto. exists (Z.abs x).
    repeat split; auto with zarith. apply Z.pow_gt_lin_r; lia.
  - inversion F as [|? ? P F']; subst. destruct A as (N & (u & U & L & D) & A).
    specialize (IH _ (rnd_fits (x + p)) F' A). cbn [grow].
    set (hi := rnd (x + p)) in *. set (lo := x + p - hi) in *.
    assert (K : lo <> 0 -> exists v, 0 <= v /\ Z.abs lo < 2 ^ v /\ (2 ^ v | hi) /\ Forall (fun q => (2 ^ v | q)) ps).
    { intros NZ. exists (Z.min (ex (x + p)) u). pose proof (ex_nonneg (x + p)).
      pose proof (rnd_error (x + p)). fold hi in H0. fold lo in H0.
      pose proof (error_small x p X P) as S. fold hi in S. fold lo in S.
      split; [lia|]. split; [|split].
      - destruct (Z.min_spec (ex (x + p)) u) as [[_ ->]|[_ ->]]; lia.
      - apply (divide_le _ (ex (x + p))); [lia|]. apply rnd_grid.
      - eapply Forall_impl; [|exact D]. intros q Q. apply (divide_le _ u); [lia|exact Q]. }
    destruct (Z.eqb_spec lo 0) as [E|NZ].
    + destruct (grow hi ps) as [l q]. exact IH.
    + destruct (K NZ) as (v & V & LV & DH & DP). pose proof (grow_divide v ps V hi DH DP) as [G1 G2].
      destruct (grow hi ps) as [l q]. cbn [fst snd] in *.
      destruct (Z.eqb_spec q 0) as [Q|Q]; cbn [app apart]; (split; [exact NZ|]); (split; [|exact IH]); exists v; repeat split; auto.
      apply Forall_app. split; [exact G1|]. repeat constructor. exact G2.
Qed.
Lemma add_fits x ps : fits x -> Forall fits ps -> Forall fits (add x ps).
Proof.
  intros X F. unfold add. pose proof (grow_fits ps x X F) as [A B]. destruct (grow x ps) as [l q]. cbn [fst snd] in *.
  destruct (q =? 0); [exact A|]. apply Forall_app. auto.
Qed.

(** ** Rounding the sum *)
Lemma near_unique z n : 2 * Z.abs (z - 2 ^ ex z * n) < 2 ^ ex z -> rnd z = 2 ^ ex z * n.
Proof.
  intros H. unfold rnd. f_equal. apply Znearest_imp. pose proof (pow_pos (ex z) (ex_nonneg z)) as P. set (p := 2 ^ ex z) in *.
  assert (0 < IZR p)%R by (apply IZR_lt; exact P).
  replace (IZR z / IZR p - IZR n)%R with ((IZR z - IZR p * IZR n) / IZR p)%R by (field; lra).
  unfold Rdiv. rewrite Rabs_mult, (Rabs_pos_eq (/ IZR p)) by (left; now apply Rinv_0_lt_compat).
  apply Rmult_lt_reg_r with (IZR p); [assumption|]. rewrite Rmult_assoc, Rinv_l, Rmult_1_r by lra.
  apply IZR_lt in H. rewrite mult_IZR, abs_IZR, minus_IZR, mult_IZR in H. lra.
Qed.
(** what is known if the error is not zero *)
Lemma inexact z u : 0 <= u -> (2 ^ u | z) -> z - rnd z <> 0 -> 0 < z ->
  u < ex z /\ 2 ^ (ex z + 23) + 2 ^ u <= z <= 2 ^ (ex z + 24) - 2 ^ u.
Proof.
  intros U D N P. assert (u < ex z) as L.
  { destruct (Z.le_gt_cases (ex z) u); [|assumption]. elim N. rewrite rnd_fix; [lia|].
    apply (divide_le _ u); [pose proof (ex_nonneg z); lia|exact D]. }
  split; [exact L|].
  assert (E : Z.log2 z = ex z + 23) by (unfold ex in *; rewrite Z.abs_eq in * by lia; lia).
  pose proof (Z.log2_spec z P) as [A B]. rewrite E in A, B.
  replace (Z.succ (ex z + 23)) with (ex z + 24) in B by lia. pose proof (pow_pos u U).
  assert (z <> 2 ^ (ex z + 23)).
  { intro Q. elim N. rewrite rnd_fix; [lia|]. rewrite Q at 2. apply pow_divide. lia. }
  split.
  - assert (X : (2 ^ u | z - 2 ^ (ex z + 23))) by (apply Z.divide_sub_r; [exact D|apply pow_divide; lia]).
    apply Z.divide_pos_le in X; lia.
  - assert (X : (2 ^ u | 2 ^ (ex z + 24) - z)) by (apply Z.divide_sub_r; [apply pow_divide; lia|exact D]).
    apply Z.divide_pos_le in X; lia.
Qed.
Lemma ex_near z r u : 0 <= u -> (2 ^ u | z) -> z - rnd z <> 0 -> 0 < z -> Z.abs r < 2 ^ u -> ex (z + r) = ex z.
Proof.
  intros U D N P L. destruct (inexact z u U D N P) as [S [A B]].
  assert (Z.log2 (z + r) = ex z + 23).
  { apply Z.log2_unique; [pose proof (ex_nonneg z); lia|]. replace (Z.succ (ex z + 23)) with (ex z + 24) by lia. lia. }
  unfold ex at 1. pose proof (pow_pos (ex z + 23) ltac:(lia)). rewrite Z.abs_eq by lia. lia.
Qed.
Lemma rnd_near_pos z r u : 0 <= u -> (2 ^ u | z) -> z - rnd z <> 0 -> 0 < z -> Z.abs r < 2 ^ u -> r <> 0 ->
  rnd (z + r) = if (2 * Z.abs (z - rnd z) =? 2 ^ ex z) && (Z.sgn (z - rnd z) =? Z.sgn r) then rnd z + 2 * (z - rnd z) else rnd z.
Proof.
  intros U D N P L NR. pose proof (ex_near z r u U D N P L) as E. destruct (inexact z u U D N P) as [S _].
  pose proof (rnd_error z) as B. destruct (rnd_grid z) as [n G]. set (lo := z - rnd z) in *.
  pose proof (near_unique (z + r)) as Q. rewrite E in Q.
  assert (F : rnd z = 2 ^ ex z * n) by lia.
  destruct (Z.eqb_spec (2 * Z.abs lo) (2 ^ ex z)) as [T|T]; cbn [andb].
  - assert (Z.abs r < Z.abs lo).
    { assert (2 * 2 ^ u <= 2 * Z.abs lo); [|lia]. rewrite T. rewrite <- Z.pow_succ_r by lia. apply Z.pow_le_mono_r; lia. }
    assert (SL : 2 ^ ex z * Z.sgn lo = 2 * lo) by (rewrite <- T, <- Z.mul_assoc, Z.abs_sgn; reflexivity).
    assert (z = 2 ^ ex z * n + lo) by lia.
    destruct (Z.eqb_spec (Z.sgn lo) (Z.sgn r)) as [SG|SG].
    + rewrite (Q (n + Z.sgn lo)); rewrite Z.mul_add_distr_l, SL; lia.
    + rewrite (Q n); lia.
  - rewrite (Q n); [lia|]. assert (X : (2 ^ u | lo)) by (apply Z.divide_sub_r; [exact D|now apply rnd_divide]).
    assert (Z.abs lo <= 2 ^ (ex z - 1) - 2 ^ u).
    { apply multiple_gap; [lia|exact X|]. replace (ex z) with (Z.succ (ex z - 1)) in B, T by lia. rewrite Z.pow_succ_r in B, T by lia. lia. }
    replace (2 ^ ex z) with (2 * 2 ^ (ex z - 1)) in * by (rewrite <- Z.pow_succ_r by lia; f_equal; lia). lia.
Qed.
Lemma ex_opp z : ex (- z) = ex z.
Proof. unfold ex. now rewrite Z.abs_opp. Qed.
Lemma rnd_near z r u : 0 <= u -> (2 ^ u | z) -> z - rnd z <> 0 -> Z.abs r < 2 ^ u -> r <> 0 ->
  rnd (z + r) = if (2 * Z.abs (z - rnd z) =? 2 ^ ex z) && (Z.sgn (z - rnd z) =? Z.sgn r) then rnd z + 2 * (z - rnd z) else rnd z.
Proof.
  intros U D N L NR. destruct (Z.lt_trichotomy z 0) as [C|[C|C]].
  - pose proof (rnd_near_pos (- z) (- r) u U) as H. rewrite ex_opp, rnd_opp in H.
    replace (- z + - r) with (- (z + r)) in H by lia. rewrite rnd_opp in H.
    replace (- z - - rnd z) with (- (z - rnd z)) in H by lia. rewrite !Z.abs_opp, !Z.sgn_opp in H.
    assert (DD : (2 ^ u | - z)) by now apply Z.divide_opp_r.
    specialize (H DD ltac:(lia) ltac:(lia) L ltac:(lia)).
    replace (- Z.sgn (z - rnd z) =? - Z.sgn r) with (Z.sgn (z - rnd z) =? Z.sgn r) in H by (destruct (Z.eqb_spec (Z.sgn (z - rnd z)) (Z.sgn r)); symmetry; [apply Z.eqb_eq|apply Z.eqb_neq]; lia).
    destruct (_ && _); lia.
  - subst. elim N. now rewrite rnd_small.
  - now apply (rnd_near_pos z r u).
Qed.
Lemma between p n lo a b : 0 < p -> 2 * Z.abs lo <= p -> p * a + 1 <= n * p + lo <= p * b - 1 ->
  p * a <= n * p + 2 * lo <= p * b /\ (2 * Z.abs lo < p -> n * p + 2 * lo < p * b).
Proof.
  intros P L H. assert (a <= n) by nia. assert (n <= b) by nia.
  assert (p * a <= n * p + 2 * lo) by (destruct (Z.eq_dec n a); [subst; nia|assert (a + 1 <= n) by lia; nia]).
  assert (n * p + 2 * lo <= p * b) by (destruct (Z.eq_dec n b); [subst; nia|assert (n + 1 <= b) by lia; nia]).
  split; [lia|]. intros Q. destruct (Z.eq_dec n b); [subst; nia|assert (n + 1 <= b) by lia; nia].
Qed.
(** whether the error is half a digit can be seen by adding it twice *)
Lemma tie_pos z : z - rnd z <> 0 -> 0 < z -> (fits (rnd z + 2 * (z - rnd z)) <-> 2 * Z.abs (z - rnd z) = 2 ^ ex z).
Proof.
  intros N P. destruct (inexact z 0 ltac:(lia) (Z.divide_1_l z) N P) as [S [A B]]. rewrite Z.pow_0_r in *.
  pose proof (rnd_error z) as E. destruct (rnd_grid z) as [n G]. set (lo := z - rnd z) in *. set (e := ex z) in *.
  pose proof (pow_pos e ltac:(lia)) as PE.
  assert (P23 : 2 ^ (e + 23) = 2 ^ e * 8388608) by (rewrite Z.pow_add_r by lia; reflexivity).
  assert (P24 : 2 ^ (e + 24) = 2 ^ e * 16777216) by (rewrite Z.pow_add_r by lia; reflexivity).
  split.
  - intros F. destruct (Z.eq_dec (2 * Z.abs lo) (2 ^ e)) as [?|T]; [assumption|exfalso].
    assert (I : 2 ^ (e + 23) <= rnd z + 2 * lo < 2 ^ (e + 24)).
    { pose proof (between (2 ^ e) n lo 8388608 16777216 PE E ltac:(lia)) as [I1 I2]. specialize (I2 ltac:(lia)). lia. }
    assert (X : ex (rnd z + 2 * lo) = e).
    { unfold ex. rewrite Z.abs_eq by lia. rewrite (Z.log2_unique (rnd z + 2 * lo) (e + 23)); [lia|lia|].
      replace (Z.succ (e + 23)) with (e + 24) by lia. lia. }
    pose proof (rnd_grid (rnd z + 2 * lo)) as D. rewrite F, X in D.
    assert (D2 : (2 ^ e | 2 * lo)) by (apply (Z.divide_add_cancel_r _ (rnd z)); [exists n; lia|exact D]).
    assert (2 * lo = 0) by (apply (multiple_small e); [lia|exact D2|lia]). lia.
  - intros T. assert (I : 2 ^ (e + 23) <= rnd z + 2 * lo <= 2 ^ (e + 24)).
    { pose proof (between (2 ^ e) n lo 8388608 16777216 PE E ltac:(lia)) as [I1 _]. lia. }
    assert (SL : 2 ^ e * Z.sgn lo = 2 * lo) by (rewrite <- T, <- Z.mul_assoc, Z.abs_sgn; reflexivity).
    assert (M : rnd z + 2 * lo = (n + Z.sgn lo) * 2 ^ e) by lia.
    apply rnd_fix. destruct (Z.eq_dec (rnd z + 2 * lo) (2 ^ (e + 24))) as [Q|Q].
    + rewrite Q. apply pow_divide. split; [apply ex_nonneg|]. unfold ex. rewrite Z.abs_eq by lia. rewrite Z.log2_pow2 by lia. lia.
    + assert (X : ex (rnd z + 2 * lo) = e).
      { unfold ex. rewrite Z.abs_eq by lia. rewrite (Z.log2_unique (rnd z + 2 * lo) (e + 23)); [lia|lia|].
        replace (Z.succ (e + 23)) with (e + 24) by lia. lia. }
      rewrite X. exists (n + Z.sgn lo). exact M.
Qed.
Lemma fits_opp z : fits z -> fits (- z).
Proof. unfold fits. rewrite rnd_opp. lia. Qed.
Lemma tie z : z - rnd z <> 0 -> (fits (rnd z + 2 * (z - rnd z)) <-> 2 * Z.abs (z - rnd z) = 2 ^ ex z).
Proof.
  intros N. destruct (Z.lt_trichotomy z 0) as [C|[C|C]].
  - pose proof (tie_pos (- z)) as H. rewrite ex_opp, rnd_opp in H. replace (- z - - rnd z) with (- (z - rnd z)) in H by lia.
    rewrite Z.abs_opp in H. specialize (H ltac:(lia) ltac:(lia)). rewrite <- H.
    split; intros F; apply fits_opp in F; [replace (- rnd z + 2 * - (z - rnd z)) with (- (rnd z + 2 * (z - rnd z))) by lia; exact F|].
    replace (rnd z + 2 * (z - rnd z)) with (- (- rnd z + 2 * - (z - rnd z))) by lia. exact F.
  - subst. elim N. now rewrite rnd_small.
  - now apply tie_pos.
Qed.
