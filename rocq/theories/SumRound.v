(** Rounding a sum kept as a list of numbers. *)
From Coq Require Import ZArith Reals Lia Lra Bool List.
From Flocq Require Import Core.
From Verif Require Import SumInt SumExact.
Import ListNotations.
Local Open Scope Z_scope.

Lemma fits_grid z : fits z <-> (2 ^ ex z | z).
Proof. split; [|apply rnd_fix]. intros H. pose proof (rnd_grid z) as G. unfold fits in H. now rewrite H in G. Qed.
Lemma ex_double z : ex (2 * z) <= ex z + 1.
Proof.
  unfold ex. rewrite Z.abs_mul. destruct (Z.eq_dec z 0) as [->|N]; [cbn; lia|].
  change (Z.abs 2) with 2. rewrite Z.log2_double by lia. lia.
Qed.
Lemma fits_double z : fits z -> fits (2 * z).
Proof.
  rewrite !fits_grid. intros [k E]. pose proof (ex_double z). pose proof (ex_nonneg z). pose proof (ex_nonneg (2 * z)).
  apply (divide_le _ (ex z + 1)); [lia|]. exists k. rewrite Z.pow_add_r by lia. lia.
Qed.
Lemma fits_0 : fits 0.
Proof. now apply rnd_small. Qed.
Lemma rnd_mono a b : a <= b -> rnd a <= rnd b.
Proof.
  intros H. apply le_IZR. apply Rmult_le_reg_r with unit; [apply unit_pos|]. rewrite <- !rnd_round.
  apply round_le; [apply FLT_exp_valid; reflexivity|apply valid_rnd_N|]. apply Rmult_le_compat_r; [left; apply unit_pos|now apply IZR_le].
Qed.
Lemma rnd_bound z b : fits b -> Z.abs z <= b -> Z.abs (rnd z) <= b.
Proof.
  intros F H. pose proof (rnd_mono z b ltac:(lia)). pose proof (rnd_mono (- b) z ltac:(lia)). rewrite rnd_opp in *. unfold fits in F. lia.
Qed.
(** the parts of a sum are no larger than the sum and the first operand *)
Lemma parts_bound x y : fits x -> fits y -> Z.abs y <= Z.abs x ->
  Z.abs (rnd (rnd (x + y) - x)) <= Z.max (Z.abs (rnd (x + y))) (Z.abs x) /\ Z.abs (x + y - rnd (x + y)) <= Z.abs y.
Proof.
  intros X Y L. split; [|pose proof (error_small x y X Y); lia].
  assert (B : Z.abs (rnd (x + y) - x) <= Z.max (Z.abs (rnd (x + y))) (Z.abs x)).
  { unfold fits in *. destruct (Z.le_gt_cases 0 x), (Z.le_gt_cases 0 y).
    - pose proof (rnd_mono x (x + y) ltac:(lia)). lia.
    - pose proof (rnd_mono (x + y) x ltac:(lia)). pose proof (rnd_mono 0 (x + y) ltac:(lia)). pose proof fits_0. unfold fits in *. lia.
    - pose proof (rnd_mono x (x + y) ltac:(lia)). pose proof (rnd_mono (x + y) 0 ltac:(lia)). pose proof fits_0. unfold fits in *. lia.
    - pose proof (rnd_mono (x + y) x ltac:(lia)). lia. }
  destruct (Z.max_spec (Z.abs (rnd (x + y))) (Z.abs x)) as [[_ E]|[_ E]]; rewrite E in *; (apply rnd_bound; [|exact B]);
    [|pose proof (rnd_fits (x + y)) as X']; destruct (Z.abs_spec x) as [[_ Q]|[_ Q]]; destruct (Z.abs_spec (rnd (x + y))) as [[_ Q']|[_ Q']];
    rewrite ?Q, ?Q'; auto using fits_opp.
Qed.

(** ** The last part of the code, on integers *)
Definition error (x y : Z) : Z := rnd (y - rnd (rnd (x + y) - x)).
(** [d]: largest first *)
Fixpoint coll (hi lo : Z) (d : list Z) : Z * Z * list Z :=
  match d with
  | [] => (hi, lo, [])
  | y :: r => let lo := error hi y in if lo =? 0 then coll (rnd (hi + y)) lo r else (rnd (hi + y), lo, r)
  end.
Definition finish (hi lo : Z) (r : list Z) : Z :=
  match r with
  | [] => hi
  | p :: _ =>
      if ((lo <? 0) && (p <? 0)) || ((0 <? lo) && (0 <? p)) then
        let y := rnd (lo * 2) in
        let x := rnd (hi + y) in
        if y =? rnd (x - hi) then x else hi
      else hi
  end.
Definition final (d : list Z) : Z :=
  match d with [] => 0 | hi :: d => let '(hi, lo, r) := coll hi 0 d in finish hi lo r end.

Lemma sum_top low y up : apart (low ++ y :: up) -> up <> [] -> Z.abs y < Z.abs (sum up).
Proof.
  intros A N. destruct (apart_app _ _ A) as [_ (_ & (u & U & L & D) & A')].
  assert (sum up <> 0).
  { destruct (exists_last N) as (up' & q & ->). apply (apart_sign up' q A'). }
  apply sum_divide in D. destruct (Z.le_gt_cases (2 ^ u) (Z.abs (sum up))); [lia|]. now pose proof (multiple_small u _ U D ltac:(assumption)).
Qed.
Lemma hi_large z : z - rnd z <> 0 -> 2 * Z.abs (z - rnd z) <= Z.abs (rnd z).
Proof.
  intros N. assert (E : 0 < ex z).
  { destruct (Z.le_gt_cases (ex z) 0); [|assumption]. elim N. rewrite rnd_fix; [lia|]. pose proof (ex_nonneg z).
    replace (ex z) with 0 by lia. apply Z.divide_1_l. }
  pose proof (rnd_error z). assert (z <> 0) by (intros ->; now rewrite rnd_small in N).
  assert (L : Z.log2 (Z.abs z) = ex z + 23) by (unfold ex in *; lia).
  pose proof (Z.log2_spec (Z.abs z) ltac:(lia)) as [A _]. rewrite L in A.
  assert (2 ^ (ex z + 23) = 2 ^ ex z * 8388608) by (rewrite Z.pow_add_r by lia; reflexivity). lia.
Qed.
(** the test of the code *)
Lemma tie_test z : fits (z - rnd z) -> z - rnd z <> 0 -> let lo := z - rnd z in let hi := rnd z in
  (rnd (lo * 2) =? rnd (rnd (hi + rnd (lo * 2)) - hi)) = (2 * Z.abs lo =? 2 ^ ex z) /\
  (2 * Z.abs lo = 2 ^ ex z -> rnd (hi + rnd (lo * 2)) = hi + 2 * lo).
Proof.
  intros F N lo hi. pose proof (tie z N) as T. fold lo in T. fold hi in T. pose proof (hi_large z N) as L. fold lo in L. fold hi in L.
  pose proof (fits_double _ F) as F2. fold lo in F2. replace (lo * 2) with (2 * lo) by lia. rewrite F2.
  pose proof (two_sum hi (2 * lo) (rnd_fits z) F2 ltac:(lia)) as S. split.
  - destruct (Z.eqb_spec (2 * Z.abs lo) (2 ^ ex z)) as [Q|Q].
    + apply T in Q. rewrite Q. replace (hi + 2 * lo - hi) with (2 * lo) by lia. rewrite F2. apply Z.eqb_refl.
    + apply Z.eqb_neq. intro C. apply Q, T. rewrite <- C in S. rewrite Z.sub_diag, fits_0 in S. unfold fits. lia.
  - intros Q. apply T in Q. exact Q.
Qed.

Lemma coll_correct low : forall up lo, apart (low ++ up) -> Forall fits (low ++ up) -> up <> [] -> fits (sum up) ->
  (let '(hi, lo, r) := coll (sum up) lo (rev low) in finish hi lo r) = rnd (sum (low ++ up)).
Proof.
  induction low as [|y low IH] using rev_ind; intros up lo A F N FU.
  - cbn. symmetry. exact FU.
  - rewrite rev_unit. cbn [coll]. rewrite <- app_assoc in *. cbn [app] in *.
    pose proof (sum_top _ _ _ A N) as L. apply Forall_app in F. destruct F as [F1 F2]. inversion F2 as [|? ? FY F3]; subst.
    unfold error. rewrite two_sum by (auto; lia).
    assert (E : sum (y :: up) = sum up + y) by (cbn; lia).
    destruct (Z.eqb_spec (sum up + y - rnd (sum up + y)) 0) as [Z0|NZ].
    + replace (rnd (sum up + y)) with (sum (y :: up)) by lia. apply IH; auto.
      * apply Forall_app; auto.
      * discriminate.
      * unfold fits. rewrite E. lia.
    + set (z := sum up + y) in *. assert (FE : fits (z - rnd z)) by (apply error_fits'; auto).
      destruct low as [|p0 low' _] using rev_ind.
      * cbn [rev finish app]. now rewrite E.
      * rewrite rev_unit. cbn [finish].
        assert (NL : low' ++ [p0] <> []) by (destruct low'; discriminate).
        destruct (apart_sum _ _ A NL) as (u & U & LU & DU). apply sum_divide in DU. rewrite E in DU.
        destruct (apart_sign low' p0) as [SG SN]; [now apply apart_app in A|].
        rewrite (sum_app _ (y :: up)), E, (Z.add_comm (sum (low' ++ [p0])) z). rewrite (rnd_near z _ u U DU NZ LU SN), SG.
        destruct (tie_test z FE NZ) as [T1 T2]. rewrite T1.
        assert (B : ((z - rnd z <? 0) && (p0 <? 0) || (0 <? z - rnd z) && (0 <? p0)) = (Z.sgn (z - rnd z) =? Z.sgn p0)).
        { pose proof (apart_last low' p0 ltac:(now apply apart_app in A)).
          destruct (Z.ltb_spec (z - rnd z) 0), (Z.ltb_spec p0 0), (Z.ltb_spec 0 (z - rnd z)), (Z.ltb_spec 0 p0), (Z.eqb_spec (Z.sgn (z - rnd z)) (Z.sgn p0)); cbn; lia. }
        rewrite B. destruct (_ =? Z.sgn p0); rewrite ?andb_false_r, ?andb_true_r; [|reflexivity].
        destruct (Z.eqb_spec (2 * Z.abs (z - rnd z)) (2 ^ ex z)) as [Q|Q]; [now apply T2|reflexivity].
Qed.
Theorem final_correct ps : apart ps -> Forall fits ps -> final (rev ps) = rnd (sum ps).
Proof.
  destruct ps as [|q ps _] using rev_ind; intros A F.
  - cbn. symmetry. apply fits_0.
  - rewrite rev_unit. unfold final. pose proof (coll_correct ps [q] 0 A F) as H.
    apply Forall_app in F. destruct F as [_ F]. inversion F; subst. cbn [sum] in H. rewrite Z.add_0_r in H. apply H; [discriminate|assumption].
Qed.
