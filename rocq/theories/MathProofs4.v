(** The statements of MathProps.v. *)
From Coq Require Import ZArith Reals Lia Lra Bool List.
From Flocq Require Import IEEE754.BinarySingleNaN IEEE754.Binary IEEE754.Bits Core.
From Verif Require Import Base FloatModel MathModel MathSpec MathProofs MathProofs2 MathProofs3.
Import ListNotations.
Local Open Scope Z_scope.

Lemma is_int_by f z : f_is_finite f = true -> feq f (f_of_Z z) = true -> representable z -> is_int f z.
Proof.
  intros F E R. destruct (of_Z_int z R) as [G V]. split; [exact F|].
  unfold feq, b32_compare in E. unfold f_is_finite in *. rewrite Bcompare_correct in E by assumption.
  destruct (Rcompare (val f) (val (f_of_Z z))) eqn:K; try discriminate. apply Rcompare_Eq_inv in K. congruence.
Qed.

Lemma above_by f z : f_is_finite f = true -> flt (f_of_Z z) f = true -> representable z -> (IZR z < val f)%R.
Proof.
  intros F E R. destruct (of_Z_int z R) as [G V]. 
  unfold flt, b32_compare in E. unfold f_is_finite in *. rewrite Bcompare_correct in E by assumption.
  destruct (Rcompare (val (f_of_Z z)) (val f)) eqn:K; try discriminate. apply Rcompare_Lt_inv in K. congruence.
Qed.

Lemma small_int z : Z.abs z <=? 2 ^ 24 = true -> is_int (f_of_Z z) z.
Proof. intros H. apply of_Z_int, small_representable. apply Z.leb_le. exact H. Qed.

Lemma power_of_two k : 0 <= k < 128 -> representable (2 ^ k).
Proof.
  intros H. exists 1, k. assert (0 < 2 ^ k) by (apply Z.pow_pos_nonneg; lia).
  repeat split; try lia. rewrite Z.abs_eq by lia. apply Z.pow_lt_mono_r; lia.
Qed.

(** ** Division *)

Lemma floordiv_spec p a b x y : is_int a x -> is_int b y -> y <> 0 ->
  Z.abs x <= 2 ^ 24 -> Z.abs y <= 2 ^ 24 ->
  exists r q, num_binary p Ndiv a b = Ok (r, false) /\ is_int r q /\
    (IZR q <= IZR x / IZR y < IZR q + 1)%R.
Proof.
  intros Ha Hb Hy Hx Hys. eexists. exists (x / y). split; [reflexivity|]. split.
  - exact (floordiv_int a b x y Ha Hb Hy Hx Hys).
  - rewrite <- (Zfloor_div x y Hy). split; [apply Zfloor_lb|apply Zfloor_ub].
Qed.

Lemma mod_spec p a b x y : is_int a x -> is_int b y -> y <> 0 ->
  Z.abs x <= 2 ^ 24 -> Z.abs y <= 2 ^ 24 ->
  0 <= x * y \/ Z.abs x + Z.abs y <= 2 ^ 24 + 1 ->
  exists r m q, num_binary p Nmod a b = Ok (r, false) /\ is_int r m /\
    x = q * y + m /\ (0 <= m < y \/ y < m <= 0).
Proof.
  intros Ha Hb Hy Hx Hys H. eexists. exists (x mod y), (x / y). split; [reflexivity|]. split.
  - apply (mod_int a b x y Ha Hb Hy Hx Hys). apply small_representable. apply mod_same_sign; assumption.
  - split; [pose proof (Z.div_mod x y Hy); lia|]. apply Z.mod_bound_or. exact Hy.
Qed.

Lemma mod_wrong p : exists a b x y r, is_int a x /\ is_int b y /\ y <> 0 /\
  Z.abs x <= 2 ^ 24 /\ Z.abs y <= 2 ^ 24 /\
  num_binary p Nmod a b = Ok (r, false) /\ is_int r (x mod y - 1) /\ ~ is_int r (x mod y).
Proof.
  exists (f_of_Z (-16777215)), (f_of_Z 8388607), (-16777215), 8388607. eexists.
  split; [exact (small_int (-16777215) eq_refl)|]. split; [exact (small_int 8388607 eq_refl)|].
  split; [lia|]. split; [lia|]. split; [lia|]. split; [reflexivity|].
  match goal with |- is_int ?r _ /\ _ => assert (I : is_int r 8388605) end.
  { apply is_int_by; [vm_compute; reflexivity|vm_compute; reflexivity|]. apply small_representable. unfold small. lia. }
  change (-16777215 mod 8388607) with 8388606. split; [exact I|].
  intros J. pose proof (is_int_inj _ _ _ I J). lia.
Qed.

(** ** Bits *)

Section Bits.
  Variable p : float -> float -> outcome float.
  Variables a b : float.
  Variables x y : Z.
  Hypothesis Ha : is_int a x.
  Hypothesis Hb : is_int b y.

  Lemma land_spec : int25 x -> int25 y ->
    exists r z, num_binary p Nland a b = Ok (r, false) /\ is_int r z /\
      forall n, 0 <= n -> Z.testbit z n = andb (Z.testbit x n) (Z.testbit y n).
  Proof.
    intros Hx Hy.
    destruct (int_op_int (fun a b => Ok (Z.land a b)) a b x y (Z.land x y) Ha Hb) as (f & E & I); auto using int25_int32.
    - apply small_representable, int25_small, int25_land; assumption.
    - exists f, (Z.land x y). split; [exact E|]. split; [exact I|]. intros n _. apply Z.land_spec.
  Qed.
  Lemma lor_spec : int25 x -> int25 y ->
    exists r z, num_binary p Nlor a b = Ok (r, false) /\ is_int r z /\
      forall n, 0 <= n -> Z.testbit z n = orb (Z.testbit x n) (Z.testbit y n).
  Proof.
    intros Hx Hy.
    destruct (int_op_int (fun a b => Ok (Z.lor a b)) a b x y (Z.lor x y) Ha Hb) as (f & E & I); auto using int25_int32.
    - apply small_representable, int25_small, int25_lor; assumption.
    - exists f, (Z.lor x y). split; [exact E|]. split; [exact I|]. intros n _. apply Z.lor_spec.
  Qed.
  Lemma lxor_spec : int25 x -> int25 y ->
    exists r z, num_binary p Nlxor a b = Ok (r, false) /\ is_int r z /\
      forall n, 0 <= n -> Z.testbit z n = xorb (Z.testbit x n) (Z.testbit y n).
  Proof.
    intros Hx Hy.
    destruct (int_op_int (fun a b => Ok (Z.lxor a b)) a b x y (Z.lxor x y) Ha Hb) as (f & E & I); auto using int25_int32.
    - apply small_representable, int25_small, int25_lxor; assumption.
    - exists f, (Z.lxor x y). split; [exact E|]. split; [exact I|]. intros n _. apply Z.lxor_spec.
  Qed.

  Lemma lshift_spec : int32 x -> 0 <= y < 32 -> int32 (x * 2 ^ y) ->
    exists r, num_binary p Nlshift a b = Ok (r, false) /\ is_int r (x * 2 ^ y).
  Proof.
    intros Hx Hy Hr.
    apply (int_op_int shl32 a b x y (x * 2 ^ y) Ha Hb); auto.
    - unfold int32. lia.
    - unfold shl32. destruct (Z.leb_spec 0 y); [|lia]. destruct (Z.ltb_spec y 32); [|lia]. cbn [andb].
      rewrite Z.shiftl_mul_pow2, wraps_int32 by (assumption || lia). reflexivity.
    - apply shl_representable; [apply (is_int_representable a); exact Ha|lia|].
      unfold int32 in Hr. assert (2 ^ 31 < 2 ^ 128) by reflexivity. lia.
  Qed.
  Lemma rshift_spec : int32 x -> 0 <= y < 32 ->
    exists r, num_binary p Nrshift a b = Ok (r, false) /\ is_int r (x / 2 ^ y).
  Proof.
    intros Hx Hy.
    apply (int_op_int shr32 a b x y (x / 2 ^ y) Ha Hb); auto.
    - unfold int32. lia.
    - unfold shr32. destruct (Z.leb_spec 0 y); [|lia]. destruct (Z.ltb_spec y 32); [|lia]. cbn [andb].
      rewrite Z.shiftr_div_pow2 by lia. reflexivity.
    - apply shr_representable; [apply (is_int_representable a); exact Ha|lia].
  Qed.
End Bits.

Lemma shift_ub p : forall n, 32 <= n < 2 ^ 24 \/ - 2 ^ 24 < n < 0 ->
  exists b, is_int b n /\ num_binary p Nlshift (f_of_Z 1) b = UB /\ num_binary p Nrshift (f_of_Z 1) b = UB.
Proof.
  intros n H. assert (I : is_int (f_of_Z n) n) by (apply of_Z_int, small_representable; unfold small; lia).
  exists (f_of_Z n). split; [exact I|].
  assert (I1 : is_int (f_of_Z 1) 1) by (exact (small_int 1 eq_refl)).
  cbn [num_binary]. unfold int_op. rewrite (float_to_int_int _ 1 I1) by (unfold int32; lia). cbn [obind].
  rewrite (float_to_int_int _ n I) by (unfold int32; lia). cbn [obind].
  unfold shl32, shr32. 
  assert (E : (0 <=? n) && (n <? 32) = false).
  { apply andb_false_iff. destruct H; [right; apply Z.ltb_ge; lia|left; apply Z.leb_gt; lia]. }
  rewrite E. split; reflexivity.
Qed.

Lemma float_to_int_big a x : is_int a x -> ~ int32 x -> float_to_int a = UB.
Proof.
  intros I H. unfold float_to_int, f_to_sint. destruct I as [F V]. rewrite F.
  rewrite (trunc_int a x) by (split; assumption). unfold sint.
  destruct (in_sint 32 x) eqn:E; [|reflexivity]. exfalso. apply H.
  unfold in_sint in E. apply andb_prop in E as [E1 E2]. apply Z.leb_le in E1. apply Z.ltb_lt in E2. 
  unfold int32. change (32 - 1) with 31 in *. lia.
Qed.

Lemma range_ub p : forall op, In op [Nland; Nlor; Nlxor; Nlshift; Nrshift] ->
  exists a b, is_int a (2 ^ 31) /\ is_int b 1 /\ num_binary p op a b = UB.
Proof.
  intros op H. exists (f_of_Z (2 ^ 31)), (f_of_Z 1).
  assert (I : is_int (f_of_Z (2 ^ 31)) (2 ^ 31)) by (apply of_Z_int, power_of_two; lia).
  split; [exact I|]. split; [exact (small_int 1 eq_refl)|].
  assert (U : forall g, int_op g (f_of_Z (2 ^ 31)) (f_of_Z 1) = UB).
  { intros g. unfold int_op. rewrite (float_to_int_big _ _ I) by (unfold int32; lia). reflexivity. }
  cbn [In] in H. destruct H as [<-|[<-|[<-|[<-|[<-|[]]]]]]; apply U.
Qed.

Lemma fraction_reported p op a b : In op [Nland; Nlor; Nlxor; Nlshift; Nrshift] ->
  f_is_finite a = true -> (forall z, ~ is_int a z) ->
  forall r e, num_binary p op a b = Ok (r, e) -> e = true.
Proof.
  intros H F N r e E.
  assert (U : forall g, int_op g a b = Ok (r, e) -> e = true).
  { clear E. intros g E. unfold int_op in E. 
    destruct (float_to_int_frac a F N) as [K|[i K]]; rewrite K in E; cbn [obind] in E; [discriminate|].
    destruct (float_to_int b) as [[j eb]| |]; cbn [obind] in E; try discriminate.
    destruct (g i j); cbn [obind] in E; try discriminate. injection E as <- <-. reflexivity. }
  cbn [In] in H. destruct H as [<-|[<-|[<-|[<-|[<-|[]]]]]]; cbn [num_binary] in E; exact (U _ E).
Qed.

Lemma lnot_spec a x : is_int a x -> - 2 ^ 24 <= x < 0 ->
  exists r, num_lnot a = Ok (r, false) /\ is_int r (- x - 1).
Proof.
  intros Ha Hx. destruct (lnot_neg a x Ha) as (f & E & V & F); [lia|]. exists f. split; [exact E|].
  split; [exact F|]. rewrite V. apply representable_round, small_representable. unfold small. lia.
Qed.

Lemma lnot_wrong a x : is_int a x -> 0 <= x < 2 ^ 31 ->
  exists r, num_lnot a = Ok (r, false) /\ ~ is_int r (- x - 1).
Proof.
  intros Ha Hx. destruct (lnot_nonneg a x Ha Hx) as (f & E & F & V). exists f. split; [exact E|].
  intros [_ I]. rewrite I in V. apply le_IZR in V. lia.
Qed.

(** Reading a result by computation, without unfolding the float's proof. *)
Definition reads (o : outcome (float * bool)) (z : Z) : bool :=
  match o with Ok (r, false) => f_is_finite r && feq r (f_of_Z z) | _ => false end.
Lemma reads_int o z : reads o z = true -> representable z -> exists r, o = Ok (r, false) /\ is_int r z.
Proof.
  intros H R. destruct o as [[r [|]]| |]; try discriminate H. exists r. split; [reflexivity|].
  apply andb_prop in H as [F E]. apply is_int_by; assumption.
Qed.
Definition reads1 (o : outcome float) (z : Z) : bool :=
  match o with Ok r => f_is_finite r && feq r (f_of_Z z) | _ => false end.
Lemma reads1_int o z : reads1 o z = true -> representable z -> exists r, o = Ok r /\ is_int r z.
Proof.
  intros H R. destruct o as [r| |]; try discriminate H. exists r. split; [reflexivity|].
  apply andb_prop in H as [F E]. apply is_int_by; assumption.
Qed.
Lemma reports_error o : match o with Ok (_, true) => true | _ => false end = true -> exists r : float, o = Ok (r, true).
Proof. destruct o as [[r [|]]| |]; try discriminate. eauto. Qed.
Ltac int_example z := (apply reads_int || apply reads1_int); [vm_compute; reflexivity|].
Ltac by_small := apply small_representable; unfold small; lia.

Definition nopow (a b : float) : outcome float := UB.

Lemma bitwise_examples :
  (exists r, num_binary nopow Nland (f_of_Z (-2)) (f_of_Z 16777215) = Ok (r, false) /\ is_int r 16777214) /\
  (exists r, num_binary nopow Nlxor (f_of_Z 12) (f_of_Z 10) = Ok (r, false) /\ is_int r 6) /\
  (exists r, num_binary nopow Nlshift (f_of_Z (-3)) (f_of_Z 20) = Ok (r, false) /\ is_int r (-3145728)) /\
  (exists r, num_binary nopow Nlor (f_of_Z 1) (fdiv (f_of_Z 1) (f_of_Z 2)) = Ok (r, true)) /\
  (exists r, num_lnot (f_of_Z 5) = Ok (r, false) /\ is_int r 4294967296) /\
  (exists r, num_lnot (f_of_Z (-6)) = Ok (r, false) /\ is_int r 5).
Proof.
  split; [int_example 0; by_small|]. split; [int_example 0; by_small|]. split; [int_example 0; by_small|].
  split; [apply reports_error; vm_compute; reflexivity|].
  split; [int_example 0; exact (power_of_two 32 ltac:(lia))|]. int_example 0. by_small.
Qed.

(** ** Numbers *)

Lemma power_spec p rest a b x n : is_int a x -> is_int b n -> 0 <= n < 256 -> representable (x ^ n) ->
  p = snek_powf rest ->
  exists r, num_binary p Npow a b = Ok (r, false) /\ is_int r (x ^ n).
Proof.
  intros Ha Hb Hn R ->. destruct (powf_int rest a b x n Ha Hb Hn R) as (f & E & I).
  exists f. split; [|exact I]. cbn [num_binary]. rewrite E. reflexivity.
Qed.

Lemma gcd_unique x y g : greatest_common_divisor x y g -> g = Z.gcd x y.
Proof.
  intros (G0 & G1 & G2 & G3). apply Z.divide_antisym_nonneg; [exact G0|apply Z.gcd_nonneg| |].
  - apply Z.gcd_greatest; assumption.
  - apply G3; [apply Z.gcd_divide_l|apply Z.gcd_divide_r].
Qed.

Lemma gcd_common a b x y : is_int a x -> is_int b y -> Z.abs x < 2 ^ 31 -> Z.abs y < 2 ^ 31 ->
  x <> 0 -> y <> 0 -> (exists d, 1 < d /\ (d | x) /\ (d | y)) ->
  exists r g, gcdf a b = Ok r /\ is_int r g /\ greatest_common_divisor x y g.
Proof.
  intros Ha Hb Rx Ry Hx Hy (d & D1 & D2 & D3). apply (gcdf_int a b x y); try assumption.
  assert (D : (d | Z.gcd x y)) by (apply Z.gcd_greatest; assumption).
  assert (0 < Z.gcd x y).
  { pose proof (Z.gcd_nonneg x y). destruct (Z.eq_dec (Z.gcd x y) 0) as [E|]; [|lia].
    apply Z.gcd_eq_0_l in E. contradiction. }
  assert (d <= Z.gcd x y) by (apply Z.divide_pos_le; assumption). lia.
Qed.

Lemma gcd_coprime_wrong a b x y : is_int a x -> is_int b y -> 1 < x < 2 ^ 31 -> 1 < y < 2 ^ 31 ->
  (forall d, 0 < d -> (d | x) -> (d | y) -> d = 1) ->
  exists r, gcdf a b = Ok r /\ forall g, greatest_common_divisor x y g -> ~ is_int r g.
Proof.
  intros Ha Hb Hx Hy C.
  assert (E : Z.gcd x y = 1).
  { apply C; [|apply Z.gcd_divide_l|apply Z.gcd_divide_r].
    pose proof (Z.gcd_nonneg x y). destruct (Z.eq_dec (Z.gcd x y) 0) as [E|]; [|lia].
    apply Z.gcd_eq_0_l in E. lia. }
  destruct (gcdf_coprime a b x y Ha Hb Hx Hy E) as (f & F & N). exists f. split; [exact F|].
  intros g G. rewrite (gcd_unique x y g G), E. exact N.
Qed.

Lemma gcd_zero_wrong a b x : is_int a x -> is_int b 0 -> Z.abs x < 2 ^ 31 -> x <> 0 ->
  exists r, gcdf a b = Ok r /\ is_int r 0 /\ forall g, greatest_common_divisor x 0 g -> ~ is_int r g.
Proof.
  intros Ha Hb Hx N. exists f_zero.
  assert (I : is_int f_zero 0) by (split; reflexivity).
  split; [|split; [exact I|]].
  - unfold gcdf. rewrite (to_sint_int _ _ (abs_int a x Ha)) by (unfold int32; lia). cbn [obind].
    rewrite (to_sint_int _ _ (abs_int b 0 Hb)) by (unfold int32; lia). cbn [obind Z.abs Z.eqb].
    rewrite orb_true_r. reflexivity.
  - intros g G J. rewrite (gcd_unique x 0 g G), Z.gcd_0_r in J. pose proof (is_int_inj _ _ _ I J). lia.
Qed.

Lemma number_examples :
  (exists r, num_binary (snek_powf nopow) Npow (f_of_Z (-7)) (f_of_Z 8) = Ok (r, false) /\ is_int r 5764801) /\
  (exists r, num_binary (snek_powf nopow) Npow (f_of_Z 2) (f_of_Z 100) = Ok (r, false) /\ is_int r (2 ^ 100)) /\
  (exists r, factorialf (f_of_Z 13) = Ok r /\ is_int r 6227020800) /\
  (exists r, gcdf (f_of_Z 12) (f_of_Z (-18)) = Ok r /\ is_int r 6) /\
  (exists r, gcdf (f_of_Z 3) (f_of_Z 2) = Ok r /\ is_int r 2).
Proof.
  split; [int_example 0; by_small|].
  split; [int_example 0; exact (power_of_two 100 ltac:(lia))|].
  split; [int_example 0; exact (fact_representable 13 ltac:(lia))|].
  split; [int_example 0; by_small|]. int_example 0. by_small.
Qed.

(** ** Random numbers *)

Lemma randrange_spec a n r : is_int a n -> 1 <= n <= 2 ^ 24 ->
  exists v r' z, randrange a r = Ok (v, r') /\ is_int v z /\ 0 <= z < n.
Proof.
  intros H B. destruct (randrange_runs a n r H) as (z & E & Z); [lia|].
  exists (f_of_Z z), (next_random r), z. split; [exact E|]. split; [|exact Z]. apply (draw_in_range n); lia.
Qed.

Lemma small_randrange_spec a n r : is_int a n -> 1 <= n <= 2 ^ 24 ->
  exists v r' z, small_randrange a r = Ok (v, r') /\ is_int v z /\ 0 <= z < n.
Proof.
  intros H B. destruct (small_randrange_runs a n r H) as (z & E & Z); [lia|].
  exists (f_of_Z z), (small_next r), z. split; [exact E|]. split; [|exact Z]. apply (draw_in_range n); lia.
Qed.

Lemma randrange_upto a n r : is_int a n -> 1 <= n < 2 ^ 32 ->
  exists v r' x, randrange a r = Ok (v, r') /\ is_real v x /\ (0 <= x <= IZR n)%R.
Proof.
  intros H B. destruct (randrange_runs a n r H B) as (z & E & Z).
  destruct (draw_at_most n a z H Z) as (x & X & Y); [lia|]. eauto 6.
Qed.

Lemma randrange_wrong : exists v r',
  randrange (f_of_Z (2 ^ 31)) (random_seed (bits_of_f (f_of_Z 5694970)) (Rnd 0 0)) = Ok (v, r') /\ is_int v (2 ^ 31).
Proof.
  assert (H : reads1 (omap fst (randrange (f_of_Z (2 ^ 31)) (random_seed (bits_of_f (f_of_Z 5694970)) (Rnd 0 0)))) (2 ^ 31) = true)
    by (vm_compute; reflexivity).
  apply reads1_int in H; [|exact (power_of_two 31 ltac:(lia))]. destruct H as (v & E & I).
  destruct (randrange (f_of_Z (2 ^ 31)) (random_seed (bits_of_f (f_of_Z 5694970)) (Rnd 0 0))) as [[v' r']| |];
    try discriminate E. injection E as <-. eauto.
Qed.

Lemma randrange_zero a r : is_int a 0 -> randrange a r = Err.
Proof. intros H. unfold randrange. rewrite (to_uint_int 32 a 0 H) by lia. reflexivity. Qed.
Lemma small_randrange_zero a r : is_int a 0 -> small_randrange a r = UB.
Proof. intros H. unfold small_randrange. rewrite (to_uint_int 32 a 0 H) by lia. reflexivity. Qed.

Lemma random_wrong : is_int (fst (random_random (snd (random_random (random_seed (bits_of_f (f_of_Z 591238)) (Rnd 0 0)))))) 1.
Proof.
  apply is_int_by; [vm_compute; reflexivity|vm_compute; reflexivity|apply one_representable].
Qed.

Lemma small_random_wrong :
  exists v, is_real (fst (small_random (small_seed (bits_of_f (f_of_Z 15)) 0))) v /\ (1 < v)%R.
Proof.
  eexists. split; [split; [vm_compute; reflexivity|reflexivity]|].
  apply (above_by _ 1); [vm_compute; reflexivity|vm_compute; reflexivity|apply one_representable].
Qed.
