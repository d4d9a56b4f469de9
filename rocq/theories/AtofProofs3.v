(** Any bytes at all; integers; texts that are no numbers. *)
From Coq Require Import ZArith Reals Lia Lra Bool List.
From Flocq Require Import IEEE754.BinarySingleNaN IEEE754.Binary IEEE754.Bits Core.
From Verif Require Import Base FloatModel MathModel MathSpec MathProofs AtofModel AtofProofs AtofFloat AtofProofs2.
Import ListNotations.
Local Open Scope Z_scope.
Local Open Scope outcome_scope.

(** a byte of a string *)
Definition char (c : Z) : Prop := 0 < c < 256.
Lemma scan_any t : Forall char t -> forall junk x exp ovfl dot, Z.abs exp + Z.of_nat (length t) < 32768 ->
  exists c s x' exp', scanl (t ++ 0 :: junk) x exp ovfl dot = Ok (c, s, x', exp') /\ Z.abs exp' <= Z.abs exp + Z.of_nat (length t) /\
    (c = 208 \/ exists t', Forall char t' /\ s = t' ++ 0 :: junk).
Proof.
  induction 1 as [|b t C F IH]; intros junk x exp ovfl dot L.
  - cbn [app scanl]. rewrite scan_eq. cbv zeta. change (wrapu 8 (0 - 48)) with 208. cbn [Z.leb Z.compare Z.eqb andb Pos.eqb Pos.compare Pos.compare_cont].
    do 4 eexists. split; [reflexivity|]. split; [cbn; lia|now left].
  - cbn [app length] in *. rewrite Nat2Z.inj_succ in *. cbn [scanl]. rewrite scan_eq. cbv zeta.
    destruct (Z.leb_spec (wrapu 8 (b - 48)) 9).
    + assert (ST : exists x1 e1 o1, (if ovfl then if negb dot then let! exp := sint 16 (exp + 1) in Ok (x, exp, ovfl) else Ok (x, exp, ovfl)
        else let! exp := (if dot then sint 16 (exp - 1) else Ok exp) in let x := wrapu 32 (x * 10 + wrapu 8 (b - 48)) in Ok (x, exp, limit <=? x)) = Ok (x1, e1, o1) /\ Z.abs e1 <= Z.abs exp + 1).
      { destruct ovfl, dot; cbn [negb obind]; rewrite ?sint16 by lia; cbn [obind]; do 3 eexists; (split; [reflexivity|lia]). }
      destruct ST as (x1 & e1 & o1 & ST & B). cbv zeta in ST. rewrite ST. cbn [obind].
      destruct (IH junk x1 e1 o1 dot ltac:(lia)) as (c & s & x' & e' & E & B' & T). exists c, s, x', e'. split; [exact E|]. split; [lia|exact T].
    + destruct (_ && negb dot).
      * destruct (IH junk x exp ovfl true ltac:(lia)) as (c & s & x' & e' & E & B' & T). exists c, s, x', e'. split; [exact E|]. split; [lia|exact T].
      * do 4 eexists. split; [reflexivity|]. split; [lia|]. right. exists t. auto.
Qed.
Lemma scan_exp_any t : Forall char t -> forall junk c i, 0 <= c <= 9 -> 0 <= i < 32000 -> exists j, scan_exp c (t ++ 0 :: junk) i = Ok j /\ 0 <= j < 32000.
Proof.
  induction 1 as [|b t B F IH]; intros junk c i C I; cbn [app scan_exp].
  - assert (ST : exists k, (if i <? 3200 then sint 16 (i * 10 + c) else Ok i) = Ok k /\ 0 <= k < 32000).
    { destruct (Z.ltb_spec i 3200); [rewrite sint16 by lia|]; eexists; (split; [reflexivity|lia]). }
    destruct ST as (k & -> & K). cbn. eauto.
  - assert (ST : exists k, (if i <? 3200 then sint 16 (i * 10 + c) else Ok i) = Ok k /\ 0 <= k < 32000).
    { destruct (Z.ltb_spec i 3200); [rewrite sint16 by lia|]; eexists; (split; [reflexivity|lia]). }
    destruct ST as (k & -> & K). cbn [obind]. cbv zeta. destruct (Z.leb_spec (wrapu 8 (b - 48)) 9); [|eauto].
    apply IH; auto. split; [|lia]. unfold wrapu. apply Z.mod_pos_bound. reflexivity.
Qed.
Lemma exponent_any t junk c exp : Forall char t -> Z.abs exp < 769 -> exists e, exponent c (t ++ 0 :: junk) exp = Ok e /\ Z.abs e < 32768.
Proof.
  intros F E. unfold exponent. destruct (tolower c =? 101 - 48); [|exists exp; split; [reflexivity|lia]].
  assert (NX : forall t, Forall char t -> exists b s, next (t ++ 0 :: junk) = Ok (b, s) /\ (b = 0 \/ exists t', Forall char t' /\ s = t' ++ 0 :: junk)).
  { intros t' F'. destruct t' as [|b t']; cbn; [do 2 eexists; split; [reflexivity|now left]|]. inversion F'; subst. do 2 eexists. split; [reflexivity|right; eauto]. }
  assert (FIN : forall b s minus, (b = 0 \/ exists t', Forall char t' /\ s = t' ++ 0 :: junk) ->
    exists e, (if 9 <? wrapu 8 (b - 48) then Ok exp else let! i := scan_exp (wrapu 8 (b - 48)) s 0 in sint 16 (exp + (if minus : bool then - i else i))) = Ok e /\ Z.abs e < 32768).
  { intros b s minus [-> |(t' & F' & ->)]; [exists exp; split; [reflexivity|lia]|]. destruct (Z.ltb_spec 9 (wrapu 8 (b - 48))); [exists exp; split; [reflexivity|lia]|].
    destruct (scan_exp_any t' F' junk (wrapu 8 (b - 48)) 0) as (j & -> & J); [split; [unfold wrapu; apply Z.mod_pos_bound; reflexivity|lia]|lia|].
    cbn [obind]. rewrite sint16 by (destruct minus; lia). eexists. split; [reflexivity|destruct minus; lia]. }
  destruct (NX t F) as (b & s & -> & S). cbn [obind].
  destruct (Z.eqb_spec b 45) as [->|].
  - destruct S as [?|(t' & F' & ->)]; [discriminate|]. destruct (NX t' F') as (b' & s' & -> & S'). cbn [obind]. apply (FIN b' s' true S').
  - destruct (Z.eqb_spec b 43) as [->|].
    + destruct S as [?|(t' & F' & ->)]; [discriminate|]. destruct (NX t' F') as (b' & s' & -> & S'). cbn [obind]. apply (FIN b' s' false S').
    + cbn [obind]. apply (FIN b s false S).
Qed.
Lemma exponent_end s exp : exponent 208 s exp = Ok exp.
Proof. reflexivity. Qed.
Theorem atoff_defined has_float t junk : Forall char t -> Z.of_nat (length t) <= 768 -> exists f, atoff has_float (t ++ 0 :: junk) = Ok f.
Proof.
  intros F L. unfold atoff. assert (NE : exists c s, t ++ 0 :: junk = c :: s) by (destruct t; cbn; eauto). destruct NE as (c & s & NE).
  pose proof (scan_any t F junk 0 0 false false ltac:(lia)) as S. rewrite NE in *. cbn [next obind scanl] in *.
  destruct (has_float && (tolower c =? 110)); [eauto|]. destruct (has_float && (tolower c =? 105)); [eauto|].
  destruct S as (c' & s' & x & e & -> & B & T). cbn [obind].
  destruct T as [-> |(t' & F' & ->)].
  - rewrite exponent_end. cbn [obind]. apply scale_ends. lia.
  - destruct (exponent_any t' junk c' e F' ltac:(lia)) as (e' & -> & E'). cbn [obind]. now apply scale_ends.
Qed.

(** ** Too many digits *)
Lemma kept_short kept dropped : Forall digit (kept ++ dropped) -> num kept < 2 ^ 32 -> match kept ++ dropped with c :: _ => c <> 48 | [] => True end -> (length kept <= 10)%nat.
Proof.
  intros F N H. destruct kept as [|c kept]; [cbn; lia|]. cbn [app] in *. inversion F as [|? ? D F']; subst. apply Forall_app in F'. destruct F' as [F' _].
  unfold num in N. cbn [num_from] in N. unfold digit in D. pose proof (num_from_le kept F' (0 * 10 + (c - 48)) ltac:(lia)) as [B _].
  destruct (Nat.le_gt_cases (length kept) 9); [cbn; lia|exfalso].
  pose proof (Z.pow_le_mono_r 10 10 (Z.of_nat (length kept)) ltac:(lia) ltac:(lia)) as P. change (10 ^ 10) with 10000000000 in P. change (2 ^ 32) with 4294967296 in N.
  assert (1 * 10 ^ Z.of_nat (length kept) <= (0 * 10 + (c - 48)) * 10 ^ Z.of_nat (length kept)) by (apply Z.mul_le_mono_nonneg_r; lia). lia.
Qed.
Theorem atoff_overflow has_float d ds junk : digit d -> d <> 48 -> Forall digit ds -> 800 <= Z.of_nat (length ds) < 30000 ->
  atoff has_float (text (d :: ds) None (Some (101, None_, [51; 49; 57; 57; 57])) ++ 0 :: junk) = UB.
Proof.
  intros D D0 F L. assert (FD : Forall digit (d :: ds)) by (constructor; auto). unfold text. rewrite <- app_assoc. cbn [sign_text app].
  set (tl := [101; 51; 49; 57; 57; 57; 0] ++ junk). change (101 :: 51 :: 49 :: 57 :: 57 :: 57 :: 0 :: junk) with tl.
  destruct (scan_run false (d :: ds) FD tl [] 0 0 0 read_0 ltac:(discriminate)) as (x & k & R & B & E); [cbn [length]; lia|].
  cbn [app] in R, E. change (limit <=? 0) with false in E.
  assert (K : 790 <= k).
  { destruct R as (kept & dr & Q & -> & -> & X & _). rewrite Q in FD. pose proof (kept_short kept dr FD ltac:(lia)) as S. rewrite <- Q in S. specialize (S D0).
    apply (f_equal (@length Z)) in Q. rewrite app_length in Q. cbn [length] in Q. lia. }
  assert (K2 : k < 31000) by (apply read_length in R; cbn [length] in *; lia).
  unfold atoff. cbn [next obind app]. cbn [app scanl] in E.
  assert (T : tolower d <> 110 /\ tolower d <> 105).
  { unfold digit in D. assert (C : d = 49 \/ d = 50 \/ d = 51 \/ d = 52 \/ d = 53 \/ d = 54 \/ d = 55 \/ d = 56 \/ d = 57) by lia.
    repeat (destruct C as [-> |C]; [split; discriminate|]). subst. split; discriminate. }
  destruct (Z.eqb_spec (tolower d) 110); [lia|]. destruct (Z.eqb_spec (tolower d) 105); [lia|]. rewrite !andb_false_r.
  rewrite E. rewrite Z.add_0_l, !Z.sub_0_r. unfold tl. cbn [app scanl]. rewrite scan_eq. cbv zeta. change (wrapu 8 (101 - 48)) with 53. cbn [Z.leb Z.compare Z.eqb andb Pos.eqb Pos.compare Pos.compare_cont obind].
  change (exponent 53 (51 :: 49 :: 57 :: 57 :: 57 :: 0 :: junk) k) with (sint 16 (k + 31999)).
  unfold sint, in_sint. change (2 ^ (16 - 1)) with 32768. destruct (Z.ltb_spec (k + 31999) 32768); [lia|]. now rewrite andb_false_r.
Qed.

(** ** Not a number *)
Theorem atoff_other has_float c s : byte c -> ~ digit c -> c <> 46 -> tolower c <> 101 -> tolower c <> 110 -> tolower c <> 105 -> atoff has_float (c :: s) = Ok f_zero.
Proof.
  intros B D N46 NE NN NI. unfold atoff. cbn [next obind]. destruct (Z.eqb_spec (tolower c) 110); [lia|]. destruct (Z.eqb_spec (tolower c) 105); [lia|]. rewrite !andb_false_r.
  rewrite scan_eq. cbv zeta. pose proof (wrap_other c B D) as W. destruct (Z.leb_spec (wrapu 8 (c - 48)) 9); [lia|].
  assert (W' : wrapu 8 (c - 48) = c - 48 /\ 48 <= c \/ wrapu 8 (c - 48) = c + 208 /\ c < 48).
  { unfold wrapu, byte in *. change (2 ^ 8) with 256 in *. destruct (Z.le_gt_cases 48 c); [left; rewrite Z.mod_small; lia|right].
    replace (c - 48) with (c + 208 + (-1) * 256) by lia. rewrite Z.mod_add, Z.mod_small by lia. lia. }
  destruct (Z.eqb_spec (wrapu 8 (c - 48)) 254); [unfold byte in B; lia|]. cbn [andb obind].
  unfold exponent. assert (T : tolower (wrapu 8 (c - 48)) <> 101 - 48).
  { intros T. change (101 - 48) with 53 in T. unfold tolower in *.
    assert (V : wrapu 8 (c - 48) = 21 \/ wrapu 8 (c - 48) = 53).
    { set (z := wrapu 8 (c - 48)) in *. assert (Z0 : 0 <= z) by lia. clear -T Z0.
      assert (L : z <= 53).
      { assert (Q : Z.ldiff z (Z.lor z 32) = 0).
        { apply Z.bits_inj'. intros k K. rewrite Z.ldiff_spec, Z.lor_spec, Z.bits_0. destruct (Z.testbit z k); reflexivity. }
        rewrite T in Q. apply Z.ldiff_le in Q; lia. }
      assert (C : exists n, z = Z.of_nat n /\ (n <= 53)%nat) by (exists (Z.to_nat z); lia). destruct C as (n & -> & LN).
      do 54 (destruct n as [|n]; [vm_compute in T; try discriminate; auto|]). lia. }
    unfold byte in B. destruct V as [V|V]; destruct W' as [[W1 W2]|[W1 W2]]; rewrite W1 in V; try lia.
    - assert (c = 69) by lia. subst. apply NE. reflexivity.
    - assert (c = 101) by lia. subst. apply NE. reflexivity. }
  destruct (Z.eqb_spec (tolower (wrapu 8 (c - 48))) (101 - 48)); [congruence|]. reflexivity.
Qed.

(** ** Integers *)
Theorem atoff_integer has_float ds junk : Forall digit ds -> Z.of_nat (length ds) < 768 -> num ds < limit -> 0 < num ds ->
  exists f, atoff has_float (ds ++ 0 :: junk) = Ok f /\ f_is_finite f = true /\ val f = rnd32 (IZR (num ds)).
Proof.
  intros F L N P. destruct (atoff_reads has_float ds None None junk) as (x & d & e & R & PR & E); [repeat split; auto|unfold mantissa; rewrite app_nil_r; exact L|].
  unfold text, mantissa in *. cbn [app places power_read] in *. rewrite !app_nil_r in *. subst e. destruct (read_num _ _ _ F R) as (NB & D0 & X & DL).
  assert (d = 0). { destruct DL as [->|G]; [reflexivity|]. assert (0 < 10 ^ d) by (apply Z.pow_pos_nonneg; lia). nia. } subst d.
  change (10 ^ 0) with 1 in NB. assert (x = num ds) by lia. subst x. exists (f_of_Z (num ds)).
  destruct (of_Z_near (num ds) ltac:(unfold limit in N; change (2 ^ 32) with 4294967296; lia)) as (FF & V & NR). rewrite E. repeat split; auto.
  unfold scale. cbn [Z.sub Z.add Z.opp]. rewrite feq_zero; auto.
  apply (near_bound 1) in NR; [|apply IZR_lt; lia|lia]. assert (0 < IZR (num ds))%R by (apply IZR_lt; lia). lra.
Qed.
(** digits times a power of ten: exact within 2^24 *)
Lemma scale_exact x e : 0 < x -> 0 <= e -> x * 10 ^ e <= 2 ^ 24 -> exists f, scale x e = Ok f /\ is_int f (x * 10 ^ e).
Proof.
  intros X E L. change (2 ^ 24) with 16777216 in L.
  assert (E8 : e < 8).
  { destruct (Z.lt_ge_cases e 8); [assumption|]. pose proof (Z.pow_le_mono_r 10 8 e ltac:(lia) ltac:(lia)). change (10 ^ 8) with 100000000 in *. nia. }
  assert (XI : is_int (f_of_Z x) x).
  { apply of_Z_int, small_representable. unfold small. assert (0 < 10 ^ e) by (apply Z.pow_pos_nonneg; lia). change (2 ^ 24) with 16777216. nia. }
  unfold scale. rewrite feq_zero; [|exact (proj1 XI)|rewrite (proj2 XI); apply IZR_neq; lia]. cbn [negb]. destruct (Z.ltb_spec e 0); [lia|].
  assert (LI : forall z, 0 < z <= 10000 -> is_int (lit z 0) z).
  { intros z Z0. destruct (lit_val z 0) as [A B]; [change (2 ^ 24) with 16777216; lia|lia|]. split; [exact A|]. rewrite B. cbn. ring. }
  assert (M : forall f a b, is_int f a -> 0 < a -> 0 < b <= 10000 -> a * b <= 16777216 -> is_int (fmul f (lit b 0)) (a * b)).
  { intros f a b FA A B AB. apply mul_int; [exact FA|apply LI; lia|]. apply small_representable. unfold small. change (2 ^ 24) with 16777216. lia. }
  assert (C : e = 0 \/ e = 1 \/ e = 2 \/ e = 3 \/ e = 4 \/ e = 5 \/ e = 6 \/ e = 7) by lia.
  cbn [mul_all pwr_p10].
  destruct C as [-> |[-> |[-> |[-> |[-> |[-> |[-> | ->]]]]]]]; cbn -[lit fmul f_of_Z Z.mul is_int Z.pow]; (eexists; split; [reflexivity|]).
  - change (10 ^ 0) with 1. now rewrite Z.mul_1_r.
  - change (10 ^ 1) with 10 in *. apply M; auto; lia.
  - change (10 ^ 2) with 100 in *. apply M; auto; lia.
  - change (10 ^ 3) with 1000 in *. replace (x * 1000) with (x * 100 * 10) in * by lia. repeat apply M; auto; lia.
  - change (10 ^ 4) with 10000 in *. apply M; auto; lia.
  - change (10 ^ 5) with 100000 in *. replace (x * 100000) with (x * 10000 * 10) in * by lia. repeat apply M; auto; lia.
  - change (10 ^ 6) with 1000000 in *. replace (x * 1000000) with (x * 10000 * 100) in * by lia. repeat apply M; auto; lia.
  - change (10 ^ 7) with 10000000 in *. replace (x * 10000000) with (x * 10000 * 100 * 10) in * by lia. repeat apply M; auto; lia.
Qed.
Theorem atoff_exact has_float ds frac ex junk z : well_formed ds frac ex -> Z.of_nat (length (mantissa ds frac)) < 768 ->
  num (mantissa ds frac) < limit -> 0 <= power ex - places frac < 100 -> Z.abs (power ex) < 3200 -> 0 < z <= 2 ^ 24 ->
  z = num (mantissa ds frac) * 10 ^ (power ex - places frac) ->
  exists f, atoff has_float (text ds frac ex ++ 0 :: junk) = Ok f /\ is_int f z.
Proof.
  intros W L N PE PB Z0 ZE. destruct (atoff_reads has_float ds frac ex junk W L) as (x & d & e & R & PR & ->).
  pose proof (mantissa_digits _ _ _ W) as F. destruct (read_num _ _ _ F R) as (NB & D0 & X & DL).
  assert (d = 0). { destruct DL as [->|G]; [reflexivity|]. assert (0 < 10 ^ d) by (apply Z.pow_pos_nonneg; lia). nia. } subst d.
  change (10 ^ 0) with 1 in NB. assert (x = num (mantissa ds frac)) by lia. subst x.
  assert (EQ : e = power ex).
  { destruct W as (_ & _ & WE). clear -PR PB WE. unfold power, power_read, clamp in *. destruct ex as [[[m s] es]|]; [|exact PR].
    destruct WE as (_ & _ & F). pose proof (num_nonneg es F). destruct s; (destruct (Z.ltb_spec (num es) 3200); lia). }
  subst e. replace (0 - places frac + power ex) with (power ex - places frac) by lia. rewrite ZE. apply scale_exact; try lia.
Qed.
