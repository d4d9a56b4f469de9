(** Reading the digits of a number. *)
From Coq Require Import ZArith Lia Bool List.
From Verif Require Import Base FloatModel AtofModel.
Import ListNotations.
Local Open Scope Z_scope.
Local Open Scope outcome_scope.

Definition digit (c : Z) : Prop := 48 <= c <= 57.
Fixpoint num_from (a : Z) (ds : list Z) : Z := match ds with [] => a | c :: ds => num_from (a * 10 + (c - 48)) ds end.
(** the number digits denote *)
Definition num (ds : list Z) : Z := num_from 0 ds.
Lemma num_from_app ds es : forall a, num_from a (ds ++ es) = num_from (num_from a ds) es.
Proof. induction ds as [|c ds IH]; intros a; cbn; auto. Qed.
Lemma num_snoc ds c : num (ds ++ [c]) = num ds * 10 + (c - 48).
Proof. unfold num. now rewrite num_from_app. Qed.
Lemma num_from_le ds : Forall digit ds -> forall a, 0 <= a -> a * 10 ^ Z.of_nat (length ds) <= num_from a ds < (a + 1) * 10 ^ Z.of_nat (length ds).
Proof.
  induction 1 as [|c ds D F IH]; intros a A; cbn [num_from length].
  - change (10 ^ Z.of_nat 0) with 1. lia.
  - unfold digit in D. specialize (IH (a * 10 + (c - 48)) ltac:(lia)). rewrite Nat2Z.inj_succ, Z.pow_succ_r by lia.
    assert (0 < 10 ^ Z.of_nat (length ds)) by (apply Z.pow_pos_nonneg; lia). nia.
Qed.
Lemma num_nonneg ds : Forall digit ds -> 0 <= num ds.
Proof. intros F. pose proof (num_from_le ds F 0 ltac:(lia)). unfold num. lia. Qed.
Lemma num_app ds es : Forall digit es -> 0 <= num ds -> num ds * 10 ^ Z.of_nat (length es) <= num (ds ++ es) < (num ds + 1) * 10 ^ Z.of_nat (length es).
Proof. intros F N. unfold num. rewrite num_from_app. now apply num_from_le. Qed.

(** all bytes are 0 to 255 *)
Definition byte (c : Z) : Prop := 0 <= c < 256.
Definition limit : Z := 429496728.
Definition scanl (l : list Z) (x exp : Z) (ovfl dot : bool) : outcome (Z * list Z * Z * Z) :=
  match l with [] => UB | c :: s => scan c s x exp ovfl dot end.
Lemma scan_eq c s x exp ovfl dot : scan c s x exp ovfl dot =
  let c := wrapu 8 (c - 48) in
  if c <=? 9 then
    let! (x, exp, ovfl) :=
      (if ovfl then
         if negb dot then let! exp := sint 16 (exp + 1) in Ok (x, exp, ovfl) else Ok (x, exp, ovfl)
       else
         let! exp := (if dot then sint 16 (exp - 1) else Ok exp) in
         let x := wrapu 32 (x * 10 + c) in
         Ok (x, exp, limit <=? x)) in
    scanl s x exp ovfl dot
  else if (c =? 254) && negb dot then scanl s x exp ovfl true
  else Ok (c, s, x, exp).
Proof. destruct s; reflexivity. Qed.
Lemma wrap_digit c : digit c -> wrapu 8 (c - 48) = c - 48.
Proof. intros D. unfold digit in D. apply Z.mod_small. change (2 ^ 8) with 256. lia. Qed.
Lemma wrap_other c : byte c -> ~ digit c -> 9 < wrapu 8 (c - 48) < 256.
Proof.
  intros B D. unfold digit, byte, wrapu in *. change (2 ^ 8) with 256. destruct (Z.le_gt_cases 48 c).
  - rewrite Z.mod_small by lia. lia.
  - replace (c - 48) with (c + 208 + (-1) * 256) by lia. rewrite Z.mod_add, Z.mod_small by lia. lia.
Qed.
Lemma sint16 x : Z.abs x < 32768 -> sint 16 x = Ok x.
Proof.
  intros H. unfold sint, in_sint. change (2 ^ (16 - 1)) with 32768.
  destruct (Z.leb_spec (- (32768)) x), (Z.ltb_spec x 32768); cbn; auto; lia.
Qed.
(** [x] holds the digits [pre] but for the last [d] *)
Definition read (pre : list Z) (x d : Z) : Prop :=
  exists kept dropped, pre = kept ++ dropped /\ x = num kept /\ d = Z.of_nat (length dropped) /\ 0 <= x < 2 ^ 32 /\ (dropped <> [] -> limit <= x).
Lemma read_0 : read [] 0 0.
Proof. exists [], []. repeat split; auto; try lia. congruence. Qed.
Lemma read_length pre x d : read pre x d -> 0 <= d <= Z.of_nat (length pre).
Proof. intros (k & dr & -> & _ & -> & _). rewrite app_length. lia. Qed.

Lemma scan_run dot ds : Forall digit ds -> forall tl pre x d exp, read pre x d -> tl <> [] -> Z.abs exp + Z.of_nat (length ds) < 32768 ->
  exists x' d', read (pre ++ ds) x' d' /\ d <= d' <= d + Z.of_nat (length ds) /\
    scanl (ds ++ tl) x exp (limit <=? x) dot = scanl tl x' (exp + (d' - d) - (if dot then Z.of_nat (length ds) else 0)) (limit <=? x') dot.
Proof.
  induction 1 as [|c ds D F IH]; intros tl pre x d exp R T L.
  - exists x, d. rewrite app_nil_r. repeat split; auto; try (cbn; lia). cbn [app length]. change (Z.of_nat 0) with 0. f_equal. destruct dot; lia.
  - cbn [app length] in *. rewrite Nat2Z.inj_succ in *. cbn [scanl]. rewrite scan_eq. cbv zeta. rewrite (wrap_digit c D). unfold digit in D.
    destruct (Z.leb_spec (c - 48) 9) as [_|?]; [|lia].
    assert (P : pre ++ c :: ds = (pre ++ [c]) ++ ds) by now rewrite <- app_assoc. rewrite P.
    destruct R as (kept & dropped & -> & -> & -> & X & Q).
    destruct (Z.leb_spec limit (num kept)) as [O|O].
    + assert (R' : read ((kept ++ dropped) ++ [c]) (num kept) (Z.of_nat (length dropped) + 1)).
      { exists kept, (dropped ++ [c]). rewrite app_assoc, app_length. cbn [length]. repeat split; auto; try lia. }
      destruct (IH tl _ _ _ (exp + (if dot then 0 else 1)) R' T) as (x' & d' & R2 & B & E); [destruct dot; lia|].
      exists x', d'. split; [exact R2|]. split; [lia|].
      destruct (Z.leb_spec limit (num kept)) as [_|?] in E; [|lia].
      destruct dot; cbn [negb obind] in *.
      * rewrite Z.add_0_r in E. rewrite E. f_equal. lia.
      * rewrite sint16 by lia. cbn [obind]. rewrite E. f_equal. lia.
    + destruct dropped as [|? ?]; [|specialize (Q ltac:(discriminate)); lia]. rewrite app_nil_r in *. cbn [length] in *.
      assert (W : wrapu 32 (num kept * 10 + (c - 48)) = num (kept ++ [c])).
      { rewrite num_snoc. apply Z.mod_small. unfold limit in O. change (2 ^ 32) with 4294967296. lia. }
      assert (R' : read (kept ++ [c]) (num (kept ++ [c])) 0).
      { exists (kept ++ [c]), []. rewrite app_nil_r. repeat split; auto; try congruence; rewrite num_snoc; unfold limit in O; change (2 ^ 32) with 4294967296; lia. }
      destruct (IH tl _ _ _ (exp - (if dot then 1 else 0)) R' T) as (x' & d' & R2 & B & E); [destruct dot; lia|].
      exists x', d'. split; [exact R2|]. split; [change (Z.of_nat 0) with 0; lia|]. change (Z.of_nat 0) with 0.
      destruct dot; cbn [negb obind] in *.
      * rewrite sint16 by lia. cbn [obind]. rewrite W, E. f_equal. lia.
      * rewrite Z.sub_0_r in E. rewrite W, E. f_equal.
Qed.

(** the digits of the exponent *)
Definition clamp (n i : Z) : Prop := if n <? 3200 then i = n else 3200 <= i <= 31999 /\ (n < 32000 -> i = n).
Lemma num_from_ge ds : Forall digit ds -> forall a, 0 <= a -> a <= num_from a ds.
Proof. induction 1 as [|c ds D F IH]; intros a A; cbn; [lia|]. unfold digit in D. specialize (IH (a * 10 + (c - 48)) ltac:(lia)). lia. Qed.
Lemma scan_exp_sat ds : Forall digit ds -> forall c r s i, byte c -> ~ digit c -> 3200 <= i -> 0 <= r <= 9 -> scan_exp r (ds ++ c :: s) i = Ok i.
Proof.
  induction 1 as [|d ds D F IH]; intros c r s i B N I R; cbn [app scan_exp]; destruct (Z.ltb_spec i 3200); try lia; cbn [obind].
  - destruct (Z.leb_spec (wrapu 8 (c - 48)) 9); [pose proof (wrap_other c B N); lia|reflexivity].
  - rewrite (wrap_digit d D). unfold digit in D. destruct (Z.leb_spec (d - 48) 9); [|lia]. apply IH; auto; lia.
Qed.
Lemma scan_exp_run ds : Forall digit ds -> forall d c s i, digit d -> byte c -> ~ digit c -> 0 <= i < 3200 ->
  exists j, scan_exp (d - 48) (ds ++ c :: s) i = Ok j /\ clamp (num_from i (d :: ds)) j.
Proof.
  induction 1 as [|e ds D F IH]; intros d c s i DD B N I; cbn [app scan_exp num_from]; destruct (Z.ltb_spec i 3200); try lia; unfold digit in DD.
  - rewrite sint16 by lia. cbn [obind]. destruct (Z.leb_spec (wrapu 8 (c - 48)) 9); [pose proof (wrap_other c B N); lia|].
    eexists. split; [reflexivity|]. unfold clamp. destruct (Z.ltb_spec (i * 10 + (d - 48)) 3200); lia.
  - rewrite sint16 by lia. cbn [obind]. rewrite (wrap_digit e D). destruct (Z.leb_spec (e - 48) 9); [|unfold digit in D; lia].
    destruct (Z.lt_ge_cases (i * 10 + (d - 48)) 3200) as [L|G].
    + destruct (IH e c s (i * 10 + (d - 48)) D B N ltac:(lia)) as (j & E & C). exists j. split; [exact E|exact C].
    + exists (i * 10 + (d - 48)). split; [apply scan_exp_sat; auto; unfold digit in D; lia|].
      unfold digit in D. unfold clamp. pose proof (num_from_ge ds F ((i * 10 + (d - 48)) * 10 + (e - 48)) ltac:(lia)).
      destruct (Z.ltb_spec (num_from ((i * 10 + (d - 48)) * 10 + (e - 48)) ds) 3200); lia.
Qed.

(** ** A number as text *)
Inductive sign := None_ | Plus | Minus.
Definition sign_text (s : sign) : list Z := match s with None_ => [] | Plus => [43] | Minus => [45] end.
(** digits, then a point and digits, then e or E, a sign and digits *)
Definition text (ds : list Z) (frac : option (list Z)) (ex : option (Z * sign * list Z)) : list Z :=
  ds ++ match frac with None => [] | Some fs => 46 :: fs end ++
  match ex with None => [] | Some (m, s, es) => m :: sign_text s ++ es end.
Definition well_formed (ds : list Z) (frac : option (list Z)) (ex : option (Z * sign * list Z)) : Prop :=
  Forall digit ds /\ match frac with None => True | Some fs => Forall digit fs end /\
  match ex with None => True | Some (m, s, es) => (m = 101 \/ m = 69) /\ es <> [] /\ Forall digit es end.
Definition mantissa ds (frac : option (list Z)) : list Z := ds ++ match frac with None => [] | Some fs => fs end.
Definition places (frac : option (list Z)) : Z := match frac with None => 0 | Some fs => Z.of_nat (length fs) end.
Definition power (ex : option (Z * sign * list Z)) : Z :=
  match ex with None => 0 | Some (m, Minus, es) => - num es | Some (m, _, es) => num es end.
(** the digits of the exponent as read *)
Definition power_read (ex : option (Z * sign * list Z)) (e : Z) : Prop :=
  match ex with None => e = 0 | Some (m, Minus, es) => clamp (num es) (- e) | Some (m, _, es) => clamp (num es) e end.

Lemma clamp_bound n i : 0 <= n -> clamp n i -> 0 <= i < 32000.
Proof. unfold clamp. destruct (Z.ltb_spec n 3200); lia. Qed.
Lemma power_bound ds frac ex e : well_formed ds frac ex -> power_read ex e -> Z.abs e < 32000.
Proof.
  intros (_ & _ & W) P. destruct ex as [[[m s] es]|]; cbn in *; [|lia]. destruct W as (_ & _ & F). pose proof (num_nonneg es F).
  destruct s; pose proof (clamp_bound _ _ H P); lia.
Qed.
Lemma tail_exponent ds frac ex junk : well_formed ds frac ex -> forall exp, Z.abs exp < 768 ->
  exists c s, match ex with None => [] | Some (m, s, es) => m :: sign_text s ++ es end ++ 0 :: junk = c :: s /\ byte c /\ ~ digit c /\ c <> 46 /\
  exists e, power_read ex e /\ exponent (wrapu 8 (c - 48)) s exp = Ok (exp + e).
Proof.
  intros (_ & _ & W) exp L. destruct ex as [[[m s] es]|].
  - destruct W as (M & N & F). destruct es as [|d es]; [congruence|]. inversion F as [|? ? D F']; subst.
    assert (B0 : byte 0) by (unfold byte; lia). assert (D0 : ~ digit 0) by (unfold digit; lia).
    destruct (scan_exp_run es F' d 0 junk 0 D B0 D0 ltac:(lia)) as (j & E & C). fold (num (d :: es)) in C.
    pose proof (clamp_bound _ _ (num_nonneg _ F) C) as J.
    assert (X : forall minus, (if 9 <? wrapu 8 (d - 48) then Ok exp else let! i := scan_exp (wrapu 8 (d - 48)) (es ++ 0 :: junk) 0 in sint 16 (exp + (if minus : bool then - i else i))) = Ok (exp + (if minus : bool then - j else j))).
    { intros minus. rewrite (wrap_digit d D). unfold digit in D. destruct (Z.ltb_spec 9 (d - 48)); [lia|]. rewrite E. cbn [obind]. apply sint16. destruct minus; lia. }
    exists m, ((sign_text s ++ d :: es) ++ 0 :: junk). split; [reflexivity|]. unfold byte, digit in *. split; [lia|]. split; [lia|]. split; [lia|].
    unfold exponent. replace (tolower (wrapu 8 (m - 48)) =? 101 - 48) with true by (destruct M as [-> | ->]; reflexivity).
    destruct s; cbn [sign_text app next obind].
    + destruct (Z.eqb_spec d 45); [lia|]. destruct (Z.eqb_spec d 43); [lia|]. cbn [obind]. exists j. split; [exact C|]. apply (X false).
    + exists j. split; [exact C|]. apply (X false).
    + exists (- j). split; [cbn; now rewrite Z.opp_involutive|]. apply (X true).
  - exists 0, junk. split; [reflexivity|]. unfold byte, digit. repeat split; try lia. exists 0. split; [reflexivity|]. cbn. now rewrite Z.add_0_r.
Qed.

Theorem atoff_reads has_float ds frac ex junk : well_formed ds frac ex -> Z.of_nat (length (mantissa ds frac)) < 768 ->
  exists x d e, read (mantissa ds frac) x d /\ power_read ex e /\ atoff has_float (text ds frac ex ++ 0 :: junk) = scale x (d - places frac + e).
Proof.
  intros W L. assert (W' := W). destruct W' as (FD & FF & WE). unfold text. rewrite <- !app_assoc.
  set (tl1 := match frac with None => [] | Some fs => 46 :: fs end ++ match ex with None => [] | Some (m, s, es) => m :: sign_text s ++ es end ++ 0 :: junk).
  (* the exponent does not depend on what precedes it but for [exp] *)
  assert (M : Z.of_nat (length (mantissa ds frac)) = Z.of_nat (length ds) + places frac).
  { unfold mantissa, places. rewrite app_length. destruct frac; cbn; lia. }
  assert (T1 : tl1 <> []) by (unfold tl1; destruct frac; [discriminate|]; destruct ex as [[[? ?] ?]|]; discriminate).
  destruct (scan_run false ds FD tl1 [] 0 0 0 read_0 T1 ltac:(unfold places in M; destruct frac; lia)) as (x1 & d1 & R1 & B1 & E1). cbn [app] in R1, E1.
  change (limit <=? 0) with false in E1.
  assert (FIRST : atoff has_float (ds ++ tl1) = let! (c, s, x, exp) := scanl (ds ++ tl1) 0 0 false false in let! exp := exponent c s exp in scale x exp).
  { assert (H : exists c s, ds ++ tl1 = c :: s /\ tolower c <> 110 /\ tolower c <> 105).
    { destruct ds as [|c ds].
      - unfold tl1. destruct frac as [fs|]; [exists 46; eexists; repeat split; discriminate|].
        destruct ex as [[[m s] es]|]; [|exists 0; eexists; repeat split; discriminate].
        destruct WE as ([-> | ->] & _); eexists; eexists; (split; [reflexivity|]); split; discriminate.
      - exists c, (ds ++ tl1). inversion FD as [|? ? D _]; subst. unfold digit in D. split; [reflexivity|].
        assert (C : c = 48 \/ c = 49 \/ c = 50 \/ c = 51 \/ c = 52 \/ c = 53 \/ c = 54 \/ c = 55 \/ c = 56 \/ c = 57) by lia.
        repeat (destruct C as [-> |C]; [split; discriminate|]). subst. split; discriminate. }
    destruct H as (c & s & -> & N1 & N2). unfold atoff. cbn [next obind scanl].
    destruct (Z.eqb_spec (tolower c) 110); [lia|]. destruct (Z.eqb_spec (tolower c) 105); [lia|]. rewrite !andb_false_r. reflexivity. }
  rewrite FIRST, E1. clear FIRST E1. unfold tl1. clear tl1 T1. rewrite Z.add_0_l, Z.sub_0_r, Z.sub_0_r.
  destruct frac as [fs|]; cbn [places] in *.
  - cbn [app scanl]. rewrite scan_eq. cbv zeta. change (wrapu 8 (46 - 48)) with 254. cbn [Z.leb Z.compare Z.eqb andb negb Pos.eqb Pos.compare Pos.compare_cont].
    set (tl2 := match ex with None => [] | Some (m, s, es) => m :: sign_text s ++ es end ++ 0 :: junk).
    assert (T2 : tl2 <> []) by (unfold tl2; destruct ex as [[[? ?] ?]|]; discriminate).
    destruct (scan_run true fs FF tl2 ds x1 d1 d1 R1 T2 ltac:(lia)) as (x2 & d2 & R2 & B2 & E2).
    rewrite E2. replace (d1 + (d2 - d1) - Z.of_nat (length fs)) with (d2 - Z.of_nat (length fs)) by lia. clear E2.
    destruct (tail_exponent ds (Some fs) ex junk W (d2 - Z.of_nat (length fs)) ltac:(lia)) as (c & s & Q & B & N & N46 & e & P & X).
    unfold tl2. rewrite Q. cbn [scanl]. rewrite scan_eq. cbv zeta. pose proof (wrap_other c B N) as WO.
    destruct (Z.leb_spec (wrapu 8 (c - 48)) 9); [lia|]. rewrite andb_false_r. cbn [obind]. rewrite X. cbn [obind].
    exists x2, d2, e. split; [exact R2|]. split; [exact P|]. reflexivity.
  - cbn [app].
    destruct (tail_exponent ds None ex junk W d1 ltac:(lia)) as (c & s & Q & B & N & N46 & e & P & X).
    rewrite Q. cbn [scanl]. rewrite scan_eq. cbv zeta. pose proof (wrap_other c B N) as WO.
    destruct (Z.leb_spec (wrapu 8 (c - 48)) 9); [lia|].
    assert (ND : (wrapu 8 (c - 48) =? 254) = false).
    { apply Z.eqb_neq. unfold wrapu, byte in *. change (2 ^ 8) with 256. intros H1. destruct (Z.le_gt_cases 48 c).
      - rewrite Z.mod_small in H1 by lia. lia.
      - replace (c - 48) with (c + 208 + (-1) * 256) in H1 by lia. rewrite Z.mod_add, Z.mod_small in H1 by lia. lia. }
    rewrite ND. cbn [andb obind]. rewrite X. cbn [obind]. exists x1, d1, e. unfold mantissa. rewrite app_nil_r, Z.sub_0_r. auto.
Qed.
