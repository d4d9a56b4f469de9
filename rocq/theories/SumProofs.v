(** fsum is the sum, rounded once. *)
From Coq Require Import ZArith Reals Lia Lra Bool List.
From Flocq Require Import IEEE754.Binary IEEE754.Bits Core.
From Verif Require Import Base FloatModel MathModel SumModel SumInt SumExact SumRound SumFloat.
Import ListNotations.
Local Open Scope Z_scope.
Local Open Scope outcome_scope.

(** ** The array as a list *)
Definition order (x y : float) : float * float := if flt (f_abs x) (f_abs y) then (y, x) else (x, y).
Fixpoint fgrow (x : float) (ps : list float) : list float * float :=
  match ps with
  | [] => ([], x)
  | y :: r =>
      let '(x, y) := order x y in
      let hi := fadd x y in let lo := fsub y (fsub hi x) in
      let (l, q) := fgrow hi r in
      ((if feq lo f_zero then l else lo :: l), q)
  end.
Definition fadd1 (x : float) (ps : list float) : list float :=
  let (l, q) := fgrow x ps in if feq q f_zero then l else l ++ [q].

Lemma get_ok parts o : (o < length parts)%nat -> exists f, getf parts o = Ok f /\ nth_error parts o = Some f.
Proof. intros H. unfold getf. destruct (nth_error parts o) eqn:E; [eauto|]. apply nth_error_None in E. lia. Qed.
Lemma put_ok v : forall parts o, (o < length parts)%nat -> exists parts', putf parts o v = Ok parts' /\ length parts' = length parts /\
  firstn (S o) parts' = firstn o parts ++ [v] /\ skipn (S o) parts' = skipn (S o) parts.
Proof.
  induction parts as [|p parts IH]; cbn [length]; intros o H; [lia|]. destruct o as [|o].
  - exists (v :: parts). repeat split.
  - destruct (IH o ltac:(lia)) as (r & E & L & F & S). exists (p :: r). cbn [putf]. rewrite E. cbn [obind]. repeat split.
    + cbn. lia.
    + rewrite !firstn_cons. cbn [app]. f_equal. exact F.
    + exact S.
Qed.
Lemma skipn_nth (A : Type) (l : list A) : forall n x, nth_error l n = Some x -> skipn n l = x :: skipn (S n) l.
Proof. induction l as [|a l IH]; intros [|n] x H; cbn in *; try discriminate; [now injection H as ->|now apply IH]. Qed.
Lemma skipn_more (A : Type) i j (l l' : list A) : (i <= j)%nat -> skipn i l = skipn i l' -> skipn j l = skipn j l'.
Proof.
  assert (SS : forall a b (k : list A), skipn (a + b) k = skipn a (skipn b k)).
  { intros a b. induction b as [|b IH]; intros k; [now rewrite Nat.add_0_r|]. rewrite Nat.add_succ_r. destruct k; [now rewrite !skipn_nil|]. cbn [skipn]. apply IH. }
  intros H E. replace j with (j - i + i)%nat by lia. rewrite !SS. now rewrite E.
Qed.

Lemma add_parts_list k : forall j i x parts, (i <= j)%nat -> (j + k <= length parts)%nat ->
  exists parts', add_parts k j i x parts =
      Ok (snd (fgrow x (firstn k (skipn j parts))), (i + length (fst (fgrow x (firstn k (skipn j parts)))))%nat, parts') /\
    length parts' = length parts /\
    firstn (i + length (fst (fgrow x (firstn k (skipn j parts))))) parts' = firstn i parts ++ fst (fgrow x (firstn k (skipn j parts))).
Proof.
  induction k as [|k IH]; intros j i x parts IJ L.
  - exists parts. cbn. rewrite Nat.add_0_r, app_nil_r. auto.
  - destruct (get_ok parts j ltac:(lia)) as (y & G & N). cbn [add_parts]. rewrite G. cbn [obind].
    rewrite (skipn_nth _ _ _ _ N), firstn_cons. cbn [fgrow]. fold (order x y). destruct (order x y) as [x' y'].
    set (hi := fadd x' y'). set (lo := fsub y' (fsub hi x')).
    destruct (feq lo f_zero); cbn [negb].
    + destruct (IH (S j) i hi parts ltac:(lia) ltac:(lia)) as (parts' & E & LL & F).
      destruct (fgrow hi (firstn k (skipn (S j) parts))) as [l q]. cbn [fst snd] in *. eauto.
    + destruct (put_ok lo parts i ltac:(lia)) as (p1 & P & L1 & F1 & S1). rewrite P. cbn [obind].
      destruct (IH (S j) (S i) hi p1 ltac:(lia) ltac:(lia)) as (parts' & E & LL & F).
      rewrite (skipn_more _ (S i) (S j) p1 parts) in E, F by (auto; lia).
      destruct (fgrow hi (firstn k (skipn (S j) parts))) as [l q]. cbn [fst snd length] in *.
      exists parts'. rewrite Nat.add_succ_r, <- Nat.add_succ_l. split; [exact E|]. split; [lia|].
      rewrite F, F1, <- app_assoc. reflexivity.
Qed.
Lemma resize_ok parts m : (length parts <= m)%nat -> length (resize parts m) = m /\ forall n, (n <= length parts)%nat -> firstn n (resize parts m) = firstn n parts.
Proof.
  intros H. unfold resize. split.
  - rewrite app_length, repeat_length, firstn_length. lia.
  - intros n N. rewrite firstn_app, firstn_firstn, firstn_length. replace (Nat.min n m) with n by lia.
    replace (n - Nat.min m (length parts))%nat with O by lia. now rewrite app_nil_r.
Qed.
Lemma fgrow_length ps : forall x, (length (fst (fgrow x ps)) <= length ps)%nat.
Proof.
  induction ps as [|p ps IH]; intro x; cbn [fgrow]; [cbn; lia|]. destruct (order x p) as [x' y'].
  specialize (IH (fadd x' y')). destruct (fgrow (fadd x' y') ps) as [l q]. cbn [fst length] in *. destruct (feq _ _); cbn [length]; lia.
Qed.
Lemma add_one_list room x n m parts : m = length parts -> (n <= m)%nat ->
  add_one room x n m parts = Err \/
  exists n' m' parts', add_one room x n m parts = Ok (n', m', parts') /\ m' = length parts' /\ (n' <= m')%nat /\
    firstn n' parts' = fadd1 x (firstn n parts).
Proof.
  intros M N. unfold add_one, fadd1. destruct (add_parts_list n 0 0 x parts ltac:(lia) ltac:(lia)) as (p1 & E & L & F).
  cbn [skipn] in *. pose proof (fgrow_length (firstn n parts) x) as GL. rewrite firstn_length in GL.
  rewrite E. clear E. cbn [obind Nat.add] in *. change (firstn 0 parts) with (@nil float) in F. cbn [app] in F.
  destruct (fgrow x (firstn n parts)) as [l q]. cbn [fst snd] in *.
  destruct (feq q f_zero) eqn:Z; cbn [negb].
  - right. exists (length l), m, p1. repeat split; try lia. exact F.
  - destruct (Nat.leb_spec m (length l)).
    + destruct (room (length l + 1)%nat); [|now left]. right. cbn [obind].
      destruct (resize_ok p1 (length l + 1) ltac:(lia)) as [R1 R2].
      destruct (put_ok q (resize p1 (length l + 1)) (length l) ltac:(lia)) as (p2 & P & L2 & F2 & _). rewrite P. cbn [obind].
      exists (S (length l)), (length l + 1)%nat, p2. repeat split; try lia. rewrite F2, R2, F by lia. reflexivity.
    + right. cbn [obind]. destruct (put_ok q p1 (length l) ltac:(lia)) as (p2 & P & L2 & F2 & _). rewrite P. cbn [obind].
      exists (S (length l)), m, p2. repeat split; try lia. now rewrite F2, F.
Qed.
Fixpoint fadds (l ps : list float) : list float := match l with [] => ps | x :: l => fadds l (fadd1 x ps) end.
Lemma add_all_list room l : forall n m parts, m = length parts -> (n <= m)%nat ->
  add_all room l n m parts = Err \/
  exists n' parts', add_all room l n m parts = Ok (n', parts') /\ (n' <= length parts')%nat /\ firstn n' parts' = fadds l (firstn n parts).
Proof.
  induction l as [|x l IH]; intros n m parts M N; cbn [add_all fadds].
  - right. exists n, parts. repeat split. lia.
  - destruct (add_one_list room x n m parts M N) as [->|(n1 & m1 & p1 & -> & M1 & N1 & F1)]; [now left|]. cbn [obind fst snd].
    destruct (IH n1 m1 p1 M1 N1) as [->|(n2 & p2 & -> & N2 & F2)]; [now left|]. right. exists n2, p2. repeat split; auto. now rewrite F2, F1.
Qed.
Lemma add_one_room x n m parts : m = length parts -> (n <= m)%nat -> add_one (fun _ => true) x n m parts <> Err.
Proof.
  intros M N. unfold add_one. destruct (add_parts_list n 0 0 x parts ltac:(lia) ltac:(lia)) as (p1 & E & L & F). cbn [skipn] in *.
  pose proof (fgrow_length (firstn n parts) x) as GL. rewrite firstn_length in GL. rewrite E. clear E. cbn [obind Nat.add] in *.
  destruct (fgrow x (firstn n parts)) as [l q]. cbn [fst snd] in *.
  destruct (feq q f_zero); cbn [negb]; [discriminate|]. destruct (Nat.leb_spec m (length l)); cbn [obind].
  - destruct (resize_ok p1 (length l + 1) ltac:(lia)) as [R1 R2].
    destruct (put_ok q (resize p1 (length l + 1)) (length l) ltac:(lia)) as (p2 & P & _). rewrite P. discriminate.
  - destruct (put_ok q p1 (length l) ltac:(lia)) as (p2 & P & _). rewrite P. discriminate.
Qed.
Lemma add_all_room l : forall n m parts, m = length parts -> (n <= m)%nat -> add_all (fun _ => true) l n m parts <> Err.
Proof.
  induction l as [|x l IH]; intros n m parts M N; cbn [add_all]; [discriminate|].
  destruct (add_one_list (fun _ => true) x n m parts M N) as [E|(n1 & m1 & p1 & E & M1 & N1 & F1)]; [elim (add_one_room x n m parts M N E)|].
  rewrite E. cbn [obind fst snd]. now apply IH.
Qed.

Fixpoint fcoll (hi : float) (lo : option float) (d : list float) : float * option float * list float :=
  match d with
  | [] => (hi, lo, [])
  | y :: r =>
      let h := fadd hi y in let lo := fsub y (fsub h hi) in
      if feq lo f_zero then fcoll h (Some lo) r else (h, Some lo, r)
  end.
Definition ffinish (hi : float) (lo : option float) (r : list float) : outcome float :=
  match r with
  | [] => Ok hi
  | p :: _ =>
      match lo with
      | None => UB
      | Some lo =>
          if (flt lo f_zero && flt p f_zero) || (flt f_zero lo && flt f_zero p) then
            let y := fmul lo f_two in let x := fadd hi y in Ok (if feq y (fsub x hi) then x else hi)
          else Ok hi
      end
  end.
Definition ffinal (d : list float) : outcome float :=
  match d with [] => Ok f_zero | hi :: d => let '(hi, lo, r) := fcoll hi None d in ffinish hi lo r end.
Lemma firstn_rev_S (A : Type) (l : list A) : forall n x, nth_error l n = Some x -> rev (firstn (S n) l) = x :: rev (firstn n l).
Proof.
  induction l as [|a l IH]; intros [|n] x H; cbn in *; try discriminate; [now injection H as ->|].
  specialize (IH n x H). cbn in IH. rewrite IH. reflexivity.
Qed.
Lemma collapse_list n : forall hi lo parts, (n <= length parts)%nat ->
  exists n', (n' <= length parts)%nat /\
    collapse n hi lo parts = Ok (fst (fst (fcoll hi lo (rev (firstn n parts)))), n', snd (fst (fcoll hi lo (rev (firstn n parts))))) /\
    snd (fcoll hi lo (rev (firstn n parts))) = rev (firstn n' parts).
Proof.
  induction n as [|n IH]; intros hi lo parts L.
  - exists O. cbn. repeat split. lia.
  - destruct (get_ok parts n ltac:(lia)) as (y & G & N). rewrite (firstn_rev_S _ _ _ _ N). cbn [collapse fcoll].
    rewrite G. cbn [obind]. destruct (feq _ f_zero); cbn [negb].
    + apply IH. lia.
    + exists n. cbn [fst snd]. repeat split. lia.
Qed.
Lemma round_parts_list n parts : (n <= length parts)%nat -> round_parts n parts = ffinal (rev (firstn n parts)).
Proof.
  intros L. destruct n as [|n]; [reflexivity|]. cbn [round_parts].
  destruct (get_ok parts n ltac:(lia)) as (h & G & N). rewrite (firstn_rev_S _ _ _ _ N). cbn [ffinal]. rewrite G. cbn [obind].
  destruct (collapse_list n h None parts ltac:(lia)) as (n' & L' & E & S). rewrite E. cbn [obind].
  destruct (fcoll h None (rev (firstn n parts))) as [[hi lo] r]. cbn [fst snd] in *. subst r.
  destruct n' as [|k]; [reflexivity|].
  destruct (get_ok parts k ltac:(lia)) as (p & GP & NP). rewrite (firstn_rev_S _ _ _ _ NP). cbn [ffinish].
  destruct lo; [|reflexivity]. rewrite GP. reflexivity.
Qed.
(** the whole on lists *)
Theorem fsum_list room dict l :
  fsum room dict l = Err \/ fsum room dict l = ffinal (rev (fadds (if dict then every_other l else l) [])).
Proof.
  unfold fsum. destruct (room 4%nat); [|now left].
  destruct (add_all_list room (if dict then every_other l else l) 0 4 (repeat f_zero 4) eq_refl ltac:(lia)) as [->|(n & p & -> & L & F)]; [now left|].
  right. cbn [obind]. rewrite round_parts_list by exact L. now rewrite F.
Qed.
Lemma fsum_room dict l : fsum (fun _ => true) dict l = ffinal (rev (fadds (if dict then every_other l else l) [])).
Proof.
  destruct (fsum_list (fun _ => true) dict l) as [E|E]; [exfalso|exact E]. revert E. unfold fsum.
  destruct (add_all_list (fun _ => true) (if dict then every_other l else l) 0 4 (repeat f_zero 4) eq_refl ltac:(lia)) as [E|(n & p & -> & L & F)].
  - intros _. exact (add_all_room _ 0 4 (repeat f_zero 4) eq_refl ltac:(lia) E).
  - cbn [obind]. rewrite round_parts_list by exact L. unfold ffinal. destruct (rev _) as [|h d]; [discriminate|].
    destruct (fcoll h None d) as [[hi lo] r]. unfold ffinish. destruct r; [discriminate|]. destruct lo; [|discriminate]. destruct (_ || _); discriminate.
Qed.

(** ** Numbers as integers *)
Lemma V_zero0 : V f_zero = 0. Proof. reflexivity. Qed.
Lemma order_V x y : fin x -> fin y -> let '(a, b) := order x y in fin a /\ fin b /\ Z.abs (V b) <= Z.abs (V a) /\ V a + V b = V x + V y.
Proof.
  intros X Y. unfold order. rewrite flt_V, !abs_V by (now apply abs_fin).
  destruct (Z.ltb_spec (Z.abs (V x)) (Z.abs (V y))); repeat split; auto; lia.
Qed.
Lemma fgrow_V ps : forall x, fin (snd (fgrow x ps)) -> fin x /\ Forall (fun p => fin p) ps /\ Forall (fun p => fin p) (fst (fgrow x ps)) /\
  map V (fst (fgrow x ps)) = fst (grow (V x) (map V ps)) /\ V (snd (fgrow x ps)) = snd (grow (V x) (map V ps)).
Proof.
  induction ps as [|p ps IH]; intros x; cbn [fgrow grow map].
  - cbn. intros F. auto 10.
  - pose proof (order_V x p) as O.
    assert (P : let '(a, b) := order x p in fin a -> fin b -> fin x /\ fin p) by (unfold order; destruct (flt _ _); tauto).
    destruct (order x p) as [a b]. specialize (IH (fadd a b)). destruct (fgrow (fadd a b) ps) as [l q]. cbn [fst snd] in *. intros F.
    destruct (IH F) as (FH & FP & FL & E1 & E2). destruct (fadd_fin a b FH) as (FA & FB & EV). destruct (P FA FB) as [FX Fp].
    destruct (O FX Fp) as (_ & _ & L & S). pose proof (parts_V a b FA FB L FH) as [LF LV].
    rewrite EV, S in LV. rewrite EV, S in E1, E2. rewrite feq_V, LV, V_zero0 by auto.
    destruct (grow (rnd (V x + V p)) (map V ps)) as [l' q']. cbn [fst snd] in *. repeat split; auto.
    + destruct (_ =? 0); auto.
    + destruct (_ =? 0); [exact E1|]. cbn [map]. now rewrite LV, E1.
Qed.
(** the list has the finite parts of a sum *)
Definition keeps (ps : list float) (t : Z) : Prop := Forall (fun p => fin p) ps /\ apart (map V ps) /\ sum (map V ps) = t.
Lemma all_fits ps : Forall fits (map V ps).
Proof. apply Forall_forall. intros z H. apply in_map_iff in H. destruct H as (f & <- & _). apply V_fits. Qed.
Lemma fadd1_fin x ps : Forall (fun p => fin p) (fadd1 x ps) -> fin (snd (fgrow x ps)).
Proof.
  unfold fadd1. destruct (fgrow x ps) as [l q]. cbn [snd]. destruct (feq q f_zero) eqn:E.
  - intros _. destruct (f_is_finite q) eqn:F; [reflexivity|]. unfold feq in E. exfalso. clear -E F.
    destruct q as [s|s|s pl H|s m e H]; try discriminate; destruct s; discriminate.
  - intros F. apply Forall_app in F. destruct F as [_ F]. now inversion F.
Qed.
Lemma fadd1_V x ps : fin (snd (fgrow x ps)) -> Forall (fun p => fin p) (fadd1 x ps) /\ map V (fadd1 x ps) = add (V x) (map V ps).
Proof.
  intros H. destruct (fgrow_V ps x H) as (_ & _ & FL & E1 & E2). unfold fadd1, add.
  destruct (fgrow x ps) as [l q]. cbn [fst snd] in *. destruct (grow (V x) (map V ps)) as [l' q']. cbn [fst snd] in *.
  rewrite feq_V, E2, V_zero0 by auto. destruct (q' =? 0).
  - split; [exact FL|exact E1].
  - rewrite Forall_app, map_app, E1. cbn [map]. rewrite E2. auto.
Qed.
Lemma fadds_fin l : forall ps, Forall (fun p => fin p) (fadds l ps) -> Forall (fun p => fin p) ps.
Proof.
  induction l as [|x l IH]; intros ps F; cbn in F; [exact F|]. apply IH, fadd1_fin in F.
  now destruct (fgrow_V ps x F) as (_ & FP & _).
Qed.
Lemma fadds_V l : forall ps t, keeps ps t -> Forall (fun p => fin p) (fadds l ps) ->
  Forall (fun p => fin p) l /\ keeps (fadds l ps) (sum (map V l) + t).
Proof.
  induction l as [|x l IH]; intros ps t K F; cbn [fadds] in *; [now auto|].
  pose proof (fadds_fin _ _ F) as F1. pose proof (fadd1_fin _ _ F1) as F2. destruct (fgrow_V ps x F2) as (FX & _).
  destruct (fadd1_V x ps F2) as [F3 E]. destruct K as (K1 & K2 & K3).
  destruct (IH (fadd1 x ps) (V x + t)) as [G1 G2]; auto.
  - split; [exact F3|]. rewrite E. split; [apply grow_apart; auto using V_fits, all_fits|]. rewrite add_sum. lia.
  - split; [now constructor|]. cbn [map sum]. replace (V x + sum (map V l) + t) with (sum (map V l) + (V x + t)) by lia. exact G2.
Qed.
(** finite at the top is finite everywhere *)
Lemma top_fin l : forall ps h d, Forall (fun p => fin p) ps -> rev (fadds l ps) = h :: d -> fin h -> Forall (fun p => fin p) (fadds l ps).
Proof.
  induction l as [|x l IH] using rev_ind; intros ps h d FP E F; [exact FP|]. clear IH.
  assert (A : forall l1 ps, fadds (l1 ++ [x]) ps = fadd1 x (fadds l1 ps)) by (intros l1; induction l1; intros; cbn; auto).
  rewrite A in *. clear A. set (qs := fadds l ps) in *. clearbody qs.
  apply fadd1_V. unfold fadd1 in E. destruct (fgrow x qs) as [o q] eqn:G. cbn [snd].
  destruct (feq q f_zero) eqn:Z.
  - pose proof (fadd1_fin x qs) as H. unfold fadd1 in H. rewrite G, Z in H. destruct (f_is_finite q) eqn:Q; [reflexivity|].
    exfalso. clear -Z Q. unfold feq in Z. destruct q as [s|s|s pl H|s m e H]; try discriminate; destruct s; discriminate.
  - rewrite rev_unit in E. now injection E as -> _.
Qed.

(** ties do not overflow *)
Lemma tie_even z : z - rnd z <> 0 -> 2 * Z.abs (z - rnd z) = 2 ^ ex z -> exists n, rnd z = 2 ^ ex z * n /\ Z.even n = true.
Proof.
  intros N T. pose proof (pow_pos (ex z) (ex_nonneg z)) as P. exists (ZnearestE (IZR z / IZR (2 ^ ex z))). split; [reflexivity|].
  unfold rnd in *. set (p := 2 ^ ex z) in *. set (v := (IZR z / IZR p)%R) in *.
  assert (PR : (0 < IZR p)%R) by (apply IZR_lt; exact P).
  assert (H : (Rabs (v - IZR (ZnearestE v)) = / 2)%R).
  { assert (Q : (2 * (Rabs (v - IZR (ZnearestE v)) * IZR p) = IZR p)%R).
    { rewrite <- (Rabs_pos_eq (IZR p)) at 1 by lra. rewrite <- Rabs_mult.
      replace ((v - IZR (ZnearestE v)) * IZR p)%R with (IZR (z - p * ZnearestE v)) by (rewrite minus_IZR, mult_IZR; unfold v; field; lra).
      rewrite <- abs_IZR, <- mult_IZR, T. reflexivity. }
    apply Rmult_eq_reg_r with (IZR p); lra. }
  revert H. unfold Znearest.
  pose proof (Zfloor_lb v) as FL. pose proof (Zfloor_ub v) as FU.
  destruct (Rcompare_spec (v - IZR (Zfloor v)) (/ 2)) as [C|C|C]; intros H.
  - exfalso. rewrite Rabs_pos_eq in H by lra. lra.
  - destruct (Z.even (Zfloor v)) eqn:E; cbn [negb] in *; [exact E|].
    rewrite Zceil_floor_neq by (intro Q; lra). rewrite Z.even_add, E. reflexivity.
  - exfalso. rewrite Zceil_floor_neq in H by (intro Q; lra). rewrite plus_IZR in H. rewrite Rabs_left in H by lra. lra.
Qed.
Lemma tie_max z : z - rnd z <> 0 -> 2 * Z.abs (z - rnd z) = 2 ^ ex z -> Z.abs (rnd z) <= maxv -> Z.abs (rnd z + 2 * (z - rnd z)) <= maxv.
Proof.
  intros N T M. destruct (tie_even z N T) as (n & E & EV). apply Z.even_spec in EV. destruct EV as [k ->].
  pose proof (ex_nonneg z) as EN. pose proof (pow_pos _ EN) as P.
  destruct (Z.le_gt_cases (Z.abs (rnd z + 2 * (z - rnd z))) maxv) as [?|G]; [assumption|exfalso].
  assert (L : ex z <= 253).
  { assert (Z.abs z <= 2 ^ 277).
    { pose proof (hi_large z N). assert (maxv < 2 ^ 277) by (apply Z.ltb_lt; reflexivity).
      destruct (Z.le_gt_cases (Z.abs z) (2 ^ 277)) as [?|Q]; [assumption|exfalso].
      assert (F : fits (2 ^ 277)) by (apply rnd_fix; apply pow_divide; split; [apply ex_nonneg|]; unfold ex; rewrite Z.abs_eq, Z.log2_pow2 by (try apply Z.pow_nonneg; lia); lia).
      destruct (Z.abs_spec z) as [[_ A]|[_ A]].
      - pose proof (rnd_mono (2 ^ 277) z ltac:(lia)). unfold fits in F. lia.
      - pose proof (rnd_mono z (- 2 ^ 277) ltac:(lia)). rewrite rnd_opp in *. unfold fits in F. lia. }
    assert (NZ : z <> 0) by (intros ->; now rewrite rnd_small in N).
    assert (Q : Z.log2 (Z.abs z) <= 277) by (rewrite <- (Z.log2_pow2 277) by lia; now apply Z.log2_le_mono).
    destruct (Z.eq_dec (Z.log2 (Z.abs z)) 277) as [Q'|Q']; [|unfold ex; lia].
    pose proof (Z.log2_spec (Z.abs z) ltac:(lia)) as [A _]. rewrite Q' in A. assert (AZ : Z.abs z = 2 ^ 277) by lia.
    elim N. replace (rnd z) with z; [lia|]. symmetry. apply rnd_fix. apply Z.divide_abs_r. rewrite AZ. apply pow_divide. unfold ex. lia. }
  assert (X : Z.abs (rnd z + 2 * (z - rnd z)) <= 2 ^ ex z * (2 * Z.abs k + 1)).
  { rewrite E in *. set (p := 2 ^ ex z) in *. assert (Z.abs (p * (2 * k)) = p * (2 * Z.abs k)) by (rewrite !Z.abs_mul, (Z.abs_eq p) by lia; reflexivity). lia. }
  assert (MG : (2 ^ ex z | 2 ^ 253)) by (apply pow_divide; lia). destruct MG as [j MG].
  rewrite E in M. rewrite !Z.abs_mul, (Z.abs_eq (2 ^ ex z)) in M by lia. change (Z.abs 2) with 2 in M.
  unfold maxv in *. rewrite MG in *. set (p := 2 ^ ex z) in *. change (2 ^ 24 - 1) with 16777215 in *.
  assert (J : 2 * Z.abs k <= 16777215 * j) by nia. assert (J2 : 16777215 * j < 2 * Z.abs k + 1) by nia.
  assert (J3 : 2 * Z.abs k = 16777215 * j) by lia.
  (* j is a power of two: only 1 is odd *)
  assert (JP : j = 2 ^ (253 - ex z)).
  { apply (Z.mul_reg_r _ _ p); [lia|]. rewrite <- MG. unfold p. rewrite <- Z.pow_add_r by lia. f_equal. lia. }
  destruct (Z.eq_dec (ex z) 253) as [Q|Q].
  - rewrite Q in JP. change (2 ^ (253 - 253)) with 1 in JP. lia.
  - (* then the digits of rnd z do not fit *)
    assert (B : Z.abs (rnd z) <= 2 ^ (ex z + 24)).
    { assert (NZ : z <> 0) by (intros ->; now rewrite rnd_small in N).
      assert (LZ : Z.abs z <= 2 ^ (ex z + 24)).
      { pose proof (Z.log2_spec (Z.abs z) ltac:(lia)) as [_ A]. pose proof (Z.pow_le_mono_r 2 (Z.succ (Z.log2 (Z.abs z))) (ex z + 24) ltac:(lia) ltac:(unfold ex; lia)). lia. }
      apply rnd_bound; [|exact LZ]. apply rnd_fix. apply pow_divide. split; [apply ex_nonneg|]. unfold ex at 1. rewrite Z.abs_eq by (apply Z.pow_nonneg; lia). rewrite Z.log2_pow2 by lia. lia. }
    rewrite E, Z.pow_add_r in B by lia. fold p in B. rewrite !Z.abs_mul, (Z.abs_eq p) in B by lia. change (Z.abs 2) with 2 in B. change (2 ^ 24) with 16777216 in B.
    assert (2 <= j). { rewrite JP. replace (253 - ex z) with (Z.succ (252 - ex z)) by lia. rewrite Z.pow_succ_r by lia. pose proof (pow_pos (252 - ex z) ltac:(lia)). lia. }
    assert (2 * Z.abs k <= 16777216) by nia. lia.
Qed.

Lemma in_rev_fin (low : list float) p r : Forall (fun p => fin p) low -> rev low = p :: r -> fin p.
Proof. intros F E. apply Forall_rev in F. rewrite E in F. now inversion F. Qed.
(** the last part *)
Lemma ffinish_V z hi lo p r res : V hi = rnd z -> fin hi -> fin lo -> V lo = z - rnd z -> z - rnd z <> 0 -> fin p ->
  ffinish hi (Some lo) (p :: r) = Ok res -> fin res /\ V res = finish (V hi) (V lo) (map V (p :: r)).
Proof.
  intros EH FH FL EL N FP. cbn [ffinish finish map]. rewrite !flt_V, V_zero0 by auto.
  destruct (_ || _); [|intros [= <-]; auto].
  assert (FE : fits (z - rnd z)) by (rewrite <- EL; apply V_fits).
  destruct (tie_test z FE N) as [T1 T2]. pose proof (hi_large z N) as HL. pose proof (V_max hi) as MH. rewrite EH in MH.
  destruct (fmul_two lo FL) as [F2 E2].
  { rewrite EL. replace ((z - rnd z) * 2) with (2 * (z - rnd z)) by lia. rewrite (fits_double _ FE). lia. }
  rewrite EL in E2. rewrite EH, EL, T1.
  assert (Y2 : rnd ((z - rnd z) * 2) = 2 * (z - rnd z)) by (replace ((z - rnd z) * 2) with (2 * (z - rnd z)) by lia; apply (fits_double _ FE)).
  destruct (Z.eqb_spec (2 * Z.abs (z - rnd z)) (2 ^ ex z)) as [T|T].
  - specialize (T2 T). pose proof (tie_max z N T MH) as TM.
    destruct (fadd_ok hi (fmul lo f_two) FH F2) as [F3 E3]; [rewrite EH, E2, T2; exact TM|]. rewrite EH, E2 in E3.
    assert (SB : rnd (V (fadd hi (fmul lo f_two)) - V hi) = 2 * (z - rnd z)).
    { rewrite E3, T2, EH. replace (rnd z + 2 * (z - rnd z) - rnd z) with (2 * (z - rnd z)) by lia. apply (fits_double _ FE). }
    destruct (fsub_ok (fadd hi (fmul lo f_two)) hi F3 FH) as [F4 E4]; [rewrite SB; lia|].
    rewrite feq_V, E4, SB, E2, Y2, Z.eqb_refl by auto. intros [= <-]. split; [exact F3|]. now rewrite E3, Y2.
  - assert (C : feq (fmul lo f_two) (fsub (fadd hi (fmul lo f_two)) hi) = false).
    { destruct (f_is_finite (fadd hi (fmul lo f_two))) eqn:F3.
      - destruct (fadd_fin _ _ F3) as (_ & _ & E3). rewrite EH, E2 in E3.
        pose proof (parts_bound (rnd z) (2 * (z - rnd z)) (rnd_fits z) (fits_double _ FE) ltac:(lia)) as [B _].
        rewrite Y2 in E3. rewrite <- E3 in B. pose proof (V_max (fadd hi (fmul lo f_two))) as MX.
        destruct (fsub_ok (fadd hi (fmul lo f_two)) hi F3 FH) as [F4 E4]; [rewrite EH; lia|].
        rewrite feq_V, E4, E2, EH, E3, <- Y2 by auto. exact T1.
      - apply feq_inf; [exact F2|]. now apply fsub_inf. }
    rewrite C. intros [= <-]. auto.
Qed.
Lemma fsub_inf_r a b : f_is_finite b = false -> f_is_finite (fsub a b) = false.
Proof.
  intros B. unfold fsub, b32_minus, Binary.Bminus, f_is_finite.
  destruct a as [s|s|s pl H|s m e H], b as [s'|s'|s' pl' H'|s' m' e' H']; try discriminate; try reflexivity. cbn. destruct (Bool.eqb s (negb s')); reflexivity.
Qed.
Lemma inf_add a b : f_is_finite a = false -> f_is_finite (fadd a b) = false.
Proof.
  intros A. unfold fadd, b32_plus, Binary.Bplus, f_is_finite.
  destruct a as [s|s|s pl H|s m e H], b as [s'|s'|s' pl' H'|s' m' e' H']; try discriminate; try reflexivity. cbn. destruct (Bool.eqb s s'); reflexivity.
Qed.
Lemma finish_fin hi lo r res : ffinish hi lo r = Ok res -> fin res -> fin hi.
Proof.
  intros E F. destruct (f_is_finite hi) eqn:H; [reflexivity|exfalso].
  unfold ffinish in E. destruct r; [injection E as <-; congruence|]. destruct lo; [|discriminate].
  destruct (_ || _); injection E as <-; [|congruence]. destruct (feq _ _); [|congruence]. rewrite inf_add in F; congruence.
Qed.
Lemma fcoll_V low : forall up hi lo zlo res, apart (map V (low ++ up)) -> Forall (fun p => fin p) (low ++ up) -> up <> [] ->
  fin hi -> V hi = sum (map V up) ->
  (let '(h, l, r) := fcoll hi lo (rev low) in ffinish h l r) = Ok res -> fin res ->
  V res = let '(h, l, r) := coll (V hi) zlo (map V (rev low)) in finish h l r.
Proof.
  induction low as [|y low IH] using rev_ind; intros up hi lo zlo res A F N FH EH.
  - cbn. intros [= <-]. auto.
  - rewrite rev_unit. cbn [fcoll coll map]. rewrite <- app_assoc in *. cbn [app] in *.
    assert (L : Z.abs (V y) < Z.abs (V hi)).
    { rewrite EH. rewrite map_app in A. cbn [map] in A. apply (sum_top _ _ _ A). destruct up; [congruence|discriminate]. }
    apply Forall_app in F. destruct F as [F1 F2]. inversion F2 as [|? ? FY F3]; subst.
    set (h := fadd hi y). set (l := fsub y (fsub h hi)).
    intros E FR.
    destruct (f_is_finite h) eqn:HF.
    + destruct (fadd_fin _ _ HF) as (_ & _ & EV). fold h in EV.
      destruct (parts_V hi y FH FY ltac:(lia) HF) as [LF LV]. fold h in LF, LV. fold l in LF, LV.
      assert (ER : error (V hi) (V y) = V l).
      { unfold error. rewrite two_sum by (auto using V_fits; lia). now rewrite LV, EV. }
      rewrite ER. rewrite feq_V, V_zero0 in E by auto. destruct (Z.eqb_spec (V l) 0) as [Z0|NZ].
      * rewrite <- EV. apply (IH (y :: up) h (Some l)); auto.
        -- apply Forall_app; auto.
        -- discriminate.
        -- cbn [map sum]. lia.
      * rewrite LV, EV in NZ. destruct (rev low) as [|p r] eqn:RL.
        -- cbn [ffinish finish map] in *. injection E as <-. exact EV.
        -- cbn [map]. rewrite <- EV. apply (ffinish_V (V hi + V y) h l p r res EV HF LF); auto.
           ++ now rewrite LV, EV.
           ++ now apply (in_rev_fin low p r).
    + exfalso. assert (X : f_is_finite l = false).
      { unfold l. apply fsub_inf_r. now apply fsub_inf. }
      assert (Z : feq l f_zero = false) by (unfold feq; clear -X; destruct l as [s|s|s pl H|s m e H]; try discriminate; destruct s; reflexivity).
      rewrite Z in E. pose proof (finish_fin _ _ _ _ E FR). congruence.
Qed.

(** ** What is returned is the sum rounded *)
Lemma fsum_V l res : ffinal (rev (fadds l [])) = Ok res -> fin res -> Forall (fun p => fin p) l /\ V res = rnd (sum (map V l)).
Proof.
  intros E F. destruct (rev (fadds l [])) as [|h d] eqn:R.
  - cbn in E. injection E as <-. assert (N : fadds l [] = []) by (destruct (fadds l []) as [|a b] using rev_ind; [reflexivity|rewrite rev_unit in R; discriminate]).
    assert (FA : Forall (fun p => fin p) (fadds l [])) by (rewrite N; constructor).
    destruct (fadds_V l [] 0) as [G (_ & _ & S)]; [repeat split; constructor|exact FA|]. split; [exact G|].
    rewrite N in S. cbn in S. rewrite <- (Z.add_0_r (sum (map V l))), <- S. symmetry. apply fits_0.
  - cbn [ffinal] in E. assert (FH : fin h).
    { clear -E F. revert E F. generalize (@None float). revert h. induction d as [|y d IH]; intros h lo; cbn [fcoll].
      - cbn. now intros [= <-].
      - intros E F. destruct (f_is_finite h) eqn:H; [reflexivity|exfalso].
        destruct (feq _ f_zero).
        + apply IH in E; [|exact F]. rewrite inf_add in E; congruence.
        + pose proof (finish_fin _ _ _ _ E F) as X. rewrite inf_add in X; congruence. }
    pose proof (top_fin l [] h d ltac:(constructor) R FH) as FA.
    destruct (fadds_V l [] 0) as [G (_ & A & S)]; [repeat split; constructor|exact FA|]. split; [exact G|].
    assert (P : fadds l [] = rev d ++ [h]) by (rewrite <- (rev_involutive (fadds l [])), R; reflexivity).
    rewrite Z.add_0_r in S. rewrite <- S. rewrite P in *. rewrite <- final_correct by (auto using all_fits).
    rewrite <- map_rev, rev_unit. cbn [map final].
    assert (X := fcoll_V (rev d) [h] h None 0 res A FA ltac:(discriminate) FH).
    rewrite rev_involutive in *. apply X; auto. cbn. lia.
Qed.

(** ** Numbers that are not too large have a sum *)
Fixpoint nadj (ps : list Z) : Prop :=
  match ps with
  | [] => True
  | p :: r => p <> 0 /\ (exists u, 0 <= u /\ Z.abs p < 2 ^ u /\ Forall (fun q => (2 ^ (u + 1) | q)) r) /\ nadj r
  end.
Lemma nadj_apart ps : nadj ps -> apart ps.
Proof.
  induction ps as [|p ps IH]; cbn; [trivial|]. intros (N & (u & U & L & D) & A). repeat split; auto. exists u. repeat split; auto.
  eapply Forall_impl; [|exact D]. intros q Q. apply (divide_le _ (u + 1)); [lia|exact Q].
Qed.
Lemma nadj_app ps qs : nadj (ps ++ qs) -> nadj ps /\ nadj qs.
Proof.
  induction ps as [|p ps IH]; cbn; [tauto|]. intros (N & (u & U & L & D) & A). destruct (IH A) as [A1 A2].
  apply Forall_app in D. repeat split; auto. exists u. tauto.
Qed.
Lemma nadj_sum ps qs : nadj (ps ++ qs) -> ps <> [] -> exists u, 0 <= u /\ Z.abs (sum ps) < 2 ^ u /\ Forall (fun q => (2 ^ (u + 1) | q)) qs.
Proof.
  induction ps as [|p ps IH]; [congruence|]. cbn [app nadj]. intros (N & (u & U & L & D) & A) _.
  destruct ps as [|p' ps].
  - exists u. cbn. rewrite Z.add_0_r. auto.
  - destruct (IH A ltac:(discriminate)) as (v & V0 & LV & DV). exists v. split; [exact V0|]. split; [|exact DV].
    apply Forall_app in D. destruct D as [D _]. apply sum_divide in D.
    change (sum (p :: p' :: ps)) with (p + sum (p' :: ps)). set (t := sum (p' :: ps)) in *.
    assert (T : t <> 0).
    { destruct (nadj_app _ _ A) as [A1 _]. apply nadj_apart in A1. destruct (exists_last (l := p' :: ps) ltac:(discriminate)) as (x & y & E).
      unfold t. rewrite E in *. now apply apart_sign. }
    assert (UV : u + 1 <= v).
    { destruct (Z.le_gt_cases (u + 1) v); [assumption|]. elim T. apply (multiple_small (u + 1)); [lia|exact D|].
      pose proof (Z.pow_le_mono_r 2 v (u + 1) ltac:(lia) ltac:(lia)). lia. }
    pose proof (multiple_gap (u + 1) v t ltac:(lia) D LV). pose proof (Z.pow_le_mono_r 2 u (u + 1) ltac:(lia) ltac:(lia)). lia.
Qed.
Lemma grow_nadj ps : forall x, fits x -> Forall fits ps -> nadj ps -> nadj (add x ps).
Proof.
  unfold add. induction ps as [|p ps IH]; intros x X F A.
  - cbn. destruct (Z.eqb_spec x 0); cbn; [trivial|]. repeat split; auto. exists (Z.abs x).
    repeat split; auto with zarith. apply Z.pow_gt_lin_r; lia.
  - inversion F as [|? ? P F']; subst. destruct A as (N & (u & U & L & D) & A).
    specialize (IH _ (rnd_fits (x + p)) F' A). cbn [grow].
    set (hi := rnd (x + p)) in *. set (lo := x + p - hi) in *.
    assert (K : lo <> 0 -> exists v, 0 <= v /\ Z.abs lo < 2 ^ v /\ (2 ^ (v + 1) | hi) /\ Forall (fun q => (2 ^ (v + 1) | q)) ps).
    { intros NZ.
      pose proof (rnd_error (x + p)) as RE. fold hi in RE. fold lo in RE. pose proof (ex_nonneg (x + p)) as EN.
      pose proof (error_small x p X P) as S. fold hi in S. fold lo in S.
      assert (W : exists w, 0 <= w /\ Z.abs lo < 2 ^ w /\ (2 ^ (w + 1) | hi)).
      { destruct (Z.eq_dec (2 * Z.abs lo) (2 ^ ex (x + p))) as [T|T].
        - exists (ex (x + p)). pose proof (pow_pos (ex (x + p)) EN). repeat split; try lia.
          destruct (tie_even (x + p) NZ T) as (n & E & EV). apply Z.even_spec in EV. destruct EV as [k ->].
          fold hi in E. exists k. rewrite E, Z.pow_add_r by lia. lia.
        - destruct (Z.eq_dec (ex (x + p)) 0) as [E0|E0]; [rewrite E0 in *; change (2 ^ 0) with 1 in *; lia|].
          exists (ex (x + p) - 1). split; [lia|]. split.
          + assert (2 ^ ex (x + p) = 2 * 2 ^ (ex (x + p) - 1)) by (rewrite <- Z.pow_succ_r by lia; f_equal; lia). lia.
          + replace (ex (x + p) - 1 + 1) with (ex (x + p)) by lia. apply rnd_grid. }
      destruct W as (w & W0 & LW & DW). exists (Z.min w u). split; [lia|]. split; [|split].
      - destruct (Z.min_spec w u) as [[_ ->]|[_ ->]]; lia.
      - apply (divide_le _ (w + 1)); [lia|exact DW].
      - eapply Forall_impl; [|exact D]. intros q Q. apply (divide_le _ (u + 1)); [lia|exact Q]. }
    destruct (Z.eqb_spec lo 0) as [E|NZ].
    + destruct (grow hi ps) as [l q]. exact IH.
    + destruct (K NZ) as (v & V & LV & DH & DP). pose proof (grow_divide (v + 1) ps ltac:(lia) hi DH DP) as [G1 G2].
      destruct (grow hi ps) as [l q]. cbn [fst snd] in *.
      destruct (Z.eqb_spec q 0) as [Q|Q]; cbn [app nadj]; (split; [exact NZ|]); (split; [|exact IH]); exists v; repeat split; auto.
      apply Forall_app. split; [exact G1|]. repeat constructor. exact G2.
Qed.
(** the largest part, and the smaller ones together *)
Lemma nadj_top ps q : nadj (ps ++ [q]) -> Z.abs q <= 2 * Z.abs (sum (ps ++ [q])) /\ 2 * Z.abs (sum ps) <= Z.abs q.
Proof.
  intros A. rewrite sum_app. cbn [sum]. rewrite Z.add_0_r. destruct ps as [|p ps]; [cbn [sum app]; lia|].
  destruct (nadj_sum _ _ A) as (u & U & L & D); [discriminate|]. inversion D as [|? ? DQ _]; subst.
  assert (Q : 2 ^ (u + 1) <= Z.abs q).
  { destruct (Z.le_gt_cases (2 ^ (u + 1)) (Z.abs q)); [assumption|]. apply nadj_apart, apart_last in A. elim A. apply (multiple_small (u + 1)); auto; lia. }
  rewrite Z.pow_add_r in Q by lia. change (2 ^ 1) with 2 in Q. lia.
Qed.
Lemma nadj_prefix a b : nadj (a ++ b) -> Z.abs (sum a) <= Z.abs (sum (a ++ b)).
Proof.
  intros A. destruct b as [|q b _] using rev_ind; [rewrite app_nil_r; lia|].
  rewrite app_assoc in *. destruct (nadj_top _ _ A) as [T _].
  destruct a as [|p a]; [cbn; lia|]. rewrite <- app_assoc in A.
  destruct (nadj_sum (p :: a) (b ++ [q]) A) as (u & U & L & D); [discriminate|]. apply Forall_app in D. destruct D as [_ D]. inversion D as [|? ? DQ _]; subst.
  assert (Q : 2 ^ (u + 1) <= Z.abs q).
  { destruct (Z.le_gt_cases (2 ^ (u + 1)) (Z.abs q)); [assumption|]. rewrite app_assoc in A. apply nadj_apart, apart_last in A. elim A. apply (multiple_small (u + 1)); auto; lia. }
  rewrite Z.pow_add_r in Q by lia. change (2 ^ 1) with 2 in Q. lia.
Qed.
Lemma grow_top x a : fits x -> Forall fits a -> nadj a -> Z.abs (snd (grow x a)) <= 2 * Z.abs (x + sum a).
Proof.
  intros X F A. pose proof (grow_nadj a x X F A) as G. pose proof (add_sum x a) as S. unfold add in *.
  destruct (grow x a) as [l q]. cbn [snd]. destruct (Z.eqb_spec q 0) as [Q0|Q0]; [rewrite Q0; lia|]. destruct (nadj_top _ _ G). lia.
Qed.
Lemma fgrow_fin ps : forall x, fin x -> Forall (fun p => fin p) ps ->
  (forall a b, ps = a ++ b -> Z.abs (snd (grow (V x) (map V a))) <= maxv) -> fin (snd (fgrow x ps)).
Proof.
  induction ps as [|p ps IH]; intros x X F B; cbn [fgrow]; [exact X|]. inversion F as [|? ? FP F']; subst.
  pose proof (order_V x p X FP) as O. destruct (order x p) as [a b]. destruct O as (FA & FB & L & S).
  pose proof (B [p] ps eq_refl) as B1. cbn in B1. rewrite <- S in B1. destruct (fadd_ok a b FA FB B1) as [FH EH].
  specialize (IH (fadd a b) FH F'). destruct (fgrow (fadd a b) ps) as [l q]. cbn [snd] in *. apply IH.
  intros a' b' ->. specialize (B (p :: a') b' eq_refl). cbn [map grow] in B. rewrite EH, S. destruct (grow (rnd (V x + V p)) (map V a')) as [l' q']. exact B.
Qed.
Definition total (l : list float) : Z := sum (map (fun f => Z.abs (V f)) l).
Lemma total_nonneg l : 0 <= total l.
Proof. unfold total. induction l; cbn; lia. Qed.
Lemma fadds_small l : forall ps t, Forall (fun p => fin p) l -> Forall (fun p => fin p) ps -> nadj (map V ps) -> Z.abs (sum (map V ps)) <= t ->
  2 * (total l + t) <= maxv -> Forall (fun p => fin p) (fadds l ps) /\ nadj (map V (fadds l ps)) /\ Z.abs (sum (map V (fadds l ps))) <= total l + t.
Proof.
  induction l as [|x l IH]; intros ps t FL FP A T M; cbn [fadds]; [cbn; auto|]. inversion FL as [|? ? FX FL']; subst.
  change (total (x :: l)) with (Z.abs (V x) + total l) in *. pose proof (total_nonneg l).
  assert (G : fin (snd (fgrow x ps))).
  { apply fgrow_fin; auto. intros a b ->. rewrite map_app in A, T. pose proof (nadj_prefix _ _ A). destruct (nadj_app _ _ A) as [A1 _].
    pose proof (grow_top (V x) (map V a) (V_fits x) (all_fits a) A1). lia. }
  destruct (fadd1_V x ps G) as [F1 E1].
  destruct (IH (fadd1 x ps) (Z.abs (V x) + t)) as (G1 & G2 & G3); auto; try lia.
  - rewrite E1. apply grow_nadj; auto using V_fits, all_fits.
  - rewrite E1, add_sum. lia.
  - repeat split; auto. lia.
Qed.
Lemma fcoll_fin low : forall up hi lo, apart (map V (low ++ up)) -> Forall (fun p => fin p) (low ++ up) -> up <> [] ->
  fin hi -> V hi = sum (map V up) -> (forall a b, low ++ up = a ++ b -> Z.abs (sum (map V b)) <= maxv) ->
  exists res, (let '(h, l, r) := fcoll hi lo (rev low) in ffinish h l r) = Ok res /\ fin res.
Proof.
  induction low as [|y low IH] using rev_ind; intros up hi lo A F N FH EH B.
  - cbn. eauto.
  - rewrite rev_unit. cbn [fcoll]. rewrite <- app_assoc in *. cbn [app] in *.
    assert (L : Z.abs (V y) < Z.abs (V hi)).
    { rewrite EH. rewrite map_app in A. cbn [map] in A. apply (sum_top _ _ _ A). destruct up; [congruence|discriminate]. }
    apply Forall_app in F. destruct F as [F1 F2]. inversion F2 as [|? ? FY F3]; subst.
    pose proof (B low (y :: up) eq_refl) as BY. cbn [map sum] in BY.
    assert (BM : Z.abs (rnd (V hi + V y)) <= maxv).
    { apply rnd_bound; [|lia]. unfold fits, maxv. apply rnd_fix. replace (ex ((2 ^ 24 - 1) * 2 ^ 253)) with 253 by reflexivity. apply Z.divide_factor_r. }
    destruct (fadd_ok hi y FH FY BM) as [HF EV]. set (h := fadd hi y) in *.
    destruct (parts_V hi y FH FY ltac:(lia) HF) as [LF LV]. fold h in LF, LV. set (l := fsub y (fsub h hi)) in *.
    rewrite feq_V, V_zero0 by auto. destruct (Z.eqb_spec (V l) 0) as [Z0|NZ].
    + apply (IH (y :: up) h (Some l)); auto.
      * apply Forall_app; auto.
      * discriminate.
      * cbn [map sum]. lia.
    + rewrite LV, EV in NZ. destruct (rev low) as [|p r] eqn:RL; [cbn; eauto|].
      destruct (ffinish h (Some l) (p :: r)) as [res| |] eqn:Q; [|cbn [ffinish] in Q; destruct (_ || _); discriminate..].
      exists res. split; [reflexivity|]. apply (ffinish_V (V hi + V y) h l p r res EV HF LF); auto.
      * now rewrite LV, EV.
      * now apply (in_rev_fin low p r).
Qed.
Theorem fsum_small l : Forall (fun p => fin p) l -> 2 * total l <= maxv -> exists res, ffinal (rev (fadds l [])) = Ok res /\ fin res.
Proof.
  intros F M. destruct (fadds_small l [] 0 F ltac:(constructor) Logic.I ltac:(reflexivity) ltac:(lia)) as (FA & NA & T).
  rewrite Z.add_0_r in T. destruct (fadds l []) as [|h low _] using rev_ind; [cbn; eauto|].
  rewrite rev_unit. cbn [ffinal]. apply (fcoll_fin low [h]); auto using nadj_apart.
  - discriminate.
  - apply Forall_app in FA. destruct FA as [_ FA]. now inversion FA.
  - cbn. lia.
  - intros a b E. rewrite E, map_app in NA, T. pose proof (nadj_prefix _ _ NA) as P. rewrite sum_app in *. lia.
Qed.

(** never undefined *)
Lemma fcoll_some d : forall hi lo, let '(h, l, r) := fcoll hi lo d in r <> [] -> l <> None.
Proof.
  induction d as [|y d IH]; intros hi lo; cbn [fcoll]; [congruence|].
  destruct (feq _ f_zero); [apply IH|discriminate].
Qed.
Lemma ffinal_ok d : exists r, ffinal d = Ok r.
Proof.
  destruct d as [|h d]; [cbn; eauto|]. cbn [ffinal]. pose proof (fcoll_some d h None) as S. destruct (fcoll h None d) as [[hi lo] r].
  destruct r as [|p r]; [cbn; eauto|]. destruct lo as [lo|]; [|elim S; [discriminate|reflexivity]]. cbn [ffinish]. destruct (_ || _); eauto.
Qed.
