(** math.fsum (C68, C69, C70). *)
From Coq Require Import ZArith Reals Lia Lra Bool List Permutation.
From Flocq Require Import IEEE754.BinarySingleNaN IEEE754.Binary IEEE754.Bits Core.
From Verif Require Import Base FloatModel MathModel MathProofs SumModel SumInt SumExact SumRound SumFloat SumProofs.
Import ListNotations.
Local Open Scope R_scope.

(** The numbers added: those of a list, the keys of a dictionary. *)
Definition content (kv : list (float * float)) : list float := flat_map (fun p => [fst p; snd p]) kv.
(** The real number a number is, and sums of them. *)
Definition real (f : float) : R := B2R 24 128 f.
Fixpoint rsum (l : list float) : R := match l with [] => 0 | x :: l => real x + rsum l end.
Fixpoint rsize (l : list float) : R := match l with [] => 0 | x :: l => Rabs (real x) + rsize l end.
Definition finites (l : list float) : Prop := Forall (fun f => f_is_finite f = true) l.
(** The largest finite number. *)
Definition largest : R := IZR (2 ^ 24 - 1) * bpow radix2 104.

Lemma rsum_V l : rsum l = IZR (sum (map V l)) * SumInt.unit.
Proof. induction l as [|x l IH]; cbn [rsum map sum]; [cbn; lra|]. rewrite plus_IZR, IH. unfold real. rewrite V_val. lra. Qed.
Lemma rsize_V l : rsize l = IZR (total l) * SumInt.unit.
Proof.
  induction l as [|x l IH]; cbn [rsize]; [cbn; lra|]. change (total (x :: l)) with (Z.abs (V x) + total l)%Z.
  rewrite plus_IZR, IH, abs_IZR. unfold real. rewrite V_val, Rabs_mult, (Rabs_pos_eq SumInt.unit) by (left; apply unit_pos). lra.
Qed.
Lemma largest_V : largest = IZR maxv * SumInt.unit.
Proof.
  unfold largest, maxv. rewrite mult_IZR, (IZR_pow 253), Rmult_assoc by lia. f_equal. unfold SumInt.unit. rewrite <- bpow_plus. reflexivity.
Qed.
Lemma exact_real l r : ffinal (rev (fadds l [])) = Ok r -> f_is_finite r = true -> finites l /\ real r = rnd32 (rsum l).
Proof.
  intros E F. destruct (fsum_V l r E F) as [G H]. split; [exact G|]. unfold real. now rewrite V_val, H, rsum_V, rnd_round.
Qed.
Lemma every_keys kv : every_other (content kv) = map fst kv.
Proof. induction kv as [|[k v] kv IH]; [reflexivity|]. change (k :: every_other (content kv) = k :: map fst kv). now rewrite IH. Qed.

(** ** C68: the sum is rounded once *)

(** Whatever the numbers and however many, a finite result is the true sum of
    them all, rounded once to the nearest number, and all of them are finite. *)
Theorem C68_rounded_once room l r : fsum room false l = Ok r -> f_is_finite r = true -> finites l /\ real r = rnd32 (rsum l).
Proof. intros E. destruct (fsum_list room false l) as [X|X]; [congruence|]. rewrite X in E. exact (exact_real l r E). Qed.
Theorem C68_rounded_once_dict room kv r : fsum room true (content kv) = Ok r -> f_is_finite r = true ->
  finites (map fst kv) /\ real r = rnd32 (rsum (map fst kv)).
Proof.
  intros E. destruct (fsum_list room true (content kv)) as [X|X]; [congruence|]. rewrite X in E. cbv iota in E.
  rewrite every_keys in E. exact (exact_real (map fst kv) r E).
Qed.
(** When memory is there and the sizes of the numbers add up to at most half the
    largest number, the result is finite. *)
Theorem C68_total l : finites l -> 2 * rsize l <= largest ->
  exists r, fsum (fun _ => true) false l = Ok r /\ f_is_finite r = true /\ real r = rnd32 (rsum l).
Proof.
  intros F M. destruct (fsum_small l F) as (r & E & FR).
  { rewrite rsize_V, largest_V, <- Rmult_assoc, <- mult_IZR in M. apply Rmult_le_reg_r in M; [|apply unit_pos]. now apply le_IZR. }
  exists r. rewrite fsum_room. split; [exact E|]. split; [exact FR|]. exact (proj2 (exact_real l r E FR)).
Qed.
(** The order of the numbers makes no difference. *)
Theorem C68_order room room' l l' r r' : Permutation l l' -> fsum room false l = Ok r -> fsum room' false l' = Ok r' ->
  f_is_finite r = true -> f_is_finite r' = true -> feq r r' = true.
Proof.
  intros P E E' F F'. rewrite feq_V by auto. apply Z.eqb_eq.
  destruct (fsum_list room false l) as [X|X]; [congruence|]. rewrite X in E. destruct (fsum_V l r E F) as [_ ->].
  destruct (fsum_list room' false l') as [X'|X']; [congruence|]. rewrite X' in E'. destruct (fsum_V l' r' E' F') as [_ ->]. f_equal.
  clear -P. induction P; cbn; lia.
Qed.
(** Adding the same numbers one after another with + does not have this. *)
Example C68_case :
  let big := f_of_Z (2 ^ 30) in let small := f_of_Z (- 2 ^ 30) in let l := [big; f_one; small] in
  match fsum (fun _ => true) false l with Ok r => feq r f_one | _ => false end = true /\ feq (fadd (fadd big f_one) small) f_zero = true /\ finites l.
Proof. repeat split; try (vm_compute; reflexivity). repeat constructor; reflexivity. Qed.

Example C68_total_case : let l := [f_of_Z (2 ^ 30); f_one; f_of_Z (- 2 ^ 30)] in finites l /\ 2 * rsize l <= largest.
Proof.
  split; [repeat constructor; reflexivity|]. rewrite rsize_V, largest_V, <- Rmult_assoc, <- mult_IZR.
  apply Rmult_le_compat_r; [left; apply unit_pos|]. apply IZR_le, Z.leb_le. vm_compute. reflexivity.
Qed.

(** ** C69: fsum always ends, inside its list of partial sums *)

(** No index outside the list of partial sums is used and no variable without a
    value is read, whatever the numbers are; and unless memory runs out there is
    a result. *)
Theorem C69_defined room dict l : fsum room dict l <> UB.
Proof.
  destruct (fsum_list room dict l) as [->| ->]; [discriminate|].
  destruct (ffinal_ok (rev (fadds (if dict then every_other l else l) []))) as [r ->]. discriminate.
Qed.
Theorem C69_result dict l : exists r, fsum (fun _ => true) dict l = Ok r.
Proof. rewrite fsum_room. apply ffinal_ok. Qed.
Example C69_case : fsum (fun k => Nat.leb k 3) false [f_one] = Err /\
  match fsum (fun k => Nat.leb k 4) false [f_one; f_one] with Ok r => feq r (f_of_Z 2) | _ => false end = true.
Proof. split; vm_compute; reflexivity. Qed.

(** ** C70: where Python's fsum gives another answer *)

Lemma finite_parts l r : ffinal (rev (fadds l [])) = Ok r -> f_is_finite r = true -> Forall (fun p => f_is_finite p = true) (fadds l []).
Proof.
  intros E F. destruct (rev (fadds l [])) as [|h d] eqn:R.
  - destruct (fadds l []) as [|a b _] using rev_ind; [constructor|rewrite rev_unit in R; discriminate].
  - apply (top_fin l [] h d ltac:(constructor) R). cbn [ffinal] in E. clear -E F. revert E F. generalize (@None float). revert h.
    induction d as [|y d IH]; intros h lo; cbn [fcoll].
    + cbn. now intros [= <-].
    + intros E F. destruct (f_is_finite h) eqn:H; [reflexivity|exfalso]. destruct (feq _ f_zero).
      * apply IH in E; [|exact F]. rewrite inf_add in E; congruence.
      * pose proof (finish_fin _ _ _ _ E F) as X. rewrite inf_add in X; congruence.
Qed.
(** A sum of two numbers on the way that overflows is never made up for later,
    though the whole sum may be small.  Python raises OverflowError. *)
Theorem C70_overflow_refuted room v rest r : f_is_finite v = true -> f_is_finite (fadd v v) = false ->
  fsum room false (v :: v :: rest) = Ok r -> f_is_finite r = false.
Proof.
  intros FV O E. destruct (f_is_finite r) eqn:F; [exfalso|reflexivity].
  destruct (fsum_list room false (v :: v :: rest)) as [X|X]; [congruence|]. rewrite X in E. pose proof (finite_parts _ _ E F) as P.
  cbn [fadds] in P. apply fadds_fin, fadd1_fin in P.
  assert (S : fadd1 v [] = [v]).
  { unfold fadd1. cbn. destruct (feq v f_zero) eqn:Z; [|reflexivity]. exfalso. rewrite feq_V in Z by auto. apply Z.eqb_eq in Z. rewrite V_zero0 in Z.
    destruct (fadd_ok v v FV FV) as [G _]; [rewrite Z; change (0 + 0)%Z with 0%Z; rewrite rnd_small by lia; discriminate|congruence]. }
  rewrite S in P. cbn [fgrow] in P. unfold order in P. destruct (flt _ _); cbn [snd] in P; congruence.
Qed.
Example C70_overflow_case : let v := f_of_Z ((2 ^ 24 - 1) * 2 ^ 104) in let w := f_of_Z (- ((2 ^ 24 - 1) * 2 ^ 104)) in
  f_is_finite v = true /\ f_is_finite (fadd v v) = false /\ rsum [v; v; w; w] = 0.
Proof. split; [vm_compute; reflexivity|]. split; [vm_compute; reflexivity|]. rewrite rsum_V. replace (sum _) with 0%Z by (vm_compute; reflexivity). lra. Qed.
(** An infinity with a finite number gives not-a-number; Python gives the
    infinity. *)
Theorem C70_infinity_refuted (s : bool) y : f_is_finite y = true -> feq y f_zero = false ->
  exists r, fsum (fun _ => true) false [B754_infinity 24 128 s; y] = Ok r /\ is_nan 24 128 r = true.
Proof.
  intros F N. rewrite fsum_room. destruct y as [t|t|t pl H|t m e H]; try discriminate.
  destruct s, t; (eexists; split; [reflexivity|reflexivity]).
Qed.

Print Assumptions C68_rounded_once. Print Assumptions C68_rounded_once_dict. Print Assumptions C68_total. Print Assumptions C68_order.
Print Assumptions C69_defined. Print Assumptions C69_result. Print Assumptions C70_overflow_refuted. Print Assumptions C70_infinity_refuted.
