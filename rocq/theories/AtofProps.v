(** Reading numbers on the small boards (C71 to C74). *)
From Coq Require Import ZArith Reals Lia Lra Bool List.
From Flocq Require Import IEEE754.BinarySingleNaN IEEE754.Binary IEEE754.Bits Core.
From Verif Require Import Base FloatModel MathModel MathSpec MathProofs AtofModel AtofProofs AtofFloat AtofProofs2 AtofProofs3.
Import ListNotations.
Local Open Scope Z_scope.

(** A text is digits, perhaps a point and digits, perhaps e and an exponent
    (AtofProofs: text, well_formed); it denotes its digits as an integer times a
    power of ten (AtofProofs2: denotes).  It is followed by a zero byte and then
    anything. *)

(** ** C71: a number is read to within a few units in the last place *)

(** However long the text and wherever the point and the exponent are: when what
    it denotes lies in the range of full precision, what is read is finite and
    differs from it by at most 15 parts in 2^24. *)
Theorem C71_accuracy has_float ds frac ex junk : well_formed ds frac ex -> Z.of_nat (length (mantissa ds frac)) < 768 ->
  (bpow radix2 (-126) * (1 + / 262144) <= denotes ds frac ex <= bpow radix2 128 * (1 - / 262144))%R ->
  exists f, atoff has_float (text ds frac ex ++ 0 :: junk) = Ok f /\ f_is_finite f = true /\
    (Rabs (B2R 24 128 f - denotes ds frac ex) <= 15 * / 16777216 * denotes ds frac ex)%R.
Proof. exact (atoff_near has_float ds frac ex junk). Qed.
(** Digits that are 0 read as 0, whatever the exponent. *)
Theorem C71_zero has_float ds frac ex junk : well_formed ds frac ex -> Z.of_nat (length (mantissa ds frac)) < 768 -> num (mantissa ds frac) = 0 ->
  atoff has_float (text ds frac ex ++ 0 :: junk) = Ok f_zero.
Proof.
  intros W L N. destruct (atoff_reads has_float ds frac ex junk W L) as (x & d & e & R & _ & ->).
  destruct (read_num _ _ _ (mantissa_digits _ _ _ W) R) as (NB & D0 & X & DL). rewrite N in NB.
  assert (0 < 10 ^ d) by (apply Z.pow_pos_nonneg; lia). assert (x = 0) by nia. subst x. reflexivity.
Qed.
(** "12.5e-3" *)
Example C71_case : well_formed [49; 50] (Some [53]) (Some (101, Minus, [51])) /\
  text [49; 50] (Some [53]) (Some (101, Minus, [51])) = [49; 50; 46; 53; 101; 45; 51] /\
  denotes [49; 50] (Some [53]) (Some (101, Minus, [51])) = (125 * / 10000)%R.
Proof.
  split; [|split; [reflexivity|]].
  - unfold well_formed, digit. repeat split; try (repeat constructor; lia); auto. discriminate.
  - unfold denotes. cbn. lra.
Qed.

(** ** C72: integers are read as their nearest number, and exactly within 2^24 *)

Theorem C72_nearest has_float ds junk : Forall digit ds -> Z.of_nat (length ds) < 768 -> num ds < 429496728 -> 0 < num ds ->
  exists f, atoff has_float (ds ++ 0 :: junk) = Ok f /\ f_is_finite f = true /\ B2R 24 128 f = rnd32 (IZR (num ds)).
Proof. exact (atoff_integer has_float ds junk). Qed.
(** also when written with a point or an exponent: 1500, 1.5e3, 0.0015e6 *)
Theorem C72_exact has_float ds frac ex junk z : well_formed ds frac ex -> Z.of_nat (length (mantissa ds frac)) < 768 ->
  num (mantissa ds frac) < 429496728 -> 0 <= power ex - places frac < 100 -> Z.abs (power ex) < 3200 -> 0 < z <= 2 ^ 24 ->
  z = num (mantissa ds frac) * 10 ^ (power ex - places frac) ->
  exists f, atoff has_float (text ds frac ex ++ 0 :: junk) = Ok f /\ is_int f z.
Proof. exact (atoff_exact has_float ds frac ex junk z). Qed.
Example C72_case : text [49] (Some [53]) (Some (69, None_, [51])) = [49; 46; 53; 69; 51] /\
  num (mantissa [49] (Some [53])) * 10 ^ (power (Some (69, None_, [51])) - places (Some [53])) = 1500.
Proof. split; reflexivity. Qed.

(** Nothing more: neither larger integers nor decimal fractions are read as their
    nearest number.  5456249344 is representable and is read as another number; 0.9 is read
    as the second nearest. *)
Theorem C72_integer_refuted has_float : exists f, atoff has_float [53; 52; 53; 54; 50; 52; 57; 51; 52; 52; 0] = Ok f /\
  feq f (f_of_Z 5456249344) = false /\ B2R 24 128 (f_of_Z 5456249344) = IZR 5456249344.
Proof.
  exists (fmul (f_of_Z 545624934) (lit 10 0)). split; [destruct has_float; reflexivity|]. split; [vm_compute; reflexivity|].
  transitivity (B2R 24 128 (lit 10656737 9)); [vm_compute; reflexivity|].
  destruct (lit_val 10656737 9) as [_ ->]; [reflexivity|lia|]. change (bpow radix2 9) with (IZR 512). rewrite <- mult_IZR. reflexivity.
Qed.
Theorem C72_fraction_refuted has_float : exists f g, atoff has_float [48; 46; 57; 0] = Ok f /\ f_is_finite g = true /\
  (Rabs (B2R 24 128 g - 9 / 10) < Rabs (B2R 24 128 f - 9 / 10))%R.
Proof.
  exists (fmul (f_of_Z 9) (lit 13421773 (-27))), (lit 15099494 (-24)). split; [destruct has_float; reflexivity|].
  destruct (lit_val 15099494 (-24)) as [FG VG]; [reflexivity|lia|]. split; [exact FG|]. rewrite VG.
  assert (VF : B2R 24 128 (fmul (f_of_Z 9) (lit 13421773 (-27))) = B2R 24 128 (lit 15099495 (-24))).
  { destruct (lit_val 15099495 (-24)) as [A B]; [reflexivity|lia|]. vm_compute. reflexivity. }
  rewrite VF. destruct (lit_val 15099495 (-24)) as [_ ->]; [reflexivity|lia|].
  change (bpow radix2 (-24)) with (/ 16777216)%R. rewrite (Rabs_left (15099494 * / 16777216 - 9 / 10)), (Rabs_pos_eq (15099495 * / 16777216 - 9 / 10)) by lra. lra.
Qed.

(** ** C73: reading is defined for every text *)

(** Up to 768 bytes, whatever they are, no arithmetic overflows and no byte after
    the end of the text is read.  A literal of a program has at most 255. *)
Theorem C73_defined_partial has_float t junk : Forall char t -> Z.of_nat (length t) <= 768 -> exists f, atoff has_float (t ++ 0 :: junk) = Ok f.
Proof. exact (atoff_defined has_float t junk). Qed.
Example C73_case : Forall char [43; 49; 46; 46; 101; 45] /\ exists f, atoff true [43; 49; 46; 46; 101; 45; 0] = Ok f.
Proof. split; [repeat constructor; unfold char; lia|eexists; reflexivity]. Qed.
(** A longer one, for float, overflows the exponent: 801 digits or more, the
    first not 0, and then e31999. *)
Theorem C73_refuted has_float d ds junk : digit d -> d <> 48 -> Forall digit ds -> 800 <= Z.of_nat (length ds) < 30000 ->
  atoff has_float (text (d :: ds) None (Some (101, None_, [51; 49; 57; 57; 57])) ++ 0 :: junk) = UB.
Proof. exact (atoff_overflow has_float d ds junk). Qed.
Example C73_refuted_case : exists ds, Forall digit ds /\ 800 <= Z.of_nat (length ds) < 30000.
Proof. exists (repeat 48 800). split; [|rewrite repeat_length; lia]. apply Forall_forall. intros x H. apply repeat_spec in H. subst. unfold digit. lia. Qed.

(** ** C74: float accepts the texts Python's float accepts, and no others *)

(** A text that begins with a sign or a space reads as 0, whatever follows; so
    does one that begins with any other byte that is no digit, point, e, n or i. *)
Theorem C74_sign_refuted has_float c s : c = 45 \/ c = 43 \/ c = 32 -> atoff has_float (c :: s) = Ok f_zero.
Proof. intros C. apply atoff_other; unfold byte, digit; destruct C as [-> |[-> | ->]]; try lia; vm_compute; discriminate. Qed.
Theorem C74_other_refuted has_float c s : byte c -> ~ digit c -> c <> 46 -> tolower c <> 101 -> tolower c <> 110 -> tolower c <> 105 ->
  atoff has_float (c :: s) = Ok f_zero.
Proof. exact (atoff_other has_float c s). Qed.
(** And one that begins with n or i is not-a-number or an infinity. *)
Theorem C74_letters_refuted c s : c = 110 \/ c = 78 \/ c = 105 \/ c = 73 -> exists f, atoff true (c :: s) = Ok f /\ f_is_finite f = false.
Proof. intros [-> |[-> |[-> | ->]]]; eexists; split; reflexivity. Qed.
Example C74_case : atoff true [45; 53; 0] = Ok f_zero /\ atoff true [104; 101; 108; 108; 111; 0] = Ok f_zero /\ byte 104 /\ ~ digit 104.
Proof. repeat split; try reflexivity; try lia. unfold digit. lia. Qed.

Print Assumptions C71_accuracy. Print Assumptions C71_zero. Print Assumptions C72_nearest. Print Assumptions C72_exact.
Print Assumptions C72_integer_refuted. Print Assumptions C72_fraction_refuted. Print Assumptions C73_defined_partial. Print Assumptions C73_refuted.
Print Assumptions C74_sign_refuted. Print Assumptions C74_other_refuted. Print Assumptions C74_letters_refuted.
