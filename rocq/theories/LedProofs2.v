(** neopixel(): from the list to the lights. *)
From Coq Require Import ZArith Reals Lia Lra List Bool.
From Flocq Require Import IEEE754.BinarySingleNaN IEEE754.Binary Core.
From Verif Require Import Base FloatModel MathModel BuiltModel PinModel PinFloat LedModel LedSpec LedProofs.
Import ListNotations.
Local Open Scope Z_scope.

Lemma inten_ok f : proper f -> exists z, inten f = Ok z /\ level f z.
Proof.
  intro H. destruct (power_val f H) as (z & E & B & A). exists z. split; [exact E|]. split; [exact B|].
  replace (/ 32768)%R with (bpow radix2 (-15)) by (cbn; lra). exact A.
Qed.
Lemma inten_zero : inten f_zero = Ok 0.
Proof.
  destruct (inten_ok f_zero eq_refl) as (z & E & B & A). rewrite E. f_equal.
  assert (K : amount f_zero = 0%R) by (cbn; rewrite Rmin_right, Rmax_left; lra). rewrite K in A. apply Rabs_le_inv in A.
  assert (IZR z < 1)%R by lra. apply lt_IZR in H. lia.
Qed.
Lemma inten_nan f : f_is_nan f = true -> inten f = UB.
Proof. exact (power_nan f). Qed.

Lemma set_colour p px s m : colour px -> l_buf s = Some m -> Z.of_nat p < l_count s -> exists x, set_neopixel p px s = Ok (store p x s) /\
  shade px (rgb x) /\ (bytes (m p) -> bytes x).
Proof.
  intros (a & b & c & -> & A & B & C) Hm Hp.
  destruct (inten_ok a A) as (r & Er & Lr). destruct (inten_ok b B) as (g & Eg & Lg). destruct (inten_ok c C) as (bl & Eb & Lb).
  exists (Pix (x_extra (m p)) bl r g). unfold set_neopixel, to_inten. rewrite Hm, Er. cbn [obind]. rewrite Eg. cbn [obind]. rewrite Eb. cbn [obind].
  apply Z.ltb_lt in Hp. rewrite Hp. split; [reflexivity|]. split; [exists a, b, c; cbn; auto|]. destruct Lr, Lg, Lb. unfold bytes. cbn. lia.
Qed.
(** what is no colour is an error, whatever is stored *)
Lemma set_no_colour p px s m : no_colour px -> l_buf s = Some m -> Z.of_nat p < l_count s -> exists s', set_neopixel p px s = Ok s' /\ l_abort s' = true /\ l_wire s' = l_wire s.
Proof.
  intros H Hm Hp. destruct px as [f|d l|]; cbn [set_neopixel]; try (eexists; repeat split; reflexivity).
  destruct d; [eexists; repeat split; reflexivity|]. destruct l as [|a [|b [|c [|e l]]]]; try (eexists; repeat split; reflexivity).
  cbn [no_colour] in H. destruct H as (A & B & C & N). rewrite Hm.
  assert (T : forall x t, no_nan x -> exists z, to_inten x t = Ok (z, if is_num x then t else fail t)).
  { intros x t Hx. destruct x as [f| |]; cbn [to_inten is_num]; [destruct (inten_ok f Hx) as (z & E & _)|..]; rewrite ?E, ?inten_zero; eexists; reflexivity. }
  destruct (T a s A) as (r & Er). rewrite Er. cbn [obind]. set (s1 := if is_num a then s else fail s).
  destruct (T b s1 B) as (g & Eg). rewrite Eg. cbn [obind]. set (s2 := if is_num b then s1 else fail s1).
  destruct (T c s2 C) as (bl & Eb). rewrite Eb. cbn [obind].
  replace (l_count (if is_num c then s2 else fail s2)) with (l_count s) by (unfold s2, s1; destruct (is_num a), (is_num b), (is_num c); reflexivity). apply Z.ltb_lt in Hp. rewrite Hp. eexists. split; [reflexivity|]. cbn [store l_abort l_wire].
  unfold s2, s1. destruct (is_num a), (is_num b), (is_num c); try discriminate; split; reflexivity.
Qed.

Lemma slice_ext m m' : forall n i, (forall j, (i <= j < i + n)%nat -> m' j = m j) -> slice n i m' = slice n i m.
Proof. induction n; intros i H; [reflexivity|]. cbn. f_equal; [apply H; lia|]. apply IHn. intros. apply H. lia. Qed.

Lemma set_all_ok l : Forall colour l -> forall p s m, l_buf s = Some m -> Z.of_nat (p + length l) <= l_count s -> l_abort s = false -> wide m ->
  exists m', set_all p l s = Ok (false, Led (Some m') (l_count s) false (l_wire s)) /\ wide m' /\
    Forall2 shade l (map rgb (slice (length l) p m')) /\ (forall i, (i < p \/ p + length l <= i)%nat -> m' i = m i).
Proof.
  induction 1 as [|px l H F IH]; intros p s m Hm Hp Ha W.
  - exists m. cbn. split; [|split; [exact W|split; [constructor|reflexivity]]]. destruct s; cbn in *; subst; reflexivity.
  - cbn [length] in Hp. destruct (set_colour p px s m H Hm ltac:(lia)) as (x & E & Sh & Bx). cbn [set_all]. rewrite E. unfold store. cbn [obind l_abort]. rewrite Ha, Hm.
    set (m1 := fun i => if Nat.eqb i p then x else m i).
    assert (W1 : wide m1) by (intro i; unfold m1; destruct (Nat.eqb i p); [apply Bx, W|apply W]).
    destruct (IH (Datatypes.S p) (Led (Some m1) (l_count s) false (l_wire s)) m1 eq_refl ltac:(cbn [l_count]; lia) eq_refl W1) as (m' & E' & W' & F' & K).
    exists m'. split; [exact E'|]. split; [exact W'|]. split.
    + cbn [length slice map]. constructor; [|exact F']. rewrite (K p) by lia. unfold m1. now rewrite Nat.eqb_refl.
    + intros i Hi. cbn [length] in Hi. rewrite K by lia. unfold m1. destruct (Nat.eqb_spec i p); [lia|reflexivity].
Qed.
Lemma set_all_bad good px rest : Forall colour good -> no_colour px -> forall p s m, l_buf s = Some m -> Z.of_nat (p + length (good ++ px :: rest)) <= l_count s -> l_abort s = false ->
  exists s', set_all p (good ++ px :: rest) s = Ok (true, s') /\ l_abort s' = true /\ l_wire s' = l_wire s.
Proof.
  intros F N. induction F as [|g good H F IH]; intros p s m Hm Hp Ha; cbn [app length] in Hp; cbn [app set_all].
  - destruct (set_no_colour p px s m N Hm ltac:(lia)) as (s' & E & A & W). rewrite E. cbn [obind]. rewrite A. eauto.
  - destruct (set_colour p g s m H Hm ltac:(lia)) as (x & E & _). rewrite E. unfold store. cbn [obind l_abort]. rewrite Hm. replace (l_abort s) with false by (symmetry; exact Ha).
    destruct (IH (Datatypes.S p) (Led (Some (fun i => if Nat.eqb i p then x else m i)) (l_count s) false (l_wire s)) _ eq_refl ltac:(cbn [l_count]; lia) eq_refl) as (s' & E' & A & W). eauto.
Qed.
Lemma set_all_nan good a b c rest : Forall colour good -> f_is_nan a = true -> forall p s m, l_buf s = Some m -> Z.of_nat (p + length (good ++ IList false [INum a; b; c] :: rest)) <= l_count s -> l_abort s = false ->
  set_all p (good ++ IList false [INum a; b; c] :: rest) s = UB.
Proof.
  intros F N. induction F as [|g good H F IH]; intros p s m Hm Hp Ha; cbn [app length] in Hp; cbn [app set_all].
  - unfold set_neopixel, to_inten. rewrite Hm, (inten_nan a N). reflexivity.
  - destruct (set_colour p g s m H Hm ltac:(lia)) as (x & E & _). rewrite E. unfold store. cbn [obind l_abort]. rewrite Hm. replace (l_abort s) with false by (symmetry; exact Ha).
    exact (IH (Datatypes.S p) (Led (Some (fun i => if Nat.eqb i p then x else m i)) (l_count s) false (l_wire s)) _ eq_refl ltac:(cbn [l_count]; lia) eq_refl).
Qed.

Lemma not_direct l : ~ direct l -> immediate l = false.
Proof.
  intro N. destruct l as [|a [|b [|c [|e l]]]]; try reflexivity. destruct a; try reflexivity. exfalso. apply N. unfold direct. eauto.
Qed.
Lemma colours_not_direct l : Forall colour l -> immediate l = false.
Proof. intro F. apply not_direct. intros (f & b & c & ->). inversion F as [|x y (a' & b' & c' & E & _)]. discriminate. Qed.

(** where the pixels are put *)
Definition put_at alloc (size : Z) (s : led) : option led :=
  if match l_buf s with None => false | Some _ => negb (l_count s <? size) end then Some s
  else match alloc size with None => None | Some m => Some (Led (Some m) size (l_abort s) (l_wire s)) end.
Lemma put_at_cases alloc size s : (put_at alloc size s = None) \/
  exists s' m, put_at alloc size s = Some s' /\ l_buf s' = Some m /\ size <= l_count s' /\ l_abort s' = l_abort s /\ l_wire s' = l_wire s /\ (sane alloc s -> wide m).
Proof.
  unfold put_at, sane. destruct (l_buf s) as [m|] eqn:B; [destruct (l_count s <? size) eqn:L; cbn [negb]|].
  - destruct (alloc size) as [m'|] eqn:E; [|now left]. right. eexists _, m'. split; [reflexivity|]. cbn. split; [reflexivity|]. split; [lia|]. repeat (split; [reflexivity|]). intros [H _]. exact (H _ _ E).
  - right. exists s, m. split; [reflexivity|]. split; [exact B|]. split; [apply Z.ltb_ge; exact L|]. repeat (split; [auto; fail|]). intros [_ H]. now apply H.
  - destruct (alloc size) as [m'|] eqn:E; [|now left]. right. eexists _, m'. split; [reflexivity|]. cbn. split; [reflexivity|]. split; [lia|]. repeat (split; [reflexivity|]). intros [H _]. exact (H _ _ E).
Qed.
Lemma put_at_roomy alloc size s : roomy alloc size -> put_at alloc size s <> None.
Proof. intros [m E]. unfold put_at. rewrite E. destruct (l_buf s); [destruct (negb _)|]; discriminate. Qed.

Lemma list_eq alloc power dir l s : immediate l = false -> neopixel alloc power dir (IList false l) s =
  match put_at alloc (Z.of_nat (length l)) s with
  | None => Ok (Led None (l_count s) true (l_wire s))
  | Some s => obind (set_all O l s) (fun '(gone, s) => if (gone : bool) then Ok s else send power dir (length l) s)
  end.
Proof. intro I. unfold neopixel, put_at. rewrite I. destruct (l_buf s) as [m|]; [destruct (negb _)|]; destruct (alloc (Z.of_nat (length l))); reflexivity. Qed.
Lemma direct_eq alloc power dir a b c s : neopixel alloc power dir (IList false [INum a; b; c]) s =
  match put_at alloc 1 s with
  | None => Ok (Led None (l_count s) true (l_wire s))
  | Some s => obind (set_neopixel O (IList false [INum a; b; c]) s) (send power dir 3)
  end.
Proof. unfold neopixel, put_at. cbn [immediate is_num length]. destruct (l_buf s) as [m|]; [destruct (negb _)|]; destruct (alloc 1); reflexivity. Qed.

(** the pixels end up in memory and go out in one piece *)
Lemma list_sends alloc power dir l s : Forall colour l -> roomy alloc (Z.of_nat (length l)) -> sane alloc s -> l_abort s = false ->
  exists s' m, neopixel alloc power dir (IList false l) s = Ok s' /\ l_abort s' = false /\ wide m /\
    l_wire s' = l_wire s ++ (if power =? dir then np_write (length l) power O m else ap_write (length l) power dir m) /\
    Forall2 shade l (map rgb (slice (length l) O m)).
Proof.
  intros F R Sn A. rewrite list_eq by now apply colours_not_direct.
  destruct (put_at_cases alloc (Z.of_nat (length l)) s) as [N|(s1 & m & E & B & Z1 & A1 & W1 & Wd)]; [now apply put_at_roomy in N|]. rewrite E.
  destruct (set_all_ok l F O s1 m B Z1 (eq_trans A1 A) (Wd Sn)) as (m' & E' & W' & Sh & _). rewrite E'. cbn [obind]. unfold send. cbn [l_buf].
  eexists _, m'. split; [reflexivity|]. cbn [l_abort l_wire]. rewrite W1. auto.
Qed.
Lemma list_bad alloc power dir good px rest s : Forall colour good -> no_colour px -> ~ direct (good ++ px :: rest) -> l_abort s = false ->
  exists s', neopixel alloc power dir (IList false (good ++ px :: rest)) s = Ok s' /\ l_abort s' = true /\ l_wire s' = l_wire s.
Proof.
  intros F N D A. rewrite list_eq by now apply not_direct.
  destruct (put_at_cases alloc (Z.of_nat (length (good ++ px :: rest))) s) as [E|(s1 & m & E & B & Z1 & A1 & W1 & _)]; rewrite E; [eexists; split; [reflexivity|]; split; reflexivity|].
  destruct (set_all_bad good px rest F N O s1 m B Z1 (eq_trans A1 A)) as (s' & E' & A' & W'). rewrite E'. cbn [obind]. exists s'. split; [reflexivity|]. split; [exact A'|congruence].
Qed.
Lemma list_nan alloc power dir good a b c rest s : Forall colour good -> f_is_nan a = true -> roomy alloc (Z.of_nat (length (good ++ IList false [INum a; b; c] :: rest))) -> l_abort s = false ->
  neopixel alloc power dir (IList false (good ++ IList false [INum a; b; c] :: rest)) s = UB.
Proof.
  intros F N R A. rewrite list_eq.
  - destruct (put_at_cases alloc (Z.of_nat (length (good ++ IList false [INum a; b; c] :: rest))) s) as [E|(s1 & m & E & B & Z1 & A1 & _)]; [now apply put_at_roomy in E|]. rewrite E.
    rewrite (set_all_nan good a b c rest F N O s1 m B Z1 (eq_trans A1 A)). reflexivity.
  - apply not_direct. intros (f & b' & c' & E). destruct F as [|g good (a' & b2 & c2 & -> & _) F]; discriminate.
Qed.
Lemma place_put alloc s m : place alloc s m -> exists s', put_at alloc 1 s = Some s' /\ l_buf s' = Some m /\ 1 <= l_count s' /\ l_abort s' = l_abort s /\ l_wire s' = l_wire s.
Proof.
  unfold place, put_at. intros [[E C]|[H E]].
  - rewrite E. replace (l_count s <? 1) with false by (symmetry; apply Z.ltb_ge; lia). exists s. repeat split; auto.
  - replace (match l_buf s with Some _ => negb (l_count s <? 1) | None => false end) with false.
    + rewrite E. eexists. split; [reflexivity|]. cbn. repeat split; lia.
    + destruct H as [->|L]; [reflexivity|]. replace (l_count s <? 1) with true by (symmetry; apply Z.ltb_lt; lia). destruct (l_buf s); reflexivity.
Qed.
(** a single colour: the one pixel, and two more from behind it *)
Lemma direct_sends alloc power dir a b c s m : proper a -> proper b -> proper c -> place alloc s m -> wide m -> l_abort s = false ->
  exists s' x, neopixel alloc power dir (IList false [INum a; INum b; INum c]) s = Ok s' /\ l_abort s' = false /\
    shade (IList false [INum a; INum b; INum c]) (rgb x) /\ bytes x /\
    l_wire s' = l_wire s ++ (let m' := fun i => if Nat.eqb i 0 then x else m i in if power =? dir then np_write 3 power O m' else ap_write 3 power dir m').
Proof.
  intros A B C P W Ab. rewrite direct_eq. destruct (place_put alloc s m P) as (s1 & E & Bf & Z1 & A1 & W1). rewrite E.
  destruct (set_colour O (IList false [INum a; INum b; INum c]) s1 m) as (x & Ex & Sh & Bx); [unfold colour; eauto 8|exact Bf|lia|]. rewrite Ex. cbn [obind].
  unfold send, store. rewrite Bf. cbn [l_buf l_abort l_wire]. eexists _, x. split; [reflexivity|]. cbn [l_abort l_wire]. split; [congruence|]. split; [exact Sh|]. split; [apply Bx, W|]. rewrite W1. reflexivity.
Qed.
Lemma direct_bad alloc power dir a b c s m : no_colour (IList false [INum a; b; c]) -> place alloc s m -> wide m -> l_abort s = false ->
  exists s' m', neopixel alloc power dir (IList false [INum a; b; c]) s = Ok s' /\ l_abort s' = true /\ wide m' /\
    l_wire s' = l_wire s ++ (if power =? dir then np_write 3 power O m' else ap_write 3 power dir m').
Proof.
  intros N P W Ab. rewrite direct_eq. destruct (place_put alloc s m P) as (s1 & E & Bf & Z1 & A1 & W1). rewrite E.
  cbn [no_colour is_num andb] in N. destruct N as (A & B & C & N). unfold set_neopixel. rewrite Bf.
  assert (T : forall x t, no_nan x -> exists z, to_inten x t = Ok (z, if is_num x then t else fail t) /\ 0 <= z <= 255).
  { intros x t Hx. destruct x as [f| |]; cbn [to_inten is_num]; [destruct (inten_ok f Hx) as (z & Ez & Bz & _); rewrite Ez; exists z; auto|..]; rewrite inten_zero; exists 0; split; [reflexivity|lia|reflexivity|lia]. }
  destruct (T (INum a) s1 A) as (r & Er & Br). rewrite Er. cbn [obind is_num].
  destruct (T b s1 B) as (g & Eg & Bg). rewrite Eg. cbn [obind]. set (s2 := if is_num b then s1 else fail s1).
  destruct (T c s2 C) as (bl & Eb & Bb). rewrite Eb. unfold obind at 2. cbv iota beta. set (s3 := if is_num c then s2 else fail s2).
  assert (S3 : l_buf s3 = Some m /\ l_abort s3 = true /\ l_wire s3 = l_wire s) by (unfold s3, s2; destruct (is_num b), (is_num c); try discriminate; cbn; auto).
  destruct S3 as (B3 & A3 & W3).
  replace (l_count s3) with (l_count s1) by (unfold s3, s2; destruct (is_num b), (is_num c); reflexivity). replace (Z.of_nat 0 <? l_count s1) with true by (symmetry; apply Z.ltb_lt; lia). cbn [obind]. unfold send, store. rewrite B3. cbn [l_buf l_abort l_wire]. eexists _, _. split; [reflexivity|]. cbn [l_abort l_wire]. split; [exact A3|]. split; [|rewrite W3; reflexivity].
  intro i. destruct (Nat.eqb_spec i 0); [|apply W]. unfold bytes. cbn. specialize (W O). destruct W. lia.
Qed.
