(** C111: coloured lights (SAMD21). *)
From Coq Require Import ZArith Reals Lia List Bool.
From Verif Require Import Base FloatModel LedModel LedSpec LedProofs LedProofs2.
Import ListNotations.
Local Open Scope Z_scope.

(** C111: on one line (power and direction the same pin), for every list of colours,
    as many lights as the list has colours show these colours in their order, and no
    bit is sent beyond them; for every light that takes a pulse as 1 from some length
    between the two the code makes *)
Theorem C111_neopixel_partial : forall alloc pin th l s, 8 <= th < 26 ->
  Forall colour l -> roomy alloc (Z.of_nat (length l)) -> sane alloc s -> l_abort s = false ->
  exists s' tr bits, neopixel alloc pin pin (IList false l) s = Ok s' /\ l_abort s' = false /\
    l_wire s' = l_wire s ++ tr /\ touches [pin] tr /\
    ws_bits th pin tr = Some bits /\ length bits = (24 * length l)%nat /\ Forall2 shade l (ws_lights (length l) bits).
Proof.
  intros alloc pin th l s T F R Sn A. destruct (list_sends alloc pin pin l s F R Sn A) as (s' & m & E & A' & W & Wi & Sh). rewrite Z.eqb_refl in Wi.
  destruct (np_write_ok th pin (length l) m T W) as (bits & B & L & Li). exists s', (np_write (length l) pin O m), bits.
  rewrite Li. repeat (split; [assumption || apply np_touches|]). exact Sh.
Qed.
Print Assumptions C111_neopixel_partial.

(** What is no list of colours is an error, and nothing is sent. *)
Theorem C111_error_partial : forall alloc power dir good px rest s, Forall colour good -> no_colour px ->
  ~ direct (good ++ px :: rest) -> l_abort s = false ->
  exists s', neopixel alloc power dir (IList false (good ++ px :: rest)) s = Ok s' /\ l_abort s' = true /\ l_wire s' = l_wire s.
Proof. exact list_bad. Qed.
Print Assumptions C111_error_partial.

(** On two lines (APA102) every light shows the first colour of the list, whatever
    the others are, and the light after them, which is to be left alone, turns white. *)
Theorem C111_apa102_refuted : forall alloc power dir dl cl px l s, power <> dir ->
  Forall colour (px :: l) -> roomy alloc (Z.of_nat (length (px :: l))) -> sane alloc s -> l_abort s = false ->
  exists s' tr x, neopixel alloc power dir (IList false (px :: l)) s = Ok s' /\ l_abort s' = false /\
    l_wire s' = l_wire s ++ tr /\ touches [power; dir] tr /\ shade px x /\
    ap_lights (length l + 2) (ap_start O (ap_bits power dir dl cl tr)) = repeat (31, x) (length l + 1) ++ [(31, (255, 255, 255))].
Proof.
  intros alloc power dir dl cl px l s D F R Sn A. destruct (list_sends alloc power dir (px :: l) s F R Sn A) as (s' & m & E & A' & W & Wi & Sh).
  apply Z.eqb_neq in D as D'. rewrite D' in Wi. inversion Sh as [|? ? ? ? S1 S2]; subst.
  exists s', (ap_write (length (px :: l)) power dir m), (rgb (m O)). split; [exact E|]. split; [exact A'|]. split; [exact Wi|]. split; [apply ap_touches|]. split; [exact S1|].
  replace (length l + 2)%nat with (Datatypes.S (length (px :: l))) by (cbn; lia). rewrite ap_write_ok by assumption. now rewrite Nat.add_1_r.
Qed.
Print Assumptions C111_apa102_refuted.

(** A single colour given without a list is sent to three lights: the second and the
    third get what lies in memory behind the one pixel made. *)
Theorem C111_direct_refuted : forall alloc pin th a b c s m, 8 <= th < 26 -> proper a -> proper b -> proper c ->
  place alloc s m -> wide m -> l_abort s = false ->
  exists s' tr bits x, neopixel alloc pin pin (IList false [INum a; INum b; INum c]) s = Ok s' /\ l_abort s' = false /\
    l_wire s' = l_wire s ++ tr /\ ws_bits th pin tr = Some bits /\ length bits = 72%nat /\
    shade (IList false [INum a; INum b; INum c]) x /\ ws_lights 3 bits = [x; rgb (m 1%nat); rgb (m 2%nat)].
Proof.
  intros alloc pin th a b c s m T A B C P W Ab. destruct (direct_sends alloc pin pin a b c s m A B C P W Ab) as (s' & x & E & A' & Sh & Bx & Wi). cbv zeta in Wi. rewrite Z.eqb_refl in Wi.
  set (m' := fun i => if Nat.eqb i 0 then x else m i) in *. assert (W' : wide m') by (intro i; unfold m'; destruct (Nat.eqb i 0); [exact Bx|apply W]).
  destruct (np_write_ok th pin 3 m' T W') as (bits & Bi & L & Li). exists s', (np_write 3 pin O m'), bits, (rgb x).
  split; [exact E|]. split; [exact A'|]. split; [exact Wi|]. split; [exact Bi|]. split; [exact L|]. split; [exact Sh|exact Li].
Qed.
Print Assumptions C111_direct_refuted.

(** When it holds something that is no number there is an error, and yet 72 bits are sent. *)
Theorem C111_direct_error_refuted : forall alloc pin th a b c s m, 8 <= th < 26 -> no_colour (IList false [INum a; b; c]) ->
  place alloc s m -> wide m -> l_abort s = false ->
  exists s' tr bits, neopixel alloc pin pin (IList false [INum a; b; c]) s = Ok s' /\ l_abort s' = true /\
    l_wire s' = l_wire s ++ tr /\ ws_bits th pin tr = Some bits /\ length bits = 72%nat.
Proof.
  intros alloc pin th a b c s m T N P W Ab. destruct (direct_bad alloc pin pin a b c s m N P W Ab) as (s' & m' & E & A' & W' & Wi). rewrite Z.eqb_refl in Wi.
  destruct (np_write_ok th pin 3 m' T W') as (bits & Bi & L & _). exists s', (np_write 3 pin O m'), bits.
  split; [exact E|]. split; [exact A'|]. split; [exact Wi|]. split; [exact Bi|exact L].
Qed.
Print Assumptions C111_direct_error_refuted.

(** A NaN in a colour is converted to a byte, which C leaves undefined. *)
Theorem C111_nan_refuted : forall alloc power dir good a b c rest s, Forall colour good -> f_is_nan a = true ->
  roomy alloc (Z.of_nat (length (good ++ IList false [INum a; b; c] :: rest))) -> l_abort s = false ->
  neopixel alloc power dir (IList false (good ++ IList false [INum a; b; c] :: rest)) s = UB.
Proof. exact list_nan. Qed.
Print Assumptions C111_nan_refuted.

(** *** Cases *)
Definition fresh (n : Z) : option (nat -> pixel) := Some (fun _ => Pix 0 7 8 9).
Definition dark : led := Led None 0 false [].
Definition half : float := fdiv f_one (f_of_Z 2).
Definition red : item := IList false [INum f_one; INum f_zero; INum f_zero].
Definition green : item := IList false [INum f_zero; INum half; INum f_zero].
Lemma red_colour : colour red. Proof. exists f_one, f_zero, f_zero. repeat split. Qed.
Lemma green_colour : colour green. Proof. exists f_zero, half, f_zero. repeat split. Qed.
Lemma fresh_sane : sane fresh dark.
Proof. split; [|discriminate]. intros n m H. injection H as <-. intro i. unfold bytes. cbn. lia. Qed.

(** the two lights show red and half green *)
Example C111_case : exists s', neopixel fresh 4 4 (IList false [red; green]) dark = Ok s' /\ l_abort s' = false /\
  exists bits, ws_bits 16 4 (l_wire s') = Some bits /\ ws_lights 2 bits = [(255, 0, 0); (0, 128, 0)].
Proof. eexists. split; [vm_compute; reflexivity|]. split; [reflexivity|]. eexists. split; vm_compute; reflexivity. Qed.
Example C111_case_hyp : Forall colour [red; green] /\ roomy fresh 2 /\ sane fresh dark /\ l_abort dark = false.
Proof. split; [constructor; [exact red_colour|constructor; [exact green_colour|constructor]]|]. split; [eexists; reflexivity|]. split; [exact fresh_sane|reflexivity]. Qed.
(** on two lines both show red, and a third white *)
Example C111_apa102_case : exists s', neopixel fresh 4 5 (IList false [red; green]) dark = Ok s' /\
  ap_lights 3 (ap_start O (ap_bits 4 5 false false (l_wire s'))) = [(31, (255, 0, 0)); (31, (255, 0, 0)); (31, (255, 255, 255))].
Proof. eexists. split; vm_compute; reflexivity. Qed.
(** a single colour goes to three lights *)
Example C111_direct_case : exists s', neopixel fresh 4 4 green dark = Ok s' /\
  exists bits, ws_bits 16 4 (l_wire s') = Some bits /\ ws_lights 3 bits = [(0, 128, 0); (8, 9, 7); (8, 9, 7)].
Proof. eexists. split; [vm_compute; reflexivity|]. eexists. split; vm_compute; reflexivity. Qed.
Example C111_place_case : place fresh dark (fun _ => Pix 0 7 8 9). Proof. right. split; [now left|reflexivity]. Qed.
(** a list with something else in it, and a single colour with something else in it *)
Example C111_error_case : no_colour (IList false [INum f_one; IOther]) /\ ~ direct ([red] ++ IList false [INum f_one; IOther] :: []) /\
  no_colour (IList false [INum f_one; IOther; INum f_zero]).
Proof. split; [exact I|]. split; [intros (f & b & c & H); discriminate|]. repeat split. Qed.
