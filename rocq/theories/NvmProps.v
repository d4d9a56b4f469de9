(** C109 and C110: programs kept in flash (SAMD21). *)
From Coq Require Import ZArith Lia List Bool.
From Verif Require Import Base RomModel RomSpec RomProofs NvmModel NvmSpec NvmProofs NvmProofs2.
Import ListNotations.
Local Open Scope Z_scope.

(** C109: a text sent to eeprom.write and ended by ^D that fits, with its end, is
    what eeprom.show then prints and what is read at the next start, to its end;
    the flash outside of the area stays as it was, and what was sent after the ^D
    is left for the prompt; for every size of pages and whatever the controller
    leaves in its buffer *)
Theorem C109_store_partial : forall after q sent rest s, placed s -> unlocked s -> sendable sent ->
  Z.of_nat (length (received sent)) < n_end s - n_start s -> n_in s = sent ++ 4 :: rest ->
  exists s', nvm_write after s = Ok (Some s') /\ n_in s' = rest /\ n_out s' = n_out s ++ enquiries sent /\
    else_same s s' /\ placed s' /\ unlocked s' /\
    (exists s2, nvm_show q s' = Ok s2 /\ n_out s2 = n_out s' ++ quoted q (received sent)) /\
    (forall n, (n <= length (received sent))%nat -> exists s2, nvm_boot n (nvm_on s') = Ok (firstn n (received sent), s2) /\
      (n = length (received sent) -> exists s3, nvm_getchar s2 = Ok (-1, s3) /\ n_boot s3 = false)).
Proof.
  intros after q sent rest s H U Sd L I. destruct (write_area after s sent rest H U Sd L I) as (s' & E & I' & O' & ES & H' & U' & ST & S' & N').
  assert (Rd := placed_readable s' H'). exists s'. split; [exact E|]. split; [exact I'|]. split; [exact O'|]. split; [exact ES|]. split; [exact H'|]. split; [exact U'|]. split.
  - destruct (show_ok q s' Rd) as (s2 & E2 & _ & _ & O2 & _). exists s2. split; [exact E2|]. rewrite O2, ST. reflexivity.
  - intros n Hn. assert (Ra : area (nvm_on s') = area s') by reflexivity. destruct (boot_ok n 0 (nvm_on s') Rd eq_refl eq_refl) as (s2 & E2 & SS & R2); [rewrite Ra, ST; exact Hn|]. rewrite Ra, ST in E2. exists s2. split; [exact E2|].
    intros ->. destruct SS as (A & B & C & D & F). destruct (getchar_ok s2 (length (received sent))) as (s3 & E3 & _ & B3 & _); [unfold readable; rewrite A, B, C; exact Rd|rewrite F; reflexivity|exact R2|].
    assert (V : nth (length (received sent)) (area s2) 255 = 255). { rewrite <- ST. replace (area s2) with (area s') by (unfold area; rewrite A, B, C; reflexivity). apply nth_end. }
    rewrite V in E3, B3. exists s3. split; [exact E3|apply B3; reflexivity].
Qed.
Print Assumptions C109_store_partial.

(** A longer text is written beyond the area, over what is there; what is then
    shown is only what lies in the area. *)
Theorem C109_long_refuted : forall after q sent rest s, placed s -> all_unlocked s -> sendable sent ->
  n_end s - n_start s <= Z.of_nat (length (received sent)) ->
  n_start s + Z.of_nat (length (received sent)) + 2 ^ (5 + v_psz (n_nvm s)) <= v_pages (n_nvm s) * 2 ^ (3 + v_psz (n_nvm s)) ->
  n_in s = sent ++ 4 :: rest ->
  exists s', nvm_write after s = Ok (Some s') /\
    (forall i, n_end s <= n_start s + Z.of_nat i -> (i <= length (received sent))%nat -> v_mem (n_nvm s') (n_start s + Z.of_nat i) = nth i (received sent ++ [255]) 0) /\
    (exists s2, nvm_show q s' = Ok s2 /\ n_out s2 = n_out s' ++ quoted q (firstn (Z.to_nat (n_end s - n_start s)) (received sent))).
Proof.
  intros after q sent rest s H U Sd L T I. pose proof (placed_sound s H) as So. pose proof (placed_readable s H) as Rd. assert (P0 : 0 <= v_psz (n_nvm s)) by apply So. rewrite (placed_row s P0) in T.
  destruct (nvm_write_ok after s (total (n_nvm s)) sent rest) as (s' & E & K & S' & E' & _ & _ & M & _).
  - apply placed_ready; [exact H|lia|]. intros a A. apply U. unfold total in A. destruct Rd. lia.
  - exact Sd.
  - pose proof (upto_ge (row (n_nvm s)) (Z.of_nat (length (received sent)) + 1) ltac:(pose proof (page_pos _ So); unfold row; lia)). unfold total. lia.
  - exact I.
  - pose proof (upto_ge (row (n_nvm s)) (Z.of_nat (length (received sent)) + 1) ltac:(pose proof (page_pos _ So); unfold row; lia)) as UG. destruct Rd as (R0 & R1 & R2).
    exists s'. split; [exact E|]. split.
    + intros i _ Li. rewrite M by lia. rewrite Nat2Z.id. destruct (Nat.eq_dec i (length (received sent))) as [->|N]; [rewrite nth_overflow, app_nth2, Nat.sub_diag by lia; reflexivity|]. rewrite app_nth1 by lia. apply nth_indep. lia.
    + assert (Rd' : readable s') by (unfold readable; rewrite S', E', (keeps_total _ _ K); auto).
      destruct (show_ok q s' Rd') as (s2 & E2 & _ & _ & O2 & _). exists s2. split; [exact E2|]. rewrite O2. do 2 f_equal.
      assert (LA : length (firstn (Z.to_nat (n_end s - n_start s)) (received sent)) = Z.to_nat (n_end s - n_start s)) by (rewrite firstn_length; lia).
      apply stored_is.
      * apply Forall_forall. intros x X. pose proof (received_no255 sent Sd) as F. rewrite Forall_forall in F. apply F. rewrite <- (firstn_skipn (Z.to_nat (n_end s - n_start s)) (received sent)). apply in_or_app. now left.
      * rewrite LA, area_length, S', E'. lia.
      * intros i Li. rewrite LA in Li. destruct (Nat.eq_dec i (Z.to_nat (n_end s - n_start s))) as [->|N]; [rewrite !nth_overflow; [reflexivity|rewrite LA; lia|rewrite area_length, S', E'; lia]|].
        rewrite area_nth by (rewrite S', E'; lia). rewrite S', M by lia. rewrite Nat2Z.id. rewrite <- (firstn_skipn (Z.to_nat (n_end s - n_start s)) (received sent)) at 1. now rewrite app_nth1 by (rewrite LA; lia).
Qed.
Print Assumptions C109_long_refuted.

(** A locked area is not unlocked (the bit that means unlocked is taken to mean
    locked): eeprom.write takes the text and writes nothing. *)
Theorem C109_locked_refuted : forall after sent rest s, placed s -> locked s -> sendable sent ->
  Z.of_nat (length (received sent)) < n_end s - n_start s -> n_in s = sent ++ 4 :: rest ->
  exists s', nvm_write after s = Ok (Some s') /\ forall a, v_mem (n_nvm s') a = v_mem (n_nvm s) a.
Proof. intros after sent rest s H U Sd L I. destruct (write_shut after s sent rest H U Sd L I) as (s' & E & _ & _ & M). exists s'. auto. Qed.
Print Assumptions C109_locked_refuted.

(** A program that calls eeprom.show while it is being read at the start is not
    read any further: reading goes on after its end. *)
Theorem C109_show_refuted : forall q n s, placed s -> (n <= length (stored (area s)))%nat -> (length (stored (area s)) < length (area s))%nat ->
  exists s1 s2 s3, nvm_boot n (nvm_on s) = Ok (firstn n (stored (area s)), s1) /\ nvm_show q s1 = Ok s2 /\
    nvm_getchar s2 = Ok (if nth 0 (beyond (area s)) 255 =? 255 then -1 else nth 0 (beyond (area s)) 255, s3).
Proof.
  intros q n s H L T. assert (Rd := placed_readable s H). destruct (boot_ok n 0 (nvm_on s) Rd eq_refl eq_refl L) as (s1 & E1 & S1 & _).
  assert (A1 : area s1 = area s) by exact (same_area _ _ S1).
  assert (Rd1 : readable s1) by (destruct S1 as (A & B & C & _); unfold readable; rewrite A, B, C; exact Rd).
  destruct (show_ok q s1 Rd1) as (s2 & E2 & S2 & _ & _ & R2). rewrite A1 in R2. specialize (R2 T).
  assert (A2 : area s2 = area s) by (rewrite (same_area _ _ S2); exact A1).
  assert (Rd2 : readable s2) by (destruct S2 as (A & B & C & _); unfold readable; rewrite A, B, C; exact Rd1).
  destruct (getchar_ok s2 (S (length (stored (area s)))) Rd2) as (s3 & E3 & _); [destruct S2 as (_ & _ & _ & _ & ->); destruct S1 as (_ & _ & _ & _ & ->); reflexivity|exact R2|].
  rewrite A2, nth_beyond in E3. exists s1, s2, s3. auto.
Qed.
Print Assumptions C109_show_refuted.

Definition demo_nvm (lock : Z) (i : list Z) : store :=
  {| n_nvm := {| v_mem := fun a => if a =? 32 then 120 else if a =? 33 then 121 else if a <? 32 then 7 else 255; v_psz := 0; v_pages := 16; v_lock := lock; v_addr := 0; v_buf := fun _ => 0 |};
     n_start := 32; n_end := 96; n_off := 0; n_byte := 0; n_pend := false; n_read := 0; n_in := i; n_out := []; n_boot := false; n_abort := false |}.
Lemma demo_placed lock i : 0 <= lock -> placed (demo_nvm lock i).
Proof.
  intros L. split; [|split; [cbn; lia|split; [exact L|split; [cbn; lia|split; [cbn; lia|split; [cbn; lia|split; reflexivity]]]]]].
  intros a. cbn [demo_nvm n_nvm v_mem]. destruct (a =? 32); [lia|]. destruct (a =? 33); [lia|]. destruct (a <? 32); lia.
Qed.
Lemma demo_unlocked i : all_unlocked (demo_nvm 65535 i).
Proof.
  intros a A. change (v_pages (n_nvm (demo_nvm 65535 i)) * 2 ^ (3 + v_psz (n_nvm (demo_nvm 65535 i)))) with 128 in A. change (Z.testbit (Z.ones 16) (a / 8) = true). apply Z.ones_spec_low.
  split; [apply Z.div_pos; lia|apply Z.div_lt_upper_bound; lia].
Qed.
Lemma demo_locked i : locked (demo_nvm 0 i).
Proof. intros a _. apply Z.bits_0. Qed.
Example C109_applies : let s := demo_nvm 65535 ([97; 5; 13; 98] ++ 4 :: [99]) in
  placed s /\ unlocked s /\ sendable [97; 5; 13; 98] /\ Z.of_nat (length (received [97; 5; 13; 98])) < n_end s - n_start s.
Proof.
  cbn zeta. split; [apply demo_placed; lia|]. split; [intros a A; apply demo_unlocked; change (n_start (demo_nvm 65535 ([97; 5; 13; 98] ++ [4; 99]))) with 32 in A; change (n_end (demo_nvm 65535 ([97; 5; 13; 98] ++ [4; 99]))) with 96 in A|].
  - change (0 <= a < 128). lia.
  - split; [repeat constructor; lia|reflexivity].
Qed.
Example C109_long_applies : let t := repeat 97 64 in let s := demo_nvm 65535 (t ++ 4 :: []) in
  placed s /\ all_unlocked s /\ sendable t /\ n_end s - n_start s <= Z.of_nat (length (received t)) /\ n_start s + Z.of_nat (length (received t)) + 2 ^ (5 + 0) <= 128.
Proof.
  cbn zeta. split; [apply demo_placed; lia|]. split; [apply demo_unlocked|]. split; [|split; vm_compute; discriminate].
  apply Forall_forall. intros x X. apply repeat_spec in X. lia.
Qed.
Example C109_locked_applies : placed (demo_nvm 0 ([97] ++ 4 :: [])) /\ locked (demo_nvm 0 ([97] ++ 4 :: [])) /\ sendable [97] /\ area (demo_nvm 0 ([97] ++ 4 :: [])) = [120; 121] ++ repeat 255 62.
Proof. split; [apply demo_placed; lia|]. split; [apply demo_locked|]. split; [repeat constructor; lia|]. vm_compute. reflexivity. Qed.
Example C109_show_applies : let s := demo_nvm 65535 [] in placed s /\ (1 <= length (stored (area s)))%nat /\ (length (stored (area s)) < length (area s))%nat /\ nth 0 (beyond (area s)) 255 = 255.
Proof. cbn zeta. split; [apply demo_placed; lia|]. vm_compute. repeat split; lia. Qed.

(** C110: after eeprom.erase nothing is shown and nothing is read at the next
    start, no byte of the area is left, and the rest of the flash is as it was *)
Theorem C110_erase_partial : forall after q s, placed s -> unlocked s ->
  exists s', nvm_erase after s = Ok s' /\ else_same s s' /\ n_out s' = n_out s /\ n_in s' = n_in s /\
    area s' = repeat 255 (Z.to_nat (n_end s - n_start s)) /\
    (exists s2, nvm_show q s' = Ok s2 /\ n_out s2 = n_out s ++ quoted q []) /\
    (exists s3, nvm_getchar (nvm_on s') = Ok (-1, s3) /\ n_boot s3 = false).
Proof.
  intros after q s H U. destruct (erase_ok after true s H U) as (s' & E & S' & E' & K & I' & O' & R & M). exists s'. split; [exact E|]. split; [exact R|]. split; [exact O'|]. split; [exact I'|].
  assert (A : area s' = repeat 255 (Z.to_nat (n_end s - n_start s))).
  { apply nth_ext with (d := 255) (d' := 255); [rewrite area_length, repeat_length, S', E'; reflexivity|]. intros i Li. rewrite area_length in Li. rewrite area_nth by exact Li. rewrite nth_repeat. rewrite S', E' in *. apply M. lia. }
  split; [exact A|]. assert (Rd : readable s') by (pose proof (placed_readable s H); unfold readable; rewrite S', E', (keeps_total _ _ K); assumption).
  assert (St : stored (area s') = []) by (rewrite A; destruct (Z.to_nat _); reflexivity). split.
  - destruct (show_ok q s' Rd) as (s2 & E2 & _ & _ & O2 & _). exists s2. split; [exact E2|]. rewrite O2, St, O'. reflexivity.
  - destruct (getchar_ok (nvm_on s') 0 Rd eq_refl eq_refl) as (s3 & E3 & _ & B3 & _). change (area (nvm_on s')) with (area s') in *. assert (V : nth 0 (area s') 255 = 255) by (rewrite A; apply nth_repeat). rewrite V in E3, B3. exists s3. split; [exact E3|apply B3; reflexivity].
Qed.
Print Assumptions C110_erase_partial.
(** A locked area keeps its program. *)
Theorem C110_locked_refuted : forall after q s, placed s -> locked s ->
  exists s', nvm_erase after s = Ok s' /\ exists s2, nvm_show q s' = Ok s2 /\ n_out s2 = n_out s ++ quoted q (stored (area s)).
Proof.
  intros after q s H U. destruct (erase_ok after false s H U) as (s' & E & S' & E' & K & _ & O' & _ & M). exists s'. split; [exact E|].
  assert (Rd : readable s') by (pose proof (placed_readable s H); unfold readable; rewrite S', E', (keeps_total _ _ K); assumption).
  destruct (show_ok q s' Rd) as (s2 & E2 & _ & _ & O2 & _). exists s2. split; [exact E2|]. rewrite O2, O', (area_eq s s'); [reflexivity|exact S'|exact E'|exact M].
Qed.
Print Assumptions C110_locked_refuted.
Example C110_applies : placed (demo_nvm 65535 []) /\ all_unlocked (demo_nvm 65535 []) /\ placed (demo_nvm 0 []) /\ locked (demo_nvm 0 []) /\ stored (area (demo_nvm 0 [])) = [120; 121].
Proof. split; [apply demo_placed; lia|]. split; [apply demo_unlocked|]. split; [apply demo_placed; lia|]. split; [apply demo_locked|]. vm_compute. reflexivity. Qed.
