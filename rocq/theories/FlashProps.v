(** C100 and C101: programs kept in flash (ATmega4809). *)
From Coq Require Import ZArith Lia List Bool.
From Verif Require Import Base RomModel RomSpec RomProofs FlashModel FlashSpec FlashProofs.
Import ListNotations.
Local Open Scope Z_scope.

(** C100: a text sent to eeprom.write and ended by ^D that leaves two bytes free
    is what eeprom.show then prints and what is read at the next start, to its
    end; the interpreter's own pages stay as they were, and what was sent after
    the ^D is left for the prompt *)
Theorem C100_store_partial : forall q sent rest s, fused s -> sendable sent ->
  Z.of_nat (length (received sent)) + 1 < Z.of_nat (length (kept s)) -> r_in (f_rom s) = sent ++ 4 :: rest ->
  exists s', flash_write s = Ok (Some s') /\ r_in (f_rom s') = rest /\ r_out (f_rom s') = r_out (f_rom s) ++ enquiries sent /\
    own s' = own s /\ fused s' /\
    (exists s2, flash_show q s' = Ok s2 /\ r_out (f_rom s2) = r_out (f_rom s') ++ quoted q (received sent)) /\
    (forall n, (n <= length (received sent))%nat -> exists s2, flash_boot n (flash_on s') = Ok (firstn n (received sent), s2) /\
      (n = length (received sent) -> exists s3, flash_getchar s2 = Ok (-1, s3) /\ r_boot (f_rom s3) = false)).
Proof.
  intros q sent rest s H T L I. destruct (write_stores sent rest s H T L I) as (s' & E & H' & I' & O & OW & ST & LK).
  assert (N : In 255 (kept s')).
  { destruct (in_dec Z.eq_dec 255 (kept s')) as [N|N]; [exact N|]. exfalso.
    assert (X : stored (kept s') = kept s'). { clear -N. induction (kept s') as [|c l IH]; [reflexivity|]. cbn. destruct (Z.eqb_spec c 255) as [->|]; [elim N; now left|]. rewrite IH; [reflexivity|]. intros K. apply N. now right. }
    rewrite ST in X. rewrite <- X in LK. lia. }
  exists s'. split; [exact E|]. split; [exact I'|]. split; [exact O|]. split; [exact OW|]. split; [exact H'|]. split; [rewrite <- ST; apply show_prints; assumption|].
  intros n Hn. rewrite <- ST in Hn |- *. destruct (boot_reads_all s' H' N n 0 (flash_on s')) as (s2 & B & R); [repeat split|exact Hn|]. exists s2. split; [exact B|].
  intros ->. apply (boot_stops s' H' N). exact R.
Qed.
Print Assumptions C100_store_partial.

(** a longer text: the rest of it goes to the prompt as if it were typed there *)
Theorem C100_long_refuted : forall t rest s, fused s -> text t -> Z.of_nat (length (kept s)) <= Z.of_nat (length t) + 1 -> r_in (f_rom s) = t ++ rest ->
  exists s', flash_write s = Ok (Some s') /\ own s' = own s /\ kept s' = firstn (length (kept s) - 1) t ++ [255] /\ r_in (f_rom s') = skipn (length (kept s) - 1) t ++ rest.
Proof. exact write_long. Qed.
Print Assumptions C100_long_refuted.
(** with the fuse not set the write goes through a null pointer *)
Theorem C100_fuse_refuted : forall q s, f_append s = 0 -> r_mem (f_rom s) <> [] ->
  flash_show q s = UB /\ (raw_getc (r_in (f_rom s)) (r_out (f_rom s)) <> None -> flash_write s = UB).
Proof.
  intros q s A M. split.
  - unfold flash_show, flash_start. destruct q; cbn [f_append with_rom]; rewrite A; reflexivity.
  - intros I. unfold flash_write, write_init, flash_start. rewrite A. cbn [Z.eqb]. destruct (r_mem (f_rom s)) as [|c l]; [now elim M|]. cbn [length flash_loop f_rom with_waddr with_pending cmd_clear with_buf].
    destruct (raw_getc (r_in (f_rom s)) (r_out (f_rom s))) as [[[a b] e]|]; [reflexivity|now elim I].
Qed.
Print Assumptions C100_fuse_refuted.

(** with half of the address space or more left for programs, its size is no ptrdiff_t:
    reading at the start is undefined *)
Theorem C100_big_refuted : forall s n, 0 < f_append s -> 32768 <= rom_size (f_rom s) - f_append s * 256 -> flash_boot (S n) (flash_on s) = UB.
Proof.
  intros s n A L. cbn [flash_boot]. unfold flash_getchar, flash_size, flash_start, flash_end. cbn [flash_on f_append f_rom].
  destruct (Z.eqb_spec (f_append s) 0); [lia|]. change (rom_size (power_on (f_rom s))) with (rom_size (f_rom s)).
  destruct (Z.ltb_spec (rom_size (f_rom s) - 1 - f_append s * 256 + 1) 32768); [lia|reflexivity].
Qed.
Print Assumptions C100_big_refuted.
Example C100_big_applies : exists s, f_append s = 64 /\ rom_size (f_rom s) = 49152 /\ 0 < f_append s /\ 32768 <= rom_size (f_rom s) - f_append s * 256.
Proof.
  exists {| f_rom := {| r_mem := repeat 255 (Z.to_nat 49152); r_in := []; r_out := []; r_addr := 0; r_boot := false; r_abort := false |};
     f_append := 64; f_pins := 0; f_buf := []; f_last := 0; f_addr := 0; f_pending := false |}.
  assert (S : forall l i o a b c, rom_size {| r_mem := repeat l (Z.to_nat 49152); r_in := i; r_out := o; r_addr := a; r_boot := b; r_abort := c |} = 49152).
  { intros. unfold rom_size. cbn [r_mem]. rewrite repeat_length, Z2Nat.id by lia. reflexivity. }
  cbn [f_append f_rom]. rewrite S. repeat split; lia.
Qed.

Definition demo_flash : flash :=
  {| f_rom := {| r_mem := repeat 7 256 ++ repeat 255 256; r_in := [97; 5; 13; 98] ++ 4 :: [99]; r_out := []; r_addr := 0; r_boot := false; r_abort := false |};
     f_append := 1; f_pins := 0; f_buf := []; f_last := 0; f_addr := 0; f_pending := false |}.
Example C100_applies :
  fused demo_flash /\ sendable [97; 5; 13; 98] /\ Z.of_nat (length (received [97; 5; 13; 98])) + 1 < Z.of_nat (length (kept demo_flash)) /\
  r_in (f_rom demo_flash) = [97; 5; 13; 98] ++ 4 :: [99].
Proof. split; [vm_compute; auto|]. split; [repeat constructor; lia|]. split; vm_compute; reflexivity. Qed.

(** C101: after eeprom.erase nothing is shown and nothing is read at the next
    start, and the interpreter's pages are as they were *)
Theorem C101_erase_partial : forall q s, fused s -> f_pins s <> 255 ->
  exists s', flash_erase s = Ok s' /\ own s' = own s /\
    (exists s2, flash_show q s' = Ok s2 /\ r_out (f_rom s2) = r_out (f_rom s') ++ quoted q []) /\
    (exists s3, flash_getchar (flash_on s') = Ok (-1, s3) /\ r_boot (f_rom s3) = false).
Proof.
  intros q s H N. destruct (erase_clears s H N) as (s' & E & H' & OW & ST & IN). exists s'. split; [exact E|]. split; [exact OW|].
  split; [rewrite <- ST; apply show_prints; assumption|]. apply (boot_stops s' H' IN). rewrite ST. repeat split.
Qed.
Print Assumptions C101_erase_partial.
(** What it looks at is address 0, a register of the pins: when all eight pins
    of that port are outputs it does nothing, whatever is stored. *)
Theorem C101_pins_refuted : forall q s, fused s -> In 255 (kept s) -> f_pins s = 255 ->
  flash_erase s = Ok s /\ exists s2, flash_show q s = Ok s2 /\ r_out (f_rom s2) = r_out (f_rom s) ++ quoted q (stored (kept s)).
Proof. intros q s H IN P. split; [unfold flash_erase; now rewrite P|]. now apply show_prints. Qed.
Print Assumptions C101_pins_refuted.
Definition demo_pins : flash :=
  {| f_rom := {| r_mem := repeat 7 256 ++ [97; 98] ++ repeat 255 254; r_in := []; r_out := []; r_addr := 0; r_boot := false; r_abort := false |};
     f_append := 1; f_pins := 255; f_buf := []; f_last := 0; f_addr := 0; f_pending := false |}.
Example C101_applies : fused demo_pins /\ In 255 (kept demo_pins) /\ stored (kept demo_pins) = [97; 98].
Proof. split; [vm_compute; auto|]. split; [vm_compute; auto|]. reflexivity. Qed.
