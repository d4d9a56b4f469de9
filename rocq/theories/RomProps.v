(** C94 and C95: programs kept in the EEPROM. *)
From Coq Require Import ZArith Lia List Bool.
From Verif Require Import Base RomModel RomSpec RomProofs.
Import ListNotations.
Local Open Scope Z_scope.

(** C94: a text sent to eeprom.write and ended by ^D that is shorter than the
    memory is what eeprom.show then prints and what is read at the next start,
    to its end, and what was sent after the ^D is left for the prompt *)
Theorem C94_store_partial : forall k q sent rest s, 0 < rom_size s < 32768 -> sendable sent ->
  Z.of_nat (length (received sent)) < rom_size s -> r_in s = sent ++ 4 :: rest ->
  exists s', rom_write s = Some s' /\ r_in s' = rest /\ r_out s' = r_out s ++ enquiries sent /\ rom_size s' = rom_size s /\
    r_out (rom_show k q s') = r_out s' ++ quoted q (received sent) /\
    (forall n, (n <= length (received sent))%nat -> fst (boot_run k (repeat Next n) (power_on s')) = firstn n (received sent)) /\
    let t := boot_run k (repeat Next (length (received sent))) (power_on s') in
    fst (rom_getchar k (snd t)) = -1 /\ r_boot (snd (rom_getchar k (snd t))) = false.
Proof.
  intros k q sent rest s Sz T L I. destruct (write_runs sent [] (r_mem s) rest s (length (r_mem s)) eq_refl ltac:(lia) T I) as (s' & post & E & M & Ln & I' & O & R);
    [unfold rom_size in L; lia|lia|]. cbn [app] in M.
  assert (St : stored (r_mem s') = received sent).
  { rewrite M. apply stored_app. clear -T. induction T as [|c l [Hc H4] T IH]; [constructor|]. unfold received. cbn [flat_map].
    destruct (c =? 5); [exact IH|]. destruct (c =? 13); constructor; try exact IH; lia. }
  assert (Sz' : rom_size s' = rom_size s) by (unfold rom_size; rewrite Ln; reflexivity).
  assert (Sd : sized (power_on s')) by (change (0 < rom_size s' < 32768); lia).
  assert (Nx : forall n, nexts (repeat Next n) = n) by (intro n; unfold nexts; induction n; cbn; congruence).
  assert (Bt : forall n, (n <= length (received sent))%nat -> fst (boot_run k (repeat Next n) (power_on s')) = firstn n (received sent) /\
    reading n (snd (boot_run k (repeat Next n) (power_on s'))) /\ r_mem (snd (boot_run k (repeat Next n) (power_on s'))) = r_mem s').
  { intros n Hn. destruct (boot_reads k (repeat Next n) 0 (power_on s') Sd) as (B1 & B2 & B3).
    - split; [reflexivity|split; reflexivity].
    - right. apply Forall_forall. intros b Hb. eapply repeat_spec. exact Hb.
    - rewrite Nx. cbn [r_mem power_on]. rewrite St. exact Hn.
    - rewrite Nx in B1, B2. cbn [r_mem power_on] in *. rewrite St in B1. auto. }
  exists s'. split; [exact E|]. split; [exact I'|]. split; [exact O|]. split; [exact Sz'|]. split; [|split].
  - rewrite show_runs by (change (0 < rom_size s' < 32768); lia). rewrite St. reflexivity.
  - intros n Hn. apply Bt. exact Hn.
  - cbv zeta. destruct (Bt (length (received sent)) ltac:(lia)) as (_ & B2 & B3). apply boot_ends.
    + unfold sized, rom_size in *. rewrite B3. exact Sd.
    + rewrite B3, St. exact B2.
Qed.

(** a text as long as the memory or longer: the rest of it is not read, and
    goes to the prompt as if it were typed there *)
Theorem C94_long_refuted : forall t rest s, 0 < rom_size s < 32768 -> text t -> rom_size s <= Z.of_nat (length t) -> r_in s = t ++ 4 :: rest ->
  exists s', rom_write s = Some s' /\ r_mem s' = firstn (length (r_mem s)) t /\ r_in s' = skipn (length (r_mem s)) t ++ 4 :: rest.
Proof.
  intros t rest s Sz T L I. destruct (write_long t [] (r_mem s) (4 :: rest) s (length (r_mem s)) eq_refl ltac:(lia) T I) as (s' & E & M & I' & _);
    [unfold rom_size in *; lia|lia|]. exists s'. auto.
Qed.

(** after eeprom.erase nothing is shown and nothing is read at the next start *)
Theorem C94_erase : forall k q s, 0 < rom_size s < 32768 ->
  r_out (rom_show k q (rom_erase s)) = r_out s ++ quoted q [] /\
  fst (rom_getchar k (power_on (rom_erase s))) = -1 /\ r_boot (snd (rom_getchar k (power_on (rom_erase s)))) = false.
Proof.
  intros k q s Sz. destruct (erase_stored s Sz) as [St Ln].
  assert (Sz' : rom_size (rom_erase s) = rom_size s) by (unfold rom_size; rewrite Ln; reflexivity).
  split.
  - rewrite show_runs by (unfold sized; lia). rewrite St. unfold rom_erase. destruct (read_byte 0 s =? 255); reflexivity.
  - apply boot_ends; [change (0 < rom_size (rom_erase s) < 32768); lia|]. cbn [r_mem power_on]. rewrite St. split; [reflexivity|split; reflexivity].
Qed.

Definition demo_rom : rom := {| r_mem := repeat 255 8; r_in := [97; 5; 13; 98] ++ 4 :: [99]; r_out := []; r_addr := 0; r_boot := false; r_abort := false |}.
Example C94_applies :
  0 < rom_size demo_rom < 32768 /\ sendable [97; 5; 13; 98] /\ Z.of_nat (length (received [97; 5; 13; 98])) < rom_size demo_rom /\
  received [97; 5; 13; 98] = [97; 10; 98] /\ text [1; 2; 3; 6; 7; 8; 9; 10; 11].
Proof. repeat split; try (cbn; lia); repeat constructor; lia. Qed.

(** C95: the program in the EEPROM is read character by character to its end
    even when it calls eeprom.show on the way (ATmega) *)
Theorem C95_read_partial : forall l s, 0 < rom_size s < 32768 -> (nexts l <= length (stored (r_mem s)))%nat ->
  fst (boot_run ATmega l (power_on s)) = firstn (nexts l) (stored (r_mem s)).
Proof.
  intros l s Sz L. destruct (boot_reads ATmega l 0 (power_on s) Sz) as (B1 & _); [split; [reflexivity|split; reflexivity]|left; reflexivity|exact L|exact B1].
Qed.

(** on the other AVR ports eeprom.show moves the place of reading: the next
    character is the byte after the end mark of the program, left there by an
    earlier and longer one, or the end of the input *)
Theorem C95_show_refuted : forall q s, 0 < rom_size s < 32768 -> r_abort s = false ->
  fst (rom_getchar AVR (rom_show AVR q s)) = let c := nth 0 (beyond (r_mem s)) 255 in if c =? 255 then -1 else c.
Proof. exact boot_lost. Qed.

(** an error ends the reading for good: the rest of the program is not run *)
Theorem C95_error : forall k s, r_abort s = true -> fst (rom_getchar k s) = -1 /\ r_boot (snd (rom_getchar k s)) = false.
Proof. intros k s H. destruct k; cbn [rom_getchar]; rewrite H; [rewrite andb_false_r|]; split; reflexivity. Qed.

Definition boot_rom : rom := {| r_mem := [97; 98; 99; 255; 120; 121; 255; 255]; r_in := []; r_out := []; r_addr := 2; r_boot := true; r_abort := false |}.
Example C95_applies :
  0 < rom_size boot_rom < 32768 /\ (nexts [Next; Show true; Next] <= length (stored (r_mem boot_rom)))%nat /\
  beyond (r_mem boot_rom) = [120; 121; 255; 255] /\ fst (rom_getchar ATmega (rom_show ATmega true boot_rom)) = 99 /\
  fst (rom_getchar AVR (rom_show AVR true boot_rom)) = 120.
Proof. repeat split; cbn; lia. Qed.

Print Assumptions C94_store_partial.
Print Assumptions C94_long_refuted.
Print Assumptions C94_erase.
Print Assumptions C95_read_partial.
Print Assumptions C95_show_refuted.
Print Assumptions C95_error.
