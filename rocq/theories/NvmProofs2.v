(** Reading, erasing and locked regions of the program store of the SAMD21. *)
From Coq Require Import ZArith Lia List Bool.
From Verif Require Import Base RomModel RomSpec RomProofs NvmModel NvmSpec NvmProofs.
Import ListNotations.
Local Open Scope Z_scope.

Lemma area_length s : length (area s) = Z.to_nat (n_end s - n_start s).
Proof. unfold area. now rewrite map_length, seq_length. Qed.
Lemma area_nth s i : (i < Z.to_nat (n_end s - n_start s))%nat -> nth i (area s) 255 = v_mem (n_nvm s) (n_start s + Z.of_nat i).
Proof.
  intros H. unfold area. rewrite (nth_indep _ 255 ((fun i => v_mem (n_nvm s) (n_start s + Z.of_nat i)) 0%nat)) by (rewrite map_length, seq_length; exact H).
  rewrite (map_nth (fun i => v_mem (n_nvm s) (n_start s + Z.of_nat i))). now rewrite seq_nth.
Qed.
Lemma area_eq s s' : n_start s' = n_start s -> n_end s' = n_end s -> (forall i, n_start s <= i < n_end s -> v_mem (n_nvm s') i = v_mem (n_nvm s) i) -> area s' = area s.
Proof. intros A B C. unfold area. rewrite A, B. apply map_ext_in. intros i I. apply in_seq in I. apply C. lia. Qed.

(** what reading needs *)
Definition readable (s : store) : Prop := 0 <= n_start s /\ n_end s <= total (n_nvm s) /\ n_start s <= n_end s.
Definition same_store (s s' : store) : Prop := n_nvm s' = n_nvm s /\ n_start s' = n_start s /\ n_end s' = n_end s /\ n_in s' = n_in s /\ n_abort s' = n_abort s.
Lemma same_area s s' : same_store s s' -> area s' = area s.
Proof. intros (A & B & C & _). unfold area. now rewrite A, B, C. Qed.
Lemma same_trans a b c : same_store a b -> same_store b c -> same_store a c.
Proof. intros (A & B & C & D & E) (F & G & H & I & J). repeat split; congruence. Qed.

Lemma read_ok s i : readable s -> n_read s = Z.of_nat i -> exists s', read_flash s = Ok (nth i (area s) 255, s') /\ same_store s s' /\ n_out s' = n_out s /\ n_boot s' = n_boot s /\
  ((i < length (area s))%nat -> n_read s' = Z.of_nat (S i)) /\ ((length (area s) <= i)%nat -> n_read s' = Z.of_nat i).
Proof.
  intros (A & B & C) R. unfold read_flash. rewrite area_length. rewrite R. destruct (Z.leb_spec (n_end s - n_start s) (Z.of_nat i)).
  - exists s. rewrite nth_overflow by (rewrite area_length; lia). repeat split; lia.
  - unfold peek. destruct (Z.leb_spec 0 (n_start s + Z.of_nat i)); [|lia]. destruct (Z.ltb_spec (n_start s + Z.of_nat i) (total (n_nvm s))); [|lia]. cbn [andb obind].
    rewrite <- area_nth by lia. eexists. split; [reflexivity|]. cbn [n_set_read n_read]. repeat split; lia.
Qed.

Lemma skip_stored (l : list Z) i : (i < length l)%nat -> skipn i l = nth i l 255 :: skipn (S i) l.
Proof. revert i. induction l as [|a l IH]; intros [|i] H; cbn [length] in H; try lia; [reflexivity|]. cbn [skipn nth]. apply IH. lia. Qed.

Lemma show_loop_ok k : forall fuel i s, readable s -> (i + k = length (stored (area s)))%nat -> n_read s = Z.of_nat i -> (k < fuel)%nat ->
  exists s2, nvm_show_loop fuel s = Ok s2 /\ same_store s s2 /\ n_boot s2 = n_boot s /\ n_out s2 = n_out s ++ skipn i (stored (area s)) /\
    ((length (stored (area s)) < length (area s))%nat -> n_read s2 = Z.of_nat (S (length (stored (area s))))).
Proof.
  induction k as [|k IH]; intros [|fuel] i s Rd I N F; try lia; cbn [nvm_show_loop]; destruct (read_ok s i Rd N) as (s' & E & SS & O & Bo & R1 & R2); rewrite E; cbn [obind].
  - replace i with (length (stored (area s))) in * by lia. rewrite nth_end. change (255 =? 255) with true. cbv iota. exists s'. rewrite skipn_all, app_nil_r. auto.
  - destruct (nth_stored (area s) i) as [V V2]; [lia|]. pose proof (stored_length (area s)) as SL. destruct (Z.eqb_spec (nth i (area s) 255) 255); [contradiction|].
    set (p := n_putc (nth i (area s) 255) s'). assert (SP : same_store s p) by (destruct SS as (? & ? & ? & ? & ?); now repeat split).
    destruct (IH fuel (S i) p) as (s2 & E2 & S2 & B2 & O2 & R3).
    + destruct SP as (A & B & C & _). unfold readable. rewrite A, B, C. exact Rd.
    + rewrite (same_area _ _ SP). lia.
    + cbn [p n_putc n_set_io n_read]. apply R1. lia.
    + lia.
    + exists s2. split; [exact E2|]. split; [exact (same_trans _ _ _ SP S2)|]. rewrite (same_area _ _ SP) in *. split; [rewrite B2; exact Bo|]. split; [|exact R3]. rewrite O2. cbn [p n_putc n_set_io n_out]. rewrite O, <- app_assoc. cbn [app]. rewrite (skip_stored (stored (area s)) i) by lia. now rewrite <- V.
Qed.
Lemma show_ok q s : readable s -> exists s2, nvm_show q s = Ok s2 /\ same_store s s2 /\ n_boot s2 = n_boot s /\ n_out s2 = n_out s ++ quoted q (stored (area s)) /\
    ((length (stored (area s)) < length (area s))%nat -> n_read s2 = Z.of_nat (S (length (stored (area s))))).
Proof.
  intros Rd. unfold nvm_show. set (p := n_set_read 0 (if q then n_putc 2 s else s)). assert (SP : same_store s p) by (destruct q; now repeat split).
  destruct (show_loop_ok (length (stored (area s))) (S (Z.to_nat (n_end s - n_start s))) 0 p) as (s2 & E & S2 & B2 & O2 & R2).
  - destruct SP as (A & B & C & _). unfold readable. rewrite A, B, C. exact Rd.
  - rewrite (same_area _ _ SP). reflexivity.
  - reflexivity.
  - rewrite <- area_length. pose proof (stored_length (area s)). lia.
  - replace (n_end (if q then n_putc 2 s else s)) with (n_end s) by now destruct q. replace (n_start (if q then n_putc 2 s else s)) with (n_start s) by now destruct q. rewrite E. cbn [obind].
    rewrite (same_area _ _ SP) in *. cbn [skipn] in O2. pose proof (same_trans _ _ _ SP S2) as (A & B & C & D & F). destruct q; eexists; (split; [reflexivity|]).
    + split; [now repeat split|]. split; [exact B2|]. split; [|exact R2]. cbn [n_putc n_set_io n_out]. rewrite O2. cbn [p n_set_read n_putc n_set_io n_out quoted]. now rewrite <- !app_assoc.
    + split; [now repeat split|]. split; [exact B2|]. split; [exact O2|exact R2].
Qed.

Lemma getchar_ok s i : readable s -> n_abort s = false -> n_read s = Z.of_nat i ->
  exists s', nvm_getchar s = Ok (if nth i (area s) 255 =? 255 then -1 else nth i (area s) 255, s') /\ same_store s s' /\ (nth i (area s) 255 = 255 -> n_boot s' = false) /\ ((i < length (area s))%nat -> n_read s' = Z.of_nat (S i)).
Proof.
  intros Rd Ab N. unfold nvm_getchar. rewrite Ab. destruct (read_ok s i Rd N) as (s' & E & SS & O & Bo & R1 & R2). rewrite E. cbn [obind].
  destruct (Z.eqb_spec (nth i (area s) 255) 255) as [V|V]; eexists; (split; [reflexivity|]).
  - split; [destruct SS as (? & ? & ? & ? & ?); now repeat split|]. split; [reflexivity|exact R1].
  - split; [exact SS|]. split; [contradiction|exact R1].
Qed.
Lemma boot_ok n : forall i s, readable s -> n_abort s = false -> n_read s = Z.of_nat i -> (i + n <= length (stored (area s)))%nat ->
  exists s2, nvm_boot n s = Ok (firstn n (skipn i (stored (area s))), s2) /\ same_store s s2 /\ n_read s2 = Z.of_nat (i + n).
Proof.
  induction n as [|n IH]; intros i s Rd Ab N L; cbn [nvm_boot].
  - exists s. replace (i + 0)%nat with i by lia. split; [reflexivity|]. split; [now repeat split|exact N].
  - destruct (getchar_ok s i Rd Ab N) as (s1 & E & SS & _ & R1). rewrite E. cbn [obind]. destruct (nth_stored (area s) i) as [V V2]; [lia|]. pose proof (stored_length (area s)) as SL. destruct (Z.eqb_spec (nth i (area s) 255) 255); [contradiction|].
    destruct (IH (S i) s1) as (s2 & E2 & S2 & R2).
    + destruct SS as (A & B & C & _). unfold readable. rewrite A, B, C. exact Rd.
    + destruct SS as (_ & _ & _ & _ & A). congruence.
    + apply R1. lia.
    + rewrite (same_area _ _ SS). lia.
    + rewrite E2. cbn [obind]. exists s2. split; [|split; [exact (same_trans _ _ _ SS S2)|rewrite R2; f_equal; lia]]. rewrite (same_area _ _ SS), (skip_stored (stored (area s)) i) by lia. cbn [firstn]. now rewrite <- V.
Qed.

Lemma stored_is t : forall l, Forall (fun c => c <> 255) t -> (length t <= length l)%nat -> (forall i, (i <= length t)%nat -> nth i l 255 = nth i t 255) -> stored l = t.
Proof.
  induction t as [|c t IH]; intros l F L H.
  - destruct l as [|a l]; [reflexivity|]. specialize (H 0%nat (le_n _)). cbn in H. subst a. reflexivity.
  - destruct l as [|a l]; [cbn in L; lia|]. inversion F; subst. pose proof (H 0%nat ltac:(lia)) as H0. cbn in H0. subst a. cbn [stored]. destruct (Z.eqb_spec c 255); [contradiction|]. f_equal. apply IH; [assumption|cbn [length] in L; lia|].
    intros i I. apply (H (S i)). cbn [length]. lia.
Qed.
Lemma received_no255 sent : sendable sent -> Forall (fun c => c <> 255) (received sent).
Proof.
  induction sent as [|c l IH]; intros S; [constructor|]. inversion S as [|? ? [A B] S']; subst. unfold received in *. cbn [flat_map]. destruct (c =? 5); [apply IH; exact S'|]. destruct (c =? 13); constructor; try lia; apply IH; exact S'.
Qed.

(** from the specification's words *)
Lemma placed_row s : 0 <= v_psz (n_nvm s) -> 2 ^ (5 + v_psz (n_nvm s)) = row (n_nvm s).
Proof. intros A. unfold row, page. replace (5 + v_psz (n_nvm s)) with (3 + v_psz (n_nvm s) + 2) by ring. rewrite (Z.pow_add_r 2 (3 + v_psz (n_nvm s))) by lia. reflexivity. Qed.
Lemma placed_sound s : placed s -> sound (n_nvm s).
Proof. intros (_ & A & B & C & _). repeat split; lia. Qed.
Lemma placed_readable s : placed s -> readable s.
Proof. intros (_ & A & _ & C & D & E & _). assert (0 < 2 ^ (5 + v_psz (n_nvm s))) by (apply Z.pow_pos_nonneg; lia). unfold readable, total. lia. Qed.
Lemma placed_ready s hi : placed s -> hi <= total (n_nvm s) -> (forall a, n_start s <= a < hi -> Z.testbit (v_lock (n_nvm s)) (region_of a s) = true) -> ready s hi.
Proof.
  intros H L U. pose proof (placed_sound s H) as S. pose proof (page_pos _ S) as PP. destruct H as (A & B & _ & _ & D & _ & F & _). rewrite placed_row in * by lia. unfold ready. split; [exact S|]. split; [unfold row in D; lia|]. split; [exact F|]. split; [exact L|]. split; [exact A|exact U].
Qed.
Lemma area_mult s : placed s -> (n_end s - n_start s) mod row (n_nvm s) = 0.
Proof. intros H. pose proof (page_pos _ (placed_sound s H)) as PP. destruct H as (_ & B & _ & _ & _ & _ & F & G). rewrite placed_row in * by lia. rewrite Zminus_mod, F, G. apply Z.mod_0_l. unfold row. lia. Qed.
Lemma fits s n : placed s -> n <= n_end s - n_start s -> n_start s + upto (row (n_nvm s)) n <= n_end s.
Proof. intros H L. pose proof (page_pos _ (placed_sound s H)) as PP. assert (RP : 0 < row (n_nvm s)) by (unfold row; lia). pose proof (upto_mono _ _ _ RP L). rewrite (upto_mult _ (n_end s - n_start s) RP (area_mult s H)) in *. lia. Qed.

Section After.
Variable after : (Z -> Z) -> Z -> Z.

Lemma write_area s sent rest : placed s -> unlocked s -> sendable sent -> Z.of_nat (length (received sent)) < n_end s - n_start s -> n_in s = sent ++ 4 :: rest ->
  exists s', nvm_write after s = Ok (Some s') /\ n_in s' = rest /\ n_out s' = n_out s ++ enquiries sent /\ else_same s s' /\ placed s' /\ unlocked s' /\ stored (area s') = received sent /\ n_start s' = n_start s /\ n_end s' = n_end s.
Proof.
  intros H U Sd L In. pose proof (placed_readable s H) as (R0 & R1 & R2).
  assert (FT := fits s (Z.of_nat (length (received sent)) + 1) H ltac:(lia)).
  destruct (nvm_write_ok after s (n_end s) sent rest (placed_ready s _ H R1 U) Sd FT In) as (s' & E & K & S' & E' & I' & O' & M & R). exists s'. split; [exact E|]. split; [exact I'|]. split; [exact O'|].
  assert (UG := upto_ge (row (n_nvm s)) (Z.of_nat (length (received sent)) + 1) ltac:(pose proof (page_pos _ (placed_sound s H)); unfold row; lia)).
  split. { intros a A. replace a with (n_start s + (a - n_start s)) by lia. apply R. lia. }
  split. { destruct H as (A & B & C & D & F & G & HH & J). destruct K as (K1 & K2 & K3). unfold placed. rewrite K1, K2, K3, S', E'. split; [|auto 10].
    intros a. replace a with (n_start s + (a - n_start s)) by lia. set (i := a - n_start s). destruct (Z.ltb_spec i 0); [rewrite R by lia; apply A|]. destruct (Z.ltb_spec i (upto (row (n_nvm s)) (Z.of_nat (length (received sent)) + 1))); [|rewrite R by lia; apply A]. rewrite M by lia. now apply bytes_received. }
  split. { destruct K as (K1 & K2 & K3). intros a A. rewrite S', E' in A. unfold region_of. rewrite K1, K2, K3. apply U. exact A. }
  split; [|auto]. apply stored_is; [now apply received_no255|rewrite area_length, S', E'; lia|].
  intros i I. rewrite area_nth by (rewrite S', E'; lia). rewrite S', M by lia. now rewrite Nat2Z.id.
Qed.

(** eeprom.erase *)
Lemma first_erased_ok n start m : 0 <= first_erased n start m <= Z.of_nat n /\ (forall i, first_erased n start m <= i < Z.of_nat n -> v_mem m (start + i) = 255) .
Proof.
  induction n as [|n [IH1 IH2]]; cbn [first_erased]; [split; [lia|lia]|]. destruct (Z.eqb_spec (v_mem m (start + Z.of_nat n)) 255) as [E|E]; [|split; lia].
  split; [lia|]. intros i I. destruct (Z.eq_dec i (Z.of_nat n)) as [->|]; [exact E|apply IH2; lia].
Qed.
Lemma erase_loop_ok b start k : forall m, sound m -> start mod row m = 0 -> 0 <= start -> start + (Z.of_nat k + 1) * row m < 2 ^ 32 ->
  (forall i, 0 <= i <= Z.of_nat k -> Z.testbit (v_lock m) (region_bit (start + i * row m) m) = b) ->
  exists m', erase_loop after (S k) start (Z.of_nat k * row m) m = Ok m' /\ keeps m m' /\
    (forall x, v_mem m' x = if b && (start <=? x) && (x <? start + (Z.of_nat k + 1) * row m) then 255 else v_mem m x).
Proof.
  induction k as [|k IH]; intros m S A P W Lk; pose proof (page_pos _ S) as PP; assert (RP : 32 <= row m) by (unfold row; lia);
    match goal with |- context [erase_loop _ _ _ ?o _] => set (off := o) end; cbn [erase_loop];
    assert (OA : (start + off) mod row m = 0) by (rewrite mod_add_mult by (lia || exact A); apply Z.mod_mul; lia);
    assert (OE : (start + off) mod 2 = 0) by (apply (multiple_even _ (page m)); [apply page_even; exact S|lia|apply row_page; assumption]);
    destruct (unlock_ok after (start + off) m OE) as (K1 & M1 & _);
    destruct (erase_row_ok after (start + off) (unlock after (start + off) m) (keeps_sound _ _ K1 S)) as (K2 & _ & M2); try (rewrite (keeps_row _ _ K1); exact OA);
    set (m2 := erase_row after (start + off) (unlock after (start + off) m)) in *; assert (K3 := keeps_trans _ _ _ K1 K2);
    rewrite (keeps_bit _ _ _ K1), (keeps_row _ _ K1), M1 in M2; replace (v_lock (unlock after (start + off) m)) with (v_lock m) in M2 by (symmetry; apply K1); assert (Lo : Z.testbit (v_lock m) (region_bit (start + off) m) = b) by (unfold off; apply Lk; lia); rewrite Lo in M2.
  - change off with 0 in *. cbn [Z.eqb]. exists m2. split; [reflexivity|]. split; [exact K3|]. intros x. rewrite M2. replace (start + 0) with start by lia. replace (start + (Z.of_nat 0 + 1) * row m) with (start + row m) by lia. reflexivity.
  - destruct (Z.eqb_spec off 0) as [Z0|Z0]; [unfold off in Z0; lia|]. rewrite (keeps_row _ _ K3). replace (wrapu 32 (off - row m)) with (Z.of_nat k * row m) by (unfold wrapu, off; rewrite Z.mod_small; nia).
    destruct (IH m2) as (m' & E & K4 & M4); [exact (keeps_sound _ _ K3 S)|rewrite (keeps_row _ _ K3); exact A|exact P|rewrite (keeps_row _ _ K3); nia| |].
    + intros i I. rewrite (keeps_bit _ _ _ K3), (keeps_row _ _ K3). replace (v_lock m2) with (v_lock m) by (symmetry; apply K3). apply Lk. lia.
    + rewrite (keeps_row _ _ K3) in E, M4. exists m'. split; [exact E|]. split; [exact (keeps_trans _ _ _ K3 K4)|]. intros x. rewrite M4, M2. destruct b; cbn [andb]; [|reflexivity]. unfold off.
      replace ((Z.of_nat (Datatypes.S k) + 1) * row m) with (Z.of_nat k * row m + row m + row m) by lia. replace ((Z.of_nat k + 1) * row m) with (Z.of_nat k * row m + row m) by lia. replace (Z.of_nat (Datatypes.S k) * row m) with (Z.of_nat k * row m + row m) by lia.
      assert (0 <= Z.of_nat k * row m) by nia.
      destruct (Z.leb_spec start x); destruct (Z.ltb_spec x (start + (Z.of_nat k * row m + row m))); destruct (Z.leb_spec (start + (Z.of_nat k * row m + row m)) x); destruct (Z.ltb_spec x (start + (Z.of_nat k * row m + row m) + row m)); destruct (Z.ltb_spec x (start + (Z.of_nat k * row m + row m + row m))); cbn [andb]; try reflexivity; lia.
Qed.
Lemma erase_ok b s : placed s -> (forall a, n_start s <= a < n_end s -> Z.testbit (v_lock (n_nvm s)) (region_of a s) = b) ->
  exists s', nvm_erase after s = Ok s' /\ n_start s' = n_start s /\ n_end s' = n_end s /\ keeps (n_nvm s) (n_nvm s') /\ n_in s' = n_in s /\ n_out s' = n_out s /\
    (forall x, x < n_start s \/ n_end s <= x -> v_mem (n_nvm s') x = v_mem (n_nvm s) x) /\ (forall x, n_start s <= x < n_end s -> v_mem (n_nvm s') x = if b then 255 else v_mem (n_nvm s) x).
Proof.
  intros H U. pose proof (placed_sound s H) as S. pose proof (page_pos _ S) as PP. assert (RP : 32 <= row (n_nvm s)) by (unfold row; lia). pose proof (area_mult s H) as AM. pose proof (placed_readable s H) as (Q0 & Q1 & Q2).
  destruct H as (A & B & C & D & F & G & HH & J). rewrite placed_row in * by lia. unfold nvm_erase.
  destruct (first_erased_ok (Z.to_nat (n_end s - n_start s)) (n_start s) (n_nvm s)) as [F1 F2]. set (o := first_erased _ _ _) in *. rewrite Z2Nat.id in * by lia.
  destruct (Z.eqb_spec o 0) as [Z0|Z0].
  - exists s. split; [reflexivity|]. split; [reflexivity|]. split; [reflexivity|]. split; [apply keeps_refl|]. split; [reflexivity|]. split; [reflexivity|]. split; [reflexivity|]. intros x X. destruct b; [|reflexivity]. replace x with (n_start s + (x - n_start s)) by lia. apply F2. lia.
  - set (R := row (n_nvm s)) in *. set (q := (o - 1) / R). assert (0 <= q) by (apply Z.div_pos; lia). rewrite Z.div_mul by lia.
    assert (QR : q * R <= o - 1 < q * R + R) by (unfold q; generalize (Z.div_mod (o - 1) R), (Z.mod_pos_bound (o - 1) R); lia).
    assert (QE : (q + 1) * R <= n_end s - n_start s).
    { pose proof (Z.div_mod (n_end s - n_start s) R ltac:(lia)) as Dv. rewrite AM in Dv. assert (q < (n_end s - n_start s) / R) by (apply (Zmult_lt_reg_r _ _ R); lia). nia. }
    assert (TB : total (n_nvm s) < 2 ^ 32).
    { unfold total. assert (2 ^ (3 + v_psz (n_nvm s)) <= 2 ^ 10) by (apply Z.pow_le_mono_r; lia). assert (0 < 2 ^ (3 + v_psz (n_nvm s))) by (apply Z.pow_pos_nonneg; lia). change (2 ^ 10) with 1024 in *. change (2 ^ 32) with 4294967296. nia. }
    destruct (erase_loop_ok b (n_start s) (Z.to_nat q) (n_nvm s) S HH) as (m' & E & K & M); rewrite ?Z2Nat.id by lia; fold R; [lia|lia| |].
    + intros i I. change (region_bit (n_start s + i * R) (n_nvm s)) with (region_of (n_start s + i * R) s). apply U. nia.
    + rewrite Z2Nat.id in E, M by lia. fold R in E, M. rewrite E. cbn [obind]. eexists. split; [reflexivity|]. cbn [n_set_nvm n_nvm n_start n_end n_in n_out]. split; [reflexivity|]. split; [reflexivity|]. split; [exact K|]. split; [reflexivity|]. split; [reflexivity|]. split.
      * intros x X. rewrite M. destruct b; cbn [andb]; [|reflexivity]. destruct (Z.leb_spec (n_start s) x); destruct (Z.ltb_spec x (n_start s + (q + 1) * R)); cbn [andb]; try reflexivity. lia.
      * intros x X. rewrite M. destruct b; cbn [andb]; [|reflexivity]. destruct (Z.leb_spec (n_start s) x); [|lia]. destruct (Z.ltb_spec x (n_start s + (q + 1) * R)); cbn [andb]; [reflexivity|].
        replace x with (n_start s + (x - n_start s)) by lia. apply F2. lia.
Qed.

(** With the area locked nothing is written. *)
Definition same_flash (s0 s : store) : Prop := keeps (n_nvm s0) (n_nvm s) /\ n_start s = n_start s0 /\ n_end s = n_end s0 /\ (forall a, v_mem (n_nvm s) a = v_mem (n_nvm s0) a).
Notation shut := locked.
Lemma write_byte_shut s0 c n s : placed s0 -> shut s0 -> same_flash s0 s -> n = n_off s + (if n_pend s then 1 else 0) -> 0 <= n_off s -> n_off s mod 2 = 0 -> n < n_end s0 - n_start s0 ->
  exists s', write_byte after c s = Ok s' /\ same_flash s0 s' /\ n + 1 = n_off s' + (if n_pend s' then 1 else 0) /\ 0 <= n_off s' /\ n_off s' mod 2 = 0 /\ n_in s' = n_in s /\ n_out s' = n_out s.
Proof.
  intros H Sh (K & Ws & We & M) Wn Wo W2 L. pose proof (placed_sound s0 H) as S. pose proof (page_pos _ S) as PP. pose proof (page_even _ S) as PE. assert (RP : row (n_nvm s0) = page (n_nvm s0) * 4) by reflexivity. pose proof (area_mult s0 H) as AM. pose proof (placed_readable s0 H) as (Q0 & Q1 & Q2).
  destruct H as (Bm & B & C & D & F & G & HH & J). rewrite placed_row in * by lia. assert (Pa : n_start s0 mod page (n_nvm s0) = 0) by (apply row_page; assumption).
  set (P := page (n_nvm s0)) in *. set (off := n_off s) in *. assert (Sn := keeps_sound _ _ K S). assert (Lk : v_lock (n_nvm s) = v_lock (n_nvm s0)) by apply K.
  assert (OF : off < n_end s0 - n_start s0) by (destruct (n_pend s); lia).
  assert (exists m1, (if off mod P =? 0 then start_page after (n_start s + off) (n_nvm s) else Ok (n_nvm s)) = Ok m1 /\ keeps (n_nvm s0) m1 /\ (forall a, v_mem m1 a = v_mem (n_nvm s0) a) /\ (off mod P = 0 -> forall o, v_buf m1 o = 255)) as (m1 & E1 & K1 & M1 & B1).
  { destruct (Z.eqb_spec (off mod P) 0) as [O|O]; [|exists (n_nvm s); split; [reflexivity|]; split; [exact K|]; split; [exact M|contradiction]].
    rewrite Ws. destruct (start_ok after (n_start s0 + off) (n_nvm s) Sn) as (m1 & E1 & K1 & B1 & M1).
    - lia.
    - rewrite (keeps_page _ _ K), mod_add_mult; [exact O|fold P; lia|exact Pa].
    - rewrite (keeps_row _ _ K), (keeps_total _ _ K), mod_add_mult by (lia || exact HH). intros X. pose proof (Z.div_mod off (row (n_nvm s0)) ltac:(lia)) as D1. pose proof (Z.div_mod (n_end s0 - n_start s0) (row (n_nvm s0)) ltac:(lia)) as D2. rewrite AM in D2. rewrite X in D1.
      assert (off / row (n_nvm s0) < (n_end s0 - n_start s0) / row (n_nvm s0)) by (apply (Zmult_lt_reg_r _ _ (row (n_nvm s0))); lia). nia.
    - exists m1. split; [exact E1|]. split; [exact (keeps_trans _ _ _ K K1)|]. split; [|intros _; exact B1]. intros a. rewrite M1, Lk, (keeps_bit _ _ _ K). change (region_bit (n_start s0 + off) (n_nvm s0)) with (region_of (n_start s0 + off) s0). rewrite Sh by lia. cbn [andb]. apply M. }
  unfold write_byte. rewrite (keeps_page _ _ K). fold P off. rewrite E1. cbn [obind]. cbn [n_set_nvm n_pend n_nvm n_start n_off n_byte].
  assert (S1 := keeps_sound _ _ K1 S). assert (Lk1 : v_lock m1 = v_lock (n_nvm s0)) by apply K1.
  assert (FD : forall d m2, keeps (n_nvm s0) m2 -> (forall a, v_mem m2 a = v_mem (n_nvm s0) a) -> (n_start s0 + d) mod P = 0 -> ((forall o, v_buf m2 o = 255) \/ 0 <= d < n_end s0 - n_start s0) ->
    keeps (n_nvm s0) (finish_page after (n_start s0 + d) m2) /\ (forall a, v_mem (finish_page after (n_start s0 + d) m2) a = v_mem (n_nvm s0) a)).
  { intros d m2 Km Mm Dm Or. destruct (finish_ok after (n_start s0 + d) m2 (keeps_sound _ _ Km S)) as (K3 & M3); [rewrite (keeps_page _ _ Km); exact Dm|]. split; [exact (keeps_trans _ _ _ Km K3)|]. intros a. rewrite M3.
    destruct Or as [Or|Or].
    - rewrite Or, Mm, land255 by apply Bm. destruct (_ && _); reflexivity.
    - replace (v_lock m2) with (v_lock (n_nvm s0)) by (symmetry; apply Km). rewrite (keeps_bit _ _ _ Km). change (region_bit (n_start s0 + d) (n_nvm s0)) with (region_of (n_start s0 + d) s0). rewrite Sh by lia. cbn [andb]. apply Mm. }
  destruct (n_pend s) eqn:Pd.
  - unfold fill. rewrite Ws, (keeps_total _ _ K1). fold off. destruct (Z.leb_spec 0 (n_start s0 + off)); [|lia]. destruct (Z.ltb_spec (n_start s0 + off + 1) (total (n_nvm s0))); [|lia]. cbn [andb obind]. cbn [n_set_write n_set_nvm n_off n_nvm n_start n_byte n_pend].
    match goal with |- context [v_set_buf ?b m1] => set (m2 := v_set_buf b m1) end. assert (K2 : keeps (n_nvm s0) m2) by (destruct K1 as (? & ? & ?); now repeat split).
    try rewrite Ws. destruct (Z.eqb_spec ((off + 2) mod P) 0) as [O|O].
    + destruct (last_page off P) as (T1 & T2 & T3); [lia|exact PE|exact W2|exact O|lia|]. assert (0 <= off / P * P) by (apply Z.mul_nonneg_nonneg; [apply Z.div_pos; lia|lia]).
      destruct (FD (off / P * P) m2 K2 M1) as (K3 & M3); [rewrite mod_add_mult by (lia || exact Pa); apply Z.mod_mul; lia|right; lia|]. replace (n_start s0 + (off + 2) - P) with (n_start s0 + off / P * P) by lia.
      eexists. split; [reflexivity|]. cbn [n_set_write n_set_nvm n_off n_nvm n_start n_end n_pend n_in n_out]. split; [repeat split; auto; apply K3|]. split; [lia|]. split; [lia|]. split; [rewrite Zplus_mod, W2; reflexivity|split; reflexivity].
    + eexists. split; [reflexivity|]. cbn [n_set_write n_set_nvm n_off n_nvm n_start n_end n_pend n_in n_out]. split; [repeat split; auto; apply K2|]. split; [lia|]. split; [lia|]. split; [rewrite Zplus_mod, W2; reflexivity|split; reflexivity].
  - cbn [obind n_set_write n_set_nvm n_off n_nvm n_start]. fold off. rewrite Ws. destruct (Z.eqb_spec (off mod P) 0) as [O|O].
    + destruct (FD (off - P) m1 K1 M1) as (K3 & M3); [rewrite mod_add_mult by (lia || exact Pa); replace (off - P) with (off + (-1) * P) by lia; rewrite Z.mod_add by lia; exact O|left; apply B1; exact O|]. replace (n_start s0 + off - P) with (n_start s0 + (off - P)) by lia.
      eexists. split; [reflexivity|]. cbn [n_set_write n_set_nvm n_off n_nvm n_start n_end n_pend n_in n_out]. fold off. split; [repeat split; auto; apply K3|]. split; [lia|]. split; [lia|]. split; [exact W2|split; reflexivity].
    + eexists. split; [reflexivity|]. cbn [n_set_write n_set_nvm n_off n_nvm n_start n_end n_pend n_in n_out]. fold off. split; [repeat split; auto; apply K1|]. split; [lia|]. split; [lia|]. split; [exact W2|split; reflexivity].
Qed.
Lemma loop_shut s0 rest : placed s0 -> shut s0 -> forall sent n s fuel, sendable sent -> same_flash s0 s -> n = n_off s + (if n_pend s then 1 else 0) -> 0 <= n_off s -> n_off s mod 2 = 0 ->
  n + Z.of_nat (length (received sent)) < n_end s0 - n_start s0 -> n_in s = sent ++ 4 :: rest -> (length (n_in s) < fuel)%nat ->
  exists s', nvm_loop after fuel s = Ok (Some s') /\ same_flash s0 s' /\ n + Z.of_nat (length (received sent)) + 1 = n_off s' + (if n_pend s' then 1 else 0) /\ 0 <= n_off s' /\ n_off s' mod 2 = 0.
Proof.
  intros H Sh. induction sent as [|c sent IH]; intros n s fuel Sd W Wn Wo W2 L In F; (destruct fuel as [|fuel]; [lia|]); cbn [nvm_loop]; rewrite In; cbn [app raw_getc] in *.
  - change (4 =? 5) with false. change (4 =? 13) with false. cbv iota. change (4 =? 4) with true. cbv iota. cbn [received flat_map length] in *.
    destruct (write_byte_shut s0 255 n (n_set_io rest (n_out s) s) H Sh W Wn Wo W2) as (s' & E & W' & N' & O' & P' & _); [lia|]. rewrite E. cbn [obind]. change (255 =? 255) with true. cbv iota. exists s'. split; [reflexivity|]. split; [exact W'|]. split; [lia|auto].
  - inversion Sd as [|? ? [C1 C2] Sd']; subst. destruct (Z.eqb_spec c 5) as [->|C5].
    + apply (IH _ (n_set_io (sent ++ 4 :: rest) (n_out s ++ [6]) s) (Datatypes.S fuel) Sd' W eq_refl Wo W2 L eq_refl). cbn [n_set_io n_in]. rewrite In in F. cbn [length] in F. lia.
    + set (d := if c =? 13 then 10 else c). assert (D : d <> 4 /\ d <> 255 /\ received (c :: sent) = d :: received sent).
      { unfold d, received. cbn [flat_map]. destruct (Z.eqb_spec c 5); [contradiction|]. destruct (Z.eqb_spec c 13); repeat split; lia. }
      destruct D as (D4 & D255 & Rc). rewrite Rc in *. destruct (Z.eqb_spec d 4); [contradiction|]. cbn [length] in *.
      destruct (write_byte_shut s0 d _ (n_set_io (sent ++ 4 :: rest) (n_out s) s) H Sh W eq_refl Wo W2) as (s' & E & W' & N' & O' & P' & I' & _); [cbn [n_set_io n_off n_pend]; lia|]. rewrite E. cbn [obind]. destruct (Z.eqb_spec d 255); [contradiction|]. cbn [n_set_io n_off n_pend] in N'.
      destruct (IH (n_off s' + (if n_pend s' then 1 else 0)) s' fuel Sd' W' eq_refl O' P') as (s2 & E2 & W3 & N3 & O3 & P3); [lia|exact I'|rewrite I'; cbn [n_set_io n_in]; rewrite In in F; cbn [length] in F; lia|].
      exists s2. split; [exact E2|]. split; [exact W3|]. split; [lia|auto].
Qed.
Lemma write_shut s sent rest : placed s -> shut s -> sendable sent -> Z.of_nat (length (received sent)) < n_end s - n_start s -> n_in s = sent ++ 4 :: rest ->
  exists s', nvm_write after s = Ok (Some s') /\ n_start s' = n_start s /\ n_end s' = n_end s /\ (forall a, v_mem (n_nvm s') a = v_mem (n_nvm s) a).
Proof.
  intros H Sh Sd L In. assert (W : same_flash s (write_init s)) by now repeat split.
  destruct (loop_shut s rest H Sh sent 0 (write_init s) (S (length (n_in s))) Sd W eq_refl) as (s1 & E & W1 & N1 & O1 & P1); try (cbn [write_init n_set_write n_off n_in]; (lia || reflexivity || exact In)).
  unfold nvm_write. rewrite E. cbn [obind].
  pose proof (placed_sound s H) as S. pose proof (page_pos _ S) as PP. pose proof (page_even _ S) as PE.
  assert (exists k s2, (if n_pend s1 then write_byte after 255 s1 else Ok s1) = Ok s2 /\ same_flash s s2 /\ k = n_off s2 + (if n_pend s2 then 1 else 0) /\ 0 <= n_off s2 /\ n_off s2 mod 2 = 0 /\ k <= n_end s - n_start s) as (k & s2 & E2 & W2 & N2 & O2 & P2 & L2).
  { destruct (n_pend s1) eqn:Pd; [|exists (n_off s1 + 0), s1; rewrite Pd; split; [reflexivity|]; split; [exact W1|]; split; [reflexivity|]; split; [exact O1|]; split; [exact P1|lia]].
    assert (Ev : (n_end s - n_start s) mod 2 = 0) by (apply (multiple_even _ (row (n_nvm s))); [unfold row; rewrite Zmult_mod, PE; reflexivity|unfold row; lia|apply area_mult; exact H]).
    assert (NE : n_off s1 + 1 <> n_end s - n_start s) by (intros X; rewrite <- X, Zplus_mod, P1 in Ev; discriminate).
    destruct (write_byte_shut s 255 (n_off s1 + 1) s1 H Sh W1) as (s2 & E2 & W2 & N2 & O2 & P2 & _); [rewrite Pd; reflexivity|exact O1|exact P1|lia|]. exists (n_off s1 + 1 + 1), s2. split; [exact E2|]. split; [exact W2|]. split; [exact N2|]. split; [exact O2|]. split; [exact P2|lia]. }
  unfold write_flush. rewrite E2. cbn [obind]. destruct W1 as (K1 & _). rewrite (keeps_page _ _ K1). destruct W2 as (K2 & S2 & F2 & M2).
  destruct (Z.eqb_spec (n_off s2 mod page (n_nvm s)) 0) as [O|O]; cbn [obind]; eexists; (split; [reflexivity|]); cbn [n_set_nvm n_nvm n_start n_end]; (split; [exact S2|]); (split; [exact F2|]); [exact M2|].
  rewrite S2. set (d := n_off s2 / page (n_nvm s) * page (n_nvm s)). assert (D : d + n_off s2 mod page (n_nvm s) = n_off s2) by (unfold d; generalize (Z.div_mod (n_off s2) (page (n_nvm s))); lia). pose proof (Z.mod_pos_bound (n_off s2) (page (n_nvm s)) ltac:(lia)) as MB. assert (0 <= d) by (apply Z.mul_nonneg_nonneg; [apply Z.div_pos; lia|lia]).
  assert (n_off s2 <= k) by (destruct (n_pend s2); lia).
  destruct (finish_ok after (n_start s + d) (n_nvm s2) (keeps_sound _ _ K2 S)) as (_ & M3).
  { rewrite (keeps_page _ _ K2), mod_add_mult; [apply Z.mod_mul; lia|lia|]. destruct H as (_ & B & _ & _ & _ & _ & HH & _). rewrite placed_row in HH by lia. apply row_page; assumption. }
  intros a. rewrite M3. replace (v_lock (n_nvm s2)) with (v_lock (n_nvm s)) by (symmetry; apply K2). rewrite (keeps_bit _ _ _ K2). change (region_bit (n_start s + d) (n_nvm s)) with (region_of (n_start s + d) s). rewrite Sh by lia. cbn [andb]. apply M2.
Qed.
End After.
