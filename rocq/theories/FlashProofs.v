(** Lemmas about the program store in flash. *)
From Coq Require Import ZArith Lia List Bool.
From Verif Require Import Base RomModel RomSpec RomProofs FlashModel FlashSpec.
Import ListNotations.
Local Open Scope Z_scope.
Local Open Scope outcome_scope.

Notation P := 128%nat.
Definition isnil (l : list Z) : bool := match l with [] => true | _ => false end.
Definition same (s s' : flash) : Prop :=
  f_append s' = f_append s /\ f_pins s' = f_pins s /\ r_in (f_rom s') = r_in (f_rom s) /\ r_out (f_rom s') = r_out (f_rom s) /\
  same_else (f_rom s) (f_rom s').
Lemma same_refl s : same s s.
Proof. repeat split. Qed.
Lemma same_trans a b c : same a b -> same b c -> same a c.
Proof. unfold same, same_else. intuition congruence. Qed.

(** [d] is written, [w] waits in the page buffer, [old] is still as before *)
Definition winv (code d w old : list Z) (s : flash) : Prop :=
  r_mem (f_rom s) = code ++ d ++ old /\ f_buf s = w ++ repeat 255 (P - length w) /\
  f_addr s = Z.of_nat (length code + length d + length w) /\ (exists q, (length code + length d = q * P)%nat) /\
  (exists q, (length old = q * P)%nat) /\ (length w < P)%nat /\ f_pending s = negb (isnil w) /\ (w <> [] -> f_last s = f_addr s - 1).

Lemma page_of a n : (n < P)%nat -> Z.of_nat (a * P + n) / PAGE * PAGE = Z.of_nat (a * P).
Proof. intros H. unfold PAGE. rewrite Nat2Z.inj_add, Nat2Z.inj_mul. rewrite Z.div_add_l by lia. rewrite Z.div_small by lia. lia. Qed.
Lemma in_page a n : (n < P)%nat -> Z.to_nat (Z.of_nat (a * P + n) mod PAGE) = n.
Proof. intros H. unfold PAGE. rewrite Nat2Z.inj_add, Nat2Z.inj_mul. rewrite Z.add_comm, Z.mod_add by lia. rewrite Z.mod_small by lia. lia. Qed.
Lemma end_page a n : (n < P)%nat -> end_of_page (Z.of_nat (a * P + n)) = Nat.eqb (S n) P.
Proof.
  intros H. unfold end_of_page, PAGE. replace (128 - 1) with (Z.ones 7) by reflexivity. rewrite Z.land_ones by lia. change (2 ^ 7) with 128.
  rewrite Nat2Z.inj_add, Nat2Z.inj_mul. replace (Z.of_nat a * Z.of_nat P + Z.of_nat n + 1) with (Z.of_nat n + 1 + Z.of_nat a * 128) by lia. rewrite Z.mod_add by lia.
  destruct (Nat.eqb_spec (S n) P) as [E|E].
  - replace (Z.of_nat n + 1) with 128 by lia. reflexivity.
  - rewrite Z.mod_small by lia. apply Z.eqb_neq. lia.
Qed.
Lemma poke_rep w c n : (0 < n)%nat -> poke (w ++ repeat 255 n) (length w) c = (w ++ [c]) ++ repeat 255 (n - 1).
Proof. intros H. destruct n; [lia|]. cbn [repeat]. rewrite poke_at, <- app_assoc. cbn. now rewrite Nat.sub_0_r. Qed.

(** what writing a page does *)
Lemma erase_writes code d w old s q : r_mem (f_rom s) = code ++ d ++ old -> (length code + length d = q * P)%nat -> f_last s / PAGE * PAGE = Z.of_nat (q * P) ->
  f_buf s = w -> length w = P -> (P <= length old)%nat ->
  r_mem (f_rom (cmd_erase_write s)) = code ++ (d ++ w) ++ skipn P old /\ f_buf (cmd_erase_write s) = repeat 255 P /\ same s (cmd_erase_write s) /\
  f_addr (cmd_erase_write s) = f_addr s /\ f_pending (cmd_erase_write s) = f_pending s.
Proof.
  intros M Q L B W O. unfold cmd_erase_write. rewrite L, B, Nat2Z.id, M, W. cbn.
  split; [|repeat split]. rewrite <- Q, <- app_length, (app_assoc code d old).
  rewrite firstn_app, firstn_all, Nat.sub_diag. cbn [firstn]. rewrite app_nil_r.
  rewrite skipn_app, (@skipn_all2 _ _ (code ++ d)) by lia. replace (length (code ++ d) + P - length (code ++ d))%nat with P by lia.
  cbn [app]. now rewrite <- !app_assoc.
Qed.
Lemma mult_room (a : list Z) q : (length a = q * P)%nat -> (0 < length a)%nat -> (P <= length a)%nat.
Proof. destruct q; lia. Qed.
Lemma byte_runs c code d w old s : winv code d w old s -> (length w < length old)%nat ->
  exists s' d' w' old', flash_write_byte c s = Ok s' /\ winv code d' w' old' s' /\ d' ++ w' = d ++ w ++ [c] /\
    (length d' + length old' = length d + length old)%nat /\ same s s'.
Proof.
  intros (M & B & A & (q & Q) & (qo & QO) & W & PD & L) R. unfold flash_write_byte, rom_size. rewrite M, A.
  pose proof (mult_room _ _ QO ltac:(lia)) as RO.
  replace (Z.of_nat (length code + length d + length w) <? Z.of_nat (length (code ++ d ++ old))) with true by (symmetry; apply Z.ltb_lt; rewrite !app_length; lia).
  replace (0 <=? Z.of_nat (length code + length d + length w)) with true by (symmetry; apply Z.leb_le; lia). cbn [andb].
  rewrite Q, (in_page q _ W), (end_page q _ W), B, poke_rep by lia.
  destruct (Nat.eqb_spec (S (length w)) P) as [E|E].
  - unfold write_flush. cbn [f_pending with_pending].
    match goal with |- context [cmd_erase_write ?x] => set (s1 := x) end.
    destruct (@erase_writes code d (w ++ [c]) old s1 q) as (M' & B' & S' & A' & P'); auto.
    + unfold s1. cbn. apply page_of. exact W.
    + unfold s1. cbn [f_buf with_pending with_last with_buf]. replace (128 - length w - 1)%nat with O by lia. cbn. now rewrite app_nil_r.
    + rewrite app_length. cbn. lia.
    + eexists _, (d ++ w ++ [c]), [], (skipn P old). split; [reflexivity|]. split; [|split; [now rewrite app_nil_r|split; [rewrite skipn_length, !app_length; cbn [length]; lia|exact S']]].
      unfold winv. cbn [f_rom with_waddr f_buf f_addr f_pending f_last]. split; [exact M'|]. split; [exact B'|]. rewrite !app_length. cbn [length].
      split; [lia|]. split; [exists (S q); lia|]. split; [exists (qo - 1)%nat; rewrite skipn_length; nia|]. split; [lia|]. split; [rewrite P'; reflexivity|]. intros X. now elim X.
  - eexists _, d, (w ++ [c]), old. split; [reflexivity|]. split; [|split; [reflexivity|split; [reflexivity|repeat split]]].
    unfold winv. cbn [f_rom with_waddr f_buf f_addr f_pending f_last with_pending with_last with_buf]. split; [exact M|].
    rewrite !app_length. cbn [length]. split; [f_equal; f_equal; lia|]. split; [lia|]. split; [eauto|]. split; [eauto|]. split; [lia|].
    split; [destruct w; reflexivity|]. intros _. lia.
Qed.
Lemma flush_runs code d w old s : winv code d w old s -> (length w < length old)%nat \/ w = [] ->
  exists post, r_mem (f_rom (write_flush s)) = code ++ (d ++ w) ++ post /\
    post = (if isnil w then old else repeat 255 (P - length w) ++ skipn P old) /\ same s (write_flush s).
Proof.
  intros (M & B & A & (q & Q) & (qo & QO) & W & PD & L) R. unfold write_flush. rewrite PD. destruct w as [|c w]; cbn [isnil negb].
  - exists old. split; [now rewrite app_nil_r|]. split; [reflexivity|apply same_refl].
  - destruct R as [R|R]; [|discriminate]. set (w' := c :: w) in *. pose proof (mult_room _ _ QO ltac:(lia)) as RO.
    destruct (@erase_writes code d (w' ++ repeat 255 (P - length w')) old (with_pending false s) q) as (M' & B' & S' & A' & P'); auto.
    + cbn [f_last with_pending]. rewrite L by discriminate. rewrite A, Q. replace (Z.of_nat (q * 128 + length w') - 1) with (Z.of_nat (q * 128 + (length w' - 1))) by (unfold w'; cbn [length]; lia). apply page_of. lia.
    + rewrite app_length, repeat_length. lia.
    + eexists. split; [|split; [reflexivity|exact S']]. rewrite M'. now rewrite <- !app_assoc.
Qed.

Lemma raw_enq c s r : flash_loop (S r) (with_rom (with_io (5 :: c) (r_out (f_rom s)) (f_rom s)) s) = flash_loop (S r) (with_rom (with_io c (r_out (f_rom s) ++ [6]) (f_rom s)) s).
Proof. cbn [flash_loop f_rom with_rom r_in r_out with_io raw_getc]. cbn. destruct (raw_getc c (r_out (f_rom s) ++ [6])) as [[[a b] e]|]; reflexivity. Qed.
Lemma loop_enq s rest r : r_in (f_rom s) = 5 :: rest -> flash_loop (S r) s = flash_loop (S r) (with_rom (with_io rest (r_out (f_rom s) ++ [6]) (f_rom s)) s).
Proof. intros I. cbn [flash_loop]. rewrite I. cbn. destruct (raw_getc rest (r_out (f_rom s) ++ [6])) as [[[a b] e]|]; reflexivity. Qed.
Lemma winv_io code d w old s i o : winv code d w old s -> winv code d w old (with_rom (with_io i o (f_rom s)) s).
Proof. exact (fun H => H). Qed.
Definition sameC (s s' : flash) : Prop := f_append s' = f_append s /\ f_pins s' = f_pins s /\ same_else (f_rom s) (f_rom s').
Lemma full_at code d w old s : winv code d w old s -> write_full s = Nat.eqb (length w + 1) (length old).
Proof.
  intros (M & _ & A & _). unfold write_full, flash_end, rom_size. rewrite M, A, !app_length. destruct (Nat.eqb_spec (length w + 1) (length old)) as [E|E]; [apply Z.eqb_eq|apply Z.eqb_neq]; lia.
Qed.
Lemma loop_runs : forall sent code d w old rest s fuel, winv code d w old s -> sendable sent -> r_in (f_rom s) = sent ++ 4 :: rest ->
  (length w + length (received sent) + 1 < length old)%nat -> (length (received sent) < fuel)%nat ->
  exists s' d' w' old', flash_loop fuel s = Ok (Some s') /\ winv code d' w' old' s' /\ d' ++ w' = d ++ w ++ received sent ++ [255] /\
    (length d' + length old' = length d + length old)%nat /\ r_in (f_rom s') = rest /\ r_out (f_rom s') = r_out (f_rom s) ++ enquiries sent /\ sameC s s'.
Proof.
  induction sent as [|c sent IH]; intros code d w old rest s fuel V T I R F.
  - destruct fuel as [|fuel]; [cbn in F; lia|]. cbn [flash_loop]. rewrite I. cbn [app raw_getc Z.eqb Pos.eqb received flat_map length] in *.
    destruct (@byte_runs 255 code d w old _ (winv_io _ _ _ _ _ rest (r_out (f_rom s)) V) ltac:(lia)) as (s' & d' & w' & old' & -> & V' & D & L & S').
    cbn [obind]. rewrite (full_at _ _ _ _ _ V').
    assert (K : exists s0, (if Nat.eqb (length w' + 1) (length old') then Ok (Some s') else Ok (Some s')) = Ok (Some s0) /\ s0 = s') by (destruct (Nat.eqb _ _); eauto).
    destruct K as (s0 & E & ->). exists s', d', w', old'. split; [exact E|]. split; [exact V'|]. split; [exact D|]. split; [exact L|].
    destruct S' as (S1 & S2 & S3 & S4 & S5). cbn in S3, S4. split; [exact S3|]. split; [rewrite S4; cbn; now rewrite app_nil_r|]. split; [exact S1|]. split; [exact S2|]. exact S5.
  - inversion T as [|c' l' [Hc H4] T']; subst. destruct fuel as [|fuel]; [lia|].
    unfold received in R, F. cbn [flat_map] in R, F. destruct (Z.eqb_spec c 5) as [->|N5].
    + rewrite (loop_enq s (sent ++ 4 :: rest)) by exact I.
      destruct (IH code d w old rest (with_rom (with_io (sent ++ 4 :: rest) (r_out (f_rom s) ++ [6]) (f_rom s)) s) (S fuel) V T' eq_refl R F) as (s' & d' & w' & old' & E & V' & D & L & I' & O & S').
      exists s', d', w', old'. split; [exact E|]. split; [exact V'|]. split; [exact D|]. split; [exact L|]. split; [exact I'|].
      split; [rewrite O; cbn [f_rom r_out with_rom with_io enquiries flat_map Z.eqb Pos.eqb]; now rewrite <- app_assoc|exact S'].
    + rewrite app_length in R, F. set (e := if c =? 13 then 10 else c).
      assert (Hd : received (c :: sent) = e :: received sent /\ enquiries (c :: sent) = enquiries sent).
      { unfold received, enquiries, e. cbn [flat_map]. destruct (Z.eqb_spec c 5); [contradiction|]. destruct (c =? 13); split; reflexivity. }
      destruct Hd as [-> ->]. assert (Ld : length (if c =? 13 then [10] else [c]) = 1%nat) by (destruct (c =? 13); reflexivity). rewrite Ld in R, F. fold (received sent) in R, F.
      assert (D4 : e <> 4 /\ e <> 255) by (unfold e; destruct (Z.eqb_spec c 13); lia).
      cbn [flash_loop]. rewrite I. cbn [app raw_getc]. destruct (Z.eqb_spec c 5); [contradiction|]. fold e. cbv zeta. destruct (Z.eqb_spec e 4); [lia|].
      destruct (@byte_runs e code d w old _ (winv_io _ _ _ _ _ (sent ++ 4 :: rest) (r_out (f_rom s)) V) ltac:(lia)) as (s1 & d1 & w1 & old1 & -> & V1 & D1 & L1 & S1).
      cbn [obind]. rewrite (full_at _ _ _ _ _ V1).
      assert (Lw : (length w1 + length old = length w + 1 + length old1)%nat) by (apply (f_equal (@length Z)) in D1; rewrite !app_length in D1; cbn in D1; lia).
      destruct (Nat.eqb_spec (length w1 + 1) (length old1)) as [X|X]; [lia|]. destruct (Z.eqb_spec e 255); [lia|].
      destruct S1 as (A1 & A2 & A3 & A4 & A5). cbn in A3, A4.
      destruct (IH code d1 w1 old1 rest s1 fuel V1 T' A3 ltac:(lia) ltac:(lia)) as (s' & d' & w' & old' & E & V' & D & L & I' & O & (S1' & S2' & S3')).
      exists s', d', w', old'. split; [exact E|]. split; [exact V'|]. split; [rewrite D; rewrite app_assoc, D1; now rewrite <- !app_assoc|]. split; [lia|]. split; [exact I'|].
      split; [rewrite O, A4; reflexivity|]. unfold sameC, same_else in *. cbn in A1, A2, A5. intuition congruence.
Qed.
Lemma loop_long : forall t code d w old rest s fuel, winv code d w old s -> text t -> r_in (f_rom s) = t ++ rest ->
  (length w + 1 < length old <= length w + 1 + length t)%nat -> (length t < fuel)%nat ->
  exists s' d' w' old', flash_loop fuel s = Ok (Some s') /\ winv code d' w' old' s' /\ d' ++ w' = d ++ w ++ firstn (length old - 1 - length w) t /\
    (length w' + 1 = length old')%nat /\ (length d' + length old' = length d + length old)%nat /\ r_in (f_rom s') = skipn (length old - 1 - length w) t ++ rest /\ sameC s s'.
Proof.
  induction t as [|c t IH]; intros code d w old rest s fuel V T I R F; [cbn in R; lia|].
  inversion T as [|c' l' (Hc & H4 & H5 & H13) T']; subst. destruct fuel as [|fuel]; [lia|]. cbn [length] in R, F.
  cbn [flash_loop]. rewrite I. cbn [app raw_getc]. destruct (Z.eqb_spec c 5); [lia|]. destruct (Z.eqb_spec c 13); [lia|]. cbv zeta. destruct (Z.eqb_spec c 4); [lia|].
  destruct (@byte_runs c code d w old _ (winv_io _ _ _ _ _ (t ++ rest) (r_out (f_rom s)) V) ltac:(lia)) as (s1 & d1 & w1 & old1 & -> & V1 & D1 & L1 & S1).
  cbn [obind]. rewrite (full_at _ _ _ _ _ V1).
  assert (Lw : (length w1 + length old = length w + 1 + length old1)%nat) by (apply (f_equal (@length Z)) in D1; rewrite !app_length in D1; cbn in D1; lia).
  destruct S1 as (A1 & A2 & A3 & A4 & A5). cbn in A3, A4.
  replace (length old - 1 - length w)%nat with (S (length old1 - 1 - length w1)) by lia. cbn [firstn skipn].
  destruct (Nat.eqb_spec (length w1 + 1) (length old1)) as [X|X].
  - exists s1, d1, w1, old1. split; [reflexivity|]. split; [exact V1|]. replace (length old1 - 1 - length w1)%nat with O by lia. cbn [firstn skipn].
    split; [exact D1|]. split; [exact X|]. split; [exact L1|]. split; [exact A3|]. unfold sameC. auto.
  - destruct (Z.eqb_spec c 255); [lia|].
    assert (X1 : (length w1 + 1 < length old1)%nat) by lia.
    destruct (IH code d1 w1 old1 rest s1 fuel V1 T' A3 ltac:(lia) ltac:(lia)) as (s' & d' & w' & old' & E & V' & D & LX & L & I' & (S1' & S2' & S3')).
    exists s', d', w', old'. split; [exact E|]. split; [exact V'|]. split; [rewrite D, app_assoc, D1; now rewrite <- !app_assoc|]. split; [exact LX|]. split; [lia|]. split; [exact I'|].
    unfold sameC, same_else in *. cbn in A1, A2, A5. intuition congruence.
Qed.

Lemma fused_start s : fused s -> flash_start s = Some (f_append s * 256).
Proof. intros (H & _). unfold flash_start. destruct (Z.eqb_spec (f_append s) 0); [lia|reflexivity]. Qed.
Lemma own_kept s : r_mem (f_rom s) = own s ++ kept s.
Proof. symmetry. apply firstn_skipn. Qed.
Lemma own_length s : fused s -> Z.of_nat (length (own s)) = f_append s * 256 /\ Z.of_nat (length (kept s)) = rom_size (f_rom s) - f_append s * 256.
Proof. intros (H & L & _). unfold own, kept, rom_size in *. rewrite firstn_length, skipn_length. lia. Qed.
Lemma init_winv s : fused s -> winv (own s) [] [] (kept s) (write_init s).
Proof.
  intros H. destruct (own_length s H) as [LO LK]. unfold winv, write_init. rewrite (fused_start s H). cbn [f_rom f_buf f_addr f_pending f_last cmd_clear with_buf with_pending with_waddr length isnil negb app].
  split; [apply own_kept|]. split; [reflexivity|]. split; [lia|].
  destruct H as (HA & HL & HM & HN). split; [exists (Z.to_nat (f_append s * 2)); lia|].
  split; [|split; [lia|split; [reflexivity|intros X; now elim X]]].
  apply Z.mod_divide in HM; [|lia]. destruct HM as (z & HZ). exists (Z.to_nat (2 * z - 2 * f_append s)). lia.
Qed.
Lemma init_same s : same s (write_init s).
Proof. repeat split. Qed.
Lemma split_mem s s' a b : fused s -> f_append s' = f_append s -> r_mem (f_rom s') = a ++ b -> length a = length (own s) -> own s' = a /\ kept s' = b.
Proof.
  intros H A M L. destruct (own_length s H) as [LO _]. unfold own, kept. rewrite A, M. replace (Z.to_nat (f_append s * 256)) with (length a) by lia.
  rewrite firstn_app, firstn_all, Nat.sub_diag, skipn_app, skipn_all, Nat.sub_diag. cbn. now rewrite app_nil_r.
Qed.
Lemma fused_same s s' : fused s -> f_append s' = f_append s -> length (r_mem (f_rom s')) = length (r_mem (f_rom s)) -> fused s'.
Proof. intros H A L. unfold fused, rom_size in *. rewrite A, L. exact H. Qed.

Theorem write_stores sent rest s : fused s -> sendable sent -> Z.of_nat (length (received sent)) + 1 < Z.of_nat (length (kept s)) -> r_in (f_rom s) = sent ++ 4 :: rest ->
  exists s', flash_write s = Ok (Some s') /\ fused s' /\ r_in (f_rom s') = rest /\ r_out (f_rom s') = r_out (f_rom s) ++ enquiries sent /\ own s' = own s /\
    stored (kept s') = received sent /\ length (kept s') = length (kept s).
Proof.
  intros H T L I. destruct (own_length s H) as [LO LK]. pose proof (init_winv s H) as V.
  assert (LM : length (r_mem (f_rom s)) = (length (own s) + length (kept s))%nat) by (rewrite own_kept at 1; apply app_length).
  destruct (loop_runs sent (own s) [] [] (kept s) rest (write_init s) (length (r_mem (f_rom s))) V T I) as (s1 & d & w & old & E & V1 & D & LL & I1 & O1 & (A1 & A2 & A3)); [cbn [length]; lia|lia|].
  unfold flash_write. rewrite E. cbn [obind]. cbn [app length] in D, LL.
  assert (LD : (length d + length w = length (received sent) + 1)%nat) by (apply (f_equal (@length Z)) in D; rewrite !app_length in D; cbn in D; lia).
  destruct (flush_runs _ _ _ _ _ V1) as (post & M & PO & S'). { left. lia. }
  destruct S' as (B1 & B2 & B3 & B4 & B5). exists (write_flush s1). split; [reflexivity|].
  assert (AP : f_append (write_flush s1) = f_append s) by (rewrite B1, A1; reflexivity).
  destruct (split_mem s (write_flush s1) _ _ H AP M eq_refl) as [OW KE].
  assert (LP : (length post + (length d + length w) = length (kept s))%nat).
  { destruct V1 as (_ & _ & _ & _ & (q & QO) & W & _). rewrite PO. destruct w as [|c w]; cbn [isnil length] in *; [lia|]. rewrite app_length, repeat_length, skipn_length. destruct q; cbn [length] in *; nia. }
  assert (LKE : length (kept (write_flush s1)) = length (kept s)) by (rewrite KE, !app_length; lia).
  split. { apply (fused_same s); auto. rewrite (own_kept (write_flush s1)), LM, app_length, OW, LKE. reflexivity. }
  split; [congruence|]. split; [rewrite B4, O1; reflexivity|]. split; [exact OW|]. split; [|exact LKE].
  rewrite KE, D. rewrite <- app_assoc. cbn [app]. apply stored_app. clear -T. induction T as [|c l [Hc H4] T IH]; [constructor|]. unfold received. cbn [flat_map].
  destruct (c =? 5); [exact IH|]. destruct (c =? 13); constructor; try exact IH; lia.
Qed.
Theorem write_long t rest s : fused s -> text t -> Z.of_nat (length (kept s)) <= Z.of_nat (length t) + 1 -> r_in (f_rom s) = t ++ rest ->
  exists s', flash_write s = Ok (Some s') /\ own s' = own s /\ kept s' = firstn (length (kept s) - 1) t ++ [255] /\ r_in (f_rom s') = skipn (length (kept s) - 1) t ++ rest.
Proof.
  intros H T L I. destruct (own_length s H) as [LO LK]. pose proof (init_winv s H) as V. assert (H' := H). destruct H' as (HA & HL & HM & HN).
  assert (LM : length (r_mem (f_rom s)) = (length (own s) + length (kept s))%nat) by (rewrite own_kept at 1; apply app_length).
  assert (K2 : (256 <= length (kept s))%nat).
  { apply Z.mod_divide in HM; [|lia]. destruct HM as (z & HZ). lia. }
  assert (FU : exists t1 t2, t = t1 ++ t2 /\ length t1 = (length (kept s) - 1)%nat).
  { exists (firstn (length (kept s) - 1) t), (skipn (length (kept s) - 1) t). split; [symmetry; apply firstn_skipn|]. rewrite firstn_length. lia. }
  destruct FU as (t1 & t2 & -> & L1). apply Forall_app in T. destruct T as [T1 T2]. rewrite <- app_assoc in I.
  destruct (loop_long t1 (own s) [] [] (kept s) (t2 ++ rest) (write_init s) (length (r_mem (f_rom s))) V T1 I) as (s1 & d & w & old & E & V1 & D & LX & LL & I1 & (A1 & A2 & A3)); [cbn [length]; lia|lia|].
  unfold flash_write. rewrite E. cbn [obind]. cbn [app length] in D, LL, I1. rewrite Nat.sub_0_r in D, I1.
  destruct (flush_runs _ _ _ _ _ V1) as (post & M & PO & (B1 & B2 & B3 & B4 & B5)). { left. lia. }
  exists (write_flush s1). split; [reflexivity|].
  assert (AP : f_append (write_flush s1) = f_append s) by (rewrite B1, A1; reflexivity).
  destruct (split_mem s (write_flush s1) _ _ H AP M eq_refl) as [OW KE]. split; [exact OW|].
  rewrite !firstn_app, !skipn_app, L1, Nat.sub_diag. cbn [firstn skipn]. rewrite app_nil_r. rewrite <- L1 in D, I1 |- *. rewrite firstn_all in D |- *. rewrite skipn_all in I1 |- *. cbn [app] in *.
  split; [|rewrite B3, I1; reflexivity]. rewrite KE, D. f_equal.
  destruct V1 as (_ & _ & _ & _ & (q & QO) & W & _). assert (length w = 127%nat /\ length old = 128%nat) as [LW LO2] by (destruct q as [|[|q]]; lia).
  rewrite PO, LW. destruct w; [cbn in LW; lia|]. cbn [isnil]. rewrite skipn_all2 by lia. reflexivity.
Qed.

(** ** Showing and reading *)
Lemma read_at s pre c post : r_mem (f_rom s) = pre ++ c :: post -> flash_read (Z.of_nat (length pre)) s = Ok c.
Proof. intros M. unfold flash_read. rewrite M, Nat2Z.id, nth_error_app2, Nat.sub_diag by lia. cbn. destruct (Z.leb_spec 0 (Z.of_nat (length pre))); [reflexivity|lia]. Qed.
Lemma stored_split l : In 255 l -> exists post, l = stored l ++ 255 :: post.
Proof.
  induction l as [|c l IH]; intros H; [elim H|]. cbn. destruct (Z.eqb_spec c 255) as [->|]; [eexists; reflexivity|].
  destruct H as [->|H]; [lia|]. destruct (IH H) as (post & E). exists post. cbn. now rewrite <- E.
Qed.
Lemma show_loop_runs : forall l pre post s fuel, r_mem (f_rom s) = pre ++ l ++ 255 :: post -> Forall (fun c => c <> 255) l -> (length l < fuel)%nat ->
  exists s', flash_show_loop fuel (Z.of_nat (length pre)) s = Ok s' /\ r_out (f_rom s') = r_out (f_rom s) ++ l.
Proof.
  induction l as [|c l IH]; intros pre post s fuel M N F; (destruct fuel as [|fuel]; [lia|]); cbn [flash_show_loop app] in *.
  - rewrite (read_at _ _ _ _ M). cbn. exists s. split; [reflexivity|]. now rewrite app_nil_r.
  - rewrite (read_at _ _ _ _ M). cbn [obind]. inversion N; subst. destruct (Z.eqb_spec c 255); [contradiction|].
    replace (Z.of_nat (length pre) + 1) with (Z.of_nat (length (pre ++ [c]))) by (rewrite app_length; cbn; lia).
    destruct (IH (pre ++ [c]) post (with_rom (putc c (f_rom s)) s) fuel) as (s' & E & O); [cbn; rewrite M, <- app_assoc; reflexivity|assumption|cbn in F; lia|].
    exists s'. split; [exact E|]. rewrite O. cbn. now rewrite <- app_assoc.
Qed.
Lemma stored_ne l : Forall (fun c => c <> 255) (stored l).
Proof. induction l as [|c l IH]; cbn; [constructor|]. destruct (Z.eqb_spec c 255); constructor; auto. Qed.
Theorem show_prints q s : fused s -> In 255 (kept s) -> exists s', flash_show q s = Ok s' /\ r_out (f_rom s') = r_out (f_rom s) ++ quoted q (stored (kept s)).
Proof.
  intros H N. destruct (stored_split _ N) as (post & E). destruct (own_length s H) as [LO LK]. unfold flash_show.
  set (s1 := if q then with_rom (putc 2 (f_rom s)) s else s).
  assert (S1 : flash_start s1 = Some (f_append s * 256) /\ r_mem (f_rom s1) = own s ++ stored (kept s) ++ 255 :: post).
  { rewrite <- E, <- own_kept. unfold s1. destruct q; split; try reflexivity; apply (fused_start s H). }
  destruct S1 as [-> M]. rewrite <- LO.
  destruct (show_loop_runs (stored (kept s)) (own s) post s1 (length (r_mem (f_rom s1))) M (stored_ne _)) as (s2 & -> & O). { rewrite M, !app_length. cbn. lia. }
  cbn [obind]. eexists. split; [reflexivity|]. unfold s1 in O. destruct q; cbn in *; rewrite O; cbn; rewrite <- ?app_assoc; reflexivity.
Qed.
Lemma size_ok s : fused s -> flash_size s = Ok (Z.of_nat (length (kept s))).
Proof. intros H. destruct (own_length s H) as [LO LK]. unfold flash_size. rewrite (fused_start s H). unfold flash_end. destruct H as (HA & HL & HM & HN). destruct (Z.ltb_spec (rom_size (f_rom s) - 1 - f_append s * 256 + 1) 32768); [f_equal; lia|lia]. Qed.
Lemma skipn_next : forall (l : list Z) k c l2, skipn k l = c :: l2 -> skipn (S k) l = l2.
Proof. induction l as [|a l IH]; intros [|k] c l2 H; cbn in *; try discriminate; [congruence|]. apply (IH k c l2 H). Qed.
Definition reads (n : nat) (s s' : flash) : Prop :=
  r_mem (f_rom s') = r_mem (f_rom s) /\ f_append s' = f_append s /\ r_addr (f_rom s') = Z.of_nat n /\ r_boot (f_rom s') = true /\ r_abort (f_rom s') = false.
Lemma getchar_at s s' n pre c post : fused s -> reads n s s' -> kept s = pre ++ c :: post -> length pre = n ->
  flash_getchar s' = let s2 := with_rom (with_addr (Z.of_nat (S n)) (f_rom s')) s' in if c =? 255 then Ok (-1, with_rom (with_boot false (f_rom s2)) s2) else Ok (c, s2).
Proof.
  intros H (M & A & R & B & AB) K L. unfold flash_getchar.
  assert (H' : fused s') by (apply (fused_same s); auto; congruence). destruct (own_length s H) as [LO LK].
  assert (K' : kept s' = kept s) by (unfold kept; now rewrite M, A). assert (O' : own s' = own s) by (unfold own; now rewrite M, A).
  rewrite (size_ok s' H'), K', R, AB, (fused_start s' H'), A. cbn [obind negb]. rewrite andb_true_r.
  replace (Z.of_nat n <? Z.of_nat (length (kept s))) with true by (symmetry; apply Z.ltb_lt; rewrite K, app_length; cbn; lia).
  replace (f_append s * 256 + Z.of_nat n) with (Z.of_nat (length (own s ++ pre))) by (rewrite app_length; lia).
  rewrite (read_at s' (own s ++ pre) c post) by (rewrite M, own_kept, K, <- app_assoc; reflexivity). cbn [obind].
  replace (Z.of_nat n + 1) with (Z.of_nat (S n)) by lia. reflexivity.
Qed.
Theorem boot_reads_all s : fused s -> In 255 (kept s) -> forall n k s', reads k s s' -> (k + n <= length (stored (kept s)))%nat ->
  exists s2, flash_boot n s' = Ok (firstn n (skipn k (stored (kept s))), s2) /\ reads (k + n) s s2.
Proof.
  intros H N. destruct (stored_split _ N) as (post & E). induction n as [|n IH]; intros k s' R L.
  - exists s'. split; [reflexivity|]. now rewrite Nat.add_0_r.
  - assert (SP : exists c l2, skipn k (stored (kept s)) = c :: l2 /\ skipn (S k) (stored (kept s)) = l2).
    { destruct (skipn k (stored (kept s))) as [|c l2] eqn:SK; [apply (f_equal (@length Z)) in SK; rewrite skipn_length in SK; cbn in SK; lia|]. exists c, l2. split; auto.
      exact (skipn_next _ _ _ _ SK). }
    destruct SP as (c & l2 & SK & SK2). rewrite SK. cbn [flash_boot firstn].
    assert (NE : c <> 255). { pose proof (stored_ne (kept s)) as F. rewrite <- (firstn_skipn k), SK in F. apply Forall_app in F. destruct F as [_ F]. now inversion F. }
    rewrite (getchar_at s s' k (firstn k (stored (kept s))) c (l2 ++ 255 :: post) H R).
    + cbv zeta. destruct (Z.eqb_spec c 255); [contradiction|]. cbn [obind].
      destruct (IH (S k) (with_rom (with_addr (Z.of_nat (S k)) (f_rom s')) s')) as (s2 & -> & R2); [|lia|].
      * destruct R as (M & A & R & B & AB). repeat split; cbn; auto.
      * rewrite SK2. cbn [obind]. exists s2. split; [reflexivity|]. now replace (k + S n)%nat with (S k + n)%nat by lia.
    + rewrite E at 1. rewrite <- (firstn_skipn k (stored (kept s))) at 1. rewrite SK, <- app_assoc. reflexivity.
    + rewrite firstn_length. lia.
Qed.
Theorem boot_stops s : fused s -> In 255 (kept s) -> forall s', reads (length (stored (kept s))) s s' ->
  exists s2, flash_getchar s' = Ok (-1, s2) /\ r_boot (f_rom s2) = false.
Proof.
  intros H N s' R. destruct (stored_split _ N) as (post & E). rewrite (getchar_at s s' _ (stored (kept s)) 255 post H R E eq_refl). eexists. split; [reflexivity|]. reflexivity.
Qed.
Theorem erase_clears s : fused s -> f_pins s <> 255 -> exists s', flash_erase s = Ok s' /\ fused s' /\ own s' = own s /\ stored (kept s') = [] /\ In 255 (kept s').
Proof.
  intros H N. unfold flash_erase. destruct (Z.eqb_spec (f_pins s) 255); [contradiction|]. destruct (own_length s H) as [LO LK]. pose proof (init_winv s H) as V.
  assert (LM : length (r_mem (f_rom s)) = (length (own s) + length (kept s))%nat) by (rewrite own_kept at 1; apply app_length).
  assert (K2 : (256 <= length (kept s))%nat).
  { destruct H as (HA & HL & HM & HN). apply Z.mod_divide in HM; [|lia]. destruct HM as (z & HZ). lia. }
  destruct (@byte_runs 255 _ _ _ _ _ V) as (s1 & d & w & old & -> & V1 & D & LL & (A1 & _)); [cbn; lia|]. cbn [obind]. cbn [app length] in D, LL.
  assert (LD : (length d + length w = 1)%nat) by (apply (f_equal (@length Z)) in D; rewrite !app_length in D; cbn in D; lia).
  destruct (flush_runs _ _ _ _ _ V1) as (post & M & PO & (B1 & _)). { left. lia. }
  exists (write_flush s1). split; [reflexivity|].
  assert (AP : f_append (write_flush s1) = f_append s) by (rewrite B1, A1; reflexivity).
  destruct (split_mem s (write_flush s1) _ _ H AP M eq_refl) as [OW KE].
  assert (LP : (length post + (length d + length w) = length (kept s))%nat).
  { destruct V1 as (_ & _ & _ & _ & (q & QO) & W & _). rewrite PO. destruct w as [|c w]; cbn [isnil length] in *; [lia|]. rewrite app_length, repeat_length, skipn_length. destruct q; cbn [length] in *; nia. }
  split. { apply (fused_same s); auto. rewrite (own_kept (write_flush s1)), LM, app_length, OW, KE, !app_length. lia. }
  split; [exact OW|]. rewrite KE, D. cbn. auto.
Qed.
