(** Lemmas about the program store. *)
From Coq Require Import ZArith Lia List Bool.
From Verif Require Import Base RomModel RomSpec.
Import ListNotations.
Local Open Scope Z_scope.

Definition sized (s : rom) : Prop := 0 < rom_size s < 32768.

Lemma poke_at : forall pre a post v, poke (pre ++ a :: post) (length pre) v = pre ++ v :: post.
Proof. induction pre as [|b pre IH]; intros a post v; [reflexivity|]. cbn. rewrite IH. reflexivity. Qed.

Lemma wrapu16 : forall v, 0 <= v < 65536 -> wrapu 16 v = v.
Proof. intros v H. apply Z.mod_small. exact H. Qed.

Lemma wraps16 : forall v, 0 <= v < 32768 -> wraps 16 v = v.
Proof.
  intros v H. unfold wraps. change (2 ^ 16) with 65536. change (2 ^ (16 - 1)) with 32768. rewrite Z.mod_small by lia.
  destruct (Z.ltb_spec v 32768); lia.
Qed.

Definition same_else (s s' : rom) : Prop := r_addr s' = r_addr s /\ r_boot s' = r_boot s /\ r_abort s' = r_abort s.

(** one byte that is neither the end mark nor part of the link *)
Lemma write_end : forall pre a post rest s fuel, r_mem s = pre ++ a :: post -> rom_size s < 65536 ->
  r_in s = 4 :: rest ->
  exists s', write_loop (S fuel) (Z.of_nat (length pre)) s = Some s' /\ r_mem s' = pre ++ 255 :: post /\ r_in s' = rest /\ r_out s' = r_out s /\ same_else s s'.
Proof.
  intros pre a post rest s fuel M Sz I. cbn [write_loop]. rewrite I. cbn [raw_getc Z.eqb Pos.eqb]. unfold write_byte. cbn [r_mem with_io].
  rewrite Nat2Z.id, M, poke_at.
  match goal with |- context [if _ =? rom_size ?x then _ else _] => set (s1 := x) end. exists s1.
  assert (K : r_mem s1 = pre ++ 255 :: post /\ r_in s1 = rest /\ r_out s1 = r_out s /\ same_else s s1) by (repeat split).
  destruct (wrapu 16 (Z.of_nat (length pre) + 1) =? rom_size s1); (split; [reflexivity|exact K]).
Qed.

Lemma write_runs : forall sent pre post rest s fuel, r_mem s = pre ++ post -> rom_size s < 65536 -> sendable sent ->
  r_in s = sent ++ 4 :: rest -> (length (received sent) < length post)%nat -> (length post <= fuel)%nat ->
  exists s' post', write_loop fuel (Z.of_nat (length pre)) s = Some s' /\ r_mem s' = pre ++ received sent ++ 255 :: post' /\
    length (r_mem s') = length (r_mem s) /\ r_in s' = rest /\ r_out s' = r_out s ++ enquiries sent /\ same_else s s'.
Proof.
  induction sent as [|c sent IH]; intros pre post rest s fuel M Sz T I L F.
  - destruct post as [|a post]; [cbn in L; lia|]. destruct fuel as [|fuel]; [cbn in F; lia|].
    destruct (write_end pre a post rest s fuel M Sz I) as (s' & E & M' & I' & O & R). exists s', post. split; [exact E|]. split; [exact M'|].
    split; [rewrite M', M, !app_length; reflexivity|]. split; [exact I'|]. split; [rewrite O; cbn; rewrite app_nil_r; reflexivity|exact R].
  - inversion T as [|c' l' [Hc H4] T']; subst. destruct fuel as [|fuel]; [destruct post; cbn in *; lia|].
    unfold received, enquiries in L. cbn [flat_map] in L. destruct (Z.eqb_spec c 5) as [->|N5].
    + (* the link *)
      assert (E : write_loop (S fuel) (Z.of_nat (length pre)) s = write_loop (S fuel) (Z.of_nat (length pre)) (with_io (sent ++ 4 :: rest) (r_out s ++ [6]) s)).
      { cbn [write_loop]. rewrite I. cbn [raw_getc app Z.eqb Pos.eqb r_in r_out with_io].
        destruct (raw_getc (sent ++ 4 :: rest) (r_out s ++ [6])) as [[[c i] o]|]; reflexivity. }
      rewrite E.
      destruct (IH pre post rest (with_io (sent ++ 4 :: rest) (r_out s ++ [6]) s) (S fuel) M Sz T' eq_refl L F) as (s' & post' & E' & M' & Ln & I' & O & R).
      exists s', post'. split; [exact E'|]. split; [exact M'|]. split; [exact Ln|]. split; [exact I'|].
      split; [rewrite O; cbn [r_out with_io enquiries flat_map Z.eqb Pos.eqb]; rewrite <- app_assoc; reflexivity|exact R].
    + rewrite app_length in L. destruct post as [|a post]; [cbn in L; lia|].
      set (d := if c =? 13 then 10 else c).
      assert (Hd : received (c :: sent) = d :: received sent /\ enquiries (c :: sent) = enquiries sent).
      { unfold received, enquiries, d. cbn [flat_map]. destruct (Z.eqb_spec c 5); [contradiction|]. destruct (c =? 13); split; reflexivity. }
      destruct Hd as [Hd He]. assert (Ld : length (if c =? 13 then [10] else [c]) = 1%nat) by (destruct (c =? 13); reflexivity). rewrite Ld in L.
      assert (D : d <> 4 /\ d <> 255) by (unfold d; destruct (Z.eqb_spec c 13); lia).
      cbn [write_loop]. rewrite I. cbn [app raw_getc]. destruct (Z.eqb_spec c 5); [contradiction|]. fold d.
      destruct (Z.eqb_spec d 4); [lia|]. unfold write_byte. cbn [r_mem with_io]. rewrite Nat2Z.id, M, poke_at.
      match goal with |- context [if _ =? rom_size ?x then _ else _] => set (s1 := x) end.
      assert (Z1 : rom_size s1 = rom_size s). { unfold rom_size. rewrite M. cbn [r_mem s1 with_mem with_io]. rewrite !app_length. reflexivity. }
      assert (Z2 : rom_size s = Z.of_nat (length pre) + 1 + Z.of_nat (length post)) by (unfold rom_size; rewrite M, app_length; cbn [length]; lia).
      cbn [length] in L. rewrite Z1. rewrite (wrapu16 (Z.of_nat (length pre) + 1)) by lia.
      destruct (Z.eqb_spec (Z.of_nat (length pre) + 1) (rom_size s)) as [Q|_]; [lia|]. destruct (Z.eqb_spec d 255); [lia|].
      destruct (IH (pre ++ [d]) post rest s1 fuel) as (s' & post' & E' & M' & Ln & I' & O & R).
      * cbn [r_mem s1 with_mem]. rewrite <- app_assoc. reflexivity.
      * lia.
      * exact T'.
      * reflexivity.
      * unfold received. lia.
      * cbn in F. lia.
      * exists s', post'. rewrite app_length in E'. cbn [length] in E'. replace (Z.of_nat (length pre) + 1) with (Z.of_nat (length pre + 1)) by lia.
        split; [exact E'|]. split; [rewrite M', Hd, <- app_assoc; reflexivity|]. split; [rewrite Ln, <- M; apply Nat2Z.inj; exact Z1|]. split; [exact I'|].
        split; [rewrite O, He; reflexivity|]. exact R.
Qed.

Lemma write_long : forall t pre post rest s fuel, r_mem s = pre ++ post -> rom_size s < 65536 -> text t ->
  r_in s = t ++ rest -> (0 < length post <= length t)%nat -> (length post <= fuel)%nat ->
  exists s', write_loop fuel (Z.of_nat (length pre)) s = Some s' /\ r_mem s' = pre ++ firstn (length post) t /\
    r_in s' = skipn (length post) t ++ rest /\ r_out s' = r_out s /\ same_else s s'.
Proof.
  induction t as [|c t IH]; intros pre post rest s fuel M Sz T I L F; [cbn in L; lia|].
  inversion T as [|c' l' (Hc & H4 & H5 & H13) T']; subst. destruct fuel as [|fuel]; [lia|]. destruct post as [|a post]; [cbn in L; lia|].
  cbn [write_loop]. rewrite I. cbn [app raw_getc]. destruct (Z.eqb_spec c 5); [contradiction|]. destruct (Z.eqb_spec c 13); [contradiction|].
  destruct (Z.eqb_spec c 4); [contradiction|]. unfold write_byte. cbn [r_mem with_io]. rewrite Nat2Z.id, M, poke_at.
  match goal with |- context [if _ =? rom_size ?x then _ else _] => set (s1 := x) end.
  assert (Z1 : rom_size s1 = rom_size s). { unfold rom_size. rewrite M. cbn [r_mem s1 with_mem with_io]. rewrite !app_length. reflexivity. }
  assert (Z2 : rom_size s = Z.of_nat (length pre) + 1 + Z.of_nat (length post)) by (unfold rom_size; rewrite M, app_length; cbn [length]; lia).
  rewrite Z1. rewrite (wrapu16 (Z.of_nat (length pre) + 1)) by lia. cbn [length firstn skipn] in *.
  destruct (Z.eqb_spec (Z.of_nat (length pre) + 1) (rom_size s)) as [Q|Q].
  - exists s1. assert (length post = 0%nat) by lia. destruct post; [|discriminate]. cbn. split; [reflexivity|]. repeat split.
  - destruct (Z.eqb_spec c 255); [lia|].
    destruct (IH (pre ++ [c]) post rest s1 fuel) as (s' & E' & M' & I' & O & R).
    + cbn [r_mem s1 with_mem]. rewrite <- app_assoc. reflexivity.
    + lia.
    + exact T'.
    + reflexivity.
    + destruct post; cbn in *; lia.
    + lia.
    + exists s'. rewrite app_length in E'. cbn [length] in E'. replace (Z.of_nat (length pre) + 1) with (Z.of_nat (length pre + 1)) by lia.
      split; [exact E'|]. split; [rewrite M', <- app_assoc; reflexivity|]. split; [exact I'|]. split; [exact O|exact R].
Qed.

Lemma stored_app : forall t l, Forall (fun c => c <> 255) t -> stored (t ++ 255 :: l) = t.
Proof. induction t as [|c t IH]; intros l H; [reflexivity|]. inversion H; subst. cbn. destruct (Z.eqb_spec c 255); [contradiction|]. rewrite IH; auto. Qed.

Lemma stored_all : forall t, Forall (fun c => c <> 255) t -> stored t = t.
Proof. induction t as [|c t IH]; intro H; [reflexivity|]. inversion H; subst. cbn. destruct (Z.eqb_spec c 255); [contradiction|]. rewrite IH; auto. Qed.

(** ** Reading *)
Lemma nth_at : forall (pre : list Z) a post, nth (length pre) (pre ++ a :: post) 255 = a.
Proof. intros. rewrite app_nth2, Nat.sub_diag by lia. reflexivity. Qed.

Lemma show_loop_runs : forall post pre s, r_mem s = pre ++ post -> rom_size s < 65536 ->
  show_loop (length post) (Z.of_nat (length pre)) s = with_io (r_in s) (r_out s ++ stored post) s.
Proof.
  induction post as [|a post IH]; intros pre s M Sz.
  - cbn. rewrite app_nil_r. destruct s; reflexivity.
  - cbn [length show_loop stored]. unfold read_byte. rewrite Nat2Z.id, M, nth_at. destruct (a =? 255); [rewrite app_nil_r; destruct s; reflexivity|].
    assert (Z2 : rom_size s = Z.of_nat (length pre) + 1 + Z.of_nat (length post)) by (unfold rom_size; rewrite M, app_length; cbn [length]; lia).
    rewrite wrapu16 by lia. specialize (IH (pre ++ [a]) (putc a s)). rewrite app_length in IH. cbn [length] in IH.
    replace (Z.of_nat (length pre) + 1) with (Z.of_nat (length pre + 1)) by lia. rewrite IH.
    + unfold putc, with_io. cbn [r_in r_out r_mem r_addr r_boot r_abort]. rewrite <- app_assoc. reflexivity.
    + cbn [r_mem putc with_io]. rewrite M, <- app_assoc. reflexivity.
    + exact Sz.
Qed.

Lemma getc_loop_runs : forall post pre s n, r_mem s = pre ++ post -> rom_size s < 32768 -> r_addr s = Z.of_nat (length pre) -> (length post <= n)%nat ->
  getc_loop n s = with_addr (Z.min (rom_size s) (Z.of_nat (length pre + length (stored post) + 1))) (with_io (r_in s) (r_out s ++ stored post) s).
Proof.
  induction post as [|a post IH]; intros pre s n M Sz A N.
  - assert (Z2 : rom_size s = Z.of_nat (length pre)) by (unfold rom_size; rewrite M, app_nil_r; reflexivity).
    destruct n; cbn [getc_loop]; unfold getc; (destruct (Z.leb_spec (r_addr s) (rom_size s - 1)); [lia|]); cbn [Z.eqb Pos.eqb stored length];
    rewrite app_nil_r, Z.min_l by lia; rewrite Z2, <- A; destruct s; reflexivity.
  - destruct n as [|n]; [cbn in N; lia|].
    assert (Z2 : rom_size s = Z.of_nat (length pre) + 1 + Z.of_nat (length post)) by (unfold rom_size; rewrite M, app_length; cbn [length]; lia).
    cbn [getc_loop stored]. unfold getc. destruct (Z.leb_spec (r_addr s) (rom_size s - 1)); [|lia].
    unfold read_byte. rewrite A, Nat2Z.id, M, nth_at. rewrite wraps16 by lia. destruct (a =? 255).
    + cbn [length]. rewrite Z.min_r by lia. rewrite app_nil_r. replace (Z.of_nat (length pre + 0 + 1)) with (Z.of_nat (length pre) + 1) by lia. destruct s; reflexivity.
    + rewrite (IH (pre ++ [a])).
      * unfold putc, with_io, with_addr, rom_size. cbn [r_in r_out r_mem r_addr r_boot r_abort]. rewrite app_length, <- app_assoc. cbn [length app].
        f_equal. f_equal. lia.
      * cbn [r_mem putc with_io with_addr]. rewrite M, <- app_assoc. reflexivity.
      * exact Sz.
      * cbn [r_addr putc with_io with_addr]. rewrite app_length. cbn [length]. lia.
      * cbn in N. lia.
Qed.

Definition after_show (k : chip) (s : rom) : Z :=
  match k with ATmega => r_addr s | AVR => Z.min (rom_size s) (Z.of_nat (length (stored (r_mem s)) + 1)) end.

Lemma show_runs : forall k q s, sized s ->
  rom_show k q s = with_addr (after_show k s) (with_io (r_in s) (r_out s ++ quoted q (stored (r_mem s))) s).
Proof.
  intros k q s [Sz1 Sz2]. unfold rom_show. set (s0 := if q then putc 2 s else s).
  assert (M0 : r_mem s0 = r_mem s) by (unfold s0; destruct q; reflexivity).
  assert (Sz0 : rom_size s0 = rom_size s) by (unfold rom_size; rewrite M0; reflexivity).
  assert (E : match k with ATmega => show_loop (length (r_mem s0)) 0 s0 | AVR => getc_loop (length (r_mem s0)) (with_addr 0 s0) end
    = with_addr (after_show k s) (with_io (r_in s) (r_out s0 ++ stored (r_mem s)) s0)).
  { destruct k.
    - change 0 with (Z.of_nat (@length Z [])). rewrite (show_loop_runs (r_mem s0) [] s0) by (auto; lia). rewrite M0. unfold s0, after_show. destruct q, s; reflexivity.
    - rewrite (getc_loop_runs (r_mem s0) [] (with_addr 0 s0)); [|reflexivity|change (rom_size (with_addr 0 s0)) with (rom_size s0); lia|reflexivity|lia].
      change (rom_size (with_addr 0 s0)) with (rom_size s0). rewrite Sz0. cbn [length r_mem with_addr Nat.add]. rewrite M0. unfold s0, after_show. destruct q, s; reflexivity. }
  rewrite E. unfold s0, quoted. destruct q; unfold putc, with_addr, with_io; cbn [r_in r_out r_mem r_addr r_boot r_abort]; [|reflexivity].
  rewrite <- !app_assoc. reflexivity.
Qed.

(** the next character while the program is read *)
Lemma getchar_runs : forall k s, sized s -> 0 <= r_addr s -> r_abort s = false ->
  (r_addr s < rom_size s -> nth (Z.to_nat (r_addr s)) (r_mem s) 255 <> 255 ->
     rom_getchar k s = (nth (Z.to_nat (r_addr s)) (r_mem s) 255, with_addr (r_addr s + 1) s)) /\
  (rom_size s <= r_addr s \/ nth (Z.to_nat (r_addr s)) (r_mem s) 255 = 255 ->
     fst (rom_getchar k s) = -1 /\ r_boot (snd (rom_getchar k s)) = false).
Proof.
  intros k s [Sz1 Sz2] A B. split.
  - intros L N. destruct k; cbn [rom_getchar]; rewrite B; unfold getc, read_byte; cbn [negb].
    + destruct (Z.ltb_spec (r_addr s) (rom_size s)); [|lia]. cbn [andb]. rewrite wrapu16 by lia. destruct (Z.eqb_spec (nth (Z.to_nat (r_addr s)) (r_mem s) 255) 255); [contradiction|reflexivity].
    + destruct (Z.leb_spec (r_addr s) (rom_size s - 1)); [|lia]. rewrite wraps16 by lia. destruct (Z.eqb_spec (nth (Z.to_nat (r_addr s)) (r_mem s) 255) 255); [contradiction|reflexivity].
  - intro H. destruct k; cbn [rom_getchar]; rewrite B; unfold getc, read_byte; cbn [negb].
    + destruct (Z.ltb_spec (r_addr s) (rom_size s)); cbn [andb]; [|split; reflexivity]. destruct H as [H|H]; [lia|]. rewrite H. split; reflexivity.
    + destruct (Z.leb_spec (r_addr s) (rom_size s - 1)); [|split; reflexivity]. destruct H as [H|H]; [lia|]. rewrite H. split; reflexivity.
Qed.

Lemma nth_stored : forall l i, (i < length (stored l))%nat -> nth i l 255 = nth i (stored l) 255 /\ nth i l 255 <> 255.
Proof.
  induction l as [|c l IH]; intros i H; cbn [stored] in *; [cbn in H; lia|]. destruct (Z.eqb_spec c 255); [cbn in H; lia|].
  destruct i as [|i]; cbn in *; [auto|]. apply IH. lia.
Qed.

Lemma stored_length : forall l, (length (stored l) <= length l)%nat.
Proof. induction l as [|c l IH]; cbn [stored]; [auto|]. destruct (c =? 255); cbn; lia. Qed.

Lemma nth_end : forall l, nth (length (stored l)) l 255 = 255.
Proof. induction l as [|c l IH]; cbn [stored]; [reflexivity|]. destruct (Z.eqb_spec c 255) as [->|]; [reflexivity|exact IH]. Qed.

Definition reading (i : nat) (s : rom) : Prop := r_addr s = Z.of_nat i /\ r_abort s = false /\ r_boot s = true.

(** is eeprom.show free of effect on the reading *)
Definition harmless (k : chip) (l : list boot_step) : Prop := k = ATmega \/ Forall (fun b => b = Next) l.

Lemma boot_reads : forall k l i s, sized s -> reading i s -> harmless k l -> (i + nexts l <= length (stored (r_mem s)))%nat ->
  fst (boot_run k l s) = firstn (nexts l) (skipn i (stored (r_mem s))) /\ reading (i + nexts l) (snd (boot_run k l s)) /\
  r_mem (snd (boot_run k l s)) = r_mem s.
Proof.
  induction l as [|b l IH]; intros i s Sz R Hh L.
  - cbn. rewrite Nat.add_0_r. auto.
  - destruct b as [|q]; cbn [boot_run].
    + unfold nexts in L. cbn [filter length] in L. fold (nexts l) in L. destruct R as (R1 & R2 & R3).
      destruct (getchar_runs k s Sz ltac:(lia) R2) as [G _]. pose proof (stored_length (r_mem s)) as SL. rewrite R1, Nat2Z.id in G.
      destruct (nth_stored (r_mem s) i ltac:(lia)) as [N1 N2]. rewrite (G ltac:(unfold rom_size; lia) N2).
      assert (Hl : harmless k l) by (destruct Hh as [?|Hh]; [left; assumption|right; inversion Hh; assumption]).
      destruct (IH (S i) (with_addr (Z.of_nat i + 1) s) Sz) as (I1 & I2 & I3); [split; [cbn [r_addr with_addr]; lia|auto]|exact Hl|cbn [r_mem with_addr]; lia|].
      destruct (boot_run k l (with_addr (Z.of_nat i + 1) s)) as [cs s']. cbn [fst snd r_mem with_addr] in *.
      split; [|split; [|exact I3]].
      * rewrite I1, N1. unfold nexts. cbn [filter length]. fold (nexts l).
        assert (SK : skipn i (stored (r_mem s)) = nth i (stored (r_mem s)) 255 :: skipn (S i) (stored (r_mem s))).
        { clear -L. assert (Li : (i < length (stored (r_mem s)))%nat) by lia. revert Li. generalize (stored (r_mem s)). clear L. intros t. revert i.
          induction t as [|a t IHt]; intros [|i] Li; cbn in *; [lia|lia|reflexivity|]. apply IHt. lia. }
        rewrite SK. reflexivity.
      * unfold nexts. cbn [filter length]. fold (nexts l). replace (i + S (nexts l))%nat with (S i + nexts l)%nat by lia. exact I2.
    + destruct Hh as [->|Hh]; [|inversion Hh; discriminate].
      rewrite show_runs by exact Sz. cbn [after_show].
      set (s1 := with_addr (r_addr s) (with_io (r_in s) (r_out s ++ quoted q (stored (r_mem s))) s)).
      destruct (IH i s1 Sz) as (I1 & I2 & I3); [exact R|left; reflexivity|exact L|].
      split; [exact I1|]. split; [exact I2|exact I3].
Qed.

Lemma boot_ends : forall k s, sized s -> reading (length (stored (r_mem s))) s ->
  fst (rom_getchar k s) = -1 /\ r_boot (snd (rom_getchar k s)) = false.
Proof.
  intros k s Sz (R1 & R2 & R3). destruct (getchar_runs k s Sz ltac:(lia) R2) as [_ G]. apply G. right. rewrite R1, Nat2Z.id. apply nth_end.
Qed.

Lemma nth_beyond : forall l, nth (S (length (stored l))) l 255 = nth 0 (beyond l) 255.
Proof.
  induction l as [|c l IH]; cbn [stored beyond]; [reflexivity|]. destruct (c =? 255); [destruct l; reflexivity|]. exact IH.
Qed.

Lemma boot_lost : forall q s, sized s -> r_abort s = false ->
  fst (rom_getchar AVR (rom_show AVR q s)) = let c := nth 0 (beyond (r_mem s)) 255 in if c =? 255 then -1 else c.
Proof.
  intros q s Sz B. rewrite show_runs by exact Sz. cbn [after_show].
  set (s1 := with_addr (Z.min (rom_size s) (Z.of_nat (length (stored (r_mem s)) + 1))) (with_io (r_in s) (r_out s ++ quoted q (stored (r_mem s))) s)).
  assert (Sz1 : sized s1) by exact Sz. assert (E : nth (Z.to_nat (r_addr s1)) (r_mem s1) 255 = nth 0 (beyond (r_mem s)) 255).
  { cbn [s1 r_addr with_addr r_mem with_io]. rewrite <- nth_beyond.
    destruct (Z.leb_spec (rom_size s) (Z.of_nat (length (stored (r_mem s)) + 1))) as [G|G].
    - rewrite Z.min_l by lia. unfold rom_size in *. rewrite !nth_overflow by lia. reflexivity.
    - rewrite Z.min_r, Nat2Z.id by lia. f_equal. lia. }
  destruct (getchar_runs AVR s1 Sz1) as [G1 G2]; [cbn; unfold rom_size; lia|exact B|]. rewrite E in G1, G2. cbv zeta.
  destruct (Z.eqb_spec (nth 0 (beyond (r_mem s)) 255) 255) as [Q|Q].
  - apply G2. right. exact Q.
  - rewrite G1; [reflexivity| |exact Q]. 
    destruct (Z.ltb_spec (r_addr s1) (rom_size s1)) as [?|G]; [assumption|]. exfalso. apply Q. rewrite <- E. apply nth_overflow. unfold rom_size in G. lia.
Qed.

Lemma erase_stored : forall s, sized s -> stored (r_mem (rom_erase s)) = [] /\ length (r_mem (rom_erase s)) = length (r_mem s).
Proof.
  intros s [Sz _]. unfold rom_erase, read_byte, rom_size in *. destruct (r_mem s) as [|c l] eqn:M; [cbn in Sz; lia|]. cbn [Z.to_nat nth].
  destruct (Z.eqb_spec c 255) as [->|]; [rewrite M; split; reflexivity|]. unfold write_byte. cbn [r_mem with_mem]. rewrite M. split; reflexivity.
Qed.
