(** Lemmas about the program store of the SAMD21. *)
From Coq Require Import ZArith Lia List Bool.
From Verif Require Import Base RomModel RomSpec RomProofs NvmModel NvmSpec.
Import ListNotations.
Local Open Scope Z_scope.

Section After.
Variable after : (Z -> Z) -> Z -> Z.

(** the geometry of the flash *)
Definition sound (m : nvm) : Prop := 0 <= v_psz m /\ 16 <= v_pages m /\ 0 <= v_lock m.
Definition keeps (m m' : nvm) : Prop := v_psz m' = v_psz m /\ v_pages m' = v_pages m /\ v_lock m' = v_lock m.
Lemma keeps_refl m : keeps m m. Proof. now repeat split. Qed.
Lemma keeps_trans a b c : keeps a b -> keeps b c -> keeps a c.
Proof. intros (A & B & C) (D & E & F). repeat split; congruence. Qed.
Lemma keeps_page m m' : keeps m m' -> page m' = page m. Proof. intros (A & _). unfold page. now rewrite A. Qed.
Lemma keeps_row m m' : keeps m m' -> row m' = row m. Proof. intros K. unfold row. now rewrite (keeps_page _ _ K). Qed.
Lemma keeps_total m m' : keeps m m' -> total m' = total m. Proof. intros (A & B & _). unfold total. now rewrite A, B. Qed.
Lemma keeps_bit m m' a : keeps m m' -> region_bit a m' = region_bit a m. Proof. intros K. unfold region_bit, lock_region. now rewrite (keeps_total _ _ K). Qed.
Lemma keeps_sound m m' : keeps m m' -> sound m -> sound m'. Proof. intros (A & B & C) (D & E & F). unfold sound. rewrite A, B, C. auto. Qed.

Lemma page_eq m : sound m -> page m = 8 * 2 ^ v_psz m.
Proof. intros (A & _). unfold page. rewrite Z.pow_add_r by lia. reflexivity. Qed.
Lemma page_pos m : sound m -> 8 <= page m.
Proof. intros H. rewrite page_eq by exact H. destruct H as (A & _). assert (0 < 2 ^ v_psz m) by (apply Z.pow_pos_nonneg; lia). lia. Qed.
Lemma page_even m : sound m -> page m mod 2 = 0.
Proof. intros H. rewrite page_eq by exact H. replace (8 * 2 ^ v_psz m) with (4 * 2 ^ v_psz m * 2) by ring. apply Z.mod_mul. lia. Qed.
Lemma multiple_even a p : p mod 2 = 0 -> 0 < p -> a mod p = 0 -> a mod 2 = 0.
Proof. intros E L M. apply Z.mod_divide in E; [|lia]. apply Z.mod_divide in M; [|lia]. apply Z.mod_divide; [lia|]. eapply Z.divide_trans; eassumption. Qed.
Lemma half_twice a : a mod 2 = 0 -> a / 2 * 2 = a.
Proof. intros H. generalize (Z.div_mod a 2). lia. Qed.
Lemma land_row m dst : sound m -> Z.land dst (row m - 1) = dst mod row m.
Proof.
  intros H. assert (X : row m = 2 ^ (5 + v_psz m)). { unfold row, page. destruct H as (A & _). replace (5 + v_psz m) with (3 + v_psz m + 2) by ring. rewrite (Z.pow_add_r 2 (3 + v_psz m)) by lia. reflexivity. }
  rewrite X. rewrite <- Z.land_ones by (destruct H; lia). rewrite Z.ones_equiv. f_equal.
Qed.
Lemma row_page m a : sound m -> a mod row m = 0 -> a mod page m = 0.
Proof.
  intros H M. pose proof (page_pos m H) as L. unfold row in M. rewrite (Z.div_mod a (page m * 4)), M, Z.add_0_r by lia. replace (page m * 4 * (a / (page m * 4))) with (4 * (a / (page m * 4)) * page m) by ring.
  apply Z.mod_mul. lia.
Qed.
Lemma lor_set l b : Z.testbit l b = true -> Z.lor l (2 ^ b) = l.
Proof.
  intros T. destruct (Z.ltb_spec b 0) as [N|N]; [rewrite Z.testbit_neg_r in T by exact N; discriminate|].
  apply Z.bits_inj'. intros i I. rewrite Z.lor_spec, Z.pow2_bits_eqb by exact N. destruct (Z.eqb_spec b i) as [<-|]; [rewrite T; reflexivity|apply orb_false_r].
Qed.
Lemma land255 x : 0 <= x < 256 -> Z.land x 255 = x.
Proof. intros H. change 255 with (Z.ones 8). rewrite Z.land_ones by lia. apply Z.mod_small. exact H. Qed.
Lemma land255' x : 0 <= x < 256 -> Z.land 255 x = x.
Proof. rewrite Z.land_comm. apply land255. Qed.

(** _ao_flash_unlock changes nothing: it works only on what is not locked *)
Lemma unlock_ok a m : a mod 2 = 0 -> keeps m (unlock after a m) /\ v_mem (unlock after a m) = v_mem m /\ v_buf (unlock after a m) = v_buf m.
Proof.
  intros A. unfold unlock, is_locked. destruct (Z.testbit (v_lock m) (region_bit a m)) eqn:T; [|repeat split].
  unfold execute, set_addr, keeps. cbn [v_addr v_set_addr v_set_lock v_mem v_buf v_psz v_pages v_lock]. rewrite half_twice by exact A. repeat split.
  apply lor_set. exact T.
Qed.

(** a command of the controller, at an even address *)
Lemma erase_row_ok a m : sound m -> a mod row m = 0 ->
  keeps m (erase_row after a m) /\ v_buf (erase_row after a m) = v_buf m /\
  (forall x, v_mem (erase_row after a m) x = if Z.testbit (v_lock m) (region_bit a m) && (a <=? x) && (x <? a + row m) then 255 else v_mem m x).
Proof.
  intros S A. pose proof (page_pos m S) as L. assert (E : a mod 2 = 0) by (apply (multiple_even a (page m)); [apply page_even; exact S|lia|apply row_page; assumption]).
  destruct (unlock_ok a m E) as (K & M & B). unfold erase_row. set (u := unlock after a m) in *.
  unfold execute, open, set_addr. cbn [v_addr v_set_addr v_lock]. rewrite half_twice by exact E.
  assert (K2 : keeps m (v_set_addr (a / 2) u)) by (destruct K as (? & ? & ?); now repeat split).
  rewrite (keeps_bit _ _ a K2), (keeps_row _ _ K2). replace (v_lock u) with (v_lock m) by (symmetry; apply K).
  assert (R : a / row m * row m = a) by (unfold row in *; generalize (Z.div_mod a (page m * 4)); lia). rewrite R.
  destruct (Z.testbit (v_lock m) (region_bit a m)); cbn [andb v_mem v_buf v_set_mem v_set_addr]; (split; [destruct K2 as (? & ? & ?); now repeat split|]); (split; [exact B|]); intros x; rewrite M; reflexivity.
Qed.
Lemma finish_ok a m : sound m -> a mod page m = 0 ->
  keeps m (finish_page after a m) /\
  (forall x, v_mem (finish_page after a m) x = if Z.testbit (v_lock m) (region_bit a m) && (a <=? x) && (x <? a + page m) then Z.land (v_mem m x) (v_buf m (x - a)) else v_mem m x).
Proof.
  intros S A. pose proof (page_pos m S) as L. assert (E : a mod 2 = 0) by (apply (multiple_even a (page m)); [apply page_even; exact S|lia|exact A]).
  unfold finish_page, execute, open, set_addr. cbn [v_addr v_set_addr v_lock]. rewrite half_twice by exact E.
  assert (K2 : keeps m (v_set_addr (a / 2) m)) by now repeat split. rewrite (keeps_bit _ _ a K2), (keeps_page _ _ K2).
  assert (R : a / page m * page m = a) by (generalize (Z.div_mod a (page m)); lia). rewrite R.
  destruct (Z.testbit (v_lock m) (region_bit a m)); cbn [andb v_mem v_buf v_set_mem v_set_buf v_set_addr]; (split; [now repeat split|]); reflexivity.
Qed.

Lemma row_erased_ok n : forall a m, 0 <= a -> a + Z.of_nat n <= total m ->
  exists e, row_erased n a m = Ok e /\ (e = true -> forall x, a <= x < a + Z.of_nat n -> v_mem m x = 255).
Proof.
  induction n as [|n IH]; intros a m A L; cbn [row_erased].
  - exists true. split; [reflexivity|]. lia.
  - unfold peek. destruct (Z.leb_spec 0 a); [|lia]. destruct (Z.ltb_spec a (total m)); [|lia]. cbn [andb obind].
    destruct (Z.eqb_spec (v_mem m a) 255) as [E|E]; [|exists false; split; [reflexivity|discriminate]].
    destruct (IH (a + 1) m) as (e & R & H'); [lia|lia|]. exists e. split; [exact R|]. intros T x X. destruct (Z.eq_dec x a) as [->|]; [exact E|]. apply H'; [exact T|lia].
Qed.

Lemma start_ok dst m : sound m -> 0 <= dst -> dst mod page m = 0 -> (dst mod row m = 0 -> dst + row m <= total m) ->
  exists m1, start_page after dst m = Ok m1 /\ keeps m m1 /\ (forall o, v_buf m1 o = 255) /\
    (forall x, v_mem m1 x = if Z.testbit (v_lock m) (region_bit dst m) && (dst mod row m =? 0) && (dst <=? x) && (x <? dst + row m) then 255 else v_mem m x).
Proof.
  intros S D A L. pose proof (page_pos m S) as LP. assert (E : dst mod 2 = 0) by (apply (multiple_even dst (page m)); [apply page_even; exact S|lia|exact A]).
  unfold start_page. rewrite land_row by exact S. destruct (Z.eqb_spec (dst mod row m) 0) as [Z0|Z0].
  - destruct (unlock_ok dst m E) as (K & M & B). set (u := unlock after dst m) in *. cbn zeta. rewrite (keeps_row _ _ K).
    assert (RP : 0 <= row m) by (unfold row; lia).
    destruct (row_erased_ok (Z.to_nat (row m)) dst u D) as (e & Re & He); [rewrite Z2Nat.id by exact RP; rewrite (keeps_total _ _ K); auto|].
    rewrite Re. rewrite Z2Nat.id in He by exact RP. cbn [obind]. eexists. split; [reflexivity|]. destruct e.
    + split; [destruct K as (? & ? & ?); now repeat split|]. split; [reflexivity|]. intros x. cbn [execute v_set_buf v_mem]. rewrite M in *.
      destruct (Z.testbit (v_lock m) (region_bit dst m)); cbn [andb]; [|reflexivity]. destruct (Z.leb_spec dst x); cbn [andb]; [|reflexivity]. destruct (Z.ltb_spec x (dst + row m)); [|reflexivity]. apply He; [reflexivity|lia].
    + destruct (erase_row_ok dst u) as (K2 & B2 & M2); [eapply keeps_sound; eassumption|now rewrite (keeps_row _ _ K)|]. assert (K3 := keeps_trans _ _ _ K K2).
      split; [destruct K3 as (? & ? & ?); now repeat split|]. split; [reflexivity|]. intros x. cbn [execute v_set_buf v_mem]. rewrite M2, M, (keeps_bit _ _ dst K), (keeps_row _ _ K). replace (v_lock u) with (v_lock m) by (symmetry; apply K). rewrite andb_true_r. reflexivity.
  - cbn [obind]. eexists. split; [reflexivity|]. split; [now repeat split|]. split; [reflexivity|]. intros x. rewrite andb_false_r. reflexivity.
Qed.

(** how far rows were begun when [n] bytes were taken *)
Definition upto (r n : Z) : Z := (n + r - 1) / r * r.
Lemma upto_eq r q n : 0 < r -> q * r < n <= (q + 1) * r -> upto r n = (q + 1) * r.
Proof. intros R N. unfold upto. f_equal. symmetry. apply Z.div_unique with (r := n + r - 1 - (q + 1) * r); [left; lia|ring]. Qed.
Lemma upto_next r n : 0 < r -> n mod r <> 0 -> upto r (n + 1) = upto r n.
Proof.
  intros R M. pose proof (Z.div_mod n r) as D. pose proof (Z.mod_pos_bound n r R) as B.
  rewrite (upto_eq r (n / r) n), (upto_eq r (n / r) (n + 1)); [reflexivity|lia|split; lia|lia|split; lia].
Qed.
Lemma upto_first r n k : 0 < r -> n mod r = 0 -> 1 <= k <= r -> upto r (n + k) = n + r.
Proof. intros R M K. pose proof (Z.div_mod n r) as D. rewrite (upto_eq r (n / r) (n + k)); [lia|lia|split; lia]. Qed.
Lemma upto_ge r n : 0 < r -> n <= upto r n < n + r.
Proof. intros R. unfold upto. pose proof (Z.div_mod (n + r - 1) r) as D. pose proof (Z.mod_pos_bound (n + r - 1) r R) as B. lia. Qed.
Lemma upto_mult r n : 0 < r -> n mod r = 0 -> upto r n = n.
Proof. intros R M. pose proof (upto_ge r n R). pose proof (Z.div_mod n r) as D. destruct (Z.eq_dec (upto r n) n); [assumption|]. rewrite (upto_eq r (n / r - 1) n); [lia|lia|split; lia]. Qed.
Lemma upto_mono r n k : 0 < r -> n <= k -> upto r n <= upto r k.
Proof. intros R L. unfold upto. apply Z.mul_le_mono_nonneg_r; [lia|]. apply Z.div_le_mono; lia. Qed.

(** While a text is written: [T] is the text, [n] the bytes taken of it. *)
Record writing (s0 : store) (T : Z -> Z) (n : Z) (s : store) : Prop := {
  w_keeps : keeps (n_nvm s0) (n_nvm s);
  w_start : n_start s = n_start s0;
  w_end : n_end s = n_end s0;
  w_n : n = n_off s + (if n_pend s then 1 else 0);
  w_off : 0 <= n_off s /\ n_off s mod 2 = 0;
  w_byte : n_pend s = true -> n_byte s = T (n_off s);
  w_done : forall i, 0 <= i < n_off s / page (n_nvm s0) * page (n_nvm s0) -> v_mem (n_nvm s) (n_start s0 + i) = T i;
  w_clear : forall i, n_off s / page (n_nvm s0) * page (n_nvm s0) <= i < upto (row (n_nvm s0)) n -> v_mem (n_nvm s) (n_start s0 + i) = 255;
  w_rest : forall i, i < 0 \/ upto (row (n_nvm s0)) n <= i -> v_mem (n_nvm s) (n_start s0 + i) = v_mem (n_nvm s0) (n_start s0 + i);
  w_buf : forall o, n_off s mod page (n_nvm s0) <> 0 -> 0 <= o < page (n_nvm s0) ->
    v_buf (n_nvm s) o = if o <? n_off s mod page (n_nvm s0) then T (n_off s / page (n_nvm s0) * page (n_nvm s0) + o) else 255 }.

(** the flash up to [hi] can be written *)
Definition ready (s0 : store) (hi : Z) : Prop :=
  sound (n_nvm s0) /\ page (n_nvm s0) <= n_start s0 /\ n_start s0 mod row (n_nvm s0) = 0 /\ hi <= total (n_nvm s0) /\
  (forall a, 0 <= v_mem (n_nvm s0) a < 256) /\
  (forall a, n_start s0 <= a < hi -> Z.testbit (v_lock (n_nvm s0)) (region_bit a (n_nvm s0)) = true).

Lemma mod_add_mult a b p : 0 < p -> a mod p = 0 -> (a + b) mod p = b mod p.
Proof. intros P A. rewrite Z.add_mod, A, Z.add_0_l, Z.mod_mod by lia. reflexivity. Qed.
Lemma next_page off p : 0 < p -> p mod 2 = 0 -> off mod 2 = 0 -> (off + 2) mod p <> 0 -> (off + 2) / p = off / p /\ (off + 2) mod p = off mod p + 2.
Proof.
  intros P E O N. pose proof (Z.div_mod off p) as D. pose proof (Z.mod_pos_bound off p P) as B.
  assert (K : off mod p mod 2 = 0). { apply Z.mod_divide; [lia|]. rewrite (Z.mod_eq off p) by lia. apply Z.divide_sub_r; [apply Z.mod_divide; [lia|exact O]|apply Z.divide_mul_l; apply Z.mod_divide; [lia|exact E]]. }
  assert (off mod p + 2 <= p) by (destruct (Z.eq_dec (off mod p) (p - 1)) as [X|X]; [rewrite X, Zminus_mod, E in K; discriminate|lia]).
  assert (off mod p + 2 <> p). { intros X. apply N. replace (off + 2) with ((off / p + 1) * p) by lia. apply Z.mod_mul. lia. }
  assert (Q : off / p = (off + 2) / p) by (apply Z.div_unique with (r := off mod p + 2); [left; lia|lia]).
  split; [symmetry; exact Q|]. symmetry. apply Z.mod_unique with (q := off / p); [left; lia|lia].
Qed.
Lemma last_page off p : 0 < p -> p mod 2 = 0 -> off mod 2 = 0 -> (off + 2) mod p = 0 -> 2 < p -> (off + 2) / p * p = off / p * p + p /\ off mod p + 2 = p /\ off / p * p + p = off + 2.
Proof.
  intros P E O N P2. pose proof (Z.div_mod off p) as D. pose proof (Z.mod_pos_bound off p P) as B. pose proof (Z.div_mod (off + 2) p) as D2.
  assert (K : off mod p mod 2 = 0). { apply Z.mod_divide; [lia|]. rewrite (Z.mod_eq off p) by lia. apply Z.divide_sub_r; [apply Z.mod_divide; [lia|exact O]|apply Z.divide_mul_l; apply Z.mod_divide; [lia|exact E]]. }
  assert (off mod p <> p - 1) by (intros X; rewrite X, Zminus_mod, E in K; discriminate).
  assert ((off + 2) / p = off / p + 1) by nia. lia.
Qed.

(** ao_flash_write_byte *)
Lemma write_byte_ok s0 hi T n s : ready s0 hi -> (forall i, 0 <= T i < 256) -> writing s0 T n s -> n_start s0 + upto (row (n_nvm s0)) (n + 1) <= hi ->
  exists s', write_byte after (T n) s = Ok s' /\ writing s0 T (n + 1) s' /\ n_in s' = n_in s /\ n_out s' = n_out s.
Proof.
  intros (S & St & Sa & Ht & Bm & Un) BT [K Ws We Wn [Wo We2] Wb Wd Wc Wr Wf] L.
  pose proof (page_pos _ S) as PP. pose proof (page_even _ S) as PE. set (m0 := n_nvm s0) in *. set (P := page m0) in *. set (R := row m0) in *.
  assert (RP : R = P * 4) by reflexivity. assert (Pa : n_start s0 mod P = 0) by (apply row_page; assumption).
  assert (Sn := keeps_sound _ _ K S). set (off := n_off s) in *.
  assert (GE := upto_ge R (n + 1) ltac:(lia)).
  assert (Lk : v_lock (n_nvm s) = v_lock m0) by apply K.
  assert (DD : off / P * P <= off < off / P * P + P) by (generalize (Z.div_mod off P), (Z.mod_pos_bound off P); lia).
  assert (D0 : 0 <= off / P * P) by (apply Z.mul_nonneg_nonneg; [apply Z.div_pos; lia|lia]).
  (* begin the page *)
  assert (exists m1, (if off mod P =? 0 then start_page after (n_start s + off) (n_nvm s) else Ok (n_nvm s)) = Ok m1 /\ keeps m0 m1 /\
    (forall i, 0 <= i < off / P * P -> v_mem m1 (n_start s0 + i) = T i) /\
    (forall i, off / P * P <= i < upto R (n + 1) -> v_mem m1 (n_start s0 + i) = 255) /\
    (forall i, i < 0 \/ upto R (n + 1) <= i -> v_mem m1 (n_start s0 + i) = v_mem m0 (n_start s0 + i)) /\
    (forall o, 0 <= o < P -> v_buf m1 o = if o <? off mod P then T (off / P * P + o) else 255)) as (m1 & E1 & K1 & D1 & C1 & R1 & B1).
  { destruct (Z.eqb_spec (off mod P) 0) as [O|O].
    - rewrite Ws. assert (DO : off / P * P = off) by (generalize (Z.div_mod off P); lia).
      assert (RO : (n_start s0 + off) mod R = off mod R) by (apply mod_add_mult; [lia|exact Sa]).
      assert (N1 : exists k, n + 1 = off + k /\ 1 <= k <= 2) by (exists (n + 1 - off); destruct (n_pend s); lia). destruct N1 as (k & N1 & Kk).
      destruct (start_ok (n_start s0 + off) (n_nvm s) Sn) as (m1 & E1 & K1 & B1 & M1).
      + lia.
      + rewrite (keeps_page _ _ K). fold P. rewrite mod_add_mult; [exact O|lia|exact Pa].
      + rewrite (keeps_row _ _ K), (keeps_total _ _ K). fold R. rewrite RO. intros X. assert (U := upto_first R off k ltac:(lia) X ltac:(lia)). rewrite N1 in L, GE. lia.
      + exists m1. split; [exact E1|]. split; [exact (keeps_trans _ _ _ K K1)|]. rewrite (keeps_row _ _ K), (keeps_bit _ _ _ K), Lk in M1. fold R m0 in M1. rewrite RO in M1.
        rewrite Un in M1 by lia. cbn [andb] in M1. rewrite DO in *.
        destruct (Z.eqb_spec (off mod R) 0) as [X|X].
        * assert (U := upto_first R off k ltac:(lia) X ltac:(lia)). rewrite <- N1 in U. rewrite U in *. cbn [andb] in M1.
          assert (U0 : upto R n = off \/ upto R n = off + R).
          { destruct (Z.eq_dec n off) as [->|Y]; [left; apply upto_mult; [lia|exact X]|right]. replace n with (off + 1) by (destruct (n_pend s); lia). apply upto_first; [lia|exact X|lia]. }
          split; [|split; [|split]].
          -- intros i I. rewrite M1. destruct (Z.leb_spec (n_start s0 + off) (n_start s0 + i)); [lia|]. cbn [andb]. apply Wd. exact I.
          -- intros i I. rewrite M1. destruct (Z.leb_spec (n_start s0 + off) (n_start s0 + i)); [|lia]. destruct (Z.ltb_spec (n_start s0 + i) (n_start s0 + off + R)); [reflexivity|lia].
          -- intros i I. rewrite M1. destruct (Z.leb_spec (n_start s0 + off) (n_start s0 + i)); destruct (Z.ltb_spec (n_start s0 + i) (n_start s0 + off + R)); try lia; cbn [andb]; apply Wr; lia.
          -- intros o I. rewrite O. destruct (Z.ltb_spec o 0); [lia|apply B1].
        * assert (U : upto R (n + 1) = upto R n).
          { apply upto_next; [lia|]. destruct (n_pend s); [|now replace n with off by lia]. intros Y. assert (Ev : n mod 2 = 0) by (apply (multiple_even n R); [unfold R, row; fold P; rewrite Zmult_mod, PE; reflexivity|lia|exact Y]). rewrite Wn, Zplus_mod, We2 in Ev. discriminate. }
          rewrite U in *. cbn [andb] in M1. split; [|split; [|split]]; try (intros i I; rewrite M1; auto; fail).
          intros o I. rewrite O. destruct (Z.ltb_spec o 0); [lia|apply B1].
    - exists (n_nvm s). split; [reflexivity|]. split; [exact K|].
      assert (U : upto R (n + 1) = upto R n).
      { apply upto_next; [lia|]. intros Y. assert (Ev : n mod 2 = 0) by (apply (multiple_even n R); [unfold R, row; fold P; rewrite Zmult_mod, PE; reflexivity|lia|exact Y]).
        assert (n_pend s = false) by (destruct (n_pend s); [|reflexivity]; rewrite Wn, Zplus_mod, We2 in Ev; discriminate). rewrite H in Wn. apply O. replace off with n by lia. apply row_page; assumption. }
      rewrite U. auto. }
  unfold write_byte. rewrite (keeps_page _ _ K). fold m0 P off. rewrite E1. cbn [obind].
  assert (S1 := keeps_sound _ _ K1 S). assert (Lk1 : v_lock m1 = v_lock m0) by apply K1. cbn [n_set_nvm n_pend n_nvm n_start n_off n_byte].
  destruct (n_pend s) eqn:Pd.
  - (* the second of a pair *)
    unfold fill. rewrite Ws, (keeps_page _ _ K1), (keeps_total _ _ K1). fold m0 P off. destruct (Z.leb_spec 0 (n_start s0 + off)); [|lia]. destruct (Z.ltb_spec (n_start s0 + off + 1) (total m0)); [|lia]. cbn [andb obind].
    rewrite mod_add_mult by (lia || exact Pa). rewrite (Wb eq_refl). replace n with (off + 1) in * by lia.
    set (buf := fun x => if x =? off mod P then Z.land (v_buf m1 x) (T off) else if x =? off mod P + 1 then Z.land (v_buf m1 x) (T (off + 1)) else v_buf m1 x).
    set (m2 := v_set_buf buf m1). assert (K2 : keeps m0 m2) by (destruct K1 as (? & ? & ?); now repeat split).
    assert (B2 : forall o, 0 <= o < P -> buf o = if o <? off mod P + 2 then T (off / P * P + o) else 255).
    { intros o O. unfold buf. rewrite B1 by exact O. assert (DM : off = off / P * P + off mod P) by (generalize (Z.div_mod off P); lia).
      destruct (Z.eqb_spec o (off mod P)) as [->|N1]; [|destruct (Z.eqb_spec o (off mod P + 1)) as [->|N2]].
      - destruct (Z.ltb_spec (off mod P) (off mod P)); [lia|]. destruct (Z.ltb_spec (off mod P) (off mod P + 2)); [|lia]. rewrite land255' by apply BT. f_equal. exact DM.
      - destruct (Z.ltb_spec (off mod P + 1) (off mod P)); [lia|]. destruct (Z.ltb_spec (off mod P + 1) (off mod P + 2)); [|lia]. rewrite land255' by apply BT. f_equal. lia.
      - destruct (Z.ltb_spec o (off mod P)); destruct (Z.ltb_spec o (off mod P + 2)); try lia; reflexivity. }
    cbn [n_set_write n_set_nvm n_off n_nvm n_start n_byte]. rewrite Ws.
    destruct (Z.eqb_spec ((off + 2) mod P) 0) as [O|O].
    + destruct (last_page off P) as (Q1 & Q2 & Q3); [lia|exact PE|exact We2|exact O|lia|].
      destruct (finish_ok (n_start s0 + (off + 2) - P) m2 (keeps_sound _ _ K2 S)) as (K3 & M3).
      { rewrite (keeps_page _ _ K2). fold P. replace (n_start s0 + (off + 2) - P) with (n_start s0 + off / P * P) by lia. rewrite mod_add_mult by (lia || exact Pa). apply Z.mod_mul. lia. }
      replace (n_start s0 + (off + 2) - P) with (n_start s0 + off / P * P) in * by lia. rewrite (keeps_page _ _ K2), (keeps_bit _ _ _ K2) in M3. fold P m0 in M3. change (v_lock m2) with (v_lock m1) in M3. rewrite Lk1, Un in M3 by lia. cbn [andb] in M3.
      eexists. split; [reflexivity|]. split; [|split; reflexivity]. assert (K4 := keeps_trans _ _ _ K2 K3).
      split; cbn [n_nvm n_start n_end n_off n_pend n_byte n_set_nvm n_set_write]; try assumption; try reflexivity; fold m0 P R.
      * lia.
      * split; [lia|]. rewrite Zplus_mod, We2. reflexivity.
      * discriminate.
      * rewrite Q1. intros i I. rewrite M3. cbn [m2 v_set_buf v_mem v_buf]. destruct (Z.leb_spec (n_start s0 + off / P * P) (n_start s0 + i)); cbn [andb]; [|apply D1; lia].
        destruct (Z.ltb_spec (n_start s0 + i) (n_start s0 + off / P * P + P)); [|lia]. rewrite C1 by lia. replace (n_start s0 + i - (n_start s0 + off / P * P)) with (i - off / P * P) by lia. rewrite B2 by lia. destruct (Z.ltb_spec (i - off / P * P) (off mod P + 2)); [|lia].
        rewrite land255' by apply BT. f_equal. lia.
      * rewrite Q1. intros i I. rewrite M3. cbn [m2 v_set_buf v_mem]. destruct (Z.leb_spec (n_start s0 + off / P * P) (n_start s0 + i)); [|lia]. destruct (Z.ltb_spec (n_start s0 + i) (n_start s0 + off / P * P + P)); [lia|]. cbn [andb]. apply C1. lia.
      * intros i I. rewrite M3. cbn [m2 v_set_buf v_mem]. destruct (Z.leb_spec (n_start s0 + off / P * P) (n_start s0 + i)); destruct (Z.ltb_spec (n_start s0 + i) (n_start s0 + off / P * P + P)); cbn [andb]; try (apply R1; exact I). exfalso. lia.
      * intros o X. now elim X.
    + destruct (next_page off P) as (Q1 & Q2); [lia|exact PE|exact We2|exact O|].
      eexists. split; [reflexivity|]. split; [|split; reflexivity].
      split; cbn [n_nvm n_start n_end n_off n_pend n_byte n_set_nvm n_set_write]; try assumption; try reflexivity; fold m0 P R; rewrite ?Q1, ?Q2; try assumption.
      * lia.
      * split; [lia|]. rewrite Zplus_mod, We2. reflexivity.
      * discriminate.
      * intros o _ I. apply B2. exact I.
  - (* the first of a pair *)
    cbn [obind n_set_write n_set_nvm n_off n_nvm n_start]. fold off. replace n with off in * by lia. destruct (Z.eqb_spec (off mod P) 0) as [O|O].
    + rewrite Ws. destruct (finish_ok (n_start s0 + off - P) m1 S1) as (K3 & M3).
      { rewrite (keeps_page _ _ K1). fold P. replace (n_start s0 + off - P) with (n_start s0 + (off + (-1) * P)) by lia. rewrite mod_add_mult by (lia || exact Pa). rewrite Z.mod_add by lia. exact O. }
      assert (M4 : forall i, v_mem (finish_page after (n_start s0 + off - P) m1) (n_start s0 + i) = v_mem m1 (n_start s0 + i)).
      { intros i. rewrite M3, (keeps_page _ _ K1). fold P. destruct (_ && _ && _) eqn:C; [|reflexivity]. apply andb_prop in C. destruct C as [C C2]. apply andb_prop in C. destruct C as [_ C]. apply Z.leb_le in C. apply Z.ltb_lt in C2.
        rewrite B1 by lia. rewrite O. destruct (Z.ltb_spec (n_start s0 + i - (n_start s0 + off - P)) 0); [lia|]. apply land255.
        destruct (Z.ltb_spec i 0); [rewrite R1 by lia; apply Bm|]. destruct (Z.ltb_spec i (off / P * P)); [rewrite D1 by lia; apply BT|]. destruct (Z.ltb_spec i (upto R (off + 1))); [rewrite C1 by lia; lia|rewrite R1 by lia; apply Bm]. }
      eexists. split; [reflexivity|]. split; [|split; reflexivity]. assert (K4 := keeps_trans _ _ _ K1 K3).
      split; cbn [n_nvm n_start n_end n_off n_pend n_byte n_set_nvm n_set_write]; try assumption; try reflexivity; fold m0 P R off; try (intros i I; rewrite M4; auto; fail).
      * split; assumption.
      * intros o X. now elim X.
    + eexists. split; [reflexivity|]. split; [|split; reflexivity].
      split; cbn [n_nvm n_start n_end n_off n_pend n_byte n_set_nvm n_set_write]; try assumption; try reflexivity; fold m0 P R off; try assumption.
      * split; assumption.
      * intros o _ I. apply B1. exact I.
Qed.

(** ao_flash_write_flush *)
Lemma flush_ok s0 hi T n s : ready s0 hi -> (forall i, 0 <= T i < 256) -> (forall i, n <= i -> T i = 255) -> writing s0 T n s -> n_start s0 + upto (row (n_nvm s0)) n <= hi ->
  exists s', write_flush after s = Ok s' /\ keeps (n_nvm s0) (n_nvm s') /\ n_start s' = n_start s0 /\ n_end s' = n_end s0 /\ n_in s' = n_in s /\ n_out s' = n_out s /\
    (forall i, 0 <= i < upto (row (n_nvm s0)) n -> v_mem (n_nvm s') (n_start s0 + i) = T i) /\
    (forall i, i < 0 \/ upto (row (n_nvm s0)) n <= i -> v_mem (n_nvm s') (n_start s0 + i) = v_mem (n_nvm s0) (n_start s0 + i)).
Proof.
  intros Rd BT TE W L. destruct Rd as (S & St & Sa & Ht & Bm & Un) eqn:X. clear X. pose proof (page_pos _ S) as PP. pose proof (page_even _ S) as PE. pose proof (row_page _ _ S Sa) as Pa.
  assert (RE : row (n_nvm s0) mod 2 = 0) by (unfold row; rewrite Zmult_mod, PE; reflexivity). assert (RP : row (n_nvm s0) = page (n_nvm s0) * 4) by reflexivity.
  unfold write_flush. rewrite (keeps_page _ _ (w_keeps _ _ _ _ W)).
  assert (exists k s1, (if n_pend s then write_byte after 255 s else Ok s) = Ok s1 /\ writing s0 T k s1 /\ n_pend s1 = false /\ n <= k /\ upto (row (n_nvm s0)) k = upto (row (n_nvm s0)) n /\ n_in s1 = n_in s /\ n_out s1 = n_out s) as (k & s1 & E1 & W1 & P1 & Lk & U & I1 & O1).
  { destruct (n_pend s) eqn:Pd.
    - assert (No : n mod row (n_nvm s0) <> 0).
      { intros Y. assert (Ev := multiple_even n _ RE ltac:(lia) Y). rewrite (w_n _ _ _ _ W), Pd, Zplus_mod in Ev. destruct (w_off _ _ _ _ W) as [_ Eo]. rewrite Eo in Ev. discriminate. }
      assert (U := upto_next (row (n_nvm s0)) n ltac:(lia) No). destruct (write_byte_ok s0 hi T n s (conj S (conj St (conj Sa (conj Ht (conj Bm Un))))) BT W) as (s1 & E1 & W1 & I1 & O1); [rewrite U; exact L|].
      rewrite (TE n) in E1 by lia. exists (n + 1), s1. split; [exact E1|]. split; [exact W1|]. split; [|split; [lia|split; [exact U|split; assumption]]].
      destruct (n_pend s1) eqn:Q; [|reflexivity]. exfalso. pose proof (w_n _ _ _ _ W1) as N1. rewrite Q in N1. pose proof (w_n _ _ _ _ W) as N0. rewrite Pd in N0. destruct (w_off _ _ _ _ W) as [_ Eo]. destruct (w_off _ _ _ _ W1) as [_ Eo1].
      replace (n_off s1) with (n_off s + 1) in Eo1 by lia. rewrite Zplus_mod, Eo in Eo1. discriminate.
    - exists n, s. split; [reflexivity|]. split; [exact W|]. split; [exact Pd|]. split; [lia|]. auto. }
  rewrite E1. cbn [obind]. pose proof (w_n _ _ _ _ W1) as N1. rewrite P1, Z.add_0_r in N1. destruct W1 as [K1 Ws1 We1 _ [Wo1 Wv1] _ D1 C1 R1 B1]. rewrite <- N1, U in *.
  assert (DD : k / page (n_nvm s0) * page (n_nvm s0) <= k < k / page (n_nvm s0) * page (n_nvm s0) + page (n_nvm s0)) by (generalize (Z.div_mod k (page (n_nvm s0))), (Z.mod_pos_bound k (page (n_nvm s0))); lia).
  destruct (Z.eqb_spec (k mod page (n_nvm s0)) 0) as [O|O].
  - exists s1. split; [reflexivity|]. split; [exact K1|]. split; [exact Ws1|]. split; [exact We1|]. split; [exact I1|]. split; [exact O1|]. split; [|exact R1].
    intros i I. destruct (Z.ltb_spec i (k / page (n_nvm s0) * page (n_nvm s0))); [apply D1; lia|]. rewrite C1 by lia. rewrite TE; [reflexivity|]. generalize (Z.div_mod k (page (n_nvm s0))). lia.
  - rewrite Ws1. set (d := k / page (n_nvm s0) * page (n_nvm s0)) in *. assert (Dp : d mod page (n_nvm s0) = 0) by (apply Z.mod_mul; lia).
    destruct (finish_ok (n_start s0 + d) (n_nvm s1) (keeps_sound _ _ K1 S)) as (K3 & M3); [rewrite (keeps_page _ _ K1), mod_add_mult by (lia || exact Pa); exact Dp|].
    assert (0 <= d) by (unfold d; apply Z.mul_nonneg_nonneg; [apply Z.div_pos; lia|lia]). assert (GE := upto_ge (row (n_nvm s0)) n ltac:(lia)). assert (GE2 := upto_ge (row (n_nvm s0)) k ltac:(lia)). rewrite U in GE2.
    assert (DU : d + page (n_nvm s0) <= upto (row (n_nvm s0)) n).
    { assert (Y : upto (row (n_nvm s0)) n mod page (n_nvm s0) = 0) by (unfold upto; apply row_page; [exact S|]; apply Z.mod_mul; lia).
      assert (d < upto (row (n_nvm s0)) n). { assert (d <> k) by (intros Dk; apply O; rewrite <- Dk; exact Dp). lia. }
      pose proof (Z.div_mod d (page (n_nvm s0))) as Q1. pose proof (Z.div_mod (upto (row (n_nvm s0)) n) (page (n_nvm s0))) as Q2. rewrite Y in Q2. rewrite Dp in Q1. specialize (Q1 ltac:(lia)). specialize (Q2 ltac:(lia)).
      assert (d / page (n_nvm s0) < upto (row (n_nvm s0)) n / page (n_nvm s0)) by (apply (Zmult_lt_reg_r _ _ (page (n_nvm s0))); lia). assert (d / page (n_nvm s0) + 1 <= upto (row (n_nvm s0)) n / page (n_nvm s0)) by lia.
      assert (page (n_nvm s0) * (d / page (n_nvm s0) + 1) <= page (n_nvm s0) * (upto (row (n_nvm s0)) n / page (n_nvm s0))) by (apply Z.mul_le_mono_nonneg_l; lia). lia. }
    rewrite (keeps_page _ _ K1), (keeps_bit _ _ _ K1) in M3. replace (v_lock (n_nvm s1)) with (v_lock (n_nvm s0)) in M3 by (symmetry; apply K1). rewrite Un in M3 by lia. cbn [andb] in M3.
    eexists. split; [reflexivity|]. cbn [n_set_nvm n_nvm n_start n_end n_in n_out]. split; [exact (keeps_trans _ _ _ K1 K3)|]. split; [exact Ws1|]. split; [exact We1|]. split; [exact I1|]. split; [exact O1|]. split.
    + intros i I. rewrite M3. destruct (Z.leb_spec (n_start s0 + d) (n_start s0 + i)); cbn [andb]; [|apply D1; lia].
      rewrite C1 by lia. destruct (Z.ltb_spec (n_start s0 + i) (n_start s0 + d + page (n_nvm s0))).
      * replace (n_start s0 + i - (n_start s0 + d)) with (i - d) by lia. rewrite B1 by (exact O || lia). fold d. destruct (Z.ltb_spec (i - d) (k mod page (n_nvm s0))).
        -- rewrite land255' by apply BT. f_equal. lia.
        -- rewrite TE; [reflexivity|]. generalize (Z.div_mod k (page (n_nvm s0))). unfold d in *. lia.
      * rewrite TE; [reflexivity|]. lia.
    + intros i I. rewrite M3. destruct (Z.leb_spec (n_start s0 + d) (n_start s0 + i)); destruct (Z.ltb_spec (n_start s0 + i) (n_start s0 + d + page (n_nvm s0))); cbn [andb]; try (apply R1; exact I). exfalso. lia.
Qed.

(** eeprom.write *)
Lemma loop_ok s0 hi T rest : ready s0 hi -> (forall i, 0 <= T i < 256) -> forall sent n s fuel, sendable sent -> writing s0 T n s -> 0 <= n ->
  (forall i, T (n + Z.of_nat i) = nth i (received sent) 255) -> n_start s0 + upto (row (n_nvm s0)) (n + Z.of_nat (length (received sent)) + 1) <= hi ->
  n_in s = sent ++ 4 :: rest -> (length (n_in s) < fuel)%nat ->
  exists s', nvm_loop after fuel s = Ok (Some s') /\ writing s0 T (n + Z.of_nat (length (received sent)) + 1) s' /\ n_in s' = rest /\ n_out s' = n_out s ++ enquiries sent.
Proof.
  intros Rd BT. assert (RP : 0 < row (n_nvm s0)) by (destruct Rd as (S & _); pose proof (page_pos _ S); unfold row; lia).
  induction sent as [|c sent IH]; intros n s fuel Sd W N0 Tn L In F; (destruct fuel as [|fuel]; [lia|]); cbn [nvm_loop]; rewrite In; cbn [app raw_getc] in *.
  - change (4 =? 5) with false. change (4 =? 13) with false. cbv iota. change (4 =? 4) with true. cbv iota. cbn [received flat_map length] in *.
    assert (W' : writing s0 T n (n_set_io rest (n_out s) s)) by (destruct W; split; assumption).
    destruct (write_byte_ok s0 hi T n _ Rd BT W') as (s' & E & W2 & I2 & O2); [replace (n + 1) with (n + Z.of_nat 0 + 1) by lia; exact L|].
    specialize (Tn 0%nat). rewrite Z.add_0_r in Tn. cbn [nth] in Tn. rewrite Tn in E. rewrite E. cbn [obind]. change (255 =? 255) with true. cbv iota.
    exists s'. rewrite I2, O2. cbn [n_set_io n_in n_out enquiries flat_map]. rewrite app_nil_r. split; [reflexivity|]. split; [|auto]. replace (n + Z.of_nat 0 + 1) with (n + 1) by lia. exact W2.
  - inversion Sd as [|? ? [C1 C2] Sd']; subst. destruct (Z.eqb_spec c 5) as [->|C5].
    + (* an enquiry is answered on the way *)
      assert (W' : writing s0 T n (n_set_io (sent ++ 4 :: rest) (n_out s ++ [6]) s)) by (destruct W; split; assumption).
      destruct (IH n _ (Datatypes.S fuel) Sd' W' N0 Tn L eq_refl) as (s' & E & W2 & I2 & O2); [cbn [n_set_io n_in]; rewrite In in F; cbn [length] in F; lia|].
      exists s'. split; [exact E|]. split; [exact W2|]. split; [exact I2|]. rewrite O2. cbn [n_set_io n_out enquiries flat_map]. change (5 =? 5) with true. cbv iota. now rewrite <- app_assoc.
    + set (d := if c =? 13 then 10 else c). assert (D : d <> 4 /\ d <> 255 /\ received (c :: sent) = d :: received sent).
      { unfold d, received. cbn [flat_map]. destruct (Z.eqb_spec c 5); [contradiction|]. destruct (Z.eqb_spec c 13); repeat split; lia. }
      destruct D as (D4 & D255 & Rc). rewrite Rc in *. destruct (Z.eqb_spec d 4); [contradiction|].
      assert (W' : writing s0 T n (n_set_io (sent ++ 4 :: rest) (n_out s) s)) by (destruct W; split; assumption).
      destruct (write_byte_ok s0 hi T n _ Rd BT W') as (s' & E & W2 & I2 & O2); [pose proof (upto_mono (row (n_nvm s0)) (n + 1) (n + Z.of_nat (length (d :: received sent)) + 1) RP); lia|].
      pose proof (Tn 0%nat) as T0. rewrite Z.add_0_r in T0. cbn [nth] in T0. rewrite T0 in E. rewrite E. cbn [obind]. destruct (Z.eqb_spec d 255); [contradiction|].
      destruct (IH (n + 1) s' fuel Sd' W2) as (s2 & E2 & W3 & I3 & O3).
      * lia.
      * intros i. specialize (Tn (Datatypes.S i)). cbn [nth] in Tn. rewrite <- Tn. f_equal. lia.
      * cbn [length] in L. replace (n + 1 + Z.of_nat (length (received sent)) + 1) with (n + Z.of_nat (Datatypes.S (length (received sent))) + 1) by lia. exact L.
      * exact I2.
      * rewrite I2. cbn [n_set_io n_in]. rewrite In in F. cbn [length] in F. lia.
      * exists s2. split; [exact E2|]. split; [cbn [length]; replace (n + Z.of_nat (Datatypes.S (length (received sent))) + 1) with (n + 1 + Z.of_nat (length (received sent)) + 1) by lia; exact W3|]. split; [exact I3|].
        rewrite O3, O2. cbn [n_set_io n_out enquiries flat_map]. destruct (Z.eqb_spec c 5); [contradiction|]. reflexivity.
Qed.
Lemma bytes_received sent : sendable sent -> forall i, 0 <= nth i (received sent) 255 < 256.
Proof.
  induction sent as [|c l IH]; intros S i; [destruct i; cbn; lia|]. inversion S as [|? ? [C1 C2] S']; subst. specialize (IH S'). unfold received in *. cbn [flat_map].
  destruct (c =? 5); [apply IH|]. destruct (c =? 13); destruct i; cbn [app nth]; try lia; apply IH.
Qed.
Lemma nvm_write_ok s hi sent rest : ready s hi -> sendable sent -> n_start s + upto (row (n_nvm s)) (Z.of_nat (length (received sent)) + 1) <= hi -> n_in s = sent ++ 4 :: rest ->
  exists s', nvm_write after s = Ok (Some s') /\ keeps (n_nvm s) (n_nvm s') /\ n_start s' = n_start s /\ n_end s' = n_end s /\ n_in s' = rest /\ n_out s' = n_out s ++ enquiries sent /\
    (forall i, 0 <= i < upto (row (n_nvm s)) (Z.of_nat (length (received sent)) + 1) -> v_mem (n_nvm s') (n_start s + i) = nth (Z.to_nat i) (received sent) 255) /\
    (forall i, i < 0 \/ upto (row (n_nvm s)) (Z.of_nat (length (received sent)) + 1) <= i -> v_mem (n_nvm s') (n_start s + i) = v_mem (n_nvm s) (n_start s + i)).
Proof.
  intros Rd Sd L In. set (T := fun i => nth (Z.to_nat i) (received sent) 255). assert (BT : forall i, 0 <= T i < 256) by (intros i; apply bytes_received; exact Sd).
  pose proof Rd as (S & _). pose proof (page_pos _ S) as PP.
  assert (W : writing s T 0 (write_init s)).
  { split; cbn [write_init n_set_write n_nvm n_start n_end n_off n_pend n_byte]; try reflexivity; try discriminate.
    - apply keeps_refl.
    - split; [lia|reflexivity].
    - rewrite Z.div_0_l by lia. lia.
    - rewrite Z.div_0_l by lia. intros i I. rewrite upto_mult in I by (reflexivity || unfold row; lia). lia.
    - intros o X. rewrite Z.mod_0_l in X by lia. now elim X. }
  destruct (loop_ok s hi T rest Rd BT sent 0 (write_init s) (Datatypes.S (length (n_in s))) Sd W) as (s1 & E & W1 & I1 & O1).
  - lia.
  - intros i. unfold T. rewrite Z.add_0_l, Nat2Z.id. reflexivity.
  - exact L.
  - exact In.
  - cbn [write_init n_set_write n_in]. lia.
  - rewrite Z.add_0_l in W1. destruct (flush_ok s hi T (Z.of_nat (length (received sent)) + 1) s1 Rd BT) as (s2 & E2 & K2 & S2 & N2 & I2 & O2 & M2 & R2); [|exact W1|exact L|].
    + intros i I. unfold T. apply nth_overflow. lia.
    + exists s2. unfold nvm_write. rewrite E. cbn [obind]. rewrite E2. cbn [obind]. rewrite I2, O2. repeat split; try assumption; apply K2.
Qed.
End After.
