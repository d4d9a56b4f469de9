(** Bytes, and the objects seen through them. *)
From Coq Require Import ZArith Bool List Lia.
From Verif Require Import Base FloatModel PolyModel PolyProofs CodeModel GcModel GcSpec.
Import ListNotations.
Local Open Scope Z_scope.

Lemma some_eq {A} (x y : A) : Some x = Some y -> x = y.
Proof. congruence. Qed.

(** ** Bytes *)
Lemma get_ext n : forall m m' a a', (forall i, 0 <= i < Z.of_nat n -> m' (a' + i) = m (a + i)) -> get n m' a' = get n m a.
Proof.
  induction n as [|n IH]; intros m m' a a' H; [reflexivity|]. cbn [get]. f_equal.
  - generalize (H 0). rewrite !Z.add_0_r. intro H0. apply H0. lia.
  - f_equal. apply IH. intros i Hi. rewrite <- !Z.add_assoc. apply H. lia.
Qed.
Lemma get_range n : forall m a, bytes m -> 0 <= get n m a < 256 ^ Z.of_nat n.
Proof.
  induction n as [|n IH]; intros m a H; [cbn; lia|]. cbn [get]. rewrite Nat2Z.inj_succ, Z.pow_succ_r by lia.
  specialize (IH m (a + 1) H). specialize (H a). nia.
Qed.
Lemma put_out n : forall v a m x, x < a \/ a + Z.of_nat n <= x -> put n v a m x = m x.
Proof.
  induction n as [|n IH]; intros v a m x H; [reflexivity|]. cbn [put]. destruct (Z.eqb_spec x a); [lia|]. apply IH. lia.
Qed.
Lemma put_bytes n : forall v a m, bytes m -> bytes (put n v a m).
Proof.
  induction n as [|n IH]; intros v a m H x; [apply H|]. cbn [put]. destruct (x =? a); [apply Z.mod_pos_bound; lia|apply IH, H].
Qed.
Lemma get_put n : forall v a m, 0 <= v < 256 ^ Z.of_nat n -> get n (put n v a m) a = v.
Proof.
  induction n as [|n IH]; intros v a m H; [cbn in *; lia|]. cbn [get].
  rewrite Nat2Z.inj_succ, Z.pow_succ_r in H by lia.
  assert (He : get n (put (S n) v a m) (a + 1) = get n (put n (v / 256) (a + 1) m) (a + 1)).
  { apply get_ext. intros i Hi. cbn [put]. destruct (Z.eqb_spec (a + 1 + i) a); [lia|reflexivity]. }
  rewrite He, IH; [|split; [apply Z.div_pos; lia|apply Z.div_lt_upper_bound; lia]].
  cbn [put]. rewrite Z.eqb_refl. rewrite Z.add_comm. symmetry. apply Z.div_mod. lia.
Qed.
Lemma get_put_out n n' v a b m : b + Z.of_nat n' <= a \/ a + Z.of_nat n <= b -> get n' (put n v a m) b = get n' m b.
Proof. intro H. apply get_ext. intros i Hi. apply put_out. lia. Qed.

Lemma strlen_ext n : forall n' m m' a a' l, strlen_ n m a = Some l -> (forall i, 0 <= i <= l -> m' (a' + i) = m (a + i)) ->
  l < Z.of_nat n' -> strlen_ n' m' a' = Some l.
Proof.
  induction n as [|n IH]; intros n' m m' a a' l H Hm Hl; [discriminate|]. cbn [strlen_] in H.
  assert (Hpos : 0 <= l).
  { revert H. clear. revert a l. assert (Hp : forall n m a l, strlen_ n m a = Some l -> 0 <= l).
    { intros n0. induction n0 as [|n0 IH]; intros m0 a l H; [discriminate|]. cbn in H. destruct (m0 a =? 0); [injection H as <-; lia|].
      destruct (strlen_ n0 m0 (a + 1)) eqn:He; [|discriminate]. injection H as <-. specialize (IH _ _ _ He). lia. }
    intros a l H. apply (Hp (S n) m a l). exact H. }
  destruct n' as [|n']; [lia|]. cbn [strlen_].
  assert (H0 : m' a' = m a). { generalize (Hm 0). rewrite !Z.add_0_r. intro H0. apply H0. lia. }
  rewrite H0. destruct (m a =? 0); [exact H|].
  destruct (strlen_ n m (a + 1)) eqn:He; [|discriminate]. injection H as <-.
  assert (Hz : 0 <= z). { clear -He. revert m a z He. induction n as [|n0 IH]; intros m0 a l H; [discriminate|]. cbn in H. destruct (m0 (a+1) =? 0); [injection H as <-; lia|].
      destruct (strlen_ n0 m0 (a + 1 + 1)) eqn:He; [|discriminate]. injection H as <-. specialize (IH _ _ _ He). lia. }
  rewrite (IH n' m m' (a + 1) (a' + 1) z He); [reflexivity| |lia].
  intros i Hi. rewrite <- !Z.add_assoc. apply Hm. lia.
Qed.
Lemma strlen_pos n : forall m a l, strlen_ n m a = Some l -> 0 <= l < Z.of_nat n.
Proof.
  induction n as [|n0 IH]; intros m0 a l H; [discriminate|]. cbn in H. destruct (m0 a =? 0); [injection H as <-; lia|].
  destruct (strlen_ n0 m0 (a + 1)) eqn:He; [|discriminate]. injection H as <-. specialize (IH _ _ _ He). lia.
Qed.

Section Local.
Variable w : width.
Variables POOL calloc csize : Z.
Notation k := (Z.of_nat (obytes w)).
Notation none := (OFFSET_NONE w).
Notation geto := (get (obytes w)).
Notation osize := (osize w POOL calloc).
Notation slots := (slots w csize).
Notation plain := (plain w csize).

Lemma kpos : 2 <= k <= 4. Proof. destruct w; cbn; lia. Qed.
Lemma kbits : 256 ^ k = 2 ^ wbits w. Proof. destruct w; reflexivity. Qed.

Lemma in_evenly n a step x : In x (evenly n a step) <-> exists i, 0 <= i < Z.of_nat n /\ x = a + step * i.
Proof.
  unfold evenly. rewrite in_map_iff. split.
  - intros (i & <- & Hi). apply in_seq in Hi. exists (Z.of_nat i). split; [lia|reflexivity].
  - intros (i & Hi & ->). exists (Z.to_nat i). split; [rewrite Z2Nat.id by lia; reflexivity|]. apply in_seq. lia.
Qed.
Lemma string_operand : Z.of_nat (operand_size w (op_code KString)) = k.
Proof. destruct w; reflexivity. Qed.
Lemma strings_above fuel : forall m c ip size x, In x (strings_in w fuel m c ip size) -> ip + 1 <= x.
Proof.
  induction fuel as [|fuel IH]; intros m c ip size x H; cbn [strings_in] in H; destruct (ip <? size); try contradiction.
  apply in_app_or in H as [H|H].
  - destruct (_ =? _); cbn in H; [destruct H as [<-|[]]; lia|contradiction].
  - apply IH in H. lia.
Qed.
Lemma strings_local fuel : forall m m' c c' ip size,
  (forall x, ip <= x < size -> (forall a, In a (strings_in w fuel m c ip size) -> ~ (a <= x < a + k)) -> m' (c' + x) = m (c + x)) ->
  strings_in w fuel m' c' ip size = strings_in w fuel m c ip size.
Proof.
  induction fuel as [|fuel IH]; intros m m' c c' ip size H; cbn [strings_in]; destruct (Z.ltb_spec ip size) as [Hlt|]; try reflexivity.
  assert (H0 : m' (c' + ip) = m (c + ip)).
  { apply H; [lia|]. intros a Ha. apply strings_above in Ha. lia. }
  rewrite H0. f_equal. apply IH. intros x Hx Hn. apply H; [lia|].
  intros a Ha. cbn [strings_in] in Ha. destruct (Z.ltb_spec ip size); [|lia]. apply in_app_or in Ha as [Ha|Ha]; [|exact (Hn a Ha)].
  destruct (Z.eqb_spec (byte_op (m (c + ip))) (op_code KString)) as [He|He]; cbn in Ha; [|contradiction].
  destruct Ha as [<-|[]]. rewrite He in Hx. pose proof string_operand as Ho. lia.
Qed.

Lemma round_ge s : s <= (s + 3) / 4 * 4 < s + 4.
Proof. pose proof (Z.div_mod (s + 3) 4 ltac:(lia)). pose proof (Z.mod_pos_bound (s + 3) 4 ltac:(lia)). lia. Qed.

(** size and references only depend on the other bytes *)
Lemma local m m' t o o' s : csize <= calloc -> bytes m -> osize m (t, o) = Some s -> o' + s <= POOL -> 
  (forall i, 0 <= i < s -> plain m (t, o) i -> m' (o' + i) = m (o + i)) ->
  osize m' (t, o') = Some s /\ slots m' (t, o') = slots m (t, o).
Proof.
  intros Hc Hb Hs Hp H. pose proof kpos as Hk. unfold GcSpec.osize in *. cbn [fst snd] in *.
  destruct (mem_size w POOL calloc m t o) as [z|] eqn:Hz; [|discriminate]. injection Hs as <-. pose proof (round_ge z) as Hr.
  assert (Hf : forall n a, (forall i, a <= i < a + Z.of_nat n -> 0 <= i < (z + 3) / 4 * 4 /\ plain m (t, o) i) -> get n m' (o' + a) = get n m (o + a)).
  { intros n a Ha. apply get_ext. intros i Hi. rewrite <- !Z.add_assoc. apply H; apply (Ha (a + i)); lia. }
  assert (Hf0 : forall n, (forall i, 0 <= i < Z.of_nat n -> 0 <= i < (z + 3) / 4 * 4 /\ plain m (t, o) i) -> get n m' o' = get n m o).
  { intros n Ha. generalize (Hf n 0). rewrite !Z.add_0_r. intro Hx. apply Hx. intros i Hi. apply Ha. lia. }
  destruct t; cbn [mem_size] in Hz |- *.
  - apply some_eq in Hz; subst z. split; [reflexivity|]. unfold GcSpec.slots. cbn [fst snd].
    assert (Ha : geto m' (o' + k) = geto m (o + k)).
    { apply Hf. intros i Hi. split; [lia|]. split; [|intros [_ Hn]; lia].
      intros (sl & Hin & Hx). unfold GcSpec.slots in Hin. cbn [fst snd] in Hin. destruct (_ =? 0); [contradiction|]. destruct Hin as [<-|[]]. cbn [fst snd slen] in Hx. lia. }
    assert (Hs : geto m' o' = geto m o).
    { apply Hf0. intros i Hi. split; [lia|]. split; [|intros [_ Hn]; lia].
      intros (sl & Hin & Hx). unfold GcSpec.slots in Hin. cbn [fst snd] in Hin. destruct (_ =? 0); [contradiction|]. destruct Hin as [<-|[]]. cbn [fst snd slen] in Hx. lia. }
    rewrite Ha, Hs. reflexivity.
  - unfold strlen in *. destruct (strlen_ (Z.to_nat (POOL - o)) m o) as [l|] eqn:Hl; [|discriminate]. apply some_eq in Hz; subst z.
    pose proof (strlen_pos _ _ _ _ Hl) as Hlp.
    erewrite strlen_ext; [split; reflexivity|exact Hl| |lia].
    intros i Hi. apply H; [lia|]. split; [intros (sl & [] & _)|intros [Hn _]; discriminate].
  - split; [|reflexivity]. pose proof (Hb o) as Hbo. apply some_eq in Hz; subst z.
    assert (Hn : m' o' = m o).
    { generalize (H 0). rewrite !Z.add_0_r. intro Hx. apply Hx; [nia|]. split; [|intros [Hn _]; discriminate].
      intros (sl & [<-|[]] & Hx'). cbn [fst snd slen] in Hx'. lia. }
    rewrite Hn. reflexivity.
  - apply some_eq in Hz; subst z. pose proof (get_range (obytes w) m o Hb) as Hg.
    assert (Hn : geto m' o' = geto m o).
    { apply Hf0. intros i Hi. split; [lia|]. split; [|intros [Hn _]; discriminate].
      intros (sl & Hin & Hx). unfold GcSpec.slots in Hin. cbn [fst snd] in Hin. apply in_map_iff in Hin as (a & <- & Ha). apply strings_above in Ha. cbn [fst snd slen] in Hx. lia. }
    rewrite Hn. split; [reflexivity|]. unfold GcSpec.slots. cbn [fst snd]. rewrite Hn. f_equal.
    apply strings_local. intros x Hx Ha. rewrite <- !Z.add_assoc. apply H; [lia|]. split; [|intros [Hn' _]; discriminate].
    intros (sl & Hin & Hx'). unfold GcSpec.slots in Hin. cbn [fst snd] in Hin. apply in_map_iff in Hin as (a & <- & Ha'). cbn [fst snd slen] in Hx'. apply (Ha a Ha'). lia.
  - apply some_eq in Hz; subst z. pose proof (get_range (obytes w) m (o + 3 * k) Hb) as Hg.
    assert (Hn : geto m' (o' + 3 * k) = geto m (o + 3 * k)).
    { apply Hf. intros i Hi. split; [lia|]. split; [|intros [Hn _]; discriminate].
      intros (sl & Hin & Hx). unfold GcSpec.slots in Hin. cbn [fst snd] in Hin. apply in_app_or in Hin as [Hin|Hin].
      - apply in_map_iff in Hin as (a & <- & Ha). apply in_evenly in Ha as (j & Hj & ->). cbn [fst snd slen] in Hx. lia.
      - destruct Hin as [<-|[<-|[]]]; cbn [fst snd slen] in Hx; lia. }
    rewrite Hn. split; [reflexivity|]. unfold GcSpec.slots. cbn [fst snd]. rewrite Hn. reflexivity.
  - unfold strlen in *. destruct (strlen_ (Z.to_nat (POOL - (o + k))) m (o + k)) as [l|] eqn:Hl; [|discriminate]. apply some_eq in Hz; subst z.
    pose proof (strlen_pos _ _ _ _ Hl) as Hlp.
    erewrite strlen_ext; [split; reflexivity|exact Hl| |lia].
    intros i Hi. rewrite <- !Z.add_assoc. apply H; [lia|]. split; [|intros [Hn _]; discriminate].
    intros (sl & [<-|[]] & Hx'). cbn [fst snd slen] in Hx'. lia.
  - apply some_eq in Hz; subst z. split; [reflexivity|]. unfold GcSpec.slots. cbn [fst snd]. f_equal.
    apply strings_local. intros x Hx Ha. apply H; [lia|]. split; [|intros [Hn' _]; discriminate].
    intros (sl & Hin & Hx'). unfold GcSpec.slots in Hin. cbn [fst snd] in Hin. apply in_map_iff in Hin as (a & <- & Ha'). cbn [fst snd slen] in Hx'. apply (Ha a Ha'). lia.
  - apply some_eq in Hz; subst z. split; reflexivity.
Qed.
End Local.
