(** Redirecting the references. *)
From Coq Require Import ZArith Bool List Lia Sorting.Sorted.
From Verif Require Import Base FloatModel PolyModel PolyProofs CodeModel GcModel GcSpec GcProofs GcChunks GcMark GcMark2 GcMark3 GcMoved.
Import ListNotations.
Local Open Scope Z_scope.

Section Move.
Context {w : width} {POOL calloc csize : Z} {R : roots} {m0 : mem} {top0 last0 : Z}.
Notation k := (Z.of_nat (obytes w)).
Notation none := (OFFSET_NONE w).
Notation geto := (get (obytes w)).
Notation osize := (osize w POOL calloc).
Notation slots := (slots w csize).
Notation live := (live w csize R m0).
Notation said := (said w).
Notation means := (means w).
Notation target := (target w).
Notation sz := (@sz w POOL calloc m0).
Notation redirect := (redirect w).
Hypothesis Hwf : wf w POOL calloc csize R m0 top0 last0.
Context {f : Z -> Z} {top1 last1 : Z}.
Hypothesis Hp : @places_ok w POOL calloc csize R m0 f top1 last1.

Definition nb (g : gc) (n : node) : bool := g_busy g (f (snd n) / 4).
Lemma new_at n n' i i' : live n -> live n' -> 0 <= i < sz n -> 0 <= i' < sz n' -> f (snd n) + i = f (snd n') + i' -> n = n' /\ i = i'.
Proof. intros H H' Hi Hi' He. destruct (p_apart _ _ _ Hp n n' H H') as [<-|]; [split; [reflexivity|lia]|lia]. Qed.
Lemma new_index n n' : live n -> live n' -> f (snd n) / 4 = f (snd n') / 4 -> n = n'.
Proof.
  intros H H' He. destruct (live_facts Hwf n H) as (_ & Hs & _). destruct (live_facts Hwf n' H') as (_ & Hs' & _).
  destruct (p_in _ _ _ Hp n H) as (_ & Ha & _). destruct (p_in _ _ _ Hp n' H') as (_ & Ha' & _).
  apply (new_at n n' 0 0 H H'); lia.
Qed.

(** ** Writing into one object *)
Definition only (n : node) (P : Z -> Prop) (m m' : mem) : Prop :=
  forall n' i, live n' -> 0 <= i < sz n' -> ~ (n' = n /\ P i) -> m' (f (snd n') + i) = m (f (snd n') + i).
Lemma put_only n c v a m : live n -> 0 <= a -> a + Z.of_nat c <= sz n -> only n (fun i => a <= i < a + Z.of_nat c) m (put c v (f (snd n) + a) m).
Proof.
  intros H Ha Hc n' i H' Hi Hx. apply put_out. destruct (Z_lt_le_dec (f (snd n') + i) (f (snd n) + a)); [lia|].
  destruct (Z_lt_le_dec (f (snd n') + i) (f (snd n) + a + Z.of_nat c)); [|lia]. exfalso. apply Hx.
  destruct (new_at n' n i (f (snd n') + i - f (snd n)) H' H Hi) as [-> He]; [lia|lia|]. split; [reflexivity|lia].
Qed.
Lemma only_get n P m m' n' c a : only n P m m' -> live n' -> 0 <= a -> a + Z.of_nat c <= sz n' ->
  (n' = n -> forall i, a <= i < a + Z.of_nat c -> ~ P i) -> get c m' (f (snd n') + a) = get c m (f (snd n') + a).
Proof.
  intros Ho H' Ha Hc Hx. apply get_ext. intros i Hi. rewrite <- !Z.add_assoc. apply Ho; [exact H'|lia|]. intros [He HP]. apply (Hx He (a + i)); [lia|exact HP].
Qed.
Lemma only_said n P m m' n' s : only n P m m' -> live n' -> In s (slots m0 n') ->
  (n' = n -> forall i, fst s <= i < fst s + Z.of_nat (slen w (snd s)) -> ~ P i) -> said m' (at_ f n') s = said m (at_ f n') s.
Proof.
  intros Ho H' Hs Hx. destruct (live_slot Hwf n' s H' Hs). unfold GcSpec.said. cbn [at_ snd]. apply (only_get n P m m' n'); auto; lia.
Qed.
Record base (m : mem) : Prop := {
  b_bytes : bytes m;
  b_plain : forall n i, live n -> 0 <= i < sz n -> plain w csize m0 n i -> m (f (snd n) + i) = m0 (snd n + i);
  b_kind : forall o, live (YList, o) -> geto m (f o + 2 * k) mod 4 = geto m0 (o + 2 * k) mod 4 }.
Lemma base_put n c v a m : base m -> live n -> 0 <= a -> a + Z.of_nat c <= sz n ->
  (forall i, a <= i < a + Z.of_nat c -> in_slot w csize m0 n i) -> base (put c v (f (snd n) + a) m).
Proof.
  intros [Hb Hpl Hk] H Ha Hc Hin. pose proof (put_only n c v a m H Ha Hc) as Ho. constructor.
  - apply put_bytes, Hb.
  - intros n' i H' Hi [Hns Hnn]. rewrite (Ho n' i H' Hi); [apply Hpl; [exact H'|exact Hi|split; assumption]|]. intros [-> Hr]. exact (Hns (Hin i Hr)).
  - intros o Hl. rewrite <- (Hk o Hl). f_equal. pose proof (list_sz Hwf o Hl). pose proof (kpos w).
    apply (only_get n _ _ _ (YList, o) (obytes w) (2 * k) Ho Hl); [lia|lia|]. intros <- i Hi Hr. destruct (Hin i Hr) as (s & Hs & Hsi).
    apply (slot_note (YList, o) s i Hs Hsi). split; [reflexivity|lia].
Qed.

(** ** Notes: the old offsets of lists *)
Fixpoint vchain (m : mem) (h : Z) (l : list Z) : Prop :=
  match l with
  | [] => h = none
  | x :: l => h = x /\ live (YList, x) /\ vchain m (note_next w m (f x)) l
  end.
Lemma vchain_head m h l : vchain m h l -> 0 <= h <= none /\ h mod 4 = 0.
Proof.
  destruct l as [|x l]; cbn.
  - intros ->. destruct (none_word Hwf) as (_ & H1 & H2). lia.
  - intros (-> & H & _). destruct (live_facts Hwf _ H) as (_ & _ & _ & H1 & H2 & _). pose proof (live_range Hwf _ H). destruct (pool_facts Hwf) as (_ & Hq & _). cbn [snd] in *. lia.
Qed.
Lemma vchain_only n P m m' h l : only n P m m' -> (forall x, In x l -> (YList, x) = n -> forall i, 2 * k <= i < 3 * k -> ~ P i) -> vchain m h l -> vchain m' h l.
Proof.
  intro Ho. revert h. induction l as [|x l IH]; intros h Hx Hc; [exact Hc|]. cbn [vchain] in *. destruct Hc as (-> & Hl & Hc). split; [reflexivity|]. split; [exact Hl|].
  assert (He : note_next w m' (f x) = note_next w m (f x)).
  { unfold note_next. pose proof (list_sz Hwf x Hl). pose proof (kpos w). f_equal. f_equal. apply (only_get n P m m' (YList, x)); [exact Ho|exact Hl|lia|lia|].
    intros He i Hi. apply (Hx x ltac:(left; reflexivity) He). lia. }
  rewrite He. apply IH; [|exact Hc]. intros y Hy. apply Hx. right. exact Hy.
Qed.
Lemma set_note_only o v m : live (YList, o) -> only (YList, o) (fun i => 2 * k <= i < 3 * k) m (set_note_next w (f o) v m).
Proof.
  intro H. pose proof (list_sz Hwf o H). pose proof (kpos w). pose proof (put_only (YList, o) (obytes w) (v + geto m (f o + 2 * k) mod 4) (2 * k) m H ltac:(lia) ltac:(lia)) as Ho.
  intros n' i H' Hi Hx. apply (Ho n' i H' Hi). intros [He Hr]. apply Hx. split; [exact He|lia].
Qed.
Lemma set_note_base o v m : base m -> live (YList, o) -> 0 <= v <= none -> v mod 4 = 0 -> base (set_note_next w (f o) v m).
Proof.
  intros [Hb Hpl Hk] H Hv Hv4. pose proof (set_note_only o v m H) as Ho. constructor.
  - apply put_bytes, Hb.
  - intros n' i H' Hi [Hns Hnn]. rewrite (Ho n' i H' Hi); [apply Hpl; [exact H'|exact Hi|split; assumption]|]. intros [-> Hr]. apply Hnn. split; [reflexivity|exact Hr].
  - intros o' H'. rewrite <- (Hk o' H'). destruct (Z.eq_dec o' o) as [->|Hne].
    + rewrite (note_word Hwf) by assumption. rewrite Z.add_mod, Hv4 by lia. rewrite Z.add_0_l, !Z.mod_mod by lia. reflexivity.
    + f_equal. pose proof (list_sz Hwf o' H'). pose proof (kpos w). apply (only_get _ _ _ _ (YList, o') (obytes w) (2 * k) Ho H'); [lia|lia|]. intros He. congruence.
Qed.

(** the state of the chunks *)
Variable fits : gc -> Prop.
Hypothesis fits_m : forall g m, fits g -> fits (with_m m g).
Record VInv (g : gc) (l : list Z) : Prop := {
  vi_base : base (g_m g);
  vi_raw : forall n s, live n -> nb g n = false -> In s (slots m0 n) -> said (g_m g) (at_ f n) s = said m0 n s;
  vi_own : forall n s d a b, live n -> In s (slots m0 n) -> target m0 n s = Some d -> fst d = YData a b -> nb g d = true -> nb g n = true;
  vi_chain : vchain (g_m g) (g_note g) l;
  vi_nodup : NoDup l;
  vi_noted : forall x, In x l -> nb g (YList, x) = true;
  vi_fits : fits g }.
(** what a visit may do; the references of the objects in [X] may change *)
Record vstep (X : node -> Prop) (g g' : gc) : Prop := {
  vs_mono : forall i, g_busy g i = true -> g_busy g' i = true;
  vs_fin : forall n s, live n -> nb g n = false -> nb g' n = true -> In s (slots m0 n) ->
    said (g_m g') (at_ f n) s = redirect f (snd s) (said m0 n s) /\ (forall n', target m0 n s = Some n' -> nb g' n' = true);
  vs_kept : forall n s, live n -> nb g n = true -> ~ X n -> In s (slots m0 n) -> said (g_m g') (at_ f n) s = said (g_m g) (at_ f n) s }.
Definition nothing (n : node) : Prop := False.
Lemma vstep_refl X g : vstep X g g.
Proof. constructor; auto. intros. congruence. Qed.
Lemma vstep_weaken (X Y : node -> Prop) g g' : (forall n, X n -> Y n) -> vstep X g g' -> vstep Y g g'.
Proof. intros H [M F K]. constructor; auto. Qed.
(** an object of [X] is not new *)
Lemma vstep_trans (X : node -> Prop) g1 g2 g3 : (forall n, X n -> nb g1 n = true) -> vstep X g1 g2 -> vstep X g2 g3 -> vstep X g1 g3.
Proof.
  intros HX [M1 F1 K1] [M2 F2 K2]. constructor; [auto| |].
  - intros n s Hl H1 H3 Hs. destruct (nb g2 n) eqn:H2.
    + destruct (F1 n s Hl H1 H2 Hs) as [Hf Ht]. split; [|intros n' Hn'; apply M2; exact (Ht n' Hn')].
      rewrite <- Hf. apply K2; auto. intro Hx. rewrite (HX n Hx) in H1. discriminate.
    + apply F2; auto.
  - intros n s Hl H1 Hx Hs. rewrite (K2 n s Hl) by (auto; apply M1; exact H1). apply K1; auto.
Qed.

(** writing a reference of a busy object *)
Lemma write_ok n s v g l : live n -> In s (slots m0 n) -> nb g n = true -> VInv g l ->
  VInv (with_m (put (slen w (snd s)) v (f (snd n) + fst s) (g_m g)) g) l /\
  vstep (fun x => x = n) g (with_m (put (slen w (snd s)) v (f (snd n) + fst s) (g_m g)) g).
Proof.
  intros H Hs Hb [Hba Hraw Hown Hch Hnd Hno Hfi]. destruct (live_slot Hwf n s H Hs) as [H1 H2].
  pose proof (put_only n (slen w (snd s)) v (fst s) (g_m g) H H1 H2) as Ho. split.
  - constructor; cbn [with_m g_m g_note]; auto.
    + apply base_put; auto. intros i Hi. exists s. auto.
    + intros n' s' H' Hb' Hs'. unfold nb in Hb'. cbn [with_m g_busy] in Hb'. rewrite (only_said _ _ _ _ n' s' Ho H' Hs'); [apply Hraw; auto|]. intros ->. unfold nb in Hb. congruence.
    + apply (vchain_only _ _ _ _ _ _ Ho); [|exact Hch]. intros x _ He i Hi Hr. subst n. apply (slot_note (YList, x) s i Hs Hr). split; [reflexivity|exact Hi].
  - constructor; cbn [with_m g_m]; auto.
    + intros n' s' _ Hx Hy. unfold nb in *. cbn [with_m g_busy] in Hy. congruence.
    + intros n' s' H' _ Hx Hs'. apply (only_said _ _ _ _ n' s' Ho H' Hs'). intro He. contradiction.
Qed.

(** ** The references of an object are apart *)
Definition disj (s s' : Z * skind) : Prop := fst s + Z.of_nat (slen w (snd s)) <= fst s' \/ fst s' + Z.of_nat (slen w (snd s')) <= fst s.
Lemma strings_apart kk fuel : forall m c ip size, ForallOrdPairs disj (map (fun a => (kk + a, SOff YStr)) (strings_in w fuel m c ip size)).
Proof.
  induction fuel as [|fuel IH]; intros m c ip size; cbn [strings_in]; destruct (ip <? size); cbn [map]; try constructor.
  destruct (Z.eqb_spec (byte_op (m (c + ip))) (op_code KString)) as [He|]; cbn [app map]; [|apply IH]. constructor; [|apply IH].
  apply Forall_forall. intros s Hs. apply in_map_iff in Hs as (a & <- & Ha). apply strings_above in Ha. rewrite He, string_operand in Ha.
  left. cbn [fst snd slen]. lia.
Qed.
Lemma evenly_apart n : forall a step, 4 <= step -> ForallOrdPairs disj (map (fun a => (a, SPoly)) (evenly n a step)).
Proof.
  induction n as [|n IH]; intros a step Hs; [constructor|]. unfold evenly. cbn [seq map]. constructor.
  - apply Forall_forall. intros s Hin. apply in_map_iff in Hin as (x & <- & Hx). apply in_map_iff in Hx as (i & <- & Hi). apply in_seq in Hi. left. cbn [fst snd slen]. nia.
  - assert (He : map (fun i => a + step * Z.of_nat i) (seq 1 n) = evenly n (a + step) step).
    { unfold evenly. rewrite <- seq_shift, map_map. apply map_ext. intro i. lia. }
    rewrite He. apply IH, Hs.
Qed.
Lemma fop_app {A} (P : A -> A -> Prop) l l' : ForallOrdPairs P l -> ForallOrdPairs P l' -> (forall x y, In x l -> In y l' -> P x y) -> ForallOrdPairs P (l ++ l').
Proof.
  intros H H' Hx. induction H as [|a l Ha H IH]; [exact H'|]. cbn. constructor.
  - apply Forall_app. split; [exact Ha|]. apply Forall_forall. intros y Hy. apply Hx; [left; reflexivity|exact Hy].
  - apply IH. intros x y Hin Hy. apply Hx; [right; exact Hin|exact Hy].
Qed.
Lemma slots_apart n : ForallOrdPairs disj (slots m0 n).
Proof.
  pose proof (kpos w) as Hk. unfold GcSpec.slots. destruct n as [t o]. cbn [fst snd]. destruct t.
  - destruct (_ =? 0); repeat constructor.
  - constructor.
  - repeat constructor.
  - apply strings_apart.
  - apply fop_app.
    + apply evenly_apart. lia.
    + constructor; [constructor; [right; cbn [fst snd slen]; lia|constructor]|repeat constructor].
    + intros x y Hx Hy. apply in_map_iff in Hx as (a & <- & Ha). apply in_evenly in Ha as (i & Hi & ->). right. destruct Hy as [<-|[<-|[]]]; cbn [fst snd slen]; lia.
  - repeat constructor.
  - pose proof (strings_apart 0 (Z.to_nat csize) m0 o 0 csize) as H. cbn [Z.add] in H. exact H.
  - apply evenly_apart. lia.
Qed.
End Move.
