(** Marking: the objects, and the walk. *)
From Coq Require Import ZArith Bool List Lia Sorting.Sorted.
From Verif Require Import Base FloatModel PolyModel PolyProofs CodeModel GcModel GcSpec GcProofs GcChunks GcMark GcMark2.
Import ListNotations.
Local Open Scope Z_scope.

Section Heap.
Context {w : width} {POOL calloc csize : Z} {R : roots} {m0 : mem} {top0 last0 lastw : Z}.
Notation k := (Z.of_nat (obytes w)).
Notation none := (OFFSET_NONE w).
Notation geto := (get (obytes w)).
Notation osize := (osize w POOL calloc).
Notation slots := (slots w csize).
Notation live := (live w csize R m0).
Notation said := (said w).
Notation means := (means w).
Notation target := (target w).
Notation sz := (@sz w POOL calloc m0).
Notation mark_mem := (@mark_mem w POOL calloc csize R m0).
Notation chain := (@chain w csize R m0).
Hypothesis Hwf : wf w POOL calloc csize R m0 top0 lastw.
Variable NCHUNK : nat.
Variable low : Z.
Hypothesis HN : (0 < NCHUNK)%nat.
Notation MInv := (@MInv w POOL calloc csize R m0 top0 last0 NCHUNK low).
Notation step := (@step w csize R m0).
Notation post := (@post w POOL calloc csize R m0 top0 last0 NCHUNK low).
Notation free := (@free POOL).
Notation visits := (@visits w POOL calloc csize R m0 top0 last0 NCHUNK low).

Lemma mark_mem_get m n c a : mark_mem m -> live n -> 0 <= a -> a + Z.of_nat c <= sz n ->
  (forall i, a <= i < a + Z.of_nat c -> ~ in_note w n i) -> get c m (snd n + a) = get c m0 (snd n + a).
Proof.
  intros (_ & Hm & _) H Ha Hc Hn. apply get_ext. intros i Hi. rewrite <- !Z.add_assoc. apply Hm; [exact H|lia|]. apply Hn. lia.
Qed.
Lemma mark_mem_get0 m n c : mark_mem m -> live n -> Z.of_nat c <= sz n ->
  (forall i, 0 <= i < Z.of_nat c -> ~ in_note w n i) -> get c m (snd n) = get c m0 (snd n).
Proof.
  intros Hm H Hc Hn. rewrite <- (Z.add_0_r (snd n)). apply mark_mem_get; auto; lia.
Qed.
(** an object marked with its references closed *)
Lemma step_mark n g1 g2 g3 : live n -> (forall i, g_busy g2 i = true <-> g_busy g1 i = true \/ i = snd n / 4) -> step g2 g3 ->
  (forall s n', In s (slots m0 n) -> target m0 n s = Some n' -> isb g3 n' = true) -> step g1 g3.
Proof.
  intros H Hb [M C] Ht. constructor.
  - intros i Hi. apply M, Hb. left. exact Hi.
  - intros x n' s Hx H1 H3 Hs Htx. destruct (isb g2 x) eqn:H2; [|exact (C x n' s Hx H2 H3 Hs Htx)].
    unfold isb in H2. apply Hb in H2 as [H2|He]; [unfold isb in H1; congruence|].
    pose proof (live_index Hwf x n Hx H He) as ->. exact (Ht s n' Hs Htx).
Qed.
Lemma post_mark n g1 g2 g3 l new : live n -> (forall i, g_busy g2 i = true <-> g_busy g1 i = true \/ i = snd n / 4) -> post g2 l g3 new ->
  (forall s n', In s (slots m0 n) -> target m0 n s = Some n' -> isb g3 n' = true) -> post g1 l g3 new.
Proof.
  intros H Hb (HI & HS & Hnew) Ht. split; [exact HI|]. split; [exact (step_mark n g1 g2 g3 H Hb HS Ht)|].
  intros x Hx. specialize (Hnew x Hx). unfold isb in *. destruct (g_busy g1 _) eqn:He; [|reflexivity]. rewrite (proj2 (Hb _) (or_introl He)) in Hnew. discriminate.
Qed.

(** the names after this one *)
Lemma names_next p : forall o y, names_list w m0 o p -> In y p -> geto m0 y = none \/ In (geto m0 y) p.
Proof.
  induction p as [|x p IH]; intros o y Hp Hy; [contradiction|]. destruct Hp as (-> & Hx & Hp). destruct Hy as [->|Hy].
  - destruct p as [|z p]; [left; exact Hp|]. right. right. left. symmetry. apply Hp.
  - destruct (IH _ y Hp Hy); [left; assumption|right; right; assumption].
Qed.
Lemma name_target y n' s : In s (slots m0 (YName, y)) -> target m0 (YName, y) s = Some n' -> n' = (YName, geto m0 y) /\ geto m0 y <> none.
Proof.
  intros [<-|[]] Ht. unfold GcSpec.target, GcSpec.said, GcSpec.means in Ht. cbn [fst snd slen] in Ht. rewrite Z.add_0_r in Ht.
  destruct (Z.eqb_spec (geto m0 y) none); [discriminate|]. injection Ht as <-. auto.
Qed.
Lemma names_ok q : forall fuel o g l, live (YName, o) -> names_list w m0 (geto m0 o) q -> (forall x, In x q -> live (YName, x)) -> (length q <= fuel)%nat -> MInv g l ->
  exists g', names_mark w POOL NCHUNK calloc fuel o g = Some g' /\ MInv g' l /\
    (forall i, g_busy g' i = true <-> g_busy g i = true \/ exists x, In x q /\ i = x / 4).
Proof.
  induction q as [|x q IH]; intros fuel o g l Ho Hq Hl Hf Hi.
  - exists g. split; [|split; [exact Hi|]].
    + cbn [names_list] in Hq.
      assert (He : geto (g_m g) o = geto m0 o).
      { apply (mark_mem_get0 (g_m g) (YName, o)); [apply Hi|exact Ho| |intros i _ [Hx _]; discriminate].
        destruct (live_slot Hwf (YName, o) (0, SOff YName) Ho ltac:(left; reflexivity)) as [_ Hx]. cbn [fst snd slen] in Hx. lia. }
      destruct fuel; cbn [names_mark]; rewrite He, Hq, Z.eqb_refl; reflexivity.
    + intro i. split; [auto|]. intros [Hx|(x & [] & _)]. exact Hx.
  - destruct Hq as (He & Hx & Hq). destruct fuel as [|fuel]; [cbn in Hf; lia|]. cbn [names_mark].
    assert (Heq : geto (g_m g) o = x).
    { rewrite <- He. apply (mark_mem_get0 (g_m g) (YName, o)); [apply Hi|exact Ho| |intros i _ [Hy _]; discriminate].
      destruct (live_slot Hwf (YName, o) (0, SOff YName) Ho ltac:(left; reflexivity)) as [_ Hy]. cbn [fst snd slen] in Hy. lia. }
    rewrite Heq. destruct (Z.eqb_spec x none); [contradiction|].
    assert (Hlx : live (YName, x)) by (apply Hl; left; reflexivity).
    destruct (block_ok Hwf NCHUNK low HN (YName, x) g l Hlx Hi) as (g1 & Hr & I1 & B1 & _ & _). cbn [fst snd] in Hr. rewrite Hr.
    destruct (IH fuel x g1 l Hlx Hq ltac:(intros; apply Hl; right; assumption) ltac:(cbn in Hf; lia) I1) as (g2 & -> & I2 & B2).
    exists g2. split; [reflexivity|]. split; [exact I2|]. intro i. rewrite B2, B1. cbn [snd]. split.
    + intros [[H| ->]|(y & Hy & ->)]; [left; exact H|right; exists x; split; [left|]; reflexivity|right; exists y; split; [right; exact Hy|reflexivity]].
    + intros [H|(y & [->|Hy] & ->)]; [left; left; exact H|left; right; reflexivity|right; exists y; auto].
Qed.

Section Visit.
Variable fuel : nat.
Variable visit : ty -> Z -> gc -> option (bool * gc).
Hypothesis Hv : visits fuel visit.
Notation slot_mark := (@slot_mark w visit).

Lemma slots_visited n s n' : fst n <> YList -> In s (slots m0 n) -> target m0 n s = Some n' -> visited n'.
Proof.
  intros Hn Hs Ht. unfold GcSpec.target in Ht. destruct (snd s) as [|t] eqn:He; [exact (poly_visited _ _ Ht)|].
  unfold GcSpec.means in Ht. destruct (_ =? none); [discriminate|]. injection Ht as <-. unfold visited. cbn [fst].
  destruct n as [u o]. unfold GcSpec.slots in Hs. cbn [fst snd] in *. destruct u; cbn [fst snd] in *.
  - congruence.
  - contradiction.
  - destruct Hs as [<-|[]]. injection He as <-. exact Logic.I.
  - apply in_map_iff in Hs as (a & <- & _). injection He as <-. exact Logic.I.
  - apply in_app_or in Hs as [Hs|[<-|[<-|[]]]]; [apply in_map_iff in Hs as (a & <- & _); discriminate| |]; injection He as <-; exact Logic.I.
  - destruct Hs as [<-|[]]. injection He as <-. exact Logic.I.
  - apply in_map_iff in Hs as (a & <- & _). injection He as <-. exact Logic.I.
  - apply in_map_iff in Hs as (a & <- & _). discriminate.
Qed.
Lemma all_slots_ok n g l : live n -> fst n <> YList -> MInv g l -> (free g < fuel)%nat ->
  exists g' new, iter (slot_mark n) (slots m0 n) g = Some g' /\ post g l g' new /\ (forall s n', In s (slots m0 n) -> target m0 n s = Some n' -> isb g' n' = true).
Proof.
  intros H Hn Hi Hf. apply (slots_ok Hwf NCHUNK low HN fuel visit Hv n (slots m0 n) H); [|exact Hi|exact Hf].
  intros s Hs. split; [exact Hs|]. intros n' Ht. exact (slots_visited n s n' Hn Hs Ht).
Qed.
(** going over the string operands of code *)
Lemma code_ok n c f size g l : live n -> fst n <> YList -> MInv g l -> (free g < fuel)%nat -> 
  slots m0 n = map (fun a => (c + a, SOff YStr)) (strings_in w (Z.to_nat size) m0 (snd n + c) 0 size) ->
  0 <= c -> c + size <= sz n -> f = mark_offset_at w visit YStr ->
  code_each w f (Z.to_nat size) (snd n + c) 0 size g = iter (slot_mark n) (slots m0 n) g.
Proof.
  intros H Hn Hi Hf Hs Hc Hsz ->.
  rewrite (code_iter w (fun g => (exists l, MInv g l) /\ (free g < fuel)%nat) _ m0 (snd n + c) (snd n + c)).
  - rewrite Hs, iter_map. apply iter_ext. intros a g' _. unfold GcMark2.slot_mark, mark_offset_at, ref_mark. cbn [fst snd slen]. rewrite Z.add_assoc. reflexivity.
  - intros g1 [(l1 & I1) _] x Hx _. rewrite <- !Z.add_assoc. destruct (mi_mem _ _ _ _ I1) as (_ & Hm & _). apply Hm; [exact H|lia|]. intros [Ht _]. contradiction.
  - intros a g1 g2 Ha [(l1 & I1) F1] He.
    assert (Hin : In (c + a, SOff YStr) (slots m0 n)) by (rewrite Hs; apply (in_map (fun a => (c + a, SOff YStr))), Ha).
    destruct (slot_ok Hwf NCHUNK low fuel visit Hv n (c + a, SOff YStr) g1 l1 H Hin) as (g3 & new & H3 & P3 & _); auto.
    { intros n' Ht. exact (slots_visited n _ n' Hn Hin Ht). }
    unfold GcMark2.slot_mark, ref_mark in H3. cbn [fst snd slen] in H3. unfold mark_offset_at in He. rewrite Z.add_assoc in H3. rewrite He in H3. injection H3 as <-.
    split; [exists (new ++ l1); apply P3|]. pose proof (free_mono (POOL := POOL) g1 g2 (st_mono _ _ (proj1 (proj2 P3)))). lia.
  - split; [exists l; exact Hi|exact Hf].
  - lia.
Qed.

Lemma body_ok n g l : live n -> visited n -> MInv g l -> isb g n = true -> (free g < fuel)%nat ->
  exists g' new, mark_body w POOL NCHUNK calloc csize visit (fst n) (snd n) g = Some g' /\ post g l g' new /\
    (forall s n', In s (slots m0 n) -> target m0 n s = Some n' -> isb g' n' = true).
Proof.
  intros H Hvis Hi Hb Hf. pose proof (kpos w) as Hk. pose proof (mi_mem _ _ _ _ Hi) as Hm. pose proof (live_mem_size Hwf n H) as (s0 & Hs0 & Hp0 & Hsz).
  pose proof (round_ge s0) as Hround.
  destruct n as [t o]. destruct t; cbn [mark_body fst snd]; cbn [fst snd mem_size] in Hs0.
  - (* a list *)
    pose proof (list_sz Hwf o H) as Hls.
    assert (Ha : forall m, mark_mem m -> geto m (o + k) = geto m0 (o + k)).
    { intros m Hm'. apply (mark_mem_get m (YList, o)); auto; [lia|lia|]. intros i Hx [_ Hy]. lia. }
    unfold list_alloc. rewrite (Ha _ Hm). destruct (Z.eqb_spec (geto m0 (o + k)) 0) as [He|He].
    + exists g, []. split; [reflexivity|]. split; [apply post_refl, Hi|]. intros s n' Hs. unfold GcSpec.slots in Hs. cbn [fst snd] in Hs. rewrite He, Z.eqb_refl in Hs. contradiction.
    + set (d := (YData (geto m0 o) (geto m0 (o + k)), geto m0 (o + 3 * k)) : node).
      assert (Hslot : slots m0 (YList, o) = [(3 * k, SOff (fst d))]).
      { unfold GcSpec.slots. cbn [fst snd]. destruct (Z.eqb_spec (geto m0 (o + k)) 0); [contradiction|reflexivity]. }
      assert (Hin : In (3 * k, SOff (fst d)) (slots m0 (YList, o))) by (rewrite Hslot; left; reflexivity).
      unfold list_data. replace (geto (g_m g) (o + 3 * k)) with (snd d).
      2: { symmetry. apply (mark_mem_get (g_m g) (YList, o)); auto; [lia|lia|]. intros i Hx [_ Hy]. lia. }
      assert (Htd : target m0 (YList, o) (3 * k, SOff (fst d)) = Some d).
      { unfold GcSpec.target, GcSpec.said, GcSpec.means. cbn [fst snd slen].
        destruct (Z.eqb_spec (geto m0 (o + 3 * k)) none) as [Hx|]; [destruct (wf_data _ _ _ _ _ _ _ _ Hwf o H He Hx)|reflexivity]. }
      assert (Hd : live d) by exact (live_target _ _ _ H Hin Htd).
      assert (Hdsz : u_of w (geto m0 (o + k) * 4) = sz d).
      { destruct (live_mem_size Hwf d Hd) as (s1 & Hs1 & Hp1 & ->). cbn [mem_size fst snd d] in Hs1. apply some_eq in Hs1. subst s1.
        replace (4 * geto m0 (o + k) + 3) with (3 + geto m0 (o + k) * 4) by lia. rewrite Z.div_add by lia. change (3 / 4) with 0. rewrite Z.add_0_l.
        apply (u_small (w := w)). pose proof (live_facts Hwf d Hd) as (Hx & _ & _ & Hy & _ & Hz). unfold GcSpec.osize in Hx. cbn [mem_size fst snd d] in Hx. apply some_eq in Hx.
        rewrite <- Hx in Hz. replace (4 * geto m0 (o + k) + 3) with (3 + geto m0 (o + k) * 4) in Hz by lia. rewrite Z.div_add in Hz by lia. change (3 / 4) with 0 in Hz.
        pose proof (pool_facts Hwf). pose proof (none_word Hwf). lia. }
      rewrite Hdsz. destruct (blob_ok Hwf NCHUNK low HN d g l Hd Hi) as (g1 & -> & I1 & B1 & M1 & D1).
      unfold list_size. rewrite M1. replace (geto (g_m g) o) with (geto m0 o).
      2: { symmetry. apply (mark_mem_get0 (g_m g) (YList, o)); auto; [lia|]. intros i Hx [_ Hy]. lia. }
      assert (F1 : (free g1 < fuel)%nat) by (pose proof (free_mono (POOL := POOL) g g1 ltac:(intros; apply B1; left; assumption)); lia).
      destruct (all_slots_ok d g1 l Hd ltac:(discriminate) I1 F1) as (g' & new & Hr & Hp & Ht). exists g', new.
      split; [|split].
      * rewrite <- Hr. unfold GcSpec.slots. cbn [fst snd d]. rewrite iter_map, each_iter. fold d.
        replace (evenly (Z.to_nat (geto m0 o)) (geto m0 (o + 3 * k)) 4) with (map (fun a => geto m0 (o + 3 * k) + a) (evenly (Z.to_nat (geto m0 o)) 0 4)).
        2: { unfold evenly. rewrite map_map. apply map_ext. intro i. lia. }
        rewrite iter_map. apply iter_ext. reflexivity.
      * exact (post_mark d g g1 g' l new Hd B1 Hp Ht).
      * intros s n' Hs Hn'. rewrite Hslot in Hs. destruct Hs as [<-|[]]. rewrite Htd in Hn'. injection Hn' as <-.
        unfold isb. apply (st_mono _ _ (proj1 (proj2 Hp))). exact D1.
  - exists g, []. split; [reflexivity|]. split; [apply post_refl, Hi|]. intros s n' [].
  - destruct (all_slots_ok (YFunc, o) g l H ltac:(discriminate) Hi Hf) as (g' & new & Hr & Hp & Ht). exists g', new. split; [|auto].
    rewrite <- Hr. unfold GcSpec.slots. cbn [fst snd iter]. unfold GcMark2.slot_mark, ref_mark, mark_offset_at. cbn [fst snd slen]. destruct (mark_offset w visit YCode _ g); reflexivity.
  - destruct (all_slots_ok (YCode, o) g l H ltac:(discriminate) Hi Hf) as (g' & new & Hr & Hp & Ht). exists g', new. split; [|auto].
    apply some_eq in Hs0. subst s0.
    pose proof (get_range (obytes w) m0 o (wf_bytes _ _ _ _ _ _ _ _ Hwf)) as Hg.
    replace (geto (g_m g) o) with (geto m0 o).
    2: { symmetry. apply (mark_mem_get0 (g_m g) (YCode, o)); auto; [lia|]. intros i _ [Hx _]. discriminate. }
    rewrite <- Hr. apply (code_ok (YCode, o) k _ _ g l); auto; [discriminate|lia|lia].
  - destruct (all_slots_ok (YFrame, o) g l H ltac:(discriminate) Hi Hf) as (g' & new & Hr & Hp & Ht). exists g', new. split; [|auto].
    apply some_eq in Hs0. subst s0.
    pose proof (get_range (obytes w) m0 (o + 3 * k) (wf_bytes _ _ _ _ _ _ _ _ Hwf)) as Hg.
    replace (geto (g_m g) (o + 3 * k)) with (geto m0 (o + 3 * k)).
    2: { symmetry. apply (mark_mem_get (g_m g) (YFrame, o)); auto; [lia|lia|]. intros i _ [Hx _]. discriminate. }
    rewrite <- Hr. unfold GcSpec.slots. cbn [fst snd]. rewrite iter_app, iter_map, each_iter.
    replace (evenly (Z.to_nat (geto m0 (o + 3 * k))) (o + 4 * k) 8) with (map (fun a => o + a) (evenly (Z.to_nat (geto m0 (o + 3 * k))) (4 * k) 8)).
    2: { unfold evenly. rewrite map_map. apply map_ext. intro i. lia. }
    rewrite iter_map.
    assert (Hit : forall gg, iter (fun a => poly_mark_at w visit (o + a)) (evenly (Z.to_nat (geto m0 (o + 3 * k))) (4 * k) 8) gg =
      iter (fun a => slot_mark (YFrame, o) (a, SPoly)) (evenly (Z.to_nat (geto m0 (o + 3 * k))) (4 * k) 8) gg) by (apply iter_ext; reflexivity).
    rewrite Hit. clear Hr Hit. destruct (iter (fun a => slot_mark (YFrame, o) (a, SPoly)) _ g) as [g1|]; [|reflexivity]. cbn [iter].
    unfold GcMark2.slot_mark, ref_mark, mark_offset_at. cbn [fst snd slen]. destruct (mark_offset w visit YCode _ g1) as [g2|]; [|reflexivity].
    rewrite Z.add_0_r. destruct (mark_offset w visit YFrame _ g2); reflexivity.
  - (* names *)
    destruct (name_chain Hwf (YName, o) H eq_refl) as (p & Hp & Hd & Hlen & Hall). cbn [snd] in Hp.
    destruct p as [|x q]; [exfalso; exact (live_none Hwf _ H Hp)|]. destruct Hp as (<- & _ & Hq).
    destruct (names_ok q (Z.to_nat POOL) o g l H Hq ltac:(intros; apply Hall; right; assumption) ltac:(cbn in Hlen; lia) Hi) as (g' & -> & I' & B').
    exists g', []. split; [reflexivity|]. 
    assert (Hcl : forall y s n', In y (o :: q) -> In s (slots m0 (YName, y)) -> target m0 (YName, y) s = Some n' -> isb g' n' = true).
    { intros y s n' Hy Hs Ht. destruct (name_target y n' s Hs Ht) as [-> Hne]. unfold isb. apply B'. right. cbn [snd]. exists (geto m0 y). split; [|reflexivity].
      destruct Hy as [<-|Hy].
      - destruct q as [|z q]; [cbn in Hq; contradiction|]. left. symmetry. apply Hq.
      - destruct (names_next q _ y Hq Hy); [contradiction|assumption]. }
    split; [|intros s n' Hs Ht; apply (Hcl o s n'); [left; reflexivity|exact Hs|exact Ht]].
    split; [exact I'|]. split; [|contradiction]. constructor; [intros i Hx; apply B'; left; exact Hx|].
    intros x n' s Hx H1 H2 Hs Ht. unfold isb in H2. apply B' in H2 as [H2|(y & Hy & He)]; [unfold isb in H1; congruence|].
    assert (x = (YName, y)) as -> by (apply (live_index Hwf); [exact Hx|apply Hall; right; exact Hy|exact He]).
    apply (Hcl y s n'); [right; exact Hy|exact Hs|exact Ht].
  - destruct (all_slots_ok (YCompile, o) g l H ltac:(discriminate) Hi Hf) as (g' & new & Hr & Hp & Ht). exists g', new. split; [|auto].
    apply some_eq in Hs0. subst s0. pose proof (wf_compile _ _ _ _ _ _ _ _ Hwf) as Hcc.
    rewrite <- Hr. rewrite <- (code_ok (YCompile, o) 0 (mark_offset_at w visit YStr) csize g l); auto; [|discriminate| |lia|lia].
    + cbn [snd]. rewrite Z.add_0_r. reflexivity.
    + unfold GcSpec.slots. cbn [fst snd]. rewrite Z.add_0_r. reflexivity.
  - contradiction.
Qed.
End Visit.
End Heap.
