(** Redirecting the references: the objects, and the walk. *)
From Coq Require Import ZArith Bool List Lia Sorting.Sorted.
From Verif Require Import Base FloatModel PolyModel PolyProofs CodeModel GcModel GcSpec GcProofs GcChunks GcMark GcMark2 GcMark3 GcMark4 GcMoved GcMove GcMove2.
Import ListNotations.
Local Open Scope Z_scope.

Section Move.
Context {w : width} {POOL calloc csize : Z} {R : roots} {m0 : mem} {top0 last0 : Z}.
Notation k := (Z.of_nat (obytes w)).
Notation none := (OFFSET_NONE w).
Notation geto := (get (obytes w)).
Notation osize := (osize w POOL calloc).
Notation slots := (slots w csize).
Notation live := (live w csize R m0).
Notation said := (said w).
Notation means := (means w).
Notation target := (target w).
Notation sz := (@sz w POOL calloc m0).
Notation redirect := (redirect w).
Hypothesis Hwf : wf w POOL calloc csize R m0 top0 last0.
Context {f : Z -> Z} {top1 last1 : Z}.
Hypothesis Hp : @places_ok w POOL calloc csize R m0 f top1 last1.
Variable fits : gc -> Prop.
Hypothesis fits_m : forall g m, fits g -> fits (with_m m g).
Hypothesis fits_note : forall g n, fits g -> fits (with_note n g).
Hypothesis fits_mark : forall g o, fits g -> fits (mark o g).
Hypothesis fits_map : forall g n, fits g -> live n -> move_map (snd n) g = Some (f (snd n)).
Notation nb := (@nb f).
Notation VInv := (@VInv w POOL calloc csize R m0 f fits).
Notation vstep := (@vstep w csize R m0 f).
Notation vpost := (@vpost w POOL calloc csize R m0 f fits).
Notation vvisits := (@vvisits w POOL calloc csize R m0 f fits).
Notation base := (@base w POOL calloc csize R m0 f).
Notation free := (@free POOL).
Notation disj := (@disj w).

Lemma base_get m n c a : base m -> live n -> 0 <= a -> a + Z.of_nat c <= sz n ->
  (forall i, a <= i < a + Z.of_nat c -> plain w csize m0 n i) -> get c m (f (snd n) + a) = get c m0 (snd n + a).
Proof.
  intros [_ Hm _] H Ha Hc Hn. apply get_ext. intros i Hi. rewrite <- !Z.add_assoc. apply Hm; [exact H|lia|]. apply Hn. lia.
Qed.
Lemma base_get0 m n c : base m -> live n -> Z.of_nat c <= sz n ->
  (forall i, 0 <= i < Z.of_nat c -> plain w csize m0 n i) -> get c m (f (snd n)) = get c m0 (snd n).
Proof.
  intros Hm H Hc Hn. pose proof (base_get m n c 0 Hm H ltac:(lia) ltac:(lia) ltac:(exact Hn)) as He. rewrite !Z.add_0_r in He. exact He.
Qed.

(** moving one object *)
Lemma move_block_ok n g l : live n -> VInv g l -> move_block POOL (snd n) g = Some (nb g n, f (snd n), if nb g n then g else mark (f (snd n)) g).
Proof.
  intros H Hi. unfold move_block. rewrite (fits_map g n (vi_fits _ _ _ Hi) H). unfold busy. destruct (new_small Hwf f top1 last1 Hp n H) as (Hr & _).
  destruct (Z.leb_spec 0 (f (snd n))); [|lia]. destruct (Z.ltb_spec (f (snd n)) POOL); [|lia]. reflexivity.
Qed.

Section Visit.
Variable fuel : nat.
Variable visit : ty -> Z -> gc -> option (bool * Z * gc).
Hypothesis Hv : vvisits fuel visit.
Notation slot_move := (@slot_move w f visit).
Definition fine (g : gc) (n : node) : Prop :=
  forall s, In s (slots m0 n) -> said (g_m g) (at_ f n) s = redirect f (snd s) (said m0 n s) /\ (forall n', target m0 n s = Some n' -> nb g n' = true).
Definition raw (g : gc) (n : node) : Prop := forall s, In s (slots m0 n) -> said (g_m g) (at_ f n) s = said m0 n s.

Lemma all_vslots_ok n g l : live n -> fst n <> YList -> VInv g l -> nb g n = true -> raw g n -> (free g < fuel)%nat ->
  exists g' new, iter (slot_move n) (slots m0 n) g = Some g' /\ vpost (is_ n) g l g' new /\ fine g' n.
Proof.
  intros H Hn Hi Hb Hr Hf.
  destruct (vslots_ok Hwf Hp fits fits_m fits_note fits_mark fits_map fuel visit Hv n (slots m0 n) H) with (g := g) (l := l) as (g' & new & H1 & H2 & H3 & _); auto.
  - intros s Hs. split; [exact Hs|]. intros n' Ht. exact (slots_visited n s n' Hn Hs Ht).
  - apply (slots_apart (f := f) fits fits_m).
  - exists g', new. auto.
Qed.
Lemma vcode_ok n c size g l : live n -> fst n <> YList -> VInv g l -> nb g n = true -> raw g n -> (free g < fuel)%nat -> 
  slots m0 n = map (fun a => (c + a, SOff YStr)) (strings_in w (Z.to_nat size) m0 (snd n + c) 0 size) ->
  0 <= c -> c + size <= sz n ->
  code_each w (move_offset w visit YStr) (Z.to_nat size) (f (snd n) + c) 0 size g = iter (slot_move n) (slots m0 n) g.
Proof.
  intros H Hn Hi Hb Hr Hf Hs Hc Hsz.
  set (mk := fun a => (c + a, SOff YStr)) in *.
  rewrite (code_iter_rest w (fun L g => (exists l, VInv g l) /\ nb g n = true /\ (free g < fuel)%nat /\ (forall s, In s (map mk L) -> In s (slots m0 n) /\ said (g_m g) (at_ f n) s = said m0 n s) /\ ForallOrdPairs disj (map mk L)) _ m0 (f (snd n) + c) (snd n + c)).
  - rewrite Hs, iter_map. apply iter_ext. intros a g' _. unfold GcMove2.slot_move, mk. cbn [fst snd]. rewrite Z.add_assoc. reflexivity.
  - intros L g1 ((l1 & I1) & _) x Hx Hns. rewrite <- !Z.add_assoc. apply (b_plain _ (vi_base _ _ _ I1)); [exact H|lia|]. split; [|intros [Ht _]; contradiction].
    intros (s & Hin & Hx'). rewrite Hs in Hin. apply in_map_iff in Hin as (a & <- & Ha). unfold mk in Hx'. cbn [fst snd slen] in Hx'. apply (Hns a Ha). lia.
  - intros a L g1 g2 ((l1 & I1) & B1 & F1 & Q1 & D1) He. cbn [map] in *. destruct (Q1 (mk a) ltac:(left; reflexivity)) as [Hin Hraw]. inversion D1 as [|? ? Dh Dt]; subst. rewrite Forall_forall in Dh.
    destruct (vslot_ok Hwf Hp fits fits_m fits_note fits_mark fits_map fuel visit Hv n (mk a) g1 l1 H Hin) as (g3 & new & H3 & P3 & _ & _ & K3); auto.
    { intros n' Ht. exact (slots_visited n _ n' Hn Hin Ht). }
    unfold GcMove2.slot_move, mk in H3. cbn [fst snd] in H3. rewrite Z.add_assoc, He in H3. injection H3 as <-.
    split; [exists (new ++ l1); apply P3|]. split; [unfold GcMove.nb; apply (vs_mono _ _ _ (proj1 (proj2 P3))); exact B1|].
    split; [pose proof (free_mono (POOL := POOL) g1 g2 (vs_mono _ _ _ (proj1 (proj2 P3)))); lia|]. split; [|exact Dt].
    intros s Hs'. destruct (Q1 s ltac:(right; exact Hs')) as [Hin' Hraw']. split; [exact Hin'|]. rewrite K3; [exact Hraw'|exact Hin'|exact (Dh s Hs')].
  - split; [exists l; exact Hi|]. split; [exact Hb|]. split; [exact Hf|]. rewrite <- Hs. split; [|apply (slots_apart (f := f) fits fits_m)]. intros s Hin. split; [exact Hin|exact (Hr s Hin)].
  - lia.
Qed.

Lemma vbody_ok n g l : live n -> visited n -> VInv g l -> nb g n = true -> raw g n -> (free g < fuel)%nat ->
  (forall s d, In s (slots m0 n) -> target m0 n s = Some d -> fst n = YList -> nb g d = false) ->
  exists g' new, move_body w POOL csize visit (fst n) (f (snd n)) g = Some g' /\ vpost (is_ n) g l g' new /\ fine g' n.
Proof.
  intros H Hvis Hi Hb Hr Hf Hown. pose proof (kpos w) as Hk. pose proof (vi_base _ _ _ Hi) as Hba. pose proof (live_mem_size Hwf n H) as (s0 & Hs0 & Hp0 & Hsz).
  pose proof (round_ge s0) as Hround.
  destruct n as [t o]. destruct t; cbn [move_body fst snd]; cbn [fst snd mem_size] in Hs0.
  - (* a list *)
    pose proof (list_sz Hwf o H) as Hls.
    unfold list_alloc. replace (geto (g_m g) (f o + k)) with (geto m0 (o + k)).
    2: { symmetry. apply (base_get (g_m g) (YList, o)); auto; [lia|lia|]. intros i Hx. apply list_plain. lia. }
    destruct (Z.eqb_spec (geto m0 (o + k)) 0) as [He|He].
    + exists g, []. split; [reflexivity|]. split; [apply vpost_refl, Hi|]. intros s Hs. unfold GcSpec.slots in Hs. cbn [fst snd] in Hs. rewrite He, Z.eqb_refl in Hs. contradiction.
    + set (d := (YData (geto m0 o) (geto m0 (o + k)), geto m0 (o + 3 * k)) : node).
      set (sl := (3 * k, SOff (fst d)) : Z * skind).
      assert (Hslot : slots m0 (YList, o) = [sl]).
      { unfold GcSpec.slots. cbn [fst snd]. destruct (Z.eqb_spec (geto m0 (o + k)) 0); [contradiction|reflexivity]. }
      assert (Hin : In sl (slots m0 (YList, o))) by (rewrite Hslot; left; reflexivity).
      assert (Htd : target m0 (YList, o) sl = Some d).
      { unfold GcSpec.target, GcSpec.said, GcSpec.means, sl. cbn [fst snd slen].
        destruct (Z.eqb_spec (geto m0 (o + 3 * k)) none) as [Hx|]; [destruct (wf_data _ _ _ _ _ _ _ _ Hwf o H He Hx)|reflexivity]. }
      assert (Hd : live d) by exact (live_target _ _ _ H Hin Htd).
      unfold list_data. pose proof (Hr sl Hin) as Hrs. unfold GcSpec.said, sl in Hrs. cbn [fst snd slen at_] in Hrs. rewrite Hrs.
      change (geto m0 (o + 3 * k)) with (snd d) at 1. rewrite (move_block_ok d g l Hd Hi).
      assert (Hnd : nb g d = false) by exact (Hown sl d Hin Htd eq_refl). rewrite Hnd.
      destruct (vmark_ok Hwf Hp fits fits_mark d g l Hd Hi) as [I1 B1].
      { intros n' s a b H' Hs' Ht' Hfd. replace n' with (YList, o); [exact Hb|]. symmetry.
        apply (wf_own _ _ _ _ _ _ _ _ Hwf n' (YList, o) s sl d); auto. exists a, b. exact Hfd. }
      set (g1 := mark (f (snd d)) g) in *.
      assert (Hb1 : nb g1 (YList, o) = true) by (unfold GcMove.nb; apply B1; left; exact Hb).
      assert (Hbd1 : nb g1 d = true) by (unfold GcMove.nb; apply B1; right; reflexivity).
      assert (Hne : (YList, o) <> d) by discriminate.
      destruct (write_ok Hwf Hp fits fits_m (YList, o) sl (f (snd d)) g1 l H Hin Hb1 I1) as [I2 S2].
      change (put (slen w (snd sl)) (f (snd d)) (f (snd (YList, o)) + fst sl) (g_m g1)) with (put (obytes w) (f (snd d)) (f o + 3 * k) (g_m g1)) in I2, S2.
      set (g2 := with_m (put (obytes w) (f (snd d)) (f o + 3 * k) (g_m g1)) g1) in *.
      unfold list_size. replace (geto (g_m g2) (f o)) with (geto m0 o).
      2: { symmetry. apply (base_get0 (g_m g2) (YList, o)); [exact (vi_base _ _ _ I2)|exact H|lia|]. intros i Hx. apply list_plain. lia. }
      assert (Hraw2 : raw g2 d).
      { intros s Hs. rewrite (vs_kept _ _ _ S2 d s Hd Hbd1 ltac:(intro; congruence) Hs). change (g_m g1) with (g_m g). apply (vi_raw _ _ _ Hi); assumption. }
      assert (F2 : (free g2 < fuel)%nat).
      { assert (free g2 <= free g)%nat; [|lia]. apply (free_mono (POOL := POOL)). intros i Hx. change (g_busy g2 i) with (g_busy g1 i). apply B1. left. exact Hx. }
      destruct (all_vslots_ok d g2 l Hd ltac:(discriminate) I2 Hbd1 Hraw2 F2) as (g' & new & Hit & P' & Fd). exists g', new.
      assert (Hsd : said (g_m g2) (at_ f (YList, o)) sl = f (snd d)).
      { unfold GcSpec.said, sl. cbn [fst snd slen at_ g2 with_m g_m]. apply get_put. rewrite kbits. destruct (new_small Hwf f top1 last1 Hp d Hd) as (Hx & _ & _ & Hy). lia. }
      assert (Hkeep : said (g_m g') (at_ f (YList, o)) sl = f (snd d)).
      { rewrite (vs_kept _ _ _ (proj1 (proj2 P')) (YList, o) sl H Hb1 ltac:(exact Hne) Hin). exact Hsd. }
      split; [|split].
      * rewrite <- Hit. unfold GcSpec.slots. cbn [fst snd d]. rewrite iter_map, each_iter. fold d. change (f (geto m0 (o + 3 * k))) with (f (snd d)).
        replace (evenly (Z.to_nat (geto m0 o)) (f (snd d)) 4) with (map (fun a => f (snd d) + a) (evenly (Z.to_nat (geto m0 o)) 0 4)).
        2: { unfold evenly. rewrite map_map. apply map_ext. intro i. lia. }
        rewrite iter_map. apply iter_ext. reflexivity.
      * destruct P' as (I' & S' & N'). split; [exact I'|]. split.
        -- apply (vstep_mark Hwf Hp (is_ (YList, o)) d g g1 g' Hd Hnd B1 eq_refl); [|exact Fd].
           apply (vstep_trans _ g1 g2 g'); [intros x [->| ->]; assumption| |].
           ++ apply (vstep_weaken (fun x => x = (YList, o))); [intros x ->; right; reflexivity|exact S2].
           ++ apply (vstep_weaken (is_ d)); [intros x ->; left; reflexivity|exact S'].
        -- intros x Hx. specialize (N' x Hx). destruct (nb g (YList, x)) eqn:Hgx; [|reflexivity]. unfold GcMove.nb in *. change (g_busy g2) with (g_busy g1) in N'.
           rewrite (proj2 (B1 _) (or_introl Hgx)) in N'. discriminate.
      * intros s Hs. rewrite Hslot in Hs. destruct Hs as [<-|[]]. rewrite Hkeep. split.
        -- unfold GcSpec.redirect. unfold GcSpec.target in Htd. rewrite Htd. unfold sl. reflexivity.
        -- intros n' Hn'. rewrite Htd in Hn'. injection Hn' as <-. unfold GcMove.nb. apply (vs_mono _ _ _ (proj1 (proj2 P'))). exact Hbd1.
  - exists g, []. split; [reflexivity|]. split; [apply vpost_refl, Hi|]. intros s [].
  - destruct (all_vslots_ok (YFunc, o) g l H ltac:(discriminate) Hi Hb Hr Hf) as (g' & new & Hit & P' & F'). exists g', new. split; [|auto].
    rewrite <- Hit. unfold GcSpec.slots. cbn [fst snd iter]. unfold GcMove2.slot_move. cbn [fst snd]. destruct (move_offset w visit YCode _ g); reflexivity.
  - destruct (all_vslots_ok (YCode, o) g l H ltac:(discriminate) Hi Hb Hr Hf) as (g' & new & Hit & P' & F'). exists g', new. split; [|auto].
    apply some_eq in Hs0. subst s0.
    pose proof (get_range (obytes w) m0 o (wf_bytes _ _ _ _ _ _ _ _ Hwf)) as Hg.
    replace (geto (g_m g) (f o)) with (geto m0 o).
    2: { symmetry. apply (base_get0 (g_m g) (YCode, o)); auto; [lia|]. intros i Hx. split; [|intros [Hy _]; discriminate].
         intros (s & Hs & Hy). unfold GcSpec.slots in Hs. cbn [fst snd] in Hs. apply in_map_iff in Hs as (a & <- & Ha). apply strings_above in Ha. cbn [fst snd slen] in Hy. lia. }
    rewrite <- Hit. apply (vcode_ok (YCode, o) k _ g l); auto; [discriminate|lia|lia].
  - destruct (all_vslots_ok (YFrame, o) g l H ltac:(discriminate) Hi Hb Hr Hf) as (g' & new & Hit & P' & F'). exists g', new. split; [|auto].
    apply some_eq in Hs0. subst s0.
    pose proof (get_range (obytes w) m0 (o + 3 * k) (wf_bytes _ _ _ _ _ _ _ _ Hwf)) as Hg.
    replace (geto (g_m g) (f o + 3 * k)) with (geto m0 (o + 3 * k)).
    2: { symmetry. apply (base_get (g_m g) (YFrame, o)); auto; [lia|lia|]. intros i Hx. split; [|intros [Hy _]; discriminate].
         intros (s & Hs & Hy). unfold GcSpec.slots in Hs. cbn [fst snd] in Hs. apply in_app_or in Hs as [Hs|Hs].
         - apply in_map_iff in Hs as (a & <- & Ha). apply in_evenly in Ha as (j & Hj & ->). cbn [fst snd slen] in Hy. lia.
         - destruct Hs as [<-|[<-|[]]]; cbn [fst snd slen] in Hy; lia. }
    rewrite <- Hit. unfold GcSpec.slots. cbn [fst snd]. rewrite iter_app, iter_map, each_iter.
    replace (evenly (Z.to_nat (geto m0 (o + 3 * k))) (f o + 4 * k) 8) with (map (fun a => f o + a) (evenly (Z.to_nat (geto m0 (o + 3 * k))) (4 * k) 8)).
    2: { unfold evenly. rewrite map_map. apply map_ext. intro i. lia. }
    rewrite iter_map.
    assert (Heq : forall gg, iter (fun a => poly_move_at w visit (f o + a)) (evenly (Z.to_nat (geto m0 (o + 3 * k))) (4 * k) 8) gg =
      iter (fun a => slot_move (YFrame, o) (a, SPoly)) (evenly (Z.to_nat (geto m0 (o + 3 * k))) (4 * k) 8) gg) by (apply iter_ext; reflexivity).
    rewrite Heq. clear Hit Heq. destruct (iter (fun a => slot_move (YFrame, o) (a, SPoly)) _ g) as [g1|]; [|reflexivity]. cbn [iter].
    unfold GcMove2.slot_move. cbn [fst snd]. destruct (move_offset w visit YCode _ g1) as [g2|]; [|reflexivity].
    rewrite Z.add_0_r. destruct (move_offset w visit YFrame _ g2); reflexivity.
  - destruct (all_vslots_ok (YName, o) g l H ltac:(discriminate) Hi Hb Hr Hf) as (g' & new & Hit & P' & F'). exists g', new. split; [|auto].
    rewrite <- Hit. unfold GcSpec.slots. cbn [fst snd iter]. unfold GcMove2.slot_move. cbn [fst snd]. rewrite Z.add_0_r. destruct (move_offset w visit YName _ g); reflexivity.
  - destruct (all_vslots_ok (YCompile, o) g l H ltac:(discriminate) Hi Hb Hr Hf) as (g' & new & Hit & P' & F'). exists g', new. split; [|auto].
    apply some_eq in Hs0. subst s0. pose proof (wf_compile _ _ _ _ _ _ _ _ Hwf) as Hcc.
    rewrite <- Hit. rewrite <- (vcode_ok (YCompile, o) 0 csize g l); auto; [|discriminate| |lia|lia].
    + cbn [snd]. rewrite Z.add_0_r. reflexivity.
    + unfold GcSpec.slots. cbn [fst snd]. rewrite Z.add_0_r. reflexivity.
  - contradiction.
Qed.
End Visit.

Notation move_addr := (move_addr w POOL csize).
Notation deep := (deep POOL).
Lemma move_addr_ok fuel : vvisits fuel (move_addr fuel).
Proof.
  induction fuel as [|fuel IH]; intros n g l H Hvis Hi Hf; [lia|]. cbn [GcModel.move_addr]. rewrite (move_block_ok n g l H Hi). destruct (nb g n) eqn:Hb.
  - exists g, []. split; [reflexivity|]. split; [apply vpost_refl, Hi|]. split; [exact Hb|intros _ []].
  - destruct (vmark_ok Hwf Hp fits fits_mark n g l H Hi) as [I1 B1].
    { intros n' s a b _ _ _ Hd. unfold visited in Hvis. rewrite Hd in Hvis. contradiction. }
    set (g1 := mark (f (snd n)) g) in *. assert (D1 : nb g1 n = true) by (unfold GcMove.nb; apply B1; right; reflexivity).
    assert (F1 : (free g1 < fuel)%nat).
    { pose proof (free_less (POOL := POOL) g g1 (f (snd n) / 4) ltac:(intros i Hx; apply B1; left; exact Hx) (new_place Hwf Hp fits fits_m fits_note fits_mark fits_map n H) Hb D1). lia. }
    assert (Hraw : raw g1 n) by (intros s Hs; change (g_m g1) with (g_m g); apply (vi_raw _ _ _ Hi); assumption).
    destruct (vbody_ok fuel _ IH n g1 l H Hvis I1 D1 Hraw F1) as (g2 & new & -> & P2 & T2).
    { intros s d Hs Ht Hln. destruct (nb g1 d) eqn:Hd1; [|reflexivity]. exfalso. unfold GcMove.nb in Hd1. apply B1 in Hd1 as [Hd1|He].
      - assert (exists a b, fst d = YData a b) as (a & b & Hfd).
        { destruct n as [t o]. cbn [fst] in Hln. subst t. unfold GcSpec.slots in Hs. cbn [fst snd] in Hs. destruct (_ =? 0); [contradiction|]. destruct Hs as [<-|[]].
          unfold GcSpec.target, GcSpec.means in Ht. cbn [fst snd] in Ht. destruct (_ =? none); [discriminate|]. injection Ht as <-. eexists _, _. reflexivity. }
        rewrite (vi_own _ _ _ Hi n s d a b H Hs Ht Hfd Hd1) in Hb. discriminate.
      - assert (d = n) as -> by (apply (new_index Hwf Hp); [exact (live_target n s d H Hs Ht)|exact H|exact He]).
        destruct n as [t o]. cbn [fst] in Hln. subst t. unfold GcSpec.slots in Hs. cbn [fst snd] in Hs. destruct (_ =? 0); [contradiction|]. destruct Hs as [<-|[]].
        unfold GcSpec.target, GcSpec.means in Ht. cbn [fst snd] in Ht. destruct (_ =? none); [discriminate|]. discriminate. }
    exists g2, new. split; [reflexivity|]. destruct P2 as (I2 & S2 & N2). split; [|split].
    + split; [exact I2|]. split.
      * apply (vstep_mark Hwf Hp nothing n g g1 g2 H Hb B1 eq_refl); [|exact T2]. apply (vstep_weaken (is_ n)); [intros x ->; left; reflexivity|exact S2].
      * intros x Hx. specialize (N2 x Hx). destruct (nb g (YList, x)) eqn:He; [|reflexivity]. unfold GcMove.nb in *. rewrite (proj2 (B1 _) (or_introl He)) in N2. discriminate.
    + unfold GcMove.nb. apply (vs_mono _ _ _ S2). exact D1.
    + intros Ht Hin. specialize (N2 _ Hin). destruct n as [t o]. unfold GcMove.nb in *. cbn [snd] in *. congruence.
Qed.

(** ** The roots *)
Definition root_move (s : skind) (v : Z) (g : gc) : option (Z * gc) :=
  match s with SPoly => poly_move w (move_addr deep) v g | SOff t => pointer_move w POOL csize t v g end.
Lemma root_move_ok s v g l : In (s, v) (root_refs R) -> VInv g l ->
  exists g' new, root_move s v g = Some (redirect f s v, g') /\ vpost nothing g l g' new /\ (forall n, means s v = Some n -> nb g' n = true).
Proof.
  intros Hin Hi. assert (Hf : (free g < deep)%nat) by (pose proof (free_bound (POOL := POOL) g); unfold GcModel.deep; lia).
  assert (Hn : forall n, means s v = Some n -> live n /\ visited n) by (intros n Hn; split; [exact (live_root _ _ _ _ s v n Hin Hn)|exact (root_visited s v n Hin Hn)]).
  destruct s as [|t].
  - apply (poly_ok Hwf Hp fits fits_m fits_note deep _ (move_addr_ok deep) v g l Hn Hi Hf).
  - cbn [root_move]. unfold pointer_move, GcSpec.redirect. unfold GcSpec.means in *. destruct (v =? none).
    + exists g, []. split; [reflexivity|]. split; [apply vpost_refl, Hi|]. discriminate.
    + destruct (Hn _ eq_refl) as [Hl Hvis]. destruct (move_addr_ok deep (t, v) g l Hl Hvis Hi Hf) as (g' & new & Hr & P' & B' & _). cbn [fst snd] in Hr. rewrite Hr.
      exists g', new. split; [reflexivity|]. split; [exact P'|]. intros n He. injection He as <-. exact B'.
Qed.

(** ** The notes *)
Lemma vnotes_end l : forall fuel h g, vchain (w := w) (csize := csize) (R := R) (m0 := m0) (f := f) (g_m g) h l -> NoDup l -> (forall x, In x l -> nb g (YList, x) = true) -> base (g_m g) -> fits g -> g_note g = none -> (length l <= fuel)%nat ->
  exists m, notes_ w (move_addr deep) fuel h g = Some (with_m m g) /\ base m /\ (forall n s, live n -> In s (slots m0 n) -> said m (at_ f n) s = said (g_m g) (at_ f n) s).
Proof.
  induction l as [|x l IH]; intros fuel h g Hc Hd Hb Hm Hfi Hn Hf.
  - cbn in Hc. subst h. exists (g_m g). split; [|split; [exact Hm|reflexivity]]. destruct fuel; cbn [notes_]; rewrite Z.eqb_refl, Hn, Z.eqb_refl; destruct g; reflexivity.
  - cbn [GcMove.vchain] in Hc. destruct Hc as (-> & Hx & Hc). destruct fuel as [|fuel]; [cbn in Hf; lia|]. cbn [notes_].
    destruct (Z.eqb_spec x none) as [He|]; [destruct (live_none Hwf (YList, x) Hx He)|].
    assert (Ha : move_addr deep YList x g = Some (true, f x, g)).
    { unfold GcModel.deep. cbn [GcModel.move_addr]. unfold move_block. pose proof (fits_map g (YList, x) Hfi Hx) as Hmap. cbn [snd] in Hmap. rewrite Hmap. unfold busy.
      destruct (new_small Hwf f top1 last1 Hp _ Hx) as (Hr & _). cbn [snd] in Hr. destruct (Z.leb_spec 0 (f x)); [|lia]. destruct (Z.ltb_spec (f x) POOL); [|lia]. cbn [andb].
      pose proof (Hb x ltac:(left; reflexivity)) as Hbx. unfold GcMove.nb in Hbx. cbn [snd] in Hbx. rewrite Hbx. reflexivity. }
    rewrite Ha. inversion Hd as [|? ? Hnx Hd']; subst. set (g1 := with_m (set_note_next w (f x) 0 (g_m g)) g).
    assert (Hz : 0 <= 0 <= none) by (pose proof (none_word Hwf); lia). pose proof (set_note_only Hwf Hp x 0 (g_m g) Hx) as Ho.
    destruct (IH fuel (note_next w (g_m g) (f x)) g1) as (m & -> & Hmm & Hsaid).
    + cbn [g1 with_m g_m]. apply (vchain_only Hwf _ _ _ _ _ _ Ho); [|exact Hc]. intros y Hy He. injection He as ->. contradiction.
    + exact Hd'.
    + intros y Hy. apply Hb. right. exact Hy.
    + cbn [g1 with_m g_m]. apply (set_note_base Hwf Hp); auto.
    + apply fits_m, Hfi.
    + exact Hn.
    + cbn in Hf. lia.
    + exists m. split; [reflexivity|]. split; [exact Hmm|]. intros n' s Hl Hs. rewrite (Hsaid n' s Hl Hs). cbn [g1 with_m g_m].
      apply (only_said Hwf _ _ _ _ n' s Ho Hl Hs). intros -> i Hi Hr. apply (slot_note (YList, x) s i Hs Hi). split; [reflexivity|exact Hr].
Qed.
Lemma vchain_all m h l : vchain (w := w) (csize := csize) (R := R) (m0 := m0) (f := f) m h l -> forall x, In x l -> live (YList, x).
Proof. revert h. induction l as [|y l IH]; intros h Hc x Hx; [contradiction|]. destruct Hc as (_ & Hy & Hc). destruct Hx as [<-|Hx]; [exact Hy|exact (IH _ Hc x Hx)]. Qed.

(** ** The walk *)
Lemma values_move_ok vs : (forall v, In v vs -> In (SPoly, v) (root_refs R)) -> forall g l, VInv g l ->
  exists g' new, values_move w POOL csize vs g = Some (map (redirect f SPoly) vs, g') /\ vpost nothing g l g' new /\ (forall v n, In v vs -> means SPoly v = Some n -> nb g' n = true).
Proof.
  induction vs as [|v vs IH]; intros Hin g l Hi; cbn [values_move map].
  - exists g, []. split; [reflexivity|]. split; [apply vpost_refl, Hi|]. intros v n [].
  - destruct (root_move_ok SPoly v g l (Hin v ltac:(left; reflexivity)) Hi) as (g1 & new1 & H1 & P1 & B1). cbn [root_move] in H1. rewrite H1.
    destruct (IH ltac:(intros; apply Hin; right; assumption) g1 (new1 ++ l) (proj1 P1)) as (g2 & new2 & -> & P2 & B2).
    exists g2, (new2 ++ new1). split; [reflexivity|]. split; [apply (vpost_trans fits nothing g l g1 new1 g2 new2); [intros x []|exact P1|exact P2]|].
    intros v' n [<-|Hv'] Hn; [|exact (B2 v' n Hv' Hn)]. unfold GcMove.nb. apply (vs_mono _ _ _ (proj1 (proj2 P2))). exact (B1 n Hn).
Qed.

End Move.

(** ** The walk with its notes *)
Section Walk.
Context {w : width} {POOL calloc csize : Z} {R : roots} {m0 : mem} {top0 last0 : Z}.
Notation k := (Z.of_nat (obytes w)).
Notation none := (OFFSET_NONE w).
Notation geto := (get (obytes w)).
Notation osize := (osize w POOL calloc).
Notation slots := (slots w csize).
Notation live := (live w csize R m0).
Notation said := (said w).
Notation means := (means w).
Notation target := (target w).
Notation sz := (@sz w POOL calloc m0).
Notation redirect := (redirect w).
Hypothesis Hwf : wf w POOL calloc csize R m0 top0 last0.
Context {f : Z -> Z} {top1 last1 : Z}.
Hypothesis Hp : @places_ok w POOL calloc csize R m0 f top1 last1.
Variable gs : gc.
Definition same (g : gc) : Prop := exists m b nt, g = with_note nt (with_m m (with_busy b gs)).
Lemma same_m g m : same g -> same (with_m m g).
Proof. intros (m' & b & nt & ->). exists m, b, nt. reflexivity. Qed.
Lemma same_note g nt : same g -> same (with_note nt g).
Proof. intros (m' & b & nt' & ->). exists m', b, nt. reflexivity. Qed.
Lemma same_mark g o : same g -> same (mark o g).
Proof. intros (m' & b & nt' & ->). eexists m', _, nt'. reflexivity. Qed.
Hypothesis Hmap : forall n, live n -> move_map (snd n) gs = Some (f (snd n)).
Lemma same_map g n : same g -> live n -> move_map (snd n) g = Some (f (snd n)).
Proof. intros (m' & b & nt' & ->) H. rewrite <- (Hmap n H). reflexivity. Qed.
Notation nb := (@nb f).
Notation VInv := (@VInv w POOL calloc csize R m0 f same).
Notation vstep := (@vstep w csize R m0 f).
Notation vpost := (@vpost w POOL calloc csize R m0 f same).
Notation base := (@base w POOL calloc csize R m0 f).
Notation move_addr := (move_addr w POOL csize).
Notation deep := (deep POOL).
Notation root_move := (@root_move w POOL csize).
Notation root_move_ok := (root_move_ok Hwf Hp same same_m same_note same_mark same_map).
Notation values_move_ok := (values_move_ok Hwf Hp same same_m same_note same_mark same_map).
Notation vnotes_end := (vnotes_end Hwf Hp same same_m same_note same_mark same_map).

Lemma walk_move_ok : g_note gs = none -> bytes (g_m gs) ->
  (forall n i, live n -> 0 <= i < sz n -> g_m gs (f (snd n) + i) = m0 (snd n + i)) ->
  exists m b, walk_move w POOL csize R gs = Some (redirect_roots w f R, with_m m (with_busy b gs)) /\ moved_to w POOL calloc csize f R m0 m.
Proof.
  intros Hn Hby Hm. set (g := gs).
  assert (Hi : VInv (clear g) []).
  { constructor; cbn [clear with_busy g_m g_note]; auto.
    - constructor; [exact Hby| |].
      + intros n i H Hi _. apply Hm; assumption.
      + intros o H. f_equal. pose proof (list_sz Hwf o H). pose proof (kpos w). apply get_ext. intros i Hi. rewrite <- !Z.add_assoc. apply (Hm (YList, o)); [exact H|lia].
    - intros n s H _ Hs. destruct (live_slot Hwf n s H Hs). unfold GcSpec.said. cbn [at_ snd]. apply get_ext. intros i Hi. rewrite <- !Z.add_assoc. apply Hm; [exact H|lia].
    - constructor.
    - exists (g_m gs), (fun _ => false), (g_note gs). subst g. destruct gs; reflexivity. }
  destruct (values_move_ok (r_stack R)) with (g := clear g) (l := @nil Z) as (g1 & n1 & H1 & P1 & B1); [|exact Hi|].
  { intros v Hv. unfold root_refs. apply in_or_app. left. apply (in_map (fun u => (SPoly, u))), Hv. }
  assert (Hroot : forall r, In r (map (fun p => (SOff (fst p), snd p)) (pointers R) ++ [(SPoly, r_a R); (SOff YCompile, r_compile R)]) -> In r (root_refs R)).
  { intros r Hr. unfold root_refs. apply in_or_app. right. exact Hr. }
  cbn [pointers map app fst snd] in Hroot.
  assert (Hnext : forall s v g0 l0, VInv g0 l0 -> In (s, v) (root_refs R) -> vpost nothing (clear g) [] g0 l0 ->
    exists g' l', root_move s v g0 = Some (redirect f s v, g') /\ VInv g' l' /\ vpost nothing (clear g) [] g' l' /\ (forall i, g_busy g0 i = true -> g_busy g' i = true) /\ (forall n, means s v = Some n -> nb g' n = true)).
  { intros s v g0 l0 I0 Hin P0. destruct (root_move_ok s v g0 l0 Hin I0) as (g' & new & Hr & P' & B'). exists g', (new ++ l0). split; [exact Hr|]. split; [apply P'|].
    split; [|split; [exact (vs_mono _ _ _ (proj1 (proj2 P')))|exact B']]. apply (vpost_trans same nothing (clear g) [] g0 l0 g' new); [intros x []|exact P0|]. rewrite app_nil_r. exact P'. }
  assert (I1 : VInv g1 n1) by (rewrite <- (app_nil_r n1); apply P1).
  destruct (Hnext (SOff YName) (r_names R) g1 n1 I1 ltac:(apply Hroot; cbn; tauto) P1) as (g2 & l2 & H2 & I2 & P2 & M2 & B2).
  destruct (Hnext (SOff YFrame) (r_globals R) g2 l2 I2 ltac:(apply Hroot; cbn; tauto) P2) as (g3 & l3 & H3 & I3 & P3 & M3 & B3).
  destruct (Hnext (SOff YFrame) (r_frame R) g3 l3 I3 ltac:(apply Hroot; cbn; tauto) P3) as (g4 & l4 & H4 & I4 & P4 & M4 & B4).
  destruct (Hnext (SOff YCode) (r_stash R) g4 l4 I4 ltac:(apply Hroot; cbn; tauto) P4) as (g5 & l5 & H5 & I5 & P5 & M5 & B5).
  destruct (Hnext (SOff YCode) (r_code R) g5 l5 I5 ltac:(apply Hroot; cbn; tauto) P5) as (g6 & l6 & H6 & I6 & P6 & M6 & B6).
  destruct (Hnext (SOff YList) (r_empty R) g6 l6 I6 ltac:(apply Hroot; cbn; tauto) P6) as (g7 & l7 & H7 & I7 & P7 & M7 & B7).
  destruct (Hnext SPoly (r_a R) g7 l7 I7 ltac:(apply Hroot; cbn; tauto) P7) as (g8 & l8 & H8 & I8 & P8 & M8 & B8).
  destruct (Hnext (SOff YCompile) (r_compile R) g8 l8 I8 ltac:(apply Hroot; cbn; tauto) P8) as (g9 & l9 & H9 & I9 & P9 & M9 & B9).
  cbn [root_move] in H2, H3, H4, H5, H6, H7, H8, H9.
  assert (Hbusy : forall n, live n -> nb g9 n = true).
  { intros n H. induction H as [s v n Hin Hmn|n s n' H IH Hs Htg].
    - unfold root_refs in Hin. apply in_app_or in Hin as [Hin|Hin].
      + apply in_map_iff in Hin as (u & He & Hin). injection He as <- <-. unfold GcMove.nb. apply M9, M8, M7, M6, M5, M4, M3, M2. exact (B1 u n Hin Hmn).
      + cbn [pointers map app fst snd] in Hin. unfold GcMove.nb.
        destruct Hin as [He|[He|[He|[He|[He|[He|[He|[He|[]]]]]]]]]; injection He as <- <-.
        * apply M9, M8, M7, M6, M5, M4, M3. exact (B2 n Hmn).
        * apply M9, M8, M7, M6, M5, M4. exact (B3 n Hmn).
        * apply M9, M8, M7, M6, M5. exact (B4 n Hmn).
        * apply M9, M8, M7, M6. exact (B5 n Hmn).
        * apply M9, M8, M7. exact (B6 n Hmn).
        * apply M9, M8. exact (B7 n Hmn).
        * apply M9. exact (B8 n Hmn).
        * exact (B9 n Hmn).
    - apply (vs_fin _ _ _ (proj1 (proj2 P9)) n s H); auto. }
  assert (Hfinal : forall m, base m -> (forall n s, live n -> In s (slots m0 n) -> said m (at_ f n) s = said (g_m g9) (at_ f n) s) -> moved_to w POOL calloc csize f R m0 m).
  { intros m [Hb1 Hb2 Hb3] Hsd. constructor; auto.
    - intros n s i H Hs Hi' Hpl. apply Hb2; auto. destruct (live_facts Hwf n H) as (He & _). rewrite He in Hs. apply some_eq in Hs. subst s. exact Hi'.
    - intros n s H Hs. rewrite (Hsd n s H Hs). apply (vs_fin _ _ _ (proj1 (proj2 P9)) n s H); auto. }
  pose proof I9 as J9. destruct J9 as [Hba Hraw Hown Hch Hnd Hno (m9 & b9 & nt & E9)].
  assert (Hnotes : exists m, notes w POOL (move_addr deep) g9 = Some (with_m m (with_busy b9 gs)) /\ moved_to w POOL calloc csize f R m0 m).
  { unfold notes. cbn [notes_]. rewrite Z.eqb_refl. destruct (Z.eqb_spec (g_note g9) none) as [He|He].
    - exists (g_m g9). split; [|apply Hfinal; auto]. rewrite E9 in *. cbn [with_note g_note g_m with_m] in He |- *. subst nt. rewrite <- Hn. destruct gs; reflexivity.
    - destruct (vnotes_end l9 deep (g_note g9) (with_note none g9)) as (m & Hr & Hm' & Hsd'); auto.
      + exists m9, b9, none. rewrite E9. reflexivity.
      + pose proof (notes_length Hwf 1%nat ltac:(lia) l9 Hnd (vchain_all _ _ _ Hch)). unfold GcModel.deep. lia.
      + exists m. rewrite Hr. split; [|apply Hfinal; auto]. rewrite E9. rewrite <- Hn at 1. destruct gs; reflexivity. }
  destruct Hnotes as (m & Hr & Hmt). exists m, b9. split; [|exact Hmt].
  unfold walk_move. rewrite H1, H2, H3, H4, H5, H6, H7, H8, H9. unfold GcModel.notes in *. rewrite Hr. reflexivity.
Qed.
End Walk.
