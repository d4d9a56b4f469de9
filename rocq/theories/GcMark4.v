(** Marking: the whole walk. *)
From Coq Require Import ZArith Bool List Lia Sorting.Sorted.
From Verif Require Import Base FloatModel PolyModel PolyProofs CodeModel GcModel GcSpec GcProofs GcChunks GcMark GcMark2 GcMark3.
Import ListNotations.
Local Open Scope Z_scope.

Section Heap.
Context {w : width} {POOL calloc csize : Z} {R : roots} {m0 : mem} {top0 last0 lastw : Z}.
Notation k := (Z.of_nat (obytes w)).
Notation none := (OFFSET_NONE w).
Notation geto := (get (obytes w)).
Notation osize := (osize w POOL calloc).
Notation slots := (slots w csize).
Notation live := (live w csize R m0).
Notation said := (said w).
Notation means := (means w).
Notation target := (target w).
Notation sz := (@sz w POOL calloc m0).
Notation mark_mem := (@mark_mem w POOL calloc csize R m0).
Notation chain := (@chain w csize R m0).
Hypothesis Hwf : wf w POOL calloc csize R m0 top0 lastw.
Variable NCHUNK : nat.
Variable low : Z.
Hypothesis HN : (0 < NCHUNK)%nat.
Notation MInv := (@MInv w POOL calloc csize R m0 top0 last0 NCHUNK low).
Notation step := (@step w csize R m0).
Notation post := (@post w POOL calloc csize R m0 top0 last0 NCHUNK low).
Notation free := (@free POOL).
Notation visits := (@visits w POOL calloc csize R m0 top0 last0 NCHUNK low).
Notation mark_addr := (mark_addr w POOL NCHUNK calloc csize).
Notation deep := (deep POOL).

Lemma mark_addr_ok fuel : visits fuel (mark_addr fuel).
Proof.
  induction fuel as [|fuel IH]; intros n g l H Hvis Hi Hf; [lia|]. cbn [GcModel.mark_addr].
  destruct (block_ok Hwf NCHUNK low HN n g l H Hi) as (g1 & -> & I1 & B1 & _ & D1). destruct (isb g n) eqn:Hb.
  - exists g1, []. split; [reflexivity|]. split; [|split; [exact D1|intros _ []]]. split; [exact I1|]. split; [|intros x []].
    constructor; [intros i Hx; apply B1; left; exact Hx|]. intros x n' s Hx H1 H2 _ _. unfold isb in *. apply B1 in H2 as [H2|H2]; [congruence|].
    rewrite <- H2 in Hb. congruence.
  - assert (F1 : (free g1 < fuel)%nat).
    { pose proof (free_less (POOL := POOL) g g1 (snd n / 4) ltac:(intros i Hx; apply B1; left; exact Hx) (live_place Hwf n H) Hb D1). lia. }
    destruct (body_ok Hwf NCHUNK low HN fuel _ IH n g1 l H Hvis I1 D1 F1) as (g2 & new & -> & P2 & T2).
    exists g2, new. split; [reflexivity|]. split; [exact (post_mark Hwf NCHUNK low n g g1 g2 l new H B1 P2 T2)|].
    destruct P2 as (I2 & S2 & N2). split; [unfold isb; apply (st_mono _ _ S2); exact D1|].
    intros Ht Hin. specialize (N2 _ Hin). destruct n as [t o]. unfold isb in *. cbn [snd] in *. congruence.
Qed.

(** ** The roots *)
Definition root_mark (r : skind * Z) (g : gc) : option gc := @ref_mark w (mark_addr deep) (fst r) (snd r) g.
Lemma root_visited s v n : In (s, v) (root_refs R) -> means s v = Some n -> visited n.
Proof.
  intros Hin Hm. destruct s as [|t]; [exact (poly_visited _ _ Hm)|]. unfold GcSpec.means in Hm. destruct (v =? none); [discriminate|]. injection Hm as <-.
  unfold root_refs, pointers in Hin. apply in_app_or in Hin as [Hin|Hin]; [apply in_map_iff in Hin as (? & He & _); discriminate|].
  unfold visited. cbn [fst]. cbn in Hin. repeat (destruct Hin as [Hin|Hin]; [try discriminate; injection Hin as <- _; exact Logic.I|]). contradiction.
Qed.
Lemma roots_ok rs : (forall r, In r rs -> In r (root_refs R)) -> forall g l, MInv g l ->
  exists g' new, iter root_mark rs g = Some g' /\ post g l g' new /\ (forall s v n, In (s, v) rs -> means s v = Some n -> isb g' n = true).
Proof.
  induction rs as [|r rs IH]; intros Hr g l Hi; cbn [iter].
  - exists g, []. split; [reflexivity|]. split; [apply post_refl, Hi|]. contradiction.
  - destruct r as [s v]. pose proof (Hr (s, v) ltac:(left; reflexivity)) as Hin.
    destruct (ref_ok Hwf NCHUNK low deep (mark_addr deep) (mark_addr_ok deep) s v g l) as (g1 & new1 & H1 & P1 & B1).
    { intros n Hn. split; [exact (live_root _ _ _ _ s v n Hin Hn)|exact (root_visited s v n Hin Hn)]. }
    { exact Hi. } { pose proof (free_bound (POOL := POOL) g). unfold GcModel.deep. lia. }
    unfold root_mark at 1. cbn [fst snd]. rewrite H1.
    destruct (IH ltac:(intros; apply Hr; right; assumption) g1 (new1 ++ l) (proj1 P1)) as (g2 & new2 & -> & P2 & B2).
    exists g2, (new2 ++ new1). split; [reflexivity|]. split; [exact (post_trans NCHUNK low _ _ _ _ _ _ P1 P2)|].
    intros s' v' n [He|Hs'] Hn; [|exact (B2 s' v' n Hs' Hn)]. injection He as <- <-. unfold isb. apply (st_mono _ _ (proj1 (proj2 P2))). exact (B1 n Hn).
Qed.

Lemma values_iter l : forall g, values_mark w POOL NCHUNK calloc csize l g = iter root_mark (map (fun u => (SPoly, u)) l) g.
Proof. induction l as [|u l IH]; intro g; [reflexivity|]. cbn [values_mark map iter]. unfold root_mark at 1. cbn [fst snd ref_mark]. destruct (poly_mark _ _ _ g); [apply IH|reflexivity]. Qed.
Lemma pointers_iter l : forall g, pointers_mark w POOL NCHUNK calloc csize l g = iter root_mark (map (fun p => (SOff (fst p), snd p)) l) g.
Proof. induction l as [|[t o] l IH]; intro g; [reflexivity|]. cbn [pointers_mark map iter]. unfold root_mark at 1. cbn [fst snd ref_mark]. destruct (mark_offset _ _ _ _ g); [apply IH|reflexivity]. Qed.

(** ** The notes *)
Lemma addr_busy n fuel g : live n -> mark_mem (g_m g) -> isb g n = true -> mark_addr (S fuel) (fst n) (snd n) g = Some (true, g).
Proof.
  intros H Hm Hb. cbn [GcModel.mark_addr]. unfold mark_block. destruct (mark_mem_size Hwf (g_m g) n Hm H) as (s & -> & ->).
  unfold mark_blob, busy. pose proof (live_range Hwf n H). destruct (Z.leb_spec 0 (snd n)); [|lia]. destruct (Z.ltb_spec (snd n) POOL); [|lia]. cbn [andb].
  unfold isb in Hb. rewrite Hb. reflexivity.
Qed.
Definition note_visit (t : ty) (o : Z) (g : gc) : option (bool * Z * gc) := let? (r, g) := mark_addr deep t o g in Some (r, o, g).
Lemma notes_end l : forall fuel h g, chain (g_m g) h l -> NoDup l -> (forall x, In x l -> isb g (YList, x) = true) -> mark_mem (g_m g) -> g_note g = none -> (length l <= fuel)%nat ->
  exists m, notes_ w note_visit fuel h g = Some (with_m m g) /\ mark_mem m.
Proof.
  induction l as [|x l IH]; intros fuel h g Hc Hd Hb Hm Hn Hf.
  - cbn in Hc. subst h. exists (g_m g). split; [|exact Hm]. destruct fuel; cbn [notes_]; rewrite Z.eqb_refl, Hn, Z.eqb_refl; destruct g; reflexivity.
  - cbn [GcMark.chain] in Hc. destruct Hc as (-> & Hx & Hc). destruct fuel as [|fuel]; [cbn in Hf; lia|]. cbn [notes_].
    destruct (Z.eqb_spec x none) as [He|]; [destruct (live_none Hwf (YList, x) Hx He)|].
    unfold note_visit at 1. assert (Ha : mark_addr deep YList x g = Some (true, g)) by (apply (addr_busy (YList, x)); [exact Hx|exact Hm|apply Hb; left; reflexivity]).
    rewrite Ha. inversion Hd as [|? ? Hnx Hd']; subst. set (g1 := with_m (set_note_next w x 0 (g_m g)) g).
    assert (Hz : 0 <= 0 <= none) by (pose proof (none_word Hwf); lia).
    destruct (IH fuel (note_next w (g_m g) x) g1) as (m & -> & Hmm).
    + cbn [g1 with_m g_m]. apply (chain_out Hwf); [exact Hx|exact Hnx|exact Hc].
    + exact Hd'.
    + intros y Hy. apply Hb. right. exact Hy.
    + cbn [g1 with_m g_m]. apply (set_note_mem Hwf); auto.
    + exact Hn.
    + cbn in Hf. lia.
    + exists m. split; [reflexivity|exact Hmm].
Qed.
Lemma notes_length l : NoDup l -> (forall x, In x l -> live (YList, x)) -> (length l <= Z.to_nat (POOL / 4))%nat.
Proof.
  intros Hd Hl. assert (Hx : (length (map (fun x : Z => (x / 4)%Z) l) <= length (evenly (Z.to_nat (POOL / 4)) 0%Z 1%Z))%nat).
  { apply NoDup_incl_length.
    - clear -Hd Hl Hwf. induction Hd as [|a l Ha Hd IH]; cbn; constructor; [|apply IH; intros; apply Hl; right; assumption].
      rewrite in_map_iff. intros (b & Hb & Hin). apply Ha.
      assert (He : (YList, b) = (YList, a)) by (apply (live_index Hwf); [apply Hl; right; exact Hin|apply Hl; left; reflexivity|exact Hb]).
      injection He as <-. exact Hin.
    - intros i Hi. apply in_map_iff in Hi as (x & <- & Hin). pose proof (Hl x Hin) as H. destruct (live_facts Hwf _ H) as (_ & Hp & Hsz & Hlo & Hal & Ht).
      destruct (pool_facts Hwf) as (Hpool & _). cbn [snd] in *. apply in_evenly. exists (x / 4). split; [|lia].
      split; [apply Z.div_pos; lia|]. assert (x / 4 < POOL / 4); [|lia].
      pose proof (list_sz Hwf x H) as Hls. pose proof (kpos w). rewrite Hls in Ht.
      assert ((x + 4) / 4 <= POOL / 4) by (apply Z.div_le_mono; lia). replace (x + 4) with (x + 1 * 4) in * by lia. rewrite Z.div_add in * by lia. lia. }
  rewrite map_length in Hx. unfold evenly in Hx. rewrite map_length, seq_length in Hx. exact Hx.
Qed.
Lemma chain_all m h l : chain m h l -> forall x, In x l -> live (YList, x).
Proof. revert h. induction l as [|y l IH]; intros h Hc x Hx; [contradiction|]. destruct Hc as (_ & Hy & Hc). destruct Hx as [<-|Hx]; [exact Hy|exact (IH _ Hc x Hx)]. Qed.

(** ** The walk *)
Record marked (g : gc) : Prop := {
  mk_mem : mark_mem (g_m g);
  mk_chunks : holds NCHUNK top0 low (fun c => exists n, live n /\ c = (snd n, sz n)) (g_chunks g) (g_high g);
  mk_note : g_note g = none;
  mk_busy : forall i, g_busy g i = true <-> exists n, live n /\ snd n / 4 = i;
  mk_first : g_first g = O;
  mk_low : g_low g = low;
  mk_tops : g_top g = top0 /\ g_last g = last0 }.

Lemma walk_ok g : g_m g = m0 -> g_note g = none -> g_low g = low -> g_top g = top0 -> g_last g = last0 ->
  exists g', walk_mark w POOL NCHUNK calloc csize R (reset_chunks g) = Some g' /\ marked g'.
Proof.
  intros Hm Hn Hl Ht Hla.
  assert (Hi : MInv (clear (reset_chunks g)) []).
  { constructor; cbn [clear reset_chunks with_busy with_window with_chunks g_m g_busy g_chunks g_first g_low g_high g_note g_top g_last]; auto.
    - rewrite Hm. split; [exact (wf_bytes _ _ _ _ _ _ _ _ Hwf)|]. split; auto.
    - constructor.
      + split; constructor.
      + contradiction.
      + intros c (n & _ & Hb & _). discriminate.
      + apply Nat.le_0_l.
      + intros _. exact Ht.
      + cbn. intro He. lia.
    - constructor.
    - discriminate. }
  destruct (roots_ok (root_refs R) ltac:(auto) _ [] Hi) as (g1 & new & H1 & (I1 & S1 & _) & B1). rewrite app_nil_r in I1.
  assert (Hwalk : walk_mark w POOL NCHUNK calloc csize R (reset_chunks g) = notes w POOL note_visit g1).
  { unfold walk_mark. rewrite values_iter. unfold root_refs in H1. rewrite iter_app in H1.
    destruct (iter root_mark (map (fun u => (SPoly, u)) (r_stack R)) (clear (reset_chunks g))) as [ga|]; [|discriminate].
    rewrite iter_app in H1. rewrite pointers_iter. destruct (iter root_mark _ ga) as [gb|]; [|discriminate].
    change [(SPoly, r_a R); (SOff YCompile, r_compile R)] with ([(SPoly, r_a R)] ++ [(SOff YCompile, r_compile R)]) in H1. rewrite iter_app in H1.
    rewrite values_iter. cbn [map]. destruct (iter root_mark [(SPoly, r_a R)] gb) as [gc1|]; [|discriminate].
    rewrite pointers_iter. cbn [map fst snd]. rewrite H1. reflexivity. }
  assert (Hbusy : forall n, live n -> isb g1 n = true).
  { intros n H. induction H as [s v n Hin Hmn|n s n' H IH Hs Htg]; [exact (B1 s v n Hin Hmn)|].
    apply (st_closed _ _ S1 n n' s H); auto. }
  assert (Hdone : forall m, mark_mem m -> marked (with_m m (with_note none g1))).
  { intros m Hmm. destruct I1 as [_ Hc _ _ _ Hbu Hf Hlo Htop].
    constructor; cbn [with_m with_note g_m g_busy g_chunks g_first g_low g_high g_note g_top g_last]; auto.
    - eapply holds_iff; [|exact Hc]. intro c. split; [intros (n & Hx & _ & ->)|intros (n & Hx & ->)]; exists n; auto.
    - intro i. split; [apply Hbu|]. intros (n & Hx & <-). exact (Hbusy n Hx). }
  pose proof (mi_chain _ _ _ _ I1) as Hch. pose proof (mi_mem _ _ _ _ I1) as Hmm.
  rewrite Hwalk. unfold notes. cbn [notes_]. rewrite Z.eqb_refl. destruct (Z.eqb_spec (g_note g1) none) as [He|He].
  - exists g1. split; [reflexivity|]. replace g1 with (with_m (g_m g1) (with_note none g1)); [exact (Hdone (g_m g1) Hmm)|]. rewrite <- He. destruct g1; reflexivity.
  - destruct (notes_end new deep (g_note g1) (with_note none g1)) as (m & -> & Hm'); auto.
    + apply I1.
    + intros x Hx. exact (mi_noted _ _ _ _ I1 x Hx).
    + pose proof (notes_length new (mi_nodup _ _ _ _ I1) (chain_all _ _ _ Hch)). unfold GcModel.deep. lia.
    + exists (with_m m (with_note none g1)). split; [reflexivity|exact (Hdone m Hm')].
Qed.
End Heap.
