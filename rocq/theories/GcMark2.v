(** Marking: the visits. *)
From Coq Require Import ZArith Bool List Lia Sorting.Sorted.
From Verif Require Import Base FloatModel PolyModel PolyProofs CodeModel GcModel GcSpec GcProofs GcChunks GcMark.
Import ListNotations.
Local Open Scope Z_scope.

Section Heap.
Context {w : width} {POOL calloc csize : Z} {R : roots} {m0 : mem} {top0 last0 lastw : Z}.
Notation k := (Z.of_nat (obytes w)).
Notation none := (OFFSET_NONE w).
Notation geto := (get (obytes w)).
Notation osize := (osize w POOL calloc).
Notation slots := (slots w csize).
Notation live := (live w csize R m0).
Notation said := (said w).
Notation means := (means w).
Notation target := (target w).
Notation sz := (@sz w POOL calloc m0).
Notation mark_mem := (@mark_mem w POOL calloc csize R m0).
Notation chain := (@chain w csize R m0).
Hypothesis Hwf : wf w POOL calloc csize R m0 top0 lastw.
Variable NCHUNK : nat.
Variable low : Z.

Definition isb (g : gc) (n : node) : bool := g_busy g (snd n / 4).
Record MInv (g : gc) (l : list Z) : Prop := {
  mi_mem : mark_mem (g_m g);
  mi_chunks : holds NCHUNK top0 low (fun c => exists n, live n /\ isb g n = true /\ c = (snd n, sz n)) (g_chunks g) (g_high g);
  mi_chain : chain (g_m g) (g_note g) l;
  mi_nodup : NoDup l;
  mi_noted : forall x, In x l -> isb g (YList, x) = true;
  mi_busy : forall i, g_busy g i = true -> exists n, live n /\ snd n / 4 = i;
  mi_first : g_first g = O;
  mi_low : g_low g = low;
  mi_tops : g_top g = top0 /\ g_last g = last0 }.
(** what a visit may do *)
Record step (g g' : gc) : Prop := {
  st_mono : forall i, g_busy g i = true -> g_busy g' i = true;
  st_closed : forall n n' s, live n -> isb g n = false -> isb g' n = true -> In s (slots m0 n) -> target m0 n s = Some n' -> isb g' n' = true }.
Lemma step_refl g : step g g.
Proof. constructor; [auto|]. intros. congruence. Qed.
Lemma step_trans g1 g2 g3 : step g1 g2 -> step g2 g3 -> step g1 g3.
Proof.
  intros [M1 C1] [M2 C2]. constructor; [auto|]. intros n n' s Hl H1 H3 Hs Ht. destruct (isb g2 n) eqn:H2.
  - unfold isb. apply M2. exact (C1 n n' s Hl H1 H2 Hs Ht).
  - exact (C2 n n' s Hl H2 H3 Hs Ht).
Qed.

(** how many objects may still be marked *)
Definition places : list Z := evenly (S (Z.to_nat (POOL / 4))) 0 1.
Definition free (g : gc) : nat := length (filter (fun i => negb (g_busy g i)) places).
Lemma free_mono g g' : (forall i, g_busy g i = true -> g_busy g' i = true) -> (free g' <= free g)%nat.
Proof.
  intro H. unfold free. induction places as [|x l IH]; [apply le_n|]. cbn. specialize (H x). destruct (g_busy g x), (g_busy g' x); cbn; lia.
Qed.
Lemma free_less g g' i : (forall i, g_busy g i = true -> g_busy g' i = true) -> In i places -> g_busy g i = false -> g_busy g' i = true -> (free g' < free g)%nat.
Proof.
  intros H. unfold free. induction places as [|x l IH]; [contradiction|]. intros [->|Hin] H1 H2; cbn.
  - rewrite H1, H2. cbn. assert (length (filter (fun i => negb (g_busy g' i)) l) <= length (filter (fun i => negb (g_busy g i)) l))%nat; [|lia].
    clear -H. induction l as [|x l IH]; [apply le_n|]. cbn. specialize (H x). destruct (g_busy g x), (g_busy g' x); cbn; lia.
  - specialize (IH Hin H1 H2). specialize (H x). destruct (g_busy g x), (g_busy g' x); cbn; lia.
Qed.
Lemma free_bound g : (free g <= S (Z.to_nat (POOL / 4)))%nat.
Proof.
  unfold free. assert (Hle : (length (filter (fun i => negb (g_busy g i)) places) <= length places)%nat).
  { induction places as [|x l IH]; [apply le_n|]. cbn. destruct (negb _); cbn; lia. }
  unfold places at 2, evenly in Hle. rewrite map_length, seq_length in Hle. exact Hle.
Qed.
Lemma live_place n : live n -> In (snd n / 4) places.
Proof.
  intro H. pose proof (live_range Hwf n H) as Hr. unfold places. apply in_evenly. exists (snd n / 4). split; [|lia].
  pose proof (Z.div_pos (snd n) 4 ltac:(lia) ltac:(lia)). pose proof (Z.div_le_mono (snd n) POOL 4 ltac:(lia) ltac:(lia)). lia.
Qed.

(** ** Marking one object *)
Hypothesis HN : (0 < NCHUNK)%nat.
Lemma blob_ok n g l : live n -> MInv g l ->
  exists g', mark_blob POOL NCHUNK (snd n) (sz n) g = Some (isb g n, g') /\ MInv g' l /\
    (forall i, g_busy g' i = true <-> g_busy g i = true \/ i = snd n / 4) /\ g_m g' = g_m g /\ isb g' n = true.
Proof.
  intros H Hi. destruct (live_facts Hwf n H) as (_ & Hp & _ & Hlo & _ & Ht). pose proof (live_range Hwf n H) as Hr.
  unfold mark_blob, busy. destruct (Z.leb_spec 0 (snd n)); [|lia]. destruct (Z.ltb_spec (snd n) POOL); [|lia]. cbn [andb]. fold (isb g n).
  destruct (isb g n) eqn:Hb.
  - exists g. split; [reflexivity|]. split; [exact Hi|]. split; [|split; [reflexivity|exact Hb]]. intro i. split; [auto|]. intros [Hx| ->]; auto.
  - destruct Hi as [Hm Hc Hch Hnd Hno Hbu Hf Hl Htop].
    destruct (add_chunk NCHUNK top0 low HN _ _ _ (snd n) (sz n) (mark (snd n) g) Hc) as (cs & high & -> & Hh); auto.
    + intros c (n' & Hn' & Hb' & ->). cbn [fst snd]. destruct (live_apart Hwf n n' H Hn') as [<-|Ha]; [congruence|]. lia.
    + intros c (n' & Hn' & Hb' & ->). cbn [fst snd]. destruct (live_facts Hwf n' Hn') as (_ & Hp' & _ & _ & _ & Ht'). lia.
    + eexists. split; [reflexivity|].
      assert (Hbusy : forall i, g_busy (with_chunks cs high (mark (snd n) g)) i = true <-> g_busy g i = true \/ i = snd n / 4).
      { intro i. cbn. destruct (Z.eqb_spec i (snd n / 4)) as [->|Hne]; [tauto|]. intuition lia. }
      split; [|split; [exact Hbusy|split; [reflexivity|]]].
      * constructor; cbn [g_m g_chunks g_high g_note g_first g_low g_top g_last with_chunks mark with_busy]; auto.
        -- eapply holds_iff; [|exact Hh]. intro c. split.
           ++ intros [->|(n' & Hn' & Hb' & ->)]; [exists n|exists n']; (split; [assumption|]); (split; [|reflexivity]); unfold isb; apply Hbusy; auto.
           ++ intros (n' & Hn' & Hb' & ->). unfold isb in Hb'. apply Hbusy in Hb' as [Hb'|He]; [right; exists n'; auto|].
              left. rewrite (live_index Hwf n n' H Hn' (eq_sym He)). reflexivity.
        -- intros x Hx. unfold isb. apply Hbusy. left. exact (Hno x Hx).
        -- intros i Hx. apply Hbusy in Hx as [Hx| ->]; [exact (Hbu i Hx)|]. exists n. auto.
      * unfold isb. apply Hbusy. right. reflexivity.
Qed.
Lemma block_ok n g l : live n -> MInv g l ->
  exists g', mark_block w POOL NCHUNK calloc (fst n) (snd n) g = Some (isb g n, g') /\ MInv g' l /\
    (forall i, g_busy g' i = true <-> g_busy g i = true \/ i = snd n / 4) /\ g_m g' = g_m g /\ isb g' n = true.
Proof.
  intros H Hi. destruct (mark_mem_size Hwf (g_m g) n (mi_mem _ _ Hi) H) as (s & Hs & Hr). unfold mark_block. rewrite Hs, Hr. apply blob_ok; assumption.
Qed.

(** ** Visits *)
Definition post (g : gc) (l : list Z) (g' : gc) (new : list Z) : Prop :=
  MInv g' (new ++ l) /\ step g g' /\ (forall x, In x new -> isb g (YList, x) = false).
Lemma post_refl g l : MInv g l -> post g l g [].
Proof. intro H. split; [exact H|]. split; [apply step_refl|]. contradiction. Qed.
Lemma post_trans g l g1 new1 g2 new2 : post g l g1 new1 -> post g1 (new1 ++ l) g2 new2 -> post g l g2 (new2 ++ new1).
Proof.
  intros (I1 & S1 & N1) (I2 & S2 & N2). split; [rewrite <- app_assoc; exact I2|]. split; [exact (step_trans _ _ _ S1 S2)|].
  intros x Hx. apply in_app_or in Hx as [Hx|Hx]; [|exact (N1 x Hx)].
  specialize (N2 x Hx). destruct (isb g (YList, x)) eqn:He; [|reflexivity]. unfold isb in *. rewrite (st_mono _ _ S1 _ He) in N2. discriminate.
Qed.

Definition visits (fuel : nat) (visit : ty -> Z -> gc -> option (bool * gc)) : Prop :=
  forall n g l, live n -> visited n -> MInv g l -> (free g < fuel)%nat ->
  exists g' new, visit (fst n) (snd n) g = Some (isb g n, g') /\ post g l g' new /\ isb g' n = true /\ (fst n = YList -> ~ In (snd n) new).

Section Visit.
Variable fuel : nat.
Variable visit : ty -> Z -> gc -> option (bool * gc).
Hypothesis Hv : visits fuel visit.

Definition ref_mark (s : skind) (v : Z) (g : gc) : option gc :=
  match s with SPoly => poly_mark w visit v g | SOff t => mark_offset w visit t v g end.
Lemma ref_ok s v g l : (forall n, means s v = Some n -> live n /\ visited n) -> MInv g l -> (free g < fuel)%nat ->
  exists g' new, ref_mark s v g = Some g' /\ post g l g' new /\ (forall n, means s v = Some n -> isb g' n = true).
Proof.
  intros Hn Hi Hf. unfold ref_mark, means, GcSpec.means in *. destruct s as [|t].
  - unfold poly_mark. destruct (word_ref w v) as [[t o]|]; [|exists g, []; split; [reflexivity|]; split; [apply post_refl, Hi|]; discriminate].
    destruct (Hn _ eq_refl) as [Hl Hvis]. destruct (Hv (t, o) g l Hl Hvis Hi Hf) as (g' & new & Hr & Hp & Hb & Hni). cbn [fst snd] in Hr. rewrite Hr.
    assert (Hdone : exists g1 new1, Some g' = Some g1 /\ post g l g1 new1 /\ (forall n, Some (t, o) = Some n -> isb g1 n = true)).
    { exists g', new. split; [reflexivity|]. split; [exact Hp|]. intros n He. injection He as <-. exact Hb. }
    destruct t; try exact Hdone. destruct (isb g (YList, o)) eqn:Hbo; [exact Hdone|]. clear Hdone.
    destruct Hp as (HI & HS & HNew). destruct HI as [Hm Hc Hch Hnd Hno Hbu Hfi Hlo Htop].
    assert (Hnot : ~ In o (new ++ l)).
    { intro Hin. apply in_app_or in Hin as [Hin|Hin].
      - exact (Hni eq_refl Hin).
      - pose proof (mi_noted _ _ Hi o Hin). congruence. }
    exists (note_list w o o g'), (o :: new). split; [reflexivity|]. split; [|intros n He; injection He as <-; exact Hb].
    split; [|split].
    + destruct (chain_head Hwf _ _ _ Hch) as [H1 H2].
      constructor; cbn [note_list g_m g_chunks g_high g_note g_first g_low g_top g_last with_note with_m g_busy app]; auto.
      * apply (set_note_mem Hwf); assumption.
      * apply (chain_cons Hwf); auto. apply Hm.
      * constructor; assumption.
      * intros x [<-|Hx]; [exact Hb|exact (Hno x Hx)].
    + destruct HS as [HM HC]. constructor; [exact HM|exact HC].
    + intros x [<-|Hx]; [exact Hbo|exact (HNew x Hx)].
  - unfold mark_offset. destruct (v =? none); [exists g, []; split; [reflexivity|]; split; [apply post_refl, Hi|]; discriminate|].
    destruct (Hn _ eq_refl) as [Hl Hvis]. destruct (Hv (t, v) g l Hl Hvis Hi Hf) as (g' & new & Hr & Hp & Hb & _). cbn [fst snd] in Hr. rewrite Hr.
    exists g', new. split; [reflexivity|]. split; [exact Hp|]. intros n He. injection He as <-. exact Hb.
Qed.

(** the references of an object *)
Definition slot_mark (n : node) (s : Z * skind) (g : gc) : option gc := ref_mark (snd s) (get (slen w (snd s)) (g_m g) (snd n + fst s)) g.
Lemma slot_ok n s g l : live n -> In s (slots m0 n) -> (forall n', target m0 n s = Some n' -> visited n') -> MInv g l -> (free g < fuel)%nat ->
  exists g' new, slot_mark n s g = Some g' /\ post g l g' new /\ (forall n', target m0 n s = Some n' -> isb g' n' = true).
Proof.
  intros H Hs Hvis Hi Hf. unfold slot_mark.
  destruct (mark_mem_obj Hwf (g_m g) n (mi_mem _ _ Hi) H) as (_ & _ & He). fold (said (g_m g) n s). rewrite (He s Hs).
  apply ref_ok; [|exact Hi|exact Hf]. intros n' Hm. split; [exact (live_target n s n' H Hs Hm)|exact (Hvis n' Hm)].
Qed.
Lemma slots_ok n ss : live n -> (forall s, In s ss -> In s (slots m0 n) /\ (forall n', target m0 n s = Some n' -> visited n')) ->
  forall g l, MInv g l -> (free g < fuel)%nat ->
  exists g' new, iter (slot_mark n) ss g = Some g' /\ post g l g' new /\ (forall s n', In s ss -> target m0 n s = Some n' -> isb g' n' = true).
Proof.
  intros H. induction ss as [|s ss IH]; intros Hss g l Hi Hf; cbn [iter].
  - exists g, []. split; [reflexivity|]. split; [apply post_refl, Hi|]. contradiction.
  - destruct (Hss s ltac:(left; reflexivity)) as [Hin Hvis]. destruct (slot_ok n s g l H Hin Hvis Hi Hf) as (g1 & new1 & -> & P1 & B1).
    destruct (IH ltac:(intros; apply Hss; right; assumption) g1 (new1 ++ l)) as (g2 & new2 & -> & P2 & B2).
    { apply P1. } { pose proof (free_mono g g1 (st_mono _ _ (proj1 (proj2 P1)))). lia. }
    exists g2, (new2 ++ new1). split; [reflexivity|]. split; [exact (post_trans _ _ _ _ _ _ P1 P2)|].
    intros s' n' [<-|Hs'] Ht; [|exact (B2 s' n' Hs' Ht)]. unfold isb. apply (st_mono _ _ (proj1 (proj2 P2))). exact (B1 n' Ht).
Qed.
End Visit.
End Heap.
