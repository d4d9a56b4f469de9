(** Redirecting the references: the visits. *)
From Coq Require Import ZArith Bool List Lia Sorting.Sorted.
From Verif Require Import Base FloatModel PolyModel PolyProofs CodeModel GcModel GcSpec GcProofs GcChunks GcMark GcMark2 GcMark3 GcMoved GcMove.
Import ListNotations.
Local Open Scope Z_scope.

Lemma code_iter_rest w (P : list Z -> gc -> Prop) f m0 c c0 fuel : forall ip size g,
  (forall L g, P L g -> forall x, ip <= x < size -> (forall a, In a (strings_in w fuel m0 c0 ip size) -> ~ (a <= x < a + Z.of_nat (obytes w))) ->
     g_m g (c + x) = m0 (c0 + x)) ->
  (forall a L g g', P (a :: L) g -> f (c + a) g = Some g' -> P L g') ->
  P (strings_in w fuel m0 c0 ip size) g -> size - ip <= Z.of_nat fuel -> code_each w f fuel c ip size g = iter (fun a => f (c + a)) (strings_in w fuel m0 c0 ip size) g.
Proof.
  induction fuel as [|fuel IH]; intros ip size g Hm Hf Hg Hs; cbn [code_each strings_in]; destruct (Z.ltb_spec ip size) as [Hlt|]; try reflexivity; [lia|].
  assert (H0 : g_m g (c + ip) = m0 (c0 + ip)).
  { apply (Hm _ _ Hg); [lia|]. intros a Ha. apply strings_above in Ha. lia. }
  rewrite H0. cbn [strings_in] in Hm, Hg. destruct (Z.ltb_spec ip size); [|lia]. set (op := byte_op (m0 (c0 + ip))) in *.
  assert (Hnext : forall g', P (strings_in w fuel m0 c0 (ip + 1 + Z.of_nat (operand_size w op)) size) g' -> code_each w f fuel c (ip + 1 + Z.of_nat (operand_size w op)) size g' =
    iter (fun a => f (c + a)) (strings_in w fuel m0 c0 (ip + 1 + Z.of_nat (operand_size w op)) size) g').
  { intros g' Hg'. apply IH; [|exact Hf|exact Hg'|lia].
    intros L g1 Hg1 x Hx Hn. apply (Hm L g1 Hg1); [lia|]. intros a Ha. apply in_app_or in Ha as [Ha|Ha]; [|exact (Hn a Ha)].
    destruct (Z.eqb_spec op (op_code KString)) as [He|]; [|contradiction]. destruct Ha as [<-|[]]. rewrite He, string_operand in Hx. lia. }
  destruct (op =? op_code KString) eqn:He; cbn [app iter] in *.
  - replace (c + ip + 1) with (c + (ip + 1)) by lia. destruct (f (c + (ip + 1)) g) as [g'|] eqn:Hfa; [|reflexivity].
    apply Hnext. exact (Hf _ _ _ _ Hg Hfa).
  - apply Hnext. exact Hg.
Qed.

Section Move.
Context {w : width} {POOL calloc csize : Z} {R : roots} {m0 : mem} {top0 last0 : Z}.
Notation k := (Z.of_nat (obytes w)).
Notation none := (OFFSET_NONE w).
Notation geto := (get (obytes w)).
Notation osize := (osize w POOL calloc).
Notation slots := (slots w csize).
Notation live := (live w csize R m0).
Notation said := (said w).
Notation means := (means w).
Notation target := (target w).
Notation sz := (@sz w POOL calloc m0).
Notation redirect := (redirect w).
Hypothesis Hwf : wf w POOL calloc csize R m0 top0 last0.
Context {f : Z -> Z} {top1 last1 : Z}.
Hypothesis Hp : @places_ok w POOL calloc csize R m0 f top1 last1.
Variable fits : gc -> Prop.
Hypothesis fits_m : forall g m, fits g -> fits (with_m m g).
Hypothesis fits_note : forall g n, fits g -> fits (with_note n g).
Hypothesis fits_mark : forall g o, fits g -> fits (mark o g).
Hypothesis fits_map : forall g n, fits g -> live n -> move_map (snd n) g = Some (f (snd n)).
Notation nb := (@nb f).
Notation VInv := (@VInv w POOL calloc csize R m0 f fits).
Notation vstep := (@vstep w csize R m0 f).
Notation base := (@base w POOL calloc csize R m0 f).
Notation free := (@free POOL).
Notation disj := (@disj w).

Lemma new_place n : live n -> In (f (snd n) / 4) (@places POOL).
Proof.
  intro H. destruct (new_small Hwf f top1 last1 Hp n H) as (Hr & _). unfold places. apply in_evenly. exists (f (snd n) / 4). split; [|lia].
  pose proof (Z.div_pos (f (snd n)) 4 ltac:(lia) ltac:(lia)). pose proof (Z.div_le_mono (f (snd n)) POOL 4 ltac:(lia) ltac:(lia)). lia.
Qed.
Definition vpost (X : node -> Prop) (g : gc) (l : list Z) (g' : gc) (new : list Z) : Prop :=
  VInv g' (new ++ l) /\ vstep X g g' /\ (forall x, In x new -> nb g (YList, x) = false).
Lemma vpost_refl X g l : VInv g l -> vpost X g l g [].
Proof. intro H. split; [exact H|]. split; [apply vstep_refl|]. intros x []. Qed.
Lemma vpost_trans (X : node -> Prop) g l g1 new1 g2 new2 : (forall n, X n -> nb g n = true) -> vpost X g l g1 new1 -> vpost X g1 (new1 ++ l) g2 new2 -> vpost X g l g2 (new2 ++ new1).
Proof.
  intros HX (I1 & S1 & N1) (I2 & S2 & N2). split; [rewrite <- app_assoc; exact I2|]. split; [exact (vstep_trans X _ _ _ HX S1 S2)|].
  intros x Hx. apply in_app_or in Hx as [Hx|Hx]; [|exact (N1 x Hx)].
  specialize (N2 x Hx). destruct (nb g (YList, x)) eqn:He; [|reflexivity]. unfold GcMove.nb in *. rewrite (vs_mono _ _ _ S1 _ He) in N2. discriminate.
Qed.
Lemma vpost_weaken (X Y : node -> Prop) g l g' new : (forall n, X n -> Y n) -> vpost X g l g' new -> vpost Y g l g' new.
Proof. intros H (I1 & S1 & N1). split; [exact I1|]. split; [exact (vstep_weaken X Y g g' H S1)|exact N1]. Qed.

Lemma said_range n s : live n -> In s (slots m0 n) -> in_range (w := w) (snd s) (said m0 n s).
Proof.
  intros H Hs. unfold in_range. pose proof (get_range (slen w (snd s)) m0 (snd n + fst s) (wf_bytes _ _ _ _ _ _ _ _ Hwf)) as Hr.
  destruct (snd s) as [|t] eqn:He; [exact (wf_words _ _ _ _ _ _ _ _ Hwf n s H Hs He)|]. unfold GcSpec.said. rewrite He. cbn [slen] in *. unfold offset. rewrite <- kbits. exact Hr.
Qed.
Lemma range_put s v : in_range (w := w) s v -> 0 <= v < 256 ^ Z.of_nat (slen w s).
Proof. destruct s as [|t]; cbn [in_range slen]; [intros [H _]; exact H|]. unfold offset. rewrite <- kbits. auto. Qed.

(** marking an object at its new place *)
Lemma vmark_ok n g l : live n -> VInv g l ->
  (forall n' s a b, live n' -> In s (slots m0 n') -> target m0 n' s = Some n -> fst n = YData a b -> nb g n' = true) ->
  VInv (mark (f (snd n)) g) l /\ (forall i, g_busy (mark (f (snd n)) g) i = true <-> g_busy g i = true \/ i = f (snd n) / 4).
Proof.
  intros H [Hba Hraw Hown Hch Hnd Hno Hfi] Ho.
  assert (Hb : forall i, g_busy (mark (f (snd n)) g) i = true <-> g_busy g i = true \/ i = f (snd n) / 4).
  { intro i. cbn. destruct (Z.eqb_spec i (f (snd n) / 4)) as [->|]; [tauto|]. intuition lia. }
  split; [|exact Hb].
  assert (Hfalse : forall x, nb (mark (f (snd n)) g) x = false -> nb g x = false).
  { intros x Hx. destruct (nb g x) eqn:He; [|reflexivity]. unfold GcMove.nb in *. rewrite (proj2 (Hb _) (or_introl He)) in Hx. discriminate. }
  constructor; cbn [mark with_busy g_m g_note]; auto.
  - intros n' s d a b H' Hs Ht Hd Hbd. unfold GcMove.nb in *. apply Hb. left. apply Hb in Hbd as [Hbd|He].
    + exact (Hown n' s d a b H' Hs Ht Hd Hbd).
    + assert (d = n) as -> by (apply (new_index Hwf Hp); [exact (live_target n' s d H' Hs Ht)|exact H|exact He]). exact (Ho n' s a b H' Hs Ht Hd).
  - intros x Hx. unfold GcMove.nb. apply Hb. left. exact (Hno x Hx).
Qed.
Lemma vstep_mark (X : node -> Prop) n g g1 g' : live n -> nb g n = false -> (forall i, g_busy g1 i = true <-> g_busy g i = true \/ i = f (snd n) / 4) -> g_m g1 = g_m g ->
  vstep (fun x => x = n \/ X x) g1 g' -> 
  (forall s, In s (slots m0 n) -> said (g_m g') (at_ f n) s = redirect f (snd s) (said m0 n s) /\ (forall n', target m0 n s = Some n' -> nb g' n' = true)) ->
  vstep X g g'.
Proof.
  intros H Hn Hb Hm [M F K] Hfin. constructor.
  - intros i Hi. apply M, Hb. left. exact Hi.
  - intros x s Hx H1 H2 Hs. destruct (nb g1 x) eqn:H3; [|exact (F x s Hx H3 H2 Hs)].
    unfold GcMove.nb in H3. apply Hb in H3 as [H3|He]; [unfold GcMove.nb in H1; congruence|].
    assert (x = n) as -> by (apply (new_index Hwf Hp); assumption). exact (Hfin s Hs).
  - intros x s Hx H1 HX Hs. rewrite <- Hm. apply K; auto.
    + unfold GcMove.nb. apply Hb. left. exact H1.
    + intros [->|Hxx]; [congruence|contradiction].
Qed.

Definition vvisits (fuel : nat) (visit : ty -> Z -> gc -> option (bool * Z * gc)) : Prop :=
  forall n g l, live n -> visited n -> VInv g l -> (free g < fuel)%nat ->
  exists g' new, visit (fst n) (snd n) g = Some (nb g n, f (snd n), g') /\ vpost nothing g l g' new /\ nb g' n = true /\ (fst n = YList -> ~ In (snd n) new).

Section Visit.
Variable fuel : nat.
Variable visit : ty -> Z -> gc -> option (bool * Z * gc).
Hypothesis Hv : vvisits fuel visit.

Lemma poly_ok v g l : (forall n, means SPoly v = Some n -> live n /\ visited n) -> VInv g l -> (free g < fuel)%nat ->
  exists g' new, poly_move w visit v g = Some (redirect f SPoly v, g') /\ vpost nothing g l g' new /\ (forall n, means SPoly v = Some n -> nb g' n = true).
Proof.
  intros Hn Hi Hf. unfold poly_move, GcSpec.redirect. unfold GcSpec.means in *. destruct (word_ref w v) as [[t o]|]; [|exists g, []; split; [reflexivity|]; split; [apply vpost_refl, Hi|]; discriminate].
  destruct (Hn _ eq_refl) as [Hl Hvis]. destruct (Hv (t, o) g l Hl Hvis Hi Hf) as (g' & new & Hr & Hpo & Hb & Hni). cbn [fst snd] in Hr, Hni. rewrite Hr. cbn [snd].
  assert (Hdone : exists g1 new1, Some (snek_offset_to_poly (f o) (snek_poly_type v), g') = Some (snek_offset_to_poly (f o) (snek_poly_type v), g1) /\ vpost nothing g l g1 new1 /\ (forall n, Some (t, o) = Some n -> nb g1 n = true)).
  { exists g', new. split; [reflexivity|]. split; [exact Hpo|]. intros n He. injection He as <-. exact Hb. }
  destruct t; try exact Hdone. destruct (nb g (YList, o)) eqn:Hbo; [exact Hdone|]. clear Hdone.
  destruct Hpo as (HI & HS & HNew). destruct HI as [Hba Hraw Hown Hch Hnd Hno Hfi].
  assert (Hnot : ~ In o (new ++ l)).
  { intro Hin. apply in_app_or in Hin as [Hin|Hin]; [exact (Hni eq_refl Hin)|]. pose proof (vi_noted _ _ _ Hi o Hin). congruence. }
  destruct (vchain_head Hwf _ _ _ Hch) as [H1 H2]. pose proof (set_note_only Hwf Hp o (g_note g') (g_m g') Hl) as Ho.
  assert (Hsaid : forall n s, live n -> In s (slots m0 n) -> said (set_note_next w (f o) (g_note g') (g_m g')) (at_ f n) s = said (g_m g') (at_ f n) s).
  { intros n s Hn' Hs. apply (only_said Hwf _ _ _ _ n s Ho Hn' Hs). intros -> i Hi' Hr'. apply (slot_note (YList, o) s i Hs Hi'). split; [reflexivity|exact Hr']. }
  exists (note_list w o (f o) g'), (o :: new). split; [reflexivity|]. split; [|intros n He; injection He as <-; exact Hb].
  split; [|split].
  - constructor; cbn [note_list g_m g_note with_note with_m app]; auto.
    + apply (set_note_base Hwf Hp); assumption.
    + intros n s Hn' Hnb Hs. rewrite Hsaid by assumption. apply Hraw; assumption.
    + cbn [vchain]. split; [reflexivity|]. split; [exact Hl|]. rewrite (note_next_set Hwf) by (auto; apply Hba).
      apply (vchain_only Hwf _ _ _ _ _ _ Ho); [|exact Hch]. intros x Hx He. injection He as <-. contradiction.
    + constructor; assumption.
    + intros x [<-|Hx]; [exact Hb|exact (Hno x Hx)].
    + apply fits_note, fits_m, Hfi.
  - destruct HS as [M F K]. constructor; cbn [note_list g_m with_note with_m]; auto.
    + intros n s Hn' H3 H4 Hs. rewrite Hsaid by assumption. exact (F n s Hn' H3 H4 Hs).
    + intros n s Hn' H3 HX Hs. rewrite Hsaid by assumption. exact (K n s Hn' H3 HX Hs).
  - intros x [<-|Hx]; [exact Hbo|exact (HNew x Hx)].
Qed.

Definition slot_move (n : node) (s : Z * skind) (g : gc) : option gc :=
  match snd s with SPoly => poly_move_at w visit (f (snd n) + fst s) g | SOff t => move_offset w visit t (f (snd n) + fst s) g end.
Definition is_ (n x : node) : Prop := x = n.
Lemma vslot_ok n s g l : live n -> In s (slots m0 n) -> (forall n', target m0 n s = Some n' -> visited n') -> VInv g l -> nb g n = true ->
  said (g_m g) (at_ f n) s = said m0 n s -> (free g < fuel)%nat ->
  exists g' new, slot_move n s g = Some g' /\ vpost (is_ n) g l g' new /\
    said (g_m g') (at_ f n) s = redirect f (snd s) (said m0 n s) /\ (forall n', target m0 n s = Some n' -> nb g' n' = true) /\
    (forall s', In s' (slots m0 n) -> disj s s' -> said (g_m g') (at_ f n) s' = said (g_m g) (at_ f n) s').
Proof.
  intros H Hs Hvis Hi Hb Hraw Hf.
  assert (Hlv : forall n', means (snd s) (said m0 n s) = Some n' -> live n' /\ visited n').
  { intros n' Hn'. split; [exact (live_target n s n' H Hs Hn')|exact (Hvis n' Hn')]. }
  assert (Hwrite : forall g1 new1, vpost nothing g l g1 new1 -> (forall n', target m0 n s = Some n' -> nb g1 n' = true) ->
    exists g' new, Some (with_m (put (slen w (snd s)) (redirect f (snd s) (said m0 n s)) (f (snd n) + fst s) (g_m g1)) g1) = Some g' /\ vpost (is_ n) g l g' new /\
    said (g_m g') (at_ f n) s = redirect f (snd s) (said m0 n s) /\ (forall n', target m0 n s = Some n' -> nb g' n' = true) /\
    (forall s', In s' (slots m0 n) -> disj s s' -> said (g_m g') (at_ f n) s' = said (g_m g) (at_ f n) s')).
  { intros g1 new1 P1 T1. assert (Hb1 : nb g1 n = true) by (unfold GcMove.nb; apply (vs_mono _ _ _ (proj1 (proj2 P1))); exact Hb).
    destruct (write_ok Hwf Hp fits fits_m n s (redirect f (snd s) (said m0 n s)) g1 (new1 ++ l) H Hs Hb1 (proj1 P1)) as [I2 S2].
    eexists _, new1. split; [reflexivity|]. split; [|split; [|split]].
    - destruct P1 as (I1 & S1 & N1). split; [exact I2|]. split; [|exact N1]. eapply vstep_trans; [|apply (vstep_weaken nothing (is_ n) _ _ ltac:(intros x []) S1)|exact S2].
      intros x ->. exact Hb.
    - unfold GcSpec.said at 1. cbn [with_m g_m at_ snd]. apply get_put, range_put. apply (redirect_range Hwf f top1 last1 Hp); [exact (said_range n s H Hs)|].
      intros n' Hn'. apply (Hlv n' Hn').
    - exact T1.
    - intros s' Hs' Hd. destruct (live_slot Hwf n s H Hs). destruct (live_slot Hwf n s' H Hs'). cbn [with_m g_m].
      rewrite <- (vs_kept _ _ _ (proj1 (proj2 P1)) n s' H Hb ltac:(intros []) Hs').
      apply (only_said Hwf _ _ _ _ n s' (put_only Hp n (slen w (snd s)) _ (fst s) (g_m g1) H ltac:(lia) ltac:(lia)) H Hs').
      intros _ i Hi' Hr. unfold GcMove.disj in Hd. lia. }
  unfold slot_move. unfold GcSpec.said in Hraw. cbn [at_ snd] in Hraw. destruct (snd s) as [|t] eqn:He; cbn [slen] in *.
  - unfold poly_move_at. rewrite Hraw. fold (said m0 n s). unfold GcSpec.said in *. rewrite He in *. cbn [slen] in *.
    destruct (poly_ok _ g l Hlv Hi Hf) as (g1 & new1 & -> & P1 & T1). apply (Hwrite g1 new1 P1). unfold GcSpec.target, GcSpec.said. rewrite He. exact T1.
  - unfold move_offset. rewrite Hraw. unfold GcSpec.said, GcSpec.target in *. rewrite He in *. cbn [slen] in *.
    destruct (Z.eqb_spec (geto m0 (snd n + fst s)) none) as [Hz|Hz].
    + exists g, []. split; [reflexivity|]. split; [apply vpost_refl, Hi|]. cbn [at_ snd]. split; [|split].
      * unfold GcSpec.redirect, GcSpec.means. rewrite Hz, Z.eqb_refl. rewrite Hraw, Hz. reflexivity.
      * unfold GcSpec.means, GcSpec.said. rewrite He. cbn [slen]. rewrite Hz, Z.eqb_refl. discriminate.
      * reflexivity.
    + assert (Hmean : means (SOff t) (geto m0 (snd n + fst s)) = Some (t, geto m0 (snd n + fst s))).
      { unfold GcSpec.means. destruct (Z.eqb_spec (geto m0 (snd n + fst s)) none); [contradiction|reflexivity]. }
      destruct (Hlv _ Hmean) as [Hl Hvs]. destruct (Hv _ g l Hl Hvs Hi Hf) as (g1 & new1 & Hr & P1 & B1 & _). cbn [fst snd] in Hr. rewrite Hr.
      assert (Hred : redirect f (SOff t) (geto m0 (snd n + fst s)) = f (geto m0 (snd n + fst s))) by (unfold GcSpec.redirect; rewrite Hmean; reflexivity).
      rewrite Hred in Hwrite. rewrite Hred. apply (Hwrite g1 new1 P1). unfold GcSpec.said. rewrite He. cbn [slen].
      intros n' Hn'. rewrite Hmean in Hn'. injection Hn' as <-. exact B1.
Qed.
Lemma vslots_ok n ss : live n -> (forall s, In s ss -> In s (slots m0 n) /\ (forall n', target m0 n s = Some n' -> visited n')) -> ForallOrdPairs disj ss ->
  forall g l, VInv g l -> nb g n = true -> (forall s, In s ss -> said (g_m g) (at_ f n) s = said m0 n s) -> (free g < fuel)%nat ->
  exists g' new, iter (slot_move n) ss g = Some g' /\ vpost (is_ n) g l g' new /\
    (forall s, In s ss -> said (g_m g') (at_ f n) s = redirect f (snd s) (said m0 n s) /\ (forall n', target m0 n s = Some n' -> nb g' n' = true)) /\
    (forall s', In s' (slots m0 n) -> (forall s, In s ss -> disj s s') -> said (g_m g') (at_ f n) s' = said (g_m g) (at_ f n) s').
Proof.
  intros H. induction ss as [|s ss IH]; intros Hss Hd g l Hi Hb Hraw Hf; cbn [iter].
  - exists g, []. split; [reflexivity|]. split; [apply vpost_refl, Hi|]. split; [intros s []|reflexivity].
  - inversion Hd as [|? ? Hds Hd']; subst. rewrite Forall_forall in Hds. destruct (Hss s ltac:(left; reflexivity)) as [Hin Hvis].
    destruct (vslot_ok n s g l H Hin Hvis Hi Hb ltac:(apply Hraw; left; reflexivity) Hf) as (g1 & new1 & -> & P1 & F1 & T1 & K1).
    assert (Hb1 : nb g1 n = true) by (unfold GcMove.nb; apply (vs_mono _ _ _ (proj1 (proj2 P1))); exact Hb).
    destruct (IH ltac:(intros; apply Hss; right; assumption) Hd' g1 (new1 ++ l) (proj1 P1) Hb1) as (g2 & new2 & -> & P2 & F2 & K2).
    { intros s' Hs'. rewrite K1; [apply Hraw; right; exact Hs'|apply Hss; right; exact Hs'|exact (Hds s' Hs')]. }
    { pose proof (free_mono (POOL := POOL) g g1 (vs_mono _ _ _ (proj1 (proj2 P1)))). lia. }
    exists g2, (new2 ++ new1). split; [reflexivity|]. split; [|split].
    + apply (vpost_trans (is_ n) g l g1 new1 g2 new2); [intros x ->; exact Hb|exact P1|exact P2].
    + intros s' [<-|Hs']; [|exact (F2 s' Hs')]. split.
      * rewrite K2; [exact F1|exact Hin|]. intros s'' Hs''. destruct (Hds s'' Hs''); [right|left]; assumption.
      * intros n' Hn'. unfold GcMove.nb. apply (vs_mono _ _ _ (proj1 (proj2 P2))). exact (T1 n' Hn').
    + intros s' Hs' Hds'. rewrite K2; [apply K1; [exact Hs'|apply Hds'; left; reflexivity]|exact Hs'|]. intros s'' Hs''. apply Hds'. right. exact Hs''.
Qed.
End Visit.
End Move.
