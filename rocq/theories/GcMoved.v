(** A heap whose objects have moved is the same heap. *)
From Coq Require Import ZArith Bool List Lia.
From Verif Require Import Base FloatModel PolyModel PolyProofs CodeModel GcModel GcSpec GcProofs GcChunks GcMark.
Import ListNotations.
Local Open Scope Z_scope.

Section Moved.
Context {w : width} {POOL calloc csize : Z} {R : roots} {m0 : mem} {top0 last0 : Z}.
Notation k := (Z.of_nat (obytes w)).
Notation none := (OFFSET_NONE w).
Notation geto := (get (obytes w)).
Notation osize := (osize w POOL calloc).
Notation slots := (slots w csize).
Notation live := (live w csize R m0).
Notation said := (said w).
Notation means := (means w).
Notation target := (target w).
Notation sz := (@sz w POOL calloc m0).
Hypothesis Hwf : wf w POOL calloc csize R m0 top0 last0.
Variable f : Z -> Z.
Variables top1 last1 : Z.
Variable m1 : mem.
(** where the objects go *)
Record places_ok : Prop := {
  p_top : top1 <= POOL;
  p_in : forall n, live n -> 0 <= f (snd n) /\ f (snd n) mod 4 = 0 /\ f (snd n) + sz n <= top1;
  p_apart : forall n n', live n -> live n' -> n = n' \/ f (snd n) + sz n <= f (snd n') \/ f (snd n') + sz n' <= f (snd n);
  p_last : 0 <= last1 <= top1 /\ forall n, live n -> f (snd n) + sz n <= last1 \/ last1 <= f (snd n) }.
Hypothesis Hp : places_ok.
Hypothesis Hm : moved_to w POOL calloc csize f R m0 m1.
Notation redirect := (redirect w).
Notation R1 := (redirect_roots w f R).

Definition in_range (s : skind) (v : Z) : Prop := match s with SPoly => word w v | SOff _ => offset w v end.

Lemma new_small n : live n -> 0 <= f (snd n) < POOL /\ f (snd n) < none /\ aligned_offset (f (snd n)) /\ f (snd n) < 2 ^ wbits w.
Proof.
  intro H. destruct (p_in Hp n H) as (H1 & H2 & H3). pose proof (p_top Hp). destruct (live_facts Hwf n H) as (_ & Hpos & _).
  destruct (pool_facts Hwf) as (_ & Hn & H23). pose proof (none_word Hwf) as (Hw & _). assert (2 ^ 23 = 8388608) by reflexivity. unfold aligned_offset. lia.
Qed.
Lemma redirect_range s v : in_range s v -> (forall n, means s v = Some n -> live n) -> in_range s (redirect f s v).
Proof.
  intros Hr Hl. unfold GcSpec.redirect. destruct (means s v) as [n|] eqn:He; [|exact Hr]. destruct (new_small n (Hl n eq_refl)) as (H1 & H2 & H3 & H4).
  destruct s as [|t]; cbn [in_range] in *; [|unfold offset; lia].
  unfold GcSpec.means, word_ref in He. unfold word. destruct (snek_poly_type v) eqn:Ht; try discriminate;
    (match goal with |- context [snek_offset_to_poly ?o ?t] => destruct (ref_round_trip o t H3) as (Ha & _ & Hb); [discriminate|discriminate|] end);
    (split; [exact Ha|intros _; rewrite Hb; exact H4]).
Qed.
Lemma redirect_means s v : (forall n, means s v = Some n -> live n) -> means s (redirect f s v) = option_map (at_ f) (means s v).
Proof.
  intros Hl. unfold GcSpec.redirect. destruct (means s v) as [n|] eqn:He; [|exact He]. destruct (new_small n (Hl n eq_refl)) as (H1 & H2 & H3 & H4).
  cbn [option_map]. destruct s as [|t].
  - unfold GcSpec.means, word_ref in *. destruct (snek_poly_type v) eqn:Ht; try discriminate; injection He as <-; cbn [snd] in *;
    (match goal with |- context [snek_offset_to_poly ?o ?t] => destruct (ref_round_trip o t H3) as (_ & -> & ->); [discriminate|discriminate|] end);
    rewrite (u_small (w := w)) by lia; reflexivity.
  - unfold GcSpec.means in *. destruct (Z.eqb_spec v none); [discriminate|]. injection He as <-. cbn [snd] in *. destruct (Z.eqb_spec (f v) none); [lia|reflexivity].
Qed.

Lemma moved_obj n : live n -> osize m1 (at_ f n) = Some (sz n) /\ slots m1 (at_ f n) = slots m0 n.
Proof.
  intro H. destruct (live_facts Hwf n H) as (He & _). destruct (p_in Hp n H) as (_ & _ & H3). pose proof (p_top Hp). destruct n as [t o]. unfold at_. cbn [fst snd] in *.
  apply local; [exact (wf_compile _ _ _ _ _ _ _ _ Hwf)|exact (wf_bytes _ _ _ _ _ _ _ _ Hwf)|exact He|lia|].
  intros i Hi Hpl. apply (mt_plain _ _ _ _ _ _ _ _ Hm (t, o) (sz (t, o)) i H He Hi Hpl).
Qed.
Lemma moved_target n s : live n -> In s (slots m0 n) -> target m1 (at_ f n) s = option_map (at_ f) (target m0 n s).
Proof.
  intros H Hs. unfold GcSpec.target. rewrite (mt_refs _ _ _ _ _ _ _ _ Hm n s H Hs). apply redirect_means. intros n' Hn'. exact (live_target n s n' H Hs Hn').
Qed.
Lemma moved_roots : root_refs R1 = map (fun r => (fst r, redirect f (fst r) (snd r))) (root_refs R).
Proof.
  unfold root_refs. rewrite !map_app, !map_map. cbn [r_stack redirect_roots pointers map fst snd r_names r_globals r_frame r_stash r_code r_empty r_a r_compile].
  rewrite map_map. reflexivity.
Qed.
Notation live1 := (GcSpec.live w csize R1 m1).
Lemma moved_live n : live n -> live1 (at_ f n).
Proof.
  intro H. induction H as [s v n Hin Hn|n s n' H IH Hs Ht].
  - apply (live_root _ _ _ _ s (redirect f s v)); [rewrite moved_roots; apply (in_map (fun r => (fst r, redirect f (fst r) (snd r)))) in Hin; exact Hin|].
    rewrite redirect_means, Hn; [reflexivity|]. intros n' Hn'. exact (live_root _ _ _ _ s v n' Hin Hn').
  - apply (live_step _ _ _ _ (at_ f n) s); [exact IH|rewrite (proj2 (moved_obj n H)); exact Hs|]. rewrite moved_target, Ht by assumption. reflexivity.
Qed.
Lemma live_moved n' : live1 n' -> exists n, live n /\ n' = at_ f n.
Proof.
  intro H. induction H as [s v n Hin Hn|n' s n1 H IH Hs Ht].
  - rewrite moved_roots in Hin. apply in_map_iff in Hin as ([s0 v0] & He & Hin). cbn [fst snd] in He. injection He as -> <-.
    assert (Hl : forall n, means s v0 = Some n -> live n) by (intros n1 Hn1; exact (live_root _ _ _ _ s v0 n1 Hin Hn1)).
    rewrite redirect_means in Hn by exact Hl. destruct (means s v0) as [n1|] eqn:Hv; [|discriminate]. injection Hn as <-. exists n1. auto.
  - destruct IH as (n & Hl & ->). rewrite (proj2 (moved_obj n Hl)) in Hs. rewrite moved_target in Ht by assumption.
    destruct (target m0 n s) as [n2|] eqn:He; [|discriminate]. injection Ht as <-. exists n2. split; [exact (live_target n s n2 Hl Hs He)|reflexivity].
Qed.
Lemma moved_inj n n' : live n -> live n' -> at_ f n = at_ f n' -> n = n'.
Proof.
  intros H H' He. injection He as _ He. destruct (live_facts Hwf n H) as (_ & Hpos & _). destruct (live_facts Hwf n' H') as (_ & Hpos' & _).
  destruct (p_apart Hp n n' H H') as [|Ha]; [assumption|lia].
Qed.
Lemma list_plain o i : 0 <= i < 2 * k -> plain w csize m0 (YList, o) i.
Proof.
  intro Hi. split; [|intros [_ Hx]; lia]. intros (s & Hs & Hx). unfold GcSpec.slots in Hs. cbn [fst snd] in Hs. destruct (_ =? 0); [contradiction|].
  destruct Hs as [<-|[]]. cbn [fst snd slen] in Hx. lia.
Qed.
Lemma list_alloc_moved o : live (YList, o) -> geto m1 (f o + k) = geto m0 (o + k).
Proof.
  intro H. pose proof (list_sz Hwf o H) as Hs. pose proof (kpos w). destruct (live_facts Hwf _ H) as (He & _). apply get_ext. intros i Hi.
  rewrite <- !Z.add_assoc. apply (mt_plain _ _ _ _ _ _ _ _ Hm (YList, o) _ (k + i) H He); [lia|apply list_plain; lia].
Qed.
Lemma moved_names p : forall o, (forall x, In x p -> live (YName, x)) -> names_list w m0 o p -> names_list w m1 (redirect f (SOff YName) o) (map f p).
Proof.
  induction p as [|x p IH]; intros o Hl Hn; cbn [names_list map] in *.
  - subst o. unfold GcSpec.redirect, GcSpec.means. rewrite Z.eqb_refl. reflexivity.
  - destruct Hn as (-> & Hx & Hn). pose proof (Hl x ltac:(left; reflexivity)) as Hlx. destruct (new_small _ Hlx) as (_ & H2 & _). cbn [snd] in H2.
    split; [|split; [lia|]].
    + unfold GcSpec.redirect, GcSpec.means. destruct (Z.eqb_spec x none); [contradiction|reflexivity].
    + pose proof (mt_refs _ _ _ _ _ _ _ _ Hm (YName, x) (0, SOff YName) Hlx ltac:(left; reflexivity)) as Hr.
      unfold GcSpec.said, at_ in Hr. cbn [fst snd slen] in Hr. rewrite !Z.add_0_r in Hr. rewrite Hr. apply IH; [intros; apply Hl; right; assumption|exact Hn].
Qed.

Theorem moved_wf : wf w POOL calloc csize R1 m1 top1 last1.
Proof.
  constructor.
  - exact (wf_compile _ _ _ _ _ _ _ _ Hwf).
  - pose proof (pool_facts Hwf). pose proof (p_top Hp). lia.
  - exact (mt_bytes _ _ _ _ _ _ _ _ Hm).
  - intros s v Hin. rewrite moved_roots in Hin. apply in_map_iff in Hin as ([s0 v0] & He & Hin). cbn [fst snd] in He. injection He as -> <-.
    apply (redirect_range s v0); [exact (wf_roots _ _ _ _ _ _ _ _ Hwf s v0 Hin)|]. intros n Hn. exact (live_root _ _ _ _ s v0 n Hin Hn).
  - intros n' s H' Hs He. destruct (live_moved n' H') as (n & H & ->). rewrite (proj2 (moved_obj n H)) in Hs. rewrite (mt_refs _ _ _ _ _ _ _ _ Hm n s H Hs), He.
    apply (redirect_range SPoly); [exact (wf_words _ _ _ _ _ _ _ _ Hwf n s H Hs He)|]. intros n' Hn'. apply (live_target n s n' H Hs). unfold GcSpec.target. rewrite He. exact Hn'.
  - intros n' H'. destruct (live_moved n' H') as (n & H & ->). destruct (moved_obj n H) as [Ho Hs]. destruct (p_in Hp n H) as (H1 & H2 & H3).
    destruct (live_facts Hwf n H) as (_ & Hpos & _). constructor.
    + exact H1.
    + exact H2.
    + exists (sz n). auto.
    + intros s sl He Hsl. rewrite Ho in He. apply some_eq in He. subst s. rewrite Hs in Hsl. exact (live_slot Hwf n sl H Hsl).
  - intros n1 n2 H1 H2. destruct (live_moved n1 H1) as (x1 & L1 & ->). destruct (live_moved n2 H2) as (x2 & L2 & ->).
    destruct (p_apart Hp x1 x2 L1 L2) as [->|Ha]; [left; reflexivity|right]. intros s s' Hs Hs'. rewrite (proj1 (moved_obj _ L1)) in Hs. rewrite (proj1 (moved_obj _ L2)) in Hs'.
    apply some_eq in Hs, Hs'. subst. exact Ha.
  - intros o' Ho' Ha. destruct (live_moved _ Ho') as ([t o] & H & He). injection He as <- ->. rewrite list_alloc_moved in Ha by exact H.
    pose proof (wf_data _ _ _ _ _ _ _ _ Hwf o H Ha) as Hd.
    assert (Hin : In (3 * k, SOff (YData (geto m0 o) (geto m0 (o + k)))) (slots m0 (YList, o))).
    { unfold GcSpec.slots. cbn [fst snd]. destruct (Z.eqb_spec (geto m0 (o + k)) 0); [contradiction|left; reflexivity]. }
    pose proof (mt_refs _ _ _ _ _ _ _ _ Hm (YList, o) _ H Hin) as Hr. unfold GcSpec.said, at_ in Hr. cbn [fst snd slen] in Hr. rewrite Hr.
    assert (Ht : target m0 (YList, o) (3 * k, SOff (YData (geto m0 o) (geto m0 (o + k)))) = Some (YData (geto m0 o) (geto m0 (o + k)), geto m0 (o + 3 * k))).
    { unfold GcSpec.target, GcSpec.said, GcSpec.means. cbn [fst snd slen]. destruct (Z.eqb_spec (geto m0 (o + 3 * k)) none); [contradiction|reflexivity]. }
    unfold GcSpec.redirect, GcSpec.means. destruct (Z.eqb_spec (geto m0 (o + 3 * k)) none); [contradiction|]. cbn [snd].
    destruct (new_small _ (live_target _ _ _ H Hin Ht)) as (_ & H2 & _). cbn [snd] in H2. lia.
  - intros n1 n2 s1 s2 d H1 H2 Hs1 Hs2 Ht1 Ht2 (a & b & Hd).
    destruct (live_moved n1 H1) as (x1 & L1 & ->). destruct (live_moved n2 H2) as (x2 & L2 & ->).
    rewrite (proj2 (moved_obj _ L1)) in Hs1. rewrite (proj2 (moved_obj _ L2)) in Hs2. rewrite moved_target in Ht1, Ht2 by assumption.
    destruct (target m0 x1 s1) as [d1|] eqn:E1; [|discriminate]. destruct (target m0 x2 s2) as [d2|] eqn:E2; [|discriminate].
    cbn [option_map] in Ht1, Ht2. apply some_eq in Ht1, Ht2.
    assert (He : d1 = d2) by (apply moved_inj; [exact (live_target _ _ _ L1 Hs1 E1)|exact (live_target _ _ _ L2 Hs2 E2)|congruence]). subst d2.
    f_equal. apply (wf_own _ _ _ _ _ _ _ _ Hwf x1 x2 s1 s2 d1); auto. exists a, b. rewrite <- Hd, <- Ht1. reflexivity.
  - destruct (wf_names _ _ _ _ _ _ _ _ Hwf) as (p & Hn & Hd).
    assert (Hl : forall x, In x p -> live (YName, x)).
    { apply (names_live p (r_names R) Hn). destruct (Z.eq_dec (r_names R) none) as [He|He]; [left; exact He|right].
      apply (live_root _ _ _ _ (SOff YName) (r_names R)); [unfold root_refs; apply in_or_app; right; left; reflexivity|].
      unfold GcSpec.means. destruct (Z.eqb_spec (r_names R) none); [contradiction|reflexivity]. }
    exists (map f p). split; [exact (moved_names p _ Hl Hn)|]. clear Hn. induction Hd as [|x p Hx Hd IH]; cbn; constructor; [|apply IH; intros; apply Hl; right; assumption].
    rewrite in_map_iff. intros (y & Hy & Hin). apply Hx.
    assert (He : (YName, y) = (YName, x)) by (apply moved_inj; [apply Hl; right; exact Hin|apply Hl; left; reflexivity|unfold at_; cbn [fst snd]; congruence]).
    injection He as <-. exact Hin.
  - destruct (p_last Hp) as [Hl Hx]. split; [exact Hl|]. intros n' s H' Hs. destruct (live_moved n' H') as (n & H & ->). rewrite (proj1 (moved_obj n H)) in Hs. apply some_eq in Hs. subst s.
    exact (Hx n H).
Qed.

(** ** What can be seen is the same *)
Lemma in_slotb_spec m n i : in_slotb w (slots m n) i = true <-> in_slot w csize m n i.
Proof.
  unfold in_slotb, in_slot. rewrite existsb_exists. split; intros (s & Hs & Hx); exists s; (split; [exact Hs|]).
  - apply andb_prop in Hx as [H1 H2]. apply Z.leb_le in H1. apply Z.ltb_lt in H2. lia.
  - apply andb_true_intro. split; [apply Z.leb_le|apply Z.ltb_lt]; lia.
Qed.
Lemma moved_content n : live n -> content w POOL calloc csize m1 (at_ f n) = content w POOL calloc csize m0 n.
Proof.
  intro H. destruct (moved_obj n H) as [Ho Hs]. destruct (live_facts Hwf n H) as (He & _). unfold content. rewrite Ho, He, Hs. cbn [at_ fst snd]. f_equal.
  - apply map_ext_in. intros i Hi. apply filter_In in Hi as [Hi Hf]. apply in_evenly in Hi as (j & Hj & ->). 
    apply (mt_plain _ _ _ _ _ _ _ _ Hm n (sz n) _ H He); [lia|]. apply negb_true_iff, orb_false_iff in Hf as [H1 H2]. split.
    + intro Hx. apply in_slotb_spec in Hx. congruence.
    + intros [Ht Hx]. rewrite Ht in H2. cbn [is_list andb] in H2. apply andb_false_iff in H2 as [H2|H2]; [apply Z.leb_gt in H2|apply Z.ltb_ge in H2]; lia.
  - destruct (is_list (fst n)) eqn:Hl; [|reflexivity]. f_equal. destruct n as [t o]. cbn [fst snd] in *. destruct t; try discriminate.
    exact (mt_kind _ _ _ _ _ _ _ _ Hm o H).
Qed.
Lemma moved_view d : forall s v, (forall n, means s v = Some n -> live n) ->
  view w POOL calloc csize d m1 s (redirect f s v) = view w POOL calloc csize d m0 s v.
Proof.
  induction d as [|d IH]; intros s v Hl; cbn [view]; rewrite redirect_means by exact Hl; destruct (means s v) as [n|] eqn:He; cbn [option_map].
  - reflexivity.
  - unfold GcSpec.redirect. rewrite He. reflexivity.
  - pose proof (Hl n eq_refl) as H. rewrite (proj2 (moved_obj n H)), moved_content by exact H. cbn [at_ fst]. f_equal.
    apply map_ext_in. intros sl Hsl. fold (at_ f n). rewrite (mt_refs _ _ _ _ _ _ _ _ Hm n sl H Hsl). apply IH. intros n' Hn'. exact (live_target n sl n' H Hsl Hn').
  - unfold GcSpec.redirect. rewrite He. reflexivity.
Qed.
Theorem moved_views d : views w POOL calloc csize d R1 m1 = views w POOL calloc csize d R m0.
Proof.
  unfold views. rewrite moved_roots, map_map. apply map_ext_in. intros [s v] Hin. cbn [fst snd]. apply moved_view. intros n Hn. exact (live_root _ _ _ _ s v n Hin Hn).
Qed.
End Moved.
