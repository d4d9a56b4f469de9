(** Objects that stay, and moves one after the other. *)
From Coq Require Import ZArith Bool List Lia.
From Verif Require Import Base FloatModel PolyModel PolyProofs CodeModel GcModel GcSpec GcProofs GcChunks GcMark GcMoved GcMove GcMove2.
Import ListNotations.
Local Open Scope Z_scope.

Definition stay (o : Z) : Z := o.

Section Same.
Context {w : width} {POOL calloc csize : Z} {R : roots} {m0 : mem} {top0 last0 : Z}.
Notation k := (Z.of_nat (obytes w)).
Notation none := (OFFSET_NONE w).
Notation geto := (get (obytes w)).
Notation osize := (osize w POOL calloc).
Notation slots := (slots w csize).
Notation live := (live w csize R m0).
Notation said := (said w).
Notation means := (means w).
Notation target := (target w).
Notation sz := (@sz w POOL calloc m0).
Notation redirect := (redirect w).
Notation moved_to := (moved_to w POOL calloc csize).
Hypothesis Hwf : wf w POOL calloc csize R m0 top0 last0.

Lemma at_stay n : at_ stay n = n.
Proof. destruct n; reflexivity. Qed.
Lemma redirect_stay s v : in_range (w := w) s v -> (forall n, means s v = Some n -> live n) -> redirect stay s v = v.
Proof.
  intros Hr Hl. unfold GcSpec.redirect, stay. destruct (means s v) as [n|] eqn:He; [|reflexivity]. destruct s as [|t].
  - cbn [in_range] in Hr. destruct Hr as [Hv Ho]. unfold GcSpec.means in He, Ho. rewrite He in Ho. specialize (Ho ltac:(discriminate)). unfold word_ref in He.
    assert (Hn : snek_poly_type v <> TFloat) by (intro E; rewrite E in He; discriminate).
    destruct (ref_surjective v Hv Hn) as [[Ha _] Hs]. transitivity (snek_offset_to_poly (snek_poly_to_offset v) (snek_poly_type v)); [|exact Hs]. f_equal.
    assert (Hu : u_of w (snek_poly_to_offset v) = snek_poly_to_offset v) by (unfold u_of, wrapu; apply Z.mod_small; lia).
    rewrite Hu in He. destruct (snek_poly_type v); try discriminate; injection He as <-; reflexivity.
  - unfold GcSpec.means in He. destruct (v =? none); [discriminate|]. injection He as <-. reflexivity.
Qed.
Lemma roots_stay : redirect_roots w stay R = R.
Proof.
  assert (H : forall s v, In (s, v) (root_refs R) -> redirect stay s v = v).
  { intros s v Hin. apply redirect_stay; [exact (wf_roots _ _ _ _ _ _ _ _ Hwf s v Hin)|]. intros n Hn. exact (live_root _ _ _ _ s v n Hin Hn). }
  assert (Hr : forall r, In r (map (fun p => (SOff (fst p), snd p)) (pointers R) ++ [(SPoly, r_a R); (SOff YCompile, r_compile R)]) -> In r (root_refs R)).
  { intros r Hr. unfold root_refs. apply in_or_app. right. exact Hr. }
  cbn [pointers map app fst snd] in Hr.
  assert (Hst : map (redirect stay SPoly) (r_stack R) = r_stack R).
  { rewrite <- (map_id (r_stack R)) at 2. apply map_ext_in. intros v Hv. apply H. unfold root_refs. apply in_or_app. left. apply (in_map (fun u => (SPoly, u))), Hv. }
  pose proof (fun s v Hi => H s v (Hr (s, v) Hi)) as Hx. unfold redirect_roots.
  rewrite Hst, !Hx by (cbn; tauto). destruct R; reflexivity.
Qed.
Lemma places_stay top1 : top0 <= top1 <= POOL -> @places_ok w POOL calloc csize R m0 stay top1 last0.
Proof.
  intro Ht. unfold stay. constructor.
  - lia.
  - intros n H. destruct (live_facts Hwf n H) as (_ & _ & _ & H1 & H2 & H3). repeat split; try assumption; lia.
  - intros n n' H H'. apply (live_apart Hwf); assumption.
  - destruct (wf_last _ _ _ _ _ _ _ _ Hwf) as [H1 H2]. split; [lia|]. intros n H. apply H2; [exact H|]. apply (live_facts Hwf n H).
Qed.
Lemma mark_moved m : @mark_mem w POOL calloc csize R m0 m -> moved_to stay R m0 m.
Proof.
  intros (Hb & Hm & Hk). constructor; unfold stay; auto.
  - intros n s i H He Hi [_ Hn]. destruct (live_facts Hwf n H) as (He' & _). rewrite He' in He. apply some_eq in He. subst s. apply Hm; assumption.
  - intros n s H Hs. rewrite (redirect_stay (snd s)); [|exact (said_range Hwf n s H Hs)|intros n' Hn'; exact (live_target n s n' H Hs Hn')].
    destruct (live_slot Hwf n s H Hs). unfold GcSpec.said. cbn [at_ fst snd]. apply get_ext. intros i Hi. rewrite <- !Z.add_assoc. apply Hm; [exact H|lia|].
    apply (slot_note n s _ Hs). lia.
Qed.

(** memory that agrees on the objects *)
Lemma agree_mark m : bytes m -> (forall n i, live n -> 0 <= i < sz n -> m (snd n + i) = m0 (snd n + i)) -> @mark_mem w POOL calloc csize R m0 m.
Proof.
  intros Hb Hm. split; [exact Hb|]. split; [intros n i H Hi _; apply Hm; assumption|]. intros o H. f_equal. pose proof (list_sz Hwf o H). pose proof (kpos w).
  apply get_ext. intros i Hi. rewrite <- !Z.add_assoc. apply (Hm (YList, o)); [exact H|lia].
Qed.

(** other tops *)
Lemma wf_tops top1 last1 : top1 <= POOL -> (forall n, live n -> snd n + sz n <= top1) -> 0 <= last1 <= top1 -> (forall n, live n -> snd n + sz n <= last1 \/ last1 <= snd n) ->
  wf w POOL calloc csize R m0 top1 last1.
Proof.
  intros Ht Hn Hl Hs. destruct Hwf. constructor; auto.
  - destruct wf_pool as (_ & ?). split; assumption.
  - intros n H. destruct (wf_valid n H) as [H1 H2 (s & He & Hp & _) H4]. constructor; auto. exists s. split; [exact He|]. split; [exact Hp|].
    pose proof (Hn n H) as Hx. unfold GcMark.sz in Hx. rewrite He in Hx. exact Hx.
  - split; [exact Hl|]. intros n s H He. pose proof (Hs n H) as Hx. unfold GcMark.sz in Hx. rewrite He in Hx. exact Hx.
Qed.

(** one move after another *)
Section Twice.
Variables f1 f2 : Z -> Z.
Variables top1 last1 : Z.
Variables m1 m2 : mem.
Hypothesis Hp : @places_ok w POOL calloc csize R m0 f1 top1 last1.
Hypothesis H1 : moved_to f1 R m0 m1.
Notation R1 := (redirect_roots w f1 R).
Lemma redirect_twice s v : (forall n, means s v = Some n -> live n) -> redirect f2 s (redirect f1 s v) = redirect (fun o => f2 (f1 o)) s v.
Proof.
  intro Hl. unfold GcSpec.redirect at 1. rewrite (redirect_means Hwf f1 top1 last1 Hp s v Hl). unfold GcSpec.redirect. destruct (means s v) as [n|] eqn:He; [|reflexivity].
  cbn [option_map at_ snd]. destruct s as [|t]; [|reflexivity]. f_equal. destruct (new_small Hwf f1 top1 last1 Hp n (Hl n eq_refl)) as (_ & _ & Ha & _).
  unfold GcSpec.means, word_ref in He. destruct (snek_poly_type v) eqn:Ht; try discriminate;
    (match goal with |- context [snek_offset_to_poly ?o ?t] => destruct (ref_round_trip o t Ha) as (_ & Hb & _); [discriminate|discriminate|exact Hb] end).
Qed.
Lemma roots_twice : redirect_roots w f2 R1 = redirect_roots w (fun o => f2 (f1 o)) R.
Proof.
  assert (H : forall s v, In (s, v) (root_refs R) -> redirect f2 s (redirect f1 s v) = redirect (fun o => f2 (f1 o)) s v).
  { intros s v Hin. apply redirect_twice. intros n Hn. exact (live_root _ _ _ _ s v n Hin Hn). }
  assert (Hr : forall r, In r (map (fun p => (SOff (fst p), snd p)) (pointers R) ++ [(SPoly, r_a R); (SOff YCompile, r_compile R)]) -> In r (root_refs R)).
  { intros r Hr. unfold root_refs. apply in_or_app. right. exact Hr. }
  cbn [pointers map app fst snd] in Hr.
  pose proof (fun s v Hi => H s v (Hr (s, v) Hi)) as Hx. unfold redirect_roots at 1 2. cbn [r_stack r_names r_globals r_frame r_stash r_code r_empty r_a r_compile].
  rewrite !Hx by (cbn; tauto). unfold redirect_roots. f_equal. rewrite map_map. apply map_ext_in. intros v Hv. apply H.
  unfold root_refs. apply in_or_app. left. apply (in_map (fun u => (SPoly, u))), Hv.
Qed.
Lemma moved_twice : moved_to f2 R1 m1 m2 -> moved_to (fun o => f2 (f1 o)) R m0 m2.
Proof.
  intro H2. constructor.
  - exact (mt_bytes _ _ _ _ _ _ _ _ H2).
  - intros n s i H He Hi Hpl. destruct (moved_obj Hwf f1 top1 last1 m1 Hp H1 n H) as [Ho Hs]. destruct (live_facts Hwf n H) as (He' & _). rewrite He' in He. apply some_eq in He. subst s.
    rewrite <- (mt_plain _ _ _ _ _ _ _ _ H1 n (sz n) i H He' Hi Hpl).
    apply (mt_plain _ _ _ _ _ _ _ _ H2 (at_ f1 n) (sz n) i); auto; [exact (moved_live Hwf f1 top1 last1 m1 Hp H1 n H)|].
    destruct Hpl as [Hp1 Hp2]. split; [|exact Hp2]. intros (s & Hin & Hx). apply Hp1. exists s. rewrite Hs in Hin. auto.
  - intros o H. rewrite <- (mt_kind _ _ _ _ _ _ _ _ H1 o H). apply (mt_kind _ _ _ _ _ _ _ _ H2). exact (moved_live Hwf f1 top1 last1 m1 Hp H1 _ H).
  - intros n s H Hs. destruct (moved_obj Hwf f1 top1 last1 m1 Hp H1 n H) as [_ Hs1].
    change (at_ (fun o => f2 (f1 o)) n) with (at_ f2 (at_ f1 n)).
    rewrite (mt_refs _ _ _ _ _ _ _ _ H2 (at_ f1 n) s (moved_live Hwf f1 top1 last1 m1 Hp H1 n H)) by (rewrite Hs1; exact Hs).
    rewrite (mt_refs _ _ _ _ _ _ _ _ H1 n s H Hs). apply redirect_twice. intros n' Hn'. exact (live_target n s n' H Hs Hn').
Qed.
End Twice.
End Same.

Section TwicePlaces.
Context {w : width} {POOL calloc csize : Z} {R : roots} {m0 : mem} {top0 last0 : Z}.
Hypothesis Hwf : wf w POOL calloc csize R m0 top0 last0.
Lemma moved_sz f1 top1 last1 m1 n : @places_ok w POOL calloc csize R m0 f1 top1 last1 -> moved_to w POOL calloc csize f1 R m0 m1 -> live w csize R m0 n ->
  @sz w POOL calloc m1 (at_ f1 n) = @sz w POOL calloc m0 n.
Proof. intros Hp Hm H. destruct (moved_obj Hwf f1 top1 last1 m1 Hp Hm n H) as [Ho _]. unfold sz at 1. rewrite Ho. reflexivity. Qed.
Lemma places_twice f1 f2 top1 last1 top2 last2 m1 : @places_ok w POOL calloc csize R m0 f1 top1 last1 -> moved_to w POOL calloc csize f1 R m0 m1 ->
  @places_ok w POOL calloc csize (redirect_roots w f1 R) m1 f2 top2 last2 -> @places_ok w POOL calloc csize R m0 (fun o => f2 (f1 o)) top2 last2.
Proof.
  intros Hp Hm [H1 H2 H3 [H4 H5]].
  assert (Hx : forall n, live w csize R m0 n -> live w csize (redirect_roots w f1 R) m1 (at_ f1 n) /\ @sz w POOL calloc m1 (at_ f1 n) = @sz w POOL calloc m0 n).
  { intros n H. split; [exact (moved_live Hwf f1 top1 last1 m1 Hp Hm n H)|exact (moved_sz f1 top1 last1 m1 n Hp Hm H)]. }
  constructor; auto.
  - intros n H. destruct (Hx n H) as [Hl <-]. exact (H2 _ Hl).
  - intros n n' H H'. destruct (Hx n H) as [Hl <-]. destruct (Hx n' H') as [Hl' <-]. destruct (H3 _ _ Hl Hl') as [He|Ha]; [|right; exact Ha].
    left. exact (moved_inj Hwf f1 top1 last1 Hp n n' H H' He).
  - split; [exact H4|]. intros n H. destruct (Hx n H) as [Hl <-]. exact (H5 _ Hl).
Qed.
End TwicePlaces.
