(** The collector and the allocator. *)
From Coq Require Import ZArith Bool List Lia Sorting.Sorted.
From Verif Require Import Base FloatModel PolyModel PolyProofs CodeModel GcModel GcSpec GcProofs GcChunks GcMark GcMark2 GcMark3 GcMark4 GcMoved GcSlide GcMove GcMove2 GcMove3 GcSame GcPass GcPass2.
Import ListNotations.
Local Open Scope Z_scope.

Lemma laid_in p s L : (forall n, In n L -> 0 <= s n) -> forall a b, laid p s L a b -> a <= b /\ forall n, In n L -> a <= p n /\ p n + s n <= b.
Proof.
  induction L as [|x L IH]; cbn; intros Hs a b H; [subst; split; [lia|contradiction]|]. destruct H as [Hp H]. pose proof (Hs x ltac:(left; reflexivity)).
  destruct (IH ltac:(intros; apply Hs; right; assumption) _ _ H) as [Hab Hin]. split; [lia|]. intros n [<-|Hn]; [lia|]. specialize (Hin n Hn). lia.
Qed.
Lemma filter_split {A} (p : A -> bool) l : (length (filter p l) + length (filter (fun x => negb (p x)) l) = length l)%nat.
Proof. induction l as [|x l IH]; [reflexivity|]. cbn. destruct (p x); cbn; lia. Qed.
Lemma nodup_filter {A} (p : A -> bool) l : NoDup l -> NoDup (filter p l).
Proof.
  induction 1 as [|x l Hx H IH]; cbn; [constructor|]. destruct (p x); [|exact IH]. constructor; [|exact IH]. intro Hin. apply filter_In in Hin. tauto.
Qed.
Lemma total_len cs : (forall c, In c cs -> 4 <= snd c) -> 4 * Z.of_nat (length cs) <= total cs.
Proof.
  induction cs as [|[o s] cs IH]; intro H; [cbn; lia|]. cbn [total length]. pose proof (H (o, s) ltac:(left; reflexivity)) as Hs. cbn in Hs.
  specialize (IH ltac:(intros; apply H; right; assumption)). lia.
Qed.

Section Collect.
Context {w : width} {POOL calloc csize : Z} {NCHUNK : nat}.
Notation none := (OFFSET_NONE w).
Notation live := (live w csize).
Notation sz m := (@GcMark.sz w POOL calloc m).
Notation moved_to := (moved_to w POOL calloc csize).
Notation places R m := (@places_ok w POOL calloc csize R m).
Notation passes := (passes w POOL NCHUNK calloc csize).
Notation wf := (wf w POOL calloc csize).
Hypothesis HN : (0 < NCHUNK)%nat.

Lemma passes_ok fuel : forall R m0 top0 start low top g L A, wf R m0 top0 start -> g_m g = m0 -> g_note g = none -> g_low g = low -> g_top g = top0 ->
  start <= top <= low /\ top mod 4 = 0 -> (forall n, live R m0 n -> snd n + sz m0 n <= top \/ low <= snd n) ->
  (forall n, In n L <-> live R m0 n /\ start <= snd n < low) -> NoDup L -> laid snd (sz m0) L start top ->
  (forall n, In n A <-> live R m0 n /\ low <= snd n) -> NoDup A -> (length A < fuel * NCHUNK)%nat ->
  exists R' top' g' f L', passes fuel R top g = Some (R', top', g') /\ R' = redirect_roots w f R /\ moved_to f R m0 (g_m g') /\ places R m0 f top0 start /\
    g_note g' = none /\ (g_top g' = top0 /\ g_last g' = g_last g) /\ top' mod 4 = 0 /\ top <= top' /\
    (forall n, In n L' <-> live R' (g_m g') n /\ start <= snd n) /\ NoDup L' /\ laid snd (sz (g_m g')) L' start top' /\
    (forall n, live R m0 n -> snd n < start -> f (snd n) = snd n).
Proof.
  induction fuel as [|fuel IH]; intros R m0 top0 start low top g L A Hwf Hgm Hgn Hgl Hgt Htop Hgap HL HLd Hlaid HA HAd Hfuel; [cbn in Hfuel; lia|].
  rewrite passes_step. destruct (pass_ok Hwf HN low top Htop Hgap g Hgm Hgn Hgl Hgt) as (R1 & top1 & g1 & again & f1 & Ns & high & -> & [Pr Pm Pp Pn [Pt Pl] Pd Pns Pla Pal Pst Pag]).
  pose proof (moved_wf Hwf f1 top0 start (g_m g1) Pp Pm) as Hwf1. rewrite <- Pr in Hwf1.
  assert (Hl1 : forall n, live R m0 n -> live R1 (g_m g1) (at_ f1 n)) by (intros n H; rewrite Pr; exact (moved_live Hwf f1 top0 start (g_m g1) Pp Pm n H)).
  assert (Hl2 : forall n', live R1 (g_m g1) n' -> exists n, live R m0 n /\ n' = at_ f1 n) by (intros n' H; rewrite Pr in H; exact (live_moved Hwf f1 top0 start (g_m g1) Pp Pm n' H)).
  assert (Hsz : forall n, live R m0 n -> sz (g_m g1) (at_ f1 n) = sz m0 n) by (intros n H; exact (moved_sz Hwf f1 top0 start (g_m g1) n Pp Pm H)).
  assert (Hpos : forall n, live R m0 n -> 0 < sz m0 n /\ snd n + sz m0 n <= top0) by (intros n H; pose proof (live_facts Hwf n H); tauto).
  assert (Hpn : forall n, In n Ns -> 0 <= sz m0 n) by (intros n Hn; apply Pns in Hn as [Hn _]; destruct (Hpos n Hn); lia).
  destruct (laid_in _ _ Ns Hpn _ _ Pla) as [Hle Hin].
  assert (Hcase : forall n, live R m0 n -> (snd n + sz m0 n <= top /\ snd n < low /\ f1 (snd n) = snd n) \/ (In n Ns /\ top <= f1 (snd n) /\ f1 (snd n) + sz m0 n <= top1) \/ (high <= snd n /\ low <= snd n /\ f1 (snd n) = snd n)).
  { intros n H. destruct (Hpos n H) as [Hp _]. destruct (Hgap n H) as [Hb|Hb]; [left; split; [exact Hb|split; [lia|apply Pst; [exact H|lia]]]|right].
    destruct (Z_lt_le_dec (snd n) high) as [Hh|Hh]; [left|right; split; [exact Hh|split; [exact Hb|apply Pst; [exact H|lia]]]].
    assert (HiN : In n Ns) by (apply Pns; auto). split; [exact HiN|]. exact (Hin n HiN). }
  set (L1 := map (at_ f1) (L ++ Ns)).
  assert (HL1 : laid snd (sz (g_m g1)) L1 start top1).
  { unfold L1. apply laid_map. apply (laid_app _ _ _ _ start top top1).
    - eapply laid_ext; [|exact Hlaid]. intros n Hn. apply HL in Hn as [Hn Hr]. cbn [at_ snd]. rewrite (Hsz n Hn). split; [|reflexivity]. symmetry. apply Pst; [exact Hn|lia].
    - eapply laid_ext; [|exact Pla]. intros n Hn. apply Pns in Hn as [Hn _]. cbn [at_ snd]. rewrite (Hsz n Hn). auto. }
  assert (HLd1 : NoDup L1).
  { unfold L1. assert (Hd : NoDup (L ++ Ns)).
    { clear -HLd Pd HL Pns. induction HLd as [|x L Hx HLd IH] in HL |- *; [exact Pd|]. cbn. constructor.
      - intro Hi. apply in_app_or in Hi as [Hi|Hi]; [contradiction|]. apply Pns in Hi. assert (Hx' : In x (x :: L)) by (left; reflexivity). apply HL in Hx'. lia.
      - assert (IHx : (forall n, In n L -> snd n < low) -> NoDup (L ++ Ns)).
        { clear -HLd Pd Pns. intro Hlow. induction HLd as [|y L Hy HLd IH]; [exact Pd|]. cbn. constructor.
          - intro Hi. apply in_app_or in Hi as [Hi|Hi]; [contradiction|]. apply Pns in Hi. pose proof (Hlow y ltac:(left; reflexivity)). lia.
          - apply IH. intros; apply Hlow; right; assumption. }
        apply IHx. intros n Hn. assert (Hx' : In n (x :: L)) by (right; exact Hn). apply HL in Hx'. lia. }
    assert (Hli : forall n, In n (L ++ Ns) -> live R m0 n) by (intros n Hn; apply in_app_or in Hn as [Hn|Hn]; [apply HL in Hn|apply Pns in Hn]; tauto).
    clear -Hd Hli Hwf Pp Pm. induction Hd as [|x l Hx Hd IHd]; cbn; constructor; [|apply IHd; intros; apply Hli; right; assumption].
    intro Hi. apply in_map_iff in Hi as (y & He & Hy). apply Hx.
    replace x with y; [exact Hy|]. apply (moved_inj Hwf f1 top0 start Pp); [apply Hli; right; exact Hy|apply Hli; left; reflexivity|exact He]. }
  assert (HinL1 : forall n', In n' L1 -> live R1 (g_m g1) n' /\ start <= snd n' /\ snd n' < top1).
  { intros n' Hn'. unfold L1 in Hn'. apply in_map_iff in Hn' as (n & <- & Hn). apply in_app_or in Hn as [Hn|Hn].
    - apply HL in Hn as [Hn Hr]. split; [exact (Hl1 n Hn)|]. cbn [at_ snd]. destruct (Hpos n Hn). destruct (Hgap n Hn); [|lia]. rewrite (Pst n Hn) by lia. lia.
    - pose proof (Hin n Hn). apply Pns in Hn as [Hn Hr]. split; [exact (Hl1 n Hn)|]. cbn [at_ snd]. destruct (Hpos n Hn). lia. }
  assert (Hstay1 : forall n, live R m0 n -> snd n < start -> f1 (snd n) = snd n) by (intros n H Hs; apply Pst; [exact H|lia]).
  destruct again.
  - destruct Pag as (Plen & Phigh & Plow).
    assert (Hlh : low <= high).
    { destruct Ns as [|n0 Ns']; [cbn in Plen; lia|]. pose proof (proj1 (Pns n0) ltac:(left; reflexivity)). lia. }
    set (A1 := filter (fun n : node => high <=? snd n) A).
    destruct (IH R1 (g_m g1) top0 start high top1 g1 L1 A1) as (R' & top' & g' & f2 & L' & Hr & Er & Hm2 & Hp2 & Hn2 & [Ht2 Hla2] & Hal2 & Hle2 & HL2 & HLd2 & Hlaid2 & Hst2); auto.
    + split; [lia|exact Pal].
    + intros n' Hn'. destruct (Hl2 n' Hn') as (n & Hn & ->). rewrite (Hsz n Hn). cbn [at_ snd]. destruct (Hcase n Hn) as [(H1 & _ & ->)|[(_ & H1 & H2)|(H1 & _ & ->)]]; lia.
    + intro n'. split; [intro Hn'; destruct (HinL1 n' Hn') as (H1 & H2 & H3); split; [exact H1|lia]|]. intros [Hn' Hr']. destruct (Hl2 n' Hn') as (n & Hn & ->). cbn [at_ snd] in Hr'.
      unfold L1. apply in_map, in_or_app. destruct (Hcase n Hn) as [(H1 & H2 & He)|[(H1 & _)|(H1 & _ & He)]]; [left; apply HL; split; [exact Hn|lia]|right; exact H1|lia].
    + intro n'. unfold A1. rewrite filter_In. rewrite Z.leb_le. split.
      * intros [Hn Hh]. apply HA in Hn as [Hn _]. split; [|exact Hh]. pose proof (Hl1 n' Hn) as Hx. unfold at_ in Hx. rewrite (Pst n' Hn) in Hx by lia. destruct n'; exact Hx.
      * intros [Hn' Hh]. destruct (Hl2 n' Hn') as (n & Hn & ->). cbn [at_ snd] in Hh. destruct (Hpos n Hn). destruct (Hcase n Hn) as [(H1 & H2 & He)|[(_ & H1 & H2)|(H1 & H2 & He)]]; [lia|lia|].
        assert (Hat : at_ f1 n = n) by (unfold at_; rewrite He; destruct n; reflexivity). rewrite Hat. split; [apply HA; auto|exact H1].
    + apply nodup_filter, HAd.
    + assert (Hlen : (length Ns <= length (filter (fun x : node => negb (high <=? snd x)%Z) A))%nat).
      { apply NoDup_incl_length; [exact Pd|]. intros n Hn. apply Pns in Hn as [Hn Hr]. apply filter_In. split; [apply HA; split; [exact Hn|lia]|]. apply negb_true_iff, Z.leb_gt. lia. }
      pose proof (filter_split (fun n : node => high <=? snd n) A) as Hs. fold A1 in Hs. cbn in Hfuel. lia.
    + exists R', top', g', (fun o => f2 (f1 o)), L'. split; [exact Hr|]. rewrite Pr in Er, Hm2, Hp2. split; [|split; [|split; [|split; [|split; [|split; [|split; [|split; [|split; [|split]]]]]]]]]; auto.
      * rewrite Er. apply (roots_twice Hwf f1 f2 top0 start Pp).
      * apply (moved_twice Hwf f1 f2 top0 start (g_m g1) (g_m g') Pp Pm Hm2).
      * apply (places_twice Hwf f1 f2 top0 start top0 start (g_m g1) Pp Pm Hp2).
      * split; [exact Ht2|congruence].
      * lia.
      * intros n Hn Hs. pose proof (Hstay1 n Hn Hs) as He. pose proof (Hl1 n Hn) as Hx. rewrite He. unfold at_ in Hx. rewrite He in Hx. apply (Hst2 (fst n, snd n)); [exact Hx|exact Hs].
  - subst high. exists R1, top1, g1, f1, L1. split; [reflexivity|]. do 7 (split; [solve [auto]|]). split; [|split; [exact HLd1|split; [exact HL1|exact Hstay1]]].
    intro n'. split; [intro Hn'; destruct (HinL1 n' Hn') as (H1 & H2 & H3); split; [exact H1|lia]|]. intros [Hn' Hr']. destruct (Hl2 n' Hn') as (n & Hn & ->). cbn [at_ snd] in Hr'.
    unfold L1. apply in_map, in_or_app. destruct (Hpos n Hn). destruct (Hcase n Hn) as [(H1 & H2 & He)|[(H1 & _)|(H1 & _ & He)]]; [left; apply HL; split; [exact Hn|lia]|right; exact H1|lia].
Qed.
End Collect.
