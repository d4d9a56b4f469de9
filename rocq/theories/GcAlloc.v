(** Collecting and allocating. *)
From Coq Require Import ZArith Bool List Lia Sorting.Sorted Sorting.Permutation.
From Verif Require Import Base FloatModel PolyModel PolyProofs CodeModel GcModel GcSpec GcHeapSpec GcProofs GcChunks GcMark GcMark2 GcMark3 GcMark4 GcMoved GcSlide GcMove GcMove2 GcMove3 GcSame GcPass GcPass2 GcCollect.
Import ListNotations.
Local Open Scope Z_scope.

Section Alloc.
Context {w : width} {POOL calloc csize : Z} {NCHUNK : nat}.
Notation none := (OFFSET_NONE w).
Notation live := (live w csize).
Notation sz m := (@GcMark.sz w POOL calloc m).
Notation moved_to := (moved_to w POOL calloc csize).
Notation places R m := (@places_ok w POOL calloc csize R m).
Notation passes := (passes w POOL NCHUNK calloc csize).
Notation wf := (wf w POOL calloc csize).
Notation collect := (collect w POOL NCHUNK calloc csize).
Notation alloc := (alloc w POOL NCHUNK calloc csize).
Notation ready := (ready w POOL calloc csize).
Notation same_heap := (same_heap w POOL calloc csize).
Notation tiles := (tiles w POOL calloc).
Notation packed := (packed w POOL calloc csize).
Notation lists := (lists w csize).
Notation sizes := (sizes w POOL calloc).
Notation deep := (deep POOL).

(** ** The objects are finitely many *)
Lemma live_list R m top last : wf R m top last -> exists L, lists R m L /\ 4 * Z.of_nat (length L) <= POOL /\ sizes m L <= top.
Proof.
  intro Hwf. set (g := {| g_m := m; g_busy := fun _ => false; g_chunks := []; g_first := O; g_low := 0; g_high := 0; g_note := none; g_top := top; g_last := last |}).
  destruct (pool_facts Hwf) as (Hpool & _). set (N := S (Z.to_nat POOL)).
  destruct (walk_ok (last0 := last) Hwf N 0 ltac:(unfold N; lia) g eq_refl eq_refl eq_refl eq_refl eq_refl) as (g1 & _ & Hm).
  pose proof (mk_chunks _ _ _ Hm) as Hch. assert (HN : (0 < N)%nat) by (unfold N; lia).
  assert (Hgap : forall n, live R m n -> snd n + sz m n <= 0 \/ 0 <= snd n) by (intros n H; right; apply (live_facts Hwf n H)).
  assert (Hwf0 : wf R m top 0).
  { apply (wf_tops Hwf); auto; try (intros n H; apply (live_facts Hwf n H)).
    destruct (wf_last _ _ _ _ _ _ _ _ Hwf). lia. }
  assert (Htop : 0 <= 0 <= 0 /\ 0 mod 4 = 0) by (split; [lia|reflexivity]).
  destruct (chunk_nodes Hwf0 HN 0 0 Hgap _ _ Hch) as (L & He & Hd & Hin).
  assert (Htot : total (g_chunks g1) = sizes m L).
  { rewrite He. clear. induction L as [|n L IH]; [reflexivity|]. cbn [map total]. rewrite IH. reflexivity. }
  assert (Hlen : 4 * Z.of_nat (length L) <= POOL /\ sizes m L <= top).
  { rewrite <- Htot. replace (length L) with (length (g_chunks g1)) by (rewrite He, map_length; reflexivity).
    assert (Hsz : forall c, In c (g_chunks g1) -> 4 <= snd c).
    { intros c Hc. destruct (chunk_node 0 _ _ Hch c Hc) as (n & Hn & -> & _). destruct (live_facts Hwf n Hn) as (_ & Hp & Hmod & _). cbn [snd].
      apply Z.mod_divide in Hmod as [q Hq]; lia. }
    pose proof (total_len _ Hsz) as Ht. destruct (g_chunks g1) as [|c l] eqn:Hg; [cbn; destruct (wf_last _ _ _ _ _ _ _ _ Hwf); lia|]. rewrite <- Hg in *.
    assert (Hne : g_chunks g1 <> []) by (rewrite Hg; discriminate).
    pose proof (end_high Hwf0 HN 0 0 Htop Hgap _ _ Hch Hne) as Heh.
    assert (Hh : g_high g1 <= top).
    { destruct (Nat.eq_dec (length (g_chunks g1)) N) as [E|E].
      - rewrite (h_full _ _ _ _ _ _ Hch E c). destruct (chunk_node 0 _ _ Hch _ (last_in _ c Hne)) as (n & Hn & -> & _). apply (live_facts Hwf n Hn).
      - rewrite (h_more _ _ _ _ _ _ Hch); [lia|]. pose proof (h_len _ _ _ _ _ _ Hch). lia. }
    lia. }
  assert (Hhigh : g_high g1 = top).
  { apply (h_more _ _ _ _ _ _ Hch). rewrite He, map_length. unfold N. lia. }
  exists L. split; [|exact Hlen]. split; [exact Hd|]. intro n. rewrite Hin, Hhigh. split; [tauto|]. intro H. split; [exact H|]. destruct (live_facts Hwf n H). lia.
Qed.

Lemma passes_more fuel : forall R top g x, passes fuel R top g = Some x -> passes (S fuel) R top g = Some x.
Proof.
  induction fuel as [|fuel IH]; intros R top g x H; [discriminate|]. rewrite passes_step in H |- *.
  destruct (pass _ _ _ _ _ _ _ _) as [[[[R1 top1] g1] [|]]|]; auto.
Qed.
Lemma passes_fuel fuel fuel' R top g x : (fuel <= fuel')%nat -> passes fuel R top g = Some x -> passes fuel' R top g = Some x.
Proof. induction 1 as [|fuel' H IH]; intro Hp; [exact Hp|]. apply passes_more, IH, Hp. Qed.

Lemma laid_tiles m L : (forall n, In n L -> osize w POOL calloc m n = Some (sz m n)) -> forall a b, laid snd (sz m) L a b -> tiles m L a b.
Proof.
  induction L as [|n L IH]; cbn; intros H a b Hl; [exact Hl|]. destruct Hl as [H1 H2]. split; [exact H1|]. exists (sz m n). split; [apply H; left; reflexivity|].
  apply IH; [intros; apply H; right; assumption|exact H2].
Qed.
Lemma laid_sizes m L : forall a b, laid snd (sz m) L a b -> b = a + sizes m L.
Proof. intros a b H. apply laid_total in H. exact H. Qed.

Hypothesis HN : (0 < NCHUNK)%nat.
Definition base (full : bool) (g : gc) : Z := if full || (g_last g =? 0) then 0 else g_last g.

Lemma collect_passes full R g fuel A : ready R g -> NoDup A -> (forall n, In n A <-> live R (g_m g) n /\ base full g <= snd n) -> (length A / NCHUNK < fuel)%nat ->
  exists R' top' g' f L', passes fuel R (base full g) (with_window (g_first g) (base full g) g) = Some (R', top', g') /\ R' = redirect_roots w f R /\ moved_to f R (g_m g) (g_m g') /\
    places R (g_m g) f (g_top g) (base full g) /\
    g_note g' = none /\ (g_top g' = g_top g /\ g_last g' = g_last g) /\ top' mod 4 = 0 /\ base full g <= top' /\
    (forall n, In n L' <-> live R' (g_m g') n /\ base full g <= snd n) /\ NoDup L' /\ laid snd (sz (g_m g')) L' (base full g) top' /\
    (forall n, live R (g_m g) n -> snd n < base full g -> f (snd n) = snd n).
Proof.
  intros [Hwf Hno Hmt Hml] Hd HA Hfuel. destruct (wf_last _ _ _ _ _ _ _ _ Hwf) as [Hl Hlast]. destruct (pool_facts Hwf) as (Hpool & _).
  assert (Hb : 0 <= base full g <= g_top g /\ base full g mod 4 = 0 /\ forall n, live R (g_m g) n -> snd n + sz (g_m g) n <= base full g \/ base full g <= snd n).
  { unfold base. destruct (full || (g_last g =? 0)).
    - split; [lia|]. split; [reflexivity|]. intros n H. right. apply (live_facts Hwf n H).
    - split; [lia|]. split; [exact Hml|]. intros n H. apply Hlast; [exact H|apply (live_facts Hwf n H)]. }
  destruct Hb as (Hb1 & Hb2 & Hb3).
  assert (Hwf' : wf R (g_m g) (g_top g) (base full g)) by (apply (wf_tops Hwf); auto; intros n H; apply (live_facts Hwf n H)).
  destruct (passes_ok (w := w) (POOL := POOL) (calloc := calloc) (csize := csize) HN fuel R (g_m g) (g_top g) (base full g) (base full g) (base full g) (with_window (g_first g) (base full g) g) [] A) as (R' & top' & g' & f & L' & H); auto.
  - split; [lia|exact Hb2].
  - intro n. split; [contradiction|]. intros [_ Hr]. lia.
  - constructor.
  - cbn. reflexivity.
  - pose proof (Nat.div_mod (length A) NCHUNK ltac:(lia)) as Hdm. pose proof (Nat.mod_upper_bound (length A) NCHUNK ltac:(lia)). nia.
  - exists R', top', g', f, L'. exact H.
Qed.

Lemma tiles_le R m top last L : wf R m top last -> (forall n, In n L -> live R m n) -> forall a b, laid snd (sz m) L a b -> forall n, In n L -> a <= snd n /\ snd n + sz m n <= b.
Proof.
  intros Hwf HL a b H. apply (laid_in snd (sz m) L); [|exact H]. intros n Hn. destruct (live_facts Hwf n (HL n Hn)). lia.
Qed.

Lemma collect_ok full R g : ready R g ->
  exists R' g' f, collect full R g = Some (POOL - g_top g', R', g') /\ same_heap f R (g_m g) R' (g_m g') /\ ready R' g' /\
    packed R' (g_m g') (base full g) (g_top g') /\ g_last g' = (if full || (g_last g =? 0) then g_top g' else g_last g) /\
    (forall n, live R (g_m g) n -> snd n < base full g -> f (snd n) = snd n) /\ base full g <= g_top g' /\
    places R (g_m g) f (g_top g) (base full g).
Proof.
  intro Hr. destruct Hr as [Hwf Hno Hmt Hml] eqn:Hr0. clear Hr0. destruct (live_list _ _ _ _ Hwf) as (L & [HLd HL] & Hlen & _).
  set (A := filter (fun n : node => base full g <=? snd n) L).
  destruct (collect_passes full R g deep A Hr) as (R' & top' & g' & f & L' & Hp & HR & Hm & Hpl & Hn' & [Ht' Hl'] & Hmod & Hle & HinL & HdL & Hlaid & Hst).
  - apply nodup_filter, HLd.
  - intro n. unfold A. rewrite filter_In, HL, Z.leb_le. reflexivity.
  - assert (length A <= length L)%nat by (apply NoDup_incl_length; [apply nodup_filter, HLd|intros n Hn; apply filter_In in Hn; tauto]).
    assert (Z.of_nat (length L) <= POOL / 4) by (apply Z.div_le_lower_bound; lia).
    apply Nat.div_lt_upper_bound; [lia|]. unfold GcModel.deep. nia.
  - destruct (pool_facts Hwf) as (Hpool & Hpn & _). pose proof (none_word Hwf) as (Hnw & _). destruct (wf_last _ _ _ _ _ _ _ _ Hwf) as [Hl0 _].
    assert (Hwf1 : wf R' (g_m g') (g_top g) (base full g)).
    { assert (Hwf0 : wf R (g_m g) (g_top g) (g_last g)) by exact Hwf. rewrite HR. exact (moved_wf Hwf f (g_top g) (base full g) (g_m g') Hpl Hm). }
    assert (HLl : forall n, In n L' -> live R' (g_m g') n) by (intros n Hn; apply HinL in Hn; tauto).
    pose proof (tiles_le _ _ _ _ L' Hwf1 HLl _ _ Hlaid) as Htl. destruct (wf_last _ _ _ _ _ _ _ _ Hwf1) as [Hb1 Hb2].
    assert (Hall : forall n, live R' (g_m g') n -> snd n + sz (g_m g') n <= top').
    { intros n H. destruct (live_facts Hwf1 n H) as (He & Hps & _). destruct (Hb2 n (sz (g_m g') n) H He) as [Hx|Hx]; [lia|]. apply Htl, HinL. auto. }
    assert (Htop' : top' <= g_top g).
    { destruct (laid_in snd (sz (g_m g')) L' ltac:(intros n Hn; destruct (live_facts Hwf1 n (HLl n Hn)); lia) _ _ Hlaid) as [Hab _].
      destruct L' as [|x l] eqn:HLe; [cbn in Hlaid; lia|]. rewrite <- HLe in *. assert (Hne : L' <> []) by (rewrite HLe; discriminate).
      assert (Hlast : forall l a b, l <> [] -> laid snd (sz (g_m g')) l a b -> exists n, In n l /\ snd n + sz (g_m g') n = b).
      { clear. induction l as [|n l IH]; intros a b Hne H; [congruence|]. cbn in H. destruct H as [H1 H2]. destruct l as [|n2 l].
        - cbn in H2. exists n. split; [left; reflexivity|lia].
        - destruct (IH _ _ ltac:(discriminate) H2) as (y & Hy & He). exists y. split; [right; exact Hy|exact He]. }
      destruct (Hlast L' _ _ Hne Hlaid) as (y & Hy & <-). apply (live_facts Hwf1 y (HLl y Hy)). }
    unfold GcModel.collect. fold (base full g). rewrite Hp. cbv zeta.
    exists R', (with_tops top' (if full || (g_last g =? 0) then top' else g_last g') g'), f. cbn [with_tops g_top g_m g_last].
    split; [|split; [|split; [|split; [|split; [|split; [|split]]]]]].
    + rewrite (u_small (w := w)) by lia. reflexivity.
    + split; [exact HR|]. split; [exact Hm|]. intros n n' H H' He. destruct (p_apart _ _ _ Hpl n n' H H') as [|Ha]; [assumption|].
      destruct (live_facts Hwf n H) as (_ & Hx & _). destruct (live_facts Hwf n' H') as (_ & Hx' & _). lia.
    + constructor; cbn [with_tops g_top g_m g_last g_note]; auto.
      * apply (wf_tops Hwf1); auto; [lia| |].
        -- destruct (full || (g_last g =? 0)) eqn:Hf; [lia|]. rewrite Hl'. unfold base in *. rewrite Hf in *. lia.
        -- intros n H. destruct (full || (g_last g =? 0)) eqn:Hf; [left; exact (Hall n H)|]. rewrite Hl'. unfold base in *. rewrite Hf in *. apply Hb2; [exact H|apply (live_facts Hwf1 n H)].
      * destruct (full || (g_last g =? 0)); [exact Hmod|rewrite Hl'; exact Hml].
    + exists L'. split; [exact HdL|]. split; [exact HinL|]. apply laid_tiles; [|exact Hlaid]. intros n Hn. apply (live_facts Hwf1 n (HLl n Hn)).
    + destruct (full || (g_last g =? 0)); [reflexivity|exact Hl'].
    + exact Hst.
    + exact Hle.
    + exact Hpl.
Qed.

(** ** Two listings of the objects *)
Lemma sizes_perm m L L' : Permutation L L' -> sizes m L = sizes m L'.
Proof. induction 1; unfold GcHeapSpec.sizes in *; cbn in *; lia. Qed.
Lemma lists_perm R m L L' : lists R m L -> lists R m L' -> Permutation L L'.
Proof. intros [H1 H2] [H3 H4]. apply NoDup_Permutation; auto. intro n. rewrite H2, H4. reflexivity. Qed.
Lemma lists_moved R m top last f top1 last1 m1 L : wf R m top last -> places R m f top1 last1 -> moved_to f R m m1 -> lists R m L ->
  lists (redirect_roots w f R) m1 (map (at_ f) L) /\ sizes m1 (map (at_ f) L) = sizes m L.
Proof.
  intros Hwf Hp Hm [Hd HL]. split; [split|].
  - assert (Hli : forall n, In n L -> live R m n) by (intros n; apply HL). clear HL. induction Hd as [|x l Hx Hd IH]; cbn; constructor; [|apply IH; intros; apply Hli; right; assumption].
    intro Hi. apply in_map_iff in Hi as (y & He & Hy). apply Hx. replace x with y; [exact Hy|].
    apply (moved_inj Hwf f top1 last1 Hp); [apply Hli; right; exact Hy|apply Hli; left; reflexivity|exact He].
  - intro n'. rewrite in_map_iff. split.
    + intros (n & <- & Hn). apply (moved_live Hwf f top1 last1 m1 Hp Hm). apply HL, Hn.
    + intro Hn'. destruct (live_moved Hwf f top1 last1 m1 Hp Hm n' Hn') as (n & Hn & ->). exists n. split; [reflexivity|]. apply HL, Hn.
  - assert (Hli : forall n, In n L -> live R m n) by (intros n; apply HL). clear HL Hd. induction L as [|n L IH]; [reflexivity|]. cbn.
    destruct (moved_obj Hwf f top1 last1 m1 Hp Hm n (Hli n ltac:(left; reflexivity))) as [-> _]. destruct (live_facts Hwf n (Hli n ltac:(left; reflexivity))) as (-> & _).
    unfold GcHeapSpec.sizes in IH. rewrite IH by (intros; apply Hli; right; assumption). reflexivity.
Qed.
Lemma tiles_sizes m L : forall a b, tiles m L a b -> b = a + sizes m L.
Proof.
  induction L as [|n L IH]; intros a b Ht; unfold GcHeapSpec.sizes in *; cbn in *; [lia|]. destruct Ht as (_ & s & -> & Ht). rewrite (IH _ _ Ht). lia.
Qed.
Lemma packed_sizes R m top L : packed R m 0 top -> (forall n, live R m n -> 0 <= snd n) -> lists R m L -> top = sizes m L.
Proof.
  intros (L' & Hd & Hin & Ht) Hpos HL. assert (HL' : lists R m L').
  { split; [exact Hd|]. intro n. rewrite Hin. split; [tauto|]. intro H. auto. }
  rewrite (sizes_perm m _ _ (lists_perm _ _ _ _ HL HL')), (tiles_sizes _ _ _ _ Ht). reflexivity.
Qed.

(** ** Handing out storage *)
Lemma zero_ok R g s : ready R g -> 0 <= s -> s mod 4 = 0 -> g_top g + s <= POOL ->
  let g' := with_tops (g_top g + s) (g_last g) (with_m (zero (g_top g) s (g_m g)) g) in
  places R (g_m g) stay (g_top g + s) (g_last g) /\ moved_to stay R (g_m g) (g_m g') /\ ready R g' /\
  (forall n z, live R (g_m g') n -> osize w POOL calloc (g_m g') n = Some z -> snd n + z <= g_top g).
Proof.
  intros [Hwf Hno Hmt Hml] Hs Hs4 Hfit g'. pose proof (places_stay Hwf (g_top g + s) ltac:(lia)) as Hp.
  assert (Hm : moved_to stay R (g_m g) (g_m g')).
  { apply (mark_moved Hwf), (agree_mark Hwf); cbn [g' with_tops with_m g_m].
    - intro a. unfold zero. destruct (_ && _); [lia|]. apply (wf_bytes _ _ _ _ _ _ _ _ Hwf).
    - intros n i H Hi. unfold zero. destruct (live_facts Hwf n H) as (_ & _ & _ & _ & _ & Ht). destruct (Z.leb_spec (g_top g) (snd n + i)); [lia|reflexivity]. }
  pose proof (moved_wf Hwf stay _ _ _ Hp Hm) as Hwf'. rewrite (roots_stay Hwf) in Hwf'. split; [exact Hp|]. split; [exact Hm|]. split.
  - constructor; cbn [g' with_tops with_m g_m g_top g_last g_note]; auto. rewrite Z.add_mod, Hmt, Hs4 by lia. reflexivity.
  - intros n z H Hz. pose proof (proj1 (marked_live Hwf _ n Hm) H) as H0. pose proof (marked_sz Hwf _ n Hm H0) as He. destruct (live_facts Hwf n H0) as (_ & _ & _ & _ & _ & Ht).
    unfold GcMark.sz in He at 1. rewrite Hz in He. lia.
Qed.

Definition room (size : Z) : Z := (size + 3) / 4 * 4.
Lemma round_room size : 0 <= size -> size + 3 < 2 ^ wbits w -> size_round w size = room size /\ 0 <= room size < 2 ^ wbits w /\ room size mod 4 = 0.
Proof.
  intros H1 H2. assert (Hr : 0 <= room size <= size + 3).
  { unfold room. pose proof (Z.div_pos (size + 3) 4 ltac:(lia) ltac:(lia)). pose proof (Z.mul_div_le (size + 3) 4 ltac:(lia)). lia. }
  split; [|split; [lia|apply Z.mod_mul; lia]]. unfold size_round. rewrite (u_small (w := w) size) by lia. apply (u_small (w := w)). fold (room size). lia.
Qed.

Lemma alloc_ok size R g : ready R g -> 0 <= size -> size + 3 < 2 ^ wbits w ->
  exists r R' g' f, alloc size R g = Some (r, R', g') /\ same_heap f R (g_m g) R' (g_m g') /\ ready R' g' /\
    match r with
    | Some a => 0 <= a /\ a mod 4 = 0 /\ a + room size = g_top g' /\ g_top g' <= POOL /\ (forall i, 0 <= i < room size -> g_m g' (a + i) = 0) /\
        (forall n z, live R' (g_m g') n -> osize w POOL calloc (g_m g') n = Some z -> snd n + z <= a)
    | None => packed R' (g_m g') 0 (g_top g') /\ POOL < g_top g' + room size
    end /\
    exists top1 last1, places R (g_m g) f top1 last1.
Proof.
  intros Hr H1 H2. destruct (round_room size H1 H2) as (Hround & Hrm & Hr4).
  assert (Hgive : forall R1 g1 f1 top1 last1, ready R1 g1 -> R1 = redirect_roots w f1 R -> moved_to f1 R (g_m g) (g_m g1) -> places R (g_m g) f1 top1 last1 -> room size <= POOL - g_top g1 ->
    exists r R' g' f, Some (Some (g_top g1), R1, with_tops (u_of w (g_top g1 + room size)) (g_last g1) (with_m (zero (g_top g1) (room size) (g_m g1)) g1)) = Some (r, R', g') /\ same_heap f R (g_m g) R' (g_m g') /\ ready R' g' /\
    match r with
    | Some a => 0 <= a /\ a mod 4 = 0 /\ a + room size = g_top g' /\ g_top g' <= POOL /\ (forall i, 0 <= i < room size -> g_m g' (a + i) = 0) /\
        (forall n z, live R' (g_m g') n -> osize w POOL calloc (g_m g') n = Some z -> snd n + z <= a)
    | None => packed R' (g_m g') 0 (g_top g') /\ POOL < g_top g' + room size
    end /\
    exists top1 last1, places R (g_m g) f top1 last1).
  { intros R1 g1 f1 top1 last1 Hr1 HR1 Hm1 Hp1 Hfit. destruct Hr1 as [Hwf1 Hno1 Ht1 Hl1] eqn:E. clear E. destruct Hr as [Hwf Hno Ht Hl] eqn:E. clear E.
    destruct (pool_facts Hwf1) as (Hpool & Hpn & _). pose proof (none_word Hwf1) as (Hnw & _). destruct (wf_last _ _ _ _ _ _ _ _ Hwf1) as [Hlo _].
    rewrite (u_small (w := w)) by lia. destruct (zero_ok R1 g1 (room size) Hr1 ltac:(lia) Hr4 ltac:(lia)) as (Hp2 & Hm2 & Hr2 & Hb2).
    rewrite HR1 in Hm2, Hp2. eexists _, _, _, f1. split; [reflexivity|].
    assert (Hmv : moved_to f1 R (g_m g) (zero (g_top g1) (room size) (g_m g1))) by exact (moved_twice Hwf f1 stay top1 last1 _ _ Hp1 Hm1 Hm2).
    split; [|split; [exact Hr2|split; [|exists top1, last1; exact Hp1]]].
    - split; [exact HR1|]. split; [exact Hmv|]. intros n n' H H' He. destruct (p_apart _ _ _ Hp1 n n' H H') as [|Ha]; [assumption|].
      destruct (live_facts Hwf n H) as (_ & Hx & _). destruct (live_facts Hwf n' H') as (_ & Hx' & _). lia.
    - cbn [with_tops with_m g_top g_m]. split; [lia|]. split; [exact Ht1|]. split; [reflexivity|]. split; [lia|]. split; [|exact Hb2].
      intros i Hi. unfold zero. destruct (Z.leb_spec (g_top g1) (g_top g1 + i)); [|lia]. destruct (Z.ltb_spec (g_top g1 + i) (g_top g1 + room size)); [reflexivity|lia]. }
  unfold GcModel.alloc. rewrite Hround. destruct Hr as [Hwf Hno Ht Hl] eqn:E. clear E. destruct (pool_facts Hwf) as (Hpool & _).
  destruct (Z.ltb_spec (POOL - g_top g) (room size)) as [Hno1|Hfit].
  - destruct (collect_ok false R g Hr) as (R1 & g1 & f1 & -> & (HR1 & Hm1 & _) & Hr1 & _ & _ & _ & _ & Hp1).
    destruct (Z.ltb_spec (POOL - g_top g1) (room size)) as [Hno2|Hfit].
    + destruct (collect_ok true R1 g1 Hr1) as (R2 & g2 & f2 & -> & (HR2 & Hm2 & _) & Hr2 & Hpk & _ & _ & _ & Hp2).
      rewrite HR1 in HR2, Hm2, Hp2.
      assert (HR : R2 = redirect_roots w (fun o => f2 (f1 o)) R) by (rewrite HR2; exact (roots_twice Hwf f1 f2 _ _ Hp1)).
      pose proof (moved_twice Hwf f1 f2 _ _ _ _ Hp1 Hm1 Hm2) as Hm. pose proof (places_twice Hwf f1 f2 _ _ _ _ _ Hp1 Hm1 Hp2) as Hp.
      destruct (Z.ltb_spec (POOL - g_top g2) (room size)) as [Hno3|Hfit]; cbn [negb].
      * eexists None, R2, g2, _. split; [reflexivity|]. split; [|split; [exact Hr2|split; [split; [exact Hpk|lia]|eexists _, _; exact Hp]]].
        split; [exact HR|]. split; [exact Hm|]. intros n n' H H' He. destruct (p_apart _ _ _ Hp n n' H H') as [|Ha]; [assumption|].
        destruct (live_facts Hwf n H) as (_ & Hx & _). destruct (live_facts Hwf n' H') as (_ & Hx' & _). lia.
      * exact (Hgive R2 g2 _ _ _ Hr2 HR Hm Hp Hfit).
    + exact (Hgive R1 g1 _ _ _ Hr1 HR1 Hm1 Hp1 Hfit).
  - apply (Hgive R g stay (g_top g) (g_last g) Hr); [symmetry; apply (roots_stay Hwf)| | |exact Hfit].
    + apply (mark_moved Hwf), (agree_mark Hwf); [apply (wf_bytes _ _ _ _ _ _ _ _ Hwf)|reflexivity].
    + apply (places_stay Hwf). lia.
Qed.
Lemma alloc_fails size R g L : ready R g -> 0 <= size -> size + 3 < 2 ^ wbits w -> lists R (g_m g) L ->
  (exists R' g', alloc size R g = Some (None, R', g')) <-> POOL < sizes (g_m g) L + room size.
Proof.
  intros Hr H1 H2 HL. destruct (alloc_ok size R g Hr H1 H2) as (r & R' & g' & f & -> & (HR & Hm & _) & Hr' & Hres & top1 & last1 & Hp). destruct Hr as [Hwf _ _ _]. destruct Hr' as [Hwf' _ _ _].
  destruct (lists_moved _ _ _ _ f top1 last1 (g_m g') L Hwf Hp Hm HL) as [HL' Hsz]. rewrite <- HR in HL'. rewrite <- Hsz. destruct r as [a|].
  - split; [intros (? & ? & He); discriminate|]. intro Hlt. exfalso. destruct Hres as (Ha & _ & Htop & Hpl & _ & Hb).
    assert (Hwfa : wf R' (g_m g') a 0).
    { apply (wf_tops Hwf'); [destruct (round_room size H1 H2); lia| |lia|].
      - intros n H. apply (Hb n _ H). apply (live_facts Hwf' n H).
      - intros n H. right. apply (live_facts Hwf' n H). }
    destruct (live_list _ _ _ _ Hwfa) as (L2 & HL2 & _ & Hs2). rewrite (sizes_perm _ _ _ (lists_perm _ _ _ _ HL' HL2)) in Hlt. lia.
  - destruct Hres as [Hpk Hlt]. split; [|intros _; exists R', g'; reflexivity]. intros _.
    rewrite <- (packed_sizes _ _ _ _ Hpk ltac:(intros n H; apply (live_facts Hwf' n H)) HL'). exact Hlt.
Qed.
Lemma collect_total R g R' g' f top1 last1 L : ready R g -> ready R' g' -> R' = redirect_roots w f R -> moved_to f R (g_m g) (g_m g') -> places R (g_m g) f top1 last1 ->
  packed R' (g_m g') 0 (g_top g') -> lists R (g_m g) L -> g_top g' = sizes (g_m g) L.
Proof.
  intros [Hwf _ _ _] [Hwf' _ _ _] HR Hm Hp Hpk HL. destruct (lists_moved _ _ _ _ f top1 last1 (g_m g') L Hwf Hp Hm HL) as [HL' Hsz]. rewrite <- HR in HL'. rewrite <- Hsz.
  exact (packed_sizes _ _ _ _ Hpk ltac:(intros n H; apply (live_facts Hwf' n H)) HL').
Qed.
Lemma collect_ends full R g L fuel : ready R g -> lists R (g_m g) L -> (length L / NCHUNK + 1 <= fuel)%nat ->
  exists R' top' g', passes fuel R (base full g) (with_window (g_first g) (base full g) g) = Some (R', top', g') /\
    collect full R g = Some (u_of w (POOL - top'), R', with_tops top' (if full || (g_last g =? 0) then top' else g_last g') g').
Proof.
  intros Hr [HLd HL] Hf. set (A := filter (fun n : node => base full g <=? snd n) L).
  assert (HA : forall n, In n A <-> live R (g_m g) n /\ base full g <= snd n) by (intro n; unfold A; rewrite filter_In, HL, Z.leb_le; reflexivity).
  assert (Hlen : (length A <= length L)%nat) by (apply NoDup_incl_length; [apply nodup_filter, HLd|intros n Hn; apply filter_In in Hn; tauto]).
  assert (Hdiv : (length A / NCHUNK <= length L / NCHUNK)%nat) by (apply Nat.div_le_mono; lia).
  destruct (collect_passes full R g fuel A Hr (nodup_filter _ _ HLd) HA ltac:(lia)) as (R' & top' & g' & f & L' & Hp & _).
  exists R', top', g'. split; [exact Hp|]. pose proof Hr as [Hwf _ _ _]. destruct (live_list _ _ _ _ Hwf) as (L0 & [HLd0 HL0] & Hl4 & _).
  assert (Hl0 : (length L <= length L0)%nat) by (apply NoDup_incl_length; [exact HLd|intros n Hn; apply HL0, HL, Hn]).
  assert (Hd : (length A / NCHUNK < deep)%nat).
  { assert (Z.of_nat (length L0) <= POOL / 4) by (apply Z.div_le_lower_bound; lia). apply Nat.div_lt_upper_bound; [lia|]. unfold GcModel.deep. nia. }
  destruct (collect_passes full R g deep A Hr (nodup_filter _ _ HLd) HA Hd) as (R2 & top2 & g2 & f2 & L2 & Hp2 & _).
  assert (He : Some (R2, top2, g2) = Some (R', top', g')).
  { destruct (Nat.le_ge_cases fuel deep) as [H|H]; [rewrite <- Hp2; exact (passes_fuel _ _ _ _ _ _ H Hp)|rewrite <- Hp; symmetry; exact (passes_fuel _ _ _ _ _ _ H Hp2)]. }
  injection He as -> -> ->. unfold GcModel.collect. fold (base full g). rewrite Hp2. reflexivity.
Qed.
(** a request near the largest number wraps to nothing *)
Lemma alloc_wraps size R g : ready R g -> 2 ^ wbits w - 3 <= size < 2 ^ wbits w -> alloc size R g = Some (Some (g_top g), R, with_m (zero (g_top g) 0 (g_m g)) g).
Proof.
  intros [Hwf _ _ _] Hs. destruct (pool_facts Hwf) as (Hpool & Hpn & _). pose proof (none_word Hwf) as (Hnw & _). destruct (wf_last _ _ _ _ _ _ _ _ Hwf) as [Hlo _].
  assert (Hround : size_round w size = 0).
  { unfold size_round. rewrite (u_small (w := w) size) by lia. replace ((size + 3) / 4) with (2 ^ wbits w / 4).
    - unfold u_of, wrapu. destruct w; reflexivity.
    - apply (Z.div_unique _ _ _ (size + 3 - 2 ^ wbits w)); [lia|]. replace (4 * (2 ^ wbits w / 4)) with (2 ^ wbits w) by (destruct w; reflexivity). lia. }
  unfold GcModel.alloc. rewrite Hround. destruct (Z.ltb_spec (POOL - g_top g) 0); [lia|]. rewrite Z.add_0_r, (u_small (w := w)) by lia. destruct g; reflexivity.
Qed.
End Alloc.
