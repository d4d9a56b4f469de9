(** One pass of the collector. *)
From Coq Require Import ZArith Bool List Lia Sorting.Sorted.
From Verif Require Import Base FloatModel PolyModel PolyProofs CodeModel GcModel GcSpec GcProofs GcChunks GcMark GcMark2 GcMark3 GcMark4 GcMoved GcSlide GcMove GcMove2 GcMove3 GcSame.
Import ListNotations.
Local Open Scope Z_scope.

(** ** More about sliding *)
Lemma slide_bytes w cs : forall top m, bytes m -> bytes (snd (slide w cs top m)).
Proof.
  induction cs as [|[old s] cs IH]; intros top m H; [exact H|]. cbn [slide].
  specialize (IH (u_of w (top + s)) (copy top old s m)). destruct (slide w cs _ _) as [[cs' top'] m'] eqn:He. cbn [snd] in *. apply IH.
  intro a. unfold copy. destruct (_ && _); apply H.
Qed.
Lemma span cs : forall top d, cs <> [] -> ordered cs -> (forall c, In c cs -> top <= fst c) -> top + total cs <= fst (last cs d) + snd (last cs d).
Proof.
  induction cs as [|[old s] cs IH]; intros top d Hne H Ht; [congruence|]. destruct (ordered_tl _ _ H) as (H' & Hs & Hb). cbn in Hs.
  pose proof (Ht (old, s) ltac:(left; reflexivity)) as Ho. cbn in Ho. destruct cs as [|c cs]; [cbn; lia|].
  specialize (IH (top + s) d ltac:(discriminate) H'). cbn [total last] in *. 
  assert (Hx : forall c0, In c0 (c :: cs) -> top + s <= fst c0) by (intros c0 Hc; specialize (Hb c0 Hc); unfold before in Hb; cbn in Hb; lia).
  specialize (IH Hx). lia.
Qed.
Lemma rising_ext a b : map fst a = map fst b -> rising a -> rising b.
Proof.
  intros He H i j x y Hij Hx Hy. assert (Hm : forall n z, nth_error b n = Some z -> exists z', nth_error a n = Some z' /\ fst z' = fst z).
  { intros n z Hz. apply (map_nth_error fst) in Hz. rewrite <- He, nth_error_map in Hz. destruct (nth_error a n) as [z'|]; [|discriminate]. exists z'. split; [reflexivity|]. cbn in Hz. congruence. }
  destruct (Hm i x Hx) as (x' & Hx' & <-). destruct (Hm j y Hy) as (y' & Hy' & <-). exact (H i j x' y' Hij Hx' Hy').
Qed.
Lemma total_mod cs : (forall c, In c cs -> snd c mod 4 = 0) -> total cs mod 4 = 0.
Proof.
  induction cs as [|[o s] cs IH]; intro H; [reflexivity|]. cbn [total]. rewrite Z.add_mod, IH by (try lia; intros; apply H; right; assumption).
  pose proof (H (o, s) ltac:(left; reflexivity)) as Hs. cbn in Hs. rewrite Hs. reflexivity.
Qed.

(** objects one after the other *)
Fixpoint laid (p s : node -> Z) (L : list node) (a b : Z) : Prop :=
  match L with [] => a = b | n :: L => p n = a /\ laid p s L (a + s n) b end.
Lemma laid_app p s L L' : forall a b c, laid p s L a b -> laid p s L' b c -> laid p s (L ++ L') a c.
Proof. induction L as [|n L IH]; cbn; intros a b c H H'; [subst; exact H'|]. destruct H as [H1 H2]. split; [exact H1|exact (IH _ _ _ H2 H')]. Qed.
Lemma laid_ext p s p' s' L : (forall n, In n L -> p n = p' n /\ s n = s' n) -> forall a b, laid p s L a b -> laid p' s' L a b.
Proof.
  induction L as [|n L IH]; cbn; intros H a b Hl; [exact Hl|]. destruct (H n ltac:(left; reflexivity)) as [<- <-]. destruct Hl as [H1 H2]. split; [exact H1|].
  apply IH; [intros; apply H; right; assumption|exact H2].
Qed.
Lemma laid_map p s h L : forall a b, laid (fun n => p (h n)) (fun n => s (h n)) L a b -> laid p s (map h L) a b.
Proof. induction L as [|n L IH]; cbn; intros a b H; [exact H|]. destruct H as [H1 H2]. split; [exact H1|exact (IH _ _ H2)]. Qed.
Lemma laid_total p s L : forall a b, laid p s L a b -> b = a + fold_right (fun n t => s n + t) 0 L.
Proof. induction L as [|n L IH]; cbn; intros a b H; [lia|]. destruct H as [_ H]. apply IH in H. lia. Qed.
Lemma laid_newpos (s : node -> Z) (p : node -> Z) L : forall top cs, cs = map (fun n => (p n, s n)) L -> ordered cs -> laid (fun n => newpos cs top (p n)) s L top (top + total cs).
Proof.
  induction L as [|n L IH]; intros top cs He H; subst cs; cbn [map laid total newpos]; [lia|]. rewrite Z.eqb_refl. split; [reflexivity|].
  cbn [map] in H. destruct (ordered_tl _ _ H) as (H' & Hs & Hb). cbn [snd] in Hs. specialize (IH (top + s n) _ eq_refl H'). rewrite Z.add_assoc.
  eapply laid_ext; [|exact IH]. intros x Hx. split; [|reflexivity]. cbn beta. cbn [newpos].
  specialize (Hb (p x, s x)). rewrite in_map_iff in Hb. specialize (Hb ltac:(exists x; auto)). unfold before in Hb. cbn in Hb.
  destruct (Z.eqb_spec (p x) (p n)); [lia|reflexivity].
Qed.

Section Pass.
Context {w : width} {POOL calloc csize : Z} {NCHUNK : nat} {R : roots} {m0 : mem} {top0 lastw : Z}.
Notation k := (Z.of_nat (obytes w)).
Notation none := (OFFSET_NONE w).
Notation live := (live w csize R m0).
Notation sz := (@sz w POOL calloc m0).
Notation moved_to := (moved_to w POOL calloc csize).
Notation places := (@places_ok w POOL calloc csize R m0).
Hypothesis Hwf : wf w POOL calloc csize R m0 top0 lastw.
Hypothesis HN : (0 < NCHUNK)%nat.
Variables low top : Z.
Hypothesis Htop : lastw <= top <= low /\ top mod 4 = 0.
Hypothesis Hgap : forall n, live n -> snd n + sz n <= top \/ low <= snd n.

(** the chunks of memory [m0] *)
Section Chunks.
Variable cs : list (Z * Z).
Variable high : Z.
Hypothesis Hch : holds NCHUNK top0 low (fun c => exists n, live n /\ c = (snd n, sz n)) cs high.
Notation phi := (newpos cs top).

Lemma top_pos : 0 <= top.
Proof. destruct (wf_last _ _ _ _ _ _ _ _ Hwf). lia. Qed.
Lemma chunk_node c : In c cs -> exists n, live n /\ c = (snd n, sz n) /\ low <= snd n.
Proof. intro H. destruct (h_from _ _ _ _ _ _ Hch c H) as [(n & Hn & ->) Hl]. exists n. auto. Qed.
Lemma chunk_small c : In c cs -> top <= fst c /\ fst c + snd c < 2 ^ wbits w.
Proof.
  intro H. destruct (chunk_node c H) as (n & Hn & -> & Hl). cbn [fst snd]. destruct (live_facts Hwf n Hn) as (_ & _ & _ & _ & _ & Ht).
  destruct (pool_facts Hwf) as (Hp & Hno & _). pose proof (none_word Hwf). lia.
Qed.
Lemma chunk_high c : In c cs -> fst c + snd c <= high.
Proof.
  intro H. destruct (Nat.eq_dec (length cs) NCHUNK) as [He|Hne].
  - rewrite (h_full _ _ _ _ _ _ Hch He c). destruct (ordered_last cs c c (h_ord _ _ _ _ _ _ Hch) H) as [Hl|Hl]; [rewrite <- Hl; lia|].
    unfold before in Hl. assert (Hls : In (last cs c) cs) by (apply last_in; intro Hx; rewrite Hx in H; contradiction).
    pose proof (ordered_pos _ (h_ord _ _ _ _ _ _ Hch) _ Hls). lia.
  - rewrite (h_more _ _ _ _ _ _ Hch) by (pose proof (h_len _ _ _ _ _ _ Hch); lia). destruct (chunk_node c H) as (n & Hn & -> & _). apply (live_facts Hwf n Hn).
Qed.
Lemma not_chunk o : o < low \/ high <= o -> forall s, ~ In (o, s) cs.
Proof.
  intros Ho s Hin. pose proof (chunk_high _ Hin) as Hh. destruct (chunk_node _ Hin) as (n & Hn & He & Hl). injection He as -> ->.
  destruct (live_facts Hwf n Hn) as (_ & Hp & _). cbn [fst snd] in Hh. lia.
Qed.
Lemma where_ n : live n -> (snd n + sz n <= top /\ phi (snd n) = snd n) \/ In (snd n, sz n) cs \/ (high <= snd n /\ phi (snd n) = snd n).
Proof.
  intro H. destruct (live_facts Hwf n H) as (_ & Hp & _). destruct (Hgap n H) as [Hb|Hl].
  - left. split; [exact Hb|]. apply newpos_out, not_chunk. left. lia.
  - destruct (Z_lt_le_dec (snd n) high) as [Hh|Hh].
    + right. left. apply (h_all _ _ _ _ _ _ Hch); [exists n; auto|]. cbn [fst]. lia.
    + right. right. split; [exact Hh|]. apply newpos_out, not_chunk. right. exact Hh.
Qed.
Lemma end_le n : live n -> high <= snd n -> top + total cs <= snd n.
Proof.
  intros H Hh. destruct (live_facts Hwf n H) as (_ & Hp & _ & _ & _ & Ht). destruct cs as [|c l] eqn:He.
  - cbn. pose proof (h_more _ _ _ _ _ _ Hch) as Hm. cbn in Hm. specialize (Hm HN). lia.
  - rewrite <- He in *. assert (Hne : cs <> []) by (rewrite He; discriminate).
    pose proof (span cs top c Hne (h_ord _ _ _ _ _ _ Hch) ltac:(intros d Hd; destruct (chunk_small d Hd); assumption)) as Hs.
    pose proof (chunk_high _ (last_in cs c Hne)). lia.
Qed.
Lemma end_high : cs <> [] -> top + total cs <= high.
Proof.
  intro Hne. pose proof (span cs top (0, 0) Hne (h_ord _ _ _ _ _ _ Hch) ltac:(intros d Hd; destruct (chunk_small d Hd); assumption)) as Hs.
  pose proof (chunk_high _ (last_in cs (0, 0) Hne)). lia.
Qed.
Lemma phi_in n : live n -> In (snd n, sz n) cs -> top <= phi (snd n) /\ phi (snd n) + sz n <= top + total cs /\ phi (snd n) <= snd n.
Proof.
  intros H Hin. pose proof (newpos_in cs top _ _ (h_ord _ _ _ _ _ _ Hch) Hin) as [H1 H2]. split; [exact H1|]. split; [exact H2|].
  apply (newpos_le cs top _ (sz n) (h_ord _ _ _ _ _ _ Hch)); [|exact Hin]. intros c Hc. apply (chunk_small c Hc).
Qed.
Lemma phi_places : places phi top0 lastw.
Proof.
  destruct (pool_facts Hwf) as (Hpool & _). pose proof top_pos as Htp. destruct (wf_last _ _ _ _ _ _ _ _ Hwf) as [Hl Hlast]. constructor.
  - exact Hpool.
  - intros n H. destruct (live_facts Hwf n H) as (_ & Hp & Hs & H1 & H2 & H3). destruct (where_ n H) as [[_ ->]|[Hin|[_ ->]]]; auto.
    destruct (phi_in n H Hin) as (Ha & Hb & Hc). split; [lia|]. split; [|lia].
    apply (newpos_aligned cs top _ (sz n)); [apply Htop| |exact Hin]. intros c Hc'. destruct (chunk_node c Hc') as (x & Hx & -> & _). apply (live_facts Hwf x Hx).
  - intros n n' H H'. destruct (live_facts Hwf n H) as (_ & Hp & _). destruct (live_facts Hwf n' H') as (_ & Hp' & _).
    destruct (live_apart Hwf n n' H H') as [->|Hap]; [left; reflexivity|]. right.
    destruct (where_ n H) as [[Ha Ea]|[Hin|[Ha Ea]]]; destruct (where_ n' H') as [[Ha' Ea']|[Hin'|[Ha' Ea']]]; try rewrite Ea; try rewrite Ea'; try exact Hap.
    + destruct (phi_in n' H' Hin'). lia.
    + destruct (phi_in n H Hin). lia.
    + destruct (Z.lt_trichotomy (snd n) (snd n')) as [Hlt|[He|Hgt]]; [|lia|].
      * left. apply (newpos_before cs top _ _ _ (sz n') (h_ord _ _ _ _ _ _ Hch)); assumption.
      * right. apply (newpos_before cs top _ _ _ (sz n) (h_ord _ _ _ _ _ _ Hch)); assumption || lia.
    + left. destruct (phi_in n H Hin). pose proof (end_le n' H' Ha'). lia.
    + right. destruct (phi_in n' H' Hin'). pose proof (end_le n H Ha). lia.
  - split; [lia|]. intros n H. destruct (live_facts Hwf n H) as (He & Hp & _). specialize (Hlast n (sz n) H He).
    destruct (where_ n H) as [[_ ->]|[Hin|[_ ->]]]; auto. destruct (phi_in n H Hin). lia.
Qed.

(** the nodes of the chunks *)
Lemma chunk_nodes : exists Ns, cs = map (fun n => (snd n, sz n)) Ns /\ NoDup Ns /\ (forall n, In n Ns <-> live n /\ low <= snd n < high).
Proof.
  assert (Hx : forall l, (forall c, In c l -> In c cs) -> exists Ns, l = map (fun n => (snd n, sz n)) Ns /\ (forall n, In n Ns -> live n)).
  { induction l as [|c l IH]; intro Hl; [exists []; split; [reflexivity|contradiction]|]. destruct (IH ltac:(intros; apply Hl; right; assumption)) as (Ns & -> & HNs).
    destruct (chunk_node c (Hl c ltac:(left; reflexivity))) as (n & Hn & -> & _). exists (n :: Ns). split; [reflexivity|]. intros x [<-|Hin]; auto. }
  destruct (Hx cs ltac:(auto)) as (Ns & He & Hl). exists Ns. split; [exact He|]. split.
  - apply (NoDup_map_inv (fun n => (snd n, sz n))). rewrite <- He. destruct (h_ord _ _ _ _ _ _ Hch) as [Ho Hpo]. clear -Ho Hpo.
    induction Ho as [|c l Ho IH Hc]; constructor; inversion Hpo; subst; [|apply IH; assumption]. intro Hin. rewrite Forall_forall in Hc. specialize (Hc c Hin). unfold before in Hc. lia.
  - intro n. split.
    + intro Hin. pose proof (Hl n Hin) as Hn. assert (Hic : In (snd n, sz n) cs) by (rewrite He; apply (in_map (fun n => (snd n, sz n))), Hin).
      pose proof (chunk_high _ Hic) as Hh. destruct (live_facts Hwf n Hn) as (_ & Hp & _). destruct (h_from _ _ _ _ _ _ Hch _ Hic) as [_ Hlo]. cbn [fst snd] in *. split; [exact Hn|]. lia.
    + intros [Hn Hr]. assert (Hic : In (snd n, sz n) cs) by (apply (h_all _ _ _ _ _ _ Hch); [exists n; auto|exact Hr]).
      rewrite He in Hic. apply in_map_iff in Hic as (x & Hxe & Hin). injection Hxe as Hx1 _. replace n with x; [exact Hin|]. apply (live_index Hwf); auto. congruence.
Qed.

(** moving *)
Lemma move_ok (gs : gc) c m : (c <= length cs)%nat -> (c < length cs)%nat ->
  settle w cs 0 top = (c, top + total (firstn c cs)) ->
  (forall d, In d (firstn c cs) -> phi (fst d) = fst d) -> (forall d, In d (firstn c cs) -> fst d + snd d <= top + total (firstn c cs)) ->
  g_m gs = m0 -> g_note gs = none -> g_high gs = high ->
  slide w (skipn c cs) (top + total (firstn c cs)) m0 = (map (fun d => (fst d, newpos (skipn c cs) (top + total (firstn c cs)) (fst d))) (skipn c cs), top + total cs, m) ->
  (forall o s i, In (o, s) (skipn c cs) -> 0 <= i < s -> m (newpos (skipn c cs) (top + total (firstn c cs)) o + i) = m0 (o + i)) ->
  (forall a, a < top + total (firstn c cs) \/ top + total cs <= a -> m a = m0 a) ->
  forall old s cs', nth_error cs c = Some (old, s) ->
  cs' = firstn c cs ++ map (fun d => (fst d, newpos (skipn c cs) (top + total (firstn c cs)) (fst d))) (skipn c cs) ->
  exists m' b, walk_move w POOL csize R (with_m m (with_window c old (with_chunks cs' high gs))) =
    Some (redirect_roots w phi R, with_m m' (with_busy b (with_m m (with_window c old (with_chunks cs' high gs))))) /\ moved_to phi R m0 m'.
Proof.
  intros Hc Hlt Hset Hfix Hend Hgm Hgn Hgh Hsl Hin Hout old s cs' Hnth Hcs'.
  pose proof (h_ord _ _ _ _ _ _ Hch) as Hord.
  pose proof Hord as Hsp. rewrite <- (firstn_skipn c cs) in Hsp. apply ordered_split in Hsp as (Ho1 & Ho2 & Hsep).
  pose proof (total_pos _ Ho1) as Htp1. pose proof (total_pos _ Ho2) as Htp2.
  assert (Htot : total cs = total (firstn c cs) + total (skipn c cs)) by (rewrite <- (firstn_skipn c cs) at 1; apply total_app).
  assert (Hsplit : forall d, In d cs -> In d (firstn c cs) \/ In d (skipn c cs)).
  { intros d Hd. rewrite <- (firstn_skipn c cs) in Hd. apply in_app_or, Hd. }
  assert (Hsk : forall o x, In (o, x) (skipn c cs) -> phi o = newpos (skipn c cs) (top + total (firstn c cs)) o).
  { intros o x Hx. rewrite <- (firstn_skipn c cs) at 1. apply newpos_app. intros y Hy. specialize (Hsep _ _ Hy Hx). unfold before in Hsep. cbn in Hsep.
    pose proof (ordered_pos _ Ho1 _ Hy). cbn in *. lia. }
  assert (Hold : In (old, s) (skipn c cs)).
  { rewrite <- (firstn_skipn c cs), nth_error_app2 in Hnth by (rewrite firstn_length; lia). exact (nth_error_In _ _ Hnth). }
  assert (Holdc : In (old, s) cs) by (rewrite <- (firstn_skipn c cs); apply in_or_app; right; exact Hold).
  set (gm := with_m m (with_window c old (with_chunks cs' high gs))).
  destruct (walk_move_ok Hwf phi_places gm) as (m' & b & Hw & Hmv).
  - intros n H. unfold move_map. cbn [gm with_m with_window with_chunks g_low g_high g_chunks g_first].
    destruct (chunk_node _ Holdc) as (no & Hno & Heo & Hlo). injection Heo as Heo1 Heo2.
    destruct (where_ n H) as [[Ha Ea]|[Ha|[Ha Ea]]].
    + destruct (live_facts Hwf n H) as (_ & Hp & _). destruct (Z.ltb_spec (snd n) old); [|lia]. cbn [orb]. rewrite Ea. reflexivity.
    + destruct (Hsplit _ Ha) as [Hf|Hs].
      * pose proof (Hsep _ _ Hf Hold) as Hb. unfold before in Hb. cbn [fst snd] in Hb. destruct (live_facts Hwf n H) as (_ & Hp & _).
        destruct (Z.ltb_spec (snd n) old); [|lia]. cbn [orb]. pose proof (Hfix _ Hf) as Hfx. cbn [fst] in Hfx. rewrite Hfx. reflexivity.
      * destruct (Z.ltb_spec (snd n) old) as [Hx|_].
        { exfalso. apply In_nth_error in Hs as (j & Hj). destruct j as [|j].
          - rewrite <- (firstn_skipn c cs), nth_error_app2 in Hnth by (rewrite firstn_length; lia). rewrite firstn_length in Hnth. replace (c - Nat.min c (length cs))%nat with O in Hnth by lia.
            rewrite Hj in Hnth. injection Hnth as He _. lia.
          - rewrite <- (firstn_skipn c cs), nth_error_app2 in Hnth by (rewrite firstn_length; lia). rewrite firstn_length in Hnth. replace (c - Nat.min c (length cs))%nat with O in Hnth by lia.
            pose proof (ordered_nth _ Ho2 O (S j) _ _ ltac:(lia) Hnth Hj) as Hb. unfold before in Hb. cbn [fst snd] in Hb. pose proof (ordered_pos _ Ho2 _ Hold). cbn in *. lia. }
        cbn [orb]. pose proof (chunk_high _ Ha) as Hhi. cbn [fst snd] in Hhi. destruct (live_facts Hwf n H) as (_ & Hp & _). destruct (Z.leb_spec high (snd n)); [lia|].
        unfold find_chunk. cbn [gm with_m with_window with_chunks g_chunks g_first].
        destruct (search_found cs' (snd n) (phi (snd n)) c) as (j & Hj & Hnj).
        -- apply (rising_ext cs); [|exact (ordered_rising _ Hord)]. rewrite Hcs', map_app, map_map. cbn [fst]. rewrite <- map_app, firstn_skipn. reflexivity.
        -- rewrite Hcs'. apply in_or_app. right. apply in_map_iff. exists (snd n, sz n). split; [|exact Hs]. cbn [fst]. rewrite <- (Hsk _ _ Hs). reflexivity.
        -- rewrite Hcs', app_length, firstn_length, map_length. lia.
        -- intros i a Hi Hai. rewrite Hcs', nth_error_app1 in Hai by (rewrite firstn_length; lia). apply nth_error_In in Hai. specialize (Hsep _ _ Hai Hs). unfold before in Hsep. cbn [fst] in Hsep.
           pose proof (ordered_pos _ Ho1 _ Hai). lia.
        -- rewrite Hj, Hnj. reflexivity.
    + destruct (Z.leb_spec high (snd n)); [|lia]. rewrite orb_true_r, Ea. reflexivity.
  - exact Hgn.
  - cbn [gm with_m g_m]. pose proof (slide_bytes w (skipn c cs) (top + total (firstn c cs)) m0 (wf_bytes _ _ _ _ _ _ _ _ Hwf)) as Hb. rewrite Hsl in Hb. exact Hb.
  - intros n i H Hi. cbn [gm with_m g_m]. destruct (where_ n H) as [[Ha Ea]|[Ha|[Ha Ea]]].
    + rewrite Ea. apply Hout. lia.
    + destruct (Hsplit _ Ha) as [Hf|Hs].
      * pose proof (Hfix _ Hf) as Hfx. cbn [fst] in Hfx. rewrite Hfx. apply Hout. specialize (Hend _ Hf). cbn [fst snd] in Hend. lia.
      * rewrite (Hsk _ _ Hs). apply (Hin _ _ i Hs Hi).
    + rewrite Ea. apply Hout. pose proof (end_le n H Ha). lia.
  - exists m', b. split; [exact Hw|exact Hmv].
Qed.
End Chunks.
End Pass.
