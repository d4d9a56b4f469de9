(** A whole pass: marking, sliding and moving. *)
From Coq Require Import ZArith Bool List Lia Sorting.Sorted.
From Verif Require Import Base FloatModel PolyModel PolyProofs CodeModel GcModel GcSpec GcProofs GcChunks GcMark GcMark2 GcMark3 GcMark4 GcMoved GcSlide GcMove GcMove2 GcMove3 GcSame GcPass.
Import ListNotations.
Local Open Scope Z_scope.
Local Notation "'let?' x ':=' e 'in' f" := (match e with Some x => f | None => None end) (at level 200, x pattern, e at level 100, f at level 200, right associativity).

(** the body of the loop; whether there is another pass *)
Definition pass (w : width) (POOL : Z) (NCHUNK : nat) (calloc csize : Z) (R : roots) (top : Z) (g : gc) : option (roots * Z * gc * bool) :=
  let? g := walk_mark w POOL NCHUNK calloc csize R (reset_chunks g) in
  let (c, top) := settle w (g_chunks g) 0 top in
  if Nat.eqb c NCHUNK then Some (R, top, with_window (g_first g) (g_high g) g, true)
  else
    let low := match nth_error (g_chunks g) c with Some (old, _) => old | None => g_low g end in
    let '(cs, top, m) := slide w (skipn c (g_chunks g)) top (g_m g) in
    let g := with_m m (with_window c low (with_chunks (firstn c (g_chunks g) ++ cs) (g_high g) g)) in
    let? (R, g) := (if Nat.ltb (g_first g) (length (g_chunks g)) then walk_move w POOL csize R g else Some (R, g)) in
    if Nat.eqb (length (g_chunks g)) NCHUNK
    then Some (R, top, with_window (g_first g) (g_high g) g, true)
    else Some (R, top, g, false).
Lemma passes_step w POOL NCHUNK calloc csize fuel R top g :
  passes w POOL NCHUNK calloc csize (S fuel) R top g =
  match pass w POOL NCHUNK calloc csize R top g with
  | Some (R, top, g, true) => passes w POOL NCHUNK calloc csize fuel R top g
  | Some (R, top, g, false) => Some (R, top, g)
  | None => None
  end.
Proof.
  cbn [passes]. unfold pass. destruct (walk_mark _ _ _ _ _ _ _) as [g1|]; [|reflexivity]. destruct (settle _ _ _ _) as [c top1].
  destruct (Nat.eqb c NCHUNK); [reflexivity|]. destruct (slide _ _ _ _) as [[cs top2] m]. cbv zeta.
  destruct (if Nat.ltb _ _ then _ else _) as [[R1 g2]|]; [|reflexivity]. destruct (Nat.eqb _ NCHUNK); reflexivity.
Qed.

Section Pass.
Context {w : width} {POOL calloc csize : Z} {NCHUNK : nat} {R : roots} {m0 : mem} {top0 lastw : Z}.
Notation none := (OFFSET_NONE w).
Notation live := (live w csize R m0).
Notation sz := (@sz w POOL calloc m0).
Notation moved_to := (moved_to w POOL calloc csize).
Notation places := (@places_ok w POOL calloc csize R m0).
Hypothesis Hwf : wf w POOL calloc csize R m0 top0 lastw.

(** ** Memory that has been marked *)
Lemma marked_wf m : moved_to stay R m0 m -> wf w POOL calloc csize R m top0 lastw.
Proof.
  intro Hm. destruct (pool_facts Hwf) as (Hpool & _). pose proof (moved_wf Hwf stay top0 lastw m (places_stay Hwf top0 ltac:(lia)) Hm) as H.
  rewrite (roots_stay Hwf) in H. exact H.
Qed.
Lemma marked_live m n : moved_to stay R m0 m -> GcSpec.live w csize R m n <-> live n.
Proof.
  intro Hm. destruct (pool_facts Hwf) as (Hpool & _). pose proof (places_stay Hwf top0 ltac:(lia)) as Hp. split; intro H.
  - rewrite <- (roots_stay Hwf) in H. destruct (live_moved Hwf stay top0 lastw m Hp Hm n H) as (n' & Hn & ->). rewrite at_stay. exact Hn.
  - pose proof (moved_live Hwf stay top0 lastw m Hp Hm n H) as Hx. rewrite (roots_stay Hwf), at_stay in Hx. exact Hx.
Qed.
Lemma marked_sz m n : moved_to stay R m0 m -> live n -> @GcMark.sz w POOL calloc m n = sz n.
Proof.
  intros Hm H. destruct (pool_facts Hwf) as (Hpool & _). pose proof (places_stay Hwf top0 ltac:(lia)) as Hp.
  destruct (moved_obj Hwf stay top0 lastw m Hp Hm n H) as [Ho _]. rewrite at_stay in Ho. unfold GcMark.sz at 1. rewrite Ho. reflexivity.
Qed.
Lemma marked_places m f top1 last1 : moved_to stay R m0 m -> @places_ok w POOL calloc csize R m f top1 last1 -> places f top1 last1.
Proof.
  intros Hm [H1 H2 H3 H4]. assert (Hx : forall n, live n -> GcSpec.live w csize R m n /\ @GcMark.sz w POOL calloc m n = sz n) by (intros n H; split; [apply (marked_live m n Hm), H|apply (marked_sz m n Hm H)]).
  constructor; auto.
  - intros n H. destruct (Hx n H) as [Hl <-]. apply H2, Hl.
  - intros n n' H H'. destruct (Hx n H) as [Hl <-]. destruct (Hx n' H') as [Hl' <-]. apply H3; assumption.
  - destruct H4 as [H4 H5]. split; [exact H4|]. intros n H. destruct (Hx n H) as [Hl <-]. apply H5, Hl.
Qed.
Lemma marked_moved m f m' : moved_to stay R m0 m -> moved_to f R m m' -> moved_to f R m0 m'.
Proof.
  intros Hm H. destruct (pool_facts Hwf) as (Hpool & _). pose proof (places_stay Hwf top0 ltac:(lia)) as Hp.
  apply (moved_twice Hwf stay f top0 lastw m m' Hp Hm). rewrite (roots_stay Hwf). exact H.
Qed.

Hypothesis HN : (0 < NCHUNK)%nat.
Variables low top : Z.
Hypothesis Htop : lastw <= top <= low /\ top mod 4 = 0.
Hypothesis Hgap : forall n, live n -> snd n + sz n <= top \/ low <= snd n.

Record passed (g : gc) (R' : roots) (top' : Z) (g' : gc) (again : bool) (f : Z -> Z) (Ns : list node) (high : Z) : Prop := {
  ps_roots : R' = redirect_roots w f R;
  ps_moved : moved_to f R m0 (g_m g');
  ps_places : places f top0 lastw;
  ps_note : g_note g' = none;
  ps_top : g_top g' = top0 /\ g_last g' = g_last g;
  ps_nodup : NoDup Ns;
  ps_nodes : forall n, In n Ns <-> live n /\ low <= snd n < high;
  ps_laid : laid (fun n => f (snd n)) sz Ns top top';
  ps_aligned : top' mod 4 = 0;
  ps_stay : forall n, live n -> snd n < low \/ high <= snd n -> f (snd n) = snd n;
  ps_again : if again then length Ns = NCHUNK /\ top' <= high /\ g_low g' = high else high = top0 }.

Lemma pass_ok g : g_m g = m0 -> g_note g = none -> g_low g = low -> g_top g = top0 ->
  exists R' top' g' again f Ns high, pass w POOL NCHUNK calloc csize R top g = Some (R', top', g', again) /\ passed g R' top' g' again f Ns high.
Proof.
  intros Hgm Hgn Hgl Hgt. unfold pass.
  destruct (walk_ok (last0 := g_last g) Hwf NCHUNK low HN g Hgm Hgn Hgl Hgt eq_refl) as (g1 & -> & [Hmm Hch Hn1 _ Hf1 Hl1 [Ht1 Hla1]]).
  pose proof (mark_moved Hwf _ Hmm) as Hst. pose proof (marked_wf _ Hst) as Hwf1.
  set (cs := g_chunks g1) in *. set (high := g_high g1) in *.
  assert (Hch1 : holds NCHUNK top0 low (fun c => exists n, GcSpec.live w csize R (g_m g1) n /\ c = (snd n, @GcMark.sz w POOL calloc (g_m g1) n)) cs high).
  { eapply holds_iff; [|exact Hch]. intro c. split; intros (n & Hn & ->); exists n.
    - split; [apply (marked_live _ n Hst), Hn|]. rewrite (marked_sz _ n Hst Hn). reflexivity.
    - apply (marked_live _ n Hst) in Hn. split; [exact Hn|]. rewrite (marked_sz _ n Hst Hn). reflexivity. }
  assert (Hgap1 : forall n, GcSpec.live w csize R (g_m g1) n -> snd n + @GcMark.sz w POOL calloc (g_m g1) n <= top \/ low <= snd n).
  { intros n Hn. apply (marked_live _ n Hst) in Hn. rewrite (marked_sz _ n Hst Hn). apply Hgap, Hn. }
  pose proof (h_ord _ _ _ _ _ _ Hch) as Hord. pose proof (chunk_small Hwf HN low top Htop Hgap cs high Hch) as Hsm. pose proof (top_pos Hwf HN low top Htop) as Htp.
  destruct (settle_ok w cs O top Hord Htp Hsm) as (c & Hset & Hcl & Hfix & Hend & Hrest). rewrite Hset, Nat.add_0_l in *.
  destruct (chunk_nodes Hwf HN low top Hgap cs high Hch) as (Ns & Hcs & Hnd & Hns).
  assert (Hlen : length Ns = length cs) by (rewrite Hcs, map_length; reflexivity).
  pose proof (laid_newpos sz snd Ns top cs Hcs Hord) as Hlaid.
  assert (Hmod : forall x, In x cs -> snd x mod 4 = 0).
  { intros x Hx. destruct (chunk_node low cs high Hch x Hx) as (n & Hn & -> & _). apply (live_facts Hwf n Hn). }
  assert (Hall : (top + total cs) mod 4 = 0) by (rewrite Z.add_mod, (total_mod cs Hmod) by lia; destruct Htop as [_ ->]; reflexivity).
  assert (Hnone : c = length cs -> laid (fun n => stay (snd n)) sz Ns top (top + total (firstn c cs)) /\ total (firstn c cs) = total cs).
  { intro He. rewrite He, firstn_all in *. split; [|reflexivity]. eapply laid_ext; [|exact Hlaid]. intros n Hn. split; [|reflexivity]. cbn beta. unfold stay.
    apply (Hfix (snd n, sz n)). rewrite Hcs. apply (in_map (fun n => (snd n, sz n))), Hn. }
  destruct (pool_facts Hwf) as (Hpool & _).
  destruct (Nat.eqb_spec c NCHUNK) as [Hc|Hc].
  - pose proof (h_len _ _ _ _ _ _ Hch) as Hle. destruct (Hnone ltac:(lia)) as [Hla Htt]. eexists _, _, _, _, stay, Ns, high. split; [reflexivity|].
    assert (Hne : cs <> []) by (intro Hx; rewrite Hx in Hcl; cbn in Hcl; lia).
    constructor; cbn [with_window g_m g_note g_top g_last g_low]; auto.
    + symmetry. apply (roots_stay Hwf).
    + apply (places_stay Hwf). lia.
    + rewrite Htt. exact Hall.
    + split; [lia|]. split; [|reflexivity]. rewrite Htt. apply (end_high Hwf HN low top Htop Hgap cs high Hch Hne).
  - pose proof (ordered_skipn c _ Hord) as Ho2. pose proof (ordered_firstn c _ Hord) as Ho1. pose proof (total_pos _ Ho1) as Htp1.
    assert (Htot : total cs = total (firstn c cs) + total (skipn c cs)) by (rewrite <- (firstn_skipn c cs) at 1; apply total_app).
    destruct (slide_ok w (skipn c cs) (top + total (firstn c cs)) (g_m g1) Ho2 ltac:(lia)) as (m & Hsl & Hin & Hout).
    { intros d Hd. split; [specialize (Hrest d Hd); lia|]. apply (Hsm d). rewrite <- (firstn_skipn c cs). apply in_or_app. right. exact Hd. }
    replace (top + total (firstn c cs) + total (skipn c cs)) with (top + total cs) in * by lia. rewrite Hsl. cbv zeta.
    set (cs' := firstn c cs ++ map (fun d => (fst d, newpos (skipn c cs) (top + total (firstn c cs)) (fst d))) (skipn c cs)) in *.
    assert (Hlen' : length cs' = length cs).
    { unfold cs'. rewrite app_length, firstn_length, map_length, skipn_length. lia. }
    cbn [with_m with_window with_chunks g_first g_chunks]. rewrite Hlen'. destruct (Nat.ltb_spec c (length cs)) as [Hlt|Hge].
    + destruct (nth_error cs c) as [[old s]|] eqn:Hnth; [|apply nth_error_None in Hnth; lia].
      destruct (move_ok Hwf1 HN low top Htop Hgap1 cs high Hch1 g1 c m Hcl Hlt Hset Hfix Hend eq_refl Hn1 eq_refl Hsl Hin Hout old s cs' Hnth eq_refl) as (m' & b & Hw & Hmv).
      rewrite Hw. pose proof (marked_moved _ _ _ Hst Hmv) as Hmv0.
      pose proof (marked_places _ _ _ _ Hst (phi_places Hwf1 HN low top Htop Hgap1 cs high Hch1)) as Hpl.
      assert (Hstay : forall n, live n -> snd n < low \/ high <= snd n -> newpos cs top (snd n) = snd n).
      { intros n Hn Hr. apply newpos_out. apply (not_chunk Hwf HN low top Htop Hgap cs high Hch). exact Hr. }
      assert (Hne : cs <> []) by (intro Hx; rewrite Hx in Hlt; cbn in Hlt; lia).
      cbn [with_m with_busy with_window with_chunks g_chunks g_first g_high]. rewrite Hlen'.
      destruct (Nat.eqb_spec (length cs) NCHUNK) as [He|He]; eexists _, _, _, _, (newpos cs top), Ns, high; (split; [reflexivity|]);
        constructor; cbn [with_m with_busy with_window with_chunks g_m g_note g_top g_last g_low]; auto.
      * split; [lia|]. split; [|reflexivity]. apply (end_high Hwf HN low top Htop Hgap cs high Hch Hne).
      * apply (h_more _ _ _ _ _ _ Hch). pose proof (h_len _ _ _ _ _ _ Hch). lia.
    + destruct (Hnone ltac:(lia)) as [Hla Htt]. cbn [with_m with_window with_chunks g_chunks]. rewrite Hlen'. pose proof (h_len _ _ _ _ _ _ Hch) as Hle.
      destruct (Nat.eqb_spec (length cs) NCHUNK) as [He|He]; [lia|]. eexists _, _, _, _, stay, Ns, high. split; [reflexivity|].
      assert (Hm : m = g_m g1). { rewrite skipn_all2 in Hsl by lia. cbn [slide] in Hsl. injection Hsl as _ <-. reflexivity. }
      constructor; cbn [with_m with_window with_chunks g_m g_note g_top g_last g_low]; auto.
      * symmetry. apply (roots_stay Hwf).
      * rewrite Hm. exact Hst.
      * apply (places_stay Hwf). lia.
      * rewrite Htt in Hla. exact Hla.
      * apply (h_more _ _ _ _ _ _ Hch). lia.
Qed.
End Pass.
