(** Code after its strings have moved, and any number of collections. *)
From Coq Require Import ZArith Bool List Lia.
From Verif Require Import Base FloatModel PolyModel PolyProofs ValueModel MathModel MachModel BinModel CodeModel CompModel FrameModel ExecModel LayoutSpec LayoutProofs.
From Verif Require Import GcModel GcSpec GcHeapSpec GcCodeSpec GcProofs GcChunks GcMark GcMoved GcSame GcPass2 GcAlloc.
Import ListNotations.
Local Open Scope Z_scope.

Lemma lies_app m x : forall a y, lies m a (x ++ y) <-> lies m a x /\ lies m (a + Z.of_nat (length x)) y.
Proof.
  induction x as [|b x IH]; intros a y; cbn [app lies length].
  - rewrite Z.add_0_r. tauto.
  - rewrite IH. replace (a + Z.of_nat (Datatypes.S (length x))) with (a + 1 + Z.of_nat (length x)) by lia. tauto.
Qed.
Lemma lies_same m m' x : forall a a', (forall i, 0 <= i < Z.of_nat (length x) -> m' (a' + i) = m (a + i)) -> lies m a x -> lies m' a' x.
Proof.
  induction x as [|b x IH]; intros a a' H Hl; [exact Logic.I|]. cbn [lies] in *. destruct Hl as [H0 Hl]. cbn [length] in H. split.
  - specialize (H 0 ltac:(lia)). rewrite !Z.add_0_r in H. congruence.
  - apply (IH (a + 1)); [|exact Hl]. intros i Hi. rewrite <- !Z.add_assoc. apply H. lia.
Qed.
Lemma get_lies n : forall m a v, 0 <= v < 256 ^ Z.of_nat n -> lies m a (le_bytes n v) -> get n m a = v.
Proof.
  induction n as [|n IH]; intros m a v Hv Hl; cbn [le_bytes lies get] in *.
  - change (256 ^ Z.of_nat 0) with 1 in Hv. lia.
  - destruct Hl as [-> Hl]. rewrite Nat2Z.inj_succ, Z.pow_succ_r in Hv by lia. rewrite (IH m (a + 1) (v / 256)); [pose proof (Z.div_mod v 256 ltac:(lia)); lia| |exact Hl].
    split; [apply Z.div_pos; lia|]. apply Z.div_lt_upper_bound; lia.
Qed.
Lemma lies_get n : forall m a v, bytes m -> get n m a = v -> lies m a (le_bytes n v).
Proof.
  induction n as [|n IH]; intros m a v Hb Hv; cbn [le_bytes lies get] in *; [exact Logic.I|]. pose proof (Hb a) as H0. subst v.
  assert (Hd : (m a + 256 * get n m (a + 1)) / 256 = get n m (a + 1)) by (symmetry; apply (Z.div_unique _ _ _ (m a)); lia).
  assert (Hr : (m a + 256 * get n m (a + 1)) mod 256 = m a) by (symmetry; apply (Z.mod_unique _ _ (get n m (a + 1))); lia).
  rewrite Hd, Hr. split; [reflexivity|]. apply IH; auto.
Qed.

Lemma lies_map m bs : forall a, map (fun i => m (a + Z.of_nat i)) (seq 0 (length bs)) = bs -> lies m a bs.
Proof.
  induction bs as [|b bs IH]; intros a H; [exact Logic.I|]. cbn [length seq map] in H. injection H as H0 H. rewrite Z.add_0_r in H0. split; [exact H0|].
  apply IH. rewrite <- seq_shift, map_map in H. rewrite <- H at 2. apply map_ext. intro i. f_equal. lia.
Qed.

Section Code.
Context {w : width} {POOL calloc csize : Z} {R : roots} {m0 : mem} {top0 last0 : Z}.
Notation k := (Z.of_nat (obytes w)).
Notation none := (OFFSET_NONE w).
Notation sized := (sized w).
Notation enc := (enc w).
Notation encs := (encs w).
Notation size := (size w).
Notation holds := (GcCodeSpec.holds w).
Notation slots := (slots w csize).
Notation live := (live w csize).

Definition is_string (o : op) : bool := op_code o =? op_code KString.
Lemma is_string_iff o : is_string o = true <-> o = KString.
Proof.
  split; [|intros ->; reflexivity]. destruct o as [[c| | | | | |n]|c|n| | | | | |[| |]| | | | | | | | | | | | | | | | | | | |]; try destruct c; try destruct n; cbn; try discriminate; reflexivity.
Qed.
(** where the string operands are *)
Fixpoint spots (p : Z) (l : list instr) : list Z :=
  match l with [] => [] | i :: l => (if is_string (i_op i) then [p + 1] else []) ++ spots (p + Z.of_nat (length (enc i))) l end.
Lemma spots_range l : forall p x, In x (spots p l) -> p + 1 <= x.
Proof.
  induction l as [|i l IH]; intros p x H; [contradiction|]. cbn [spots] in H. apply in_app_or in H as [H|H].
  - destruct (is_string _); [destruct H as [<-|[]]; lia|contradiction].
  - apply IH in H. lia.
Qed.
Lemma strings_spots m l : forall fuel c p, Forall sized l -> (length l <= fuel)%nat -> lies m (c + p) (encs l) ->
  strings_in w fuel m c p (p + Z.of_nat (size l)) = spots p l.
Proof.
  induction l as [|i l IH]; intros fuel c p Hs Hf Hl.
  - rewrite size_nil, Z.add_0_r. destruct fuel; cbn [strings_in]; rewrite Z.ltb_irrefl; reflexivity.
  - apply Forall_cons_iff in Hs as [[Hsz _] Hs]. destruct fuel as [|fuel]; [cbn in Hf; lia|]. cbn [length] in Hf. rewrite size_cons. rewrite encs_cons in Hl.
    apply lies_app in Hl as [Hi Hl]. cbn [LayoutSpec.enc lies] in Hi. destruct Hi as [Hop _]. cbn [strings_in spots].
    assert (Hlen : Z.of_nat (length (enc i)) = 1 + Z.of_nat (operand_size w (op_code (i_op i)))) by (cbn [LayoutSpec.enc length]; rewrite Hsz; lia).
    destruct (Z.ltb_spec p (p + Z.of_nat (length (enc i) + size l))); [|lia]. rewrite Hop, byte_op_byte. fold (is_string (i_op i)). f_equal.
    replace (p + 1 + Z.of_nat (operand_size w (op_code (i_op i)))) with (p + Z.of_nat (length (enc i))) by lia.
    replace (p + Z.of_nat (length (enc i) + size l)) with (p + Z.of_nat (length (enc i)) + Z.of_nat (size l)) by lia.
    apply IH; auto; [lia|]. rewrite Z.add_assoc. exact Hl.
Qed.
Lemma code_long l : (length l <= size l)%nat.
Proof. induction l as [|i l IH]; [cbn; lia|]. rewrite size_cons. cbn [length LayoutSpec.enc]. lia. Qed.

(** where the operands go *)
Definition relink (f : Z -> Z) (i : instr) : instr :=
  match i_op i, i_arg i with
  | KString, AOff v => I (i_op i) (i_push i) (AOff (redirect w f (SOff YStr) v))
  | _, _ => i
  end.
Lemma relink_other f i : i_op i <> KString -> relink f i = i.
Proof. intro H. unfold relink. destruct (i_op i); auto. contradiction. Qed.

Section Moved.
Hypothesis Hwf : wf w POOL calloc csize R m0 top0 last0.
Variable f : Z -> Z.
Variables top1 last1 : Z.
Variable m1 : mem.
Hypothesis Hp : @places_ok w POOL calloc csize R m0 f top1 last1.
Hypothesis Hm : moved_to w POOL calloc csize f R m0 m1.

Lemma lies_moved a a' l : forall p, Forall sized l -> lies m0 (a + p) (encs l) ->
  (forall x, In x (spots p l) -> get (obytes w) m1 (a' + x) = redirect w f (SOff YStr) (get (obytes w) m0 (a + x))) ->
  (forall i, p <= i < p + Z.of_nat (size l) -> (forall x, In x (spots p l) -> i < x \/ x + k <= i) -> m1 (a' + i) = m0 (a + i)) ->
  lies m1 (a' + p) (encs (map (relink f) l)) /\ size (map (relink f) l) = size l.
Proof.
  induction l as [|i l IH]; intros p Hs Hl Hr Hpl; [split; [exact Logic.I|reflexivity]|].
  apply Forall_cons_iff in Hs as [[Hsz Hstr] Hs]. cbn [map]. rewrite encs_cons in *. rewrite !size_cons. rewrite size_cons in Hpl. apply lies_app in Hl as [Hi Hl].
  assert (Hlen : Z.of_nat (length (enc i)) = 1 + Z.of_nat (operand_size w (op_code (i_op i)))) by (cbn [LayoutSpec.enc length]; rewrite Hsz; lia).
  assert (Hin : forall x, In x (spots (p + Z.of_nat (length (enc i))) l) -> In x (spots p (i :: l))) by (intros x Hx; cbn [spots]; apply in_or_app; right; exact Hx).
  assert (Htail : lies m1 (a' + (p + Z.of_nat (length (enc i)))) (encs (map (relink f) l)) /\ size (map (relink f) l) = size l).
  { apply IH; auto; [rewrite Z.add_assoc; exact Hl|]. intros j Hj Hx. apply Hpl; [lia|]. intros x Hin'. cbn [spots] in Hin'. apply in_app_or in Hin' as [H|H]; [|apply Hx, H].
    destruct (is_string (i_op i)) eqn:Ei; [|contradiction]. destruct H as [<-|[]]. apply is_string_iff in Ei. rewrite Ei, string_operand in Hlen. lia. }
  destruct Htail as [Htail ->]. assert (Hhead : lies m1 (a' + p) (enc (relink f i)) /\ length (enc (relink f i)) = length (enc i)).
  { cbn [LayoutSpec.enc lies] in Hi. destruct Hi as [Hop Harg].
    assert (Hop1 : m1 (a' + p) = m0 (a + p)).
    { apply Hpl; [lia|]. intros x Hx. apply spots_range in Hx. lia. }
    destruct (is_string (i_op i)) eqn:Ei.
    - pose proof (proj1 (is_string_iff _) Ei) as Eo. destruct (Hstr Eo) as (v & Ha & Hv). unfold relink. rewrite Eo, Ha. unfold LayoutSpec.enc. rewrite Eo, Ha. cbn [i_op i_push i_arg arg_bytes lies length].
      rewrite Eo in Hop. rewrite Ha in Harg. cbn [arg_bytes] in Harg. split; [split; [congruence|]|].
      + apply lies_get; [apply (mt_bytes _ _ _ _ _ _ _ _ Hm)|]. rewrite <- (get_lies _ _ _ v ltac:(rewrite kbits; exact Hv) Harg), <- !Z.add_assoc. apply Hr. cbn [spots]. rewrite Ei. left. reflexivity.
      + rewrite !le_bytes_length. reflexivity.
    - assert (Hn : i_op i <> KString) by (rewrite <- is_string_iff; congruence). rewrite (relink_other f i Hn). split; [|reflexivity]. cbn [LayoutSpec.enc lies]. split; [congruence|].
      apply (lies_same m0 m1 _ (a + p + 1)); [|exact Harg]. intros j Hj. rewrite <- !Z.add_assoc. apply Hpl; [lia|]. intros x Hx. cbn [spots] in Hx. rewrite Ei in Hx. apply spots_range in Hx. lia. }
  destruct Hhead as [Hh Hhl]. split; [|rewrite Hhl; reflexivity]. apply lies_app. split; [exact Hh|]. rewrite Hhl, <- Z.add_assoc. exact Htail.
Qed.

Lemma code_kept o l : live R m0 (YCode, o) -> holds m0 o l -> Forall sized l ->
  holds m1 (f o) (map (relink f) l) /\ map (spelled w POOL m1) (map (relink f) l) = map (spelled w POOL m0) l.
Proof.
  intros H [Hsize Hlies] Hs. destruct (live_facts Hwf _ H) as (Ho & _). cbn [snd] in *.
  assert (Hsl : slots m0 (YCode, o) = map (fun a => (k + a, SOff YStr)) (spots 0 l)).
  { unfold GcSpec.slots. cbn [fst snd]. rewrite Hsize. f_equal. rewrite <- (strings_spots m0 l (Z.to_nat (Z.of_nat (size l))) (o + k) 0); auto.
    - pose proof (code_long l). lia.
    - rewrite Z.add_0_r. exact Hlies. }
  assert (Hsz : k + Z.of_nat (size l) <= @GcMark.sz w POOL calloc m0 (YCode, o)).
  { unfold GcMark.sz. unfold osize. cbn [fst snd mem_size]. rewrite Hsize. pose proof (round_ge (k + Z.of_nat (size l))). lia. }
  pose proof (kpos w) as Hk.
  assert (Hplain : forall i, 0 <= i < k + Z.of_nat (size l) -> (forall x, In x (spots 0 l) -> i < k + x \/ k + x + k <= i) -> m1 (f o + i) = m0 (o + i)).
  { intros i Hi Hx. apply (mt_plain _ _ _ _ _ _ _ _ Hm (YCode, o) _ i H Ho); [lia|]. split; [|intros [E _]; discriminate].
    intros (s & Hin & Hr). rewrite Hsl in Hin. apply in_map_iff in Hin as (x & <- & Hin). cbn [fst snd slen] in Hr. specialize (Hx x Hin). lia. }
  assert (Hrefs : forall x, In x (spots 0 l) -> get (obytes w) m1 (f o + k + x) = redirect w f (SOff YStr) (get (obytes w) m0 (o + k + x))).
  { intros x Hx. pose proof (mt_refs _ _ _ _ _ _ _ _ Hm (YCode, o) (k + x, SOff YStr) H) as Hr. unfold said in Hr. cbn [fst snd slen at_] in Hr.
    rewrite <- !Z.add_assoc. apply Hr. rewrite Hsl. apply (in_map (fun a => (k + a, SOff YStr))), Hx. }
  destruct (lies_moved (o + k) (f o + k) l 0 Hs ltac:(rewrite Z.add_0_r; exact Hlies) Hrefs) as [Hl Hsame].
  { intros i Hi Hx. rewrite <- !Z.add_assoc. apply Hplain; [lia|]. intros x Hin. specialize (Hx x Hin). lia. }
  rewrite Z.add_0_r in Hl. split; [split; [|exact Hl]|].
  - rewrite Hsame, <- Hsize. apply get_ext. intros i Hi. apply Hplain; [lia|]. intros x Hx. apply spots_range in Hx. lia.
  - rewrite map_map. apply map_ext_in. intros i Hi. destruct (is_string (i_op i)) eqn:Ei.
    2:{ rewrite relink_other; [|rewrite <- is_string_iff; congruence]. unfold spelled. destruct (i_op i); try reflexivity. discriminate. }
    apply is_string_iff in Ei. rewrite Forall_forall in Hs. destruct (proj2 (Hs i Hi) Ei) as (v & Ha & Hv). unfold spelled, relink. rewrite Ei, Ha. cbn [i_op i_push i_arg]. do 2 f_equal.
    unfold redirect, means. destruct (Z.eqb_spec v none) as [->|Hn]; [rewrite Z.eqb_refl; reflexivity|]. cbn [snd].
    assert (Hx : exists x, In x (spots 0 l) /\ get (obytes w) m0 (o + k + x) = v).
    { assert (Hg : forall l p, Forall sized l -> lies m0 (o + k + p) (encs l) -> In i l -> exists x, In x (spots p l) /\ get (obytes w) m0 (o + k + x) = v).
      { clear - Ei Ha Hv Hwf. induction l as [|i' l IH]; intros p Hs Hl Hin; [contradiction|]. apply Forall_cons_iff in Hs as [Hsz Hs]. rewrite encs_cons in Hl. apply lies_app in Hl as [Hi' Hl].
        destruct Hin as [->|Hin].
        - exists (p + 1). cbn [spots]. rewrite Ei. split; [left; reflexivity|]. apply get_lies; [rewrite kbits; exact Hv|]. unfold LayoutSpec.enc in Hi'. rewrite Ha in Hi'. cbn [arg_bytes lies] in Hi'. rewrite Z.add_assoc. apply Hi'.
        - destruct (IH (p + Z.of_nat (length (enc i'))) Hs) as (x & Hx & Hg); auto; [rewrite Z.add_assoc; exact Hl|]. exists x. split; [|exact Hg]. cbn [spots]. apply in_or_app. right. exact Hx. }
      apply (Hg l 0); auto; [rewrite Forall_forall; exact Hs|]. rewrite Z.add_0_r. exact Hlies. }
    destruct Hx as (x & Hx & Hg). assert (Hlv : live R m0 (YStr, v)).
    { apply (live_step _ _ _ _ (YCode, o) (k + x, SOff YStr)); auto; [rewrite Hsl; apply (in_map (fun a => (k + a, SOff YStr))), Hx|].
      unfold target, said. cbn [fst snd slen]. rewrite Z.add_assoc, Hg. unfold means. destruct (Z.eqb_spec v none); [contradiction|reflexivity]. }
    destruct (new_small Hwf f top1 last1 Hp _ Hlv) as (_ & Hfn & _). cbn [snd] in Hfn. destruct (Z.eqb_spec (f v) none) as [E|_]; [lia|].
    destruct (live_facts Hwf _ Hlv) as (Hov & _). destruct (p_in _ _ _ Hp _ Hlv) as (Hf0 & _ & Hft). cbn [snd] in *.
    pose proof Hov as Hov'. unfold osize in Hov'. cbn [fst snd mem_size] in Hov'. unfold text, strlen in *. destruct (strlen_ (Z.to_nat (POOL - v)) m0 v) as [n|] eqn:En; [|discriminate].
    apply some_eq in Hov'. pose proof (strlen_pos _ _ _ _ En) as Hpos. pose proof (round_ge (n + 1)) as Hrg. pose proof (p_top _ _ _ Hp) as Htp.
    assert (Hsame' : forall i, 0 <= i <= n -> m1 (f v + i) = m0 (v + i)).
    { intros j Hj. apply (mt_plain _ _ _ _ _ _ _ _ Hm (YStr, v) _ j Hlv Hov); [lia|]. split; [|intros [E _]; discriminate]. intros (s & Hin & _). contradiction Hin. }
    rewrite (strlen_ext _ (Z.to_nat (POOL - f v)) m0 m1 v (f v) n En Hsame') by lia. f_equal. apply map_ext_in. intros j Hj. apply in_seq in Hj. apply Hsame'. lia.
Qed.
End Moved.
End Code.

Section Later.
Context {w : width} {POOL calloc csize : Z} {NCHUNK : nat}.
Notation ready := (ready w POOL calloc csize).
Notation later := (later w POOL calloc csize NCHUNK).
Hypothesis HN : (0 < NCHUNK)%nat.
Lemma later_moved R g R' g' : later R g R' g' -> ready R g ->
  exists f top1 last1, R' = redirect_roots w f R /\ moved_to w POOL calloc csize f R (g_m g) (g_m g') /\ ready R' g' /\ @places_ok w POOL calloc csize R (g_m g) f top1 last1.
Proof.
  induction 1 as [R g|full n R g R1 g1 R2 g2 Hc _ IH|size r R g R1 g1 R2 g2 Hs1 Hs2 Hc _ IH]; intro Hr.
  - exists stay, (g_top g), (g_last g). pose proof (rd_wf _ _ _ _ _ _ Hr) as Hwf. split; [symmetry; apply (roots_stay Hwf)|]. split; [|split; [exact Hr|apply (places_stay Hwf); destruct (pool_facts Hwf); lia]].
    apply (mark_moved Hwf), (agree_mark Hwf); [apply (wf_bytes _ _ _ _ _ _ _ _ Hwf)|reflexivity].
  - destruct (collect_ok HN full R g Hr) as (R1' & g1' & f1 & Hc' & (HR1 & Hm1 & _) & Hr1 & _ & _ & _ & _ & Hp1). rewrite Hc in Hc'. apply some_eq in Hc'. injection Hc' as _ <- <-.
    destruct (IH Hr1) as (f2 & top2 & last2 & HR2 & Hm2 & Hr2 & Hp2). rewrite HR1 in HR2, Hm2, Hp2. pose proof (rd_wf _ _ _ _ _ _ Hr) as Hwf.
    exists (fun o => f2 (f1 o)), top2, last2. split; [rewrite HR2; exact (roots_twice Hwf f1 f2 _ _ Hp1)|]. split; [exact (moved_twice Hwf f1 f2 _ _ _ _ Hp1 Hm1 Hm2)|].
    split; [exact Hr2|exact (places_twice Hwf f1 f2 _ _ _ _ _ Hp1 Hm1 Hp2)].
  - destruct (alloc_ok HN size R g Hr Hs1 Hs2) as (r' & R1' & g1' & f1 & Hc' & (HR1 & Hm1 & _) & Hr1 & _ & top1 & last1 & Hp1). rewrite Hc in Hc'. apply some_eq in Hc'. injection Hc' as _ <- <-.
    destruct (IH Hr1) as (f2 & top2 & last2 & HR2 & Hm2 & Hr2 & Hp2). rewrite HR1 in HR2, Hm2, Hp2. pose proof (rd_wf _ _ _ _ _ _ Hr) as Hwf.
    exists (fun o => f2 (f1 o)), top2, last2. split; [rewrite HR2; exact (roots_twice Hwf f1 f2 _ _ Hp1)|]. split; [exact (moved_twice Hwf f1 f2 _ _ _ _ Hp1 Hm1 Hm2)|].
    split; [exact Hr2|exact (places_twice Hwf f1 f2 _ _ _ _ _ Hp1 Hm1 Hp2)].
Qed.
Lemma places_inj R g f top1 last1 : ready R g -> @places_ok w POOL calloc csize R (g_m g) f top1 last1 ->
  forall n n', live w csize R (g_m g) n -> live w csize R (g_m g) n' -> f (snd n) = f (snd n') -> n = n'.
Proof.
  intros Hr Hp n n' H H' He. pose proof (rd_wf _ _ _ _ _ _ Hr) as Hwf. destruct (p_apart _ _ _ Hp n n' H H') as [|Ha]; [assumption|].
  destruct (live_facts Hwf n H) as (_ & Hx & _). destruct (live_facts Hwf n' H') as (_ & Hx' & _). lia.
Qed.
Lemma later_same R g R' g' : later R g R' g' -> ready R g ->
  exists f, same_heap w POOL calloc csize f R (g_m g) R' (g_m g') /\ ready R' g' /\ (forall d, views w POOL calloc csize d R' (g_m g') = views w POOL calloc csize d R (g_m g)).
Proof.
  intros H Hr. destruct (later_moved _ _ _ _ H Hr) as (f & top1 & last1 & HR & Hm & Hr' & Hp). exists f. split; [|split; [exact Hr'|]].
  - split; [exact HR|]. split; [exact Hm|]. exact (places_inj _ _ _ _ _ Hr Hp).
  - intro d. rewrite HR. exact (moved_views (rd_wf _ _ _ _ _ _ Hr) f top1 last1 (g_m g') Hp Hm d).
Qed.
Lemma later_code R g R' g' o l : later R g R' g' -> ready R g -> live w csize R (g_m g) (YCode, o) -> GcCodeSpec.holds w (g_m g) o l -> Forall (sized w) l ->
  exists o' l', live w csize R' (g_m g') (YCode, o') /\ GcCodeSpec.holds w (g_m g') o' l' /\ map (spelled w POOL (g_m g')) l' = map (spelled w POOL (g_m g)) l.
Proof.
  intros H Hr Hl Hh Hs. destruct (later_moved _ _ _ _ H Hr) as (f & top1 & last1 & HR & Hm & Hr' & Hp). pose proof (rd_wf _ _ _ _ _ _ Hr) as Hwf.
  destruct (code_kept Hwf f top1 last1 (g_m g') Hp Hm o l Hl Hh Hs) as [H1 H2]. exists (f o), (map (relink (w := w) f) l). split; [|split; [exact H1|exact H2]].
  rewrite HR. exact (moved_live Hwf f top1 last1 (g_m g') Hp Hm _ Hl).
Qed.
End Later.
