(** Moving the chunks down. *)
From Coq Require Import ZArith Bool List Lia Sorting.Sorted.
From Verif Require Import Base FloatModel PolyModel PolyProofs CodeModel GcModel GcSpec GcProofs GcChunks.
Import ListNotations.
Local Open Scope Z_scope.

(** where a chunk goes when everything is packed from [top] *)
Fixpoint newpos (cs : list (Z * Z)) (top o : Z) : Z :=
  match cs with
  | [] => o
  | (old, s) :: cs => if o =? old then top else newpos cs (top + s) o
  end.
Fixpoint total (cs : list (Z * Z)) : Z := match cs with [] => 0 | (_, s) :: cs => s + total cs end.
Lemma total_app a b : total (a ++ b) = total a + total b.
Proof. induction a as [|[o s] a IH]; cbn; lia. Qed.
Lemma total_pos cs : ordered cs -> 0 <= total cs.
Proof. intros [_ H]. induction H as [|[o s] cs H _ IH]; cbn in *; lia. Qed.

Lemma newpos_out cs : forall top o, (forall s, ~ In (o, s) cs) -> newpos cs top o = o.
Proof.
  induction cs as [|[old s] cs IH]; intros top o H; [reflexivity|]. cbn. destruct (Z.eqb_spec o old) as [->|]; [destruct (H s); left; reflexivity|].
  apply IH. intros s' Hs. apply (H s'). right. exact Hs.
Qed.
Lemma ordered_tl c cs : ordered (c :: cs) -> ordered cs /\ 0 < snd c /\ forall d, In d cs -> before c d.
Proof. intros [H P]. inversion H as [|? ? H' Hc]; subst. inversion P; subst. rewrite Forall_forall in Hc. repeat split; auto. Qed.
Lemma newpos_in cs : forall top o s, ordered cs -> In (o, s) cs -> top <= newpos cs top o /\ newpos cs top o + s <= top + total cs.
Proof.
  induction cs as [|[old s0] cs IH]; intros top o s H Hin; [contradiction|]. cbn [newpos total]. destruct (ordered_tl _ _ H) as (H' & Hs & Hb). cbn in Hs.
  pose proof (total_pos _ H'). destruct Hin as [He|Hin].
  - injection He as <- <-. rewrite Z.eqb_refl. lia.
  - destruct (Z.eqb_spec o old) as [->|].
    + specialize (Hb _ Hin). unfold before in Hb. cbn in Hb. lia.
    + specialize (IH (top + s0) o s H' Hin). lia.
Qed.
Lemma newpos_before cs : forall top o s o' s', ordered cs -> In (o, s) cs -> In (o', s') cs -> o < o' -> newpos cs top o + s <= newpos cs top o'.
Proof.
  induction cs as [|[old s0] cs IH]; intros top o s o' s' H Hin Hin' Hlt; [contradiction|]. cbn [newpos]. destruct (ordered_tl _ _ H) as (H' & Hs & Hb). cbn in Hs.
  destruct Hin' as [He'|Hin'].
  - injection He' as -> ->. destruct Hin as [He|Hin]; [injection He as -> _; lia|]. specialize (Hb _ Hin). unfold before in Hb. cbn in Hb. lia.
  - pose proof (Hb _ Hin') as Hb'. unfold before in Hb'. cbn in Hb'. destruct (Z.eqb_spec o' old); [lia|]. destruct Hin as [He|Hin].
    + injection He as <- <-. rewrite Z.eqb_refl. pose proof (newpos_in cs (top + s0) o' s' H' Hin'). lia.
    + pose proof (Hb _ Hin) as Hbo. unfold before in Hbo. cbn in Hbo. destruct (Z.eqb_spec o old); [lia|]. apply (IH _ o s o' s'); assumption.
Qed.
Lemma newpos_le cs : forall top o s, ordered cs -> (forall c, In c cs -> top <= fst c) -> In (o, s) cs -> newpos cs top o <= o.
Proof.
  induction cs as [|[old s0] cs IH]; intros top o s H Ht Hin; [contradiction|]. cbn [newpos]. destruct (ordered_tl _ _ H) as (H' & Hs & Hb). cbn in Hs.
  pose proof (Ht (old, s0) ltac:(left; reflexivity)) as Hto. cbn in Hto.
  destruct Hin as [He|Hin]; [injection He as <- <-; rewrite Z.eqb_refl; lia|]. pose proof (Hb _ Hin) as Hbo. unfold before in Hbo. cbn in Hbo.
  destruct (Z.eqb_spec o old); [lia|]. apply (IH _ o s H'); [|exact Hin]. intros d Hd. specialize (Hb d Hd). unfold before in Hb. cbn in Hb. lia.
Qed.
Lemma newpos_aligned cs : forall top o s, top mod 4 = 0 -> (forall c, In c cs -> snd c mod 4 = 0) -> In (o, s) cs -> newpos cs top o mod 4 = 0.
Proof.
  induction cs as [|[old s0] cs IH]; intros top o s Ht Hs Hin; [contradiction|]. cbn [newpos]. destruct (Z.eqb_spec o old); [exact Ht|].
  destruct Hin as [He|Hin]; [injection He as <- <-; lia|]. apply (IH _ o s); [|intros; apply Hs; right; assumption|exact Hin].
  rewrite Z.add_mod, Ht by lia. pose proof (Hs (old, s0) ltac:(left; reflexivity)) as Hz. cbn in Hz. rewrite Hz. reflexivity.
Qed.
Lemma newpos_app a b : forall top o, (forall s, ~ In (o, s) a) -> newpos (a ++ b) top o = newpos b (top + total a) o.
Proof.
  induction a as [|[old s] a IH]; intros top o H; cbn [app newpos total]; [f_equal; lia|].
  destruct (Z.eqb_spec o old) as [->|]; [destruct (H s); left; reflexivity|]. rewrite IH; [f_equal; lia|]. intros s' Hs. apply (H s'). right. exact Hs.
Qed.

Section Slide.
Variable w : width.

(** the chunks that are where they belong *)
Lemma settle_ok cs : forall c0 top, ordered cs -> 0 <= top -> (forall c, In c cs -> top <= fst c /\ fst c + snd c < 2 ^ wbits w) ->
  exists c, settle w cs c0 top = ((c0 + c)%nat, top + total (firstn c cs)) /\ (c <= length cs)%nat /\
    (forall d, In d (firstn c cs) -> newpos cs top (fst d) = fst d) /\
    (forall d, In d (firstn c cs) -> fst d + snd d <= top + total (firstn c cs)) /\
    (forall d, In d (skipn c cs) -> top + total (firstn c cs) < fst d).
Proof.
  induction cs as [|[old s] cs IH]; intros c0 top H Ht Hc.
  - exists O. cbn. repeat split; try contradiction; f_equal; lia.
  - destruct (ordered_tl _ _ H) as (H' & Hs & Hb). cbn in Hs. destruct (Hc (old, s) ltac:(left; reflexivity)) as [H1 H2]. cbn in H1, H2. cbn [settle].
    destruct (Z.ltb_spec top old) as [Hlt|Hge].
    + exists O. cbn [firstn total skipn]. rewrite Nat.add_0_r, Z.add_0_r. split; [reflexivity|]. split; [apply Nat.le_0_l|]. split; [contradiction|]. split; [contradiction|].
      intros d [<-|Hd]; [exact Hlt|]. specialize (Hb d Hd). unfold before in Hb. cbn in Hb. lia.
    + assert (top = old) by lia. subst old. unfold u_of, wrapu. rewrite Z.mod_small by lia.
      destruct (IH (S c0) (top + s) H' ltac:(lia)) as (c & He & Hle & Hn & He' & Hsk).
      { intros d Hd. split; [specialize (Hb d Hd); exact Hb|apply (Hc d); right; exact Hd]. }
      exists (S c). cbn [firstn total skipn length]. rewrite He. split; [f_equal; lia|]. split; [lia|]. split; [|split].
      * intros d [<-|Hd]; cbn [newpos fst]; [rewrite Z.eqb_refl; reflexivity|]. 
        assert (Hin : In d cs) by (rewrite <- (firstn_skipn c cs); apply in_or_app; left; exact Hd).
        specialize (Hb d Hin). unfold before in Hb. cbn in Hb. destruct (Z.eqb_spec (fst d) top); [lia|]. exact (Hn d Hd).
      * pose proof (total_pos _ (ordered_firstn c cs H')). intros d [<-|Hd]; cbn [fst snd]; [lia|]. specialize (He' d Hd). lia.
      * intros d Hd. specialize (Hsk d Hd). lia.
Qed.

Lemma slide_ok cs : forall top m, ordered cs -> 0 <= top -> (forall c, In c cs -> top <= fst c /\ fst c + snd c < 2 ^ wbits w) ->
  exists m', slide w cs top m = (map (fun c => (fst c, newpos cs top (fst c))) cs, top + total cs, m') /\
    (forall o s i, In (o, s) cs -> 0 <= i < s -> m' (newpos cs top o + i) = m (o + i)) /\
    (forall a, a < top \/ top + total cs <= a -> m' a = m a).
Proof.
  induction cs as [|[old s] cs IH]; intros top m H Ht Hc.
  - exists m. cbn. rewrite Z.add_0_r. repeat split; contradiction.
  - destruct (ordered_tl _ _ H) as (H' & Hs & Hb). cbn in Hs. destruct (Hc (old, s) ltac:(left; reflexivity)) as [H1 H2]. cbn in H1, H2. cbn [slide].
    unfold u_of, wrapu. rewrite Z.mod_small by lia. pose proof (total_pos _ H') as Htp.
    destruct (IH (top + s) (copy top old s m) H' ltac:(lia)) as (m' & -> & Hin & Hout).
    { intros d Hd. split; [specialize (Hb d Hd); unfold before in Hb; cbn in Hb; lia|apply (Hc d); right; exact Hd]. }
    exists m'. split; [|split].
    + cbn [map total]. f_equal. f_equal; [|lia]. f_equal.
      * cbn [fst newpos]. rewrite Z.eqb_refl. reflexivity.
      * apply map_ext_in. intros d Hd. cbn [newpos]. specialize (Hb d Hd). unfold before in Hb. cbn in Hb. destruct (Z.eqb_spec (fst d) old); [lia|reflexivity].
    + intros o s' i [He|Hd] Hi; cbn [newpos].
      * injection He as <- <-. rewrite Z.eqb_refl. rewrite Hout by lia. unfold copy. destruct (Z.leb_spec top (top + i)); [|lia]. destruct (Z.ltb_spec (top + i) (top + s)); [|lia].
        cbn [andb]. f_equal. lia.
      * pose proof (Hb _ Hd) as Hbd. unfold before in Hbd. cbn in Hbd. destruct (Z.eqb_spec o old); [lia|]. rewrite (Hin o s' i Hd Hi). unfold copy.
        destruct (Z.ltb_spec (o + i) (top + s)); [lia|]. rewrite andb_false_r. reflexivity.
    + cbn [total]. intros a Ha. rewrite Hout by lia. unfold copy. destruct Ha.
      * destruct (Z.leb_spec top a); [lia|reflexivity].
      * destruct (Z.ltb_spec a (top + s)); [lia|]. rewrite andb_false_r. reflexivity.
Qed.
End Slide.
