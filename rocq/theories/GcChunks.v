(** The chunk array: searching, adding, sliding. *)
From Coq Require Import ZArith Bool List Lia Sorting.Sorted.
From Verif Require Import Base FloatModel PolyModel CodeModel GcModel GcSpec GcProofs.
Import ListNotations.
Local Open Scope Z_scope.

Definition before (a b : Z * Z) : Prop := fst a + snd a <= fst b.
Definition ordered (cs : list (Z * Z)) : Prop := StronglySorted before cs /\ Forall (fun c => 0 < snd c) cs.

Lemma ordered_app A B : ordered A -> ordered B -> (forall a b, In a A -> In b B -> before a b) -> ordered (A ++ B).
Proof.
  intros [HA PA] [HB PB] H. split; [|apply Forall_app; auto]. clear PA PB. induction HA as [|a A HA IH Ha]; [exact HB|].
  cbn. constructor; [apply IH; intros x y Hx Hy; apply H; [right; exact Hx|exact Hy]|].
  apply Forall_app. split; [exact Ha|]. apply Forall_forall. intros y Hy. apply H; [left; reflexivity|exact Hy].
Qed.
Lemma ordered_split A B : ordered (A ++ B) -> ordered A /\ ordered B /\ (forall a b, In a A -> In b B -> before a b).
Proof.
  intros [H P]. apply Forall_app in P as [PA PB]. revert H PA. induction A as [|a A IH]; cbn; intros H PA.
  - split; [split; constructor|]. split; [split; assumption|]. intros a b [].
  - inversion H as [|? ? H' Ha]; subst. inversion PA; subst. destruct (IH H' ltac:(assumption)) as ([HA _] & HB & Hab).
    apply Forall_app in Ha as [Ha1 Ha2]. repeat split; auto.
    + constructor; assumption.
    + apply HB.
    + intros x y [<-|Hx] Hy; [rewrite Forall_forall in Ha2; exact (Ha2 y Hy)|exact (Hab x y Hx Hy)].
Qed.
Lemma ordered_nth cs : ordered cs -> forall i j a b, (i < j)%nat -> nth_error cs i = Some a -> nth_error cs j = Some b -> before a b.
Proof.
  intros [H _]. induction H as [|c cs H IH Hc]; intros i j a b Hij Ha Hb; [destruct i; discriminate|].
  destruct j as [|j]; [lia|]. destruct i as [|i]; cbn in *.
  - injection Ha as <-. rewrite Forall_forall in Hc. apply Hc. exact (nth_error_In _ _ Hb).
  - apply (IH i j); [lia|assumption|assumption].
Qed.
Lemma ordered_pos cs : ordered cs -> forall c, In c cs -> 0 < snd c.
Proof. intros [_ H]. rewrite Forall_forall in H. exact H. Qed.
Lemma ordered_firstn n cs : ordered cs -> ordered (firstn n cs).
Proof. intro H. rewrite <- (firstn_skipn n cs) in H. apply ordered_split in H. tauto. Qed.
Lemma ordered_skipn n cs : ordered cs -> ordered (skipn n cs).
Proof. intro H. rewrite <- (firstn_skipn n cs) in H. apply ordered_split in H. tauto. Qed.

(** binary search: only the old offsets matter *)
Definition rising (cs : list (Z * Z)) : Prop := forall i j a b, (i < j)%nat -> nth_error cs i = Some a -> nth_error cs j = Some b -> fst a < fst b.
Lemma ordered_rising cs : ordered cs -> rising cs.
Proof.
  intros H i j a b Hij Ha Hb. pose proof (ordered_nth cs H i j a b Hij Ha Hb) as Hx. unfold before in Hx.
  pose proof (ordered_pos cs H a (nth_error_In _ _ Ha)). lia.
Qed.
Lemma search_ok cs o : rising cs -> forall fuel l r, (l <= r <= length cs)%nat -> (r - l <= fuel)%nat ->
  (forall i a, (i < l)%nat -> nth_error cs i = Some a -> fst a < o) ->
  (forall i a, (r <= i)%nat -> nth_error cs i = Some a -> o <= fst a) ->
  exists c, search fuel l r o cs = Some c /\ (l <= c <= r)%nat /\
    (forall i a, (i < c)%nat -> nth_error cs i = Some a -> fst a < o) /\
    (forall i a, (c <= i)%nat -> nth_error cs i = Some a -> o <= fst a).
Proof.
  intro Hr. induction fuel as [|fuel IH]; intros l r Hlr Hf Hl Hh; cbn [search].
  - destruct (Nat.ltb_spec l r); [lia|]. exists l. split; [reflexivity|]. split; [lia|]. split; [exact Hl|].
    intros i a Hi Ha. apply (Hh i a); [lia|exact Ha].
  - destruct (Nat.ltb_spec l r) as [Hlt|].
    + set (m := Nat.div2 (l + r)).
      assert (Hm : (l <= m < r)%nat).
      { subst m. rewrite Nat.div2_div. split; [apply Nat.div_le_lower_bound; lia|apply Nat.div_lt_upper_bound; lia]. }
      destruct (nth_error cs m) as [[old sz]|] eqn:Hn; [|apply nth_error_None in Hn; lia].
      destruct (Z.ltb_spec old o).
      * destruct (IH (S m) r) as (c & -> & Hc & H1 & H2); [lia|lia| |exact Hh|].
        { intros i a Hi Ha. destruct (Nat.eq_dec i m) as [->|]; [rewrite Ha in Hn; injection Hn as ->; exact H|].
          pose proof (Hr i m a (old, sz) ltac:(lia) Ha Hn) as Hx. cbn in Hx. lia. }
        exists c. split; [reflexivity|]. split; [lia|]. auto.
      * destruct (IH l m) as (c & -> & Hc & H1 & H2); [lia|lia|exact Hl| |].
        { intros i a Hi Ha. destruct (Nat.eq_dec i m) as [->|]; [rewrite Ha in Hn; injection Hn as ->; exact H|].
          pose proof (Hr m i (old, sz) a ltac:(lia) Hn Ha) as Hx. cbn in Hx. lia. }
        exists c. split; [reflexivity|]. split; [lia|]. auto.
    + exists l. split; [reflexivity|]. split; [lia|]. split; [exact Hl|].
      intros i a Hi Ha. apply (Hh i a); [lia|exact Ha].
Qed.
(** finding a chunk that is there *)
Lemma search_found cs o x first : rising cs -> In (o, x) cs -> (first <= length cs)%nat ->
  (forall i a, (i < first)%nat -> nth_error cs i = Some a -> fst a < o) ->
  exists c, search (S (length cs)) first (length cs) o cs = Some c /\ nth_error cs c = Some (o, x).
Proof.
  intros Hr Hin Hf Hl. apply In_nth_error in Hin as (j & Hj).
  destruct (search_ok cs o Hr (S (length cs)) first (length cs)) as (c & -> & Hc & H1 & H2); [lia|lia|exact Hl| |].
  { intros i a Hi Ha. assert (nth_error cs i = None) by (apply nth_error_None; exact Hi). congruence. }
  exists c. split; [reflexivity|]. destruct (lt_eq_lt_dec c j) as [[Hlt|He]|Hgt].
  - destruct (nth_error cs c) as [a|] eqn:Hn; [|apply nth_error_None in Hn; pose proof (proj1 (nth_error_Some cs j) ltac:(congruence)); lia].
    pose proof (Hr c j a (o, x) Hlt Hn Hj) as Hx. pose proof (H2 c a (le_n _) Hn). cbn in Hx. lia.
  - subst. exact Hj.
  - pose proof (H1 j (o, x) Hgt Hj) as Hx. cbn in Hx. lia.
Qed.

(** ** Adding a chunk *)
(** the chunks are those of a set of places [B] between [low] and [high] *)
Record holds (N : nat) (top low : Z) (B : Z * Z -> Prop) (cs : list (Z * Z)) (high : Z) : Prop := {
  h_ord : ordered cs;
  h_from : forall c, In c cs -> B c /\ low <= fst c;
  h_all : forall c, B c -> low <= fst c < high -> In c cs;
  h_len : (length cs <= N)%nat;
  h_more : (length cs < N)%nat -> high = top;
  h_full : length cs = N -> forall d, high = fst (last cs d) + snd (last cs d) }.

Lemma last_in {A} (l : list A) d : l <> [] -> In (last l d) l.
Proof.
  induction l as [|x l IH]; intro H; [congruence|]. destruct l as [|y l]; [left; reflexivity|]. right. apply IH. discriminate.
Qed.
Lemma last_ind {A} (l : list A) d d' : l <> [] -> last l d = last l d'.
Proof.
  induction l as [|x l IH]; intro H; [congruence|]. destruct l as [|y l]; [reflexivity|]. apply IH. discriminate.
Qed.
Lemma ordered_last cs d c : ordered cs -> In c cs -> c = last cs d \/ before c (last cs d).
Proof.
  intros [H _]. induction H as [|x cs H IH Hx]; intro Hin; [contradiction|]. destruct cs as [|y cs].
  - destruct Hin as [<-|[]]. left. reflexivity.
  - destruct Hin as [<-|Hin]; [|apply IH; exact Hin]. right. rewrite Forall_forall in Hx. apply Hx. apply (last_in (y :: cs)). discriminate.
Qed.

Section Add.
Variable N : nat.
Variables top low : Z.
Hypothesis HN : (0 < N)%nat.

Lemma add_chunk B cs high o s g : holds N top low B cs high ->
  (forall c, B c -> fst c + snd c <= o \/ o + s <= fst c) -> (forall c, B c -> 0 < snd c /\ fst c + snd c <= top) -> 0 < s -> o + s <= top ->
  g_chunks g = cs -> g_high g = high -> g_low g = low -> g_first g = O ->
  exists cs' high', note_chunk N o s g = Some (with_chunks cs' high' g) /\ holds N top low (fun c => c = (o, s) \/ B c) cs' high'.
Proof.
  intros [Ho Hf Ha Hl Hm Hfull] Hd HB Hs Ht Hcs Hhigh Hlow Hfirst. unfold note_chunk. rewrite Hcs, Hhigh, Hlow.
  destruct (Z.ltb_spec o low) as [Hlt|Hge]; cbn [orb].
  { exists cs, high. split; [destruct g; cbn in *; subst; reflexivity|]. constructor; auto.
    - intros c Hc. destruct (Hf c Hc). auto.
    - intros c [->|Hc] Hx; [cbn in Hx; lia|auto]. }
  destruct (Z.leb_spec high o) as [Hle|Hlt].
  { exists cs, high. split; [destruct g; cbn in *; subst; reflexivity|]. constructor; auto.
    - intros c Hc. destruct (Hf c Hc). auto.
    - intros c [->|Hc] Hx; [cbn in Hx; lia|auto]. }
  unfold find_chunk. rewrite Hcs, Hfirst.
  destruct (search_ok cs o (ordered_rising cs Ho) (S (length cs)) O (length cs)) as (c & -> & Hc & H1 & H2); [lia|lia|intros; lia| |].
  { intros i a Hi Hx. assert (nth_error cs i = None) by (apply nth_error_None; exact Hi). congruence. }
  assert (HA : forall a, In a (firstn c cs) -> before a (o, s)).
  { intros a Hin. apply In_nth_error in Hin as (i & Hi).
    assert (Hic : (i < c)%nat). { pose proof (proj1 (nth_error_Some _ i) ltac:(rewrite Hi; discriminate)) as Hx. rewrite firstn_length in Hx. lia. }
    assert (Hi' : nth_error cs i = Some a).
    { rewrite <- (firstn_skipn c cs), nth_error_app1; [exact Hi|]. rewrite firstn_length. lia. }
    pose proof (H1 i a Hic Hi') as Hx. destruct (Hf a (nth_error_In _ _ Hi')) as [HBa _]. unfold before. cbn. destruct (Hd a HBa); lia. }
  assert (HBb : forall b, In b (skipn c cs) -> before (o, s) b).
  { intros b Hin. apply In_nth_error in Hin as (i & Hi).
    assert (Hi' : nth_error cs (c + i) = Some b).
    { rewrite <- (firstn_skipn c cs), nth_error_app2; rewrite firstn_length; [|lia]. replace (c + i - Nat.min c (length cs))%nat with i by lia. exact Hi. }
    pose proof (H2 (c + i)%nat b ltac:(lia) Hi') as Hx. destruct (Hf b (nth_error_In _ _ Hi')) as [HBb _]. unfold before. cbn. destruct (Hd b HBb); [|lia].
    destruct (HB b HBb). lia. }
  set (ins := firstn c cs ++ (o, s) :: skipn c cs).
  assert (Hins : ordered ins).
  { apply ordered_app; [apply ordered_firstn, Ho| |].
    - change ((o, s) :: skipn c cs) with ([(o, s)] ++ skipn c cs). apply ordered_app; [|apply ordered_skipn, Ho|].
      + split; repeat constructor. exact Hs.
      + intros a b [<-|[]] Hb. exact (HBb b Hb).
    - intros a b Hin [<-|Hb]; [exact (HA a Hin)|]. pose proof Ho as Hs'. rewrite <- (firstn_skipn c cs) in Hs'. apply ordered_split in Hs' as (_ & _ & Hab). exact (Hab a b Hin Hb). }
  assert (Hlen : length ins = S (length cs)).
  { unfold ins. rewrite app_length, firstn_length. cbn. rewrite skipn_length. lia. }
  assert (Hin_ins : forall x, In x ins <-> x = (o, s) \/ In x cs).
  { intro x. unfold ins. rewrite in_app_iff. cbn. rewrite <- (firstn_skipn c cs) at 3. rewrite in_app_iff. intuition congruence. }
  assert (HcN : (c < N)%nat).
  { destruct (Nat.eq_dec (length cs) N) as [He|]; [|lia]. destruct (Nat.eq_dec c N) as [->|]; [|lia]. exfalso.
    assert (Hne : cs <> []) by (destruct cs; [cbn in He; lia|discriminate]).
    pose proof (last_in cs (0, 0) Hne) as Hlin. pose proof (Hfull He (0, 0)) as Hh.
    assert (Hlast : In (last cs (0, 0)) (firstn N cs)) by (rewrite firstn_all2 by lia; exact Hlin).
    pose proof (HA _ Hlast) as Hx. unfold before in Hx. cbn in Hx. lia. }
  destruct (Nat.leb_spec N c); [lia|]. fold ins.
  set (cs' := firstn N ins).
  exists cs', (if Nat.eqb (length cs') N then fst (last cs' (0, 0)) + snd (last cs' (0, 0)) else high). split; [reflexivity|].
  assert (Hlen' : length cs' = Nat.min N (S (length cs))) by (unfold cs'; rewrite firstn_length, Hlen; reflexivity).
  constructor.
  - apply ordered_firstn, Hins.
  - intros x Hx.
    assert (Hx' : In x ins) by (unfold cs' in Hx; rewrite <- (firstn_skipn N ins); apply in_or_app; left; exact Hx).
    apply Hin_ins in Hx' as [->|Hx']; [cbn; auto|]. destruct (Hf x Hx'). auto.
  - intros x Hx Hr.
    assert (Hne : cs' <> []) by (intro He; rewrite He in Hlen'; cbn in Hlen'; lia).
    destruct (Nat.eqb_spec (length cs') N) as [He|He].
    + destruct (Nat.eq_dec (length cs) N) as [HeN|HneN].
      * (* it was full: the last chunk is dropped *)
        assert (Hsplit : ins = cs' ++ skipn N ins) by (symmetry; apply firstn_skipn).
        assert (Hz : length (skipn N ins) = 1%nat) by (rewrite skipn_length, Hlen; lia).
        destruct (skipn N ins) as [|z [|]] eqn:Hsk; try discriminate.
        assert (Hzin : In z cs).
        { assert (Hzi : In z ins) by (rewrite Hsplit; apply in_or_app; right; left; reflexivity).
          apply Hin_ins in Hzi as [->|Hzi]; [|exact Hzi]. exfalso.
          assert (Hcl : (c < length cs)%nat) by lia.
          destruct (skipn c cs) as [|y ys] eqn:Hy; [apply (f_equal (@length _)) in Hy; rewrite skipn_length in Hy; cbn in Hy; lia|].
          assert (Hyin : In y ins) by (unfold ins; rewrite ?Hy; apply in_or_app; right; right; left; reflexivity).
          pose proof (HBb y ltac:(left; reflexivity)) as Hby. unfold before in Hby. cbn in Hby.
          rewrite Hsplit in Hyin. apply in_app_or in Hyin as [Hyin|[<-|[]]]; [|cbn in Hby; lia].
          pose proof Hins as Hs'. rewrite Hsplit in Hs'. apply ordered_split in Hs' as (_ & _ & Hab).
          pose proof (Hab y (o, s) Hyin ltac:(left; reflexivity)) as Hbb. unfold before in Hbb. cbn in Hbb.
          pose proof (ordered_pos ins Hins y) as Hp. rewrite Hsplit in Hp. specialize (Hp ltac:(apply in_or_app; left; exact Hyin)). lia. }
        pose proof Hins as Hs'. rewrite Hsplit in Hs'. apply ordered_split in Hs' as (Hocs & _ & Hab).
        pose proof (Hab _ z (last_in cs' (0, 0) Hne) ltac:(left; reflexivity)) as Hbz. unfold before in Hbz.
        assert (Hzh : fst z < high).
        { destruct (ordered_last cs (0, 0) z Ho Hzin) as [He'|Hb']; rewrite (Hfull HeN (0, 0)).
          - rewrite <- He'. pose proof (ordered_pos cs Ho z Hzin). lia.
          - unfold before in Hb'. pose proof (ordered_pos cs Ho z Hzin).
            assert (Hnc : cs <> []) by (intro Hc0; rewrite Hc0 in Hzin; exact Hzin).
            pose proof (ordered_pos cs Ho _ (last_in cs (0, 0) Hnc)). lia. }
        assert (Hxi : In x ins) by (apply Hin_ins; destruct Hx as [->|Hx]; [left; reflexivity|right; apply Ha; [exact Hx|lia]]).
        rewrite Hsplit in Hxi. apply in_app_or in Hxi as [Hxi|[<-|[]]]; [exact Hxi|lia].
      * assert (He1 : cs' = ins) by (unfold cs'; apply firstn_all2; rewrite Hlen; lia).
        rewrite He1. apply Hin_ins. destruct Hx as [->|Hx]; [left; reflexivity|]. right. apply Ha; [exact Hx|].
        assert (Hht : high = top) by (apply Hm; lia). destruct (HB x Hx). lia.
    + assert (He1 : cs' = ins) by (unfold cs'; apply firstn_all2; rewrite Hlen; lia).
      rewrite He1. apply Hin_ins. destruct Hx as [->|Hx]; [left; reflexivity|]. right. apply Ha; [exact Hx|exact Hr].
  - rewrite Hlen'. lia.
  - intro Hlt'. destruct (Nat.eqb_spec (length cs') N); [lia|]. apply Hm. lia.
  - intros He d. rewrite (proj2 (Nat.eqb_eq _ _) He).
    assert (Hne : cs' <> []) by (intro He0; rewrite He0 in He; cbn in He; lia).
    rewrite (last_ind cs' d (0, 0) Hne). reflexivity.
Qed.
End Add.
