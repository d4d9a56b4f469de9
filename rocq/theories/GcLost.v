(** Code that the collector cannot read. *)
From Coq Require Import ZArith Bool List Lia.
From Verif Require Import Base FloatModel PolyModel PolyProofs ValueModel MathModel MachModel BinModel CodeModel CompModel FrameModel ExecModel LayoutSpec LayoutProofs.
From Verif Require Import GcModel GcSpec GcHeapSpec GcCodeSpec GcProofs GcCode.
Import ListNotations.
Local Open Scope Z_scope.

Section Lost.
Context {w : width}.
Notation k := (Z.of_nat (obytes w)).
Notation size := (size w).
Notation encs := (encs w).
Lemma strings_prefix m l1 : forall fuel c p stop, Forall (sized w) l1 -> lies m (c + p) (encs l1) -> p + Z.of_nat (size l1) <= stop -> (length l1 <= fuel)%nat ->
  strings_in w fuel m c p stop = spots (w := w) p l1 ++ strings_in w (fuel - length l1) m c (p + Z.of_nat (size l1)) stop.
Proof.
  induction l1 as [|i l IH]; intros fuel c p stop Hs Hl Hst Hf.
  - rewrite size_nil, Z.add_0_r, Nat.sub_0_r. reflexivity.
  - apply Forall_cons_iff in Hs as [[Hsz _] Hs]. destruct fuel as [|fuel]; [cbn in Hf; lia|]. cbn [length Nat.sub] in *. rewrite size_cons in *. rewrite encs_cons in Hl.
    apply lies_app in Hl as [Hi Hl]. cbn [LayoutSpec.enc lies] in Hi. destruct Hi as [Hop _].
    assert (Hlen : Z.of_nat (length (enc w i)) = 1 + Z.of_nat (operand_size w (op_code (i_op i)))) by (cbn [LayoutSpec.enc length]; rewrite Hsz; lia).
    cbn [strings_in spots]. destruct (Z.ltb_spec p stop); [|lia]. rewrite Hop, byte_op_byte. fold (is_string (i_op i)). rewrite <- app_assoc. f_equal.
    replace (p + 1 + Z.of_nat (operand_size w (op_code (i_op i)))) with (p + Z.of_nat (length (enc w i))) by lia.
    rewrite (IH fuel c (p + Z.of_nat (length (enc w i))) stop); auto; [|rewrite Z.add_assoc; exact Hl|lia|lia]. do 2 f_equal. lia.
Qed.
Lemma spots_below l : forall p x, Forall (sized w) l -> In x (spots (w := w) p l) -> x + k <= p + Z.of_nat (size l).
Proof.
  induction l as [|i l IH]; intros p x Hs H; [contradiction|]. apply Forall_cons_iff in Hs as [[Hsz _] Hs]. cbn [spots] in H. rewrite size_cons.
  assert (Hlen : Z.of_nat (length (enc w i)) = 1 + Z.of_nat (operand_size w (op_code (i_op i)))) by (cbn [LayoutSpec.enc length]; rewrite Hsz; lia).
  apply in_app_or in H as [H|H].
  - destruct (is_string (i_op i)) eqn:Ei; [|contradiction]. destruct H as [<-|[]]. apply is_string_iff in Ei. rewrite Ei, string_operand in Hlen. lia.
  - apply (IH _ _ Hs) in H. lia.
Qed.

(** a string right after a dict display with three, four or five entries *)
Lemma dict_hides csize m o l1 p n q v l2 : Forall (sized w) l1 -> 6 <= n <= 11 ->
  holds w m o (l1 ++ io (KMake KDict) p n :: io KString q v :: l2) ->
  ~ In (k + (Z.of_nat (size l1) + 1 + k + 1), SOff YStr) (slots w csize m (YCode, o)).
Proof.
  intros Hs Hn [Hsize Hl] Hin. unfold slots in Hin. cbn [fst snd] in Hin. rewrite Hsize in Hin. apply in_map_iff in Hin as (x & Hx & Hin). injection Hx as Hx.
  assert (Hx' : x = Z.of_nat (size l1) + 1 + k + 1) by lia. clear Hx. subst x. unfold LayoutSpec.encs in Hl. rewrite map_app, concat_app in Hl. fold (encs l1) in Hl. apply lies_app in Hl as [Hl1 Hl]. fold (size l1) in Hl.
  cbn [map concat] in Hl. unfold LayoutSpec.enc at 1 in Hl. cbn [io i_op i_push i_arg arg_bytes app lies] in Hl. destruct Hl as [Hd Hl]. pose proof (kpos w) as Hk.
  assert (Hlong : (length l1 + 3 <= size (l1 ++ io (KMake KDict) p n :: io KString q v :: l2))%nat).
  { rewrite size_app, !size_cons. pose proof (code_long (w := w) l1). unfold io. cbn [LayoutSpec.enc length i_arg arg_bytes]. rewrite !le_bytes_length. destruct w; cbn [obytes]; lia. }
  rewrite (strings_prefix m l1 _ (o + k) 0) in Hin; auto; [|rewrite Z.add_0_r; exact Hl1|rewrite size_app; lia|lia]. rewrite Nat2Z.id in Hin.
  apply in_app_or in Hin as [Hin|Hin]; [apply (spots_below _ _ _ Hs) in Hin; lia|].
  set (stop := Z.of_nat (size (l1 ++ io (KMake KDict) p n :: io KString q v :: l2))) in *.
  assert (Hstop : Z.of_nat (size l1) + 2 < stop).
  { unfold stop. rewrite size_app, !size_cons. unfold io. cbn [LayoutSpec.enc length i_arg arg_bytes]. rewrite !le_bytes_length. destruct w; cbn [obytes]; lia. }
  destruct (size (l1 ++ io (KMake KDict) p n :: io KString q v :: l2) - length l1)%nat as [|[|fuel]] eqn:Ef; [lia|lia|]. rewrite Z.add_0_l in Hin.
  cbn [strings_in] in Hin. destruct (Z.ltb_spec (Z.of_nat (size l1)) stop); [|lia]. rewrite Hd, byte_op_byte in Hin.
  change (op_code (KMake KDict) =? op_code KString) with false in Hin. cbn iota in Hin. change (operand_size w (op_code (KMake KDict))) with 0%nat in Hin. cbn [app] in Hin. rewrite Z.add_0_r in Hin.
  destruct (Z.ltb_spec (Z.of_nat (size l1) + 1) stop); [|lia].
  assert (Hb : m (o + k + (Z.of_nat (size l1) + 1)) = n).
  { apply lies_app in Hl as [Hl _]. rewrite Z.add_assoc. revert Hl. generalize (o + k + Z.of_nat (size l1) + 1) as a. intros a Hl.
    destruct (obytes w) as [|c]; [cbn in Hk; lia|]. cbn [le_bytes lies] in Hl. destruct Hl as [-> _]. apply Z.mod_small. lia. }
  rewrite Hb in Hin. unfold byte_op in Hin. rewrite (Z.mod_small n) in Hin by lia. change (op_code KString) with 45 in Hin. destruct (Z.eqb_spec n 45); [lia|]. cbn [app] in Hin.
  assert (Hop : operand_size w n = obytes w).
  { unfold operand_size. destruct (Z.eqb_spec n 43); [lia|]. destruct (Z.eqb_spec n 44); [lia|]. destruct (Z.leb_spec 45 n); [lia|]. cbn [andb].
    destruct (Z.eqb_spec n 49); [lia|]. destruct (Z.eqb_spec n 55); [lia|]. destruct (Z.eqb_spec n 56); [lia|]. destruct (Z.leb_spec 29 n); [lia|]. cbn [orb andb].
    destruct (Z.eqb_spec n 53); [lia|]. destruct (Z.eqb_spec n 54); [lia|]. destruct (Z.leb_spec 6 n); [|lia]. destruct (Z.leb_spec n 11); [|lia]. reflexivity. }
  rewrite Hop in Hin. apply strings_above in Hin. lia.
Qed.

(** a string instruction whose operand is still to be written *)
Lemma emitting POOL calloc R m top last l p : Forall (sized w) l -> r_compile R <> OFFSET_NONE w ->
  let csize := Z.of_nat (size l) + 1 in
  lies m (r_compile R) (encs l ++ [op_byte KString p]) ->
  In (csize, SOff YStr) (slots w csize m (YCompile, r_compile R)) /\
  ((calloc + 3) / 4 * 4 < csize + k -> ~ wf w POOL calloc csize R m top last).
Proof.
  intros Hs Hc csize Hl. assert (Hin : In (csize, SOff YStr) (slots w csize m (YCompile, r_compile R))).
  { unfold slots. cbn [fst snd]. apply (in_map (fun a => (a, SOff YStr))). apply lies_app in Hl as [Hl Ho]. cbn [lies] in Ho. destruct Ho as [Ho _]. fold (size l) in Ho.
    pose proof (code_long (w := w) l).
    rewrite (strings_prefix m l _ (r_compile R) 0); auto; [|rewrite Z.add_0_r; exact Hl|unfold csize; lia|unfold csize; lia]. apply in_or_app. right.
    destruct (Z.to_nat csize - length l)%nat as [|fuel] eqn:Ef; [unfold csize in Ef; lia|]. cbn [strings_in]. rewrite Z.add_0_l. destruct (Z.ltb_spec (Z.of_nat (size l)) csize); [|unfold csize in *; lia].
    rewrite Ho, byte_op_byte, Z.eqb_refl. left. reflexivity. }
  split; [exact Hin|]. intros Hlt Hwf.
  assert (Hlive : live w csize R m (YCompile, r_compile R)).
  { apply (live_root _ _ _ _ (SOff YCompile) (r_compile R)); [unfold root_refs; apply in_or_app; right; apply in_or_app; right; right; left; reflexivity|].
    unfold means. destruct (Z.eqb_spec (r_compile R) (OFFSET_NONE w)); [contradiction|reflexivity]. }
  destruct (v_inside _ _ _ _ _ _ _ (wf_valid _ _ _ _ _ _ _ _ Hwf _ Hlive) _ _ eq_refl Hin) as [_ H]. cbn [fst snd slen] in H. lia.
Qed.
End Lost.
