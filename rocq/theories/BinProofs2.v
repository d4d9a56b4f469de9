(** snek_binary: comparisons, list elements and type errors. *)
From Verif Require Import Tac Base FloatModel PolyModel ValueModel OrderSpec OrderProofs OrderProofs2 SliceModel SliceSpec SliceProofs
  MachModel ListModel StrModel MathModel BinModel MachSpec ListSpec StrSpec MachProofs FrameProofs ListProofs ListProofs2 ListProofs3
  DictProofs StrProofs StrProofs2 FormatProofs InterpProofs BinProofs.
Local Open Scope Z_scope.
Open Scope mach_scope.

(** What an operator is defined on. *)
Inductive kind := KNumber | KText | KSeq (k : lkind) | KOther.
Definition kind_of (h : list obj) (p : poly) (k : kind) : Prop :=
  match p with
  | PNum _ => k = KNumber
  | PStr l => k = KText /\ exists s, str_at h l s
  | PList l => exists lk xs, k = KSeq lk /\ seq_at h l lk xs
  | PFunc _ | PBuiltin _ => k = KOther
  | PJunk _ => False
  end.
Definition typed (op : bop) (a b : kind) : Prop :=
  match op, a, b with
  | BCmp _, _, _ | BIs, _, _ | BIsNot, _, _ => True
  | BNum _, KNumber, KNumber => True
  | BNum Nplus, KText, KText => True
  | BNum Nplus, KSeq k, KSeq k' => k = k' /\ k <> KDict
  | BNum Ntimes, KText, KNumber | BNum Ntimes, KNumber, KText => True
  | BNum Ntimes, KSeq k, KNumber | BNum Ntimes, KNumber, KSeq k => k <> KDict
  | BNum Nmod, KText, _ => True
  | (BIn | BNotIn), _, KSeq _ => True
  | (BIn | BNotIn), KText, KText => True
  | (BIn | BNotIn), KNumber, KNumber => True   (* the left operand; see C17 *)
  | BArray, KText, _ | BArray, KSeq _, _ => True
  | _, _, _ => False
  end.

Ltac kd H :=
  match type of H with
  | False => contradiction
  | ?x = _ => subst x
  | _ /\ _ => destruct H as [-> H]
  | ex _ => destruct H as (? & ? & -> & H)
  end.

Section Ops.
Variable E : env.
Variable T : texts.
Variable powf : float -> float -> outcome float.

Lemma binary_compare : forall c m a b va vb inplace, tree (m_heap m) a va -> tree (m_heap m) b vb ->
  binary E T powf a (BCmp c) b inplace m = Some (bool_to_poly (snek_compare c va vb), m).
Proof.
  intros c m a b va vb ip Ha Hb. unfold binary, snek_compare.
  assert (N : forall p v, tree (m_heap m) p v -> is_nan_poly p = is_nan_value v).
  { intros p v H. destruct v; cbn in H.
    - subst. reflexivity.
    - destruct H as (? & -> & _). reflexivity.
    - destruct H as (? & ? & -> & _). reflexivity.
    - destruct H as (? & -> & _). reflexivity.
    - subst. reflexivity. }
  rewrite (N _ _ Ha), (N _ _ Hb). destruct (is_nan_value va || is_nan_value vb); [reflexivity|].
  unfold bind, cmp. rewrite (hcmp_tree _ _ _ _ _ _ Ha Hb (fuel_depth _ _ _ Ha)). destruct c; reflexivity.
Qed.

Lemma binary_is : forall m a b (pos : bool) inplace, wf_poly (m_heap m) a -> wf_poly (m_heap m) b ->
  (forall l, a <> PStr l) -> (forall f, a <> PNum f) ->
  binary E T powf a (if pos then BIs else BIsNot) b inplace m =
  Some (bool_to_poly (Bool.eqb pos (match a, b with
     | PList l, PList l' | PFunc l, PFunc l' => Nat.eqb l l'
     | PBuiltin u, PBuiltin u' => u =? u'
     | _, _ => false end)), m).
Proof.
  intros m a b pos ip Wa Wb Ns Nn.
  assert (L : forall x y, (word_cmp (Z.of_nat x) (Z.of_nat y) =? 0) = Nat.eqb x y).
  { intros x y. rewrite word_cmp_sgn. destruct (Nat.eqb_spec x y); [subst; rewrite Z.sub_diag; reflexivity|].
    apply Z.eqb_neq. intro K. apply -> Z.sgn_null_iff in K. lia. }
  assert (W : forall x y, (word_cmp x y =? 0) = (x =? y)).
  { intros x y. rewrite word_cmp_sgn. destruct (Z.eqb_spec x y); [subst; rewrite Z.sub_diag; reflexivity|].
    apply Z.eqb_neq. intro K. apply -> Z.sgn_null_iff in K. lia. }
  assert (C : forall d, cmp a b true m = Some (d, m) ->
     (d =? 0) = match a, b with
     | PList l, PList l' | PFunc l, PFunc l' => Nat.eqb l l'
     | PBuiltin u, PBuiltin u' => u =? u'
     | _, _ => false end -> 
     binary E T powf a (if pos then BIs else BIsNot) b ip m =
     Some (bool_to_poly (Bool.eqb pos (match a, b with
     | PList l, PList l' | PFunc l, PFunc l' => Nat.eqb l l'
     | PBuiltin u, PBuiltin u' => u =? u'
     | _, _ => false end)), m)).
  { intros d Hd <-. destruct pos; unfold binary, bind; rewrite Hd; unfold ret; [destruct (d =? 0) | destruct (d =? 0)]; reflexivity. }
  destruct a as [f|l|l|l|u|t]; [elim (Nn f); reflexivity | elim (Ns l); reflexivity | | | | elim Wa];
    destruct b as [g|l'|l'|l'|u'|t']; try contradiction; eapply C; try (unfold cmp, cmp_fuel; cbn [hcmp poly_type ptype_code Z.sub Z.eqb negb]; reflexivity).
  - apply L. - apply L. - apply W.
Qed.

Lemma binary_list_elem : forall m l k xs f i inplace,
  wf E m -> wf_env E -> wbits (e_width E) <= e_int E -> seq_at (m_heap m) l k xs -> k <> KDict -> denotes E f i ->
  Forall (fun x => is_invalid x = false) xs ->
  binary E T powf (PList l) BArray (PNum f) inplace m =
  match py_index xs i with
  | Some x => Some (x, m)
  | None => Some (PNull, errored (EValue (PNum f)) m)
  end.
Proof.
  intros m l k xs f i ip W We Hw Hs Nk [Hf Hi] Hx.
  assert (G : list_get E (l, m_epoch m) (PNum f) true m = match py_index xs i with
     | Some x => Some (x, m) | None => Some (PNull, errored (EValue (PNum f)) m) end).
  { unfold list_get, bind.
    destruct (ref_list_runs E m l k xs f i true false W We Hw Hs Nk Hf Hi) as (r & m' & Hr & -> & H). rewrite Hr.
    unfold py_index. unfold py_pos in *.
    assert (Ld : forall o x, nth_error xs o = Some x -> load ((l, m_epoch m), o) m = Some (x, m)).
    { intros o x Ho. destruct Hs as (ob & Hob & _ & He). unfold load, bind, deref_list, deref, bind. cbn [fst snd].
      rewrite Nat.eqb_refl, Hob. unfold ret at 1. cbv iota beta.
      assert (Hd : nth_error (lo_data ob) o = Some x).
      { unfold elems in He. rewrite <- He in Ho. 
        assert (Lo : (o < length (firstn (Z.to_nat (lo_size ob)) (lo_data ob)))%nat) by (apply nth_error_Some; congruence).
        rewrite firstn_length in Lo.
        rewrite <- (firstn_skipn (Z.to_nat (lo_size ob)) (lo_data ob)), nth_error_app1 by (rewrite firstn_length; lia). exact Ho. }
      rewrite Hd. reflexivity. }
    destruct ((0 <=? i) && (i <? Z.of_nat (length xs))) eqn:E1; cbn [option_map] in *.
    - apply andb_prop in E1. destruct E1 as [E1 E2]. apply Z.leb_le in E1. apply Z.ltb_lt in E2. subst m'.
      destruct (nth_error xs (Z.to_nat i)) eqn:En; [apply Ld; exact En|]. apply nth_error_None in En. lia.
    - destruct ((- Z.of_nat (length xs) <=? i) && (i <? 0)) eqn:E2; cbn [option_map] in *.
      + apply andb_prop in E2. destruct E2 as [E2 E3]. apply Z.leb_le in E2. apply Z.ltb_lt in E3. subst m'.
        destruct (nth_error xs (Z.to_nat (Z.of_nat (length xs) + i))) eqn:En; [apply Ld; exact En|]. apply nth_error_None in En. lia.
      + subst m'. reflexivity. }
  unfold binary, hold, array_op, poly_to_list, here, bind, ret. rewrite G.
  destruct (py_index xs i) as [x|] eqn:Ei; [| reflexivity].
  replace (is_invalid x) with false; [reflexivity|]. symmetry.
  rewrite Forall_forall in Hx. apply Hx. unfold py_index in Ei.
  destruct (_ && _) in Ei; [eapply nth_error_In; eauto|]. destruct (_ && _) in Ei; [eapply nth_error_In; eauto | discriminate].
Qed.

(** The number of [x * n]: not negative. *)
Definition count_ok (op : bop) (a b : poly) : Prop :=
  match op, a, b with
  | BNum Ntimes, PNum _, PNum _ => True
  | BNum Ntimes, PNum f, _ | BNum Ntimes, _, PNum f => exists n, denotes E f n /\ 0 <= n
  | _, _, _ => True
  end.

Lemma binary_type_error : forall op m a b ka kb inplace,
  kind_of (m_heap m) a ka -> kind_of (m_heap m) b kb -> ~ typed op ka kb -> count_ok op a b ->
  exists x y, (x = a /\ y = b \/ x = b /\ y = a) /\
  binary E T powf a op b inplace m = Some (PNull, errored (EType2 x y) m).
Proof.
  assert (Fin : forall (c : M poly) a b m, c m = Some (PInvalid, m) ->
    (let* ha := hold a in let* hb := hold b in let* r := c in
        if is_invalid r then let* a := use ha in let* b := use hb in error (EType2 a b);; ret PNull else ret r) m =
    Some (PNull, errored (EType2 a b) m)).
  { intros c a b m H. destruct (runs_invalid c a b m m (fun r m' => r = PNull /\ m' = errored (EType2 a b) m) H eq_refl) as (r & m' & Hr & -> & ->);
      [split; reflexivity | exact Hr]. }
  intros op m a b ka kb ip Ka Kb N Cn.
  assert (SeqEq : forall k k', lkind_eqb k k' = true -> k = k') by (intros [] []; cbn; congruence).
  assert (Pl : forall l l' lk lk' xs xs', seq_at (m_heap m) l lk xs -> seq_at (m_heap m) l' lk' xs' -> ~ (lk = lk' /\ lk <> KDict) ->
     plus_op E (PList l) (PList l') ip m = Some (PInvalid, m)).
  { intros l l' lk lk' xs xs' (o & Ho & Hk & _) (o' & Ho' & Hk' & _) Nk.
    unfold plus_op, poly_to_list, here, bind, deref_list, deref, bind. cbn [fst snd]. rewrite Nat.eqb_refl, Ho. unfold ret at 1.
    cbn [fst snd]. rewrite Nat.eqb_refl, Ho'. unfold ret at 1. cbv iota beta. rewrite Hk, Hk'.
    destruct (lkind_eqb lk lk') eqn:Ek; [| reflexivity]. apply SeqEq in Ek. subst lk'. destruct lk; try (elim Nk; split; congruence). reflexivity. }
  assert (Tm : forall p f n, kind_of (m_heap m) p KOther \/ (exists xs l, p = PList l /\ seq_at (m_heap m) l KDict xs) -> denotes E f n -> 0 <= n ->
     times_op E p (PNum f) m = Some (PInvalid, m)).
  { intros p f n Hp [Hf _] Hn. unfold times_op, bind. rewrite (get_soffset_runs E (PNum f) n m) by eauto.
    replace (n <? 0) with false by (symmetry; apply Z.ltb_ge; exact Hn).
    destruct Hp as [Hp|(xs & l & -> & o & Ho & Hk & _)].
    - destruct p; cbn in Hp; try contradiction; try reflexivity; try discriminate; try (destruct Hp; discriminate);
        destruct Hp as (? & ? & ? & _); discriminate.
    - unfold poly_to_list, here, bind, deref_list, deref, bind. cbn [fst snd]. rewrite Nat.eqb_refl, Ho. unfold ret at 1. cbv iota beta. rewrite Hk. reflexivity. }
  destruct op as [c| | | | | |n]; cbn [typed] in N; try (elim N; exact I).
  - (* in *) destruct a as [f|l|l|l|u|t], b as [g|l'|l'|l'|u'|t']; cbn [kind_of] in Ka, Kb; kd Ka; kd Kb;
      try (elim N; exact I); eexists _, _; (split; [left; split; reflexivity|]); unfold binary; apply Fin; reflexivity.
  - destruct a as [f|l|l|l|u|t], b as [g|l'|l'|l'|u'|t']; cbn [kind_of] in Ka, Kb; kd Ka; kd Kb;
      try (elim N; exact I); eexists _, _; (split; [left; split; reflexivity|]); unfold binary; apply Fin; reflexivity.
  - destruct a as [f|l|l|l|u|t]; cbn [kind_of] in Ka; kd Ka;
      try (elim N; exact I); eexists _, b; (split; [left; split; reflexivity|]); unfold binary; apply Fin; reflexivity.
  - destruct a as [f|l|l|l|u|t], b as [g|l'|l'|l'|u'|t']; cbn [kind_of] in Ka, Kb; kd Ka; kd Kb;
      destruct n; cbn [typed] in N; try (elim N; exact I); cbn [count_ok] in Cn;
      try (eexists _, _; (split; [left; split; reflexivity|]); unfold binary; apply Fin; reflexivity).
    all: try (eexists _, _; (split; [left; split; reflexivity|]); unfold binary; apply Fin; cbn [other_op]; eapply Pl; eassumption).
    all: destruct Cn as (n & Hd & Hn).
    all: try match type of N with ~ (?x <> KDict) => assert (x = KDict) by (destruct x; first [reflexivity | elim N; discriminate]); subst x end.
    all: first [ eexists _, _; (split; [left; split; reflexivity|]); unfold binary; apply Fin; cbn [other_op];
                 eapply Tm; [first [left; reflexivity | right; eauto] | exact Hd | exact Hn]
               | eexists _, _; (split; [right; split; reflexivity|]); unfold binary; apply Fin; cbn [other_op];
                 eapply Tm; [first [left; reflexivity | right; eauto] | exact Hd | exact Hn] ].
Qed.

Lemma binary_negative : forall m a f n inplace, (forall g, a <> PNum g) -> denotes E f n -> n < 0 ->
  binary E T powf a (BNum Ntimes) (PNum f) inplace m = Some (PNull, m).
Proof.
  intros m a f n ip Na [Hf _] Hn.
  assert (K : times_op E a (PNum f) m = Some (PNull, m)).
  { unfold times_op, bind. rewrite (get_soffset_runs E (PNum f) n m) by eauto.
    replace (n <? 0) with true by (symmetry; apply Z.ltb_lt; exact Hn). reflexivity. }
  destruct a as [g|l|l|l|u|t]; [elim (Na g); reflexivity| | | | |];
    unfold binary, hold, bind, other_op; rewrite K; reflexivity.
Qed.
End Ops.
