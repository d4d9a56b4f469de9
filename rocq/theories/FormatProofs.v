(** snek_poly_format writes the text of its value. *)
From Verif Require Import Tac Base FloatModel PolyModel ValueModel OrderSpec OrderProofs SliceModel SliceSpec SliceProofs
  MachModel ListModel StrModel MachSpec ListSpec StrSpec MachProofs FrameProofs ListProofs ListProofs2 StrProofs StrProofs2.
Local Open Scope Z_scope.
Open Scope mach_scope.

(** ** Brackets and separators *)
Fixpoint flat (k : lkind) (size o : Z) (ts : list (list Z)) : list Z :=
  match ts with [] => [] | t :: ts' => t ++ list_sep k size o ++ flat k size (o + 1) ts' end.

Lemma flat_app : forall k size ts o us, flat k size o (ts ++ us) = flat k size o ts ++ flat k size (o + Z.of_nat (length ts)) us.
Proof.
  induction ts as [|t ts IH]; intros o us.
  - cbn [app flat length]. rewrite Z.add_0_r. reflexivity.
  - cbn [app flat]. rewrite IH, <- !app_assoc. do 4 f_equal. cbn [length]. lia.
Qed.

Lemma sep_last : forall k size, (k <> KTuple \/ size <> 1) -> list_sep k size (size - 1) = [].
Proof.
  intros k size H. unfold list_sep. destruct (Z.ltb_spec (size - 1) (size - 1)); [lia|]. cbn [orb].
  destruct (Z.eqb_spec size 1); [|reflexivity]. destruct k; cbn; try reflexivity. destruct H; congruence.
Qed.
Lemma sep_comma : forall k size o, k <> KDict -> o < size - 1 -> list_sep k size o = comma.
Proof. intros k size o H L. unfold list_sep. destruct (Z.ltb_spec o (size - 1)); [|lia]. destruct k; try congruence; reflexivity. Qed.

Lemma flat_commas : forall k ts size o, k <> KDict -> (k <> KTuple \/ size <> 1) -> size = o + Z.of_nat (length ts) ->
  flat k size o ts = commas ts.
Proof.
  induction ts as [|t ts IH]; intros size o Hk Hs Hz; [reflexivity|]. cbn [length] in Hz. cbn [flat commas].
  destruct ts as [|u ts].
  - cbn [length flat] in *. replace o with (size - 1) by lia. rewrite sep_last by exact Hs. reflexivity.
  - rewrite IH by (auto; lia). rewrite sep_comma by (cbn [length] in Hz; auto; lia). reflexivity.
Qed.

Lemma flat_entries : forall n ts size o, (length ts <= n)%nat -> Z.even o = true -> size = o + Z.of_nat (length ts) ->
  flat KDict size o ts = entries ts.
Proof.
  induction n as [|n IH]; intros ts size o Hn He Hz; [destruct ts; [reflexivity | cbn in Hn; lia]|].
  destruct ts as [|k [|v ts]]; [reflexivity | |].
  - cbn [flat length entries] in *. replace o with (size - 1) by lia. rewrite sep_last by (left; discriminate).
    cbn. rewrite app_nil_r. reflexivity.
  - cbn [length] in *. cbn [flat entries].
    assert (S1 : list_sep KDict size o = colon).
    { unfold list_sep. destruct (Z.ltb_spec o (size - 1)); [|lia]. cbn. rewrite He. reflexivity. }
    rewrite S1. do 3 f_equal.
    assert (Ho : Z.even (o + 1) = false) by (rewrite Z.even_add, He; reflexivity).
    destruct ts as [|u ts].
    + cbn [length] in *. replace (o + 1) with (size - 1) by lia. rewrite sep_last by (left; discriminate). reflexivity.
    + assert (S2 : list_sep KDict size (o + 1) = comma).
      { unfold list_sep. cbn [length] in Hz. destruct (Z.ltb_spec (o + 1) (size - 1)); [|lia]. cbn. rewrite Ho. reflexivity. }
      rewrite S2. rewrite (IH (u :: ts)); [reflexivity | cbn [length] in *; lia | | cbn [length] in *; lia].
      rewrite <- Z.add_assoc, Z.even_add, He. reflexivity.
Qed.

Lemma bracketed_flat : forall k ts,
  bracketed k ts = [list_open k] ++ flat k (Z.of_nat (length ts)) 0 ts ++ [list_close k].
Proof.
  intros k ts. destruct k; cbn [bracketed list_open list_close].
  - rewrite (flat_commas KList); [reflexivity | discriminate | left; discriminate | lia].
  - destruct ts as [|t [|u ts]]; [reflexivity | reflexivity |].
    rewrite (flat_commas KTuple); [reflexivity | discriminate | right; cbn [length]; lia | lia].
  - rewrite (flat_entries (length ts)) by (auto; lia). reflexivity.
Qed.

Lemma sep_chars : forall k size o, Forall (fun c => 0 < c < 256) (list_sep k size o).
Proof. intros. unfold list_sep. destruct (_ || _); [|constructor]. destruct (_ && _); repeat constructor. Qed.

Lemma cstring_chars : forall l, Forall (fun c => 0 <= c < 256) l -> Forall (fun c => 0 < c < 256) (cstring l).
Proof.
  induction 1 as [|c l Hc _ IH]; cbn [cstring]; [constructor|]. destruct (Z.eqb_spec c 0); constructor; [lia | exact IH].
Qed.

Lemma Forall2_length : forall A B (R : A -> B -> Prop) l l', Forall2 R l l' -> length l = length l'.
Proof. induction 1; cbn; congruence. Qed.
Lemma runs_weaken : forall A (c : M A) m (P Q : A -> mach -> Prop), runs c m P -> (forall a m', P a m' -> Q a m') -> runs c m Q.
Proof. intros A c m P Q (a & m' & H & HP) K. exists a, m'. auto. Qed.
Lemma frame_pushed : forall m m' p, frame None m m' -> (m_sp m < length (m_stack m))%nat -> frame None (pushed p m) (pushed p m').
Proof.
  intros m m' p F L. split; cbn [pushed set_stack m_heap m_sp m_stack m_empty m_epoch]; rewrite ?upd_length; try apply F.
  - rewrite (fr_sp _ _ _ F). reflexivity.
  - rewrite (fr_sp _ _ _ F). rewrite !firstn_upd_last; [| exact L | rewrite (fr_slen _ _ _ F); exact L].
    rewrite (fr_stack _ _ _ F). reflexivity.
Qed.

Lemma nesting_depth : forall v, nesting v = vdepth v.
Proof. reflexivity. Qed.

(** Every element of a printable list is printable. *)
Lemma text_seq_inv : forall E T c k vs t, text_of E T c (VSeq k vs) t ->
  exists ts, t = bracketed k ts /\ Forall2 (text_of E T (if c =? str_fmt then 97 else c)) vs ts.
Proof. intros E T c k vs t H. inversion H; subst. eauto. Qed.

Lemma is_intfmt_iff : forall c, is_intfmt c = true <-> int_fmt c.
Proof.
  intros c. unfold is_intfmt, int_fmt. rewrite existsb_exists. split.
  - intros (x & Hx & Hc). apply Z.eqb_eq in Hc. subst. exact Hx.
  - intros H. exists c. split; [exact H | apply Z.eqb_refl].
Qed.
Lemma is_fltfmt_iff : forall c, is_fltfmt c = true <-> flt_fmt c.
Proof.
  intros c. unfold is_fltfmt, flt_fmt. rewrite existsb_exists. split.
  - intros (x & Hx & Hc). apply Z.eqb_eq in Hc. subst. exact Hx.
  - intros H. exists c. split; [exact H | apply Z.eqb_refl].
Qed.

(** ** The formatter over any sink *)
Section Sink.
Variable E : env.
Variable T : texts.
Variable B : Type.
Variable put : B -> src -> M B.
Variable inv : mach -> B -> list Z -> Prop.
Variable steady : Prop.
Variable N : nat.

Definition post (m : mach) (t : list Z) (b : B) (m' : mach) : Prop :=
  wf E m' /\ wf_strs E (m_heap m') /\ frame None m m' /\ quiet m m' /\
  (steady -> m_epoch m' = m_epoch m) /\ inv m' b t.

Hypothesis inv_stack : forall m m' b t, inv m b t -> m_heap m' = m_heap m -> m_epoch m' = m_epoch m -> inv m' b t.
Hypothesis put_ok : forall m b t s x,
  wf E m -> wf_strs E (m_heap m) -> room E 2 m -> inv m b t -> src_at m s x ->
  Forall (fun c => 0 < c < 256) x -> (length (t ++ x) <= N)%nat -> runs (put b s) m (post m (t ++ x)).
Hypothesis We : wf_env E.
Hypothesis Tok : texts_ok T.

Lemma post_trans : forall m m1 t1 b1 t2 b2 m2, post m t1 b1 m1 -> post m1 t2 b2 m2 -> post m t2 b2 m2.
Proof.
  intros m m1 t1 b1 t2 b2 m2 (W1 & S1 & F1 & Q1 & E1 & I1) (W2 & S2 & F2 & Q2 & E2 & I2).
  split; [exact W2|]. split; [exact S2|]. split; [eapply frame_trans_none; eauto|].
  split; [destruct Q1, Q2; split; congruence|]. split; [| exact I2]. intros St. rewrite (E2 St). auto.
Qed.

Lemma post_room : forall m t b m' k, post m t b m' -> room E k m -> room E k m'.
Proof. intros m t b m' k (_ & _ & F & _) R. unfold room in *. rewrite (fr_sp _ _ _ F). exact R. Qed.

Lemma put_chars_ok : forall cs m b t,
  wf E m -> wf_strs E (m_heap m) -> room E 2 m -> inv m b t ->
  Forall (fun c => 0 < c < 256) cs -> (length (t ++ cs) <= N)%nat ->
  runs (put_chars B put b cs) m (fun b' m' => post m (t ++ cs) b' m').
Proof.
  induction cs as [|c cs IH]; intros m b t W Ws R I Hc Hn.
  - rewrite app_nil_r. apply runs_ret. split; [exact W|]. split; [exact Ws|]. split; [apply frame_refl|].
    split; [split; reflexivity|]. auto.
  - inversion Hc as [|? ? Hc1 Hc2]; subst. cbn [put_chars].
    eapply runs_step; [apply (put_ok m b t (SText [c]) [c]); auto; [reflexivity|]|].
    { rewrite app_length in *. cbn [length] in *. lia. }
    intros b1 m1 P. pose proof P as (W1 & S1 & F1 & Q1 & E1 & I1).
    eapply runs_weaken; [apply (IH m1 b1 (t ++ [c])); auto|].
    + eapply post_room; eauto.
    + rewrite <- app_assoc. exact Hn.
    + intros b2 m2 P2. rewrite <- app_assoc in P2. eapply post_trans; [exact P | exact P2].
Qed.

Lemma put_weaken : forall m b t s x (Q : B -> mach -> Prop),
  wf E m -> wf_strs E (m_heap m) -> room E 2 m -> inv m b t -> src_at m s x ->
  Forall (fun c => 0 < c < 256) x -> (length (t ++ x) <= N)%nat ->
  (forall b' m', post m (t ++ x) b' m' -> Q b' m') -> runs (put b s) m Q.
Proof. intros. eapply runs_weaken; [eapply put_ok; eauto | auto]. Qed.

Lemma format_ok : forall v n p c b t0 m,
  (vdepth v < n)%nat -> wf E m -> wf_strs E (m_heap m) -> room E (vdepth v + 2) m -> tree (m_heap m) p v -> inv m b t0 ->
  (steady \/ unquoted c v) -> (exists t, text_of E T c v t) -> (forall t, text_of E T c v t -> (length (t0 ++ t) <= N)%nat) ->
  runs (poly_format E T B put n b p c) m (fun b' m' => exists t, text_of E T c v t /\ post m (t0 ++ t) b' m').
Proof.
  induction v as [f|s|k vs IH|u|u] using value_ind2; intros n p c b t0 m Hn W Ws R Htr I St Hex Hb;
    (destruct n as [|n]; [lia|]); cbn [poly_format]; apply runs_bind; exists (p, m_epoch m), m; (split; [reflexivity|]).
  - (* numbers *)
    cbn in Htr. subst p. cbn [is_null]. cbn [vdepth] in R.
    assert (K : forall s x, src_at m s x -> Forall (fun c => 0 < c < 256) x -> text_of E T c (VNum f) x ->
      runs (put b s) m (fun b' m' => exists t, text_of E T c (VNum f) t /\ post m (t0 ++ t) b' m')).
    { intros s x H1 H2 H3. eapply put_weaken; eauto. }
    destruct (is_intfmt c) eqn:Ei.
    { apply is_intfmt_iff in Ei. destruct Hex as [t Ht]. inversion Ht; subst; try contradiction.
      - match goal with H : f_to_sint _ _ = Ok _ |- _ => rewrite H end. eapply (K _ (cstring (tx_int T c i))); [reflexivity | apply cstring_chars, Tok | exact Ht].
      - exfalso. match goal with H : flt_fmt _ |- _ => unfold int_fmt, flt_fmt in *; cbn in Ei, H end. lia. }
    assert (Ni : ~ int_fmt c) by (intros H; apply is_intfmt_iff in H; congruence).
    destruct (is_fltfmt c) eqn:Ef.
    { apply is_fltfmt_iff in Ef. eapply (K _ (tx_float T c f)); [reflexivity | apply Tok | constructor; exact Ef]. }
    assert (Nf : ~ flt_fmt c) by (intros H; apply is_fltfmt_iff in H; congruence).
    destruct (Z.eqb_spec c ch_c) as [->|Nc].
    { destruct Hex as [t Ht]. inversion Ht; subst; try contradiction; try (exfalso; unfold chr_fmt, ch_c in *; congruence).
      match goal with H : f_to_sint _ _ = Ok _ |- _ => rewrite H end. eapply (K _ (cstring (tx_int T ch_c i))); [reflexivity | apply cstring_chars, Tok | exact Ht]. }
    assert (Hr : text_of E T c (VNum f) (tx_repr T f)) by (constructor; auto).
    destruct (Z.eqb_spec c ch_s) as [->|Ns]; (eapply (K _ (tx_repr T f)); [reflexivity | apply Tok | exact Hr]).
  - (* strings *)
    destruct Htr as (l & -> & Hl). cbn [is_null]. cbn [vdepth] in R. change (nth_error (m_heap m) l = Some (OStr s)) with (str_at (m_heap m) l s) in Hl.
    assert (Hq : c <> chr_fmt -> c <> str_fmt ->
      runs (let* b0 := put b (SText [ch_quote]) in
            let* a := use (PStr l, m_epoch m) in
            let* p := poly_to_str a in let* b1 := put b0 (SPool p) in put b1 (SText [ch_quote])) m
        (fun b' m' => exists t, text_of E T c (VStr s) t /\ post m (t0 ++ t) b' m')).
    { intros N1 N2.
      assert (Ht : text_of E T c (VStr s) (quoted s)) by (constructor; auto).
      pose proof (Hb _ Ht) as Hlen. unfold quoted in Hlen. rewrite !app_length in Hlen. cbn [length] in Hlen.
      assert (Std : steady). { destruct St as [St|[St|[[St|St] _]]]; [exact St | contradiction | contradiction | contradiction]. }
      eapply runs_step; [apply (put_ok m b t0 (SText [ch_quote]) [ch_quote]); auto;
        [reflexivity | repeat constructor | rewrite app_length; cbn [length]; lia]|].
      intros b1 m1 P1. pose proof P1 as (W1 & S1 & F1 & Q1 & E1 & I1).
      apply runs_bind. exists (PStr l), m1. split.
      { unfold use. cbn [fst snd is_ref negb orb]. rewrite (E1 Std), Nat.eqb_refl. reflexivity. }
      apply runs_bind. exists (l, m_epoch m1), m1. split; [reflexivity|].
      eapply runs_step; [apply (put_ok m1 b1 (t0 ++ [ch_quote]) (SPool (l, m_epoch m1)) s); auto|].
      { eapply post_room; [exact P1 | exact R]. } { split; [reflexivity | eapply str_at_frame; eauto]. }
      { apply (Ws _ _ Hl). } { rewrite !app_length. cbn [length]. lia. }
      intros b2 m2 P2. pose proof P2 as (W2 & S2 & F2 & Q2 & E2 & I2).
      eapply put_weaken; [exact W2 | exact S2 | eapply post_room; [exact P2 | eapply post_room; [exact P1 | exact R]] | exact I2 |
        reflexivity | repeat constructor | rewrite !app_length; cbn [length]; lia |].
      intros b3 m3 P3. exists (quoted s). split; [exact Ht|].
      replace (t0 ++ quoted s) with (((t0 ++ [ch_quote]) ++ s) ++ [ch_quote])
        by (unfold quoted; rewrite <- !app_assoc; reflexivity).
      eapply post_trans; [eapply post_trans; [exact P1 | exact P2] | exact P3]. }
    destruct (is_intfmt c) eqn:Ei.
    { apply is_intfmt_iff in Ei. apply Hq; unfold int_fmt, chr_fmt, str_fmt in *; cbn in Ei; lia. }
    destruct (is_fltfmt c) eqn:Ef.
    { apply is_fltfmt_iff in Ef. apply Hq; unfold flt_fmt, chr_fmt, str_fmt in *; cbn in Ef; lia. }
    destruct (Z.eqb_spec c ch_c) as [->|Nc].
    { apply runs_bind. exists (l, m_epoch m), m. split; [reflexivity|].
      eapply runs_deref_str; [reflexivity | exact Hl|].
      assert (Ht : text_of E T ch_c (VStr s) (cstring (tx_int T ch_c (hd 0 s)))) by (exact (to_chr E T s)).
      eapply put_weaken; [exact W | exact Ws | exact R | exact I | reflexivity | apply cstring_chars, Tok | auto |]. eauto. }
    destruct (Z.eqb_spec c ch_s) as [->|Ns].
    { apply runs_bind. exists (l, m_epoch m), m. split; [reflexivity|].
      assert (Ht : text_of E T ch_s (VStr s) s) by (exact (to_str E T s)).
      eapply put_weaken; [exact W | exact Ws | exact R | exact I | split; [reflexivity | exact Hl] | apply (Ws _ _ Hl) | auto |]. eauto. }
    apply Hq; assumption.
  - (* sequences *)
    apply tree_seq in Htr. destruct Htr as (l & o & -> & Ho & Hk & Hel). cbn [is_null]. rewrite vdepth_seq in *.
    set (c' := if c =? str_fmt then 97 else c) in *.
    assert (Hst : length (m_stack m) = e_stack E) by apply W.
    match goal with |- runs ?X m ?Q => set (prog := X); set (QQ := Q) end.
    assert (Hlen : length (elems o) = length vs) by (eapply Forall2_length; exact Hel).
    assert (Hsz : lo_size o = Z.of_nat (length vs)).
    { rewrite <- Hlen. unfold elems. rewrite firstn_length. destruct (wf_heap _ _ W _ _ Ho) as [A1 A2 _ _ _ _]. lia. }
    destruct Hex as [te Hte]. destruct (text_seq_inv _ _ _ _ _ _ Hte) as (tse & -> & Htse). fold c' in Htse.
    assert (Hst' : steady \/ Forall no_string vs).
    { destruct St as [St|[St|[_ [s [=]]]]]; [left; exact St | right].
      cbn [no_string] in St. clear -St. induction vs as [|v vs IH]; constructor; [apply St | apply IH, St]. }
    (* every text of the whole fits *)
    assert (Hb' : forall ts, Forall2 (text_of E T c') vs ts -> (length t0 + 2 + length (flat k (Z.of_nat (length vs)) 0 ts) <= N)%nat).
    { intros ts Hts. assert (Ht : text_of E T c (VSeq k vs) (bracketed k ts)) by (constructor; exact Hts).
      specialize (Hb _ Ht). rewrite bracketed_flat in Hb. rewrite !app_length in Hb. cbn [length] in Hb.
      assert (El : length vs = length ts) by (eapply Forall2_length; exact Hts). rewrite El. lia. }
    assert (Main : runs (
        let* list := poly_to_list (PList l) in
        let* lo := deref_list list in
        push_list E list;;
        (let* b0 := put b (SText [list_open (lo_kind lo)]) in
         let* b0 := (fix elts (k : nat) (o : Z) (b : B) : M B :=
             match k with
             | O => ret b
             | S k' =>
                 let* list := pop_list in
                 push_list E list;;
                 let* lo' := deref_list list in
                 let* x := nth_data lo' o in
                 let* b := poly_format E T B put n b x c' in
                 let* b := put_chars B put b (list_sep (lo_kind lo) (lo_size lo) o) in
                 elts k' (o + 1) b
             end) (Z.to_nat (lo_size lo)) 0 b0 in
         let* _ := pop_list in put b0 (SText [list_close (lo_kind lo)]))) m QQ).
    { apply runs_bind. exists (l, m_epoch m), m. split; [reflexivity|].
      eapply runs_deref; [reflexivity | exact Ho|]. rewrite Hk, Hsz, Nat2Z.id.
      apply runs_push_list; [unfold room in *; lia | reflexivity|].
      set (mp := pushed (PList l) m).
      assert (Wp : wf E mp). { apply wf_pushed; [exact W | unfold room in *; lia | eexists; exact Ho]. }
      assert (Rp : room E (vdepths vs + 2) mp). { unfold room in *. cbn [mp pushed set_stack m_sp]. lia. }
      assert (Ip : inv mp b t0) by (eapply inv_stack; [exact I | reflexivity | reflexivity]).
      eapply runs_step; [apply (put_ok mp b t0 (SText [list_open k]) [list_open k]); auto|].
      { unfold room in *; lia. } { reflexivity. } { destruct k; repeat constructor. }
      { rewrite app_length. cbn [length]. specialize (Hb' _ Htse). lia. }
      intros b1 m1 P1.
      set (sz := Z.of_nat (length vs)).
      assert (Loop : forall vs2 vs1 ts1 b2 m2, vs = vs1 ++ vs2 -> Forall2 (text_of E T c') vs1 ts1 ->
        post mp ((t0 ++ [list_open k]) ++ flat k sz 0 ts1) b2 m2 ->
        runs ((fix elts (k0 : nat) (o : Z) (b : B) : M B :=
             match k0 with
             | O => ret b
             | S k' =>
                 let* list := pop_list in
                 push_list E list;;
                 let* lo' := deref_list list in
                 let* x := nth_data lo' o in
                 let* b := poly_format E T B put n b x c' in
                 let* b := put_chars B put b (list_sep k sz o) in
                 elts k' (o + 1) b
             end) (length vs2) (Z.of_nat (length vs1)) b2) m2
          (fun b' m' => exists ts, Forall2 (text_of E T c') vs ts /\
             post mp ((t0 ++ [list_open k]) ++ flat k sz 0 ts) b' m')).
      { induction vs2 as [|v vs2 IH2]; intros vs1 ts1 b2 m2 Hvs Ht1 P2.
        - rewrite app_nil_r in Hvs. subst vs1. cbn [length]. apply runs_ret. eauto.
        - cbn [length]. pose proof P2 as (W2 & S2 & F2 & Q2 & E2 & I2).
          assert (Spm : (m_sp m < length (m_stack m))%nat) by (unfold room in *; lia).
          eapply runs_pop_list; [exact Spm | exact F2|]. intros F2'.
          assert (Sp2 : m_sp m2 = S (m_sp m)). { rewrite (fr_sp _ _ _ F2). reflexivity. }
          assert (Wpop : wf E (popped m2)). { apply wf_popped. exact W2. }
          apply runs_push_list.
          { unfold room. cbn [popped set_stack m_sp]. rewrite Sp2. unfold room in *. lia. } { reflexivity. }
          assert (Ho2' : exists o', nth_error (m_heap m2) l = Some (OList o') /\ elems o' = elems o /\ lo_size o' = lo_size o).
          { destruct (fr_kept _ _ _ F2') as [_ K]. destruct (K _ _ Ho ltac:(discriminate)) as ([o'| |] & H' & Rr); cbn in Rr; try contradiction.
            destruct Rr as (R1 & R2 & R3 & R4 & R5). exists o'. auto. }
          destruct Ho2' as (o' & Ho' & El' & Sz').
          set (m3 := pushed (PList l) (popped m2)).
          assert (W3 : wf E m3).
          { apply wf_pushed; [exact Wpop | unfold room in *; cbn [popped set_stack m_sp]; rewrite Sp2; lia | eexists; exact Ho']. }
          assert (F3 : frame None mp m3).
          { apply frame_pushed; [exact F2' | exact Spm]. }
          eapply runs_deref; [reflexivity | exact Ho'|].
          assert (Hx : exists px, nth_error (elems o) (length vs1) = Some px /\ tree (m_heap m) px v).
          { rewrite Hvs in Hel. apply Forall2_app_inv_r in Hel. destruct Hel as (q1 & q2 & Hq1 & Hq2 & Eq).
            inversion Hq2 as [|px ? qs ? Hpx Hqs]; subst. exists px. split; [| exact Hpx].
            rewrite Eq, nth_error_app2; rewrite (Forall2_length _ _ _ _ _ Hq1); [| lia]. rewrite Nat.sub_diag. reflexivity. }
          destruct Hx as (px & Hpx & Hpt).
          eapply runs_lift_bind.
          { rewrite Nat2Z.id. rewrite <- El' in Hpx. unfold elems in Hpx.
            assert (Hlt : (length vs1 < length (firstn (Z.to_nat (lo_size o')) (lo_data o')))%nat) by (eapply nth_error_lt; exact Hpx).
            rewrite nth_error_firstn in Hpx by (rewrite firstn_length in Hlt; lia). exact Hpx. }
          assert (I3 : inv m3 b2 ((t0 ++ [list_open k]) ++ flat k sz 0 ts1)) by (eapply inv_stack; [exact I2 | reflexivity | reflexivity]).
          assert (Hin : In v vs) by (rewrite Hvs; apply in_or_app; right; left; reflexivity).
          assert (Hdv : (vdepth v <= vdepths vs)%nat) by (apply vdepths_in; exact Hin).
          assert (R3 : room E (vdepths vs + 2) m3).
          { unfold room in *. cbn [m3 pushed popped set_stack m_sp]. rewrite Sp2. cbn [mp pushed set_stack m_sp] in Rp. lia. }
          (* texts for what is left *)
          rewrite Hvs in Htse. apply Forall2_app_inv_l in Htse. destruct Htse as (e1 & e2 & He1 & He2 & Ee).
          inversion He2 as [|? tv ? tvs Hv1 Hv2]. clear He2.
          assert (IHv : forall n p c b t0 m,
            (vdepth v < n)%nat -> wf E m -> wf_strs E (m_heap m) -> room E (vdepth v + 2) m -> tree (m_heap m) p v -> inv m b t0 ->
            (steady \/ unquoted c v) -> (exists t, text_of E T c v t) -> (forall t, text_of E T c v t -> (length (t0 ++ t) <= N)%nat) ->
            runs (poly_format E T B put n b p c) m (fun b' m' => exists t, text_of E T c v t /\ post m (t0 ++ t) b' m')).
          { rewrite Forall_forall in IH. apply IH. exact Hin. }
          assert (Bd : forall t, text_of E T c' v t ->
            (length (((t0 ++ [list_open k]) ++ flat k sz 0 ts1) ++ t ++ list_sep k sz (Z.of_nat (length vs1))) <= N)%nat).
          { intros t Ht. specialize (Hb' (ts1 ++ t :: tvs)).
            assert (Hall : Forall2 (text_of E T c') (vs1 ++ v :: vs2) (ts1 ++ t :: tvs)).
            { apply Forall2_app; [exact Ht1 | constructor; assumption]. }
            rewrite <- Hvs in Hall. specialize (Hb' Hall). fold sz in Hb'. rewrite flat_app in Hb'. cbn [flat] in Hb'.
            rewrite <- (Forall2_length _ _ _ _ _ Ht1) in Hb'. rewrite Z.add_0_l in Hb'.
            rewrite !app_length in *. cbn [length] in *. lia. }
          eapply runs_step; [apply (IHv n px c' b2 ((t0 ++ [list_open k]) ++ flat k sz 0 ts1) m3); auto|].
          { lia. } { unfold room in *; lia. }
          { eapply tree_kept; [| exact Hpt]. cbn [m3 pushed popped set_stack m_heap]. apply F2'. }
          { destruct Hst' as [|Hns]; [left; assumption | right; left]. rewrite Forall_forall in Hns. apply Hns. exact Hin. }
          { eauto. }
          { intros t Ht. specialize (Bd t Ht). rewrite !app_length in *. lia. }
          intros b4 m4 (t & Ht & P4). pose proof P4 as (W4 & S4 & F4 & Q4 & E4 & I4).
          eapply runs_step; [apply (put_chars_ok (list_sep k sz (Z.of_nat (length vs1))) m4 b4 (((t0 ++ [list_open k]) ++ flat k sz 0 ts1) ++ t)); auto|].
          { eapply post_room; [exact P4|]. unfold room in *; lia. } { apply sep_chars. }
          { specialize (Bd t Ht). rewrite <- app_assoc. exact Bd. }
          intros b5 m5 P5.
          replace (Z.of_nat (length vs1) + 1) with (Z.of_nat (length (vs1 ++ [v]))) by (rewrite app_length; cbn [length]; lia).
          apply (IH2 (vs1 ++ [v]) (ts1 ++ [t])); [rewrite Hvs, <- app_assoc; reflexivity | apply Forall2_app; [exact Ht1 | constructor; [exact Ht | constructor]] |].
          rewrite flat_app. cbn [flat]. rewrite app_nil_r, Z.add_0_l, <- (Forall2_length _ _ _ _ _ Ht1).
          assert (P3 : post mp ((t0 ++ [list_open k]) ++ flat k sz 0 ts1) b2 m3).
          { split; [exact W3|]. split; [exact S2|]. split; [exact F3|]. split; [exact Q2|]. split; [exact E2 | exact I3]. }
          rewrite !app_assoc in *. eapply post_trans; [eapply post_trans; [exact P3 | exact P4] | exact P5]. }
      eapply runs_step.
      { apply (Loop vs [] [] b1 m1); [reflexivity | constructor |]. cbn [flat]. rewrite app_nil_r. exact P1. }
      intros b6 m6 (ts & Hts & P6). pose proof P6 as (W6 & S6 & F6 & Q6 & E6 & I6).
      assert (Spm : (m_sp m < length (m_stack m))%nat) by (unfold room in *; lia).
      eapply runs_pop_list; [exact Spm | exact F6|]. intros F7.
      assert (P7 : post m ((t0 ++ [list_open k]) ++ flat k sz 0 ts) b6 (popped m6)).
      { split; [apply wf_popped; exact W6|]. split; [exact S6|]. split; [exact F7|]. split; [exact Q6|]. split; [exact E6|].
        eapply inv_stack; [exact I6 | reflexivity | reflexivity]. }
      pose proof P7 as (W7 & S7 & _ & Q7 & E7 & I7).
      eapply put_weaken; [exact W7 | exact S7 | eapply post_room; [exact P7|] | exact I7 | reflexivity | | |].
      { unfold room in *; lia. } { destruct k; repeat constructor. }
      { specialize (Hb' _ Hts). fold sz in Hb'. rewrite !app_length. cbn [length]. lia. }
      intros b8 m8 P8. unfold QQ. exists (bracketed k ts). split; [constructor; exact Hts|].
      rewrite bracketed_flat. rewrite <- (Forall2_length _ _ _ _ _ Hts). fold sz. rewrite !app_assoc in *.
      eapply post_trans; [exact P7 | exact P8]. }
    unfold prog, c', str_fmt in *. clear prog.
    destruct (is_intfmt c) eqn:Ei.
    { apply is_intfmt_iff in Ei. destruct (Z.eqb_spec c 115); [exfalso; unfold int_fmt in Ei; cbn in Ei; lia | exact Main]. }
    destruct (is_fltfmt c) eqn:Ef.
    { apply is_fltfmt_iff in Ef. destruct (Z.eqb_spec c 115); [exfalso; unfold flt_fmt in Ef; cbn in Ef; lia | exact Main]. }
    destruct (Z.eqb_spec c ch_c) as [->|Nc]; [exact Main|].
    unfold ch_s. destruct (Z.eqb_spec c 115); exact Main.
  - (* functions *)
    destruct Htr as (l & -> & ->). cbn [is_null]. cbn [vdepth] in R.
    assert (K : runs (fun m0 => put b (SText (tx_func T l (m_epoch m0))) m0) m
       (fun b' m' => exists t, text_of E T c (VFunc (Z.of_nat l)) t /\ post m (t0 ++ t) b' m')).
    { assert (Ht : text_of E T c (VFunc (Z.of_nat l)) (tx_func T l (m_epoch m))).
      { pose proof (to_func E T c (Z.of_nat l) (m_epoch m)) as Q. rewrite Nat2Z.id in Q. exact Q. }
      eapply runs_eq with (c' := put b (SText (tx_func T l (m_epoch m)))); [reflexivity|].
      eapply put_weaken; [exact W | exact Ws | exact R | exact I | reflexivity | apply Tok | auto |]. eauto. }
    destruct (is_intfmt c); [exact K|]. destruct (is_fltfmt c); [exact K|].
    destruct (c =? ch_c); [exact K|]. destruct (c =? ch_s); exact K.
  - (* builtins *)
    cbn in Htr. subst p. cbn [vdepth] in R. cbn [is_null].
    assert (K : runs (if u =? SNEK_NULL_U then put b (SText none_text) else put b (SText (tx_builtin T u))) m
       (fun b' m' => exists t, text_of E T c (VBuiltin u) t /\ post m (t0 ++ t) b' m')).
    { destruct (Z.eqb_spec u SNEK_NULL_U) as [->|Nu].
      - assert (Ht : text_of E T c (VBuiltin SNEK_NULL_U) none_text) by constructor.
        eapply put_weaken; [exact W | exact Ws | exact R | exact I | reflexivity | repeat constructor | auto |]. eauto.
      - assert (Ht : text_of E T c (VBuiltin u) (tx_builtin T u)) by (constructor; exact Nu).
        eapply put_weaken; [exact W | exact Ws | exact R | exact I | reflexivity | apply Tok | auto |]. eauto. }
    destruct (is_intfmt c); [exact K|]. destruct (is_fltfmt c); [exact K|].
    destruct (c =? ch_c); [exact K|]. destruct (c =? ch_s); exact K.
Qed.
End Sink.
