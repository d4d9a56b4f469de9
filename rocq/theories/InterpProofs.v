(** Printing, and the format operator. *)
From Verif Require Import Tac Base FloatModel PolyModel ValueModel OrderSpec OrderProofs SliceModel SliceSpec SliceProofs
  MachModel ListModel StrModel MachSpec ListSpec StrSpec MachProofs FrameProofs ListProofs ListProofs2 StrProofs StrProofs2 FormatProofs.
Local Open Scope Z_scope.
Open Scope mach_scope.

Lemma nth_error_skipn' : forall A n (l : list A) j, nth_error (skipn n l) j = nth_error l (n + j).
Proof. induction n as [|n IH]; intros [|x l] j; cbn; auto. destruct j; reflexivity. Qed.
Lemma skipn_cons' : forall A n (l : list A) x, nth_error l n = Some x -> skipn n l = x :: skipn (S n) l.
Proof. induction n as [|n IH]; intros [|y l] x H; try discriminate; [injection H as ->; reflexivity | exact (IH l x H)]. Qed.
Lemma Forall2_nth_r : forall A B (R : A -> B -> Prop) l l', Forall2 R l l' -> forall j y, nth_error l' j = Some y ->
  exists x, nth_error l j = Some x /\ R x y.
Proof. induction 1 as [|x y l l' H _ IH]; intros [|j] z Hz; try discriminate; [injection Hz as <-; exists x; auto | exact (IH j z Hz)]. Qed.
Lemma wf_poly_kept : forall h h' p, kept None h h' -> wf_poly h p -> wf_poly h' p.
Proof. intros h h' p K H. eapply wf_poly_grows; [eapply kept_grows; exact K | exact H]. Qed.

(** ** Texts are bounded *)
Lemma text_bounded : forall E T v c, texts_ok T -> exists n, forall t, text_of E T c v t -> (length t <= n)%nat.
Proof.
  intros E T v c Tok. revert c. induction v as [f|s|k vs IH|u|u] using value_ind2; intros c.
  - destruct (f_to_sint (e_int E) f) as [i| |] eqn:Ef.
    + exists (Nat.max (length (cstring (tx_int T c i))) (Nat.max (length (tx_float T c f)) (length (tx_repr T f)))).
      intros t H. inversion H; subst; try lia. assert (i0 = i) by congruence. subst. lia.
    + exists (Nat.max (length (tx_float T c f)) (length (tx_repr T f))). intros t H. inversion H; subst; try lia. congruence.
    + exists (Nat.max (length (tx_float T c f)) (length (tx_repr T f))). intros t H. inversion H; subst; try lia. congruence.
  - exists (Nat.max (length (cstring (tx_int T chr_fmt (hd 0 s)))) (length (quoted s))). intros t H.
    assert ((length s <= length (quoted s))%nat) by (unfold quoted; rewrite !app_length; lia).
    inversion H; subst; lia.
  - set (c' := if c =? str_fmt then 97 else c).
    assert (A : exists n, forall ts, Forall2 (text_of E T c') vs ts -> forall k sz o, (length (flat k sz o ts) <= n)%nat).
    { clear -IH. induction IH as [|v vs Hv _ [n IHn]].
      - exists 0%nat. intros ts H. inversion H; subst. intros. cbn. lia.
      - destruct (Hv c') as [n1 H1]. exists (n1 + 2 + n)%nat. intros ts H k sz o. inversion H as [|? t ? ts' Ht Hts]; subst.
        cbn [flat]. rewrite !app_length. specialize (H1 _ Ht). specialize (IHn _ Hts k sz (o + 1)).
        assert ((length (list_sep k sz o) <= 2)%nat) by (unfold list_sep; destruct (_ || _); cbn; lia). lia. }
    destruct A as [n A]. exists (n + 2)%nat. intros t H. apply text_seq_inv in H. destruct H as (ts & -> & H).
    rewrite bracketed_flat, !app_length. cbn [length]. specialize (A _ H k (Z.of_nat (length ts)) 0). lia.
  - exists 31%nat. intros t H. inversion H; subst. apply Tok.
  - exists (Nat.max 4 (length (tx_builtin T u))). intros t H. inversion H; subst; [apply Nat.le_max_l | apply Nat.le_max_r].
Qed.

(** ** Printing *)
Lemma print_runs : forall E T m p v c out,
  wf_env E -> texts_ok T -> wf E m -> wf_strs E (m_heap m) -> room E (nesting v + 2) m -> tree (m_heap m) p v ->
  (exists t, text_of E T c v t) ->
  runs (poly_print E T out p c) m (fun out' m' =>
    exists t, text_of E T c v t /\ out' = out ++ t /\ wf E m' /\ quiet m m' /\ stack_kept m m' /\ heap_kept (m_heap m) (m_heap m')).
Proof.
  intros E T m p v c out We Tok W Ws R Ht Hex. unfold poly_print. rewrite nesting_depth in R.
  destruct (text_bounded E T v c Tok) as [n Hn].
  eapply runs_eq; [reflexivity|].
  eapply runs_weaken; [apply (format_ok E T (list Z) file_put (fun _ b t => b = t) True (length out + n)) with (v := v) (t0 := out)|]; auto.
  - intros m0 b t s x W0 Ws0 R0 -> Hs Hx Hlen. unfold file_put. apply runs_bind. exists x, m0. split.
    { destruct s as [[l ep]|t']; cbn [read_src].
      - destruct Hs as [-> Hs]. unfold deref_str, deref, bind. cbn [fst snd]. rewrite Nat.eqb_refl. unfold str_at in Hs. rewrite Hs. reflexivity.
      - cbn in Hs. subst. reflexivity. }
    apply runs_ret. split; [exact W0|]. split; [exact Ws0|]. split; [apply frame_refl|]. split; [split; reflexivity|]. auto.
  - pose proof (tree_depth _ _ _ Ht). unfold fmt_fuel. lia.
  - intros t H. rewrite app_length. specialize (Hn _ H). lia.
  - intros b m' (t & H1 & (W' & Ws' & F & Q & Ep & ->)). exists t. split; [exact H1|]. split; [reflexivity|].
    split; [exact W'|]. split; [exact Q|]. split; [destruct F; split; assumption | apply kept_others; apply F].
Qed.

(** ** The pieces of a format *)
Lemma next_format_split : forall s, exists k, next_format s = Z.of_nat k /\ (k <= length s)%nat /\
  pieces s = map Lit (firstn k s) ++ pieces (skipn k s) /\
  (nth_error s k = None \/ nth_error s k = Some 37).
Proof.
  induction s as [|c s (k & H1 & H2 & H3 & H4)].
  - exists 0%nat. cbn. auto.
  - cbn [next_format]. unfold ch_percent in *. destruct (Z.eqb_spec c 37) as [->|Nc].
    + exists 0%nat. cbn [firstn skipn map app nth_error length]. repeat split; auto. lia.
    + exists (S k). rewrite H1. cbn [firstn skipn map app nth_error length]. split; [lia|]. split; [lia|]. split; [| exact H4].
      cbn [pieces]. destruct (Z.eqb_spec c 37); [congruence|]. rewrite H3. reflexivity.
Qed.

Lemma rendered_lits : forall E T cs ps vs t, rendered E T (map Lit cs ++ ps) vs t <-> exists t', t = cs ++ t' /\ rendered E T ps vs t'.
Proof.
  induction cs as [|c cs IH]; intros ps vs t; cbn [map app].
  - split; [intros H; eauto | intros (t' & -> & H); exact H].
  - split.
    + intros H. inversion H; subst. match goal with H : rendered _ _ (_ ++ _) _ _ |- _ => apply IH in H; destruct H as (t' & -> & H) end. eauto.
    + intros (t' & -> & H). cbn [app]. constructor. apply IH. eauto.
Qed.
Lemma plain_lits : forall cs ps vs, plain (map Lit cs ++ ps) vs <-> plain ps vs.
Proof. induction cs as [|c cs IH]; intros ps vs; cbn [map app plain]; [reflexivity | apply IH]. Qed.
Lemma convs_lits : forall cs ps, convs (map Lit cs ++ ps) = convs ps.
Proof. induction cs as [|c cs IH]; intros ps; cbn [map app convs]; [reflexivity | apply IH]. Qed.
Lemma stray_lits : forall cs ps, In Stray (map Lit cs ++ ps) <-> In Stray ps.
Proof.
  induction cs as [|c cs IH]; intros ps; cbn [map app In]; [reflexivity|]. rewrite IH. split; [intros [H|H]; [discriminate | exact H] | auto].
Qed.
(** ** Progress of a machine *)
Section Interp.
Variable E : env.
Variable T : texts.
Variable N : nat.
Hypothesis We : wf_env E.
Hypothesis Tok : texts_ok T.
Hypothesis Hen : enough E N.
Let steady : Prop := forall n, e_move E n = false.

Definition fine (m m' : mach) : Prop :=
  wf E m' /\ wf_strs E (m_heap m') /\ frame None m m' /\ quiet m m' /\ (steady -> m_epoch m' = m_epoch m).

Lemma fine_trans : forall m1 m2 m3, fine m1 m2 -> fine m2 m3 -> fine m1 m3.
Proof.
  intros m1 m2 m3 (W1 & S1 & F1 & Q1 & E1) (W2 & S2 & F2 & Q2 & E2).
  split; [exact W2|]. split; [exact S2|]. split; [eapply frame_trans_none; eauto|].
  split; [destruct Q1, Q2; split; congruence|]. intros St. rewrite (E2 St). auto.
Qed.
Lemma fine_refl : forall m, wf E m -> wf_strs E (m_heap m) -> fine m m.
Proof. intros m W S. split; [exact W|]. split; [exact S|]. split; [apply frame_refl|]. split; [split; reflexivity | auto]. Qed.
Lemma fine_pop : forall p m m2, room E 1 m -> length (m_stack m) = e_stack E -> fine (pushed p m) m2 -> fine m (popped m2) /\ pop m2 = Some (p, popped m2).
Proof.
  intros p m m2 R L (W & S & F & Q & Ep). unfold room in R.
  destruct (pop_pushed None p m m2 ltac:(lia) F) as [P F']. split; [| exact P].
  split; [apply wf_popped; exact W|]. split; [exact S|]. split; [exact F'|]. split; [exact Q | exact Ep].
Qed.
Lemma fine_room : forall m m' k, fine m m' -> room E k m -> room E k m'.
Proof. intros m m' k (_ & _ & F & _) R. unfold room in *. rewrite (fr_sp _ _ _ F). exact R. Qed.

Definition res_at (m : mach) (b : option ptr) (t : list Z) : Prop :=
  exists l, b = Some (l, m_epoch m) /\ str_at (m_heap m) l t.

Lemma new_str_fine : forall m s r m', new_str_post E m s r m' -> (length s <= N)%nat -> fine m m' /\ res_at m' r s.
Proof.
  intros m s r m' (W & Ws & F & H) HN. destruct Hen as (H1 & H2 & H3). destruct r as [p|].
  - destruct H as (Q & -> & Hs & _ & Ep). split; [repeat (split; [assumption|]); exact Ep|]. eexists. split; [reflexivity | exact Hs].
  - exfalso. destruct H as [[_ [[k Hk]|Hk]] _]; [rewrite H1 in Hk; discriminate | lia].
Qed.

Lemma enough_le : forall n, (n <= N)%nat -> enough E n.
Proof. intros n H. destruct Hen as (A & B & C). split; [exact A|]. unfold fits_str in *. split; lia. Qed.

Lemma put_fine : forall m b t s x, wf E m -> wf_strs E (m_heap m) -> room E 2 m -> res_at m b t -> src_at m s x ->
  Forall (fun c => 0 < c < 256) x -> (length (t ++ x) <= N)%nat ->
  runs (buf_put E b s) m (fun b' m' => fine m m' /\ res_at m' b' (t ++ x)).
Proof.
  intros m b t s x W Ws R (l & -> & Hl) Hs Hx Hlen.
  eapply runs_weaken; [apply (buf_put_runs E m (Some (l, m_epoch m)) t s x); auto|].
  - split; [reflexivity | exact Hl].
  - apply enough_le. exact Hlen.
  - intros r m' [_ H]. eapply new_str_fine; eauto.
Qed.

Lemma format_fine : forall v p c b t0 m,
  wf E m -> wf_strs E (m_heap m) -> room E (vdepth v + 2) m -> tree (m_heap m) p v -> res_at m b t0 ->
  (steady \/ unquoted c v) -> (exists t, text_of E T c v t) -> (forall t, text_of E T c v t -> (length (t0 ++ t) <= N)%nat) ->
  runs (buf_format E T b p c) m (fun b' m' => exists t, text_of E T c v t /\ fine m m' /\ res_at m' b' (t0 ++ t)).
Proof.
  intros v p c b t0 m W Ws R Ht Hr Hst Hex Hb. unfold buf_format. eapply runs_eq; [reflexivity|].
  eapply runs_weaken; [apply (format_ok E T (option ptr) (buf_put E) res_at steady N) with (v := v) (t0 := t0)|]; auto.
  - intros m0 m1 b0 t (l & -> & Hl) Hh Hep. exists l. rewrite Hep. split; [reflexivity|]. unfold str_at. rewrite Hh. exact Hl.
  - intros m0 b0 t s x W0 S0 R0 I0 Hs Hx Hlen.
    eapply runs_weaken; [apply put_fine; eauto|]. intros b1 m1 [(A & B & C & D & F) G]. repeat (split; [assumption|]). exact G.
  - pose proof (tree_depth _ _ _ Ht). unfold fmt_fuel. lia.
  - intros b' m' (t & H1 & (A & B & C & D & F & G)). exists t. split; [exact H1|]. split; [| exact G].
    repeat (split; [assumption|]). exact F.
Qed.

(** What [o] stands for at the end, started with [vs] left. *)
Definition final (size o : Z) (ps : list piece) (n : nat) (o' : Z) : Prop :=
  (o = size + 1 \/ In Stray ps \/ (n < length (convs ps))%nat -> o' = size + 1) /\
  (o <> size + 1 -> ~ In Stray ps -> (length (convs ps) <= n)%nat -> o' = o + Z.of_nat (length (convs ps))).

Lemma interp_ok : forall l s arg v is_list size,
  let args := arguments v in
  size = Z.of_nat (length args) ->
  is_list = (match v with VSeq KDict _ => false | VSeq _ _ => true | _ => false end) ->
  forall fuel m P o vs result t0,
  wf E m -> wf_strs E (m_heap m) -> room E (vdepth v + 4) m -> str_at (m_heap m) l s -> wf_poly (m_heap m) arg -> tree (m_heap m) arg v ->
  (P <= length s)%nat -> (length s - P <= fuel)%nat -> size + 1 < 2 ^ wbits (e_width E) ->
  (o = size + 1 /\ vs = [] \/ exists k, o = Z.of_nat k /\ (k <= length args)%nat /\ vs = skipn k args) ->
  opt_str_at m result t0 ->
  (steady \/ plain (pieces (skipn P s)) vs) ->
  (exists t, rendered E T (pieces (skipn P s)) vs t) ->
  (forall t, rendered E T (pieces (skipn P s)) vs t -> (length (t0 ++ t) <= N)%nat) ->
  runs (interp_loop E T fuel (l, m_epoch m) arg is_list size (Z.of_nat P) o result) m (fun r m' =>
    exists t, rendered E T (pieces (skipn P s)) vs t /\ fine m m' /\ opt_str_at m' (snd r) (t0 ++ t) /\
      ((P < length s)%nat \/ result <> None -> snd r <> None) /\
      final size o (pieces (skipn P s)) (length vs) (fst r)).
Proof.
  intros l s arg v is_list size args Hsize Hlist. induction fuel as [|fuel IH]; intros m P o vs result t0 W Ws R Hs Hwa Ha HP Hfuel Hsz Ho Hr Hst Hex Hb.
  { cbn [interp_loop]. eapply runs_deref_str; [reflexivity | exact Hs|].
    destruct (Z.leb_spec (Z.of_nat (length s)) (Z.of_nat P)); [|lia]. apply runs_ret. assert (P = length s) by lia. subst P.
    rewrite skipn_all. cbn [pieces fst snd]. exists []. split; [constructor|]. split; [apply fine_refl; assumption|].
    rewrite app_nil_r. split; [exact Hr|]. split; [intros [H0|H0]; [lia | exact H0]|].
    split; [intros [A|[[]|A]]; [exact A | cbn in A; lia] | intros; cbn; lia]. }
  cbn [interp_loop]. eapply runs_deref_str; [reflexivity | exact Hs|].
  destruct (Z.leb_spec (Z.of_nat (length s)) (Z.of_nat P)) as [HPs|HPs].
  { apply runs_ret. assert (P = length s) by lia. subst P.
    rewrite skipn_all. cbn [pieces fst snd]. exists []. split; [constructor|]. split; [apply fine_refl; assumption|].
    rewrite app_nil_r. split; [exact Hr|]. split; [intros [H0|H0]; [lia | exact H0]|].
    split; [intros [A|[[]|A]]; [exact A | cbn in A; lia] | intros; cbn; lia]. }
  rewrite Nat2Z.id. destruct (next_format_split (skipn P s)) as (k & Hk & Hkl & Hkp & Hkn). rewrite skipn_length in Hkl.
  assert (Hsl : Z.of_nat (length s) < 2 ^ wbits (e_width E)).
  { destruct We as (P0 & Pb & _). destruct (Ws _ _ Hs) as [A _]. destruct (e_width E); cbn [wbits]; lia. }
  rewrite Hk. replace (Z.of_nat k + Z.of_nat P) with (Z.of_nat (P + k)) by lia.
  rewrite u_of_small by lia. cbv zeta.
  assert (Hstk : length (m_stack m) = e_stack E) by apply W.
  apply runs_push; [unfold room in *; lia|].
  set (m1 := pushed arg m).
  assert (W1 : wf E m1) by (apply wf_pushed; [exact W | unfold room in *; lia | exact Hwa]).
  assert (R1 : room E 1 m1) by (unfold room in *; cbn [m1 pushed set_stack m_sp]; lia).
  assert (L1 : length (m_stack m1) = e_stack E) by apply W1.
  apply runs_push_str; [exact R1 | reflexivity|].
  set (m2 := pushed (PStr l) m1).
  assert (W2 : wf E m2) by (apply wf_pushed; [exact W1 | exact R1 | eexists; exact Hs]).
  assert (Hr2 : opt_str_at m2 result t0). { destruct result as [[lr er]|]; exact Hr. }
  apply runs_bind. exists t0, m2. split.
  { destruct result as [[lr er]|]; cbn [read_opt].
    - destruct Hr2 as [-> Hr2]. unfold deref_str, deref, bind. cbn [fst snd]. rewrite Nat.eqb_refl. unfold str_at in Hr2. rewrite Hr2. reflexivity.
    - cbn in Hr2. subst. reflexivity. }
  set (chunk := firstn k (skipn P s)) in *.
  assert (Hlc : length chunk = k). { unfold chunk. rewrite firstn_length, skipn_length. lia. }
  rewrite skipn_skipn' in Hkp. rewrite Hkp in Hst, Hex, Hb. rewrite Hkp.
  assert (Hex1 : exists t, rendered E T (pieces (skipn (k + P) s)) vs t).
  { destruct Hex as [t Ht]. apply rendered_lits in Ht. destruct Ht as (t' & _ & Ht). eauto. }
  assert (Hb1 : forall t, rendered E T (pieces (skipn (k + P) s)) vs t -> (length ((t0 ++ chunk) ++ t) <= N)%nat).
  { intros t Ht. rewrite <- app_assoc. apply Hb. apply rendered_lits. eauto. }
  assert (Hlen1 : (length (t0 ++ chunk) <= N)%nat).
  { destruct Hex1 as [t Ht]. specialize (Hb1 _ Ht). rewrite app_length in Hb1. lia. }
  assert (Hlt0 : strlen E t0 = Z.of_nat (length t0)).
  { destruct result as [[lr er]|]; [eapply strlen_eq; [exact We | exact Ws | apply Hr]|].
    cbn in Hr. subst t0. unfold strlen. apply u_of_small. pose proof (pow_wbits (e_width E)). cbn. lia. }
  rewrite Hlt0.
  replace (Z.of_nat (P + k) - Z.of_nat P) with (Z.of_nat k) by lia.
  eapply runs_step.
  { change (l, m_epoch m) with (l, m_epoch m2).
    apply (catn_runs E m2 result t0 l s 0 (Z.of_nat (length t0)) (Z.of_nat P) (Z.of_nat k)); auto; try lia.
    - unfold room in *. cbn [m2 m1 pushed set_stack m_sp]. lia.
    - destruct (enough_le _ Hlen1) as (_ & _ & H3). rewrite app_length in H3. unfold fits_str in *. lia. }
  cbn [Z.to_nat skipn]. rewrite !Nat2Z.id, firstn_all. fold chunk. clearbody chunk.
  intros r3 m3 H3. destruct (new_str_fine _ _ _ _ H3 Hlen1) as [F3 (l3 & -> & Hl3)].
  destruct (fine_pop _ _ _ R1 L1 F3) as [F4 P4]. set (m4 := popped m3) in *.
  assert (R0 : room E 1 m) by (unfold room in *; lia).
  destruct (fine_pop _ _ _ R0 Hstk F4) as [F5 P5]. set (m5 := popped m4) in *.
  apply runs_bind. exists (l, m_epoch m5), m4. split; [unfold bind; rewrite P4; reflexivity|].
  apply runs_bind. exists arg, m5. split; [exact P5|].
  assert (Hs5 : str_at (m_heap m5) l s) by (eapply str_at_frame; [apply F5 | exact Hs]).
  assert (Ha5 : tree (m_heap m5) arg v) by (eapply tree_kept; [apply F5 | exact Ha]).
  assert (Hwa5 : wf_poly (m_heap m5) arg) by (eapply wf_poly_kept; [apply F5 | exact Hwa]).
  assert (W5 : wf E m5) by apply F5. assert (Ws5 : wf_strs E (m_heap m5)) by apply F5.
  assert (Hr5 : res_at m5 (Some (l3, m_epoch m3)) (t0 ++ chunk)) by (exists l3; split; [reflexivity | exact Hl3]).
  assert (R5 : room E (vdepth v + 4) m5) by (eapply fine_room; [exact F5 | exact R]).
  eapply runs_deref_str; [reflexivity | exact Hs5|].
  assert (Hn : nth_error s (P + k) = nth_error (skipn P s) k) by (symmetry; apply nth_error_skipn').
  rewrite Hn. destruct Hkn as [Hkn|Hkn]; rewrite Hkn.
  { (* the end of the format *)
    apply nth_error_None in Hkn. rewrite skipn_length in Hkn.
    assert (Hend : skipn (k + P) s = []) by (apply skipn_all2; lia).
    eapply runs_weaken.
    { apply (IH m5 (P + k)%nat o vs (Some (l3, m_epoch m3)) (t0 ++ chunk)); auto; try lia.
      - split; [reflexivity | exact Hl3].
      - rewrite (Nat.add_comm P k), Hend. right. exact I.
      - rewrite (Nat.add_comm P k). exact Hex1.
      - rewrite (Nat.add_comm P k). exact Hb1. }
    intros [o' r'] m' (t & Ht & F & Hr' & Hne & Hfin). rewrite (Nat.add_comm P k) in Ht, Hfin. exists (chunk ++ t).
    split; [apply rendered_lits; eauto|]. split; [eapply fine_trans; eauto|]. rewrite app_assoc. split; [exact Hr'|].
    split; [intros _; apply Hne; right; discriminate|].
    unfold final in *. rewrite convs_lits. rewrite stray_lits. exact Hfin. }
  (* a '%' *)
  assert (HkP : (P + k < length s)%nat). { rewrite <- Hn in Hkn. eapply nth_error_lt; exact Hkn. }
  assert (Hsk : skipn (k + P) s = 37 :: skipn (S (P + k)) s).
  { rewrite (Nat.add_comm k P). apply skipn_cons'. rewrite Hn. exact Hkn. }
  rewrite Hsk in Hst, Hex1, Hb1. rewrite Hsk.
  rewrite (u_of_small (e_width E) (Z.of_nat (P + k) + 1)) by lia.
  replace (Z.of_nat (P + k) + 1) with (Z.of_nat (S (P + k))) by lia.
  assert (Hst5 : length (m_stack m5) = e_stack E) by apply W5.
  apply runs_push; [unfold room in *; lia|].
  set (m6 := pushed arg m5).
  assert (W6 : wf E m6) by (apply wf_pushed; [exact W5 | unfold room in *; lia | exact Hwa5]).
  assert (R6 : room E 1 m6) by (unfold room in *; cbn [m6 pushed set_stack m_sp]; lia).
  assert (L6 : length (m_stack m6) = e_stack E) by apply W6.
  apply runs_push_str; [exact R6 | reflexivity|].
  set (m7 := pushed (PStr l) m6).
  assert (W7 : wf E m7) by (apply wf_pushed; [exact W6 | exact R6 | eexists; exact Hs5]).
  assert (R7 : room E (vdepth v + 2) m7) by (unfold room in *; cbn [m7 m6 pushed set_stack m_sp]; lia).
  assert (Hr7 : res_at m7 (Some (l3, m_epoch m3)) (t0 ++ chunk)) by exact Hr5.
  (* after the '%' and what it stands for *)
  assert (Fin : forall P' o' vs' t1 m8 r8 (X : list Z -> list Z) (Y : Prop),
    (S (P + k) <= P' <= length s)%nat ->
    (o' = size + 1 /\ vs' = [] \/ exists k, o' = Z.of_nat k /\ (k <= length args)%nat /\ vs' = skipn k args) ->
    fine m7 m8 -> res_at m8 r8 ((t0 ++ chunk) ++ t1) ->
    (steady \/ plain (pieces (skipn P' s)) vs') ->
    (exists t, rendered E T (pieces (skipn P' s)) vs' t) ->
    (forall t, rendered E T (pieces (skipn P' s)) vs' t -> (length (((t0 ++ chunk) ++ t1) ++ t) <= N)%nat) ->
    (forall t, rendered E T (pieces (skipn P' s)) vs' t -> rendered E T (pieces (37 :: skipn (S (P + k)) s)) vs (t1 ++ t)) ->
    (forall oe, final size o' (pieces (skipn P' s)) (length vs') oe -> final size o (pieces (37 :: skipn (S (P + k)) s)) (length vs) oe) ->
    runs (let* a := (let* v0 := pop in poly_to_str v0) in
          let* arg0 := pop in interp_loop E T fuel a arg0 is_list size (Z.of_nat P') o' r8) m8
      (fun r m' => exists t, rendered E T (map Lit chunk ++ pieces (37 :: skipn (S (P + k)) s)) vs t /\ fine m m' /\ opt_str_at m' (snd r) (t0 ++ t) /\
        ((P < length s)%nat \/ result <> None -> snd r <> None) /\
        final size o (map Lit chunk ++ pieces (37 :: skipn (S (P + k)) s)) (length vs) (fst r))).
  { intros P' o' vs' t1 m8 r8 X Y HP' Ho' F8 Hr8 Hst' Hex' Hb' Hren Hfinal.
    destruct (fine_pop _ _ _ R6 L6 F8) as [F9 P9]. set (m9 := popped m8) in *.
    assert (R50 : room E 1 m5) by (unfold room in *; lia).
    destruct (fine_pop _ _ _ R50 Hst5 F9) as [F10 P10]. set (m10 := popped m9) in *.
    apply runs_bind. exists (l, m_epoch m10), m9. split; [unfold bind; rewrite P9; reflexivity|].
    apply runs_bind. exists arg, m10. split; [exact P10|].
    destruct Hr8 as (l8 & -> & Hl8).
    eapply runs_weaken.
    { apply (IH m10 P' o' vs' (Some (l8, m_epoch m8)) ((t0 ++ chunk) ++ t1)); auto; try lia.
      - apply F10. - apply F10. - eapply fine_room; [exact F10 | exact R5].
      - eapply str_at_frame; [apply F10 | exact Hs5].
      - eapply wf_poly_kept; [apply F10 | exact Hwa5].
      - eapply tree_kept; [apply F10 | exact Ha5].
      - split; [reflexivity | exact Hl8]. }
    intros [oe r'] m' (t & Ht & F & Hr' & Hne & Hfin). cbn [fst snd] in *. exists (chunk ++ t1 ++ t).
    split; [apply rendered_lits; eauto|]. split; [eapply fine_trans; [exact F5 | eapply fine_trans; [exact F10 | exact F]]|].
    rewrite !app_assoc in *. split; [exact Hr'|].
    split; [intros _; apply Hne; right; discriminate|].
    unfold final in *. rewrite convs_lits. rewrite stray_lits. apply Hfinal. exact Hfin. }
  rewrite Nat2Z.id.
  destruct (nth_error s (S (P + k))) as [fc|] eqn:Hfc.
  - assert (HkP2 : (S (P + k) < length s)%nat) by (eapply nth_error_lt; exact Hfc).
    assert (Hsk2 : skipn (S (P + k)) s = fc :: skipn (S (S (P + k))) s) by (apply skipn_cons'; exact Hfc).
    rewrite (u_of_small (e_width E) (Z.of_nat (S (P + k)) + 1)) by lia.
    replace (Z.of_nat (S (P + k)) + 1) with (Z.of_nat (S (S (P + k)))) by lia.
    rewrite Hsk2 in *. cbn [pieces] in *. change (37 =? 37) with true in *. cbn iota in *. unfold ch_percent.
    set (rest := skipn (S (S (P + k))) s) in *.
    destruct (Z.eqb_spec fc 37) as [->|Nfc].
    + (* %% *)
      eapply runs_step.
      { eapply runs_step.
        - apply (put_fine m7 (Some (l3, m_epoch m3)) (t0 ++ chunk) (SText [37]) [37]); auto.
          + unfold room in *; lia. + reflexivity. + repeat constructor.
          + destruct Hex1 as [t Ht]. specialize (Hb1 _ Ht). inversion Ht; subst. rewrite !app_length in *. cbn [length] in *. lia.
        - intros b8 m8 H. apply runs_ret. instantiate (1 := fun x m' => exists b8, x = (Z.of_nat (S (S (P + k))), o, b8) /\ fine m7 m' /\ res_at m' b8 ((t0 ++ chunk) ++ [37])).
          cbn beta. eexists. split; [reflexivity | exact H]. }
      intros x m8 (b8 & -> & F8 & Hr8). cbn beta iota.
      apply (Fin (S (S (P + k))) o vs [37] m8 b8 (fun x => x) True); auto; try lia.
      * destruct Hst as [St|St]; [left; exact St | right]. apply plain_lits in St. exact St.
      * destruct Hex1 as [t Ht]. inversion Ht; subst. eauto.
      * intros t Ht. rewrite <- app_assoc. apply Hb1. cbn [app]. constructor. exact Ht.
      * intros t Ht. cbn [app]. constructor. exact Ht.
      * intros oe [A B]. split.
        -- cbn [convs In]. intros [H|[[H|H]|H]]; [| discriminate | |]; apply A; auto.
        -- cbn [convs In]. intros Q1 Q2 Q3. apply B; auto.
    + (* a conversion *)
      destruct (Z.leb_spec size o) as [Hov|Hov].
      * (* no argument left *)
        assert (vs = []). { destruct Ho as [[_ ->]|(j & -> & Hj & ->)]; [reflexivity | apply skipn_all2; lia]. } subst vs.
        apply runs_bind. eexists _, _. split; [reflexivity|]. rewrite (u_of_small _ (size + 1)) by lia.
        apply (Fin (S (S (P + k))) (size + 1) [] [] m7 (Some (l3, m_epoch m3)) (fun x => x) True); auto; try lia.
        -- apply fine_refl; [exact W7 | exact Ws5].
        -- rewrite app_nil_r. exact Hr7.
        -- destruct Hst as [St|St]; [left; exact St | right]. apply plain_lits in St. cbn [plain] in St.
           clear. generalize (pieces (skipn (S (S (P + k))) s)). induction l as [|p ps IHp]; cbn [plain]; [exact I|]. destruct p; auto.
        -- destruct Hex1 as [t Ht]. inversion Ht; subst. eauto.
        -- intros t Ht. rewrite app_nil_r. apply Hb1. constructor. exact Ht.
        -- intros t Ht. cbn [app]. constructor. exact Ht.
        -- intros oe [A B]. split; cbn [convs In length]; intros; [apply A; auto | lia].
      * destruct Ho as [[Ho _]|(j & -> & Hj & Hvs)]; [lia|].
        assert (Hjl : (j < length args)%nat) by lia.
        destruct (nth_error args j) as [va|] eqn:Hva; [| apply nth_error_None in Hva; lia].
        assert (Hvs' : vs = va :: skipn (S j) args) by (rewrite Hvs; apply skipn_cons'; exact Hva).
        (* the argument *)
        assert (Hx : runs (if is_list then let* l0 := poly_to_list arg in let* lo := deref_list l0 in nth_data lo (Z.of_nat j) else ret arg) m7
          (fun x m' => m' = m7 /\ tree (m_heap m7) x va /\ (vdepth va <= vdepth v)%nat)).
        { assert (Single : is_list = false -> args = [v] -> runs (ret arg) m7 (fun x m' => m' = m7 /\ tree (m_heap m7) x va /\ (vdepth va <= vdepth v)%nat)).
          { intros _ Hargs. rewrite Hargs in *. cbn [length] in Hjl. assert (j = 0%nat) by lia. subst j. injection Hva as ->.
            apply runs_ret. split; [reflexivity|]. split; [exact Ha5 | lia]. }
          destruct v as [f|sv|kv vsv|u|u]; subst is_list; try (apply Single; reflexivity).
          assert (Seq : kv <> KDict -> args = vsv -> runs (let* l0 := poly_to_list arg in let* lo := deref_list l0 in nth_data lo (Z.of_nat j)) m7
            (fun x m' => m' = m7 /\ tree (m_heap m7) x va /\ (vdepth va <= vdepth (VSeq kv vsv))%nat)).
          { intros _ Hargs. rewrite Hargs in *. apply tree_seq in Ha5. destruct Ha5 as (la & oa & -> & Hoa & Hka & Hel).
            apply runs_bind. exists (la, m_epoch m7), m7. split; [reflexivity|].
            eapply runs_deref; [reflexivity | exact Hoa|].
            destruct (Forall2_nth_r _ _ _ _ _ Hel _ _ Hva) as (px & Hpx & Hpt).
            exists px, m7. split.
            { unfold nth_data, lift. rewrite Nat2Z.id. unfold elems in Hpx.
              assert (Hlt : (j < length (firstn (Z.to_nat (lo_size oa)) (lo_data oa)))%nat) by (eapply nth_error_lt; exact Hpx).
              rewrite nth_error_firstn in Hpx by (rewrite firstn_length in Hlt; lia). rewrite Hpx. reflexivity. }
            split; [reflexivity|]. split; [exact Hpt|]. rewrite vdepth_seq. pose proof (vdepths_in vsv va (nth_error_In _ _ Hva)). lia. }
          destruct kv; [apply Seq; [discriminate | reflexivity] | apply Seq; [discriminate | reflexivity] | apply Single; reflexivity]. }
        eapply runs_step.
        { eapply runs_step; [exact Hx|]. intros x mx (-> & Hxt & Hxd).
          eapply runs_step.
          - apply (format_fine va x fc (Some (l3, m_epoch m3)) (t0 ++ chunk) m7); auto.
            + unfold room in *; lia.
            + destruct Hst as [St|St]; [left; exact St | right]. apply plain_lits in St. rewrite Hvs' in St. apply St.
            + destruct Hex1 as [t Ht]. rewrite Hvs' in Ht. inversion Ht; subst. eauto.
            + intros t Ht. destruct Hex1 as [t' Ht']. rewrite Hvs' in Ht'. inversion Ht'; subst.
              match goal with H : rendered E T (pieces rest) _ ?u |- _ => specialize (Hb1 (t ++ u)); rewrite !app_length in *;
                assert (length t0 + length chunk + (length t + length u) <= N)%nat; [apply Hb1; rewrite Hvs'; constructor; assumption | lia] end.
          - intros b8 m8 H. apply runs_ret.
            instantiate (1 := fun x m' => exists b8 t, x = (Z.of_nat (S (S (P + k))), u_of (e_width E) (Z.of_nat j + 1), b8) /\
               text_of E T fc va t /\ fine m7 m' /\ res_at m' b8 ((t0 ++ chunk) ++ t)).
            cbn beta. destruct H as (t & H1 & H2). exists b8, t. split; [reflexivity | auto]. }
        intros x m8 (b8 & tv & -> & Htv & F8 & Hr8). cbn beta iota.
        rewrite (u_of_small _ (Z.of_nat j + 1)) by lia.
        apply (Fin (S (S (P + k))) (Z.of_nat j + 1) (skipn (S j) args) tv m8 b8 (fun x => x) True); auto; try lia.
        -- right. exists (S j). repeat split; lia.
        -- destruct Hst as [St|St]; [left; exact St | right]. apply plain_lits in St. rewrite Hvs' in St. apply St.
        -- destruct Hex1 as [t Ht]. rewrite Hvs' in Ht. inversion Ht; subst. eauto.
        -- intros t Ht. rewrite <- app_assoc. apply Hb1. rewrite Hvs'. constructor; assumption.
        -- intros t Ht. rewrite Hvs'. constructor; assumption.
        -- intros oe [A B]. rewrite Hvs'. split; cbn [convs In length].
           ++ intros [H|[[H|H]|H]]; [lia | discriminate | apply A; right; left; exact H | apply A; right; right; fold rest; lia].
           ++ intros Q1 Q2 Q3. fold rest in B. rewrite B; [lia | lia | auto | lia].
  - (* '%' at the end *)
    apply nth_error_None in Hfc.
    assert (Hend : skipn (S (P + k)) s = []) by (apply skipn_all2; lia). rewrite Hend in *. cbn [pieces] in *. change (37 =? 37) with true in *. cbn iota in *.
    apply runs_bind. eexists _, _. split; [reflexivity|]. rewrite (u_of_small _ (size + 1)) by lia.
    apply (Fin (S (P + k)) (size + 1) [] [] m7 (Some (l3, m_epoch m3)) (fun x => x) True); auto; try lia; rewrite ?Hend; cbn [pieces].
    + apply fine_refl; [exact W7 | exact Ws5].
    + rewrite app_nil_r. exact Hr7.
    + right. exact I.
    + exists []. constructor.
    + intros t Ht. inversion Ht; subst. rewrite !app_nil_r. exact Hlen1.
    + intros t Ht. inversion Ht; subst. cbn. repeat constructor.
    + intros oe [A B]. split; cbn [In convs length]; [auto|]. intros _ H. exfalso. apply H. left. reflexivity.
Qed.
End Interp.
