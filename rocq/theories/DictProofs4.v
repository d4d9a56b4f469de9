(** Histories of dictionary operations. *)
From Coq Require Import Sorted.
From Verif Require Import Tac Base FloatModel PolyModel ValueModel OrderSpec OrderProofs OrderProofs2 SliceModel SliceSpec SliceProofs MachModel ListModel MachSpec ListSpec DictSpec MachProofs FrameProofs ListProofs ListProofs2 ListProofs3 DictProofs DictProofs2 DictProofs3.
Local Open Scope Z_scope.
Open Scope mach_scope.

(** The scan of [in] over a dictionary. *)
Lemma in_scan_dict : forall E m l kvs p, wf E m -> wf_env E -> dict_at (m_heap m) l kvs -> wf_poly (m_heap m) p ->
  forall fuel i, (i <= length kvs)%nat -> (length kvs - i < fuel)%nat ->
  exists b, in_scan E fuel p (l, m_epoch m) (2 * Z.of_nat i) 2 m = Some (b, m) /\
    (b = true <-> exists j kv, (i <= j)%nat /\ nth_error kvs j = Some kv /\ cz (m_heap m) p (fst kv) 0).
Proof.
  intros E m l kvs p W We Hd Hp. destruct (dict_size _ _ _ _ W Hd) as (o & Ho & Hk & He & Sh & Hs).
  assert (Hf := dict_keys_frozen _ _ _ _ W Hd). rewrite Forall_forall in Hf. pose proof Sh as [S1 S2 S3].
  assert (Hp4 : lo_alloc o + 2 < 2 ^ wbits (e_width E)).
  { destruct We as (_ & P & _). destruct (e_width E); cbn [wbits]; lia. }
  induction fuel as [|fuel IH]; intros i Hi Hfuel; [lia|].
  cbn [in_scan]. unfold bind at 1. rewrite (deref_list_eq l (m_epoch m) m o eq_refl Ho). rewrite Hs.
  destruct (Z.ltb_spec (2 * Z.of_nat i) (2 * Z.of_nat (length kvs))) as [Hlt|Hge].
  - destruct (nth_error kvs i) as [kv|] eqn:Ekv; [| apply nth_error_None in Ekv; lia].
    assert (Hn : nth_error (lo_data o) (Z.to_nat (2 * Z.of_nat i)) = Some (fst kv)).
    { replace (Z.to_nat (2 * Z.of_nat i)) with (2 * i)%nat by lia.
      rewrite <- (nth_error_firstn _ (lo_data o) (Z.to_nat (lo_size o))) by lia.
      fold (elems o). rewrite He, flat_key, Ekv. reflexivity. }
    destruct (cz_def_r E m (fst kv) p W (Hf kv (nth_error_In _ _ Ekv)) Hp) as (d & Hdz).
    unfold nth_data, bind. rewrite Hn. cbn [lift]. unfold ret at 1. rewrite (cmp_eq _ _ _ _ Hdz).
    destruct (Z.eqb_spec d 0) as [->|Nd].
    + exists true. split; [reflexivity|]. split; [| reflexivity]. intros _. exists i, kv. auto.
    + rewrite u_of_small by lia.
      replace (2 * Z.of_nat i + 2) with (2 * Z.of_nat (S i)) by lia.
      destruct (IH (S i)) as (b & Hb & Hbi); try lia. exists b. split; [exact Hb|]. rewrite Hbi. split.
      * intros (j & kv' & Hj & H). exists j, kv'. split; [lia | exact H].
      * intros (j & kv' & Hj & H1 & H2). destruct (Nat.eq_dec i j) as [<-|N]; [| exists j, kv'; repeat split; auto; lia].
        exfalso. assert (kv' = kv) by congruence. subst kv'. apply Nd. exact (cz_fun _ _ _ _ _ Hdz H2).
  - exists false. split; [reflexivity|]. split; [discriminate|]. intros (j & kv & Hj & Hnj & _).
    apply nth_error_lt in Hnj. lia.
Qed.

Lemma list_in_dict : forall E m l kvs p, wf E m -> wf_env E -> dict_at (m_heap m) l kvs -> wf_poly (m_heap m) p ->
  exists b, list_in E p (l, m_epoch m) m = Some (b, m) /\
    (b = true <-> exists kv, In kv kvs /\ cz (m_heap m) p (fst kv) 0).
Proof.
  intros E m l kvs p W We Hd Hp. destruct (dict_size _ _ _ _ W Hd) as (o & Ho & Hk & He & Sh & Hs).
  destruct (in_scan_dict E m l kvs p W We Hd Hp (S (Z.to_nat (lo_size o))) 0) as (b & Hb & Hbi); try lia.
  exists b. split.
  - unfold list_in, bind at 1. rewrite (deref_list_eq l (m_epoch m) m o eq_refl Ho). rewrite Hk.
    change (lkind_eqb KDict KDict) with true. cbv iota. exact Hb.
  - rewrite Hbi. split.
    + intros (j & kv & _ & Hj & Hc). exists kv. split; [eapply nth_error_In; eauto | exact Hc].
    + intros (kv & Hin & Hc). apply In_nth_error in Hin. destruct Hin as (j & Hj). exists j, kv. repeat split; auto. lia.
Qed.

Lemma roomy_dict_fits : forall E m l kvs, wf_env E -> roomy_dict E -> wf E m -> dict_at (m_heap m) l kvs ->
  fits (e_width E) (2 * Z.of_nat (length kvs) + 2).
Proof.
  intros E m l kvs (P0 & P & _) R W Hd. destruct (dict_size _ _ _ _ W Hd) as (o & Ho & Hk & He & [S1 S2 S3] & Hs).
  unfold fits. destruct R as [R|R].
  - rewrite R in *. cbn [wbits]. lia.
  - pose proof (pow_wbits (e_width E)). lia.
Qed.

Section Keys.
Variable K : value -> Prop.
Hypothesis PF : prefix_free K.
Variable E : env.
Hypothesis We : wf_env E.
Hypothesis R : roomy_dict E.
Variable h0 : list obj.
Variable l : loc.

Lemma k_frozen : forall k, K k -> frozen k.
Proof. intros k Hk. apply (PF k k Hk Hk). Qed.

Lemma shows_grows : forall h h' kvs al, grows h h' -> sorted_keys K al -> shows_al h kvs al -> shows_al h' kvs al.
Proof.
  intros h h' kvs al G [_ KA] H. unfold shows_al in *. induction H as [|kv a kvs al (Ht & Hv) _ IH]; constructor.
  - inversion KA; subst. split; [| exact Hv]. eapply tree_grows; eauto. apply k_frozen. assumption.
  - apply IH. inversion KA; assumption.
Qed.

Record inv (m : mach) (hist : list dop) (kvs : list (poly * poly)) (al : alist) : Prop := {
  i_wf : wf E m;
  i_at : dict_at (m_heap m) l kvs;
  i_shows : shows_al (m_heap m) kvs al;
  i_sorted : sorted_keys K al;
  i_grows : grows h0 (m_heap m);
  i_len : (length kvs <= length hist)%nat;
  i_holds : forall k r, K k -> after h0 hist k r -> holds al k r }.

Lemma Forall2_firstn : forall A B (P : A -> B -> Prop) n x y, Forall2 P x y -> Forall2 P (firstn n x) (firstn n y).
Proof. intros A B P n x y H. revert n. induction H; intros [|n]; cbn; constructor; auto. Qed.
Lemma Forall2_skipn : forall A B (P : A -> B -> Prop) n x y, Forall2 P x y -> Forall2 P (skipn n x) (skipn n y).
Proof. intros A B P n x y H. revert n. induction H; intros [|n]; cbn; auto. Qed.

Lemma dict_grows : forall m m' kvs kvs', frame (Some l) m m' -> dict_at (m_heap m) l kvs -> dict_at (m_heap m') l kvs' ->
  grows (m_heap m) (m_heap m').
Proof.
  intros m m' kvs kvs' F (o & Ho & Hk & _) (o' & Ho' & Hk' & _).
  eapply kept_grows_list; [apply F | exact Ho | exact Ho' | congruence | congruence].
Qed.

Ltac same_tree Ht := match goal with H : tree h0 _ ?k' |- _ => lazymatch type of Ht with tree _ _ ?k =>
  lazymatch k' with k => fail | _ => cbn [dkey] in H; rewrite (tree_fun _ _ _ _ Ht H) end end end.
Lemma after_set : forall p v hist k kp r, tree h0 p kp -> after h0 (DSet p v :: hist) k r ->
  (value_eq kp k /\ r = Some v) \/ (~ value_eq kp k /\ after h0 hist k r).
Proof.
  intros p v hist k kp r Ht H. inversion H; subst.
  - left. same_tree Ht. auto.
  - right. same_tree Ht. auto.
Qed.
Lemma after_del : forall p hist k kp r, tree h0 p kp -> after h0 (DDel p :: hist) k r ->
  (value_eq kp k /\ r = None) \/ (~ value_eq kp k /\ after h0 hist k r).
Proof.
  intros p hist k kp r Ht H. inversion H; subst.
  - left. same_tree Ht. auto.
  - right. same_tree Ht. auto.
Qed.

Lemma step_runs : forall m hist kvs al op, inv m hist kvs al -> room E 2 m -> dop_ok K h0 op ->
  (forall p, op = DDel p -> forall k, tree h0 p k -> exists v, after h0 hist k (Some v)) ->
  runs (exec_dop E l op) m (fun _ m' => frame (Some l) m m' /\ length (m_heap m') = length (m_heap m) /\
    ((quiet m m' /\ exists kvs' al', inv m' (op :: hist) kvs' al') \/
     (inv m' hist kvs al /\ oom E (2 * Z.of_nat (length kvs) + 2) m m' /\ exists p v, op = DSet p v))).
Proof.
  intros m hist kvs al op I Hroom ((Hwp & k & Hk & HK) & Hv) Hdel. destruct I as [W Hd Hsh Hso G Hl Hh].
  assert (Hk' : tree (m_heap m) (dkey op) k) by (eapply tree_grows; eauto using k_frozen).
  assert (Hwp' : wf_poly (m_heap m) (dkey op)) by (eapply wf_poly_grows; eauto).
  destruct op as [p v|p]; cbn [dkey exec_dop] in *.
  - assert (Hv' : wf_poly (m_heap m) v) by (eapply wf_poly_grows; eauto).
    eapply runs_mono; [apply assign_dict_runs; eauto; eapply roomy_dict_fits; eauto|]. cbv beta.
    intros _ m' (c & Hrank & Hc). assert (P := rank_placed K PF _ _ _ _ _ _ Hsh Hso Hk' HK Hrank).
    destruct Hc as [(kv & Hhit & W' & F & L & Q & D')|(Hmiss & [(Nf & _)|(Hf & [(W' & F & L & O)|(W' & F & L & Q & D')])])].
    + split; [exact F|]. split; [exact L|]. left. split; [exact Q|].
      destruct (hit_eq K PF _ _ _ _ _ _ _ Hsh Hso Hk' HK Hhit) as (a & Ha & Hta & Hva & Hea).
      assert (G' := dict_grows _ _ _ _ F Hd D').
      assert (Hsh' := shows_grows _ _ _ _ G' Hso Hsh).
      exists (replaced kvs c (fst kv, v)), (arepl al c (fst a, v)). split; auto.
      * unfold shows_al, replaced, arepl. apply Forall2_app; [apply Forall2_firstn; exact Hsh'|].
        constructor; [| apply Forall2_skipn; exact Hsh']. cbn. split; [| reflexivity].
        eapply tree_grows; [exact G' | | exact Hta]. apply k_frozen. destruct Hso as [_ KA]. rewrite Forall_forall in KA.
        apply KA. eapply nth_error_In; eauto.
      * apply repl_sorted; auto.
      * eapply grows_trans; eauto.
      * unfold replaced. rewrite app_length. cbn [length]. rewrite firstn_length, skipn_length.
        destruct Hhit as (Hkv & _). apply nth_error_lt in Hkv. lia.
      * intros k' r HK' Ha'. apply (after_set _ _ _ _ k) in Ha'; [| exact Hk]. destruct Ha' as [[He ->]|[Hn Ha']].
        -- apply repl_same. eapply value_eq_trans; eauto.
        -- apply repl_other; auto. intros He. apply Hn. eapply value_eq_trans; [apply value_eq_sym; exact Hea | exact He].
    + exfalso. apply Nf. exists k. split; [exact Hk' | apply k_frozen; exact HK].
    + split; [apply frame_weaken; exact F|]. split; [exact L|]. right. split; [| split; [exact O | eauto]].
      assert (D' : dict_at (m_heap m') l kvs) by (eapply seq_at_kept; [apply F | discriminate | exact Hd]).
      assert (G' := kept_grows _ _ (fr_kept _ _ _ F)).
      split; auto; [eapply shows_grows; eauto | eapply grows_trans; eauto].
    + split; [exact F|]. split; [exact L|]. left. split; [exact Q|].
      assert (G' := dict_grows _ _ _ _ F Hd D').
      assert (Hsh' := shows_grows _ _ _ _ G' Hso Hsh).
      exists (inserted kvs c (p, v)), (ains al c (k, v)). split; auto.
      * unfold shows_al, inserted, ains. apply Forall2_app; [apply Forall2_firstn; exact Hsh'|].
        constructor; [| apply Forall2_skipn; exact Hsh']. cbn. split; [| reflexivity].
        eapply tree_grows; [exact G' | apply k_frozen; exact HK | exact Hk'].
      * apply ins_sorted; auto. exact (miss_neq K PF _ _ _ _ _ _ Hsh Hso Hk' HK Hmiss).
      * eapply grows_trans; eauto.
      * unfold inserted. rewrite app_length. cbn [length]. rewrite firstn_length, skipn_length. lia.
      * intros k' r HK' Ha'. apply (after_set _ _ _ _ k) in Ha'; [| exact Hk]. destruct Ha' as [[He ->]|[Hn Ha']].
        -- apply ins_same. exact He.
        -- apply ins_other; auto.
  - destruct (del_dict_runs E m l kvs p W We Hd Hwp') as (c & Hrank & Hc).
    assert (P := rank_placed K PF _ _ _ _ _ _ Hsh Hso Hk' HK Hrank).
    destruct Hc as [Hmiss|(kv & Hhit & Hr)].
    { exfalso. destruct (Hdel p eq_refl k Hk) as (v & Ha). apply Hh in Ha; [| exact HK].
      assert (Hn := miss_holds K PF _ _ _ _ _ _ Hsh Hso Hk' HK P Hmiss).
      assert (X := holds_fun K PF _ _ _ _ Hso HK Ha Hn). discriminate. }
    eapply runs_mono; [exact Hr|]. cbv beta. intros _ m' (W' & F & L & Q & D').
    split; [exact F|]. split; [exact L|]. left. split; [exact Q|].
    destruct (hit_eq K PF _ _ _ _ _ _ _ Hsh Hso Hk' HK Hhit) as (a & Ha & Hta & Hva & Hea).
    assert (G' := dict_grows _ _ _ _ F Hd D').
    assert (Hsh' := shows_grows _ _ _ _ G' Hso Hsh).
    exists (removed kvs c), (arem al c). split; auto.
    + unfold shows_al, removed, arem. apply Forall2_app; [apply Forall2_firstn; exact Hsh' | apply Forall2_skipn; exact Hsh'].
    + apply rem_sorted; auto.
    + eapply grows_trans; eauto.
    + unfold removed. rewrite app_length, firstn_length, skipn_length. cbn [length]. lia.
    + intros k' r HK' Ha'. apply (after_del _ _ _ k) in Ha'; [| exact Hk]. destruct Ha' as [[He ->]|[Hn Ha']].
      * exact (rem_same K PF al c a k k' Hso HK P Ha He HK').
      * eapply rem_other; eauto. intros He. apply Hn. eapply value_eq_trans; [apply value_eq_sym; exact Hea | exact He].
Qed.

Lemma dict_not_empty_tuple : forall m kvs, wf E m -> dict_at (m_heap m) l kvs -> m_empty m <> Some l.
Proof.
  intros m kvs W (o & Ho & Hk & _) H. destruct (wf_empty _ _ W _ H) as (o' & Ho' & Hk' & _). congruence.
Qed.

Lemma steps_runs : forall ops m hist kvs al, inv m hist kvs al -> room E 2 m -> m_abort m = false ->
  Forall (dop_ok K h0) ops ->
  (forall pre p post k, ops = pre ++ DDel p :: post -> tree h0 p k -> exists v, after h0 (rev pre ++ hist) k (Some v)) ->
  runs (exec_dops E l ops) m (fun _ m' => frame (Some l) m m' /\ length (m_heap m') = length (m_heap m) /\
    exists n kvs' al', inv m' (rev (firstn n ops) ++ hist) kvs' al' /\
      ((n = length ops /\ quiet m m') \/
       ((exists p v, nth_error ops n = Some (DSet p v)) /\ oom E (2 * Z.of_nat (length kvs') + 2) m m'))).
Proof.
  induction ops as [|op ops IH]; intros m hist kvs al I Hroom Ha Hok Hdel.
  - apply runs_ret. split; [apply frame_refl|]. split; [reflexivity|]. exists 0%nat, kvs, al.
    split; [exact I|]. left. split; [reflexivity | apply quiet_refl].
  - inversion Hok as [|? ? Hop Hops]; subst. cbn [exec_dops].
    eapply runs_step; [eapply step_runs; eauto|].
    { intros p -> k Hk. apply (Hdel [] p ops k eq_refl Hk). }
    cbv beta. intros _ m1 (F & L & [(Q & kvs1 & al1 & I1)|(I1 & O & p & v & ->)]).
    + assert (A1 : m_abort m1 = false) by (destruct Q; congruence).
      assert (Hroom1 : room E 2 m1) by (unfold room in *; rewrite (fr_sp _ _ _ F); exact Hroom).
      eapply runs_eq; [rewrite A1; reflexivity|].
      eapply runs_mono; [eapply (IH m1 (op :: hist)); eauto|].
      { intros pre p post k -> Hk. destruct (Hdel (op :: pre) p post k eq_refl Hk) as (v & Hv). exists v.
        cbn [rev] in Hv. rewrite <- app_assoc in Hv. exact Hv. }
      cbv beta. intros _ m2 (F2 & L2 & n & kvs2 & al2 & I2 & Hn).
      split. { eapply frame_trans; eauto. intros l' [= <-] _. eapply dict_not_empty_tuple; [apply I1 | apply I1]. }
      split; [congruence|]. exists (S n), kvs2, al2. split.
      { cbn [firstn rev]. rewrite <- app_assoc. exact I2. }
      destruct Hn as [(-> & Q2)|(Hn & O2)].
      * left. split; [reflexivity | eapply quiet_trans; eauto].
      * right. split; [exact Hn | eapply quiet_oom; eauto].
    + assert (A1 : m_abort m1 = true) by apply O.
      exists tt, m1. split; [rewrite A1; reflexivity|].
      split; [exact F|]. split; [exact L|]. exists 0%nat, kvs, al. split; [exact I1|].
      right. split; [exists p, v; reflexivity | exact O].
Qed.

(** After a history of such operations every key has a value or is absent. *)
Lemma after_total : forall hist k, Forall (dop_ok K h0) hist -> K k -> exists r, after h0 hist k r.
Proof.
  intros hist k H Hk. induction H as [|op hist ((_ & kp & Ht & HK) & _) _ (r & IH)]; [exists None; constructor|].
  destruct (Z.eq_dec (poly_cmp kp k) 0) as [He|Hn].
  - apply (k_eq K PF _ _ HK Hk) in He. destruct op as [p v|p]; cbn [dkey] in Ht.
    + exists (Some v). eapply af_set; eauto.
    + exists None. eapply af_del; eauto.
  - exists r. eapply af_other; eauto. intros He. apply Hn. apply (k_eq K PF _ _ HK Hk). exact He.
Qed.

Lemma reads_holds : forall m hist kvs al p k r, inv m hist kvs al -> wf_poly (m_heap m) p -> tree (m_heap m) p k -> K k ->
  holds al k r -> reads E l p m r.
Proof.
  intros m hist kvs al p k r [W Hd Hsh Hso G Hl Hh] Hwp Ht HK Hr.
  destruct (get_dict_runs E m l kvs p true W We Hd Hwp) as (c & Hrank & Hc).
  assert (P := rank_placed K PF _ _ _ _ _ _ Hsh Hso Ht HK Hrank).
  destruct (list_in_dict E m l kvs p W We Hd Hwp) as (b & Hb & Hbi).
  destruct Hc as [(kv & Hhit & Hg)|(Hmiss & Hg)].
  - destruct (hit_eq K PF _ _ _ _ _ _ _ Hsh Hso Ht HK Hhit) as (a & Ha & Hta & Hva & Hea).
    assert (Hs : holds al k (Some (snd kv))).
    { exists (fst a). rewrite Hva. split; [destruct a; eapply nth_error_In; eauto | exact Hea]. }
    rewrite (holds_fun K PF _ _ _ _ Hso HK Hr Hs). split; [exact Hg|].
    replace b with true in Hb; [exact Hb|]. symmetry. apply Hbi. exists kv. destruct Hhit as (Hkv & Hz).
    split; [eapply nth_error_In; eauto | exact Hz].
  - assert (Hn := miss_holds K PF _ _ _ _ _ _ Hsh Hso Ht HK P Hmiss).
    rewrite (holds_fun K PF _ _ _ _ Hso HK Hr Hn). split.
    + exists (errored (EValue p) m). split; [exact Hg | apply errored_reported].
    + replace b with false in Hb; [exact Hb|]. destruct b; [| reflexivity]. exfalso.
      destruct (proj1 Hbi eq_refl) as (kv & Hin & Hz). apply In_nth_error in Hin. destruct Hin as (j & Hj).
      destruct (hit_eq K PF _ _ _ _ _ _ _ Hsh Hso Ht HK (conj Hj Hz)) as (a & Ha & _ & _ & Hea).
      apply (Hn (fst a) (snd a)); [destruct a; eapply nth_error_In; eauto | exact Hea].
Qed.

Lemma live_keys_inv : forall m hist kvs al, inv m hist kvs al -> Forall (dop_ok K h0) hist ->
  live_keys K (fun k => exists v, after h0 hist k (Some v)) (length kvs).
Proof.
  intros m hist kvs al [W Hd Hsh Hso G Hl Hh] Hok. exists (map fst al). rewrite map_length, (Forall2_length Hsh).
  split; [reflexivity|]. pose proof Hso as [S0 KA]. split; [rewrite Forall_map; exact KA|]. rewrite Forall_forall in KA. split; [|split].
  - rewrite Forall_map, Forall_forall. intros [k v] Hin. cbn. assert (HK := KA _ Hin).
    destruct (after_total hist k Hok HK) as (r & Hr). assert (H := Hh _ _ HK Hr).
    assert (H' : holds al k (Some v)) by (exists k; split; [exact Hin | apply value_eq_refl]).
    rewrite (holds_fun K PF _ _ _ _ Hso HK H H') in Hr. eauto.
  - intros i j a b Ha Hb He.
    assert (GG : forall i j a b, (i < j)%nat -> nth_error (map fst al) i = Some a -> nth_error (map fst al) j = Some b -> value_lt a b /\ K a /\ K b).
    { intros i' j' a' b' Lt Hi Hj. rewrite nth_error_map in Hi, Hj.
      destruct (nth_error al i') as [x|] eqn:Ex; [| discriminate]. destruct (nth_error al j') as [y|] eqn:Ey; [| discriminate].
      cbn in Hi, Hj. injection Hi as <-. injection Hj as <-.
      split; [| split; apply KA; eapply nth_error_In; eauto].
      clear -S0 Lt Ex Ey. revert i' j' Lt Ex Ey. induction S0 as [|z al _ IH F]; intros i j L Ha Hb; [destruct i; discriminate|].
      destruct j as [|j]; [lia|]. destruct i as [|i].
      - cbn in Ha. injection Ha as ->. rewrite Forall_forall in F. apply F. eapply nth_error_In; eauto.
      - eapply (IH i j); eauto. lia. }
    destruct (Nat.lt_trichotomy i j) as [Lt|[->|Lt]]; [| reflexivity |]; exfalso.
    + destruct (GG _ _ _ _ Lt Ha Hb) as (Q & Q1 & Q2). exact (k_lt_neq K PF _ _ Q1 Q2 Q He).
    + destruct (GG _ _ _ _ Lt Hb Ha) as (Q & Q1 & Q2). exact (k_lt_neq K PF _ _ Q1 Q2 Q (value_eq_sym _ _ He)).
  - intros k HK (v & Hv). destruct (Hh _ _ HK Hv) as (k' & Hin & He). exists k'. split; [| exact He].
    apply in_map_iff. exists (k', v). auto.
Qed.
End Keys.

(** * Literals *)
(** With enough room in the block nothing is allocated, so nothing moves. *)
Lemma ref_in_place : forall E m l kvs p o, wf E m -> wf_env E -> dict_at (m_heap m) l kvs -> wf_poly (m_heap m) p ->
  frozen_at (m_heap m) p -> nth_error (m_heap m) l = Some (OList o) -> lo_size o + 2 <= lo_alloc o -> room E 1 m ->
  exists r m1, list_ref_ E (l, m_epoch m) p true true m = Some (Some r, m1) /\ m_epoch m1 = m_epoch m /\ quiet m m1 /\
    fst r = (l, m_epoch m) /\
    exists o1, nth_error (m_heap m1) l = Some (OList o1) /\ lo_alloc o1 = lo_alloc o /\ lo_kind o1 = lo_kind o /\
      (snd r < length (lo_data o1))%nat.
Proof.
  intros E m l kvs p o W We Hd Hp Hf Ho Hal Hroom. pose proof Hd as (o' & Ho' & Hk & He).
  assert (o' = o) by congruence. subst o'.
  destruct (wf_list_shape _ _ _ _ (wf_heap _ _ W _ _ Ho)) as [S1 S2 S3].
  assert (Hs : lo_size o = 2 * Z.of_nat (length kvs)).
  { rewrite (length_elems_of _ _ _ _ _ W Ho He), flat_length. lia. }
  assert (Hst : length (m_stack m) = e_stack E) by apply W. unfold room in Hroom.
  destruct (ref_dict_cases E m l kvs p true true W We Hd Hp) as (c & (Hc & _) & [(kv & (Hkv & _) & Hr)|(_ & Hr)]).
  - eexists _, _. split; [exact Hr|]. split; [reflexivity|]. split; [apply quiet_refl|]. split; [reflexivity|].
    exists o. apply nth_error_lt in Hkv. cbn [snd]. repeat split; auto. lia.
  - destruct (mutable_runs E m p W Hp) as (b & Hb & Hbf). assert (b = false) by (apply Hbf; exact Hf). subst b.
    cbn [negb] in Hr. unfold bind at 1 in Hr. rewrite Hb in Hr. cbv iota in Hr. rewrite Hr. clear Hr.
    assert (Hal4 : lo_alloc o < 2 ^ wbits (e_width E)).
    { destruct We as (_ & P & _). destruct (e_width E); cbn [wbits]; lia. }
    unfold insert. rewrite u_of_small by lia. rewrite <- Hs.
    unfold bind at 1. rewrite push_eq by (unfold room; lia).
    assert (Hres : list_resize E (l, m_epoch m) (lo_size o + 2) (pushed p m) =
              Some (Some (l, m_epoch m), set_heap (upd l (OList (set_size o (lo_size o + 2))) (m_heap m)) (pushed p m))).
    { unfold list_resize, bind. rewrite (deref_list_eq l (m_epoch m) (pushed p m) o eq_refl Ho).
      destruct (Z.leb_spec (lo_size o + 2) (lo_alloc o)); [| lia].
      rewrite assign_list_eq; [reflexivity | reflexivity | cbn; eapply nth_error_lt; eauto]. }
    unfold bind at 1. rewrite Hres. clear Hres.
    assert (F0 : frame (Some l) (pushed p m) (set_heap (upd l (OList (set_size o (lo_size o + 2))) (m_heap m)) (pushed p m)))
      by (apply (frame_upd l _ (pushed p m))).
    assert (Hsp : (m_sp m < length (m_stack m))%nat) by lia.
    set (m1 := set_heap _ _) in *.
    unfold bind at 1. destruct (pop_pushed (Some l) p m m1 Hsp F0) as [Hpop _]. rewrite Hpop. cbv iota.
    set (m2 := popped m1). set (o2 := set_size o (lo_size o + 2)).
    assert (Ho2 : nth_error (m_heap m2) l = Some (OList o2)) by (apply nth_upd_same; eapply nth_error_lt; eauto).
    unfold open_gap. unfold bind at 1. unfold bind at 1.
    rewrite (deref_list_eq l (m_epoch m) m2 o2 eq_refl Ho2). cbn [o2 set_size lo_size lo_data].
    rewrite Hs.
    replace (Z.to_nat (2 * Z.of_nat (length kvs) + 2 - 2 * Z.of_nat c - 2)) with (2 * (length kvs - c))%nat by lia.
    replace (Z.to_nat (2 * Z.of_nat c)) with (2 * c)%nat by lia.
    replace (Z.to_nat (2 * Z.of_nat c + 2)) with (2 * c + 2)%nat by lia.
    replace (Z.to_nat (2 * Z.of_nat c + 1)) with (2 * c + 1)%nat by lia.
    unfold bind at 1. rewrite take_some by (rewrite skipn_length; lia). cbn [lift]. unfold ret at 1.
    unfold bind at 1. rewrite blit_some by (rewrite firstn_length, skipn_length; lia). cbn [lift]. unfold ret at 1.
    set (d := firstn (2 * c + 2) _ ++ _).
    assert (Ld : length d = length (lo_data o)).
    { unfold d. rewrite !app_length, !firstn_length, !skipn_length. lia. }
    unfold bind at 1. destruct (Nat.ltb_spec (2 * c) (length d)); [| lia]. cbn [lift]. unfold ret at 1.
    rewrite assign_list_eq; [| reflexivity | eapply nth_error_lt; eauto].
    eexists _, _. split; [reflexivity|]. split; [reflexivity|]. split; [split; reflexivity|]. split; [reflexivity|].
    eexists. split; [cbn [set_heap m_heap]; apply nth_upd_same; eapply nth_error_lt; eauto|].
    cbn [snd set_data set_size lo_alloc lo_kind lo_data]. rewrite upd_length. repeat split; auto. lia.
Qed.

Lemma poly_len_dict : forall E m l kvs, wf E m -> dict_at (m_heap m) l kvs ->
  poly_len (PList l) m = Some (Z.of_nat (length kvs), m).
Proof.
  intros E m l kvs W Hd. destruct (dict_size _ _ _ _ W Hd) as (o & Ho & Hk & He & Sh & Hs).
  unfold poly_len, poly_to_list, here, bind. rewrite (deref_list_eq l (m_epoch m) m o eq_refl Ho). rewrite Hk, Hs.
  change (lkind_eqb KDict KDict) with true. cbv iota. unfold ret. do 2 f_equal. rewrite Z.mul_comm, Z.div_mul by lia. reflexivity.
Qed.

Lemma frame_same_len : forall l m m', frame (Some l) m m' -> length (m_heap m') = length (m_heap m) -> forall p,
  forall kvs kvs', dict_at (m_heap m) l kvs -> dict_at (m_heap m') l kvs' -> wf_poly (m_heap m) p -> wf_poly (m_heap m') p.
Proof. intros. eapply wf_poly_grows; [eapply dict_grows; eauto | assumption]. Qed.

(** The whole statement. *)
Lemma dict_history : forall K E ops m l,
  prefix_free K -> wf_env E -> roomy_dict E -> wf E m -> room E 2 m -> m_abort m = false ->
  seq_at (m_heap m) l KDict [] -> Forall (dop_ok K (m_heap m)) ops -> dels_present (m_heap m) ops ->
  runs (exec_dops E l ops) m (fun _ m' =>
    wf E m' /\ stack_kept m m' /\ others_kept (Some l) (m_heap m) (m_heap m') /\
    exists n len,
      poly_len (PList l) m' = Some (Z.of_nat len, m') /\
      ((n = length ops /\ quiet m m') \/
       ((exists p v, nth_error ops n = Some (DSet p v)) /\ oom E (2 * Z.of_nat len + 2) m m')) /\
      let hist := rev (firstn n ops) in
      (forall p k r, wf_poly (m_heap m) p -> tree (m_heap m) p k -> K k -> after (m_heap m) hist k r -> reads E l p m' r) /\
      (forall k, K k -> exists r, after (m_heap m) hist k r) /\
      live_keys K (fun k => exists v, after (m_heap m) hist k (Some v)) len).
Proof.
  intros K E ops m l PF We R W Hroom Ha Hd Hok Hdel.
  assert (I : inv K E (m_heap m) l m [] [] []).
  { split; auto.
    - constructor.
    - split; constructor.
    - apply grows_refl.
    - intros k r _ H. inversion H; subst. intros k' v []. }
  eapply runs_mono; [eapply (steps_runs K PF E We R); eauto|].
  { intros pre p post k Hp Hk. rewrite app_nil_r. eapply Hdel; eauto. }
  cbv beta. intros _ m' (F & L & n & kvs & al & I' & Hn).
  split; [apply I'|]. split; [eapply frame_stack; eauto|]. split; [apply frame_others; exact F|].
  rewrite app_nil_r in I'. exists n, (length kvs).
  split; [eapply poly_len_dict; [apply I' | apply I']|]. split; [exact Hn|]. cbv zeta.
  assert (Hokn : Forall (dop_ok K (m_heap m)) (rev (firstn n ops))).
  { apply Forall_rev, Forall_firstn. exact Hok. }
  split; [| split].
  - intros p k r Hwp Ht HK Hr. eapply (reads_holds K PF E We (m_heap m)); [exact I' | | | exact HK |].
    + eapply wf_poly_grows; [apply I' | exact Hwp].
    + eapply tree_grows; [apply I' | eapply k_frozen; eauto | exact Ht].
    + eapply i_holds; eauto.
  - intros k HK. eapply after_total; eauto.
  - eapply live_keys_inv; eauto.
Qed.

Definition dset (kv : poly * poly) : dop := DSet (fst kv) (snd kv).

Lemma nth_error_skipn : forall A n (l : list A) j, nth_error (skipn n l) j = nth_error l (n + j).
Proof. induction n as [|n IH]; intros [|x l] j; cbn; auto. destruct j; reflexivity. Qed.
Lemma top_nth : forall n m j p, (n <= m_sp m <= length (m_stack m))%nat -> nth_error (top n m) j = Some p ->
  pick (n - 1 - j) m = Some (p, m).
Proof.
  intros n m j p Hn H. assert (Hj := nth_error_lt _ _ _ _ H). unfold top in *. rewrite skipn_length, firstn_length in Hj.
  unfold pick. destruct (Nat.ltb_spec (n - 1 - j) (m_sp m)); [| lia].
  rewrite nth_error_skipn, nth_error_firstn in H by lia.
  replace (m_sp m - (n - 1 - j) - 1)%nat with (m_sp m - n + j)%nat by lia. rewrite H. reflexivity.
Qed.

Section Literal.
Variable K : value -> Prop.
Hypothesis PF : prefix_free K.
Variable E : env.
Hypothesis We : wf_env E.
Hypothesis R : roomy_dict E.
Variable h0 : list obj.
Variable l : loc.

Lemma fill_runs : forall prs m hist kvs al o, inv K E h0 l m hist kvs al -> room E 2 m -> m_abort m = false ->
  (2 * length prs <= m_sp m)%nat -> top (2 * length prs) m = flat prs ->
  Forall (dop_ok K h0) (map dset prs) -> nth_error (m_heap m) l = Some (OList o) ->
  2 * (Z.of_nat (length hist) + Z.of_nat (length prs)) <= lo_alloc o ->
  runs (dict_fill E (2 * length prs) (l, m_epoch m)) m (fun _ m' =>
    frame (Some l) m m' /\ length (m_heap m') = length (m_heap m) /\ quiet m m' /\ m_epoch m' = m_epoch m /\
    exists kvs' al', inv K E h0 l m' (rev (map dset prs) ++ hist) kvs' al').
Proof.
  induction prs as [|[k v] prs IH]; intros m hist kvs al o I Hroom Ha Hsp Htop Hok Ho Hal.
  - cbn [length Nat.mul Nat.add dict_fill]. apply runs_ret. split; [apply frame_refl|]. split; [reflexivity|].
    split; [apply quiet_refl|]. split; [reflexivity|]. exists kvs, al. exact I.
  - cbn [length] in *. inversion Hok as [|? ? Hop Hops]; subst. cbn [dset fst snd map] in Hop, Hops.
    pose proof I as [W Hd Hsh Hso G Hl Hh]. assert (Hst : length (m_stack m) = e_stack E) by apply W.
    assert (Hsp' : (m_sp m <= e_stack E)%nat) by apply W.
    pose proof (step_runs K PF E We R h0 l m hist kvs al (DSet k v) I Hroom Hop) as (u & m1 & H1 & F & L & Hp).
    { intros p Hx. discriminate. }
    destruct Hop as ((Hwk & kk & Htk & HK) & Hwv). cbn [dkey] in *.
    assert (Hwk' : wf_poly (m_heap m) k) by (eapply wf_poly_grows; eauto).
    assert (Hf : frozen_at (m_heap m) k).
    { exists kk. split; [eapply tree_grows; eauto using k_frozen | eauto using k_frozen]. }
    pose proof Hd as (o' & Ho' & Hko & He). assert (o' = o) by congruence. subst o'.
    assert (Hs : lo_size o = 2 * Z.of_nat (length kvs)).
    { rewrite (length_elems_of _ _ _ _ _ W Ho He), flat_length. lia. }
    destruct (ref_in_place E m l kvs k o W We Hd Hwk' Hf Ho) as ([q j] & m0 & Hr & Ep & Q & Hq & o1 & Ho1 & Hal1 & Hk1 & Hj);
      [lia | unfold room in *; lia|]. cbn [fst snd] in Hq, Hj. subst q.
    assert (Hstore := store_runs m0 l o1 j v Ho1 Hj). rewrite Ep in Hstore.
    assert (Hm1 : m1 = set_heap (upd l (OList (set_data o1 (upd j v (lo_data o1)))) (m_heap m0)) m0).
    { cbn [exec_dop elem_assign] in H1. unfold poly_to_list, here in H1. unfold bind at 1 in H1.
      unfold bind at 1 in H1. rewrite (deref_list_eq l (m_epoch m) m o eq_refl Ho) in H1. rewrite Hko in H1.
      change (readonly KDict) with false in H1. cbv iota in H1. unfold bind, list_ref in H1. rewrite Hr in H1.
      pose proof (eq_trans (eq_sym Hstore) H1) as X. congruence. }
    assert (Ep1 : m_epoch m1 = m_epoch m) by (rewrite Hm1; exact Ep).
    assert (Q1 : quiet m m1) by (rewrite Hm1; exact Q).
    destruct Hp as [(_ & kvs1 & al1 & I1)|(_ & (Rep & _) & _)].
    2: { exfalso. destruct Rep as [Rep _]. destruct Q1 as [Q1 _]. congruence. }
    replace (2 * S (length prs))%nat with (S (S (2 * length prs))) in * by lia. cbn [dict_fill].
    assert (P1 : pick (S (2 * length prs)) m = Some (k, m)).
    { replace (S (2 * length prs)) with (S (S (2 * length prs)) - 1 - 0)%nat by lia. apply top_nth; [lia|]. rewrite Htop. reflexivity. }
    assert (P2 : pick (2 * length prs) m = Some (v, m)).
    { replace (2 * length prs)%nat with (S (S (2 * length prs)) - 1 - 1)%nat at 1 by lia. apply top_nth; [lia|]. rewrite Htop. reflexivity. }
    eapply runs_bind. eexists _, _. split; [exact P1|].
    eapply runs_bind. eexists _, _. split; [exact P2|].
    eapply runs_bind. eexists _, _. split; [reflexivity|].
    eapply runs_bind. eexists _, _. split; [exact Hr|]. cbv iota beta.
    eapply runs_bind. eexists tt, m1. split.
    { unfold bind, use. cbn [fst snd]. rewrite Ep, Nat.eqb_refl, orb_true_r. rewrite Hm1. exact Hstore. }
    rewrite <- Ep1.
    assert (T1 : firstn (m_sp m) (m_stack m1) = firstn (m_sp m) (m_stack m)) by apply F.
    assert (Sp1 : m_sp m1 = m_sp m) by apply F.
    eapply runs_mono; [eapply (IH m1 (DSet k v :: hist) kvs1 al1); eauto|].
    + unfold room in *. rewrite Sp1. exact Hroom.
    + destruct Q1; congruence.
    + rewrite Sp1. lia.
    + unfold top in *. rewrite Sp1, T1. 
      replace (m_sp m - 2 * length prs)%nat with (2 + (m_sp m - S (S (2 * length prs))))%nat by lia.
      rewrite <- skipn_skipn'. rewrite Htop. reflexivity.
    + rewrite Hm1. cbn [set_heap m_heap]. apply nth_upd_same. eapply nth_error_lt; eauto.
    + cbn [set_data lo_alloc length]. lia.
    + cbv beta. intros _ m2 (F2 & L2 & Q2 & Ep2 & kvs2 & al2 & I2).
      split. { eapply frame_trans; eauto. intros l' [= <-] _. eapply dict_not_empty_tuple; [apply I1 | apply I1]. }
      split; [congruence|]. split; [eapply quiet_trans; eauto|]. split; [congruence|].
      exists kvs2, al2. cbn [map dset fst snd rev]. rewrite <- app_assoc. exact I2.
Qed.
End Literal.

Lemma frame_new_loc : forall l m m1 m', frame None m m1 -> (length (m_heap m) <= l)%nat -> frame (Some l) m1 m' ->
  m_empty m1 <> Some l -> frame None m m'.
Proof.
  intros l m m1 m' F1 Hl F2 He.
  assert (F : frame (Some l) m m').
  { eapply frame_trans; [apply frame_weaken; exact F1 | exact F2|]. intros l' [= <-] _. exact He. }
  destruct F as [A B C D G P]. split; try assumption. eapply kept_new; [exact A | exact Hl].
Qed.

(** {k: v, ...} *)
Lemma dict_literal : forall K E m n prs,
  prefix_free K -> wf_env E -> roomy_dict E -> wf E m -> room E 2 m -> m_abort m = false ->
  n = length prs -> (2 * n <= m_sp m)%nat -> top (2 * n) m = flat prs -> Forall (dop_ok K (m_heap m)) (map dset prs) ->
  fits (e_width E) (2 * Z.of_nat n) ->
  runs (list_imm E (2 * n) KDict) m (fun r m' =>
    wf E m' /\ stack_kept (dropped (2 * n) m) m' /\ heap_kept (m_heap m) (m_heap m') /\
    ((r = PNull /\ oom E (2 * Z.of_nat n) m m') \/
     exists l len, r = PList l /\ (length (m_heap m) <= l)%nat /\ quiet m m' /\
       poly_len (PList l) m' = Some (Z.of_nat len, m') /\
       let hist := rev (map dset prs) in
       (forall p k r, wf_poly (m_heap m) p -> tree (m_heap m) p k -> K k -> after (m_heap m) hist k r -> reads E l p m' r) /\
       (forall k, K k -> exists r, after (m_heap m) hist k r) /\
       live_keys K (fun k => exists v, after (m_heap m) hist k (Some v)) len)).
Proof.
  intros K E m n prs PF We R W Hroom Ha Hn Hsp Htop Hok Hfit. pose proof W as [W1 W2 W3 W4 W5]. unfold list_imm.
  replace (Z.of_nat (2 * n)) with (2 * Z.of_nat n) by lia.
  eapply runs_step; [apply make_runs; auto; [unfold room in *; lia | lia]|].
  intros r m1 [F Hr]. assert (Hsp1 : m_sp m1 = m_sp m) by apply F.
  assert (Hst1 : length (m_stack m1) = length (m_stack m)) by apply F.
  destruct r as [p|].
  - destruct Hr as (Hq & l & o & -> & Ho & Hsh & Hko & Hso & Hnew).
    destruct Hnew as [(Hl & L)|(_ & Hx & _)]; [| discriminate].
    change (lkind_eqb KDict KDict) with true. cbv iota. pose proof Hsh as [Sh1 Sh2 Sh3].
    eapply runs_eq; [apply bind_assoc|]. eapply runs_deref; [reflexivity | exact Ho|].
    eapply runs_eq; [apply bind_assoc|]. apply runs_assign; [reflexivity | eapply nth_error_lt; eauto|].
    set (o2 := set_size o 0). set (m2 := set_heap (upd l (OList o2) (m_heap m1)) m1).
    assert (Hem : m_empty m1 <> Some l).
    { intros He. destruct (fr_empty _ _ _ F) as [E1|(E1 & l' & E1' & _ & o' & Ho' & Hk' & _)].
      - rewrite E1 in He. destruct (W5 _ He) as (o' & Ho' & _). apply nth_error_lt in Ho'. lia.
      - assert (l' = l) by congruence. subst l'. congruence. }
    assert (F2 : frame None m m2).
    { eapply (frame_new_loc l m m1); [exact F | lia | apply frame_upd | exact Hem]. }
    assert (Ho2 : nth_error (m_heap m2) l = Some (OList o2)) by (apply nth_upd_same; eapply nth_error_lt; eauto).
    assert (G : grows (m_heap m) (m_heap m2)) by (apply kept_grows, F2).
    assert (Wl : wf_list E (m_heap m2) l o2).
    { split; cbn [o2 set_size lo_size lo_alloc lo_data lo_kind]; try lia; unfold elems; cbn; auto.
      - intros _. split; [exists 0%nat; reflexivity | constructor]. }
    assert (W' : wf E m2).
    { eapply wf_fresh; [exact W | exact F2 |]. right. cbn [m2 set_heap m_heap]. rewrite upd_length. split; [exact L|].
      intros o' Ho'. rewrite <- Hl in *. assert (o' = o2); [| subst o'; exact Wl].
      assert (X := eq_trans (eq_sym Ho') Ho2). congruence. }
    assert (I : inv K E (m_heap m) l m2 [] [] []).
    { split; auto.
      - exists o2. split; [exact Ho2|]. split; [exact Hko | reflexivity].
      - constructor.
      - split; constructor.
      - intros k r _ H. inversion H; subst. intros k' v []. }
    eapply runs_eq; [apply bind_assoc|].
    eapply runs_step.
    { rewrite Hn. change (m_epoch m1) with (m_epoch m2). eapply (fill_runs K PF E We R (m_heap m) l prs m2); eauto.
      - unfold room in *. cbn. lia.
      - cbn. destruct Hq; congruence.
      - cbn. lia.
      - rewrite <- Hn, (top_frame _ _ _ _ F2). exact Htop.
      - cbn [o2 set_size lo_alloc length]. lia. }
    intros _ m3 (F3 & L3 & Q3 & Ep3 & kvs & al & I3).
    eapply runs_bind. eexists _, _. split; [apply drop_eq; rewrite (fr_sp _ _ _ F3); cbn; lia|].
    eexists _, _. split. { unfold list_to_poly. cbn [snd fst dropped set_stack m_epoch]. rewrite Ep3. cbn [m2 set_heap m_epoch]. rewrite Nat.eqb_refl. reflexivity. }
    rewrite <- app_nil_end in I3.
    assert (F4 : frame None m m3).
    { eapply (frame_new_loc l m m2); [exact F2 | lia | exact F3 | exact Hem]. }
    assert (I4 : inv K E (m_heap m) l (dropped (2 * n) m3) (rev (map dset prs)) kvs al).
    { destruct I3. split; auto. apply wf_dropped. assumption. }
    split; [apply I4|]. split; [eapply frame_stack, frame_dropped; exact F4|]. split; [apply (frame_others _ _ _ F4)|].
    right. exists l, (length kvs). split; [reflexivity|]. split; [lia|].
    split; [eapply quiet_trans; [exact Hq | exact Q3]|].
    split; [eapply poly_len_dict; [apply I4 | apply I4]|]. cbv zeta.
    assert (Hokn : Forall (dop_ok K (m_heap m)) (rev (map dset prs))) by (apply Forall_rev; exact Hok).
    split; [| split].
    + intros p k r Hwp Ht HK Hr. eapply (reads_holds K PF E We (m_heap m)); [exact I4 | | | exact HK |].
      * eapply wf_poly_grows; [apply I4 | exact Hwp].
      * eapply tree_grows; [apply I4 | eapply k_frozen; eauto | exact Ht].
      * eapply i_holds; eauto.
    + intros k HK. eapply after_total; eauto.
    + eapply live_keys_inv; eauto.
  - destruct Hr as [Hrep Hf]. eapply runs_bind. eexists _, _. split; [apply drop_eq; lia|].
    apply runs_ret. split; [apply wf_dropped; eapply wf_fresh; eauto|].
    split; [eapply frame_stack, frame_dropped; exact F|]. split; [apply (frame_others _ _ _ F)|].
    left. split; [reflexivity | exact Hrep].
Qed.

(** * Mutable keys *)
Lemma loop_zero_frozen : forall h f xs ys, Forall (wf_poly h) xs ->
  (forall x y, In y ys -> wf_poly h x -> f x y = Some 0 -> frozen_at h x) ->
  cmp_loop f xs ys = Some 0 -> Forall (frozen_at h) xs.
Proof.
  intros h f xs. induction xs as [|x xs IH]; intros [|y ys] Hx Hf H; cbn [cmp_loop] in H; try discriminate; constructor.
  - inversion Hx; subst. destruct (f x y) as [d|] eqn:Ed; [| discriminate]. destruct (Z.eqb_spec d 0); cbn [negb] in H; [| congruence].
    subst d. eapply Hf; [left; reflexivity | assumption | exact Ed].
  - inversion Hx; subst. destruct (f x y) as [d|] eqn:Ed; [| discriminate]. destruct (Z.eqb_spec d 0); cbn [negb] in H; [| congruence].
    apply (IH ys); auto. intros x' y' Hy. apply Hf. right. exact Hy.
Qed.

Lemma hcmp_zero_frozen : forall h, elems_ok h -> forall v k p n, tree h k v -> frozen v -> wf_poly h p ->
  hcmp n h false p k = Some 0 -> frozen_at h p.
Proof.
  intros h Hh. induction v as [f|s|lk vs IH|u|u] using value_ind2; intros k p n Hk Hf Hp H; destruct n as [|n]; try discriminate.
  1,2,4,5: destruct p as [g|l|l|l|u'|t]; try contradiction;
    [ exists (VNum g); cbn; auto | destruct Hp as (s' & Hs'); exists (VStr s'); cbn; eauto | exfalso
    | exists (VFunc (Z.of_nat l)); cbn; eauto | exists (VBuiltin u'); cbn; auto ];
    cbn in Hk; try (destruct Hk as (l0 & -> & _)); subst; cbn in H; discriminate.
  apply tree_seq in Hk. destruct Hk as (l & o & -> & Ho & Hko & Hvs). apply frozen_seq in Hf. destruct Hf as [-> Hf].
  destruct p as [g|l'|l'|l'|u'|t]; try contradiction; try discriminate.
  pose proof Hp as (o' & Ho'). cbn [hcmp poly_type] in H. rewrite Z.sub_diag in H. cbn [Z.eqb negb] in H. rewrite Ho, Ho' in H.
  destruct (Z.eqb_spec (lkind_code (lo_kind o') - lkind_code (lo_kind o)) 0) as [He|Hn]; cbn [negb] in H; [| congruence].
  assert (Hk' : lo_kind o' = KTuple) by (rewrite Hko in He; destruct (lo_kind o'); cbn in He; try lia; reflexivity).
  rewrite !live_elems in H. apply (frozen_tuple h l' o' Ho' Hk').
  eapply loop_zero_frozen; [eapply Hh; eauto | | exact H].
  intros x y Hy Hx Hz. assert (exists v, In v vs /\ tree h y v) as (v & Hv & Hyv).
  { rewrite live_elems in Hy. clear -Hvs Hy. induction Hvs as [|a b ps vs Hab _ IH]; [destruct Hy|].
    destruct Hy as [<-|Hy]; [exists b; cbn; auto|]. destruct (IH Hy) as (v & ? & ?). exists v. cbn; auto. }
  rewrite Forall_forall in IH, Hf. eapply (IH v Hv); eauto.
Qed.

Lemma mutable_key_rejected : forall E m l kvs p v,
  wf E m -> wf_env E -> roomy_dict E -> room E 2 m -> dict_at (m_heap m) l kvs -> wf_poly (m_heap m) p -> wf_poly (m_heap m) v ->
  ~ frozen_at (m_heap m) p ->
  elem_assign E (PList l) p v m = Some (tt, errored (EValue p) m).
Proof.
  intros E m l kvs p v W We R Hroom Hd Hp Hv Hn.
  destruct (assign_dict_runs E m l kvs p v W We Hroom Hd Hp Hv) as ([] & m' & Hr & c & _ & Hc).
  { eapply roomy_dict_fits; eauto. }
  destruct Hc as [(kv & (Hkv & Hz) & _)|(_ & [(_ & ->)|(Hf & _)])]; [| exact Hr | contradiction].
  exfalso. apply Hn. assert (Hf := dict_keys_frozen _ _ _ _ W Hd). rewrite Forall_forall in Hf.
  destruct (Hf kv (nth_error_In _ _ Hkv)) as (u & Hu & Fu).
  eapply hcmp_zero_frozen; [eapply wf_elems_ok; eauto | exact Hu | exact Fu | exact Hp | exact Hz].
Qed.
