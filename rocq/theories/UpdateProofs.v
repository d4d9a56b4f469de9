(** Augmented assignment to, and deletion of, an element that is not there. *)
From Verif Require Import Tac Base FloatModel PolyModel ValueModel OrderSpec OrderProofs OrderProofs2 SliceModel SliceSpec SliceProofs
  MachModel ListModel StrModel MathModel BinModel MachSpec ListSpec StrSpec MachProofs FrameProofs ListProofs ListProofs2 ListProofs3
  DictSpec DictProofs DictProofs2 DictProofs3 DictProofs4 DictProofs5 StrProofs StrProofs2 BinProofs.
Local Open Scope Z_scope.
Open Scope mach_scope.

(** What every run of a computation leaves alone. *)
Definition always {A} (P : mach -> mach -> Prop) (c : M A) : Prop := forall m r m', c m = Some (r, m') -> P m m'.
Definition same_stack (m m' : mach) : Prop := m_stack m' = m_stack m /\ m_sp m' = m_sp m /\ m_epoch m' = m_epoch m.
Lemma always_bind : forall A B (c : M A) (f : A -> M B), always same_stack c -> (forall a, always same_stack (f a)) -> always same_stack (bind c f).
Proof.
  intros A B c f H1 H2 m r m' H. unfold bind in H. destruct (c m) as [[a m1]|] eqn:Ec; [| discriminate].
  destruct (H1 _ _ _ Ec) as (A1 & A2 & A3). destruct (H2 _ _ _ _ H) as (B1 & B2 & B3). repeat split; congruence.
Qed.
Lemma always_ret : forall A (a : A), always same_stack (ret a).
Proof. intros A a m r m' [= <- <-]. repeat split. Qed.
Lemma always_lift : forall A (a : option A), always same_stack (lift a).
Proof. intros A [a|] m r m' H; [injection H as <- <-; repeat split | discriminate]. Qed.
Lemma always_deref : forall p, always same_stack (deref_list p).
Proof.
  intros p m r m'. unfold deref_list, deref, bind, ret, undef.
  destruct (Nat.eqb _ _); [| discriminate]. destruct (nth_error _ _) as [[]|]; try discriminate. intros [= <- <-]. repeat split.
Qed.
Lemma always_assign : forall p o, always same_stack (assign_list p o).
Proof. intros p o m r m'. unfold assign_list, assign_obj. destruct (_ && _); [| discriminate]. intros [= <- <-]. repeat split. Qed.
Lemma always_open_gap : forall l o p, always same_stack (open_gap l o p).
Proof.
  intros l o p. unfold open_gap. apply always_bind; [apply always_deref|]. intros lo.
  apply always_bind; [apply always_lift|]. intros t. apply always_bind; [apply always_lift|]. intros d.
  apply always_bind; [apply always_lift|]. intros d'. apply always_assign.
Qed.

(** [c[k]] is being updated: [c] and [k] are the top of the stack. *)
Definition target (m : mach) (c k : poly) : Prop :=
  exists n, m_sp m = S (S n) /\ nth_error (m_stack m) n = Some c /\ nth_error (m_stack m) (S n) = Some k.
(** The state with these two taken off. *)
Definition taken2 (m : mach) : mach := set_stack (m_stack m) (m_sp m - 2) m.

Lemma pop2 : forall B m c k (f : poly -> poly -> M B) Q, target m c k -> runs (f k c) (taken2 m) Q ->
  runs (let* ip := pop in let* lp := pop in f ip lp) m Q.
Proof.
  intros B m c k f Q (n & Hsp & Hc & Hk) H.
  apply runs_bind. exists k, (set_stack (m_stack m) (S n) m). split; [unfold pop; rewrite Hsp, Hk; reflexivity|].
  apply runs_bind. exists c, (taken2 m). split; [| exact H].
  unfold pop. cbn [set_stack m_sp m_stack]. rewrite Hc. unfold taken2. rewrite Hsp. cbn [Nat.sub]. rewrite Nat.sub_0_r. reflexivity.
Qed.
Lemma taken2_wf : forall E m, wf E m -> wf E (taken2 m).
Proof.
  intros E m W. destruct W. split; cbn [taken2 set_stack m_heap m_stack m_sp m_empty m_epoch m_abort m_log]; try assumption; try lia.
  rewrite Forall_forall in *. intros p Hp. apply wf_stack.
  replace (firstn (m_sp m - 2) (m_stack m)) with (firstn (m_sp m - 2) (firstn (m_sp m) (m_stack m))) in Hp.
  - eapply firstn_In; exact Hp.
  - rewrite firstn_firstn. f_equal. lia.
Qed.

Lemma target_wf : forall E m c k, wf E m -> target m c k -> wf_poly (m_heap m) c /\ wf_poly (m_heap m) k.
Proof.
  intros E m c k W (n & Hsp & Hc & Hk). pose proof (wf_stack _ _ W) as St. rewrite Forall_forall in St.
  split; apply St; [apply (nth_error_In _ n) | apply (nth_error_In _ (S n))]; rewrite nth_error_firstn by lia; assumption.
Qed.
Lemma target_room : forall E m c k, wf E m -> target m c k -> room E 2 (taken2 m).
Proof. intros E m c k W (n & Hsp & _). pose proof (wf_sp _ _ W). unfold room, taken2. cbn. lia. Qed.

Section Update.
Variable E : env.
Variable T : texts.
Variable powf : float -> float -> outcome float.
Hypothesis We : wf_env E.

(** The container cannot be changed. *)
Lemma augment_readonly : forall m c k op a,
  target m c k -> (forall l, c = PList l -> exists xs, seq_at (m_heap m) l KTuple xs) ->
  augment_elem E T powf op a m = Some (a, errored (EType1 c) (taken2 m)).
Proof.
  intros m c k op a (n & Hsp & Hc & Hk) Hro. unfold augment_elem, elem_ref, bind at 1. unfold bind at 1, pop. rewrite Hsp, Hk.
  unfold bind at 1. cbn [set_stack m_sp m_stack]. rewrite Hc.
  change (set_stack (m_stack m) n (set_stack (m_stack m) (S n) m)) with (set_stack (m_stack m) n m).
  unfold taken2. rewrite Hsp. cbn [Nat.sub]. rewrite Nat.sub_0_r.
  destruct c as [f|l|l|l|u|u]; try reflexivity.
  destruct (Hro l eq_refl) as (xs & o & Ho & Hko & He). unfold bind at 1, poly_to_list, here.
  unfold bind at 1. rewrite (deref_list_eq l _ _ o); [| reflexivity | exact Ho]. rewrite Hko. reflexivity.
Qed.

Lemma augment_ref : forall m l k ref m' op a o,
  target m (PList l) k -> nth_error (m_heap m) l = Some (OList o) -> readonly (lo_kind o) = false ->
  list_ref E (l, m_epoch m) k true (taken2 m) = Some (ref, m') ->
  augment_elem E T powf op a m =
  match ref with
  | None => Some (a, m')
  | Some r => (unpop2;; let* v := load r in let* a := binary E T powf v (BNum op) a true in assign_elem E a) m'
  end.
Proof.
  intros m l k ref m' op a o (n & Hsp & Hc & Hk) Ho Hro Hr. unfold augment_elem, elem_ref, bind at 1. unfold bind at 1, pop. rewrite Hsp, Hk.
  unfold bind at 1. cbn [set_stack m_sp m_stack]. rewrite Hc. unfold bind at 1, poly_to_list, here.
  unfold bind at 1. rewrite (deref_list_eq l _ _ o); [| reflexivity | exact Ho]. rewrite Hro.
  change (set_stack (m_stack m) n (set_stack (m_stack m) (S n) m)) with (set_stack (m_stack m) n m).
  unfold taken2 in Hr. rewrite Hsp in Hr. cbn [Nat.sub] in Hr. rewrite Nat.sub_0_r in Hr.
  cbn [set_stack m_epoch] in *. rewrite Hr. destruct ref; reflexivity.
Qed.

(** A position that is not there. *)
Lemma augment_out_of_range : forall m l xs f i op a,
  wf E m -> wbits (e_width E) <= e_int E -> target m (PList l) (PNum f) -> seq_at (m_heap m) l KList xs -> denotes E f i ->
  py_pos (length xs) i = None ->
  augment_elem E T powf op a m = Some (a, errored (EValue (PNum f)) (taken2 m)).
Proof.
  intros m l xs f i op a W Hw Ht Hs [Hf Hi] Hp. pose proof Hs as (o & Ho & Hk & He).
  destruct (ref_list_runs E (taken2 m) l KList xs f i true true) as (r & m' & Hr & Hp' & Hm'); auto; [apply taken2_wf; exact W | discriminate|].
  rewrite Hp in Hp'. cbn [option_map] in Hp'. subst r m'.
  rewrite (augment_ref m l (PNum f) None _ op a o Ht Ho ltac:(rewrite Hk; reflexivity) Hr). reflexivity.
Qed.

(** A key that cannot be one. *)
Lemma augment_mutable_key : forall m l kvs k op a,
  wf E m -> target m (PList l) k -> dict_at (m_heap m) l kvs -> ~ frozen_at (m_heap m) k ->
  augment_elem E T powf op a m = Some (a, errored (EValue k) (taken2 m)).
Proof.
  intros m l kvs k op a W Ht Hd Hn. destruct (target_wf _ _ _ _ W Ht) as [_ Hk].
  pose proof Hd as (o & Ho & Hko & He). assert (W2 := taken2_wf _ _ W).
  destruct (ref_dict_cases E (taken2 m) l kvs k true true W2 We Hd Hk) as (c & _ & [(kv & (Hkv & Hz) & _)|(_ & Hr)]).
  - exfalso. apply Hn. assert (Hf := dict_keys_frozen _ _ _ _ W Hd). rewrite Forall_forall in Hf.
    destruct (Hf kv (nth_error_In _ _ Hkv)) as (u & Hu & Fu).
    eapply hcmp_zero_frozen; [eapply wf_elems_ok; eauto | exact Hu | exact Fu | exact Hk | exact Hz].
  - cbn [negb] in Hr. destruct (mutable_runs E (taken2 m) k W2 Hk) as (b & Hb & Hbf).
    assert (b = true) by (destruct b; [reflexivity | exfalso; apply Hn; apply Hbf; reflexivity]). subst b.
    rewrite (augment_ref m l k None (errored (EValue k) (taken2 m)) op a o Ht Ho ltac:(rewrite Hko; reflexivity)); [reflexivity|].
    unfold list_ref. change (m_epoch m) with (m_epoch (taken2 m)). rewrite Hr. unfold bind. rewrite Hb. reflexivity.
Qed.

(** A key that is not there is put in before anything else happens, and what
    was pushed for that is taken for the container afterwards. *)
Lemma insert_leaves_key : forall m l kvs p c r m',
  wf E m -> room E 2 m -> dict_at (m_heap m) l kvs -> fits (e_width E) (2 * Z.of_nat (length kvs) + 2) ->
  insert E (l, m_epoch m) p (2 * Z.of_nat (length kvs)) (2 * Z.of_nat c) m = Some (Some r, m') ->
  nth_error (m_stack m') (m_sp m) = Some p /\ m_sp m' = m_sp m /\ length (m_stack m') = length (m_stack m).
Proof.
  intros m l kvs p c r m' W Hroom Hd Hfit H. destruct (dict_size _ _ _ _ W Hd) as (o & Ho & Hk & He & Sh & Hs).
  assert (Hst : length (m_stack m) = e_stack E) by apply W. unfold room in Hroom.
  unfold insert, bind at 1 in H. rewrite push_eq in H by (unfold room; lia).
  rewrite u_of_small in H by (unfold fits in Hfit; lia).
  destruct (resize_runs E (pushed p m) l (m_epoch m) o (2 * Z.of_nat (length kvs) + 2)) as (r1 & m1 & Hr1 & L & Em & Hp1); auto.
  { unfold stack_ok. cbn. rewrite upd_length. exact Hst. } { unfold room. cbn. lia. } { lia. }
  unfold bind at 1 in H. rewrite Hr1 in H.
  assert (F0 : frame (Some l) (pushed p m) m1) by (destruct r1; [apply Hp1 | apply frame_weaken; apply Hp1]).
  assert (Hlt : (m_sp m < length (m_stack m))%nat) by lia.
  destruct (pop_pushed _ _ _ _ Hlt F0) as [Hpop _].
  assert (S1 : m_sp m1 = S (m_sp m)) by (rewrite (fr_sp _ _ _ F0); reflexivity).
  assert (S2 : nth_error (m_stack m1) (m_sp m) = Some p).
  { revert Hpop. unfold pop. rewrite S1. destruct (nth_error (m_stack m1) (m_sp m)); [intros [= ->]; reflexivity | discriminate]. }
  unfold bind at 1 in H. rewrite Hpop in H. destruct r1 as [[l1 e1]|]; [| discriminate].
  unfold bind at 1 in H. destruct (open_gap (l1, e1) (2 * Z.of_nat c) p (popped m1)) as [[[] m2]|] eqn:Eg; [| discriminate].
  injection H as _ ->.
  assert (G : m_stack m' = m_stack m1 /\ m_sp m' = Nat.pred (m_sp m1)).
  { destruct (always_open_gap _ _ _ _ _ _ Eg) as (A1 & A2 & _). split; [exact A1 | exact A2]. }
  destruct G as [-> ->]. rewrite S1. split; [exact S2|]. split; [reflexivity|].
  rewrite (fr_slen _ _ _ F0). cbn. apply upd_length.
Qed.

(** No key of [d] compares equal to [k]. *)
Definition absent (m : mach) (l : loc) (k : poly) : Prop := list_in E k (l, m_epoch m) m = Some (false, m).

Lemma absent_miss : forall m l kvs k, wf E m -> dict_at (m_heap m) l kvs -> wf_poly (m_heap m) k -> absent m l k ->
  exists c, (c <= length kvs)%nat /\
    list_ref_ E (l, m_epoch m) k true true m =
    (let* mt := mutable k in
     if (mt : bool) then fail_ref true k else insert E (l, m_epoch m) k (2 * Z.of_nat (length kvs)) (2 * Z.of_nat c)) m.
Proof.
  intros m l kvs k W Hd Hk Ha. destruct (list_in_dict E m l kvs k W We Hd Hk) as (b & Hb & Hbi).
  unfold absent in Ha. rewrite Ha in Hb. injection Hb as <-.
  destruct (ref_dict_cases E m l kvs k true true W We Hd Hk) as (c & (Hc & _) & [(kv & (Hkv & Hz) & _)|(_ & Hr)]).
  - exfalso. assert (false = true) by (apply Hbi; exists kv; split; [eapply nth_error_In; eauto | exact Hz]). discriminate.
  - exists c. split; [apply Hc | exact Hr].
Qed.

Lemma plus_number_quiet : forall m x f, exists y e, binary E T powf x (BNum Nplus) (PNum f) true m = Some (y, e) /\ (e = m \/ exists msg, e = errored msg m).
Proof.
  intros m x f.
  assert (K : (forall g, x <> PNum g) -> runs (binary E T powf x (BNum Nplus) (PNum f) true) m (fun r m' => m' = errored (EType2 x (PNum f)) m)).
  { intros N. destruct x as [g|l|l|l|u|u]; [exfalso; apply (N g); reflexivity | | | | |];
      (unfold binary; cbn [other_op plus_op]; eapply runs_invalid; [reflexivity | reflexivity | reflexivity]). }
  destruct x as [g|l|l|l|u|u]; [eexists _, _; split; [reflexivity | left; reflexivity] | | | | |];
    (destruct K as (r & m' & Hr & ->); [discriminate|]; eexists _, _; split; [exact Hr | right; eexists; reflexivity]).
Qed.

Lemma augment_missing : forall m l kvs k f,
  roomy_dict E -> wf E m -> target m (PList l) k -> dict_at (m_heap m) l kvs -> absent m l k -> frozen_at (m_heap m) k ->
  runs (augment_elem E T powf Nplus (PNum f)) m (fun _ m' =>
    m_abort m' = true /\
    ((m_log m' = if m_abort m then m_log m else EMemory :: m_log m) \/
     exists c x, dict_at (m_heap m') l (inserted kvs c (k, x)))).
Proof.
  intros m l kvs k f R W Ht Hd Ha Hf. destruct (target_wf _ _ _ _ W Ht) as [_ Hk].
  pose proof Hd as (o & Ho & Hko & He). assert (W2 := taken2_wf _ _ W). assert (Rm := target_room _ _ _ _ W Ht).
  assert (Ha2 : absent (taken2 m) l k).
  { unfold absent in *. clear -Ha W Hd Hk We. 
    destruct (list_in_dict E m l kvs k W We Hd Hk) as (b & Hb & Hbi). rewrite Ha in Hb. injection Hb as <-.
    destruct (list_in_dict E (taken2 m) l kvs k (taken2_wf _ _ W) We Hd Hk) as (b & Hb & Hbi2). rewrite Hb.
    destruct b; [| reflexivity]. exfalso. assert (false = true) by (apply Hbi, Hbi2; reflexivity). discriminate. }
  destruct (absent_miss (taken2 m) l kvs k W2 Hd Hk Ha2) as (c & Hc & Hr).
  destruct (mutable_runs E (taken2 m) k W2 Hk) as (b & Hb & Hbf). assert (b = false) by (apply Hbf; exact Hf). subst b.
  assert (Hfit : fits (e_width E) (2 * Z.of_nat (length kvs) + 2)) by (exact (roomy_dict_fits _ _ _ _ We R W2 Hd)).
  destruct (insert_runs E (taken2 m) l kvs k c W2 We Rm Hd Hk Hc Hfit) as (r & m1 & Hi & Hp).
  assert (Hl : list_ref E (l, m_epoch m) k true (taken2 m) = Some (r, m1)).
  { unfold list_ref. change (m_epoch m) with (m_epoch (taken2 m)). rewrite Hr. unfold bind at 1. rewrite Hb. exact Hi. }
  pose proof (augment_ref m l k r m1 Nplus (PNum f) o Ht Ho ltac:(rewrite Hko; reflexivity) Hl) as Hag.
  destruct r as [r|].
  - destruct Hp as (-> & F & L & Q & o1 & x & Ho1 & So1 & Hk1 & He1).
    destruct (insert_leaves_key (taken2 m) l kvs k c _ m1 W2 Rm Hd Hfit Hi) as (Key & Sp & Sl).
    assert (Hx : nth_error (lo_data o1) (2 * c + 1) = Some x).
    { assert (nth_error (elems o1) (2 * c + 1) = Some x).
      { rewrite He1, nth_error_app2 by (rewrite flat_length, firstn_length; lia).
        replace (2 * c + 1 - length (flat (firstn c kvs)))%nat with 1%nat by (rewrite flat_length, firstn_length; lia). reflexivity. }
      unfold elems in H. rewrite nth_error_firstn in H; [exact H|].
      apply nth_error_lt in H. rewrite firstn_length in H. lia. }
    destruct Ht as (n & Hsp & Hcn & Hkn).
    assert (Sp1 : m_sp m1 = n) by (rewrite Sp; cbn [taken2 set_stack m_sp]; lia).
    cbn [taken2 set_stack m_sp] in Key. rewrite Hsp in Key. cbn [Nat.sub] in Key. rewrite Nat.sub_0_r in Key.
    set (m2 := set_stack (m_stack m1) (m_sp m1 + 2) m1) in *.
    destruct (plus_number_quiet m2 x f) as (y & e & Hbin & He2).
    assert (G : m_heap e = m_heap m1 /\ m_epoch e = m_epoch m1 /\ m_stack e = m_stack m1 /\ m_sp e = S (S n)).
    { destruct He2 as [->|(msg & ->)]; unfold errored; [| destruct (m_abort m2)]; cbn [m2 set_stack set_err m_heap m_epoch m_stack m_sp];
        repeat split; rewrite Sp1; lia. }
    destruct G as (G1 & G2 & G3 & G4).
    assert (Ln : (S n < length (m_stack e))%nat).
    { rewrite G3, Sl. cbn [taken2 set_stack m_stack]. apply nth_error_lt in Hkn. exact Hkn. }
    destruct (nth_error (m_stack e) (S n)) as [z|] eqn:Ez; [| apply nth_error_None in Ez; lia].
    set (e' := set_stack (m_stack e) n e).
    assert (Hfin : assign_elem E y e = Some (y, errored (EType1 k) e')).
    { unfold assign_elem, elem_ref, bind at 1. unfold bind at 1, pop. rewrite G4, Ez.
      unfold bind at 1. cbn [set_stack m_sp m_stack]. rewrite G3, Key.
      change (set_stack (m_stack m1) n (set_stack (m_stack m1) (S n) e)) with (set_stack (m_stack m1) n e). rewrite <- G3. fold e'.
      destruct k as [g|lk|lk|lk|u|u]; try reflexivity.
      destruct Hk as (ok & Hok). assert (Nl : lk <> l).
      { intros ->. cbn [taken2 set_stack m_heap] in Hok. rewrite Ho in Hok. injection Hok as <-.
        eapply frozen_not_tuple; [exact Ho | rewrite Hko; discriminate | exact Hf]. }
      assert (KT : lo_kind ok = KTuple).
      { destruct (lo_kind ok) eqn:Ek; [exfalso | reflexivity | exfalso]; eapply frozen_not_tuple; try exact Hf; try exact Hok; rewrite Ek; discriminate. }
      assert (exists ok', nth_error (m_heap e') lk = Some (OList ok') /\ lo_kind ok' = KTuple) as (ok' & Hok' & Kok').
      { cbn [e' set_stack m_heap]. rewrite G1. 
        destruct (fr_kept _ _ _ F) as [_ Kp]. destruct (Kp _ _ Hok) as (o2 & H2 & K2); [congruence|].
        destruct o2 as [o2| |]; try contradiction. exists o2. split; [exact H2 | destruct K2; congruence]. }
      unfold bind at 1, poly_to_list, here. unfold bind at 1. rewrite (deref_list_eq lk _ _ ok'); [| reflexivity | exact Hok'].
      rewrite Kok'. reflexivity. }
    exists y, (errored (EType1 k) e'). split.
    + rewrite Hag. unfold unpop2, bind at 1. fold m2. unfold bind at 1, load, bind at 1. cbn [fst snd].
      rewrite (deref_list_eq l (m_epoch m1) m2 o1 eq_refl Ho1). rewrite Hx. unfold lift, ret. unfold bind at 1. rewrite Hbin. exact Hfin.
    + destruct (errored_reported (EType1 k) e') as [A _]. split; [exact A|]. right. exists c, x.
      exists o1. rewrite errored_heap. cbn [e' set_stack m_heap]. rewrite G1. split; [exact Ho1|]. split; [exact Hk1|].
      rewrite He1, flat_inserted. reflexivity.
  - destruct Hp as (_ & _ & _ & Ho'). exists (PNum f), m1. split; [exact Hag|]. destruct Ho' as [[A B] _]. split; [exact A|]. left. exact B.
Qed.

Lemma insert_epoch : forall m l kvs p c r m',
  wf E m -> room E 2 m -> dict_at (m_heap m) l kvs -> e_move E (m_nalloc m) = false ->
  insert E (l, m_epoch m) p (2 * Z.of_nat (length kvs)) (2 * Z.of_nat c) m = Some (r, m') -> m_epoch m' = m_epoch m.
Proof.
  intros m l kvs p c r m' W Hroom Hd Hmv. pose proof Hd as (o & Ho & _). assert (Hst : length (m_stack m) = e_stack E) by apply W.
  unfold insert, bind at 1. rewrite push_eq by (unfold room in *; lia).
  assert (Rest : forall (r1 : option ptr) m1, m_epoch m1 = m_epoch m -> (let* p := pop in
      match r1 with
      | None => ret None
      | Some list => open_gap list (2 * Z.of_nat c) p;; ret (Some (list, Z.to_nat (2 * Z.of_nat c + 1)))
      end) m1 = Some (r, m') -> m_epoch m' = m_epoch m).
  { intros r1 m1 E1 H. unfold bind at 1 in H. destruct (pop m1) as [[q m2]|] eqn:Ep; [| discriminate].
    assert (E2 : m_epoch m2 = m_epoch m).
    { rewrite <- E1. revert Ep. unfold pop. destruct (m_sp m1) as [|n]; [discriminate|]. destruct (nth_error (m_stack m1) n); [| discriminate]. intros [= _ <-]. reflexivity. }
    rewrite <- E2. destruct r1 as [l1|]; [| injection H as _ <-; reflexivity].
    unfold bind in H. destruct (open_gap _ _ _ m2) as [[[] m3]|] eqn:Eg; [| discriminate]. injection H as _ <-.
    apply (always_open_gap _ _ _ _ _ _ Eg). }
  intros H. unfold bind at 1 in H. destruct (list_resize _ _ _ (pushed p m)) as [[r1 m1]|] eqn:Er; [| discriminate].
  apply Rest in H; [exact H|]. clear H Rest.
  unfold list_resize, bind at 1 in Er. rewrite (deref_list_eq l (m_epoch m) (pushed p m) o eq_refl Ho) in Er.
  destruct (_ <=? _).
  { unfold bind in Er. destruct (assign_list _ _ _) as [[[] m2]|] eqn:E1; [| discriminate]. injection Er as _ <-.
    apply (always_assign _ _ _ _ _ E1). }
  revert Er. set (al := if readonly _ then _ else _). intros Er. unfold bind at 1 in Er.
  assert (Hpl : push_list E (l, m_epoch m) (pushed p m) = Some (tt, pushed (PList l) (pushed p m))).
  { unfold push_list, list_to_poly, bind. cbn [fst snd pushed set_stack m_epoch]. rewrite Nat.eqb_refl. 
    apply (push_eq E (PList l) (pushed p m)). unfold room in *. cbn. lia. }
  rewrite Hpl in Er. unfold bind at 1 in Er. set (mp := pushed (PList l) (pushed p m)) in *.
  assert (Hsp : (m_sp mp <= length (m_stack mp))%nat) by (unfold mp, pushed; cbn [set_stack m_sp m_stack]; rewrite !upd_length; unfold room in Hroom; lia).
  destruct (alloc_still E (u_of (e_width E) (al * 4)) mp Hsp Hmv) as (d & m2 & Ha & _ & _ & E2 & _). rewrite Ha in Er.
  unfold bind at 1 in Er. destruct (pop_list m2) as [[l3 m3]|] eqn:E3; [| discriminate].
  assert (E3' : m_epoch m3 = m_epoch m).
  { transitivity (m_epoch m2); [| exact E2]. revert E3. unfold pop_list, bind, pop. destruct (m_sp m2) as [|n]; [discriminate|].
    destruct (nth_error (m_stack m2) n) as [q|]; [| discriminate]. unfold poly_to_list, here. destruct q; try discriminate. intros [= _ <-]. reflexivity. }
  rewrite <- E3'. destruct d as [bytes|]; [| injection Er as _ <-; reflexivity]. clear E3 E3' Ha. revert m3 r1 m1 Er.
  match goal with |- forall m3 r1 m1, ?c m3 = Some (r1, m1) -> _ => enough (K : always same_stack c) by (intros m3 r1 m1 H; apply (K _ _ _ H)) end.
  apply always_bind; [apply always_deref|]. intros o3. apply always_bind; [apply always_lift|]. intros s3.
  apply always_bind; [apply always_lift|]. intros d3. apply always_bind; [apply always_assign|]. intros _. apply always_ret.
Qed.

(** Deleting a key that is not there, as long as nothing moves. *)
Lemma del_missing : forall m l kvs k,
  roomy_dict E -> wf E m -> room E 2 m -> dict_at (m_heap m) l kvs -> wf_poly (m_heap m) k -> absent m l k -> frozen_at (m_heap m) k ->
  e_move E (m_nalloc m) = false ->
  runs (elem_del E (PList l) k) m (fun _ m' =>
    frame (Some l) m m' /\ dict_at (m_heap m') l kvs /\ (quiet m m' \/ oom E (2 * Z.of_nat (length kvs) + 2) m m')).
Proof.
  intros m l kvs k R W Hroom Hd Hk Ha Hf Hmv.
  destruct (absent_miss m l kvs k W Hd Hk Ha) as (c & Hc & Hr).
  destruct (mutable_runs E m k W Hk) as (b & Hb & Hbf). assert (b = false) by (apply Hbf; exact Hf). subst b.
  assert (Hfit : fits (e_width E) (2 * Z.of_nat (length kvs) + 2)) by (exact (roomy_dict_fits _ _ _ _ We R W Hd)).
  destruct (insert_runs E m l kvs k c W We Hroom Hd Hk Hc Hfit) as (r & m1 & Hi & Hp).
  assert (Hl : list_ref E (l, m_epoch m) k true m = Some (r, m1)).
  { unfold list_ref. rewrite Hr. unfold bind at 1. rewrite Hb. exact Hi. }
  unfold elem_del, list_del, hold, poly_to_list. eapply runs_bind. eexists _, m. split; [reflexivity|].
  eapply runs_bind. exists (l, m_epoch m), m. split; [reflexivity|].
  apply runs_bind. eexists _, _. split; [exact Hl|]. cbv beta.
  destruct r as [r|].
  - destruct Hp as (-> & F & L & Q & o & x & Ho & So & Hko & He). cbv iota beta.
    assert (Ep : m_epoch m1 = m_epoch m) by (eapply insert_epoch; eauto).
    assert (Hlt : (l < length (m_heap m1))%nat) by (eapply nth_error_lt; eauto).
    pose proof So as [S1 S2 S3]. set (n := length kvs) in *.
    assert (Hlen : length (elems o) = (2 * n + 2)%nat).
    { rewrite He, app_length. cbn [length]. rewrite !flat_length, firstn_length, skipn_length. fold n. lia. }
    assert (Hsz : lo_size o = 2 * Z.of_nat n + 2).
    { unfold elems in Hlen. rewrite firstn_length in Hlen. lia. }
    assert (Hp4 : 4 * lo_alloc o <= 2 ^ wbits (e_width E)).
    { destruct We as (_ & P & _). destruct (e_width E); cbn [wbits]; lia. }
    eapply runs_deref; [exact (eq_sym Ep) | exact Ho|]. rewrite Hko.
    replace (Nat.pred (2 * c + 1)) with (2 * c)%nat by lia.
    eapply runs_deref; [reflexivity | exact Ho|].
    rewrite (u_of_small _ (lo_size o - Z.of_nat (2 * c))) by lia.
    assert (Lc : length (flat (firstn c kvs)) = (2 * c)%nat) by (rewrite flat_length, firstn_length; fold n; lia).
    assert (Lt : length (flat (skipn c kvs)) = (2 * n - 2 * c)%nat) by (rewrite flat_length, skipn_length; fold n; lia).
    assert (Hx : lo_data o = flat (firstn c kvs) ++ k :: x :: flat (skipn c kvs) ++ skipn (2 * n + 2) (lo_data o)).
    { rewrite <- (firstn_skipn (2 * n + 2) (lo_data o)) at 1.
      replace (firstn (2 * n + 2) (lo_data o)) with (elems o) by (unfold elems; f_equal; lia). rewrite He, <- app_assoc. reflexivity. }
    set (rest := skipn (2 * n + 2) (lo_data o)) in *.
    assert (Hsrc : take (Z.to_nat (lo_size o - Z.of_nat (2 * c)) - 2) (skipn (2 * c + 2) (lo_data o)) = Some (flat (skipn c kvs))).
    { rewrite take_some by (rewrite skipn_length; lia). f_equal. rewrite Hx.
      replace (2 * c + 2)%nat with (length (flat (firstn c kvs) ++ [k; x])) by (rewrite app_length; cbn [length]; lia).
      change (flat (firstn c kvs) ++ k :: x :: flat (skipn c kvs) ++ rest) with (flat (firstn c kvs) ++ [k; x] ++ (flat (skipn c kvs) ++ rest)).
      rewrite app_assoc, skipn_app, skipn_all, Nat.sub_diag. cbn [skipn app].
      replace (Z.to_nat (lo_size o - Z.of_nat (2 * c)) - 2)%nat with (length (flat (skipn c kvs))) by lia. apply firstn_app_exact. }
    eapply runs_lift_bind; [exact Hsrc|].
    eapply runs_lift_bind; [apply blit_some; lia|]. rewrite Lt.
    set (d := firstn (2 * c) (lo_data o) ++ flat (skipn c kvs) ++ skipn (2 * c + (2 * n - 2 * c)) (lo_data o)).
    apply runs_assign; [reflexivity | exact Hlt|].
    set (m2 := set_heap _ _).
    assert (Ho1 : nth_error (m_heap m2) l = Some (OList (set_data o d))) by (apply nth_upd_same; exact Hlt).
    eapply runs_deref; [exact (eq_sym Ep) | exact Ho1|].
    apply runs_bind_ret. apply runs_assign; [exact (eq_sym Ep) | eapply nth_error_lt; eauto|]. apply runs_ret.
    cbn [m2 set_heap m_heap set_data lo_size]. rewrite upd_upd. change (Z.of_nat 2) with 2.
    rewrite (u_of_small _ (lo_size o - 2)) by lia.
    set (o' := set_size (set_data o d) (lo_size o - 2)).
    change (set_heap (upd l (OList o') (m_heap m1)) m2) with (set_heap (upd l (OList o') (m_heap m1)) m1).
    assert (Em1 : m_empty m1 = m_empty m).
    { destruct (fr_empty _ _ _ F) as [A|(A & l' & B & C & o2 & D & _)]; [exact A|].
      exfalso. apply nth_error_lt in D. lia. }
    split; [apply frame_upd_after; assumption|]. split; [| left; exact Q].
    exists o'. cbn [set_heap m_heap]. rewrite nth_upd_same by exact Hlt. split; [reflexivity|]. split; [exact Hko|].
    unfold elems, o'. cbn [set_size set_data lo_size lo_data]. unfold d.
    replace (firstn (2 * c) (lo_data o)) with (flat (firstn c kvs)).
    2: { rewrite Hx, <- Lc. rewrite firstn_app_exact. reflexivity. }
    rewrite app_assoc, <- flat_app, firstn_skipn.
    replace (Z.to_nat (lo_size o - 2)) with (length (flat kvs)) by (rewrite flat_length; fold n; lia). apply firstn_app_exact.
  - destruct Hp as (W' & F & L & Om). apply runs_ret. split; [apply frame_weaken; exact F|]. split; [| right; exact Om].
    eapply seq_at_kept; [apply F | discriminate | exact Hd].
Qed.
End Update.
