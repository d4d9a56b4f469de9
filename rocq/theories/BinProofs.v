(** snek_binary on strings, lists and containers. *)
From Verif Require Import Tac Base FloatModel PolyModel ValueModel OrderSpec OrderProofs OrderProofs2 SliceModel SliceSpec SliceProofs
  MachModel ListModel StrModel MathModel BinModel MachSpec ListSpec StrSpec MachProofs FrameProofs ListProofs ListProofs2 ListProofs3
  DictProofs StrProofs StrProofs2 FormatProofs InterpProofs.
Local Open Scope Z_scope.
Open Scope mach_scope.

(** The end of snek_binary when there is a result. *)
Lemma runs_result : forall (c : M poly) ha hb m (Q : poly -> mach -> Prop),
  runs c m Q -> (forall r m', Q r m' -> is_invalid r = false) ->
  runs (let* r := c in
        if is_invalid r then let* a := use ha in let* b := use hb in error (EType2 a b);; ret PNull else ret r) m Q.
Proof.
  intros c ha hb m Q H K. eapply runs_step; [exact H|]. intros r m' HQ. rewrite (K r m' HQ). apply runs_ret. exact HQ.
Qed.

(** ... and when there is none: both operands are still where they were. *)
Lemma runs_invalid : forall (c : M poly) a b m m' (Q : poly -> mach -> Prop),
  c m = Some (PInvalid, m') -> m_epoch m' = m_epoch m -> Q PNull (errored (EType2 a b) m') ->
  runs (let* ha := hold a in let* hb := hold b in let* r := c in
        if is_invalid r then let* a := use ha in let* b := use hb in error (EType2 a b);; ret PNull else ret r) m Q.
Proof.
  intros c a b m m' Q H Ep HQ. apply runs_bind. eexists _, _. split; [reflexivity|]. apply runs_bind. eexists _, _. split; [reflexivity|].
  apply runs_bind. eexists _, _. split; [exact H|]. change (is_invalid PInvalid) with true. cbv iota.
  assert (U : forall p, use (p, m_epoch m) m' = Some (p, m')).
  { intros p. unfold use. cbn [fst snd]. rewrite Ep, Nat.eqb_refl, Bool.orb_true_r. reflexivity. }
  apply runs_bind. eexists _, _. split; [apply U|]. apply runs_bind. eexists _, _. split; [apply U|].
  apply runs_error. apply runs_ret. exact HQ.
Qed.

Lemma string_result_valid : forall E m s r m', string_result E m s r m' -> is_invalid r = false.
Proof. intros E m s r m' (_ & _ & _ & _ & [(l & -> & _)|(-> & _)]); reflexivity. Qed.

Section Ops.
Variable E : env.
Variable T : texts.
Variable powf : float -> float -> outcome float.
Hypothesis We : wf_env E.

Ltac holds := apply runs_bind; eexists _, _; (split; [reflexivity|]); apply runs_bind; eexists _, _; (split; [reflexivity|]).

Lemma binary_cat : forall m la lb sa sb inplace,
  roomy_str E -> wf E m -> wf_strs E (m_heap m) -> room E 2 m ->
  str_at (m_heap m) la sa -> str_at (m_heap m) lb sb ->
  runs (binary E T powf (PStr la) (BNum Nplus) (PStr lb) inplace) m (string_result E m (sa ++ sb)).
Proof.
  intros m la lb sa sb ip R W Ws Hroom Ha Hb. unfold binary. holds.
  apply runs_result; [| apply string_result_valid]. cbn [other_op plus_op].
  apply runs_bind. eexists _, _. split; [reflexivity|]. apply runs_bind. eexists _, _. split; [reflexivity|].
  apply cat_runs; auto. eapply roomy_str_fits; eauto.
Qed.

Lemma binary_index : forall m l s f i inplace,
  wbits (e_width E) <= e_int E -> wf E m -> wf_strs E (m_heap m) -> str_at (m_heap m) l s -> denotes E f i ->
  runs (binary E T powf (PStr l) BArray (PNum f) inplace) m (fun r m' =>
    match py_index s i with
    | Some c => string_result E m [c] r m'
    | None => r = PNull /\ reported (EValue (PNum f)) m m' /\ m_heap m' = m_heap m /\ stack_kept m m'
    end).
Proof.
  intros m l s f i ip Hw W Ws Hs Hf. unfold binary. holds.
  apply runs_result.
  - cbn [array_op]. apply runs_bind. eexists _, _. split; [reflexivity|]. apply get_str_runs; auto.
  - intros r m'. destruct (py_index s i); [apply string_result_valid | intros [-> _]; reflexivity].
Qed.

Lemma binary_times : forall m l s f n inplace,
  wf E m -> wf_strs E (m_heap m) -> str_at (m_heap m) l s -> denotes E f n -> 0 <= n ->
  fits_str (e_width E) (Z.of_nat (length s) * n) -> e_move E (m_nalloc m) = false ->
  runs (binary E T powf (PStr l) (BNum Ntimes) (PNum f) inplace) m (string_result E m (concat (repeat s (Z.to_nat n)))) /\
  runs (binary E T powf (PNum f) (BNum Ntimes) (PStr l) inplace) m (string_result E m (concat (repeat s (Z.to_nat n)))).
Proof.
  intros m l s f n ip W Ws Hs [Hf Hr] Hn Hfit Hmv.
  assert (K : runs (let* ha := hold (PStr l) in let* hb := hold (PNum f) in
      let* r := times_op E (PStr l) (PNum f) in
      if is_invalid r then let* a := use ha in let* b := use hb in error (EType2 a b);; ret PNull else ret r) m
      (string_result E m (concat (repeat s (Z.to_nat n))))).
  { holds. apply runs_result; [| apply string_result_valid]. unfold times_op. apply runs_bind. exists n, m.
    split; [apply get_soffset_runs; eauto|]. destruct (Z.ltb_spec n 0); [lia|].
    apply runs_bind. eexists _, _. split; [reflexivity|]. apply times_str_runs; auto. }
  split; exact K.
Qed.

Lemma binary_times_moved : forall m l s f n inplace,
  wf_strs E (m_heap m) -> str_at (m_heap m) l s -> denotes E f n -> 0 < n ->
  e_move E (m_nalloc m) = true -> e_fail E (m_nalloc m) = false ->
  size_round (e_width E) (u_of (e_width E) (Z.of_nat (length s) * n + 1)) <= e_pool E ->
  binary E T powf (PStr l) (BNum Ntimes) (PNum f) inplace m = None.
Proof.
  intros m l s f n ip Ws Hs [Hf Hr] Hn Hmv Hfl Hp. unfold binary. cbn [other_op]. unfold times_op, bind at 1 2 3, hold.
  unfold bind at 1. rewrite (get_soffset_runs E (PNum f) n m) by eauto. destruct (Z.ltb_spec n 0); [lia|].
  unfold bind at 1, poly_to_str, here. rewrite (times_str_moved E m l s n); auto.
Qed.

Lemma binary_times_negative : forall m p f n inplace, (forall g, p <> PNum g) ->
  denotes E f n -> n < 0 -> binary E T powf p (BNum Ntimes) (PNum f) inplace m = Some (PNull, m).
Proof.
  intros m p f n ip Hp [Hf Hr] Hn. unfold binary.
  destruct p as [g| | | | |]; try (exfalso; exact (Hp g eq_refl));
    cbn [other_op]; unfold times_op, bind at 1 2 3, hold; unfold bind at 1; rewrite (get_soffset_runs E (PNum f) n m) by eauto;
    (destruct (Z.ltb_spec n 0); [|lia]); reflexivity.
Qed.

(** Lists, through snek_binary *)
Definition seq_result (m : mach) (k : lkind) (xs : list poly) (r : poly) (m' : mach) : Prop :=
  wf E m' /\ stack_kept m m' /\ heap_kept (m_heap m) (m_heap m') /\
  ((exists l, r = PList l /\ quiet m m' /\ seq_at (m_heap m') l k xs /\
              ((length (m_heap m) <= l)%nat \/ (k = KTuple /\ xs = []))) \/
   (r = PNull /\ oom E (Z.of_nat (length xs)) m m')).
Lemma seq_result_valid : forall m k xs r m', seq_result m k xs r m' -> is_invalid r = false.
Proof. intros m k xs r m' (_ & _ & _ & [(l & -> & _)|(-> & _)]); reflexivity. Qed.

Lemma binary_plus : forall m la lb k xs ys inplace,
  roomy E -> wf E m -> room E 3 m -> k <> KDict -> (inplace = false \/ k = KTuple) ->
  seq_at (m_heap m) la k xs -> seq_at (m_heap m) lb k ys ->
  runs (binary E T powf (PList la) (BNum Nplus) (PList lb) inplace) m (seq_result m k (xs ++ ys)).
Proof.
  intros m la lb k xs ys ip R W Hroom Hk Hip Ha Hb. unfold binary. holds.
  apply runs_result; [| apply seq_result_valid]. cbn [other_op plus_op].
  apply runs_bind. eexists _, _. split; [reflexivity|]. apply runs_bind. eexists _, _. split; [reflexivity|].
  pose proof Ha as (oa & Hoa & Hka & Hxa). pose proof Hb as (ob & Hob & Hkb & Hxb).
  eapply runs_deref; [reflexivity | exact Hoa|]. eapply runs_deref; [reflexivity | exact Hob|].
  rewrite Hka, Hkb. replace (lkind_eqb k k) with true by (destruct k; reflexivity).
  replace (lkind_eqb k KDict) with false by (destruct k; first [reflexivity | congruence]). cbn [negb andb].
  replace (ip && negb (readonly k)) with false by (destruct Hip; subst; [reflexivity | destruct ip; reflexivity]).
  eapply runs_step; [apply plus_new with (k := k); eauto|].
  intros r m' (W' & Hst & Hh & Hr). destruct r as [[l ep]|].
  - destruct Hr as (Q & -> & Hs & Hl). exists (PList l), m'. split.
    { unfold list_to_poly. cbn [fst snd]. rewrite Nat.eqb_refl. reflexivity. }
    repeat (split; [assumption|]). left. exists l. auto.
  - exists PNull, m'. split; [reflexivity|]. repeat (split; [assumption|]). right. auto.
Qed.

Lemma binary_append : forall m la lb xs ys,
  roomy E -> wf E m -> room E 2 m -> seq_at (m_heap m) la KList xs -> seq_at (m_heap m) lb KList ys ->
  runs (binary E T powf (PList la) (BNum Nplus) (PList lb) true) m (fun r m' =>
    wf E m' /\ stack_kept m m' /\
    ((r = PList la /\ quiet m m' /\ others_kept (Some la) (m_heap m) (m_heap m') /\ seq_at (m_heap m') la KList (xs ++ ys)) \/
     (r = PNull /\ oom E (Z.of_nat (length (xs ++ ys))) m m' /\ heap_kept (m_heap m) (m_heap m')))).
Proof.
  intros m la lb xs ys R W Hroom Ha Hb. unfold binary. holds.
  apply runs_result; [| intros r m' (_ & _ & [(-> & _)|(-> & _)]); reflexivity]. cbn [other_op plus_op].
  apply runs_bind. eexists _, _. split; [reflexivity|]. apply runs_bind. eexists _, _. split; [reflexivity|].
  pose proof Ha as (oa & Hoa & Hka & Hxa). pose proof Hb as (ob & Hob & Hkb & Hxb).
  eapply runs_deref; [reflexivity | exact Hoa|]. eapply runs_deref; [reflexivity | exact Hob|].
  rewrite Hka, Hkb. change (lkind_eqb KList KList) with true. change (lkind_eqb KList KDict) with false.
  change (readonly KList) with false. cbn [negb andb].
  eapply runs_step; [apply append_inplace; eauto|].
  intros r m' (W' & Hst & Hr). destruct r as [[l ep]|].
  - destruct Hr as ([= -> ->] & Q & Ho & Hs). exists (PList la), m'. split.
    { unfold list_to_poly. cbn [fst snd]. rewrite Nat.eqb_refl. reflexivity. }
    repeat (split; [assumption|]). left. auto.
  - exists PNull, m'. split; [reflexivity|]. repeat (split; [assumption|]). right. split; [reflexivity | exact Hr].
Qed.

Lemma binary_list_times : forall m l k xs f n inplace,
  wf E m -> room E 2 m -> k <> KDict -> seq_at (m_heap m) l k xs -> denotes E f n -> 0 <= n ->
  fits (e_width E) (Z.of_nat (length xs) * n) ->
  runs (binary E T powf (PList l) (BNum Ntimes) (PNum f) inplace) m (seq_result m k (concat (repeat xs (Z.to_nat n)))) /\
  runs (binary E T powf (PNum f) (BNum Ntimes) (PList l) inplace) m (seq_result m k (concat (repeat xs (Z.to_nat n)))).
Proof.
  intros m l k xs f n ip W Hroom Hk Hs [Hf Hr] Hn Hfit.
  assert (K : runs (let* ha := hold (PList l) in let* hb := hold (PNum f) in
      let* r := times_op E (PList l) (PNum f) in
      if is_invalid r then let* a := use ha in let* b := use hb in error (EType2 a b);; ret PNull else ret r) m
      (seq_result m k (concat (repeat xs (Z.to_nat n))))).
  { holds. apply runs_result; [| apply seq_result_valid]. unfold times_op. apply runs_bind. exists n, m.
    split; [apply get_soffset_runs; eauto|]. destruct (Z.ltb_spec n 0); [lia|].
    apply runs_bind. eexists _, _. split; [reflexivity|].
    pose proof Hs as (o & Ho & Hko & Hx). eapply runs_deref; [reflexivity | exact Ho|].
    rewrite Hko. replace (lkind_eqb k KDict) with false by (destruct k; first [reflexivity | congruence]). cbn [negb].
    eapply runs_step; [apply times_new with (k := k) (xs := xs); eauto|].
    { rewrite Z.max_r by lia. exact Hfit. }
    cbv zeta. intros r m' (W' & Hst & Hh & Hr'). destruct r as [[l' ep]|].
    - destruct Hr' as (Q & -> & Hs' & Hl). exists (PList l'), m'. split.
      { unfold list_to_poly. cbn [fst snd]. rewrite Nat.eqb_refl. reflexivity. }
      repeat (split; [assumption|]). left. exists l'. auto.
    - exists PNull, m'. split; [reflexivity|]. repeat (split; [assumption|]). right. auto. }
  split; exact K.
Qed.

(** ** Membership *)
Lemma scan1 : forall m l o x v vs, wf E m -> nth_error (m_heap m) l = Some (OList o) ->
  Forall2 (tree (m_heap m)) (elems o) vs -> tree (m_heap m) x v ->
  forall fuel i, (i <= length vs)%nat -> (length vs - i < fuel)%nat ->
  in_scan E fuel x (l, m_epoch m) (Z.of_nat i) 1 m = Some (existsb (fun w => poly_cmp v w =? 0) (skipn i vs), m).
Proof.
  intros m l o x v vs W Ho Hel Hx. pose proof (wf_heap _ _ W _ _ Ho) as [S1 S2 S3 _ _ _].
  assert (Hlen : length (elems o) = length vs) by (eapply Forall2_length; exact Hel).
  assert (Hsz : lo_size o = Z.of_nat (length vs)) by (rewrite <- Hlen; unfold elems; rewrite firstn_length; lia).
  assert (Hb : lo_alloc o + 2 < 2 ^ wbits (e_width E)).
  { destruct We as (_ & P & _). destruct (e_width E); cbn [wbits]; lia. }
  induction fuel as [|fuel IH]; intros i Hi Hf; [lia|]. cbn [in_scan]. unfold bind at 1.
  rewrite (deref_list_eq l (m_epoch m) m o eq_refl Ho), Hsz.
  destruct (Z.ltb_spec (Z.of_nat i) (Z.of_nat (length vs))) as [Hlt|Hge].
  - destruct (nth_error vs i) as [w|] eqn:Ew; [| apply nth_error_None in Ew; lia].
    destruct (Forall2_nth_r _ _ _ _ _ Hel _ _ Ew) as (p & Hp & Hpw).
    unfold bind at 1, nth_data, lift. rewrite Nat2Z.id.
    unfold elems in Hp. rewrite nth_error_firstn in Hp by lia. rewrite Hp.
    unfold ret at 1. cbv iota beta. unfold bind at 1, cmp. rewrite (hcmp_tree _ _ _ _ _ _ Hx Hpw (fuel_depth _ _ _ Hx)).
    rewrite (skipn_cons' _ _ _ _ Ew). cbn [existsb]. destruct (poly_cmp v w =? 0); [reflexivity|]. cbn [orb].
    rewrite u_of_small by lia. replace (Z.of_nat i + 1) with (Z.of_nat (S i)) by lia. apply IH; lia.
  - rewrite skipn_all2 by lia. reflexivity.
Qed.

Lemma keys_skipn : forall A (vs : list A) i w, nth_error vs (2 * i) = Some w -> (exists u, nth_error vs (S (2 * i)) = Some u) ->
  keys (skipn (2 * i) vs) = w :: keys (skipn (2 * S i) vs).
Proof.
  intros A vs i w Hw [u Hu]. rewrite (skipn_cons' _ _ _ _ Hw), (skipn_cons' _ _ _ _ Hu).
  replace (2 * S i)%nat with (S (S (2 * i))) by lia. reflexivity.
Qed.

Lemma scan2 : forall m l o x v vs n, wf E m -> nth_error (m_heap m) l = Some (OList o) -> length vs = (2 * n)%nat ->
  Forall2 (tree (m_heap m)) (elems o) vs -> tree (m_heap m) x v ->
  forall fuel i, (i <= n)%nat -> (n - i < fuel)%nat ->
  in_scan E fuel x (l, m_epoch m) (Z.of_nat (2 * i)) 2 m = Some (existsb (fun w => poly_cmp v w =? 0) (keys (skipn (2 * i) vs)), m).
Proof.
  intros m l o x v vs n W Ho Hn Hel Hx. pose proof (wf_heap _ _ W _ _ Ho) as [S1 S2 S3 _ _ _].
  assert (Hlen : length (elems o) = length vs) by (eapply Forall2_length; exact Hel).
  assert (Hsz : lo_size o = Z.of_nat (length vs)) by (rewrite <- Hlen; unfold elems; rewrite firstn_length; lia).
  assert (Hb : lo_alloc o + 2 < 2 ^ wbits (e_width E)).
  { destruct We as (_ & P & _). destruct (e_width E); cbn [wbits]; lia. }
  induction fuel as [|fuel IH]; intros i Hi Hf; [lia|]. cbn [in_scan]. unfold bind at 1.
  rewrite (deref_list_eq l (m_epoch m) m o eq_refl Ho), Hsz.
  destruct (Z.ltb_spec (Z.of_nat (2 * i)) (Z.of_nat (length vs))) as [Hlt|Hge].
  - destruct (nth_error vs (2 * i)) as [w|] eqn:Ew; [| apply nth_error_None in Ew; lia].
    destruct (nth_error vs (S (2 * i))) as [u|] eqn:Eu; [| apply nth_error_None in Eu; lia].
    destruct (Forall2_nth_r _ _ _ _ _ Hel _ _ Ew) as (p & Hp & Hpw).
    unfold bind at 1, nth_data, lift. rewrite Nat2Z.id.
    unfold elems in Hp. rewrite nth_error_firstn in Hp by lia. rewrite Hp.
    unfold ret at 1. cbv iota beta. unfold bind at 1, cmp. rewrite (hcmp_tree _ _ _ _ _ _ Hx Hpw (fuel_depth _ _ _ Hx)).
    rewrite (keys_skipn _ _ _ _ Ew) by eauto. cbn [existsb]. destruct (poly_cmp v w =? 0); [reflexivity|]. cbn [orb].
    rewrite u_of_small by lia. replace (Z.of_nat (2 * i) + 2) with (Z.of_nat (2 * S i)) by lia. apply IH; lia.
  - rewrite skipn_all2 by lia. reflexivity.
Qed.

Lemma items_incl : forall k (vs : list value) w, In w (items k vs) -> In w vs.
Proof.
  intros k vs w. destruct k; cbn [items]; auto. 
  assert (A : forall n vs, (length vs <= n)%nat -> In w (keys vs) -> In w vs).
  { clear. induction n as [|n IH]; intros vs Hn H; [destruct vs; [exact H | cbn in Hn; lia]|].
    destruct vs as [|a [|b vs]]; cbn [keys] in H; [exact H | contradiction|]. destruct H as [<-|H]; [left; reflexivity|].
    right; right. apply IH; [cbn in Hn; lia | exact H]. }
  apply (A (length vs)). lia.
Qed.

Lemma list_in_member : forall m l k vs x v, wf E m -> tree (m_heap m) (PList l) (VSeq k vs) -> tree (m_heap m) x v ->
  canonical v -> Forall canonical vs ->
  exists b, list_in E x (l, m_epoch m) m = Some (b, m) /\ (b = true <-> member v k vs).
Proof.
  intros m l k vs x v W Hl Hx Cv Cvs. apply tree_seq in Hl. destruct Hl as (l' & o & [= <-] & Ho & Hk & Hel).
  exists (existsb (fun w => poly_cmp v w =? 0) (items k vs)). split.
  - unfold list_in, bind at 1. rewrite (deref_list_eq l (m_epoch m) m o eq_refl Ho). rewrite Hk.
    assert (Hlen : length (elems o) = length vs) by (eapply Forall2_length; exact Hel).
    pose proof (wf_heap _ _ W _ _ Ho) as [S1 S2 S3 S4 S5 S6].
    assert (Hsz : Z.to_nat (lo_size o) = length vs) by (rewrite <- Hlen; unfold elems; rewrite firstn_length; lia).
    rewrite Hsz. destruct k; cbn [lkind_eqb items].
    + exact (scan1 m l o x v vs W Ho Hel Hx (S (length vs)) 0%nat ltac:(lia) ltac:(lia)).
    + exact (scan1 m l o x v vs W Ho Hel Hx (S (length vs)) 0%nat ltac:(lia) ltac:(lia)).
    + destruct (S6 Hk) as [[n Hn] _]. rewrite Hlen in Hn.
      exact (scan2 m l o x v vs n W Ho Hn Hel Hx (S (length vs)) 0%nat ltac:(lia) ltac:(lia)).
  - rewrite existsb_exists. unfold member. split; intros (w & Hw & H); exists w; (split; [exact Hw|]);
      (assert (Cw : canonical w) by (rewrite Forall_forall in Cvs; apply Cvs; eapply items_incl; exact Hw)).
    + apply Z.eqb_eq in H. apply (poly_cmp_eq v Cv w Cw). exact H.
    + apply Z.eqb_eq. apply (poly_cmp_eq v Cv w Cw). exact H.
Qed.

Lemma binary_in_list : forall m l k vs x v inplace, wf E m -> tree (m_heap m) (PList l) (VSeq k vs) -> tree (m_heap m) x v ->
  canonical v -> Forall canonical vs ->
  exists b, binary E T powf x BIn (PList l) inplace m = Some (bool_to_poly b, m) /\
            binary E T powf x BNotIn (PList l) inplace m = Some (bool_to_poly (negb b), m) /\
            (b = true <-> member v k vs).
Proof.
  intros m l k vs x v ip W Hl Hx Cv Cvs. destruct (list_in_member m l k vs x v W Hl Hx Cv Cvs) as (b & Hb & Hm).
  exists b. split; [| split; [| exact Hm]].
  - unfold binary. destruct x; cbn [other_op in_op]; unfold bind, hold, poly_to_list, here; rewrite Hb; destruct b; reflexivity.
  - unfold binary. destruct x; cbn [other_op in_op]; unfold bind, hold, poly_to_list, here; rewrite Hb; destruct b; reflexivity.
Qed.

Lemma starts_with_spec : forall a b, starts_with b a = true <-> exists post, b = a ++ post.
Proof.
  induction a as [|x a IH]; intros b.
  - destruct b; cbn; split; eauto.
  - destruct b as [|y b]; cbn [starts_with].
    + split; [discriminate | intros (post & [=])].
    + rewrite Bool.andb_true_iff, Z.eqb_eq, IH. split.
      * intros [-> (post & ->)]. exists post. reflexivity.
      * intros (post & [= -> ->]). eauto.
Qed.
Lemma strstr_spec : forall b a, strstr b a = true <-> substring a b.
Proof.
  induction b as [|y b IH]; intros a; cbn [strstr]; rewrite Bool.orb_true_iff, starts_with_spec.
  - unfold substring. split.
    + intros [(post & H)|H]; [|discriminate]. exists [], post. exact H.
    + intros (pre & post & H). destruct pre; [|discriminate]. left. exists post. exact H.
  - rewrite IH. unfold substring. split.
    + intros [(post & H)|(pre & post & ->)]; [exists [], post; exact H | exists (y :: pre), post; reflexivity].
    + intros ([|z pre] & post & H); [left; exists post; exact H | right]. injection H as -> ->. eauto.
Qed.

Lemma binary_in_str : forall m la lb sa sb inplace, str_at (m_heap m) la sa -> str_at (m_heap m) lb sb ->
  exists b, binary E T powf (PStr la) BIn (PStr lb) inplace m = Some (bool_to_poly b, m) /\
            binary E T powf (PStr la) BNotIn (PStr lb) inplace m = Some (bool_to_poly (negb b), m) /\
            (b = true <-> substring sa sb).
Proof.
  intros m la lb sa sb ip Ha Hb. exists (strstr sb sa). unfold str_at in *. split; [| split; [| apply strstr_spec]];
    unfold binary; cbn [other_op in_op]; unfold bind, hold, poly_to_str, here, deref_str, deref, bind; cbn [fst snd];
    rewrite Nat.eqb_refl, Hb; unfold ret; cbn [fst snd]; rewrite Nat.eqb_refl, Ha; destruct (strstr sb sa); reflexivity.
Qed.

Lemma binary_in_other : forall m a b op inplace, op = BIn \/ op = BNotIn ->
  (forall l, b <> PList l) -> (forall la lb, a = PStr la -> b <> PStr lb) -> (forall f g, a = PNum f -> b <> PNum g) ->
  binary E T powf a op b inplace m = Some (PNull, errored (EType2 a b) m).
Proof.
  intros m a b op ip Hop N1 N2 N3.
  assert (K : forall op, op = BIn \/ op = BNotIn -> runs (binary E T powf a op b ip) m (fun r m' => r = PNull /\ m' = errored (EType2 a b) m)).
  { clear op Hop. intros op Hop.
    assert (I : forall pos, in_op E a b pos m = Some (PInvalid, m)).
    { intros pos. unfold in_op. destruct b as [g|lb|lb|lb|u|u]; try reflexivity.
      - destruct a; try reflexivity. exfalso. eapply N2; reflexivity.
      - exfalso. eapply N1; reflexivity. }
    destruct Hop as [-> | ->]; unfold binary.
    - replace (match a with PNum _ => _ | _ => _ end) with (a, b) by (destruct a; reflexivity) || idtac.
      cbn [other_op]. eapply runs_invalid; [| reflexivity | split; reflexivity].
      destruct a; try apply I. destruct b; try apply I. exfalso. eapply N3; reflexivity.
    - cbn [other_op]. eapply runs_invalid; [| reflexivity | split; reflexivity].
      destruct a; try apply I. destruct b; try apply I. exfalso. eapply N3; reflexivity. }
  destruct (K op Hop) as (r & m' & H & -> & ->). exact H.
Qed.

(** x in y for two numbers is x. *)
Lemma binary_in_numbers : forall m f g inplace,
  binary E T powf (PNum f) BIn (PNum g) inplace m = Some (float_to_poly f, m) /\
  binary E T powf (PNum f) BNotIn (PNum g) inplace m = Some (float_to_poly f, m).
Proof. intros. split; reflexivity. Qed.

(** ** The format operator *)
Definition args_size (v : value) : Z := Z.of_nat (length (arguments v)).
Lemma binary_format : forall m l fmt p v N inplace,
  texts_ok T -> enough E N ->
  wf E m -> wf_strs E (m_heap m) -> room E (nesting v + 4) m -> str_at (m_heap m) l fmt -> fmt <> [] ->
  wf_poly (m_heap m) p -> tree (m_heap m) p v ->
  (exists t, rendered E T (pieces fmt) (arguments v) t) ->
  (forall t, rendered E T (pieces fmt) (arguments v) t -> (length t <= N)%nat) ->
  ((forall n, e_move E n = false) \/ (plain (pieces fmt) (arguments v) /\ matched (pieces fmt) (arguments v))) ->
  runs (binary E T powf (PStr l) (BNum Nmod) p inplace) m (fun r m' =>
    wf E m' /\ stack_kept m m' /\ heap_kept (m_heap m) (m_heap m') /\
    ((matched (pieces fmt) (arguments v) /\ quiet m m' /\
      exists l' t, r = PStr l' /\ str_at (m_heap m') l' t /\ rendered E T (pieces fmt) (arguments v) t) \/
     (~ matched (pieces fmt) (arguments v) /\ r = PNull /\ reported (EType2 (PStr l) p) m m'))).
Proof.
  intros m l fmt p v N ip Tok Hen W Ws R Hs Hne Hwp Hp Hex Hb Hst. rewrite nesting_depth in R.
  assert (Hsize : exists is_list size, size = args_size v /\
    is_list = (match v with VSeq KDict _ => false | VSeq _ _ => true | _ => false end) /\
    size + 1 < 2 ^ wbits (e_width E) /\
    (match p with
     | PList _ => let* l := poly_to_list p in let* lo := deref_list l in
         ret (if lkind_eqb (lo_kind lo) KDict then (false, 1) else (true, lo_size lo))
     | _ => ret (false, 1)
     end) m = Some ((is_list, size), m)).
  { assert (P1 : 1 + 1 < 2 ^ wbits (e_width E)) by (pose proof (pow_wbits (e_width E)); lia).
    destruct v as [f|sv|k vs|u|u].
    - exists false, 1. cbn in Hp. subst p. split; [reflexivity|]. split; [reflexivity|]. split; [exact P1 | reflexivity].
    - exists false, 1. destruct Hp as (lp & -> & _). split; [reflexivity|]. split; [reflexivity|]. split; [exact P1 | reflexivity].
    - apply tree_seq in Hp. destruct Hp as (lp & o & -> & Ho & Hk & Hel).
      assert (D : (let* l := poly_to_list (PList lp) in let* lo := deref_list l in
         ret (if lkind_eqb (lo_kind lo) KDict then (false, 1) else (true, lo_size lo))) m =
         Some (if lkind_eqb k KDict then (false, 1) else (true, lo_size o), m)).
      { unfold bind at 1, poly_to_list, here. unfold bind. rewrite (deref_list_eq lp (m_epoch m) m o eq_refl Ho), Hk. reflexivity. }
      pose proof (wf_heap _ _ W _ _ Ho) as [S1 S2 S3 _ _ _].
      assert (Hlen : length (elems o) = length vs) by (eapply Forall2_length; exact Hel).
      assert (Hsz : lo_size o = Z.of_nat (length vs)) by (rewrite <- Hlen; unfold elems; rewrite firstn_length; lia).
      assert (P2 : lo_size o + 1 < 2 ^ wbits (e_width E)).
      { destruct We as (P0 & P & _). destruct (e_width E); cbn [wbits]; lia. }
      destruct k; [exists true, (lo_size o) | exists true, (lo_size o) | exists false, 1];
        (split; [unfold args_size; cbn [arguments length]; try exact Hsz; reflexivity|]); (split; [reflexivity|]); (split; [assumption | exact D]).
    - exists false, 1. destruct Hp as (lp & -> & _). split; [reflexivity|]. split; [reflexivity|]. split; [exact P1 | reflexivity].
    - exists false, 1. cbn in Hp. subst p. split; [reflexivity|]. split; [reflexivity|]. split; [exact P1 | reflexivity]. }
  destruct Hsize as (is_list & size & Hsz & Hil & Hsb & Hd).
  assert (Lp : runs (string_interpolate E T (l, m_epoch m) p) m (fun r m' =>
    exists t, rendered E T (pieces fmt) (arguments v) t /\ fine E m m' /\
      ((matched (pieces fmt) (arguments v) /\ exists l', r = PStr l' /\ str_at (m_heap m') l' t) \/
       (~ matched (pieces fmt) (arguments v) /\ r = PInvalid)))).
  { unfold string_interpolate. apply runs_bind. eexists _, _. split; [exact Hd|]. cbn beta iota.
    eapply runs_deref_str; [reflexivity | exact Hs|].
    eapply runs_step.
    { apply (interp_ok E T N We Tok Hen l fmt p v is_list size Hsz Hil (S (length fmt)) m 0 0 (arguments v) None []); auto.
      - lia. - lia. - right. exists 0%nat. split; [reflexivity|]. split; [lia | reflexivity]. - reflexivity.
      - cbn [skipn]. destruct Hst as [St|[St _]]; auto. }
    cbn [skipn app]. intros [o r] m' (t & Ht & F & Hr & Hnn & Hf1 & Hf2). cbn [fst snd] in *.
    destruct fmt as [|c fmt]; [congruence|]. specialize (Hnn (or_introl (Nat.lt_0_succ _))).
    destruct r as [[l' ep]|]; [|congruence]. destruct Hr as [-> Hr].
    assert (Dec : matched (pieces (c :: fmt)) (arguments v) <-> o = size).
    { unfold matched. rewrite Hsz in *. unfold args_size in *. split.
      - intros [M1 M2]. rewrite Hf2; [lia | lia | exact M1 | lia].
      - intros Ho. assert (Ns : ~ In Stray (pieces (c :: fmt))) by (intros Hin; rewrite Hf1 in Ho; [lia | auto]).
        split; [exact Ns|]. destruct (le_lt_dec (length (convs (pieces (c :: fmt)))) (length (arguments v))) as [Le|Lt].
        + rewrite Hf2 in Ho; [lia | lia | exact Ns | exact Le].
        + rewrite Hf1 in Ho; [lia | auto]. }
    destruct (Z.eqb_spec o size) as [Eo|No]; cbn [negb].
    - apply runs_str_to_poly; [reflexivity|]. exists t. split; [exact Ht|]. split; [exact F|]. left. split; [apply Dec; exact Eo|]. eauto.
    - apply runs_ret. exists t. split; [exact Ht|]. split; [exact F|]. right. split; [rewrite Dec; exact No | reflexivity]. }
  destruct Lp as (r & m' & Hr & t & Ht & (W' & Ws' & F & Q & Ep) & [(Mt & l' & -> & Hl')|(Nm & ->)]).
  - assert (Eq : binary E T powf (PStr l) (BNum Nmod) p ip m = Some (PStr l', m')).
    { unfold binary. replace (match p with PNum _ => _ | _ => _ end) with (other_op E T (PStr l) (BNum Nmod) p ip) by (destruct p; reflexivity) || idtac.
      cbn [other_op]. unfold bind at 1 2 3, hold. unfold bind at 1, poly_to_str, here. rewrite Hr. reflexivity. }
    exists (PStr l'), m'. split; [exact Eq|]. split; [exact W'|]. split; [destruct F; split; assumption|].
    split; [apply kept_others; apply F|]. left. split; [exact Mt|]. split; [exact Q|]. exists l', t. auto.
  - assert (St : forall n, e_move E n = false) by (destruct Hst as [St|[_ Mt]]; [exact St | contradiction]).
    assert (Eq : binary E T powf (PStr l) (BNum Nmod) p ip m = Some (PNull, errored (EType2 (PStr l) p) m')).
    { assert (K : runs (binary E T powf (PStr l) (BNum Nmod) p ip) m (fun r m2 => r = PNull /\ m2 = errored (EType2 (PStr l) p) m')).
      { unfold binary. cbn [other_op]. eapply runs_invalid; [| exact (Ep St) | split; reflexivity].
        unfold bind, poly_to_str, here. exact Hr. }
      destruct K as (r & m2 & K & -> & ->). exact K. }
    exists PNull, (errored (EType2 (PStr l) p) m'). split; [exact Eq|].
    split; [apply errored_wf; exact W'|]. 
    split; [destruct F; split; unfold errored; destruct (m_abort m'); assumption|].
    split; [replace (m_heap (errored (EType2 (PStr l) p) m')) with (m_heap m') by (unfold errored; destruct (m_abort m'); reflexivity); apply kept_others; apply F|].
    right. split; [exact Nm|]. split; [reflexivity|]. destruct (errored_reported (EType2 (PStr l) p) m') as [A B]. destruct Q as [Q1 Q2]. split; [exact A | rewrite B, Q1, Q2; reflexivity].
Qed.

(** The empty format string, and %d of a number outside int. *)
Lemma binary_format_empty : forall m l p inplace, str_at (m_heap m) l [] -> tree (m_heap m) p (VSeq KTuple []) ->
  wf E m -> binary E T powf (PStr l) (BNum Nmod) p inplace m = Some (PNull, m).
Proof.
  intros m l p ip Hs Hp W. apply tree_seq in Hp. destruct Hp as (lp & o & -> & Ho & Hk & Hel).
  assert (Hsz : lo_size o = 0).
  { pose proof (wf_heap _ _ W _ _ Ho) as [S1 S2 S3 _ _ _]. inversion Hel as [He|]. symmetry in He.
    assert (length (elems o) = 0%nat) by (rewrite He; reflexivity). unfold elems in H. rewrite firstn_length in H. lia. }
  unfold str_at in Hs. unfold binary. cbn [other_op]. unfold bind at 1 2 3, hold. unfold bind at 1, poly_to_str, here.
  unfold string_interpolate, bind at 1, poly_to_list, here. unfold bind at 1.
  unfold bind at 1. rewrite (deref_list_eq lp (m_epoch m) m o eq_refl Ho), Hk, Hsz. cbn [lkind_eqb lkind_code Z.eqb Pos.eqb]. unfold ret at 1. cbv iota beta.
  assert (Hd : deref_str (l, m_epoch m) m = Some ([], m)).
  { unfold deref_str, deref, bind. cbn [fst snd]. rewrite Nat.eqb_refl, Hs. reflexivity. }
  unfold bind at 1. rewrite Hd. cbn [length interp_loop]. unfold bind at 1 2. rewrite Hd. reflexivity.
Qed.
End Ops.
