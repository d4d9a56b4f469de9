(** snek-list.c: dictionaries (ListModel.v): store, delete, look up. *)
From Verif Require Import Tac Base FloatModel PolyModel ValueModel OrderSpec OrderProofs SliceModel SliceSpec SliceProofs MachModel ListModel MachSpec ListSpec MachProofs FrameProofs ListProofs ListProofs2 ListProofs3 DictProofs.
Local Open Scope Z_scope.
Open Scope mach_scope.

Definition hit (h : list obj) (kvs : list (poly * poly)) (p : poly) (c : nat) (kv : poly * poly) : Prop :=
  nth_error kvs c = Some kv /\ cz h p (fst kv) 0.
Definition miss (h : list obj) (kvs : list (poly * poly)) (p : poly) (c : nat) : Prop :=
  c = length kvs \/ exists kv d, nth_error kvs c = Some kv /\ cz h p (fst kv) d /\ d <> 0.

(** Making room for a new key. *)
Definition insert (E : env) (list : ptr) (p : poly) (size o : Z) : M (option eref) :=
  push E p;;
  let* l := list_resize E list (u_of (e_width E) (size + 2)) in
  let* p := pop in
  match l with
  | None => ret None
  | Some list => open_gap list o p;; ret (Some (list, Z.to_nat (o + 1)))
  end.

Lemma dict_size : forall E m l kvs, wf E m -> dict_at (m_heap m) l kvs ->
  exists o, nth_error (m_heap m) l = Some (OList o) /\ lo_kind o = KDict /\ elems o = flat kvs /\ shape E o /\
            lo_size o = 2 * Z.of_nat (length kvs).
Proof.
  intros E m l kvs W (o & Ho & Hk & He). exists o. assert (Sh := wf_list_shape _ _ _ _ (wf_heap _ _ W _ _ Ho)).
  repeat split; auto; try apply Sh. rewrite (length_elems_of _ _ _ _ _ W Ho He), flat_length. lia.
Qed.

(** Looking a key up leads to one of these three. *)
Lemma ref_dict_cases : forall E m l kvs p report add,
  wf E m -> wf_env E -> dict_at (m_heap m) l kvs -> wf_poly (m_heap m) p ->
  exists c, rank (m_heap m) kvs p 0 (length kvs) c /\
    ((exists kv, hit (m_heap m) kvs p c kv /\
        list_ref_ E (l, m_epoch m) p report add m = Some (Some ((l, m_epoch m), (2 * c + 1)%nat), m)) \/
     (miss (m_heap m) kvs p c /\
        list_ref_ E (l, m_epoch m) p report add m =
        (if negb add then fail_ref report p
         else let* mt := mutable p in
              if (mt : bool) then fail_ref report p
              else insert E (l, m_epoch m) p (2 * Z.of_nat (length kvs)) (2 * Z.of_nat c)) m)).
Proof.
  intros E m l kvs p report add W We Hd Hp. destruct (dict_size _ _ _ _ W Hd) as (o & Ho & Hk & He & Sh & Hs).
  assert (Hf := dict_keys_frozen _ _ _ _ W Hd). rewrite Forall_forall in Hf.
  destruct (search_runs E m o p kvs He Sh We) with (fuel := S (Z.to_nat (lo_size o))) (a := 0%nat) (b := length kvs)
    as (r & m' & Hr & -> & c & -> & Hc); try lia.
  { intros kv Hin. eapply cz_def; eauto. }
  exists c. split; [exact Hc|]. destruct Hc as (Hc & _ & _).
  rewrite <- Hs in Hr. change (2 * Z.of_nat 0) with 0 in Hr.
  assert (Hb : forall A B (x : M A) (f : A -> M B) a m1, x m = Some (a, m1) -> bind x f m = f a m1)
    by (intros A B x f a m1 Hx; unfold bind; rewrite Hx; reflexivity).
  assert (Hu : forall b, (if lo_size o <=? 2 * Z.of_nat c then ret true
                 else let* k := nth_data o (2 * Z.of_nat c) in let* d := cmp p k false in ret (negb (d =? 0))) m = Some (b, m) ->
    list_ref_ E (l, m_epoch m) p report add m =
    (if (b : bool) then
       if negb add then fail_ref report p
       else let* mt := mutable p in
            if (mt : bool) then fail_ref report p
            else insert E (l, m_epoch m) p (2 * Z.of_nat (length kvs)) (2 * Z.of_nat c)
     else ret (Some ((l, m_epoch m), Z.to_nat (2 * Z.of_nat c + 1)))) m).
  { intros b Hbm. unfold list_ref_. rewrite (Hb _ _ _ _ _ _ (deref_list_eq l (m_epoch m) m o eq_refl Ho)). rewrite Hk.
    change (lkind_eqb KDict KDict) with true. cbv iota. rewrite (Hb _ _ _ _ _ _ Hr), (Hb _ _ _ _ _ _ Hbm), Hs. reflexivity. }
  rewrite Hs in Hu.
  destruct (Z.leb_spec (2 * Z.of_nat (length kvs)) (2 * Z.of_nat c)) as [Hle|Hgt].
  - right. split; [left; lia | apply (Hu true); reflexivity].
  - destruct (nth_error kvs c) as [kv|] eqn:Ekv; [| apply nth_error_None in Ekv; lia].
    destruct (cz_def_r E m (fst kv) p W (Hf kv (nth_error_In _ _ Ekv)) Hp) as (d & Hdz).
    assert (Hn : nth_error (lo_data o) (Z.to_nat (2 * Z.of_nat c)) = Some (fst kv)).
    { replace (Z.to_nat (2 * Z.of_nat c)) with (2 * c)%nat by lia.
      rewrite <- (nth_error_firstn _ (lo_data o) (Z.to_nat (lo_size o))) by lia.
      fold (elems o). rewrite He, flat_key, Ekv. reflexivity. }
    assert (Hmiss : (let* k := nth_data o (2 * Z.of_nat c) in let* d := cmp p k false in ret (negb (d =? 0))) m
                    = Some (negb (d =? 0), m)).
    { unfold nth_data. rewrite Hn. unfold lift, bind, ret at 1. rewrite (cmp_eq _ _ _ _ Hdz). reflexivity. }
    apply Hu in Hmiss. destruct (Z.eqb_spec d 0) as [->|Nd]; cbn [negb] in Hmiss.
    + left. exists kv. split; [split; assumption|]. rewrite Hmiss. unfold ret. do 3 f_equal. f_equal. lia.
    + right. split; [right; eauto | exact Hmiss].
Qed.

(** The state between making room and storing the value: an arbitrary word
    stands where the value will be. *)
Definition gapped (E : env) (m : mach) (l : loc) (kvs : list (poly * poly)) (p : poly) (c : nat) (m' : mach) : Prop :=
  frame (Some l) m m' /\ length (m_heap m') = length (m_heap m) /\ quiet m m' /\
  exists o x, nth_error (m_heap m') l = Some (OList o) /\ shape E o /\ lo_kind o = KDict /\
    elems o = flat (firstn c kvs) ++ p :: x :: flat (skipn c kvs).

Lemma insert_runs : forall E m l kvs p c,
  wf E m -> wf_env E -> room E 2 m -> dict_at (m_heap m) l kvs -> wf_poly (m_heap m) p -> (c <= length kvs)%nat ->
  fits (e_width E) (2 * Z.of_nat (length kvs) + 2) ->
  runs (insert E (l, m_epoch m) p (2 * Z.of_nat (length kvs)) (2 * Z.of_nat c)) m (fun r m' =>
    match r with
    | None => wf E m' /\ frame None m m' /\ length (m_heap m') = length (m_heap m) /\
              oom E (2 * Z.of_nat (length kvs) + 2) m m'
    | Some r => r = ((l, m_epoch m'), (2 * c + 1)%nat) /\ gapped E m l kvs p c m'
    end).
Proof.
  intros E m l kvs p c W We Hroom Hd Hp Hc Hfit. destruct (dict_size _ _ _ _ W Hd) as (o & Ho & Hk & He & Sh & Hs).
  assert (Hst : length (m_stack m) = e_stack E) by apply W. unfold room in Hroom.
  assert (Hnw : u_of (e_width E) (2 * Z.of_nat (length kvs) + 2) = 2 * Z.of_nat (length kvs) + 2).
  { apply u_of_small. unfold fits in Hfit. lia. }
  unfold insert. rewrite Hnw. apply runs_push; [unfold room; lia|].
  eapply runs_step.
  { eapply resize_runs with (m := pushed p m); eauto.
    - unfold stack_ok. cbn. rewrite upd_length. exact Hst.
    - unfold room. cbn. lia.
    - lia. }
  intros r m1 (L & Em & Hr).
  assert (F0 : frame (Some l) (pushed p m) m1) by (destruct r; [apply Hr | apply frame_weaken; apply Hr]).
  eapply runs_pop; [| exact F0 |]. { lia. }
  intros F1. destruct r as [q|].
  - destruct Hr as (F & -> & Hq & o' & Ho' & So' & Hk' & Hs' & Hf'). pose proof So' as [P1 P2 P3].
    set (n := length kvs) in *. set (m2 := popped m1) in *.
    assert (Ho2 : nth_error (m_heap m2) l = Some (OList o')) by exact Ho'.
    assert (Hlen : length (flat kvs) = (2 * n)%nat) by apply flat_length.
    rewrite Hs in Hf'. replace (Z.to_nat (2 * Z.of_nat n)) with (2 * n)%nat in Hf' by lia. rewrite He in Hf'.
    unfold open_gap. eapply runs_eq; [apply bind_assoc|]. eapply runs_deref; [reflexivity | exact Ho2|]. rewrite Hs'.
    replace (Z.to_nat (2 * Z.of_nat n + 2 - 2 * Z.of_nat c - 2)) with (length (flat (skipn c kvs)))
      by (rewrite flat_length, skipn_length; fold n; lia).
    replace (Z.to_nat (2 * Z.of_nat c)) with (2 * c)%nat by lia.
    replace (Z.to_nat (2 * Z.of_nat c + 2)) with (2 * c + 2)%nat by lia.
    replace (Z.to_nat (2 * Z.of_nat c + 1)) with (2 * c + 1)%nat by lia.
    assert (Ht : take (length (flat (skipn c kvs))) (skipn (2 * c) (lo_data o')) = Some (flat (skipn c kvs))).
    { rewrite take_some by (rewrite flat_length, !skipn_length; fold n; lia). f_equal.
      rewrite <- (firstn_skipn (2 * n) (lo_data o')), Hf', skipn_app, Hlen.
      replace (2 * c - 2 * n)%nat with 0%nat by lia. cbn [skipn]. rewrite <- flat_skipn. apply firstn_app_exact. }
    eapply runs_eq; [apply bind_assoc|]. eapply runs_lift_bind; [exact Ht|].
    eapply runs_eq; [apply bind_assoc|]. eapply runs_lift_bind; [apply blit_some; rewrite flat_length, skipn_length; fold n; lia|].
    set (d := firstn (2 * c + 2) (lo_data o') ++ flat (skipn c kvs) ++ skipn (2 * c + 2 + length (flat (skipn c kvs))) (lo_data o')).
    assert (Ld : length d = length (lo_data o')).
    { unfold d. rewrite !app_length, firstn_length, skipn_length, flat_length, skipn_length. fold n. lia. }
    eapply runs_eq; [apply bind_assoc|].
    eapply runs_lift_bind. { destruct (Nat.ltb_spec (2 * c) (length d)); [reflexivity | lia]. }
    apply runs_assign; [reflexivity | eapply nth_error_lt; eauto|]. apply runs_ret.
    split; [reflexivity|]. set (o2 := set_data o' (upd (2 * c) p d)).
    assert (Em2 : m_empty m2 = m_empty m) by exact Em.
    split; [apply frame_upd_after; assumption|]. cbn [set_heap m_heap]. rewrite upd_length.
    split; [exact L|]. split; [exact Hq|].
    destruct (nth_error (lo_data o') (2 * c + 1)) as [x|] eqn:Ex; [| apply nth_error_None in Ex; lia].
    exists o2, x. rewrite nth_upd_same by (eapply nth_error_lt; eauto). split; [reflexivity|].
    split; [apply shape_set_data; [exact So' | rewrite upd_length; exact Ld]|]. split; [cbn; congruence|].
    unfold elems, o2. cbn [set_data lo_size lo_data]. rewrite Hs'.
    replace (Z.to_nat (2 * Z.of_nat n + 2)) with (2 * n + 2)%nat by lia.
    assert (H2 : firstn (2 * c + 2) (lo_data o') = flat (firstn c kvs) ++ [nth (2 * c) (lo_data o') PZero; x]).
    { assert (A : firstn (2 * c) (lo_data o') = flat (firstn c kvs)).
      { rewrite flat_firstn, <- Hf', firstn_firstn. f_equal. lia. }
      rewrite <- A. clear -Ex. revert Ex. generalize (2 * c)%nat as i, (lo_data o') as y. intros i y. revert i.
      induction y as [|a y IH]; intros [|i] H; try discriminate.
      - destruct y as [|b y]; [discriminate|]. cbn in H. injection H as ->. reflexivity.
      - cbn [Nat.add firstn app nth]. f_equal. apply IH. exact H. }
    unfold d. rewrite H2. rewrite <- !app_assoc. cbn [app].
    assert (Lc : length (flat (firstn c kvs)) = (2 * c)%nat) by (rewrite flat_length, firstn_length; fold n; lia).
    rewrite <- Lc at 1. rewrite upd_app.
    replace (2 * n + 2)%nat with (length (flat (firstn c kvs) ++ p :: x :: flat (skipn c kvs))).
    2: { rewrite app_length. cbn [length]. rewrite !flat_length, firstn_length, skipn_length. fold n. lia. }
    change (p :: x :: flat (skipn c kvs) ++ ?t) with ((p :: x :: flat (skipn c kvs)) ++ t).
    rewrite app_assoc. apply firstn_app_exact.
  - apply runs_ret. destruct Hr as (F & Hrep).
    assert (F2 : frame None m (popped m1)) by (eapply frame_popped; [| exact F]; lia).
    split; [| split; [exact F2 | split; [exact L | exact Hrep]]].
    eapply wf_fresh; [exact W | exact F2 | left; exact L].
Qed.

(** Dictionaries keep being well formed when their pairs are replaced. *)
Lemma wf_dict_changed : forall E m m' l kvs kvs' o', wf E m -> frame (Some l) m m' -> length (m_heap m') = length (m_heap m) ->
  dict_at (m_heap m) l kvs -> nth_error (m_heap m') l = Some (OList o') -> shape E o' -> lo_kind o' = KDict ->
  elems o' = flat kvs' -> Forall (wf_poly (m_heap m)) (flat kvs') -> Forall (fun kv => frozen_at (m_heap m) (fst kv)) kvs' ->
  wf E m' /\ dict_at (m_heap m') l kvs'.
Proof.
  intros E m m' l kvs kvs' o' W F L (o & Ho & Hk & He) Ho' So' Hk' He' Hw Hf.
  split; [| exists o'; auto]. eapply wf_changed; eauto; try congruence.
  intros G. destruct So' as [A B C]. split; auto.
  - rewrite He'. eapply Forall_wf_grows; eauto.
  - congruence.
  - intros _. rewrite He'. split; [exists (length kvs'); apply flat_length|].
    rewrite flat_keys, Forall_map. eapply Forall_impl; [| exact Hf]. intros kv. apply frozen_at_grows. exact G.
Qed.

Lemma Forall_flat : forall A (P : A -> Prop) kvs, Forall P (flat kvs) <-> Forall (fun kv => P (fst kv) /\ P (snd kv)) kvs.
Proof.
  induction kvs as [|[k v] r IH]; cbn [flat]; split; intros H; auto.
  - inversion H as [|? ? H1 H2]; subst. inversion H2; subst. constructor; [auto | apply IH; assumption].
  - inversion H as [|? ? [H1 H2] H3]; subst. constructor; [exact H1|]. constructor; [exact H2 | apply IH; assumption].
Qed.

Lemma store_runs : forall m l o j v, nth_error (m_heap m) l = Some (OList o) -> (j < length (lo_data o))%nat ->
  store ((l, m_epoch m), j) v m = Some (tt, set_heap (upd l (OList (set_data o (upd j v (lo_data o)))) (m_heap m)) m).
Proof.
  intros m l o j v Ho Hj. unfold store, bind. cbn [fst snd]. rewrite (deref_list_eq l (m_epoch m) m o eq_refl Ho).
  destruct (Nat.ltb_spec j (length (lo_data o))); [| lia]. apply assign_list_eq; [reflexivity | eapply nth_error_lt; eauto].
Qed.

Definition replaced (kvs : list (poly * poly)) (c : nat) (kv : poly * poly) := firstn c kvs ++ kv :: skipn (S c) kvs.
Definition inserted (kvs : list (poly * poly)) (c : nat) (kv : poly * poly) := firstn c kvs ++ kv :: skipn c kvs.
Definition removed (kvs : list (poly * poly)) (c : nat) := firstn c kvs ++ skipn (S c) kvs.

(** What storing [v] under [p] ends with. *)
Definition stored (E : env) (m : mach) (l : loc) (kvs' : list (poly * poly)) (m' : mach) : Prop :=
  wf E m' /\ frame (Some l) m m' /\ length (m_heap m') = length (m_heap m) /\ quiet m m' /\ dict_at (m_heap m') l kvs'.

Definition set_post (E : env) (m : mach) (l : loc) (kvs : list (poly * poly)) (p v : poly) (m' : mach) : Prop :=
  exists c, rank (m_heap m) kvs p 0 (length kvs) c /\
    ((exists kv, hit (m_heap m) kvs p c kv /\ stored E m l (replaced kvs c (fst kv, v)) m') \/
     (miss (m_heap m) kvs p c /\
       ((~ frozen_at (m_heap m) p /\ m' = errored (EValue p) m) \/
        (frozen_at (m_heap m) p /\
          ((wf E m' /\ frame None m m' /\ length (m_heap m') = length (m_heap m) /\ oom E (2 * Z.of_nat (length kvs) + 2) m m') \/
           stored E m l (inserted kvs c (p, v)) m'))))).

Lemma upd_flat_val : forall (kvs : list (poly * poly)) c kv v, nth_error kvs c = Some kv ->
  upd (2 * c + 1) v (flat kvs) = flat (replaced kvs c (fst kv, v)).
Proof.
  unfold replaced. induction kvs as [|[k x] r IH]; intros [|c] kv v H; try discriminate.
  - cbn in H. injection H as <-. reflexivity.
  - replace (2 * S c + 1)%nat with (S (S (2 * c + 1))) by lia. cbn [flat upd firstn skipn app]. do 2 f_equal. apply IH. exact H.
Qed.

Lemma flat_replaced : forall kvs c kv, flat (replaced kvs c kv) = flat (firstn c kvs) ++ fst kv :: snd kv :: flat (skipn (S c) kvs).
Proof. intros kvs c [k v]. unfold replaced. rewrite flat_app. reflexivity. Qed.
Lemma flat_inserted : forall kvs c kv, flat (inserted kvs c kv) = flat (firstn c kvs) ++ fst kv :: snd kv :: flat (skipn c kvs).
Proof. intros kvs c [k v]. unfold inserted. rewrite flat_app. reflexivity. Qed.

Lemma upd_app_r : forall A (a b : list A) n x, upd (length a + n) x (a ++ b) = a ++ upd n x b.
Proof. induction a as [|y a IH]; intros b n x; cbn; [reflexivity|]. f_equal. apply IH. Qed.

Lemma assign_dict_runs : forall E m l kvs p v,
  wf E m -> wf_env E -> room E 2 m -> dict_at (m_heap m) l kvs -> wf_poly (m_heap m) p -> wf_poly (m_heap m) v ->
  fits (e_width E) (2 * Z.of_nat (length kvs) + 2) ->
  runs (elem_assign E (PList l) p v) m (fun _ m' => set_post E m l kvs p v m').
Proof.
  intros E m l kvs p v W We Hroom Hd Hp Hv Hfit. destruct (dict_size _ _ _ _ W Hd) as (o & Ho & Hk & He & Sh & Hs).
  unfold elem_assign, poly_to_list. eapply runs_bind. exists (l, m_epoch m), m. split; [reflexivity|].
  eapply runs_deref; [reflexivity | exact Ho|]. rewrite Hk. change (readonly KDict) with false. cbv iota.
  unfold list_ref. destruct (ref_dict_cases E m l kvs p true true W We Hd Hp) as (c & Hrank & Hc).
  pose proof Hrank as (Hcl & _).
  assert (Hfr := dict_keys_frozen _ _ _ _ W Hd). assert (Hwf := dict_wf _ _ _ _ W Hd).
  destruct Hc as [(kv & Hhit & Hr)|(Hmiss & Hr)].
  - eapply runs_bind. eexists _, _. split; [exact Hr|]. cbv iota beta.
    pose proof Hhit as (Hkv & _). assert (Hcl' := nth_error_lt _ _ _ _ Hkv). pose proof Sh as [S1 S2 S3].
    eexists tt, _. split; [apply store_runs; [exact Ho | lia]|].
    exists c. split; [exact Hrank|]. left. exists kv. split; [exact Hhit|].
    set (o' := set_data o (upd (2 * c + 1) v (lo_data o))). set (m' := set_heap (upd l (OList o') (m_heap m)) m).
    assert (F := frame_upd l (OList o') m). fold m' in F.
    assert (L : length (m_heap m') = length (m_heap m)) by apply upd_length.
    assert (He' : elems o' = flat (replaced kvs c (fst kv, v))).
    { unfold elems, o'. cbn [set_data lo_size lo_data]. rewrite firstn_upd_in by lia. fold (elems o). rewrite He.
      apply upd_flat_val. exact Hkv. }
    destruct (wf_dict_changed E m m' l kvs (replaced kvs c (fst kv, v)) o') as [W' D']; auto.
    + cbn [m' set_heap m_heap]. apply nth_upd_same. eapply nth_error_lt; eauto.
    + apply shape_set_data; [exact Sh | apply upd_length].
    + apply Forall_flat. unfold replaced. apply Forall_flat in Hwf. apply Forall_app. split; [apply Forall_firstn; exact Hwf|].
      constructor; [| apply Forall_skipn; exact Hwf]. cbn. rewrite Forall_forall in Hwf.
      split; [apply (Hwf kv (nth_error_In _ _ Hkv)) | exact Hv].
    + unfold replaced. apply Forall_app. split; [apply Forall_firstn; exact Hfr|].
      constructor; [| apply Forall_skipn; exact Hfr]. cbn. rewrite Forall_forall in Hfr. apply (Hfr kv (nth_error_In _ _ Hkv)).
    + split; [exact W'|]. split; [exact F|]. split; [exact L|]. split; [split; reflexivity | exact D'].
  - cbn [negb] in Hr.
    destruct (mutable_runs E m p W Hp) as (b & Hb & Hbf).
    eapply runs_step with (P := fun r m1 =>
      match r with
      | None => (~ frozen_at (m_heap m) p /\ m1 = errored (EValue p) m) \/
                (frozen_at (m_heap m) p /\ wf E m1 /\ frame None m m1 /\ length (m_heap m1) = length (m_heap m) /\
                 oom E (2 * Z.of_nat (length kvs) + 2) m m1)
      | Some r => frozen_at (m_heap m) p /\ r = ((l, m_epoch m1), (2 * c + 1)%nat) /\ gapped E m l kvs p c m1
      end).
    { eapply runs_eq; [exact Hr|]. eapply runs_bind. exists b, m. split; [exact Hb|]. destruct b.
      - apply runs_error, runs_ret. left. split; [| reflexivity]. intros Hf. apply Hbf in Hf. discriminate.
      - eapply runs_mono; [apply insert_runs; eauto; lia|]. cbv beta. intros [r|] m1 H1.
        + split; [apply Hbf; reflexivity | exact H1].
        + right. split; [apply Hbf; reflexivity | exact H1]. }
    intros [r|] m1 H1.
    + destruct H1 as (Hfp & -> & F & L & Q & o1 & x & Ho1 & So1 & Hk1 & He1).
      assert (Hl1 := elems_length _ _ So1). rewrite He1, app_length in Hl1. cbn [length] in Hl1.
      rewrite !flat_length, firstn_length, skipn_length in Hl1. pose proof So1 as [T1 T2 T3].
      eexists tt, _. split; [apply store_runs; [exact Ho1 | lia]|].
      exists c. split; [exact Hrank|]. right. split; [exact Hmiss|]. right. split; [exact Hfp|]. right.
      set (o' := set_data o1 (upd (2 * c + 1) v (lo_data o1))).
      assert (Em1 : m_empty m1 = m_empty m).
      { destruct (fr_empty _ _ _ F) as [A|(A & l' & B & C & o2 & D & _)]; [exact A|].
        exfalso. apply nth_error_lt in D. lia. }
      assert (F' := frame_upd_after m m1 l (OList o') F Em1).
      set (m' := set_heap (upd l (OList o') (m_heap m1)) m1) in *.
      assert (L' : length (m_heap m') = length (m_heap m)) by (cbn [m' set_heap m_heap]; rewrite upd_length; exact L).
      assert (He' : elems o' = flat (inserted kvs c (p, v))).
      { unfold elems, o'. cbn [set_data lo_size lo_data]. rewrite firstn_upd_in by lia. fold (elems o1). rewrite He1.
        rewrite flat_inserted. cbn [fst snd].
        replace (2 * c + 1)%nat with (length (flat (firstn c kvs)) + 1)%nat by (rewrite flat_length, firstn_length; lia).
        rewrite upd_app_r. reflexivity. }
      destruct (wf_dict_changed E m m' l kvs (inserted kvs c (p, v)) o') as [W' D']; auto.
      * cbn [m' set_heap m_heap]. apply nth_upd_same. eapply nth_error_lt; eauto.
      * apply shape_set_data; [exact So1 | apply upd_length].
      * apply Forall_flat. unfold inserted. apply Forall_flat in Hwf. apply Forall_app. split; [apply Forall_firstn; exact Hwf|].
        constructor; [cbn; auto | apply Forall_skipn; exact Hwf].
      * unfold inserted. apply Forall_app. split; [apply Forall_firstn; exact Hfr|].
        constructor; [exact Hfp | apply Forall_skipn; exact Hfr].
      * split; [exact W'|]. split; [exact F'|]. split; [exact L'|]. split; [exact Q | exact D'].
    + apply runs_ret. exists c. split; [exact Hrank|]. right. split; [exact Hmiss|].
      destruct H1 as [H1|(Hfp & H1)]; [left; exact H1 | right; split; [exact Hfp | left; exact H1]].
Qed.

(** Deleting a key that is present. *)
Lemma del_dict_runs : forall E m l kvs p,
  wf E m -> wf_env E -> dict_at (m_heap m) l kvs -> wf_poly (m_heap m) p ->
  exists c, rank (m_heap m) kvs p 0 (length kvs) c /\
    (miss (m_heap m) kvs p c \/
     exists kv, hit (m_heap m) kvs p c kv /\
       runs (elem_del E (PList l) p) m (fun _ m' => stored E m l (removed kvs c) m')).
Proof.
  intros E m l kvs p W We Hd Hp. destruct (dict_size _ _ _ _ W Hd) as (o & Ho & Hk & He & Sh & Hs).
  destruct (ref_dict_cases E m l kvs p true true W We Hd Hp) as (c & Hrank & Hc).
  exists c. split; [exact Hrank|]. destruct Hc as [(kv & Hhit & Hr)|(Hmiss & Hr)]; [right | left; exact Hmiss].
  exists kv. split; [exact Hhit|]. destruct Hhit as (Hkv & _). assert (Hcl := nth_error_lt _ _ _ _ Hkv).
  pose proof Sh as [S1 S2 S3]. assert (Hlt : (l < length (m_heap m))%nat) by (eapply nth_error_lt; eauto).
  assert (Hp4 : 4 * lo_alloc o <= 2 ^ wbits (e_width E)).
  { destruct We as (_ & P & _). destruct (e_width E); cbn [wbits]; lia. }
  unfold elem_del, list_del, hold, poly_to_list. eapply runs_bind. eexists _, m. split; [reflexivity|].
  eapply runs_bind. exists (l, m_epoch m), m. split; [reflexivity|].
  unfold list_ref. eapply runs_bind. eexists _, _. split; [exact Hr|]. cbv iota beta.
  eapply runs_deref; [reflexivity | exact Ho|]. rewrite Hk.
  replace (Nat.pred (2 * c + 1)) with (2 * c)%nat by lia.
  eapply runs_deref; [reflexivity | exact Ho|].
  rewrite (u_of_small _ (lo_size o - Z.of_nat (2 * c))) by lia.
  set (n := length kvs) in *.
  assert (Ln : length (flat kvs) = (2 * n)%nat) by apply flat_length.
  assert (Hsrc : take (Z.to_nat (lo_size o - Z.of_nat (2 * c)) - 2) (skipn (2 * c + 2) (lo_data o)) = Some (flat (skipn (S c) kvs))).
  { rewrite take_some by (rewrite skipn_length; lia). f_equal.
    assert (Hx : lo_data o = flat kvs ++ skipn (2 * n) (lo_data o)).
    { rewrite <- (firstn_skipn (2 * n) (lo_data o)) at 1. f_equal. rewrite <- He. unfold elems. f_equal. lia. }
    rewrite Hx, skipn_app, Ln. replace (2 * c + 2 - 2 * n)%nat with 0%nat by lia. cbn [skipn].
    replace (2 * c + 2)%nat with (2 * S c)%nat by lia. rewrite <- flat_skipn.
    replace (Z.to_nat (lo_size o - Z.of_nat (2 * c)) - 2)%nat with (length (flat (skipn (S c) kvs)))
      by (rewrite flat_length, skipn_length; fold n; lia).
    apply firstn_app_exact. }
  eapply runs_lift_bind; [exact Hsrc|].
  assert (Lt : length (flat (skipn (S c) kvs)) = (2 * n - 2 * c - 2)%nat) by (rewrite flat_length, skipn_length; fold n; lia).
  eapply runs_lift_bind; [apply blit_some; lia|]. rewrite Lt.
  set (d := firstn (2 * c) (lo_data o) ++ flat (skipn (S c) kvs) ++ skipn (2 * c + (2 * n - 2 * c - 2)) (lo_data o)).
  assert (Ld : length d = length (lo_data o)).
  { unfold d. rewrite !app_length, firstn_length, skipn_length, Lt. lia. }
  apply runs_assign; [reflexivity | exact Hlt|].
  set (m1 := set_heap _ _).
  assert (Ho1 : nth_error (m_heap m1) l = Some (OList (set_data o d))) by (apply nth_upd_same; exact Hlt).
  eapply runs_deref; [reflexivity | exact Ho1|].
  apply runs_bind_ret. apply runs_assign; [reflexivity | eapply nth_error_lt; eauto|]. apply runs_ret.
  cbn [m1 set_heap m_heap set_data lo_size]. rewrite upd_upd. change (Z.of_nat 2) with 2.
  rewrite (u_of_small _ (lo_size o - 2)) by lia.
  set (o' := set_size (set_data o d) (lo_size o - 2)).
  change (set_heap (upd l (OList o') (m_heap m)) m1) with (set_heap (upd l (OList o') (m_heap m)) m).
  assert (He' : elems o' = flat (removed kvs c)).
  { unfold elems, o', removed. cbn [set_size set_data lo_size lo_data]. unfold d. rewrite app_assoc, flat_app.
    replace (firstn (2 * c) (lo_data o)) with (flat (firstn c kvs)).
    2: { rewrite flat_firstn, <- He. unfold elems. rewrite firstn_firstn. f_equal. lia. }
    replace (Z.to_nat (lo_size o - 2)) with (length (flat (firstn c kvs) ++ flat (skipn (S c) kvs))).
    2: { rewrite app_length, Lt, flat_length, firstn_length. fold n. lia. }
    apply firstn_app_exact. }
  set (m' := set_heap (upd l (OList o') (m_heap m)) m).
  assert (F := frame_upd l (OList o') m). fold m' in F.
  assert (L : length (m_heap m') = length (m_heap m)) by apply upd_length.
  assert (Hfr := dict_keys_frozen _ _ _ _ W Hd). assert (Hwf := dict_wf _ _ _ _ W Hd).
  destruct (wf_dict_changed E m m' l kvs (removed kvs c) o') as [W' D']; auto.
  - cbn [m' set_heap m_heap]. apply nth_upd_same. exact Hlt.
  - split; cbn [o' set_size set_data lo_size lo_data lo_alloc]; lia.
  - apply Forall_flat. apply Forall_flat in Hwf. unfold removed. apply Forall_app.
    split; [apply Forall_firstn | apply Forall_skipn]; exact Hwf.
  - unfold removed. apply Forall_app. split; [apply Forall_firstn | apply Forall_skipn]; exact Hfr.
  - split; [exact W'|]. split; [exact F|]. split; [exact L|]. split; [split; reflexivity | exact D'].
Qed.

(** Reading. *)
Lemma get_dict_runs : forall E m l kvs p report,
  wf E m -> wf_env E -> dict_at (m_heap m) l kvs -> wf_poly (m_heap m) p ->
  exists c, rank (m_heap m) kvs p 0 (length kvs) c /\
    ((exists kv, hit (m_heap m) kvs p c kv /\ list_get E (l, m_epoch m) p report m = Some (snd kv, m)) \/
     (miss (m_heap m) kvs p c /\
      list_get E (l, m_epoch m) p report m = Some (PNull, if report then errored (EValue p) m else m))).
Proof.
  intros E m l kvs p report W We Hd Hp. destruct (dict_size _ _ _ _ W Hd) as (o & Ho & Hk & He & Sh & Hs).
  destruct (ref_dict_cases E m l kvs p report false W We Hd Hp) as (c & Hrank & Hc).
  exists c. split; [exact Hrank|]. destruct Hc as [(kv & Hhit & Hr)|(Hmiss & Hr)].
  - left. exists kv. split; [exact Hhit|]. destruct Hhit as (Hkv & _).
    unfold list_get, bind at 1. rewrite Hr. unfold load, bind. cbn [fst snd].
    rewrite (deref_list_eq l (m_epoch m) m o eq_refl Ho). assert (Hcl := nth_error_lt _ _ _ _ Hkv).
    replace (nth_error (lo_data o) (2 * c + 1)) with (Some (snd kv)); [reflexivity|].
    rewrite <- (nth_error_firstn _ (lo_data o) (Z.to_nat (lo_size o))) by lia.
    fold (elems o). rewrite He, flat_val, Hkv. reflexivity.
  - right. split; [exact Hmiss|]. unfold list_get, bind at 1. rewrite Hr. cbn [negb]. unfold fail_ref.
    destruct report; reflexivity.
Qed.
