(** Proofs about variables and frames. *)
From Verif Require Import Tac Base FloatModel PolyModel ValueModel MachModel ListModel StrModel MathModel BinModel MachSpec ListSpec
  SliceProofs MachProofs FrameProofs FrameModel VarSpec.
Local Open Scope Z_scope.
Open Scope st_scope.

Lemma sruns_ret : forall A (a : A) s (Q : A -> st -> Prop), Q a s -> sruns (sret a) s Q.
Proof. intros A a s Q H. exists a, s. auto. Qed.
Lemma sruns_bind : forall A B (c : S A) (f : A -> S B) s Q,
  sruns c s (fun a s' => sruns (f a) s' Q) -> sruns (sbind c f) s Q.
Proof. intros A B c f s Q (a & s' & Hc & b & s'' & Hf & H). exists b, s''. unfold sbind. rewrite Hc. auto. Qed.
Lemma sruns_step : forall A B (c : S A) (f : A -> S B) s P Q,
  sruns c s P -> (forall a s', P a s' -> sruns (f a) s' Q) -> sruns (sbind c f) s Q.
Proof. intros A B c f s P Q (a & s' & Hc & HP) H. apply sruns_bind. exists a, s'. auto. Qed.
Lemma sruns_conseq : forall A (c : S A) s (P Q : A -> st -> Prop), sruns c s P -> (forall a s', P a s' -> Q a s') -> sruns c s Q.
Proof. intros A c s P Q (a & s' & H & HP) K. exists a, s'. auto. Qed.
Lemma sruns_lm : forall A (c : M A) s (Q : A -> st -> Prop), runs c (s_m s) (fun a m' => Q a (set_m m' s)) -> sruns (lm c) s Q.
Proof. intros A c s Q (a & m' & H & K). exists a, (set_m m' s). unfold lm. rewrite H. auto. Qed.
Lemma sruns_get : forall B (f : st -> S B) s Q, sruns (f s) s Q -> sruns (let^ s := get in f s) s Q.
Proof. intros B f s Q H. exact H. Qed.

(** Nothing a program sees changed in the machine part. *)
Definition mstill (m m' : mach) : Prop := frame None m m' /\ length (m_heap m') = length (m_heap m).
Lemma mstill_refl : forall m, mstill m m.
Proof. intros m. split; [apply frame_refl | reflexivity]. Qed.
Lemma mstill_trans : forall m1 m2 m3, mstill m1 m2 -> mstill m2 m3 -> mstill m1 m3.
Proof. intros m1 m2 m3 [A L1] [B L2]. split; [eapply frame_trans; eauto; discriminate | congruence]. Qed.
Lemma mstill_sp : forall m m', mstill m m' -> (m_sp m <= length (m_stack m))%nat -> (m_sp m' <= length (m_stack m'))%nat.
Proof. intros m m' [F _] H. rewrite (fr_sp _ _ _ F), (fr_slen _ _ _ F). exact H. Qed.
Lemma mstill_errored : forall e m, mstill m (errored e m).
Proof.
  intros e m. unfold errored. destruct (m_abort m); [apply mstill_refl|]. split; [| reflexivity].
  split; cbn; auto. apply kept_refl.
Qed.
Lemma quiet_refl : forall m, quiet m m.
Proof. split; reflexivity. Qed.
Lemma quiet_trans : forall m1 m2 m3, quiet m1 m2 -> quiet m2 m3 -> quiet m1 m3.
Proof. intros m1 m2 m3 [A B] [C D]. split; congruence. Qed.
Lemma reported_later : forall e m1 m2 m3, reported e m1 m2 -> quiet m2 m3 \/ (exists e', reported e' m2 m3) -> reported e m1 m3.
Proof.
  intros e m1 m2 m3 [A B] [[C D]|(e' & C & D)]; split; [congruence | congruence | exact C |].
  rewrite A in D. rewrite D. exact B.
Qed.
Lemma reported_quiet : forall e m1 m2 m3, quiet m1 m2 -> reported e m2 m3 -> reported e m1 m3.
Proof. intros e m1 m2 m3 [A B] [C D]. split; [exact C|]. rewrite D, A, B. reflexivity. Qed.
Lemma reported_errored : forall e m, reported e m (errored e m).
Proof. intros e m. unfold errored, reported. destruct (m_abort m) eqn:H; [split; [exact H | reflexivity] | split; reflexivity]. Qed.

(** * Association lists *)
Lemma index_lookup : forall id vs,
  match index_of id vs with
  | Some n => exists v, nth_error vs n = Some (id, v) /\ lookup id vs = Some v
  | None => lookup id vs = None
  end.
Proof.
  intros id. induction vs as [|[i v] vs IH]; [reflexivity|]. cbn [index_of]. unfold lookup. cbn [find fst].
  destruct (Z.eqb_spec i id) as [->|N].
  - exists v. split; reflexivity.
  - fold (lookup id vs). destruct (index_of id vs) as [n|]; cbn [option_map]; exact IH.
Qed.
Lemma lookup_index : forall id vs v, lookup id vs = Some v -> exists n, index_of id vs = Some n /\ nth_error vs n = Some (id, v).
Proof.
  intros id vs v H. pose proof (index_lookup id vs) as K. destruct (index_of id vs) as [n|]; [| congruence].
  destruct K as (v' & A & B). exists n. split; [reflexivity | congruence].
Qed.
Lemma lookup_cons : forall i id v vs, lookup i ((id, v) :: vs) = if id =? i then Some v else lookup i vs.
Proof. intros. unfold lookup. cbn [find fst]. destruct (id =? i); reflexivity. Qed.
Lemma lookup_upd : forall id v vs n i, index_of id vs = Some n ->
  lookup i (upd n (id, v) vs) = if i =? id then Some v else lookup i vs.
Proof.
  intros id v. induction vs as [|[j w] vs IH]; intros n i H; cbn [index_of] in H; [discriminate|].
  destruct (Z.eqb_spec j id) as [->|N].
  - injection H as <-. cbn [upd]. rewrite !lookup_cons, (Z.eqb_sym id i). destruct (i =? id); reflexivity.
  - destruct (index_of id vs) as [k|]; [| discriminate]. cbn in H. injection H as <-. cbn [upd]. rewrite !lookup_cons.
    rewrite (IH k i eq_refl). destruct (Z.eqb_spec j i) as [->|N2]; [| reflexivity].
    destruct (Z.eqb_spec i id); [congruence | reflexivity].
Qed.
Lemma lookup_app : forall i vs ws, lookup i (vs ++ ws) = match lookup i vs with Some v => Some v | None => lookup i ws end.
Proof.
  intros i. induction vs as [|[j v] vs IH]; intros ws; [reflexivity|]. cbn [app]. rewrite !lookup_cons. destruct (j =? i); auto.
Qed.
Lemma lookup_snoc : forall id v vs i, lookup id vs = None ->
  lookup i (vs ++ [(id, v)]) = if i =? id then Some v else lookup i vs.
Proof.
  intros id v vs i H. rewrite lookup_app, lookup_cons, (Z.eqb_sym id i). destruct (Z.eqb_spec i id) as [->|N].
  - rewrite H. reflexivity.
  - destruct (lookup i vs); reflexivity.
Qed.
Lemma index_app : forall id vs ws, index_of id vs = None ->
  index_of id (vs ++ ws) = option_map (fun n => (length vs + n)%nat) (index_of id ws).
Proof.
  intros id. induction vs as [|[j v] vs IH]; intros ws H; cbn [app index_of length] in *.
  - destruct (index_of id ws); reflexivity.
  - destruct (j =? id); [discriminate|]. destruct (index_of id vs); [discriminate|]. rewrite IH by reflexivity.
    destruct (index_of id ws); reflexivity.
Qed.
Lemma upd_length' : forall A n (x : A) l, length (upd n x l) = length l.
Proof. intros A n x l. revert n. induction l as [|y l IH]; intros [|n]; cbn; auto. Qed.
Lemma upd_last : forall A (x y : A) l, upd (length l) y (l ++ [x]) = l ++ [y].
Proof. intros A x y l. induction l as [|z l IH]; [reflexivity|]. cbn. rewrite IH. reflexivity. Qed.
Lemma nth_last : forall A (x : A) l, nth_error (l ++ [x]) (length l) = Some x.
Proof. intros A x l. rewrite nth_error_app2, Nat.sub_diag by lia. reflexivity. Qed.

(** * Frames in a state *)
Lemma put_pick : forall g vs s, pick_frame g s <> None -> pick_frame g (put_frame g vs s) = Some vs.
Proof. intros [] vs s H; cbn in *; [reflexivity|]. destruct (s_frames s); [elim H; reflexivity | reflexivity]. Qed.
Lemma pick_set_m : forall g m s, pick_frame g (set_m m s) = pick_frame g s.
Proof. intros [] m s; reflexivity. Qed.
Lemma put_put : forall g v w s, put_frame g v (put_frame g w s) = put_frame g v s.
Proof. intros [] v w s; cbn; [reflexivity|]. destruct s as [m a gl [|f fs] ln]; reflexivity. Qed.
Lemma put_frame_m : forall g v s, s_m (put_frame g v s) = s_m s.
Proof. intros [] v s; cbn; [reflexivity|]. destruct (s_frames s); reflexivity. Qed.
Lemma set_m_put : forall g v m s, set_m m (put_frame g v s) = put_frame g v (set_m m s).
Proof. intros [] v m s; cbn; [reflexivity|]. destruct s as [m0 a gl [|f fs] ln]; reflexivity. Qed.
Lemma set_m_id : forall s, set_m (s_m s) s = s.
Proof. intros []; reflexivity. Qed.
Lemma put_pick_id : forall g vs s, pick_frame g s = Some vs -> put_frame g vs s = s.
Proof.
  intros [] vs s H; cbn in *; [injection H as <-; destruct s; reflexivity|].
  destruct s as [m a gl [|f fs] ln]; cbn in *; [reflexivity|]. injection H as ->. reflexivity.
Qed.

Lemma fits_vars_le : forall E n k, fits_vars E k -> (n <= k)%nat -> fits_vars E n.
Proof. intros E n k. unfold fits_vars, sizeof_frame, sizeof_var. destruct (e_width E); lia. Qed.

Section Vars.
Variable E : env.

Lemma new_frame_runs : forall n s, fits_vars E n -> (m_sp (s_m s) <= length (m_stack (s_m s)))%nat ->
  sruns (new_frame E n) s (fun r s' => exists m', s' = set_m m' s /\ mstill (s_m s) m' /\
    match r with
    | Some vs => vs = repeat (0, PZero) n /\ quiet (s_m s) m'
    | None => reported EMemory (s_m s) m'
    end).
Proof.
  intros n s F Hsp. unfold new_frame.
  set (size := sizeof_frame E + Z.of_nat n * sizeof_var E).
  assert (H0 : 0 <= size) by (unfold size, sizeof_frame, sizeof_var; destruct (e_width E); lia).
  assert (Hup : size <= size_round (e_width E) (u_of (e_width E) size)).
  { unfold fits_vars in F. fold size in F. rewrite (u_of_small _ size) by lia. unfold size_round. rewrite (u_of_small _ (size + 3)) by lia. rewrite u_of_small; lia. }
  destruct (alloc_runs E size (s_m s) Hsp) as (r & m' & Hr & Fr & L & _ & H).
  apply sruns_bind, sruns_lm. exists r, m'. split; [exact Hr|]. destruct r as [b|].
  - destruct H as (-> & _ & Q). replace (size <=? _) with true by (symmetry; apply Z.leb_le; exact Hup).
    apply sruns_ret. exists m'. split; [reflexivity|]. split; [split; assumption|]. auto.
  - apply sruns_ret. exists m'. split; [reflexivity|]. split; [split; assumption|]. apply H.
Qed.

Lemma variable_lookup_runs : forall g id s vs, pick_frame g s = Some vs -> fits_vars E (length vs + 1) ->
  (m_sp (s_m s) <= length (m_stack (s_m s)))%nat ->
  sruns (variable_lookup E g id true) s (fun r s' => exists m', mstill (s_m s) m' /\
    match r with
    | Some r => exists vs' v0, r = {| vr_global := g; vr_index := vr_index r |} /\
        s' = put_frame g vs' (set_m m' s) /\ quiet (s_m s) m' /\
        nth_error vs' (vr_index r) = Some (id, v0) /\ index_of id vs' = Some (vr_index r) /\
        (forall i, lookup i vs' = if i =? id then Some v0 else lookup i vs) /\
        (lookup id vs = Some v0 /\ vs' = vs \/ lookup id vs = None /\ v0 = PZero) /\ (length vs' <= length vs + 1)%nat
    | None => s' = set_m m' s /\ reported EMemory (s_m s) m'
    end).
Proof.
  intros g id s vs Hp F Hsp. unfold variable_lookup. apply sruns_get. rewrite Hp.
  pose proof (index_lookup id vs) as K. destruct (index_of id vs) as [n|] eqn:Ei.
  - destruct K as (v & A & B). apply sruns_ret. exists (s_m s). split; [apply mstill_refl|]. exists vs, v. cbn [vr_index].
    split; [reflexivity|]. split; [rewrite set_m_id, put_pick_id; auto|]. split; [apply quiet_refl|]. split; [exact A|].
    split; [exact Ei|]. split; [| split; [left; auto | lia]].
    intros i. destruct (Z.eqb_spec i id) as [->|N]; [exact B | reflexivity].
  - unfold variable_insert.
    apply sruns_bind. apply sruns_get. rewrite Hp.
    eapply sruns_step; [apply new_frame_runs; [exact F | exact Hsp]|].
    intros r s1 (m' & -> & Hm & Hr). destruct r as [ws|].
    + destruct Hr as [-> Q]. eexists _, _. split; [reflexivity|].
      assert (Sk : @skipn var (length vs) (@repeat var (0, PZero) (length vs + 1)) = [(0, PZero)]).
      { rewrite Nat.add_comm. cbn [plus]. clear. induction (length vs) as [|k IH]; [reflexivity|]. cbn. exact IH. }
      match goal with |- context [vs ++ ?t] => replace t with [(0, PZero) : var] by (symmetry; exact Sk) end. cbv beta iota.
      assert (Np : pick_frame g (set_m m' s) <> None) by (rewrite pick_set_m, Hp; discriminate).
      apply sruns_bind. unfold set_id. eexists tt, _. split.
      { rewrite (put_pick g _ _ Np), nth_last, upd_last, put_put. reflexivity. }
      apply sruns_ret. exists m'. split; [exact Hm|]. exists (vs ++ [(id, PZero)]), PZero. cbn [vr_index].
      split; [reflexivity|]. split; [reflexivity|]. split; [exact Q|]. split; [apply nth_last|].
      split; [| split; [| split]].
      * rewrite index_app by exact Ei. cbn [index_of]. rewrite Z.eqb_refl. cbn. f_equal. lia.
      * intros i. apply lookup_snoc. exact K.
      * right. auto.
      * rewrite app_length. cbn. lia.
    + apply sruns_ret. apply sruns_ret. exists m'. auto.
Qed.

Lemma lookup_ref : forall g id s, sruns (variable_lookup E g id false) s (fun r s' => s' = s /\
  r = match pick_frame g s with Some vs => option_map (fun n => {| vr_global := g; vr_index := n |}) (index_of id vs) | None => None end).
Proof.
  intros g id s. unfold variable_lookup. apply sruns_get. destruct (pick_frame g s) as [vs|]; [| apply sruns_ret; auto].
  destruct (index_of id vs); apply sruns_ret; auto.
Qed.

(** * Reading *)
Definition visible (s : st) (id : Z) : option poly :=
  match s_frames s with
  | f :: _ => match lookup id f with
              | Some v => if is_global v then lookup id (s_globals s) else Some v
              | None => lookup id (s_globals s)
              end
  | [] => lookup id (s_globals s)
  end.

Lemma read_at : forall g n id v vs s, pick_frame g s = Some vs -> nth_error vs n = Some (id, v) ->
  read {| vr_global := g; vr_index := n |} s = Some (v, s).
Proof. intros g n id v vs s Hp Hn. unfold read. cbn [vr_global vr_index]. rewrite Hp, Hn. reflexivity. Qed.

Lemma id_ref_read : forall id s,
  sruns (id_ref E id false) s (fun r s' => s' = s /\
    match r with
    | Some r => exists v, visible s id = Some v /\ read r s = Some (v, s)
    | None => visible s id = None
    end).
Proof.
  intros id s.
  assert (G : sruns (variable_lookup E true id false) s (fun r s' => s' = s /\
    match r with
    | Some r => exists v, lookup id (s_globals s) = Some v /\ read r s = Some (v, s)
    | None => lookup id (s_globals s) = None
    end)).
  { eapply sruns_conseq; [apply lookup_ref|]. intros r s' [-> ->]. split; [reflexivity|]. cbn [pick_frame].
    pose proof (index_lookup id (s_globals s)) as K. destruct (index_of id (s_globals s)); cbn [option_map]; [| exact K].
    destruct K as (v & A & B). exists v. split; [exact B|]. eapply read_at; [reflexivity | exact A]. }
  unfold id_ref. eapply sruns_step; [apply lookup_ref|]. intros r s' [-> ->]. cbn [pick_frame].
  unfold visible. destruct (s_frames s) as [|f fs] eqn:Ef; cbn [hd_error option_map]; [exact G|].
  pose proof (index_lookup id f) as K. destruct (index_of id f) as [n|] eqn:Ei; cbn [option_map].
  - destruct K as (v & A & B). rewrite B.
    assert (Rd : read {| vr_global := false; vr_index := n |} s = Some (v, s)).
    { eapply read_at; [cbn; rewrite Ef; reflexivity | exact A]. }
    apply sruns_bind. exists v, s. split; [exact Rd|].
    destruct (is_global v); [exact G|]. apply sruns_ret. split; [reflexivity|]. exists v. auto.
  - rewrite K. exact G.
Qed.

Lemma read_id_runs : forall id s, sruns (read_id id E) s (fun v s' => s' = s /\ v = visible s id).
Proof.
  intros id s. unfold read_id. eapply sruns_step; [apply id_ref_read|]. intros [r|] s' [-> H].
  - destruct H as (v & -> & Hr). apply sruns_bind. exists v, s. split; [exact Hr|]. apply sruns_ret. auto.
  - apply sruns_ret. rewrite H. auto.
Qed.

(** * Assigning *)
(** the frame an assignment goes to *)
Definition target (s : st) (id : Z) : bool :=
  match s_frames s with
  | f :: _ => match lookup id f with Some v => is_global v | None => false end
  | [] => true
  end.

Lemma assign_id_runs : forall id s, fits_vars E (nvars s + 1) -> (m_sp (s_m s) <= length (m_stack (s_m s)))%nat ->
  sruns (assign_id E id) s (fun _ s' => exists m', mstill (s_m s) m' /\
    (reported EMemory (s_m s) m' /\ s_m s' = m' \/
     exists vs vs', pick_frame (target s id) s = Some vs /\ s' = put_frame (target s id) vs' (set_m m' s) /\ quiet (s_m s) m' /\
       (length vs' <= length vs + 1)%nat /\
       forall i, lookup i vs' = if i =? id then Some (s_a s) else lookup i vs)).
Proof.
  intros id s F Hsp.
  assert (Fg : fits_vars E (length (s_globals s) + 1)) by (eapply fits_vars_le; [exact F | unfold nvars; lia]).
  (* assigning through a reference *)
  assert (Wr : forall g (vs' : list var) n v0 m', pick_frame g s <> None -> nth_error vs' n = Some (id, v0) ->
    (let^ a := get_a in write {| vr_global := g; vr_index := n |} a) (put_frame g vs' (set_m m' s)) =
    Some (tt, put_frame g (upd n (id, s_a s) vs') (set_m m' s))).
  { intros g vs' n v0 m' Np Hn. unfold sbind, get_a, write. cbn [vr_global vr_index].
    rewrite put_pick by (rewrite pick_set_m; exact Np). rewrite Hn, put_put. f_equal. f_equal. f_equal. f_equal. f_equal.
    destruct g; cbn; [reflexivity|]. destruct (s_frames s); reflexivity. }
  (* the global case, from a state that differs in the machine only *)
  assert (Gl : forall m1 (Q : unit -> st -> Prop), mstill (s_m s) m1 ->
    (forall m' s', mstill m1 m' -> reported EMemory m1 m' -> s_m s' = m' -> Q tt s') ->
    (forall m' vs', mstill m1 m' -> quiet m1 m' -> (length vs' <= length (s_globals s) + 1)%nat ->
      (forall i, lookup i vs' = if i =? id then Some (s_a s) else lookup i (s_globals s)) ->
      Q tt (put_frame true vs' (set_m m' s))) ->
    sruns (variable_lookup E true id true) (set_m m1 s) (fun r s' => sruns
           (match r with None => lm (error (EUndefined id)) | Some r => let^ a := get_a in write r a end) s' Q)).
  { intros m1 Q H1 Q1 Q2. eapply sruns_conseq. { apply (variable_lookup_runs true id (set_m m1 s) (s_globals s)); [reflexivity | exact Fg | eapply mstill_sp; eauto]. }
    intros [r|] s2 (m' & Hm & H).
    - destruct H as (vs' & v0 & Hr & -> & Qt & Hn & Hi & Hl & Hv & Hlen). rewrite Hr.
      exists tt, (put_frame true (upd (vr_index r) (id, s_a s) vs') (set_m m' s)). split; [exact (Wr true vs' _ v0 m' ltac:(discriminate) Hn)|].
      apply Q2; [exact Hm | exact Qt | rewrite upd_length'; exact Hlen|].
      intros i. rewrite (lookup_upd _ _ _ _ _ Hi). destruct (Z.eqb_spec i id) as [->|N]; [reflexivity|].
      rewrite Hl. destruct (Z.eqb_spec i id); [contradiction | reflexivity].
    - destruct H as (-> & Rp). eexists tt, _. split; [unfold lm; cbn [s_m set_m]; rewrite error_eq; reflexivity|].
      apply (Q1 (errored (EUndefined id) m')); [eapply mstill_trans; [exact Hm | apply mstill_errored] | | reflexivity].
      eapply reported_later; [exact Rp|]. right. exists (EUndefined id). apply reported_errored. }
  unfold assign_id, id_ref, target. apply sruns_bind.
  destruct (s_frames s) as [|f fs] eqn:Ef.
  - apply sruns_bind. exists None, s. split; [unfold variable_lookup, sbind, get; cbn [pick_frame]; rewrite Ef; reflexivity|].
    rewrite <- (set_m_id s) at 1. apply Gl; [apply mstill_refl | |].
    + intros m' s' Hm Rp <-. eexists. split; [exact Hm|]. left. auto.
    + intros m' vs' Hm Q Hlen Hl. exists m'. split; [exact Hm|]. right. exists (s_globals s), vs'. auto.
  - assert (Hpf : pick_frame false s = Some f) by (cbn; rewrite Ef; reflexivity).
    assert (Ff : fits_vars E (length f + 1)) by (eapply fits_vars_le; [exact F | unfold nvars; rewrite Ef; cbn; lia]).
    eapply sruns_step; [apply (variable_lookup_runs false id s f Hpf Ff Hsp)|]. intros [r|] s1 (m1 & Hm & H).
    + destruct H as (vs' & v0 & Hr & -> & Qt & Hn & Hi & Hl & Hv & Hlen). rewrite Hr.
      assert (Np : pick_frame false s <> None) by (rewrite Hpf; discriminate).
      apply sruns_bind. exists v0, (put_frame false vs' (set_m m1 s)). split.
      { eapply read_at; [apply put_pick; rewrite pick_set_m; exact Np | exact Hn]. }
      destruct (is_global v0) eqn:Eg.
      * destruct Hv as [[Hv ->]|[_ ->]]; [| discriminate]. rewrite Hv, Eg.
        assert (Es : put_frame false f (set_m m1 s) = set_m m1 s).
        { apply put_pick_id. rewrite pick_set_m. exact Hpf. }
        rewrite Es. apply Gl; [exact Hm | |].
        -- intros m' s' Hm' Rp <-. eexists. split; [eapply mstill_trans; eauto|]. left. split; [| reflexivity].
           eapply reported_quiet; eauto.
        -- intros m' vs'' Hm' Q' Hlen' Hl'. exists m'. split; [eapply mstill_trans; eauto|]. right. exists (s_globals s), vs''.
           split; [reflexivity|]. split; [reflexivity|]. split; [eapply quiet_trans; eauto|]. auto.
      * apply sruns_ret. eexists tt, _. split; [exact (Wr false vs' _ v0 m1 Np Hn)|].
        exists m1. split; [exact Hm|]. right.
        assert (Et : match lookup id f with Some v => is_global v | None => false end = false).
        { destruct Hv as [[-> _] | [-> _]]; auto. }
        rewrite Et. exists f. eexists. split; [exact Hpf|]. split; [reflexivity|]. split; [exact Qt|].
        split; [rewrite upd_length'; exact Hlen|].
        intros i. rewrite (lookup_upd _ _ _ _ _ Hi). destruct (Z.eqb_spec i id) as [->|N]; [reflexivity|].
        rewrite Hl. destruct (Z.eqb_spec i id); [contradiction | reflexivity].
    + destruct H as (-> & Rp). apply Gl; [exact Hm | |].
      * intros m' s' Hm' Rp' <-. eexists. split; [eapply mstill_trans; eauto|]. left. split; [| reflexivity].
        eapply reported_later; [exact Rp|]. right. eauto.
      * intros m' vs' Hm' Q' _ _. exists m'. split; [eapply mstill_trans; eauto|]. left.
        split; [eapply reported_later; [exact Rp | left; exact Q'] | reflexivity].
Qed.

(** * Histories *)
Lemma list_sum_cons : forall n l, list_sum (n :: l) = (n + list_sum l)%nat.
Proof. reflexivity. Qed.

Lemma visible_scopes : forall s sc id, scopes_are s sc ->
  snd (scope_step (SRead id) sc) = [visible s id].
Proof.
  intros s sc id [G L]. unfold visible. cbn [scope_step snd]. destruct L as [|f L1 fs Ls H LL]; [rewrite G; reflexivity|].
  rewrite (H id). unfold local_of. destruct (lookup id f) as [v|]; cbn [option_map]; [destruct (is_global v)|]; rewrite ?G; reflexivity.
Qed.

Definition sop_ok (o : sop) : Prop := match o with SAssign _ v => is_global v = false | _ => True end.

Lemma run_sop_runs : forall o s sc, scopes_are s sc -> sop_ok o -> fits_vars E (nvars s + 1) ->
  (m_sp (s_m s) <= length (m_stack (s_m s)))%nat ->
  sruns (run_sop E o) s (fun r s' => mstill (s_m s) (s_m s') /\
    (reported EMemory (s_m s) (s_m s') \/
     quiet (s_m s) (s_m s') /\ scopes_are s' (fst (scope_step o sc)) /\ r = snd (scope_step o sc) /\ (nvars s' <= nvars s + 1)%nat)).
Proof.
  intros o s sc Hsc Hok F Hsp. destruct o as [id v|id|id| |]; cbn [run_sop].
  - (* assignment *)
    apply sruns_bind. exists tt, (set_a v s). split; [reflexivity|].
    eapply sruns_step; [apply (assign_id_runs id (set_a v s)); [exact F | exact Hsp]|].
    intros [] s' (m' & Hm & H). change (s_m (set_a v s)) with (s_m s) in *. change (s_a (set_a v s)) with v in *. apply sruns_ret.
    destruct H as [[Rp <-]|(vs & vs' & Hp & -> & Q & Hlen & Hl)]; [auto|].
    rewrite put_frame_m. cbn [s_m set_m]. split; [exact Hm|]. right. split; [exact Q|].
    destruct Hsc as [G L]. destruct sc as [SL SG]. destruct s as [m a gl frs]. unfold target, pick_frame, put_frame, nvars, scopes_are in *.
    cbn [s_frames s_globals set_a set_m set_globals set_frames s_m sc_locals sc_globals] in *. cbn [sop_ok] in Hok.
    destruct L as [|f L1 fs Ls HL LL]; cbn [scope_step fst snd sc_locals sc_globals].
    + injection Hp as <-. cbn. split; [split; [| constructor]|split; [reflexivity | cbn in *; lia]].
      intros i. rewrite Hl. unfold mset. rewrite G. reflexivity.
    + pose proof (HL id) as HLid. destruct (lookup id f) as [w|] eqn:Ew; cbn [option_map] in HLid; rewrite HLid.
      * unfold local_of in *. destruct (is_global w).
        -- injection Hp as <-. cbn. split; [split; [| constructor; assumption]|split; [reflexivity | cbn in *; lia]].
           intros i. rewrite Hl. unfold mset. rewrite G. reflexivity.
        -- injection Hp as <-. cbn. split; [split; [exact G|]|split; [reflexivity | cbn in *; lia]].
           constructor; [| exact LL]. intros i. rewrite Hl. unfold mset, local_of. rewrite HL.
           destruct (i =? id); [cbn; rewrite Hok; reflexivity | reflexivity].
      * injection Hp as <-. cbn. split; [split; [exact G|]|split; [reflexivity | cbn in *; lia]].
        constructor; [| exact LL]. intros i. rewrite Hl. unfold mset, local_of. rewrite HL.
        destruct (i =? id); [cbn; rewrite Hok; reflexivity | reflexivity].
  - (* global *)
    apply sruns_bind. unfold mark_global. apply sruns_get.
    destruct (s_frames s) as [|f fs] eqn:Ef.
    + apply sruns_ret. apply sruns_ret. split; [apply mstill_refl|]. right. split; [apply quiet_refl|].
      destruct Hsc as [G L]. rewrite Ef in L. destruct sc as [SL SG]. cbn [sc_locals sc_globals] in *. inversion L; subst. cbn.
      split; [split; [exact G | rewrite Ef; constructor]|]. split; [reflexivity | lia].
    + assert (Hpf : pick_frame false s = Some f) by (cbn; rewrite Ef; reflexivity).
      eapply sruns_step; [apply (variable_lookup_runs false id s f Hpf); [| exact Hsp]|].
      { eapply fits_vars_le; [exact F | unfold nvars; rewrite Ef; cbn; lia]. }
      intros [r|] s1 (m1 & Hm & H).
      * destruct H as (vs' & v0 & Hr & -> & Qt & Hn & Hi & Hl & Hv & Hlen). rewrite Hr.
        exists tt. eexists. split.
        { unfold write. cbn [vr_global vr_index]. rewrite put_pick by (rewrite pick_set_m, Hpf; discriminate).
          rewrite Hn, put_put. reflexivity. }
        apply sruns_ret. rewrite put_frame_m. cbn [s_m set_m]. split; [exact Hm|]. right. split; [exact Qt|].
        destruct Hsc as [G L]. destruct sc as [SL SG]. destruct s as [m a gl frs]. unfold put_frame, nvars, scopes_are in *.
        cbn [s_frames s_globals set_a set_m set_globals set_frames s_m sc_locals sc_globals] in *. subst frs. inversion L as [|? L0 ? Ls HL LL]; subst.
        cbn [scope_step fst snd]. cbn [sc_locals sc_globals s_frames s_globals set_m set_frames].
        split; [split; [exact G|]|split; [reflexivity | cbn [map]; rewrite !list_sum_cons; pose proof (upd_length' var (vr_index r) (id, PGlobal) vs') as UL; unfold var in *; lia]].
        constructor; [| exact LL]. intros i. unfold mset, local_of. rewrite (lookup_upd _ _ _ _ _ Hi), HL, Hl.
        destruct (i =? id); reflexivity.
      * destruct H as (-> & Rp). apply sruns_ret, sruns_ret. cbn [s_m set_m]. auto.
  - (* read *)
    eapply sruns_step; [apply read_id_runs|]. intros v s' [-> ->]. apply sruns_ret. split; [apply mstill_refl|]. right.
    split; [apply quiet_refl|]. split; [exact Hsc|]. split; [| lia]. symmetry. apply visible_scopes. exact Hsc.
  - (* enter *)
    apply sruns_bind. unfold frame_push.
    eapply sruns_step; [apply (new_frame_runs 0 s); [eapply fits_vars_le; [exact F | lia] | exact Hsp]|].
    intros r s' (m' & -> & Hm & H). destruct r as [vs|].
    + destruct H as [-> Q]. eexists _, _. split; [reflexivity|]. apply sruns_ret. split; [exact Hm|]. right. split; [exact Q|].
      destruct Hsc as [G L]. cbn. split; [split; [exact G|]|split; [reflexivity | unfold nvars, list_sum; cbn; lia]].
      constructor; [intros i; reflexivity | exact L].
    + apply sruns_ret, sruns_ret. auto.
  - (* leave *)
    apply sruns_bind. eexists _, _. split; [reflexivity|]. apply sruns_ret. split; [apply mstill_refl|]. right.
    split; [apply quiet_refl|]. destruct Hsc as [G L]. destruct s as [m a gl frs]. cbn in *.
    split; [split; [exact G | destruct L; [constructor | exact L]]|]. split; [reflexivity|].
    unfold nvars, list_sum. cbn. destruct frs; cbn; lia.
Qed.

Lemma run_sops_runs : forall os s sc, scopes_are s sc -> Forall sop_ok os -> fits_vars E (nvars s + length os) ->
  (m_sp (s_m s) <= length (m_stack (s_m s)))%nat -> m_abort (s_m s) = false ->
  sruns (run_sops E os) s (fun rs s' => mstill (s_m s) (s_m s') /\
    (reported EMemory (s_m s) (s_m s') /\ (exists later, snd (scope_run os sc) = rs ++ later) \/
     quiet (s_m s) (s_m s') /\ scopes_are s' (fst (scope_run os sc)) /\ rs = snd (scope_run os sc))).
Proof.
  induction os as [|o os IH]; intros s sc Hsc Hok F Hsp Hab; cbn [run_sops scope_run].
  - apply sruns_ret. split; [apply mstill_refl|]. right. split; [apply quiet_refl|]. auto.
  - inversion Hok as [|? ? Ho Hos]; subst. cbn [length] in F.
    eapply sruns_step. { apply (run_sop_runs o s sc Hsc Ho); [eapply fits_vars_le; [exact F | lia] | exact Hsp]. }
    intros r s1 (Hm & H). apply sruns_get. destruct (scope_step o sc) as [sc1 r1]. cbn [fst snd] in H.
    destruct H as [Rp|(Q & Hsc1 & -> & Hn)].
    + destruct Rp as [Ab Rp]. rewrite Ab. apply sruns_ret. split; [exact Hm|]. left. split; [split; assumption|].
      exists (snd (let '(sc, rs) := scope_run os sc1 in (sc, r1 ++ rs))). reflexivity.
    + destruct Q as [Qa Ql]. assert (Hab1 : m_abort (s_m s1) = false) by congruence. rewrite Hab1.
      eapply sruns_step. { apply (IH s1 sc1 Hsc1 Hos); [eapply fits_vars_le; [exact F | lia] | eapply mstill_sp; eauto | exact Hab1]. }
      intros rs s2 (Hm2 & H). apply sruns_ret. split; [eapply mstill_trans; eauto|]. destruct (scope_run os sc1) as [sc2 rs2].
      cbn [fst snd] in *. destruct H as [[Rp (later & Hl)]|(Q2 & Hsc2 & ->)].
      * left. split; [eapply reported_quiet; [split; eassumption | exact Rp]|]. exists later. rewrite Hl, app_assoc. reflexivity.
      * right. split; [eapply quiet_trans; [split; eassumption | exact Q2]|]. auto.
Qed.

(** * Deleting a global *)
Lemma index_app_some : forall id vs ws n, index_of id vs = Some n -> index_of id (vs ++ ws) = Some n.
Proof.
  intros id. induction vs as [|[j v] vs IH]; intros ws n H; cbn [app index_of] in *; [discriminate|].
  destruct (j =? id); [exact H|]. destruct (index_of id vs) as [k|]; [| discriminate]. rewrite (IH ws k eq_refl). exact H.
Qed.

Lemma id_del_undefined : forall id s, lookup id (s_globals s) = None -> id_del E id s = Some (false, s).
Proof.
  intros id s H. unfold id_del, sbind, get. pose proof (index_lookup id (s_globals s)) as K.
  destruct (index_of id (s_globals s)); [| reflexivity]. destruct K as (v & _ & K). congruence.
Qed.

(** the state afterwards *)
Lemma id_del_runs : forall id s i, index_of id (s_globals s) = Some i -> fits_vars E (length (s_globals s)) ->
  (m_sp (s_m s) <= length (m_stack (s_m s)))%nat ->
  match id_del E id s with
  | Some (r, s') => exists m', mstill (s_m s) m' /\ quiet (s_m s) m' /\ r = true /\
      s' = set_globals (firstn i (s_globals s) ++
             copy_bytes E (Z.of_nat (length (s_globals s) - i - 1)) (skipn (i + 1) (s_globals s))) (set_m m' s)
  | None => exists m', new_frame E (length (s_globals s) - 1) s = Some (None, set_m m' s) /\ reported EMemory (s_m s) m'
  end.
Proof.
  intros id s i Hi F Hsp. unfold id_del, variable_delete, sbind at 1, get at 1. rewrite Hi.
  destruct (new_frame_runs (length (s_globals s) - 1) s) as (r & s' & Hr & m' & -> & Hm & H); [eapply fits_vars_le; [exact F | lia] | exact Hsp|].
  unfold sbind at 1, sbind at 1, sbind at 1, get at 1. rewrite Hr. destruct r as [vs|].
  - destruct H as [-> Q]. cbn. exists m'. auto.
  - cbn. exists m'. auto.
Qed.
End Vars.
