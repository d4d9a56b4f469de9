(** math.fsum on the machine computes what SumModel computes on an array. *)
From Coq Require Import String Reals.
From Flocq Require Import IEEE754.BinarySingleNaN IEEE754.Binary IEEE754.Bits Core.
From Verif Require Import Tac Base FloatModel MathModel PolyModel ValueModel MachModel ListModel StrModel MachSpec ListSpec StrSpec
  MachProofs FrameProofs ListProofs ListProofs2 StrProofs BuiltModel BuiltSpec SumModel SumProofs BuiltRuns.
Local Open Scope Z_scope.
Open Scope mach_scope.
Notation length := List.length.

Definition nums (fs : list float) : list poly := List.map PNum fs.
Definition with_data (l : loc) (o : lobj) (d : list poly) (m : mach) : mach := set_heap (upd l (OList (set_data o d)) (m_heap m)) m.

Lemma upd_self {A} (x : A) : forall l i, nth_error l i = Some x -> upd i x l = l.
Proof. induction l as [|a l IH]; intros [|i] H; cbn in *; try discriminate; [now injection H as ->|]. f_equal. apply IH. exact H. Qed.
Lemma upd_upd {A} (x y : A) : forall l i, upd i x (upd i y l) = upd i x l.
Proof. induction l as [|a l IH]; intros [|i]; cbn; try reflexivity. f_equal. apply IH. Qed.
Lemma with_self l o m : nth_error (m_heap m) l = Some (OList o) -> with_data l o (lo_data o) m = m.
Proof. intros H. unfold with_data. replace (set_data o (lo_data o)) with o by (destruct o; reflexivity). rewrite upd_self by exact H. destruct m; reflexivity. Qed.
Lemma with_with l o d d' m : with_data l o d' (with_data l o d m) = with_data l o d' m.
Proof. unfold with_data. cbn. rewrite upd_upd. reflexivity. Qed.
Lemma with_nth l o d m : (l < length (m_heap m))%nat -> nth_error (m_heap (with_data l o d m)) l = Some (OList (set_data o d)).
Proof. intros H. cbn. apply nth_upd_same. exact H. Qed.

Lemma getf_eq l ep m o i f : ep = m_epoch m -> nth_error (m_heap m) l = Some (OList o) -> nth_error (lo_data o) i = Some f ->
  list_getf (l, ep) i m = Some (to_float f, m).
Proof. intros He H N. unfold list_getf, bind. rewrite (deref_list_eq l ep m o He H). unfold nth_data. rewrite Nat2Z.id, N. reflexivity. Qed.
Definition put_at (i : nat) (v : float) (d : list poly) : list poly := firstn i d ++ PNum v :: skipn (S i) d.
Lemma putf_eq l ep m o i v : ep = m_epoch m -> nth_error (m_heap m) l = Some (OList o) -> (i < length (lo_data o))%nat ->
  list_putf (l, ep) i v m = Some (tt, with_data l o (put_at i v (lo_data o)) m).
Proof.
  intros He H N. unfold list_putf, bind. rewrite (deref_list_eq l ep m o He H). unfold blit. cbn [length].
  destruct (Nat.leb_spec (i + 1) (length (lo_data o))); [|lia]. cbn [lift]. unfold ret at 1. rewrite (assign_list_eq l ep m _ He (nth_error_lt _ _ _ _ H)).
  unfold with_data, put_at. rewrite Nat.add_1_r. reflexivity.
Qed.
Lemma put_at_length i v d : (i < length d)%nat -> length (put_at i v d) = length d.
Proof. intros H. unfold put_at. rewrite app_length, firstn_length. cbn [length]. rewrite skipn_length. lia. Qed.
Lemma put_at_first i v d : (i < length d)%nat -> firstn (S i) (put_at i v d) = firstn i d ++ [PNum v].
Proof.
  intros H. unfold put_at. rewrite firstn_app, firstn_firstn, firstn_length. replace (Nat.min (S i) i) with i by lia. replace (S i - Nat.min i (length d))%nat with 1%nat by lia. reflexivity.
Qed.
Lemma put_at_skip i v d j : (i < length d)%nat -> (i < j)%nat -> skipn j (put_at i v d) = skipn j d.
Proof.
  intros H L. apply (skipn_more _ (S i) j); [lia|]. unfold put_at. rewrite skipn_app, firstn_length. replace (Nat.min i (length d)) with i by lia.
  rewrite skipn_all2 by (rewrite firstn_length; lia). replace (S i - i)%nat with 1%nat by lia. reflexivity.
Qed.

Lemma parts_eq l ep ys : forall j i x o m, ep = m_epoch m -> nth_error (m_heap m) l = Some (OList o) -> (i <= j)%nat ->
  firstn (length ys) (skipn j (lo_data o)) = nums ys ->
  exists d, fsum_parts (length ys) j i x (l, ep) m = Some ((snd (fgrow x ys), (i + length (fst (fgrow x ys)))%nat), with_data l o d m) /\
    length d = length (lo_data o) /\ firstn (i + length (fst (fgrow x ys))) d = firstn i (lo_data o) ++ nums (fst (fgrow x ys)).
Proof.
  induction ys as [|y ys IH]; intros j i x o m He H IJ D.
  - exists (lo_data o). cbn. rewrite with_self by exact H. rewrite Nat.add_0_r, app_nil_r. auto.
  - cbn [length fsum_parts]. assert (Ny : nth_error (lo_data o) j = Some (PNum y)).
    { destruct (skipn j (lo_data o)) as [|z r] eqn:e; [discriminate D|]. cbn in D. injection D as -> D.
      rewrite <- (firstn_skipn j (lo_data o)), e. assert (Lj : length (firstn j (lo_data o)) = j).
      { rewrite firstn_length. assert (Hl := f_equal (@List.length poly) e). rewrite skipn_length in Hl. cbn in Hl. lia. }
      rewrite nth_error_app2 by lia. rewrite Lj, Nat.sub_diag. reflexivity. }
    assert (Lj : (j < length (lo_data o))%nat) by (apply nth_error_Some; congruence).
    rewrite (skipn_nth _ _ _ _ Ny) in D. cbn [length firstn nums map] in D. injection D as D. fold (nums ys) in D.
    unfold bind at 1. rewrite (getf_eq l ep m o j _ He H Ny). cbn [to_float]. cbn [fgrow]. fold (order x y). destruct (order x y) as [x' y'].
    set (hi := fadd x' y'). set (lo := fsub y' (fsub hi x')). destruct (feq lo f_zero); cbn [negb].
    + destruct (IH (S j) i hi o m He H ltac:(lia) D) as (d & Ed & L & F). destruct (fgrow hi ys) as [lows q]. cbn [fst snd] in *. eauto.
    + unfold bind. rewrite (putf_eq l ep m o i lo He H) by lia. set (d1 := put_at i lo (lo_data o)).
      destruct (IH (S j) (S i) hi (set_data o d1) (with_data l o d1 m) He (with_nth _ _ _ _ (nth_error_lt _ _ _ _ H)) ltac:(lia)) as (d & Ed & L & F).
      { cbn [set_data lo_data]. unfold d1. rewrite put_at_skip by lia. exact D. }
      rewrite Ed. destruct (fgrow hi ys) as [lows q]. cbn [fst snd length] in *. exists d.
      split. { rewrite Nat.add_succ_r, <- Nat.add_succ_l. f_equal. f_equal. unfold with_data. cbn. rewrite upd_upd. reflexivity. }
      cbn [set_data lo_data] in L, F. unfold d1 in L, F. rewrite put_at_length in L by lia. rewrite put_at_first in F by lia.
      split; [exact L|]. rewrite Nat.add_succ_r, <- Nat.add_succ_l, F, <- app_assoc. reflexivity.
Qed.

(** ** The loop over the argument *)
Fixpoint reads (ps : list poly) (s o : nat) (xs : list float) : Prop :=
  match xs with [] => True | x :: xs => (exists p, nth_error ps o = Some p /\ to_float p = x) /\ reads ps s (o + s) xs end.

Lemma frame_new m0 m m' lp : frame None m0 m -> m_empty m = m_empty m0 -> (length (m_heap m0) <= lp)%nat -> frame (Some lp) m m' -> m_empty m' = m_empty m -> frame None m0 m'.
Proof.
  intros [K1 S1 T1 L1 E1 P1] He Hl [K2 S2 T2 L2 E2 P2] He'. split; [|congruence|rewrite S1 in T2; congruence|congruence|left; congruence|lia].
  - destruct K1 as [A1 B1], K2 as [A2 B2]. split; [lia|]. intros l o H _. destruct (B1 l o H ltac:(discriminate)) as (o1 & H1 & R1).
    assert (l < length (m_heap m0))%nat by (eapply nth_error_lt; eauto).
    destruct (B2 l o1 H1 ltac:(intros [= ->]; lia)) as (o2 & H2 & R2). exists o2. split; [exact H2|eapply obj_kept_trans; eauto].
Qed.

Section Loop.
Variable E : env.
Variable m0 : mach.
Variable l : loc.
Variable lo : lobj.
Hypothesis Hlo : nth_error (m_heap m0) l = Some (OList lo).
Hypothesis Hst : stack_ok E m0.
Hypothesis Hroom : room E 2 m0.
Definition lp : loc := length (m_heap m0).

Record inv (m : mach) (size : nat) (parts : list float) : Prop := {
  i_frame : frame None m0 m;
  i_empty : m_empty m = m_empty m0;
  i_quiet : quiet m0 m;
  i_len : length (m_heap m) = S lp;
  i_obj : exists o, nth_error (m_heap m) lp = Some (OList o) /\ (shape E o /\ lo_kind o = KList) /\ lo_size o = Z.of_nat size /\ (length parts <= size)%nat /\
            firstn (length parts) (lo_data o) = nums parts }.

Definition failed (n : nat) (m : mach) : Prop :=
  frame None m0 m /\ length (m_heap m) = S lp /\ (exists o, nth_error (m_heap m) lp = Some (OList o) /\ shape E o /\ lo_kind o = KList) /\
  exists k, 0 <= k <= Z.of_nat n /\ oom E k m0 m.

Lemma inv_read m size parts i p : inv m size parts -> nth_error (elems lo) i = Some p -> list_getf (l, m_epoch m) i m = Some (to_float p, m).
Proof.
  intros I H. destruct (nth_frame_list _ _ _ _ _ (i_frame _ _ _ I) ltac:(discriminate) Hlo) as (o' & Ho' & K). destruct K as (_ & Ks & _ & _ & Ke).
  apply getf_eq with (o := o'); [reflexivity|exact Ho'|]. rewrite Ke in H.
  assert (L : (i < Z.to_nat (lo_size o'))%nat). { apply nth_error_lt in H. unfold elems in H. rewrite firstn_length in H. lia. }
  unfold elems in H. rewrite nth_error_firstn in H by exact L. exact H.
Qed.

Variable N : nat.
Hypothesis Hfit : fits (e_width E) (Z.of_nat N).
Lemma fit_less k : (k <= N)%nat -> fits (e_width E) (Z.of_nat k).
Proof. unfold fits in *. intros H. assert (Z.of_nat k <= Z.of_nat N) by lia. assert (Z.of_nat k / 8 <= Z.of_nat N / 8) by (apply Z.div_le_mono; lia). lia. Qed.

Lemma loop_runs s xs : forall m size parts o, inv m size parts -> reads (elems lo) s o xs -> (length xs + length parts <= N)%nat ->
  runs (fsum_loop E (length xs) o s (length parts) size (l, m_epoch m) (lp, m_epoch m)) m (fun r m' =>
    match r with
    | None => failed N m'
    | Some (n, p) => exists size', p = (lp, m_epoch m') /\ n = length (fadds xs parts) /\ inv m' size' (fadds xs parts)
    end).
Proof.
  induction xs as [|x xs IH]; intros m size parts o I Hr HN.
  - cbn [length fsum_loop]. apply runs_ret. exists size. cbn [fadds]. auto.
  - cbn [length fsum_loop]. destruct Hr as ((p & Hp & Hx) & Hr).
    apply runs_bind. exists x, m. split; [rewrite (inv_read m size parts o p I Hp), Hx; reflexivity|].
    destruct I as [F Em Q L (ob & Ho & (Sh & Kb) & Sz & Ln & D)]. cbn [length] in HN.
    assert (Hlp : (lp < length (m_heap m))%nat) by lia.
    destruct (parts_eq lp (m_epoch m) parts 0 0 x ob m eq_refl Ho ltac:(lia)) as (d & Ed & Ld & Fd); [cbn [skipn]; exact D|].
    apply runs_bind. eexists _, _. split; [exact Ed|]. cbn [plus firstn app] in *.
    pose proof (fgrow_length parts x) as GL. cbn [fadds]. assert (eF : fadd1 x parts = let (lows, q) := fgrow x parts in if feq q f_zero then lows else lows ++ [q]) by reflexivity.
    destruct (fgrow x parts) as [lows q]. cbn [fst snd] in *. rewrite eF. clear eF.
    set (m1 := with_data lp ob d m).
    assert (Ho1 : nth_error (m_heap m1) lp = Some (OList (set_data ob d))) by (apply with_nth; exact Hlp).
    assert (F1 : frame None m0 m1) by (eapply frame_new; [exact F|exact Em|reflexivity|apply frame_upd|reflexivity]).
    assert (L1 : length (m_heap m1) = S lp) by (unfold m1, with_data; cbn; rewrite upd_length; exact L).
    assert (Sh1 : shape E (set_data ob d)) by (destruct Sh as [A B C]; split; cbn; try assumption; lia).
    assert (Q1 : quiet m0 m1) by exact Q.
    assert (He1 : m_epoch m1 = m_epoch m) by reflexivity.
    assert (Em1 : m_empty m1 = m_empty m0) by exact Em.
    assert (Hsh2 : (Z.of_nat size <= lo_alloc ob)) by (destruct Sh; lia).
    assert (Ldn : Z.of_nat (length d) = lo_alloc ob) by (destruct Sh; lia).
    destruct (feq q f_zero); cbn [negb].
    + rewrite <- He1. apply (IH m1 size lows (o + s)%nat).
      * split; auto. exists (set_data ob d). split; [exact Ho1|]. split; [split; [exact Sh1|exact Kb]|]. split; [exact Sz|]. split; [lia|exact Fd].
      * exact Hr.
      * lia.
    + destruct (Nat.leb_spec size (length lows)) as [Le|Gt].
      * (* the list grows *)
        rewrite <- He1. apply runs_bind.
        assert (R1 : runs (push_list E (l, m_epoch m1);; let* p0 := list_resize E (lp, m_epoch m1) (Z.of_nat (length lows + 1)) in
                    let* l0 := pop_list in ret (match p0 with Some p1 => Some (l0, p1, (length lows + 1)%nat) | None => None end)) m1
                 (fun r m2 => match r with
                    | None => failed N m2
                    | Some (l1, p1, sz) => l1 = (l, m_epoch m2) /\ p1 = (lp, m_epoch m2) /\ sz = (length lows + 1)%nat /\
                        frame None m0 m2 /\ m_empty m2 = m_empty m0 /\ quiet m0 m2 /\ length (m_heap m2) = S lp /\
                        exists o2, nth_error (m_heap m2) lp = Some (OList o2) /\ (shape E o2 /\ lo_kind o2 = KList) /\ lo_size o2 = Z.of_nat (length lows + 1) /\
                          firstn (length lows) (lo_data o2) = nums lows end)).
        { assert (Sp : m_sp m1 = m_sp m0) by apply F1. assert (Sl : length (m_stack m1) = length (m_stack m0)) by apply F1.
          unfold room, stack_ok in Hroom, Hst.
          apply runs_push_list; [unfold room; lia|reflexivity|].
          eapply runs_step. { apply resize_runs with (o := set_data ob d) (l := lp); cbn [pushed set_stack m_epoch m_heap m_stack m_sp].
            - unfold stack_ok. cbn [pushed set_stack m_stack]. rewrite upd_length. lia.
            - unfold room. cbn [pushed set_stack m_sp]. lia.
            - reflexivity.
            - exact Ho1.
            - exact Sh1.
            - cbn [set_data lo_size]. lia.
            - apply fit_less. lia. }
          intros r m2 (Lh & Ee & Hres). cbn [pushed set_stack m_heap m_empty] in Lh, Ee. destruct r as [p1|].
          - destruct Hres as (F2 & -> & Q2 & o2 & Ho2 & Sh2 & Hk2 & Sz2 & Fd2).
            eapply runs_pop_list; [|exact F2|]; [lia|]. intros F3. apply runs_ret.
            split; [reflexivity|]. split; [reflexivity|]. split; [reflexivity|].
            split; [eapply frame_new; [exact F1|exact Em1|reflexivity|exact F3|exact Ee]|].
            split; [cbn [popped set_stack m_empty]; congruence|].
            split; [eapply quiet_trans; [exact Q1|exact Q2]|].
            split.
            + cbn [popped set_stack m_heap]. lia.
            + exists o2. split; [exact Ho2|]. split; [split; [exact Sh2|rewrite Hk2; exact Kb]|]. split; [exact Sz2|].
              cbn [set_data lo_size] in Fd2. rewrite Sz, Nat2Z.id in Fd2. unfold elems in Fd2. cbn [set_data lo_size lo_data] in Fd2. rewrite Sz, Nat2Z.id in Fd2.
              replace (length lows) with size by lia. rewrite Fd2. replace size with (length lows) by lia. exact Fd.
          - destruct Hres as (F2 & O2). eapply runs_pop_list; [|exact F2|]; [lia|]. intros F3. apply runs_ret.
            split; [eapply frame_trans_none; eauto|]. split; [cbn [popped set_stack m_heap]; lia|].
            split. { destruct (nth_frame_list _ _ _ _ _ F3 ltac:(discriminate) Ho1) as (o3 & Ho3 & K3). exists o3. split; [exact Ho3|]. split; [eapply shape_kept; [exact K3|exact Sh1]|]. destruct K3 as (K3 & _). rewrite <- K3. exact Kb. }
            exists (Z.of_nat (length lows + 1)). split; [lia|]. apply (quiet_oom E _ m0 m1); [exact Q1|exact O2]. }
        destruct R1 as (r & m2 & E2 & H2). exists r, m2. split; [exact E2|].
        destruct r as [[[l1 p1] sz]|]; [|apply runs_ret; exact H2].
        destruct H2 as (-> & -> & -> & F2 & Em2 & Q2 & L2 & o2 & Ho2 & (Sh2 & Kb2) & Sz2 & Fd2).
        assert (Ldo : (length lows < length (lo_data o2))%nat) by (destruct Sh2; lia).
        apply runs_bind. eexists _, _. split; [apply putf_eq; [reflexivity|exact Ho2|exact Ldo]|].
        set (d2 := put_at _ _ _). set (m3 := with_data lp o2 d2 m2).
        replace (S (length lows)) with (length (lows ++ [q])) by (rewrite app_length; cbn; lia).
        change (m_epoch m2) with (m_epoch m3). apply IH; [|exact Hr|rewrite app_length; cbn [length]; lia].
        split.
        -- eapply frame_new; [exact F2|exact Em2|reflexivity|apply frame_upd|reflexivity].
        -- exact Em2.
        -- exact Q2.
        -- unfold m3, with_data. cbn. rewrite upd_length. exact L2.
        -- exists (set_data o2 d2). split; [apply with_nth; lia|]. unfold d2. cbn [set_data lo_data lo_size].
           split; [split; [destruct Sh2 as [A B C]; split; cbn; try assumption; rewrite put_at_length by lia; lia|exact Kb2]|]. split; [exact Sz2|].
           rewrite app_length. cbn [length]. split; [lia|]. rewrite Nat.add_1_r, put_at_first by lia. rewrite Fd2. unfold nums. rewrite map_app. reflexivity.
      * (* there is room *)
        apply runs_bind. eexists _, m1. split; [reflexivity|]. cbv iota beta.
        assert (Ldo : (length lows < length (lo_data (set_data ob d)))%nat) by (cbn; lia).
        rewrite <- He1. apply runs_bind. eexists _, _. split; [apply putf_eq; [reflexivity|exact Ho1|exact Ldo]|].
        set (d2 := put_at _ _ _). set (m3 := with_data lp (set_data ob d) d2 m1).
        replace (S (length lows)) with (length (lows ++ [q])) by (rewrite app_length; cbn; lia).
        change (m_epoch m1) with (m_epoch m3). apply IH; [|exact Hr|rewrite app_length; cbn [length]; lia].
        split.
        -- eapply frame_new; [exact F1|exact Em1|reflexivity|apply frame_upd|reflexivity].
        -- exact Em1.
        -- exact Q1.
        -- unfold m3, with_data at 1. cbn. rewrite upd_length. exact L1.
        -- exists (set_data (set_data ob d) d2). split; [apply with_nth; lia|]. unfold d2. cbn [set_data lo_data lo_size].
           split; [split; [destruct Sh1 as [A B C]; split; cbn in *; try assumption; rewrite put_at_length by lia; lia|exact Kb]|]. split; [exact Sz|].
           rewrite app_length. cbn [length]. split; [lia|]. cbn [set_data lo_data] in Ldo. rewrite Nat.add_1_r, put_at_first by exact Ldo. rewrite Fd. unfold nums. rewrite map_app. reflexivity.
Qed.
End Loop.

(** ** The end *)
Lemma snoc {A} (l : list A) : l = [] \/ exists a b, l = a ++ [b].
Proof. destruct l as [|a b _] using rev_ind; [auto|right; eauto]. Qed.
Lemma first_snoc ys y (d : list poly) : firstn (length (ys ++ [y])) d = nums (ys ++ [y]) -> nth_error d (length ys) = Some (PNum y) /\ firstn (length ys) d = nums ys.
Proof.
  rewrite app_length. cbn [length]. intros H. rewrite Nat.add_1_r in H. unfold nums in *. rewrite map_app in H. split.
  - rewrite <- (nth_error_firstn _ _ (S (length ys))) by lia. rewrite H. rewrite nth_error_app2 by (rewrite map_length; lia). rewrite map_length, Nat.sub_diag. reflexivity.
  - apply (f_equal (firstn (length ys))) in H. rewrite firstn_firstn in H. replace (Nat.min (length ys) (S (length ys))) with (length ys) in H by lia.
    rewrite H, firstn_app, map_length, Nat.sub_diag. cbn. rewrite app_nil_r. rewrite <- (map_length PNum ys) at 1. apply firstn_all.
Qed.
Lemma top_eq l m o : nth_error (m_heap m) l = Some (OList o) -> forall k ys hi lo, length ys = k -> firstn (length ys) (lo_data o) = nums ys ->
  exists ys', fsum_top (length ys) hi lo (l, m_epoch m) m =
    Some ((fst (fst (fcoll hi lo (rev ys))), length ys', snd (fst (fcoll hi lo (rev ys)))), m) /\
    snd (fcoll hi lo (rev ys)) = rev ys' /\ firstn (length ys') (lo_data o) = nums ys'.
Proof.
  intros Ho. induction k as [|k IH]; intros ys hi lo Hk D.
  - destruct ys; [|discriminate]. exists []. repeat split.
  - destruct (snoc ys) as [->|(ys1 & y & ->)]; [discriminate|]. destruct (first_snoc ys1 y _ D) as [Ny D1].
    rewrite app_length in Hk |- *. cbn [length] in Hk |- *. rewrite Nat.add_1_r in Hk |- *. rewrite rev_unit. cbn [fsum_top fcoll].
    unfold bind. rewrite (getf_eq l _ m o _ _ eq_refl Ho Ny). cbn [to_float]. destruct (feq _ f_zero); cbn [negb].
    + apply IH; [lia|exact D1].
    + exists ys1. cbn [fst snd]. repeat split. exact D1.
Qed.
Lemma end_eq l m o parts r : nth_error (m_heap m) l = Some (OList o) -> firstn (length parts) (lo_data o) = nums parts ->
  ffinal (rev parts) = Ok r -> fsum_end (length parts) (l, m_epoch m) m = Some (r, m).
Proof.
  intros Ho D H. destruct (snoc parts) as [->|(ys & h & ->)].
  - cbn in *. injection H as <-. reflexivity.
  - destruct (first_snoc ys h _ D) as [Nh D1]. rewrite rev_unit in H. cbn [ffinal] in H. rewrite app_length. cbn [length]. rewrite Nat.add_1_r. cbn [fsum_end].
    unfold bind at 1. rewrite (getf_eq l _ m o _ _ eq_refl Ho Nh). cbn [to_float].
    destruct (top_eq l m o Ho (length ys) ys h None eq_refl D1) as (ys' & E & S & D2). unfold bind at 1. rewrite E.
    destruct (fcoll h None (rev ys)) as [[hi lo] rr]. cbn [fst snd] in *. subst rr.
    destruct (snoc ys') as [->|(y2 & q & ->)]; [cbn in H |- *; unfold ret; congruence|]. destruct (first_snoc y2 q _ D2) as [Nq _].
    rewrite app_length. cbn [length]. rewrite Nat.add_1_r. rewrite rev_unit in H. cbn [ffinish] in H. destruct lo as [lo|]; [|discriminate].
    assert (G : list_getf (l, m_epoch m) (length y2) m = Some (q, m)) by exact (getf_eq l _ m o _ _ eq_refl Ho Nq).
    unfold bind, ret. unfold f_two in H. destruct (flt lo f_zero) eqn:A, (flt f_zero lo) eqn:B; rewrite ?G; cbn [andb orb] in *; cbv zeta in H |- *.
    all: repeat match type of H with context [if ?b then _ else _] => destruct b end; congruence.
Qed.

(** ** New objects hold numbers *)
Definition numeric (n : nat) (m : mach) : Prop :=
  forall l o, (n <= l)%nat -> nth_error (m_heap m) l = Some (OList o) -> Forall (fun p => exists f, p = PNum f) (lo_data o).
Definition is_num (p : poly) : Prop := exists f, p = PNum f.
Lemma num_zero k : Forall is_num (repeat PZero k).
Proof. induction k; constructor; auto. eexists; reflexivity. Qed.
Lemma num_first k d : Forall is_num d -> Forall is_num (firstn k d).
Proof. intros H. revert k. induction H; intros [|k]; cbn; constructor; auto. Qed.
Lemma num_skip k d : Forall is_num d -> Forall is_num (skipn k d).
Proof. intros H. revert k. induction H; intros [|k]; cbn; auto. Qed.
Lemma num_junk k d : Forall is_num d -> Forall is_num (junk_above k d).
Proof.
  intros H. unfold junk_above. apply Forall_app. split; [apply num_first; exact H|]. apply Forall_forall. intros p Hp. apply in_map_iff in Hp. destruct Hp as (x & <- & Hx).
  apply (num_skip k) in H. rewrite Forall_forall in H. destruct (H x Hx) as (f & ->). exists f. reflexivity.
Qed.
Definition numbers (n : nat) (m m' : mach) : Prop := numeric n m -> numeric n m'.
Lemma nu_refl n m : numbers n m m. Proof. intros H. exact H. Qed.
Lemma nu_trans n a b c : numbers n a b -> numbers n b c -> numbers n a c. Proof. unfold numbers. auto. Qed.
Hint Resolve nu_refl nu_trans : keeps.
Lemma nu_calm {A} n (x : M A) : keeps calm x -> keeps (numbers n) x.
Proof. intros K m a m' H N l o. apply K in H. destruct H as (-> & _). apply N. Qed.
Lemma nu_alloc n E z : keeps (numbers n) (alloc E z).
Proof.
  intros m b m' H N l o. unfold alloc in H.
  assert (A : m_heap m' = m_heap m \/ m_heap m' = map moved_obj (m_heap m)).
  { destruct (_ || _) in H; [unfold error in H; inversion H; subst; destruct (m_abort _)|inversion H; subst]; destruct (e_move _ _); auto. }
  destruct A as [A|A]; rewrite A; [apply N|]. rewrite nth_error_map. destruct (nth_error (m_heap m) l) as [[o1| |]|] eqn:e; try discriminate.
  intros L [= <-]. cbn [lo_data]. apply num_junk. eapply N; eauto.
Qed.
Lemma nu_head n k : keeps (numbers n) (new_obj (OList {| lo_kind := k; lo_size := 0; lo_alloc := 0; lo_data := [] |})).
Proof.
  intros m b m' [= _ <-] N l o L. cbn [set_heap m_heap]. intros H. destruct (Nat.lt_ge_cases l (length (m_heap m))) as [G|G].
  - rewrite nth_error_app1 in H by exact G. eapply N; eauto.
  - rewrite nth_error_app2 in H by exact G. destruct (l - length (m_heap m))%nat as [|[]]; try discriminate H. injection H as <-. constructor.
Qed.
Hint Resolve nu_alloc nu_head : keeps.
Lemma nu_push_list n E p : keeps (numbers n) (push_list E p). Proof. apply nu_calm, c_push_list. Qed.
Lemma nu_pop_list n : keeps (numbers n) pop_list. Proof. apply nu_calm, c_pop_list. Qed.
Hint Resolve nu_push_list nu_pop_list : keeps.
Lemma deref_nu n p m o m1 : deref_list p m = Some (o, m1) -> m1 = m /\ (numeric n m -> (n <= fst p)%nat -> Forall is_num (lo_data o)).
Proof.
  unfold deref_list, deref, bind. destruct (Nat.eqb _ _); [|discriminate]. destruct (nth_error (m_heap m) (fst p)) as [[o2| |]|] eqn:e; try discriminate.
  intros [= -> <-]. split; [reflexivity|]. intros N L. eapply N; eauto.
Qed.
Lemma assign_nu n p o m x m' : assign_list p o m = Some (x, m') -> numeric n m -> ((n <= fst p)%nat -> Forall is_num (lo_data o)) -> numeric n m'.
Proof.
  intros H N Ho. unfold assign_list, assign_obj in H. destruct (Nat.eqb _ _ && _) eqn:e in H; [|discriminate]. apply andb_prop in e. destruct e as [_ e]. apply Nat.ltb_lt in e.
  injection H as _ <-. intros l ob Hl. cbn [set_heap m_heap]. destruct (Nat.eq_dec l (fst p)) as [->|Ne].
  - rewrite nth_upd_same by exact e. intros [= <-]. auto.
  - rewrite nth_upd_other by congruence. apply N. exact Hl.
Qed.
Lemma nu_resize n E p z : keeps (numbers n) (list_resize E p z).
Proof.
  intros m b m' H N. unfold list_resize, bind in H. destruct (deref_list p m) as [[o m1]|] eqn:e; [|discriminate]. destruct (deref_nu n _ _ _ _ e) as [-> D].
  destruct (z <=? lo_alloc o).
  - destruct (assign_list p (set_size o z) m) as [[u m1]|] eqn:e1; [|discriminate]. injection H as _ <-. eapply assign_nu; [exact e1|exact N|exact (D N)].
  - destruct (push_list E p m) as [[u m1]|] eqn:e1; [|discriminate]. apply (nu_push_list n) in e1. specialize (e1 N).
    destruct (alloc E _ m1) as [[a m2]|] eqn:e2; [|discriminate]. apply (nu_alloc n) in e2. specialize (e2 e1).
    destruct (pop_list m2) as [[p3 m3]|] eqn:e3; [|discriminate]. apply (nu_pop_list n) in e3. specialize (e3 e2).
    destruct a as [bytes|]; [|injection H as _ <-; exact e3].
    destruct (deref_list p3 m3) as [[o3 m4]|] eqn:e4; [|discriminate]. destruct (deref_nu n _ _ _ _ e4) as [-> D3].
    destruct (MachModel.take _ (lo_data o3)) as [src|] eqn:e5; [|discriminate]. cbn [lift] in H. unfold ret at 1 in H.
    destruct (blit 0 src (zero_words bytes)) as [d|] eqn:e6; [|discriminate]. cbn [lift] in H. unfold ret at 1 in H.
    destruct (assign_list p3 _ m3) as [[u2 m5]|] eqn:e7; [|discriminate]. injection H as _ <-. eapply assign_nu; [exact e7|exact e3|]. cbn [lo_data].
    intros L. unfold MachModel.take in e5. destruct (Nat.leb _ _); [|discriminate]. injection e5 as <-. unfold blit in e6. destruct (Nat.leb _ _); [|discriminate]. injection e6 as <-.
    apply Forall_app. split; [apply num_first; auto|]. apply num_skip. apply num_zero.
Qed.
Hint Resolve nu_resize : keeps.
Lemma nu_put n p i v : keeps (numbers n) (list_putf p i v).
Proof.
  intros m b m' H N. unfold list_putf, bind in H. destruct (deref_list p m) as [[o m1]|] eqn:e; [|discriminate]. destruct (deref_nu n _ _ _ _ e) as [-> D].
  destruct (blit i _ (lo_data o)) as [d|] eqn:e6; [|discriminate]. cbn [lift] in H. unfold ret at 1 in H. eapply assign_nu; [exact H|exact N|]. cbn [set_data lo_data].
  intros L. unfold blit in e6. destruct (Nat.leb _ _); [|discriminate]. injection e6 as <-. apply Forall_app. split; [apply num_first; auto|].
  cbn [app]. constructor; [eexists; reflexivity|apply num_skip; auto].
Qed.
Lemma nu_get n p i : keeps (numbers n) (list_getf p i).
Proof. unfold list_getf, nth_data. kp. Qed.
Hint Resolve nu_put nu_get : keeps.
Lemma nu_parts n k : forall j i x p, keeps (numbers n) (fsum_parts k j i x p).
Proof. induction k as [|k IH]; intros; cbn [fsum_parts]; kp. Qed.
Hint Resolve nu_parts : keeps.
Lemma nu_loop n E k : forall o s c m l p, keeps (numbers n) (fsum_loop E k o s c m l p).
Proof. induction k as [|k IH]; intros; cbn [fsum_loop]; kp. Qed.
Lemma nu_top n k : forall hi lo p, keeps (numbers n) (fsum_top k hi lo p).
Proof. induction k as [|k IH]; intros; cbn [fsum_top]; kp. Qed.
Hint Resolve nu_loop nu_top : keeps.
Lemma nu_fsum n E l : keeps (numbers n) (built_fsum E (PList l)).
Proof.
  unfold built_fsum. cbn [is_null]. unfold list_make. change ((4 =? 0) && readonly KList) with false. cbn iota. unfold head_alloc, fsum_end. kp.
Qed.
Lemma i_get p i : keeps io_same (list_getf p i).
Proof. unfold list_getf, nth_data. kp. Qed.
Lemma i_put p i v : keeps io_same (list_putf p i v).
Proof. unfold list_putf. kp. Qed.
Hint Resolve i_get i_put : keeps.
Lemma i_parts k : forall j i x p, keeps io_same (fsum_parts k j i x p).
Proof. induction k as [|k IH]; intros; cbn [fsum_parts]; kp. Qed.
Hint Resolve i_parts : keeps.
Lemma i_loop E k : forall o s c m l p, keeps io_same (fsum_loop E k o s c m l p).
Proof. induction k as [|k IH]; intros; cbn [fsum_loop]; kp. Qed.
Lemma i_top k : forall hi lo p, keeps io_same (fsum_top k hi lo p).
Proof. induction k as [|k IH]; intros; cbn [fsum_top]; kp. Qed.
Hint Resolve i_loop i_top : keeps.
Lemma i_fsum E l : keeps io_same (built_fsum E (PList l)).
Proof. unfold built_fsum, fsum_end. cbn [is_null]. kp. Qed.
Lemma so_get p i : keeps strs_old (list_getf p i).
Proof. unfold list_getf, nth_data. kp. Qed.
Lemma so_put p i v : keeps strs_old (list_putf p i v).
Proof. unfold list_putf. kp. Qed.
Hint Resolve so_get so_put : keeps.
Lemma so_parts k : forall j i x p, keeps strs_old (fsum_parts k j i x p).
Proof. induction k as [|k IH]; intros; cbn [fsum_parts]; kp. Qed.
Hint Resolve so_parts : keeps.
Lemma so_loop E k : forall o s c m l p, keeps strs_old (fsum_loop E k o s c m l p).
Proof. induction k as [|k IH]; intros; cbn [fsum_loop]; kp. Qed.
Lemma so_top k : forall hi lo p, keeps strs_old (fsum_top k hi lo p).
Proof. induction k as [|k IH]; intros; cbn [fsum_top]; kp. Qed.
Hint Resolve so_loop so_top : keeps.
Lemma so_fsum E l : keeps strs_old (built_fsum E (PList l)).
Proof. unfold built_fsum, fsum_end. cbn [is_null]. kp. Qed.

(** ** The whole *)
Lemma reads_all ps : forall o (qs : list poly), skipn o ps = qs -> reads ps 1 o (map to_float qs).
Proof.
  intros o qs. revert o. induction qs as [|q qs IH]; intros o H; cbn [map reads]; [exact Logic.I|].
  assert (Nq : nth_error ps o = Some q).
  { rewrite <- (firstn_skipn o ps), H. assert (Lo : length (firstn o ps) = o) by (rewrite firstn_length; apply (f_equal (@List.length poly)) in H; rewrite skipn_length in H; cbn in H; lia).
    rewrite nth_error_app2 by lia. rewrite Lo, Nat.sub_diag. reflexivity. }
  split; [eauto|]. apply IH. rewrite Nat.add_1_r. apply skipn_nth in Nq. rewrite H in Nq. injection Nq as ->. reflexivity.
Qed.
Lemma skipn_add {A} a b : forall k : list A, skipn (a + b) k = skipn a (skipn b k).
Proof. induction b as [|b IH]; intros k; [now rewrite Nat.add_0_r|]. rewrite Nat.add_succ_r. destruct k; [now rewrite !skipn_nil|]. cbn [skipn]. apply IH. Qed.
Lemma reads_keys ps : forall k o (qs : list poly), (length qs <= k)%nat -> skipn o ps = qs -> reads ps 2 o (every_other (map to_float qs)).
Proof.
  induction k as [|k IH]; intros o qs Hk H.
  - destruct qs; [exact Logic.I|cbn in Hk; lia].
  - destruct qs as [|q [|q2 qs]]; cbn [map every_other reads]; [exact Logic.I| |].
    + pose proof (reads_all ps o [q] H) as [R _]. split; [exact R|exact Logic.I].
    + pose proof (reads_all ps o (q :: q2 :: qs) H) as [R _]. split; [exact R|]. apply IH; [cbn in Hk; lia|].
      rewrite Nat.add_comm, skipn_add, H. reflexivity.
Qed.

Lemma every_length : forall k (xs : list float), (length xs <= k)%nat -> length (every_other xs) = ((length xs + 1) / 2)%nat.
Proof.
  induction k as [|k IH]; intros xs H; [destruct xs; [reflexivity|cbn in H; lia]|]. destruct xs as [|x [|y xs]]; try reflexivity.
  cbn [every_other length] in *. rewrite IH by lia. replace (S (S (length xs)) + 1)%nat with (length xs + 1 + 1 * 2)%nat by lia. rewrite Nat.div_add by lia. lia.
Qed.
Lemma every_le xs : (length (every_other xs) <= length xs)%nat.
Proof. rewrite (every_length (length xs)) by lia. destruct xs; [cbn; lia|]. apply Nat.div_le_upper_bound; cbn [length]; lia. Qed.

Lemma fresh_numbers E m m' o : numeric (length (m_heap m)) m' -> length (m_heap m') = S (length (m_heap m)) ->
  nth_error (m_heap m') (length (m_heap m)) = Some (OList o) -> shape E o -> lo_kind o = KList -> fresh_ok E m m'.
Proof.
  intros N L Ho [A B C] K. right. split; [exact L|]. intros o1 H1. rewrite Ho in H1. injection H1 as <-.
  assert (F : Forall is_num (elems o)) by (apply num_first; eapply N; [|exact Ho]; lia).
  split; auto; try congruence.
  eapply Forall_impl; [|exact F]. intros p (f & ->). exact Logic.I.
Qed.

Lemma fsum_core E m l lo : wf_env E -> wf E m -> room E 2 m -> nth_error (m_heap m) l = Some (OList lo) ->
  fits (e_width E) (Z.of_nat (length (elems lo)) + 4) ->
  exists s, fsum (fun _ => true) (lkind_eqb (lo_kind lo) KDict) (map to_float (elems lo)) = Ok s /\
  runs (built_fsum E (PList l)) m (fun r m' => frame None m m' /\
     (length (m_heap m') = S (length (m_heap m)) /\ (exists o, nth_error (m_heap m') (length (m_heap m)) = Some (OList o) /\ shape E o /\ lo_kind o = KList) \/ fresh_ok E m m') /\
     ((r = PNum s /\ quiet m m') \/ (r = PNull /\ exists k, 0 <= k <= Z.of_nat (length (elems lo) + 4) /\ oom E k m m'))).
Proof.
  intros We W R Ho Hf. rewrite fsum_room. set (xs := if lkind_eqb (lo_kind lo) KDict then _ else _).
  destruct (ffinal_ok (rev (fadds xs []))) as (s & Es). exists s. split; [exact Es|].
  assert (Hst : stack_ok E m) by apply W. unfold stack_ok in Hst. unfold room in R.
  pose proof (wf_list_shape _ _ _ _ (wf_heap _ _ W _ _ Ho)) as Sh. pose proof (elems_length _ _ Sh) as Le.
  unfold built_fsum. cbn [is_null]. apply runs_bind. eexists _, m. split; [reflexivity|]. cbn [fst snd].
  eapply runs_deref; [reflexivity|exact Ho|]. apply runs_push_list; [unfold room; lia|reflexivity|].
  assert (Wp : wf E (pushed (PList l) m)). { apply wf_pushed; [exact W|unfold room; lia|]. exists lo. exact Ho. }
  assert (F4 : fits (e_width E) 4) by (unfold fits in *; lia).
  eapply runs_step; [apply make_runs; auto; [unfold room; cbn; lia|lia]|]. intros r m1 (F & H).
  eapply runs_pop_list; [|exact F|]; [lia|]. intros F1.
  destruct r as [p|].
  - destruct H as (Q & lp1 & o & -> & Ho1 & Sh1 & Hk & Hs & [(-> & Hlen)|(Hz & _)]); [|discriminate Hz]. cbn [pushed set_stack m_heap] in Ho1, Hlen |- *.
    assert (I : inv E m (popped m1) 4 []).
    { split; auto.
      - destruct (fr_empty _ _ _ F1) as [A|(A & l2 & B & C & (o2 & D1 & D2 & D3))]; [exact A|]. exfalso.
        assert (l2 < length (m_heap (popped m1)))%nat by (eapply nth_error_lt; eauto). cbn [popped set_stack m_heap] in *.
        assert (l2 = length (m_heap m)) by lia. subst l2. rewrite Ho1 in D1. injection D1 as <-. congruence.
      - exists o. cbn [popped set_stack m_heap length firstn]. repeat split; auto; try apply Sh1; lia. }
    assert (Rd : reads (elems lo) (if lkind_eqb (lo_kind lo) KDict then 2 else 1) 0 xs).
    { unfold xs. destruct (lkind_eqb _ _); [apply (reads_keys _ (length (elems lo))); [lia|reflexivity]|apply reads_all; reflexivity]. }
    assert (Lx : (length xs <= length (elems lo))%nat).
    { unfold xs. destruct (lkind_eqb _ _); [etransitivity; [apply every_le|]|]; rewrite map_length; lia. }
    replace (Nat.div _ _) with (length xs).
    2: { unfold xs. rewrite <- Le, Nat2Z.id. destruct (lkind_eqb _ _).
         - rewrite (every_length (length (elems lo))) by (rewrite map_length; lia). rewrite map_length. f_equal. lia.
         - rewrite map_length, Nat.div_1_r. lia. }
    assert (Hf2 : fits (e_width E) (Z.of_nat (length (elems lo) + 4))) by (rewrite Nat2Z.inj_add; exact Hf).
    eapply runs_step. { apply (loop_runs E m l lo Ho Hst R (length (elems lo) + 4) Hf2 _ xs (popped m1) 4 [] 0 I Rd). cbn [length]. lia. }
    intros r m2 H. destruct r as [[n p]|].
    + destruct H as (size' & -> & -> & [F2 Em2 Q2 L2 (o2 & Ho2 & (Sh2 & Kb2) & Sz2 & _ & D2)]).
      apply runs_bind. exists s, m2. split; [eapply end_eq; eauto|]. apply runs_ret. split; [exact F2|]. split; [left; eauto 6|]. left. auto.
    + destruct H as (F2 & L2 & O2 & K2). apply runs_ret. split; [exact F2|]. split; [left; auto|]. right. auto.
  - destruct H as (O & Fr). apply runs_ret. split; [exact F1|]. split; [right; exact Fr|]. right. split; [reflexivity|]. exists 4. split; [lia|]. exact O.
Qed.

Theorem fsum_machine P m l k ps : wf_env (pt_env P) -> wf (pt_env P) m -> wf_strs (pt_env P) (m_heap m) -> room (pt_env P) 2 m ->
  seq_at (m_heap m) l k ps -> fits (e_width (pt_env P)) (Z.of_nat (length ps) + 4) ->
  exists s, fsum (fun _ => true) (lkind_eqb k KDict) (map to_float ps) = Ok s /\
    runs (applied P "math.fsum" [PList l] []) m (sum_result (pt_env P) m (length ps + 4) s).
Proof.
  intros We W Ws R (lo & Ho & <- & <-) Hf. destruct (fsum_core (pt_env P) m l lo We W R Ho Hf) as (s & Es & H). exists s. split; [exact Es|].
  change (applied P "math.fsum" [PList l] []) with (built_fsum (pt_env P) (PList l)).
  pose proof (runs_keep _ _ _ _ (nu_fsum (length (m_heap m)) (pt_env P) l) (runs_keep _ _ _ _ (so_fsum (pt_env P) l) (runs_keep _ _ _ _ (i_fsum (pt_env P) l) H))) as G.
  eapply runs_mono; [exact G|]. intros r m' ((((F & Fr & Rs) & Io) & So) & Nu).
  assert (W' : wf (pt_env P) m').
  { eapply wf_fresh; [exact W|exact F|]. destruct Fr as [(L & o & Hn & Sh & K)|Fr]; [|exact Fr]. eapply fresh_numbers; eauto.
    apply Nu. intros l2 o2 Hl H2. apply nth_error_lt in H2. lia. }
  split; [exact W'|]. split; [intros l2 s2 H2; apply So in H2; apply (Ws _ _ H2)|]. split; [destruct F; split; assumption|].
  split; [apply kept_others; apply F|]. split; [exact Io|exact Rs].
Qed.
