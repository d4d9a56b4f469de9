(** Basic facts about the machine of MachModel.v. *)
From Verif Require Import Tac Base FloatModel PolyModel ValueModel OrderSpec OrderProofs SliceModel MachModel ListModel MachSpec.
Local Open Scope Z_scope.

(** * Running computations *)
Lemma runs_ret : forall A (a : A) m (Q : A -> mach -> Prop), Q a m -> runs (ret a) m Q.
Proof. intros A a m Q H. exists a, m. split; [reflexivity | exact H]. Qed.

Lemma runs_bind : forall A B (c : M A) (f : A -> M B) m Q,
  runs c m (fun a m' => runs (f a) m' Q) -> runs (bind c f) m Q.
Proof.
  intros A B c f m Q (a & m1 & Hc & b & m2 & Hf & HQ).
  exists b, m2. split; [| exact HQ]. unfold bind. rewrite Hc. exact Hf.
Qed.

Lemma runs_mono : forall A (c : M A) m (P Q : A -> mach -> Prop),
  runs c m P -> (forall a m', P a m' -> Q a m') -> runs c m Q.
Proof. intros A c m P Q (a & m1 & Hc & HP) H. exists a, m1. auto. Qed.

Lemma runs_step : forall A B (c : M A) (f : A -> M B) m P Q,
  runs c m P -> (forall a m', P a m' -> runs (f a) m' Q) -> runs (bind c f) m Q.
Proof. intros. apply runs_bind. eapply runs_mono; eauto. Qed.

Lemma runs_lift : forall A (o : option A) a m (Q : A -> mach -> Prop),
  o = Some a -> Q a m -> runs (lift o) m Q.
Proof. intros A o a m Q -> H. apply runs_ret. exact H. Qed.

Lemma runs_lift_bind : forall A B (o : option A) a (f : A -> M B) m Q,
  o = Some a -> runs (f a) m Q -> runs (bind (lift o) f) m Q.
Proof. intros. apply runs_bind. eapply runs_lift; eauto. Qed.

Lemma bind_assoc : forall A B C (c : M A) (f : A -> M B) (g : B -> M C) m,
  bind (bind c f) g m = bind c (fun a => bind (f a) g) m.
Proof. intros. unfold bind. destruct (c m) as [[a m1]|]; reflexivity. Qed.

Lemma runs_bind_ret : forall A (c : M A) m Q, runs (bind c ret) m Q -> runs c m Q.
Proof. intros A c m Q (a & m' & H & HQ). unfold bind, ret in H. destruct (c m) as [[b m1]|] eqn:E; [|discriminate]. injection H as <- <-. exists b, m1. auto. Qed.

Lemma runs_eq : forall A (c c' : M A) m Q, c m = c' m -> runs c' m Q -> runs c m Q.
Proof. intros A c c' m Q H (a & m1 & Hc & HQ). exists a, m1. rewrite H. auto. Qed.

(** * Lists *)
Lemma upd_length : forall A n (x : A) l, length (upd n x l) = length l.
Proof. intros A n x l. revert n. induction l as [|y l IH]; intros [|n]; cbn; auto. Qed.

Lemma nth_upd : forall A n (x : A) l i,
  nth_error (upd n x l) i = if Nat.eqb i n && Nat.ltb n (length l) then Some x else nth_error l i.
Proof.
  intros A n x l. revert n. induction l as [|y l IH]; intros n i.
  - destruct n, i; cbn; rewrite ?andb_false_r; reflexivity.
  - destruct n, i; cbn; auto. rewrite IH. reflexivity.
Qed.

Lemma nth_upd_same : forall A n (x : A) l, (n < length l)%nat -> nth_error (upd n x l) n = Some x.
Proof. intros. rewrite nth_upd, Nat.eqb_refl. destruct (Nat.ltb_spec n (length l)); [reflexivity | lia]. Qed.

Lemma nth_upd_other : forall A n (x : A) l i, i <> n -> nth_error (upd n x l) i = nth_error l i.
Proof. intros. rewrite nth_upd. destruct (Nat.eqb_spec i n); [congruence | reflexivity]. Qed.

Lemma upd_firstn : forall A n (x : A) l k, (k <= n)%nat -> firstn k (upd n x l) = firstn k l.
Proof.
  intros A n x l. revert n. induction l as [|y l IH]; intros n k H; [destruct n; reflexivity|].
  destruct n, k; cbn; try reflexivity; try lia. f_equal. apply IH. lia.
Qed.

Lemma upd_app : forall A (l : list A) x y r, upd (length l) y (l ++ x :: r) = l ++ y :: r.
Proof. induction l as [|a l IH]; intros; cbn; [reflexivity | f_equal; apply IH]. Qed.

Lemma nth_error_firstn : forall A (l : list A) n i, (i < n)%nat -> nth_error (firstn n l) i = nth_error l i.
Proof.
  induction l as [|x l IH]; intros [|n] [|i] H; cbn; try reflexivity; try lia. apply IH. lia.
Qed.

Lemma firstn_upd_in : forall A n (x : A) l k, (n < k)%nat -> firstn k (upd n x l) = upd n x (firstn k l).
Proof.
  intros A n x l. revert n. induction l as [|y l IH]; intros n k H.
  - destruct n, k; reflexivity.
  - destruct n, k; cbn; try reflexivity; try lia. f_equal. apply IH. lia.
Qed.

Lemma Forall_upd : forall A (P : A -> Prop) n x l, Forall P l -> P x -> Forall P (upd n x l).
Proof.
  intros A P n x l H Hx. revert n. induction H as [|y l Hy Hl IH]; intros [|n]; cbn; constructor; auto.
Qed.

Lemma Forall_firstn : forall A (P : A -> Prop) n l, Forall P l -> Forall P (firstn n l).
Proof. intros A P n l H. revert n. induction H; intros [|n]; cbn; constructor; auto. Qed.

Lemma Forall_skipn : forall A (P : A -> Prop) n l, Forall P l -> Forall P (skipn n l).
Proof. intros A P n l H. revert n. induction H; intros [|n]; cbn; auto; constructor; auto. Qed.

Lemma take_some : forall A n (l : list A), (n <= length l)%nat -> take n l = Some (firstn n l).
Proof. intros. unfold take. destruct (Nat.leb_spec n (length l)); [reflexivity | lia]. Qed.

Lemma blit_some : forall A off (src dst : list A), (off + length src <= length dst)%nat ->
  blit off src dst = Some (firstn off dst ++ src ++ skipn (off + length src) dst).
Proof. intros. unfold blit. destruct (Nat.leb_spec (off + length src) (length dst)); [reflexivity | lia]. Qed.

Lemma blit_length : forall A off (src dst d : list A), blit off src dst = Some d -> length d = length dst.
Proof.
  unfold blit. intros A off src dst d. destruct (Nat.leb_spec (off + length src) (length dst)); [| discriminate].
  intros [= <-]. rewrite !app_length, skipn_length, firstn_length. lia.
Qed.

Lemma junk_above_length : forall n l, length (junk_above n l) = length l.
Proof.
  intros. unfold junk_above. rewrite app_length, map_length, firstn_length, skipn_length. lia.
Qed.

Lemma junk_above_firstn : forall n l, firstn n (junk_above n l) = firstn n l.
Proof.
  intros. unfold junk_above. destruct (le_lt_dec n (length l)).
  - rewrite firstn_app, firstn_firstn, firstn_length.
    replace (n - Nat.min n (length l))%nat with 0%nat by lia.
    rewrite Nat.min_id. cbn [firstn]. apply app_nil_r.
  - rewrite (skipn_all2 l) by lia. cbn [map]. rewrite app_nil_r.
    rewrite firstn_firstn, Nat.min_id. reflexivity.
Qed.

(** * Trees *)
Lemma value_ind2 (P : value -> Prop) :
  (forall f, P (VNum f)) -> (forall s, P (VStr s)) -> (forall k l, Forall P l -> P (VSeq k l)) ->
  (forall u, P (VFunc u)) -> (forall u, P (VBuiltin u)) -> forall v, P v.
Proof. intros. apply value_ind'; assumption. Qed.

Lemma tree_seq : forall h p k vs,
  tree h p (VSeq k vs) <->
  exists l o, p = PList l /\ nth_error h l = Some (OList o) /\ lo_kind o = k /\ Forall2 (tree h) (elems o) vs.
Proof.
  intros h p k vs. cbn [tree].
  assert (A : forall ps,
    (fix all2 (ps : list poly) (vs : list value) {struct vs} : Prop :=
         match vs, ps with
         | [], [] => True
         | v :: vs', p :: ps' => tree h p v /\ all2 ps' vs'
         | _, _ => False
         end) ps vs <-> Forall2 (tree h) ps vs).
  { induction vs as [|v vs IH]; intros [|q ps].
    - split; [constructor | auto].
    - split; [contradiction | intros H; inversion H].
    - split; [contradiction | intros H; inversion H].
    - rewrite IH. split; [intros []; constructor; auto | intros H; inversion H; auto]. }
  split; intros (l & o & H1 & H2 & H3 & H4); exists l, o; repeat split; auto; apply A; assumption.
Qed.

Lemma frozen_seq : forall k vs, frozen (VSeq k vs) <-> k = KTuple /\ Forall frozen vs.
Proof.
  intros. cbn [frozen].
  assert (A : (fix all (vs : list value) : Prop := match vs with [] => True | v :: vs' => frozen v /\ all vs' end) vs
              <-> Forall frozen vs).
  { induction vs as [|v vs IH]; [split; auto|].
    rewrite IH. split; [intros []; constructor; auto | intros H; inversion H; auto]. }
  rewrite A. reflexivity.
Qed.

Lemma tree_fun : forall h v p v', tree h p v -> tree h p v' -> v = v'.
Proof.
  intros h. induction v as [f|s|k vs IH|u|u] using value_ind2; intros p v' H H'.
  - cbn in H. subst. destruct v'; cbn in H'; try congruence; try (destruct H' as (?&?&?); congruence).
    destruct H' as (?&?&?&?); congruence.
  - cbn in H. destruct H as (l & -> & H). destruct v'; cbn in H'; try congruence; try (destruct H' as (?&?&?); congruence).
    destruct H' as (?&?&?&?); congruence.
  - apply tree_seq in H. destruct H as (l & o & -> & Ho & Hk & Hvs).
    destruct v' as [| |k' vs'| |]; try (cbn in H'; try congruence; destruct H' as (?&?&?); congruence).
    apply tree_seq in H'. destruct H' as (l' & o' & [= <-] & Ho' & Hk' & Hvs').
    rewrite Ho in Ho'. injection Ho' as <-. f_equal; [congruence|].
    clear Hk Hk' Ho. revert vs' Hvs'. generalize dependent (elems o). clear o.
    induction vs as [|v vs IHvs]; intros ps Hvs vs' Hvs'; inversion Hvs; subst; inversion Hvs'; subst; [reflexivity|].
    inversion IH; subst. f_equal; eauto.
  - cbn in H. destruct H as (l & -> & ->). destruct v'; cbn in H'; try congruence; try (destruct H' as (?&?&?); congruence).
    destruct H' as (?&?&?&?); congruence.
  - cbn in H. subst. destruct v'; cbn in H'; try congruence; try (destruct H' as (?&?&?); congruence).
    destruct H' as (?&?&?&?); congruence.
Qed.

(** Depth of a value. *)
Fixpoint vdepth (v : value) : nat :=
  match v with
  | VSeq _ vs => S ((fix mx (vs : list value) := match vs with [] => 0%nat | v :: vs' => Nat.max (vdepth v) (mx vs') end) vs)
  | _ => 0%nat
  end.
Fixpoint vdepths (vs : list value) : nat := match vs with [] => 0%nat | v :: vs' => Nat.max (vdepth v) (vdepths vs') end.
Lemma vdepth_seq : forall k vs, vdepth (VSeq k vs) = S (vdepths vs).
Proof. intros. cbn [vdepth]. f_equal. Qed.
Lemma vdepths_in : forall vs v, In v vs -> (vdepth v <= vdepths vs)%nat.
Proof. induction vs as [|x vs IH]; intros v []; cbn [vdepths]; [subst; lia | specialize (IH v H); lia]. Qed.
Lemma vdepths_witness : forall vs, (0 < vdepths vs)%nat -> exists v, In v vs /\ vdepth v = vdepths vs.
Proof.
  induction vs as [|x vs IH]; cbn [vdepths]; intros H; [lia|].
  destruct (le_lt_dec (vdepths vs) (vdepth x)).
  - exists x. split; [left; reflexivity | lia].
  - destruct IH as (v & Hv & E); [lia|]. exists v. split; [right; exact Hv | lia].
Qed.

(** A finite structure nests at most as deep as there are objects: the lists
    on a path inwards are distinct. *)
Lemma tree_chain : forall h v p, tree h p v ->
  exists ls, length ls = vdepth v /\ NoDup ls /\
    (forall l, In l ls -> exists x, tree h (PList l) x /\ (1 <= vdepth x <= vdepth v)%nat).
Proof.
  intros h. induction v as [f|s|k vs IH|u|u] using value_ind2; intros p H;
    try (exists []; split; [reflexivity | split; [constructor | intros ? []]]).
  pose proof H as Hs. apply tree_seq in Hs. destruct Hs as (l & o & -> & Ho & Hk & Hvs).
  assert (Hsub : exists ls, length ls = vdepths vs /\ NoDup ls /\
    (forall l, In l ls -> exists x, tree h (PList l) x /\ (1 <= vdepth x <= vdepths vs)%nat)).
  { destruct (Nat.eq_dec (vdepths vs) 0) as [E|E].
    - exists []. rewrite E. split; [reflexivity | split; [constructor | intros ? []]].
    - destruct (vdepths_witness vs ltac:(lia)) as (v & Hv & E').
      rewrite Forall_forall in IH.
      assert (exists q, tree h q v) as (q & Hq).
      { clear -Hvs Hv. induction Hvs as [|q w qs ws Hqw _ IHH]; [contradiction|].
        destruct Hv as [<-|Hv]; eauto. }
      destruct (IH v Hv q Hq) as (ls & L & N & I). exists ls. rewrite <- E'. auto. }
  destruct Hsub as (ls & L & N & I). exists (l :: ls). rewrite vdepth_seq. split; [cbn; lia|].
  assert (S1 : forall x, In x ls -> x <> l).
  { intros x Hx ->. destruct (I l Hx) as (y & Hy & B).
    rewrite (tree_fun _ _ _ _ Hy H) in B. rewrite vdepth_seq in B. lia. }
  split.
  - constructor; [| exact N]. intros Hl. apply (S1 l Hl). reflexivity.
  - intros x [<-|Hx].
    + exists (VSeq k vs). split; [exact H | rewrite vdepth_seq; lia].
    + destruct (I x Hx) as (y & Hy & B). exists y. split; [exact Hy | lia].
Qed.

Lemma tree_depth : forall h v p, tree h p v -> (vdepth v <= length h)%nat.
Proof.
  intros h v p H. destruct (tree_chain h v p H) as (ls & <- & N & I).
  transitivity (length (seq 0 (length h))); [| rewrite seq_length; lia].
  apply NoDup_incl_length; [exact N|]. intros l Hl. apply in_seq. split; [lia|]. cbn.
  destruct (I l Hl) as ([| |k vs| |] & Hx & B); cbn [vdepth] in B; try lia.
  apply tree_seq in Hx. destruct Hx as (l' & o & [= <-] & Ho & _). apply nth_error_Some. congruence.
Qed.

(** * Comparison of heap values *)
Lemma live_elems : forall o, live o = elems o.
Proof. reflexivity. Qed.

Lemma tree_type : forall h p v, tree h p v -> poly_type p = vtype v.
Proof.
  intros h p v H. destruct v; cbn in H; try (subst; reflexivity).
  - destruct H as (l & -> & _). reflexivity.
  - destruct H as (l0 & o & -> & _). reflexivity.
  - destruct H as (l & -> & _). reflexivity.
Qed.

Lemma cmp_loop_tree : forall h f xs ys vs ws,
  Forall2 (tree h) xs vs -> Forall2 (tree h) ys ws ->
  (forall x v y w, In v vs -> tree h x v -> tree h y w -> f x y = Some (poly_cmp v w)) ->
  cmp_loop f xs ys = Some (list_cmp_loop vs ws).
Proof.
  intros h f xs ys vs ws Hx. revert ys ws. induction Hx as [|x v xs vs Hxv _ IH]; intros ys ws Hy Hf.
  - inversion Hy; subst; reflexivity.
  - inversion Hy as [|y w ys' ws' Hyw Hys]; subst; cbn [cmp_loop list_cmp_loop]; [reflexivity|].
    rewrite (Hf x v y w (or_introl eq_refl) Hxv Hyw).
    destruct (poly_cmp v w =? 0); cbn [negb]; [| reflexivity].
    apply IH; [assumption | intros; apply Hf; auto; right; assumption].
Qed.

Lemma hcmp_tree : forall h v p q w n, tree h p v -> tree h q w -> (vdepth v < n)%nat ->
  hcmp n h false p q = Some (poly_cmp v w).
Proof.
  intros h. induction v as [f|s|k vs IH|u|u] using value_ind2; intros p q w n Hp Hq Hn;
    destruct n as [|n]; try lia; cbn [hcmp];
    rewrite (tree_type _ _ _ Hp), (tree_type _ _ _ Hq).
  - cbn in Hp. subst. destruct w; cbn in Hq; try reflexivity. subst. reflexivity.
  - destruct w; try (cbn in Hq; reflexivity).
    destruct Hp as (l & -> & Hp). destruct Hq as (l' & -> & Hq). cbn. rewrite Hp, Hq. reflexivity.
  - destruct w as [| |k' ws| |]; try (cbn in Hq; reflexivity).
    apply tree_seq in Hp. destruct Hp as (l & o & -> & Ho & <- & Hvs).
    apply tree_seq in Hq. destruct Hq as (l' & o' & -> & Ho' & <- & Hws).
    rewrite poly_cmp_seq. cbn [vtype ptype_code Z.sub Z.eqb negb]. 
    replace (negb (ptype_code TList - ptype_code TList =? 0)) with false by reflexivity.
    rewrite Ho, Ho', !live_elems.
    destruct (lkind_code (lo_kind o) - lkind_code (lo_kind o') =? 0); cbn [negb]; [| reflexivity].
    eapply cmp_loop_tree; eauto. intros x v y w Hv Hx Hy.
    rewrite Forall_forall in IH. eapply IH; eauto.
    rewrite vdepth_seq in Hn. pose proof (vdepths_in vs v Hv). lia.
  - destruct w; try (cbn in Hq; reflexivity).
    destruct Hp as (l & -> & ->). destruct Hq as (l' & -> & ->). reflexivity.
  - cbn in Hp. subst. destruct w; cbn in Hq; try reflexivity. subst. reflexivity.
Qed.
