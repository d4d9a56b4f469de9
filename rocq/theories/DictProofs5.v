(** Sets of keys, and tuples under element assignment and deletion. *)
From Verif Require Import Tac Base FloatModel PolyModel ValueModel OrderSpec OrderProofs OrderProofs2 SliceModel SliceSpec SliceProofs MachModel ListModel MachSpec ListSpec DictSpec MachProofs FrameProofs ListProofs ListProofs2 ListProofs3 DictProofs DictProofs2 DictProofs3 DictProofs4.
Local Open Scope Z_scope.
Open Scope mach_scope.

Lemma scalar_prefix_free : prefix_free scalar.
Proof.
  intros a b Ha Hb. split; [destruct a; cbn in *; auto; contradiction|].
  split; [destruct a; cbn in *; auto; contradiction|]. apply np_other. left. intros k l ->. exact Ha.
Qed.

Lemma tuples_of_seq : forall n k vs, tuples_of n (VSeq k vs) <-> length vs = n /\ Forall (tuples_of n) vs.
Proof.
  intros n k vs. cbn [tuples_of]. apply and_iff_compat_l. induction vs as [|v vs IH]; [split; auto|].
  rewrite IH. split; [intros [A B]; constructor; assumption | intros H; inversion H; auto].
Qed.

Lemma same_length_prefix_free : forall n, prefix_free (fun v => canonical v /\ frozen v /\ tuples_of n v).
Proof.
  intros n. assert (H : forall a, canonical a -> frozen a -> tuples_of n a -> forall b, canonical b -> frozen b -> tuples_of n b -> no_prefix a b).
  { induction a as [f|s|u|u|k l IH] using value_ind'; intros Ca Fa Ta b Cb Fb Tb; try (apply np_other; left; discriminate).
    destruct b as [g|t|k' l'|u'|u']; try (apply np_other; right; discriminate).
    apply frozen_seq in Fa, Fb. destruct Fa as [-> Fa], Fb as [-> Fb]. apply tuples_of_seq in Ta, Tb.
    destruct Ta as [La Ta], Tb as [Lb Tb]. apply np_seq. apply canonical_seq in Ca, Cb.
    assert (L : length l = length l') by congruence. clear La Lb.
    revert l' L Cb Fb Tb. induction IH as [|x l Hx _ IHl]; intros [|y l'] L Cb Fb Tb; try discriminate; [constructor|].
    inversion Ca; subst. inversion Fa; subst. inversion Ta; subst. inversion Cb; subst. inversion Fb; subst. inversion Tb; subst.
    assert (N : no_prefix x y) by auto.
    destruct (Z.eq_dec (poly_cmp x y) 0) as [E|E].
    - apply npl_same; [exact N | apply poly_cmp_eq; assumption|]. apply IHl; auto.
    - apply npl_diff; [exact N|]. intros V. apply E. apply poly_cmp_eq; assumption. }
  intros a b (Ca & Fa & Ta) (Cb & Fb & Tb). split; [exact Ca|]. split; [exact Fa|]. auto.
Qed.

Lemma tuple_store : forall E m l xs p v, seq_at (m_heap m) l KTuple xs ->
  elem_assign E (PList l) p v m = Some (tt, errored (EType1 (PList l)) m).
Proof.
  intros E m l xs p v (o & Ho & Hk & He). unfold elem_assign, poly_to_list, here, bind.
  rewrite (deref_list_eq l (m_epoch m) m o eq_refl Ho), Hk. apply error_eq.
Qed.

Lemma errored_twice : forall e e' m, errored e' (errored e m) = errored e m.
Proof. intros e e' m. unfold errored at 1. destruct (errored_reported e m) as [-> _]. reflexivity. Qed.

Lemma tuple_del : forall E m l xs f i, wf E m -> wf_env E -> wbits (e_width E) <= e_int E ->
  seq_at (m_heap m) l KTuple xs -> denotes E f i ->
  elem_del E (PList l) (PNum f) m = Some (tt, errored (match py_pos (length xs) i with Some _ => EValue (PList l) | None => EValue (PNum f) end) m).
Proof.
  intros E m l xs f i W We Hw Hx Hi. pose proof Hx as (o & Ho & Hk & He).
  unfold elem_del, list_del, hold, poly_to_list, here. unfold bind at 1. unfold bind at 1.
  destruct (ref_list_runs E m l KTuple xs f i true true) as (r & m' & Hr & Hp & Hm'); auto; [discriminate | apply Hi | apply Hi |].
  unfold list_ref, bind at 1. rewrite Hr. destruct (py_pos (length xs) i) as [j|]; cbn [option_map] in Hp; subst r; subst m'.
  - unfold bind at 1. rewrite (deref_list_eq l (m_epoch m) m o eq_refl Ho), Hk.
    unfold bind, use. cbn [fst snd]. rewrite Nat.eqb_refl, orb_true_r. apply error_eq.
  - reflexivity.
Qed.
