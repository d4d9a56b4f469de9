(** The lexicographic order of values (OrderSpec.v) is a strict order
    compatible with equality. *)
From Verif Require Import Tac Base FloatModel PolyModel ValueModel OrderSpec OrderProofs.
From Coq Require Import Lia.
Local Open Scope Z_scope.

Lemma value_eq_refl : forall a, value_eq a a.
Proof.
  induction a as [f|s|u|u|k l IH] using value_ind'; constructor.
  - apply num_eq_key. reflexivity.
  - induction IH; constructor; auto.
Qed.
Lemma value_eq_sym : forall a b, value_eq a b -> value_eq b a.
Proof.
  induction a as [f|s|u|u|k l IH] using value_ind'; intros b H; inversion H; subst; constructor.
  - apply num_eq_key. apply num_eq_key in H1. congruence.
  - clear H. revert l' H3. induction IH as [|x l Hx _ IHl]; intros l' H; inversion H; subst; constructor; auto.
Qed.
Lemma value_eq_trans : forall a b c, value_eq a b -> value_eq b c -> value_eq a c.
Proof.
  induction a as [f|s|u|u|k l IH] using value_ind'; intros b c H H'; inversion H; subst; inversion H'; subst; constructor.
  - apply num_eq_key. rewrite num_eq_key in *. congruence.
  - clear H H'. revert l' l'0 H3 H4. induction IH as [|x l Hx _ IHl]; intros l1 l2 H1 H2; inversion H1; subst;
      inversion H2; subst; constructor; eauto.
Qed.
Lemma value_eq_rank : forall a b, value_eq a b -> kind_rank a = kind_rank b.
Proof. intros a b H. inversion H; reflexivity. Qed.

Lemma value_eq_seq : forall k l k' l', value_eq (VSeq k l) (VSeq k' l') <-> k = k' /\ Forall2 value_eq l l'.
Proof. intros. split; [intros H; inversion H; subst; auto | intros [-> H]; constructor; exact H]. Qed.

(** [value_lt] on two sequences, and otherwise. *)
Definition is_seq (v : value) : bool := match v with VSeq _ _ => true | _ => false end.
Lemma value_lt_seq : forall k l k' l', value_lt (VSeq k l) (VSeq k' l') <->
  lkind_code k < lkind_code k' \/ (k = k' /\ seq_lt l l').
Proof.
  intros. split.
  - intros H. inversion H as [? ? Hs| |]; subst; auto. destruct Hs as [Hs|[]]. cbn in Hs. lia.
  - intros [H|[-> H]]; [apply vlt_kind | apply vlt_seq]; auto.
Qed.
Lemma value_lt_other : forall a b, is_seq a && is_seq b = false -> (value_lt a b <-> scalar_lt a b).
Proof.
  intros a b Hs. split; [| apply vlt_scalar]. intros H. inversion H; subst; auto; discriminate.
Qed.
Lemma lkind_code_inj : forall k k', lkind_code k = lkind_code k' -> k = k'.
Proof. destruct k, k'; cbn; congruence. Qed.

Lemma scalar_lt_rank : forall a b, kind_rank a < kind_rank b -> scalar_lt a b.
Proof. intros. left. assumption. Qed.
Lemma scalar_lt_le : forall a b, scalar_lt a b -> kind_rank a <= kind_rank b.
Proof. intros a b [H|H]; [lia|]. destruct a, b; try contradiction; cbn; lia. Qed.
Lemma value_lt_le : forall a b, value_lt a b -> kind_rank a <= kind_rank b.
Proof. intros a b H. inversion H; subst; cbn; try lia. apply scalar_lt_le. assumption. Qed.

Lemma value_lt_cases : forall a b, value_lt a b <->
  kind_rank a < kind_rank b \/
  match a, b with
  | VNum f, VNum g => zkey f < zkey g
  | VStr s, VStr t => str_lt s t
  | VFunc u, VFunc u' => u < u'
  | VBuiltin u, VBuiltin u' => u < u'
  | VSeq k l, VSeq k' l' => lkind_code k < lkind_code k' \/ (k = k' /\ seq_lt l l')
  | _, _ => False
  end.
Proof.
  intros a b. destruct (is_seq a && is_seq b) eqn:E.
  - destruct a, b; try discriminate. rewrite value_lt_seq. cbn [kind_rank]. split; [auto | intros [H|H]; [lia | exact H]].
  - rewrite value_lt_other by exact E. unfold scalar_lt.
    destruct a, b; try discriminate; try reflexivity. rewrite num_lt_key. reflexivity.
Qed.
Lemma value_eq_cases : forall a b, value_eq a b <->
  match a, b with
  | VNum f, VNum g => zkey f = zkey g
  | VStr s, VStr t => s = t
  | VFunc u, VFunc u' => u = u'
  | VBuiltin u, VBuiltin u' => u = u'
  | VSeq k l, VSeq k' l' => k = k' /\ Forall2 value_eq l l'
  | _, _ => False
  end.
Proof.
  intros a b. split.
  - intros H. inversion H; subst; auto. apply num_eq_key. assumption.
  - destruct a, b; intros H; try contradiction; try (subst; constructor).
    + apply num_eq_key. exact H.
    + destruct H as [-> H]. constructor. exact H.
Qed.

Lemma seq_lt_cases : forall l l', seq_lt l l' <->
  match l, l' with
  | [], _ :: _ => True
  | x :: l, y :: l' => value_lt x y \/ (value_eq x y /\ seq_lt l l')
  | _, [] => False
  end.
Proof.
  intros l l'. split.
  - intros H. inversion H; subst; auto.
  - destruct l, l'; intros H; try contradiction; [constructor|]. destruct H as [H|[H H']]; [apply slt_head | apply slt_tail]; auto.
Qed.

(** Equality preserves the order on both sides, and the order is transitive. *)
Definition order_ok (a : value) : Prop := forall b c,
  (value_eq a b -> value_lt b c -> value_lt a c) /\ (value_lt a b -> value_eq b c -> value_lt a c) /\
  (value_lt a b -> value_lt b c -> value_lt a c).

Lemma seq_order : forall l, Forall order_ok l -> forall y z,
  (Forall2 value_eq l y -> seq_lt y z -> seq_lt l z) /\ (seq_lt l y -> Forall2 value_eq y z -> seq_lt l z) /\
  (seq_lt l y -> seq_lt y z -> seq_lt l z).
Proof.
  induction 1 as [|a l Ha _ IH]; intros y z.
  - rewrite !seq_lt_cases. destruct y, z; repeat split; intros H1 H2; auto; try contradiction; inversion H1; inversion H2.
  - destruct y as [|b y].
    { repeat split; intros H1 H2; try (inversion H1; fail). }
    destruct z as [|c z].
    { repeat split; intros H1 H2; inversion H2. }
    rewrite (seq_lt_cases (a :: l) (b :: y)), (seq_lt_cases (b :: y) (c :: z)), (seq_lt_cases (a :: l) (c :: z)).
    destruct (Ha b c) as (A & B & C). destruct (IH y z) as (D & E & F).
    repeat split; intros H1 H2.
    + inversion H1; subst. destruct H2 as [H2|[H2 H3]]; [left; auto|]. right. split; [eapply value_eq_trans; eauto | auto].
    + inversion H2; subst. destruct H1 as [H1|[H1 H3]]; [left; auto|]. right. split; [eapply value_eq_trans; eauto | auto].
    + destruct H1 as [H1|[H1 H3]], H2 as [H2|[H2 H4]]; auto. right. split; [eapply value_eq_trans; eauto | auto].
Qed.

Lemma value_order : forall a, order_ok a.
Proof.
  induction a as [f|s|u|u|k l IH] using value_ind'; intros b c; rewrite !value_lt_cases, !value_eq_cases.
  all: repeat split; intros H1 H2.
  all: try (assert (kind_rank b <= kind_rank c) by (destruct H2 as [H2|H2]; [lia | destruct b, c; try contradiction; cbn; lia])).
  all: destruct b; try contradiction; try (destruct c; try contradiction); cbn [kind_rank] in *;
       try (left; lia); try (right; lia); auto.
  all: try (destruct H1 as [H1|H1]; [lia|]); try (destruct H2 as [H2|H2]; [lia|]); try (left; lia); try (right; lia);
       try contradiction; subst; auto.
  all: try (right; eapply str_lt_trans; eassumption).
  - right. destruct H1 as [-> H1], H2 as [H2|[-> H2]]; [left; exact H2|]. right. split; [reflexivity|].
    destruct (seq_order _ IH l0 l1) as (A & B & C). auto.
  - right. destruct H2 as [-> H2], H1 as [H1|[-> H1]]; [left; exact H1|]. right. split; [reflexivity|].
    destruct (seq_order _ IH l0 l1) as (A & B & C). auto.
  - right. destruct H1 as [H1|[-> H1]], H2 as [H2|[-> H2]]; auto; [left; lia|]. right. split; [reflexivity|].
    destruct (seq_order _ IH l0 l1) as (A & B & C). auto.
Qed.

Lemma value_lt_trans : forall a b c, value_lt a b -> value_lt b c -> value_lt a c.
Proof. intros a b c. apply value_order. Qed.
Lemma value_lt_eq_l : forall a b c, value_eq a b -> value_lt b c -> value_lt a c.
Proof. intros a b c. apply value_order. Qed.
Lemma value_lt_eq_r : forall a b c, value_lt a b -> value_eq b c -> value_lt a c.
Proof. intros a b c. apply value_order. Qed.
