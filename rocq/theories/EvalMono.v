(** More fuel does not change what the evaluator says. *)
From Coq Require Import ZArith Bool List Lia.
From Verif Require Import Base FloatModel PolyModel ValueModel MathModel MachModel ListModel StrModel BinModel FrameModel CodeModel CompModel ExecModel LayoutSpec EvalSpec.
Import ListNotations.
Local Open Scope Z_scope.
Open Scope eval_scope.
Open Scope st_scope.
Notation Sn := Datatypes.S.

Definition below {A} (x y : X A) : Prop := forall s, x s = Fuel \/ x s = y s.
Lemma below_refl {A} (x : X A) : below x x.
Proof. intro s. auto. Qed.
Lemma below_fuel {A} (y : X A) : below xfuel y.
Proof. intro s. auto. Qed.
Lemma below_bind {A B} (x x' : X A) (f f' : A -> X B) :
  below x x' -> (forall a, below (f a) (f' a)) -> below (xbind x f) (xbind x' f').
Proof.
  intros H Hf s. unfold xbind. destruct (H s) as [->| ->]; [auto|]. destruct (x' s) as [a s1| | | |]; auto. apply Hf.
Qed.
Lemma below_trans {A} (x y z : X A) : below x y -> below y z -> below x z.
Proof. intros H1 H2 s. destruct (H1 s) as [|H]; auto. destruct (H2 s) as [G|G]; [left; congruence|right; congruence]. Qed.

Ltac bl :=
  repeat first
    [ assumption
    | apply below_refl
    | apply below_fuel
    | match goal with H : forall _, _ |- below _ _ => solve [apply H] end
    | apply below_bind; [|intro]
    | match goal with |- below (if ?b then _ else _) _ => destruct b end
    | match goal with |- below (match ?x with _ => _ end) _ => destruct x end
    | progress intros ].

Section Mono.
Variable K : conf.
Variable FT : loc -> option (func fundef).
Definition all_mono (n m : nat) : Prop :=
  (forall e, below (ev K FT n e) (ev K FT m e)) /\
  (forall a, below (ev_args K FT n a) (ev_args K FT m a)) /\
  (forall d, below (ev_dents K FT n d) (ev_dents K FT m d)) /\
  (forall o, below (ev_opt K FT n o) (ev_opt K FT m o)) /\
  (forall x l, below (ev_links K FT n x l) (ev_links K FT m x l)) /\
  (forall f, below (body K FT n f) (body K FT m f)) /\
  (forall fs, below (defaults K FT n fs) (defaults K FT m fs)) /\
  (forall d i s, below (exs K FT n d i s) (exs K FT m d i s)) /\
  (forall d i r, below (ex_rest K FT n d i r) (ex_rest K FT m d i r)) /\
  (forall d i e s t, below (while K FT n d i e s t) (while K FT m d i e s t)) /\
  (forall d i x s t, below (loop K FT n d i x s t) (loop K FT m d i x s t)).
Lemma mono_step n : all_mono n (Sn n).
Proof.
  induction n as [|n (I1 & I2 & I3 & I4 & I5 & I6 & I7 & I8 & I9 & I10 & I11)].
  { unfold all_mono. repeat split; intros; apply below_fuel. }
  unfold all_mono.
  refine (conj _ (conj _ (conj _ (conj _ (conj _ (conj _ (conj _ (conj _ (conj _ (conj _ _)))))))))); intros.
  - rewrite (ev_S K FT n), (ev_S K FT (Sn n)). bl.
  - rewrite (ev_args_S K FT n), (ev_args_S K FT (Sn n)). bl.
  - rewrite (ev_dents_S K FT n), (ev_dents_S K FT (Sn n)). bl.
  - rewrite (ev_opt_S K FT n), (ev_opt_S K FT (Sn n)). bl.
  - rewrite (ev_links_S K FT n), (ev_links_S K FT (Sn n)). bl.
  - rewrite (body_S K FT n), (body_S K FT (Sn n)). bl.
  - rewrite (defaults_S K FT n), (defaults_S K FT (Sn n)). bl.
  - rewrite (exs_S K FT n), (exs_S K FT (Sn n)). bl.
  - rewrite (ex_rest_S K FT n), (ex_rest_S K FT (Sn n)). bl.
  - rewrite (while_S K FT n), (while_S K FT (Sn n)). bl.
  - rewrite (loop_S K FT n), (loop_S K FT (Sn n)). bl.
Qed.
Lemma mono n k : all_mono n (k + n).
Proof.
  induction k as [|k (J1 & J2 & J3 & J4 & J5 & J6 & J7 & J8 & J9 & J10 & J11)].
  - unfold all_mono. repeat split; intros; apply below_refl.
  - destruct (mono_step (k + n)) as (I1 & I2 & I3 & I4 & I5 & I6 & I7 & I8 & I9 & I10 & I11). cbn [plus].
    unfold all_mono.
    refine (conj _ (conj _ (conj _ (conj _ (conj _ (conj _ (conj _ (conj _ (conj _ (conj _ _)))))))))); intros; eapply below_trans; eauto.
Qed.
Lemma mono_le n m : (n <= m)%nat -> all_mono n m.
Proof. intro H. replace m with ((m - n) + n)%nat by lia. apply mono. Qed.
End Mono.
