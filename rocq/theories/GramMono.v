(** Parsing always ends: fuel proportional to the number of tokens is enough,
    and more of it changes nothing. *)
From Coq Require Import ZArith Bool List Ascii String Lia.
From Verif Require Import Base FloatModel PolyModel ValueModel MathModel BinModel LexModel CompModel GramModel GramEqs GramSpec GramComplete GramSound GramTotal.
Import ListNotations.
Local Open Scope parse_scope.
Local Open Scope nat_scope.

(** More fuel changes nothing but a lack of fuel *)
Definition le_pr {A} (r r' : pr A) : Prop := r = NoFuel \/ r = r'.
Lemma le_same A (r : pr A) : le_pr r r. Proof. right. reflexivity. Qed.
Lemma le_bind A B (x x' : pr A) (f f' : A -> list item -> pr B) :
  le_pr x x' -> (forall a rest, le_pr (f a rest) (f' a rest)) -> le_pr (pbind x f) (pbind x' f').
Proof. intros [->| <-] F; [left; reflexivity|]. destruct x; cbn; [apply F|apply le_same|apply le_same]. Qed.

Ltac grow1 := match goal with
  | |- le_pr ?x ?x => apply le_same
  | H : _ |- _ => apply H
  | |- le_pr (pbind _ _) (pbind _ _) => apply le_bind; [|intros ? ?]
  | |- le_pr (match take ?f ?ts with Some _ => _ | None => _ end) _ => destruct (take f ts) as [[[? ?] ?]|]
  | |- le_pr (if ?b then _ else _) _ => destruct b
  | |- le_pr (match as_name ?x with Some _ => _ | None => _ end) _ => destruct (as_name x)
  | |- le_pr (match as_target ?x with Some _ => _ | None => _ end) _ => destruct (as_target x)
  | |- le_pr (match tighter ?x with Some _ => _ | None => _ end) _ => destruct (tighter x)
  | |- le_pr (match ?x with [] => _ | _ :: _ => _ end) _ => destruct x
  | |- le_pr (match i_tok ?x with _ => _ end) _ => destruct (i_tok x)
  | |- le_pr (let '(_, _) := ?x in _) _ => destruct x
  end.
Ltac grow := repeat grow1.

Section Mono.
Variable w : width.
Variable idof : list Z -> Z.
Variable numof : list Z -> float.

Definition grows (n : nat) : Prop :=
  (forall  ts, le_pr (p_expr w idof numof n  ts) (p_expr w idof numof (S n)  ts)) /\
  (forall x ts, le_pr (p_or_p w idof numof n x ts) (p_or_p w idof numof (S n) x ts)) /\
  (forall  ts, le_pr (p_and w idof numof n  ts) (p_and w idof numof (S n)  ts)) /\
  (forall x ts, le_pr (p_and_p w idof numof n x ts) (p_and_p w idof numof (S n) x ts)) /\
  (forall  ts, le_pr (p_not w idof numof n  ts) (p_not w idof numof (S n)  ts)) /\
  (forall  ts, le_pr (p_cmp w idof numof n  ts) (p_cmp w idof numof (S n)  ts)) /\
  (forall  ts, le_pr (p_cmp_p w idof numof n  ts) (p_cmp_p w idof numof (S n)  ts)) /\
  (forall l ts, le_pr (p_bin w idof numof n l ts) (p_bin w idof numof (S n) l ts)) /\
  (forall l x ts, le_pr (p_bin_p w idof numof n l x ts) (p_bin_p w idof numof (S n) l x ts)) /\
  (forall  ts, le_pr (p_unary w idof numof n  ts) (p_unary w idof numof (S n)  ts)) /\
  (forall  ts, le_pr (p_pow w idof numof n  ts) (p_pow w idof numof (S n)  ts)) /\
  (forall  ts, le_pr (p_array w idof numof n  ts) (p_array w idof numof (S n)  ts)) /\
  (forall x ts, le_pr (p_array_p w idof numof n x ts) (p_array_p w idof numof (S n) x ts)) /\
  (forall x ts, le_pr (p_index w idof numof n x ts) (p_index w idof numof (S n) x ts)) /\
  (forall x a ts, le_pr (p_slice w idof numof n x a ts) (p_slice w idof numof (S n) x a ts)) /\
  (forall  ts, le_pr (p_opt_expr w idof numof n  ts) (p_opt_expr w idof numof (S n)  ts)) /\
  (forall  ts, le_pr (p_prim w idof numof n  ts) (p_prim w idof numof (S n)  ts)) /\
  (forall  ts, le_pr (p_opt_tuple w idof numof n  ts) (p_opt_tuple w idof numof (S n)  ts)) /\
  (forall  ts, le_pr (p_opt_actuals w idof numof n  ts) (p_opt_actuals w idof numof (S n)  ts)) /\
  (forall k ts, le_pr (p_actuals w idof numof n k ts) (p_actuals w idof numof (S n) k ts)) /\
  (forall k ts, le_pr (p_actuals_p w idof numof n k ts) (p_actuals_p w idof numof (S n) k ts)) /\
  (forall  ts, le_pr (p_dents w idof numof n  ts) (p_dents w idof numof (S n)  ts)) /\
  (forall  ts, le_pr (p_dents_p w idof numof n  ts) (p_dents_p w idof numof (S n)  ts)).
Theorem mono : forall n, grows n.
Proof.
  induction n as [|n IH]; unfold grows.
  { repeat match goal with |- _ /\ _ => split end; intros; left; reflexivity. }
  destruct IH as (Iexpr & Ior_p & Iand & Iand_p & Inot & Icmp & Icmp_p & Ibin & Ibin_p & Iunary & Ipow & Iarray & Iarray_p & Iindex & Islice & Iopt_expr & Iprim & Iopt_tuple & Iopt_actuals & Iactuals & Iactuals_p & Idents & Idents_p).
  repeat match goal with |- _ /\ _ => split end.
  - intros; rewrite (p_expr_S w idof numof n), (p_expr_S w idof numof (S n)); grow.
  - intros; rewrite (p_or_p_S w idof numof n), (p_or_p_S w idof numof (S n)); grow.
  - intros; rewrite (p_and_S w idof numof n), (p_and_S w idof numof (S n)); grow.
  - intros; rewrite (p_and_p_S w idof numof n), (p_and_p_S w idof numof (S n)); grow.
  - intros; rewrite (p_not_S w idof numof n), (p_not_S w idof numof (S n)); grow.
  - intros; rewrite (p_cmp_S w idof numof n), (p_cmp_S w idof numof (S n)); grow.
  - intros; rewrite (p_cmp_p_S w idof numof n), (p_cmp_p_S w idof numof (S n)); grow.
  - intros; rewrite (p_bin_S w idof numof n), (p_bin_S w idof numof (S n)); grow.
  - intros; rewrite (p_bin_p_S w idof numof n), (p_bin_p_S w idof numof (S n)); grow.
  - intros; rewrite (p_unary_S w idof numof n), (p_unary_S w idof numof (S n)); grow.
  - intros; rewrite (p_pow_S w idof numof n), (p_pow_S w idof numof (S n)); grow.
  - intros; rewrite (p_array_S w idof numof n), (p_array_S w idof numof (S n)); grow.
  - intros; rewrite (p_array_p_S w idof numof n), (p_array_p_S w idof numof (S n)); grow.
  - intros; rewrite (p_index_S w idof numof n), (p_index_S w idof numof (S n)); grow.
  - intros; rewrite (p_slice_S w idof numof n), (p_slice_S w idof numof (S n)); grow.
  - intros; rewrite (p_opt_expr_S w idof numof n), (p_opt_expr_S w idof numof (S n)); grow.
  - intros; rewrite (p_prim_S w idof numof n), (p_prim_S w idof numof (S n)); grow.
  - intros; rewrite (p_opt_tuple_S w idof numof n), (p_opt_tuple_S w idof numof (S n)); grow.
  - intros; rewrite (p_opt_actuals_S w idof numof n), (p_opt_actuals_S w idof numof (S n)); grow.
  - intros; rewrite (p_actuals_S w idof numof n), (p_actuals_S w idof numof (S n)); grow.
  - intros; rewrite (p_actuals_p_S w idof numof n), (p_actuals_p_S w idof numof (S n)); grow.
  - intros; rewrite (p_dents_S w idof numof n), (p_dents_S w idof numof (S n)); grow.
  - intros; rewrite (p_dents_p_S w idof numof n), (p_dents_p_S w idof numof (S n)); grow.
Qed.

Lemma expr_le n ts : le_pr (p_expr w idof numof n ts) (p_expr w idof numof (S n) ts).
Proof. apply (mono n). Qed.
Lemma array_le n ts : le_pr (p_array w idof numof n ts) (p_array w idof numof (S n) ts).
Proof. apply (mono n). Qed.
Lemma actuals_le n ts : le_pr (p_opt_actuals w idof numof n ts) (p_opt_actuals w idof numof (S n) ts).
Proof. apply (mono n). Qed.
Ltac grows := repeat first [apply expr_le | apply array_le | apply actuals_le | grow1].
Lemma p_assign_le n  ts : le_pr (p_assign w idof numof n  ts) (p_assign w idof numof (S n)  ts).
Proof. unfold p_assign. grows. Qed.
Lemma p_del_le n  ts : le_pr (p_del w idof numof n  ts) (p_del w idof numof (S n)  ts).
Proof. unfold p_del. grows. Qed.
Lemma p_dels_p_le n  ts : le_pr (p_dels_p w idof numof n  ts) (p_dels_p w idof numof (S n)  ts).
Proof.
  revert ts. induction n as [|n IH]; intro ts; [left; reflexivity|]. rewrite (p_dels_p_S w idof numof n), (p_dels_p_S w idof numof (S n)).
  repeat first [apply p_del_le|grows|grow1].
Qed.
Lemma p_globals_p_le n ts : le_pr (p_globals_p idof n ts) (p_globals_p idof (S n) ts).
Proof.
  revert ts. induction n as [|n IH]; intro ts; [left; reflexivity|]. rewrite (p_globals_p_S idof n), (p_globals_p_S idof (S n)). grow.
Qed.
Lemma p_globals_le n ts : le_pr (p_globals idof n ts) (p_globals idof (S n) ts).
Proof. unfold p_globals. repeat first [apply p_globals_p_le|grow1]. Qed.
Lemma p_ret_le n ts : le_pr (p_ret w idof numof n ts) (p_ret w idof numof (S n) ts).
Proof. unfold p_ret. grows. Qed.
Lemma p_small_le n ts : le_pr (p_small w idof numof n ts) (p_small w idof numof (S n) ts).
Proof. unfold p_small. repeat first [apply p_assign_le|apply p_ret_le|apply p_globals_le|apply p_del_le|apply p_dels_p_le|apply expr_le|grow1]. Qed.
Lemma p_smalls_p_le n  ts : le_pr (p_smalls_p w idof numof n  ts) (p_smalls_p w idof numof (S n)  ts).
Proof.
  revert ts. induction n as [|n IH]; intro ts; [left; reflexivity|]. rewrite (p_smalls_p_S w idof numof n), (p_smalls_p_S w idof numof (S n)).
  repeat first [apply p_small_le|grows|grow1].
Qed.
Lemma p_simple_le n ts : le_pr (p_simple w idof numof n ts) (p_simple w idof numof (S n) ts).
Proof. unfold p_simple. cbv zeta. repeat first [apply p_small_le|apply p_smalls_p_le|grow1]. Qed.
Definition sgrows (n : nat) : Prop :=
  (forall  ts, le_pr (p_stat w idof numof n  ts) (p_stat w idof numof (S n)  ts)) /\
  (forall  ts, le_pr (p_elif w idof numof n  ts) (p_elif w idof numof (S n)  ts)) /\
  (forall  ts, le_pr (p_else w idof numof n  ts) (p_else w idof numof (S n)  ts)) /\
  (forall  ts, le_pr (p_suite w idof numof n  ts) (p_suite w idof numof (S n)  ts)) /\
  (forall  ts, le_pr (p_stats w idof numof n  ts) (p_stats w idof numof (S n)  ts)).
Theorem smono : forall n, sgrows n.
Proof.
  induction n as [|n IH]; unfold sgrows.
  { repeat match goal with |- _ /\ _ => split end; intros; left; reflexivity. }
  destruct IH as (I1 & I2 & I3 & I4 & I5).
  repeat match goal with |- _ /\ _ => split end; intro ts.
  - rewrite (p_stat_S w idof numof n), (p_stat_S w idof numof (S n)). cbv zeta. repeat first [apply p_simple_le|apply expr_le|apply actuals_le|grow1].
  - rewrite (p_elif_S w idof numof n), (p_elif_S w idof numof (S n)). cbv zeta. repeat first [apply p_simple_le|apply expr_le|apply actuals_le|grow1].
  - rewrite (p_else_S w idof numof n), (p_else_S w idof numof (S n)). cbv zeta. repeat first [apply p_simple_le|apply expr_le|apply actuals_le|grow1].
  - rewrite (p_suite_S w idof numof n), (p_suite_S w idof numof (S n)). cbv zeta. repeat first [apply p_simple_le|apply expr_le|apply actuals_le|grow1].
  - rewrite (p_stats_S w idof numof n), (p_stats_S w idof numof (S n)). cbv zeta. repeat first [apply p_simple_le|apply expr_le|apply actuals_le|grow1].
Qed.
Lemma p_formal_le n b ts : le_pr (p_formal w idof numof n b ts) (p_formal w idof numof (S n) b ts).
Proof. unfold p_formal. grows. Qed.
Lemma p_formals_p_le n b ts : le_pr (p_formals_p w idof numof n b ts) (p_formals_p w idof numof (S n) b ts).
Proof.
  revert b ts. induction n as [|n IH]; intros b ts; [left; reflexivity|]. rewrite (p_formals_p_S w idof numof n), (p_formals_p_S w idof numof (S n)).
  repeat first [apply p_formal_le|grow1].
Qed.
Lemma p_opt_formals_le n ts : le_pr (p_opt_formals w idof numof n ts) (p_opt_formals w idof numof (S n) ts).
Proof. unfold p_opt_formals. repeat first [apply p_formal_le|apply p_formals_p_le|grow1]. Qed.
Lemma p_command_le n ts : le_pr (p_command w idof numof n ts) (p_command w idof numof (S n) ts).
Proof. unfold p_command. repeat first [apply p_opt_formals_le|apply (smono n)|grow1]. Qed.
Lemma p_start_le n  ts : le_pr (p_start w idof numof n  ts) (p_start w idof numof (S n)  ts).
Proof.
  revert ts. induction n as [|n IH]; intro ts; [left; reflexivity|]. rewrite (p_start_S w idof numof n), (p_start_S w idof numof (S n)).
  repeat first [apply p_command_le|grows|grow1].
Qed.

Lemma le_more A (f : nat -> pr A) : (forall n, le_pr (f n) (f (S n))) -> forall n m, n <= m -> le_pr (f n) (f m).
Proof.
  intros G n m L. induction L as [|m L IH]; [apply le_same|]. destruct IH as [->|E]; [left; reflexivity|]. rewrite E. apply G.
Qed.
(** what some amount gives, any amount that is enough gives *)
Lemma yields_enough A (f : nat -> pr A) r n : (forall n, le_pr (f n) (f (S n))) -> f n <> NoFuel -> yields f r -> f n = r.
Proof.
  intros G N [n0 Y]. destruct (le_more A f G n (Nat.max n n0) (Nat.le_max_l _ _)) as [E|E]; [contradiction|].
  rewrite E. apply Y. lia.
Qed.
End Mono.
