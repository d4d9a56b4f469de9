(** Parsing an expression ends: fuel proportional to the number of tokens is enough. *)
From Coq Require Import ZArith Bool List Ascii String Lia.
From Verif Require Import Base FloatModel PolyModel ValueModel MathModel BinModel LexModel CompModel GramModel GramEqs GramSpec GramComplete GramSound.
Import ListNotations.
Local Open Scope parse_scope.
Local Open Scope nat_scope.

Definition fine {A} (len n c : nat) (r : pr A) : Prop :=
  (24 * len + c <= n -> r <> NoFuel) /\ (forall a rest, r = Parsed a rest -> length rest <= len).
Lemma fine_weak A len n c len' n' c' (r : pr A) : fine len' n' c' r -> len' <= len -> (24 * len + c <= n -> 24 * len' + c' <= n') -> fine len n c r.
Proof. intros [H1 H2] L K. split; [auto|]. intros a rest E. specialize (H2 _ _ E). lia. Qed.
Lemma fine_ret A len n c (a : A) rest : length rest <= len -> fine len n c (Parsed a rest).
Proof. intro L. split; [discriminate|]. intros b r E. injection E as -> ->. exact L. Qed.
Lemma fine_syntax A len n c : fine len n c (@Syntax A).
Proof. split; discriminate. Qed.
Lemma fine_bind A B len n c (x : pr A) (f : A -> list item -> pr B) :
  fine len n c x -> (forall a rest, length rest <= len -> fine len n c (f a rest)) -> fine len n c (pbind x f).
Proof.
  intros [X1 X2] F. destruct x as [a rest| |]; cbn.
  - apply F. eapply X2. reflexivity.
  - apply fine_syntax.
  - split; [|discriminate]. intros L. exfalso. exact (X1 L eq_refl).
Qed.
Lemma fine_bindw A B len n c len' n' c' (x : pr A) (f : A -> list item -> pr B) :
  fine len' n' c' x -> len' <= len -> (24 * len + c <= n -> 24 * len' + c' <= n') ->
  (forall a rest, length rest <= len' -> fine len n c (f a rest)) -> fine len n c (pbind x f).
Proof.
  intros [X1 X2] L K F. destruct x as [a rest| |]; cbn.
  - apply F. eapply X2. reflexivity.
  - apply fine_syntax.
  - split; [|discriminate]. intros Q. exfalso. exact (X1 (K Q) eq_refl).
Qed.
Lemma fine_eat len n c f ts : length ts <= len -> fine len n c (eat f ts).
Proof.
  intro L. unfold eat. destruct (take (want f) ts) as [[[u i] r]|] eqn:E; [|apply fine_syntax].
  apply take_some in E as [-> _]. apply fine_ret. cbn in L. lia.
Qed.
Lemma fine_bind_eat B len n c f ts (g : unit -> list item -> pr B) :
  (forall a rest, length ts = S (length rest) -> fine len n c (g a rest)) -> fine len n c (pbind (eat f ts) g).
Proof.
  intro G. unfold eat. destruct (take (want f) ts) as [[[u i] r]|] eqn:E; [|apply fine_syntax].
  apply take_some in E as [-> _]. cbn. apply G. reflexivity.
Qed.
Lemma take_len A (f : token -> option A) ts a i ts' : take f ts = Some (a, i, ts') -> length ts = S (length ts').
Proof. intro E. apply take_some in E as [-> _]. reflexivity. Qed.
Lemma strings_len ts : length (snd (p_strings ts)) <= length ts.
Proof.
  induction ts as [|i ts IH]; cbn; [lia|]. destruct (i_tok i); cbn; try lia. destruct (p_strings ts). cbn in *. lia.
Qed.
Definition bc (l : level) : nat := match l with Lmul => 5 | Ladd => 6 | Lshift => 7 | Land => 8 | Lxor => 9 | Lor => 10 end.
Lemma bc_pos l : 1 <= bc l.
Proof. destruct l; cbn; lia. Qed.
Lemma bc_up l : 5 <= bc l <= 10 /\ match tighter l with Some l' => bc l' < bc l | None => 4 < bc l end.
Proof. destruct l; cbn; lia. Qed.

Section Total.
Variable w : width.
Variable idof : list Z -> Z.
Variable numof : list Z -> float.

Definition totals (n : nat) : Prop :=
  (forall  ts, fine (length ts) n 14 (p_expr w idof numof n  ts)) /\
  (forall x ts, fine (length ts) n 1 (p_or_p w idof numof n x ts)) /\
  (forall  ts, fine (length ts) n 13 (p_and w idof numof n  ts)) /\
  (forall x ts, fine (length ts) n 1 (p_and_p w idof numof n x ts)) /\
  (forall  ts, fine (length ts) n 12 (p_not w idof numof n  ts)) /\
  (forall  ts, fine (length ts) n 11 (p_cmp w idof numof n  ts)) /\
  (forall  ts, fine (length ts) n 1 (p_cmp_p w idof numof n  ts)) /\
  (forall l ts, fine (length ts) n (bc l) (p_bin w idof numof n l ts)) /\
  (forall l x ts, fine (length ts) n 1 (p_bin_p w idof numof n l x ts)) /\
  (forall  ts, fine (length ts) n 4 (p_unary w idof numof n  ts)) /\
  (forall  ts, fine (length ts) n 3 (p_pow w idof numof n  ts)) /\
  (forall  ts, fine (length ts) n 2 (p_array w idof numof n  ts)) /\
  (forall x ts, fine (length ts) n 1 (p_array_p w idof numof n x ts)) /\
  (forall x ts, fine (length ts) n 15 (p_index w idof numof n x ts)) /\
  (forall x a ts, fine (length ts) n 16 (p_slice w idof numof n x a ts)) /\
  (forall  ts, fine (length ts) n 15 (p_opt_expr w idof numof n  ts)) /\
  (forall  ts, fine (length ts) n 1 (p_prim w idof numof n  ts)) /\
  (forall  ts, fine (length ts) n 17 (p_opt_tuple w idof numof n  ts)) /\
  (forall  ts, fine (length ts) n 16 (p_opt_actuals w idof numof n  ts)) /\
  (forall k ts, fine (length ts) n 15 (p_actuals w idof numof n k ts)) /\
  (forall k ts, fine (length ts) n 1 (p_actuals_p w idof numof n k ts)) /\
  (forall  ts, fine (length ts) n 15 (p_dents w idof numof n  ts)) /\
  (forall  ts, fine (length ts) n 1 (p_dents_p w idof numof n  ts)).

Ltac fines1 := match goal with
  | |- fine _ _ _ (pbind (eat _ _) _) => apply fine_bind_eat; intros ? ? ?
  | H : forall ts, fine _ _ _ (?f _ _ _ _ ts) |- fine _ _ _ (pbind (?f _ _ _ _ _) _) => eapply fine_bindw; [apply H|lia|lia|intros ? ? ?]
  | H : forall a ts, fine _ _ _ (?f _ _ _ _ a ts) |- fine _ _ _ (pbind (?f _ _ _ _ _ _) _) => eapply fine_bindw; [apply H|lia|cbn [bc]; lia|intros ? ? ?]
  | H : forall a b ts, fine _ _ _ (?f _ _ _ _ a b ts) |- fine _ _ _ (pbind (?f _ _ _ _ _ _ _) _) => eapply fine_bindw; [apply H|lia|cbn [bc]; lia|intros ? ? ?]
  | |- fine _ _ _ (pbind _ _) => apply fine_bind; [|intros ? ? ?]
  | |- fine _ _ _ (Parsed _ _) => apply fine_ret; lia
  | |- fine _ _ _ Syntax => apply fine_syntax
  | |- fine _ _ _ (eat _ _) => apply fine_eat; lia
  | |- fine _ _ _ (match take ?f ?ts with Some _ => _ | None => _ end) =>
      let E := fresh in destruct (take f ts) as [[[? ?] ?]|] eqn:E; [apply take_len in E|clear E]
  | |- fine _ _ _ (if ?b then _ else _) => destruct b
  | |- fine _ _ _ (match as_name ?x with Some _ => _ | None => _ end) => destruct (as_name x)
  | H : forall ts, fine _ _ _ (?f _ _ _ _ ts) |- fine _ _ _ (?f _ _ _ _ _) => eapply fine_weak; [apply H|lia|lia]
  | H : forall a ts, fine _ _ _ (?f _ _ _ _ a ts) |- fine _ _ _ (?f _ _ _ _ _ _) => eapply fine_weak; [apply H|lia|cbn [bc]; lia]
  | H : forall a b ts, fine _ _ _ (?f _ _ _ _ a b ts) |- fine _ _ _ (?f _ _ _ _ _ _ _) => eapply fine_weak; [apply H|lia|cbn [bc]; lia]
  end.
Ltac fines := repeat fines1.

Theorem total : forall n, totals n.
Proof.
  induction n as [|n IH].
  { unfold totals. repeat match goal with |- _ /\ _ => split end; intros; (split; [|discriminate]); try lia. intro L. pose proof (bc_pos l). lia. }
  destruct IH as (Iexpr & Ior_p & Iand & Iand_p & Inot & Icmp & Icmp_p & Ibin & Ibin_p & Iunary & Ipow & Iarray & Iarray_p & Iindex & Islice & Iopt_expr & Iprim & Iopt_tuple & Iopt_actuals & Iactuals & Iactuals_p & Idents & Idents_p).
  unfold totals. repeat match goal with |- _ /\ _ => split end.
  - intros; rewrite p_expr_S; fines.
  - intros; rewrite p_or_p_S. fines.
  - intros; rewrite p_and_S; fines.
  - intros; rewrite p_and_p_S; fines.
  - intros; rewrite p_not_S; fines.
  - intros; rewrite p_cmp_S; fines.
  - intros; rewrite p_cmp_p_S; fines.
  - intros l ts; rewrite p_bin_S. pose proof (bc_up l) as T. destruct (tighter l) as [l'|]; fines.
  - intros l x ts; rewrite p_bin_p_S. pose proof (bc_up l) as T. destruct (tighter l) as [l'|]; fines.
  - intros; rewrite p_unary_S; fines.
  - intros; rewrite p_pow_S; fines.
  - intros; rewrite p_array_S; fines.
  - intros; rewrite p_array_p_S; fines.
  - intros; rewrite p_index_S; fines.
  - intros; rewrite p_slice_S; fines.
  - intros; rewrite p_opt_expr_S; fines.
  - intros ts; rewrite p_prim_S. destruct ts as [|i ts]; [fines|]. pose proof (strings_len ts) as L. cbn [length].
    destruct (i_tok i); fines. destruct (p_strings ts) as [ls r]. cbn [snd] in L. fines.
  - intros; rewrite p_opt_tuple_S; fines.
  - intros; rewrite p_opt_actuals_S; fines.
  - intros; rewrite p_actuals_S; fines.
  - intros; rewrite p_actuals_p_S; fines.
  - intros; rewrite p_dents_S; fines.
  - intros; rewrite p_dents_p_S; fines.
Qed.
End Total.

