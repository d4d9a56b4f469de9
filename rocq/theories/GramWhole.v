(** The grammars compared: what one dialect reads another reads too; a phrase
    has one reading; Snek's reading of Python is Python's. *)
From Coq Require Import ZArith Bool List Ascii String Lia.
From Verif Require Import Base FloatModel PolyModel ValueModel MathModel BinModel LexModel CompModel GramModel GramSpec GramStmtSpec.
From Verif Require Import GramEqs GramComplete GramMono GramTotal GramTotal2 GramStmts GramSound GramStmtSound.
Import ListNotations.
Local Open Scope Z_scope.
Notation length := List.length (only parsing).

(** everything [D] allows [D'] allows *)
Record allows (D' D : dialect) : Prop := {
  al_pow : d_pow D = true -> d_pow D' = true;
  al_lax : d_lax D = true -> d_lax D' = true;
  al_limit : d_limit D' = None \/ d_limit D' = d_limit D;
  al_trail : d_trail D = true -> d_trail D' = true }.
Lemma python_allows w : allows python (common w).
Proof. split; cbn; auto; discriminate. Qed.
Lemma snek_allows w : allows (snek w) (common w).
Proof. split; cbn; auto. Qed.

Section Weaken.
Variables (D D' : dialect) (idof : list Z -> Z) (numof : list Z -> float).
Hypothesis HD : allows D' D.
Lemma list_weaken a : list_limit D a -> list_limit D' a.
Proof. unfold list_limit. destruct (al_limit _ _ HD) as [-> | ->]; auto. Qed.
Lemma tuple_weaken a : tuple_limit D a -> tuple_limit D' a.
Proof. unfold tuple_limit. destruct (al_limit _ _ HD) as [-> | ->]; auto. Qed.
Lemma call_weaken a : call_limit D a -> call_limit D' a.
Proof. unfold call_limit. destruct (al_limit _ _ HD) as [-> | ->]; auto. Qed.
Theorem weaken :
  (forall r e ts, reads D idof numof r e ts -> reads D' idof numof r e ts) /\
  (forall l ts, reads_links D idof numof l ts -> reads_links D' idof numof l ts) /\
  (forall o ts, reads_opt D idof numof o ts -> reads_opt D' idof numof o ts) /\
  (forall a ts, reads_actuals D idof numof a ts -> reads_actuals D' idof numof a ts) /\
  (forall b a ts, reads_args D idof numof b a ts -> reads_args D' idof numof b a ts) /\
  (forall i ts, reads_name D idof numof i ts -> reads_name D' idof numof i ts) /\
  (forall d ts, reads_dents D idof numof d ts -> reads_dents D' idof numof d ts).
Proof.
  apply reads_all; intros; try (now econstructor; eauto using list_weaken, tuple_weaken, call_weaken).
  - apply r_pow; auto. destruct (d_pow D) eqn:E; [now rewrite (al_pow _ _ HD E)|].
    destruct (d_pow D'); [|assumption]. eapply r_up; [reflexivity|assumption].
  - eapply n_lax; eauto. now apply (al_lax _ _ HD).
Qed.
Lemma weak r e ts : reads D idof numof r e ts -> reads D' idof numof r e ts. Proof. apply weaken. Qed.
Lemma weak_opt o ts : reads_opt D idof numof o ts -> reads_opt D' idof numof o ts. Proof. apply weaken. Qed.
Lemma weak_actuals o ts : reads_actuals D idof numof o ts -> reads_actuals D' idof numof o ts. Proof. apply weaken. Qed.
Lemma weak_stores x t : stores D x t -> stores D' x t.
Proof. induction 1; constructor; auto. now apply (al_lax _ _ HD). Qed.
Lemma weak_dels d ts : reads_dels D idof numof d ts -> reads_dels D' idof numof d ts.
Proof. induction 1; econstructor; eauto using weak, weak_stores. Qed.
Lemma weak_small s ts : reads_small D idof numof s ts -> reads_small D' idof numof s ts.
Proof.
  induction 1; try (now econstructor; eauto using weak, weak_opt, weak_stores, weak_dels).
  apply m_no_global; auto. now apply (al_lax _ _ HD).
Qed.
Lemma weak_smalls s ts : reads_smalls D idof numof s ts -> reads_smalls D' idof numof s ts.
Proof.
  induction 1; try (now econstructor; eauto using weak_small).
  apply ms_trail; auto using weak_small. now apply (al_trail _ _ HD).
Qed.
Lemma weak_line s ts : reads_line D idof numof s ts -> reads_line D' idof numof s ts.
Proof. induction 1; econstructor; eauto using weak_smalls. Qed.
Lemma weak_stmts :
  (forall s ts, reads_stat D idof numof s ts -> reads_stat D' idof numof s ts) /\
  (forall r ts, reads_rest D idof numof r ts -> reads_rest D' idof numof r ts) /\
  (forall s ts, reads_else D idof numof s ts -> reads_else D' idof numof s ts) /\
  (forall s ts, reads_suite D idof numof s ts -> reads_suite D' idof numof s ts) /\
  (forall s ts, reads_stats D idof numof s ts -> reads_stats D' idof numof s ts).
Proof. apply stats_all; intros; try (now econstructor; eauto using weak, weak_line, weak_actuals, list_weaken). Qed.
Lemma weak_formal f ts : reads_formal D idof numof f ts -> reads_formal D' idof numof f ts.
Proof.
  destruct 1 as [i s H | i s j e te H Hj He]; [now constructor|]. eapply fm_default; eauto using weak.
  destruct (d_lax D) eqn:E; [now rewrite (al_lax _ _ HD E)|]. destruct (d_lax D'); [|exact Hj]. exists None. rewrite Hj. left. reflexivity.
Qed.
Lemma weak_formals f ts : reads_formals D idof numof f ts -> reads_formals D' idof numof f ts.
Proof.
  induction 1; try (now econstructor; eauto using weak_formal).
  apply fs_trail; auto using weak_formal. now apply (al_trail _ _ HD).
Qed.
Lemma weak_command c ts : reads_command D idof numof c ts -> reads_command D' idof numof c ts.
Proof.
  destruct 1; econstructor; eauto; try (now apply weak_stmts).
  match goal with H : reads_params _ _ _ _ _ |- _ => destruct H; econstructor; eauto using weak_formals end.
Qed.
Lemma weak_import ts : reads_import D ts -> reads_import D' ts.
Proof.
  destruct 1; econstructor; eauto. destruct (d_lax D) eqn:E; [now rewrite (al_lax _ _ HD E)|]. destruct (d_lax D'); auto.
Qed.
Lemma weak_program cs ts : reads_program D idof numof cs ts -> reads_program D' idof numof cs ts.
Proof.
  induction 1; try (now econstructor; eauto using weak_command, weak_import).
  apply pg_lax; auto using weak_import. now apply (al_lax _ _ HD).
Qed.
End Weaken.

(** * With an amount of fuel that is always enough *)
Definition enough (ts : list item) : nat := (24 * length ts + 16)%nat.

(** tokens that do not go on with an expression *)
Definition stops_expr (t : token) : bool :=
  match t with
  | TEnd | TNl | TColon | TSemi | TComma | TCp | TCs | TCc | TAssign _ => true
  | _ => false
  end.
Definition stopped (rest : list item) : Prop := match rest with [] => True | i :: _ => stops_expr (i_tok i) = true end.
Lemma stopped_below rest : stopped rest -> below 0 rest.
Proof. destruct rest as [|i r]; [auto|]. cbn. destruct (i_tok i); intro; try discriminate; cbn; lia. Qed.

Section Whole.
Variable w : width.
Variable idof : list Z -> Z.
Variable numof : list Z -> float.
Notation p_expr := (p_expr w idof numof).
Notation p_start := (p_start w idof numof).

Lemma expr_enough n ts : (enough ts <= n)%nat -> p_expr n ts <> NoFuel.
Proof. intros H. apply (f_expr w idof numof n ts). unfold enough in H. lia. Qed.
Lemma start_enough n ts : (enough ts <= n)%nat -> p_start n ts <> NoFuel.
Proof. intros H. apply (f_start w idof numof n ts). unfold enough in H. lia. Qed.
(** more fuel than enough changes nothing *)
Lemma expr_stable n ts : (enough ts <= n)%nat -> p_expr n ts = p_expr (enough ts) ts.
Proof.
  intros H. destruct (le_more _ (fun n => p_expr n ts) (fun n => expr_le w idof numof n ts) _ _ H) as [E|E]; [|now symmetry].
  exfalso. revert E. apply expr_enough. lia.
Qed.
Lemma start_stable n ts : (enough ts <= n)%nat -> p_start n ts = p_start (enough ts) ts.
Proof.
  intros H. destruct (le_more _ (fun n => p_start n ts) (fun n => p_start_le w idof numof n ts) _ _ H) as [E|E]; [|now symmetry].
  exfalso. revert E. apply start_enough. lia.
Qed.
Lemma expr_more n m ts e rest : (n <= m)%nat -> p_expr n ts = Parsed e rest -> p_expr m ts = Parsed e rest.
Proof.
  intros H E. destruct (le_more _ (fun n => p_expr n ts) (fun n => expr_le w idof numof n ts) _ _ H) as [F|F]; congruence.
Qed.
Lemma start_more n m ts e rest : (n <= m)%nat -> p_start n ts = Parsed e rest -> p_start m ts = Parsed e rest.
Proof.
  intros H E. destruct (le_more _ (fun n => p_start n ts) (fun n => p_start_le w idof numof n ts) _ _ H) as [F|F]; congruence.
Qed.

Section Dialect.
Variable D : dialect.
Hypothesis Dpow : d_pow D = false.
Hypothesis Dlim : d_limit D = Some w.

Theorem parses e ts rest : reads D idof numof OrTest e ts -> stopped rest ->
  p_expr (enough (ts ++ rest)) (ts ++ rest) = Parsed e rest.
Proof.
  intros H R. apply (yields_enough _ (fun n => p_expr n (ts ++ rest))).
  - intro n. apply expr_le.
  - apply expr_enough. lia.
  - apply (expr_read w idof numof D Dpow Dlim); auto using stopped_below.
Qed.
Theorem one_reading e e' ts : reads D idof numof OrTest e ts -> reads D idof numof OrTest e' ts -> e = e'.
Proof.
  intros H H'. apply (parses e ts []) in H; [|exact Logic.I]. apply (parses e' ts []) in H'; [|exact Logic.I].
  rewrite H in H'. now injection H'.
Qed.
Hypothesis Dtrail : d_trail D = false.
Theorem parses_program cs ts e rest : reads_program D idof numof cs ts -> i_tok e = TEnd ->
  p_start (enough (ts ++ e :: rest)) (ts ++ e :: rest) = Parsed cs (e :: rest).
Proof.
  intros H E. apply (yields_enough _ (fun n => p_start n (ts ++ e :: rest))).
  - intro n. apply p_start_le.
  - apply start_enough. lia.
  - now apply (program_read w idof numof D Dpow Dlim Dtrail).
Qed.
Theorem one_program cs cs' ts : reads_program D idof numof cs ts -> reads_program D idof numof cs' ts -> cs = cs'.
Proof.
  intros H H'. set (e := {| i_tok := TEnd; i_line := 0; i_obj := 0 |}).
  apply (parses_program cs ts e []) in H; [|reflexivity]. apply (parses_program cs' ts e []) in H'; [|reflexivity].
  rewrite H in H'. now injection H'.
Qed.
End Dialect.

Theorem accepted n ts e rest : Proper ts -> p_expr n ts = Parsed e rest -> nowrap w e ->
  exists us, ts = us ++ rest /\ reads (snek w) idof numof OrTest e us.
Proof.
  intros P E N. destruct (soundness w idof numof n) as (S1 & _). destruct (S1 ts P _ _ E) as (us & -> & H).
  exists us. split; [reflexivity|]. apply H. exact N.
Qed.
Theorem accepted_program n ts cs rest : Proper ts -> p_start n ts = Parsed cs rest -> Forall (nowrap_command w) cs ->
  exists us, ts = us ++ rest /\ next is_end rest = true /\ reads_program (snek w) idof numof cs us.
Proof.
  intros P E N. destruct (s_start w idof numof n ts P _ _ E) as (us & -> & H).
  exists us. split; [reflexivity|]. split; [|auto]. eapply start_ends; eauto.
Qed.
End Whole.
