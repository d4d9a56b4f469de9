(** Parsing statements ends, and every statement and command uses a token. *)
From Coq Require Import ZArith Bool List Ascii String Lia.
From Verif Require Import Base FloatModel PolyModel ValueModel MathModel BinModel LexModel CompModel GramModel GramEqs GramSpec GramComplete GramSound GramTotal.
Import ListNotations.
Local Open Scope parse_scope.
Local Open Scope nat_scope.

Section Total.
Variable w : width.
Variable idof : list Z -> Z.
Variable numof : list Z -> float.

Lemma f_expr n ts : fine (length ts) n 14 (p_expr w idof numof n ts). Proof. apply (total w idof numof n). Qed.
Lemma f_array n ts : fine (length ts) n 2 (p_array w idof numof n ts). Proof. apply (total w idof numof n). Qed.
Lemma f_actuals n ts : fine (length ts) n 16 (p_opt_actuals w idof numof n ts). Proof. apply (total w idof numof n). Qed.
Lemma next_tl f ts : next f ts = true -> length ts = S (length (tl ts)).
Proof. destruct ts; [discriminate|reflexivity]. Qed.
Lemma f_name len n c ts : length ts <= len -> fine len n c (eat_name idof ts).
Proof.
  intro L. unfold eat_name. destruct (take (name_of idof) ts) as [[[u i] r]|] eqn:E; [|apply fine_syntax].
  apply take_len in E. apply fine_ret. lia.
Qed.
Lemma fine_bind_name B len n c ts (g : Z -> list item -> pr B) :
  (forall a rest, length ts = S (length rest) -> fine len n c (g a rest)) -> fine len n c (pbind (eat_name idof ts) g).
Proof.
  intro G. unfold eat_name. destruct (take (name_of idof) ts) as [[[u i] r]|] eqn:E; [|apply fine_syntax].
  apply take_len in E. cbn. apply G. exact E.
Qed.

(** bind after a call described by [L] *)
Ltac bindc L := eapply fine_bindw; [apply L|lia|lia|intros ? ? ?].
Ltac tailc L := eapply fine_weak; [apply L|lia|lia].
Ltac f1 := match goal with
  | |- fine _ _ _ (Parsed _ _) => apply fine_ret; lia
  | |- fine _ _ _ Syntax => apply fine_syntax
  | |- fine _ _ _ (pbind (eat _ _) _) => apply fine_bind_eat; intros ? ? ?
  | |- fine _ _ _ (pbind (eat_name _ _) _) => apply fine_bind_name; intros ? ? ?
  | |- fine _ _ _ (pbind (p_expr _ _ _ _ _) _) => bindc f_expr
  | |- fine _ _ _ (pbind (p_array _ _ _ _ _) _) => bindc f_array
  | |- fine _ _ _ (pbind (p_opt_actuals _ _ _ _ _) _) => bindc f_actuals
  | |- fine _ _ _ (match take ?f ?ts with Some _ => _ | None => _ end) =>
      let E := fresh in destruct (take f ts) as [[[? ?] ?]|] eqn:E; [apply take_len in E|clear E]
  | |- fine _ _ _ (if next ?f ?ts then _ else _) =>
      let E := fresh in destruct (next f ts) eqn:E; [apply next_tl in E|clear E]
  | |- fine _ _ _ (if ?b then _ else _) => destruct b
  | |- fine _ _ _ (match as_target ?x with Some _ => _ | None => _ end) => destruct (as_target x)
  | H : forall ts, fine _ _ _ (?f _ _ _ _ ts) |- fine _ _ _ (pbind (?f _ _ _ _ _) _) => bindc H
  | H : forall ts, fine _ _ _ (?f _ _ _ _ ts) |- fine _ _ _ (?f _ _ _ _ _) => tailc H
  | H : forall ts, fine _ _ _ (?f _ _ ts) |- fine _ _ _ (pbind (?f _ _ _) _) => bindc H
  end.

Lemma f_assign n ts : fine (length ts) n 14 (p_assign w idof numof n ts).
Proof. unfold p_assign. repeat f1. Qed.
Lemma f_del n ts : fine (length ts) n 14 (p_del w idof numof n ts).
Proof. unfold p_del. repeat f1. Qed.
Lemma f_dels n ts : fine (length ts) n 1 (p_dels_p w idof numof n ts).
Proof.
  revert ts. induction n as [|n IH]; intro ts; [split; [lia|discriminate]|]. rewrite p_dels_p_S. f1; [|f1]. bindc f_del. repeat f1.
Qed.
Lemma f_globals_p n ts : fine (length ts) n 1 (p_globals_p idof n ts).
Proof.
  revert ts. induction n as [|n IH]; intro ts; [split; [lia|discriminate]|]. rewrite p_globals_p_S. repeat f1.
Qed.
Lemma f_globals n ts : fine (length ts) n 1 (p_globals idof n ts).
Proof. unfold p_globals. f1; [|f1]. bindc f_globals_p. f1. Qed.
Lemma f_ret n ts : fine (length ts) n 14 (p_ret w idof numof n ts).
Proof. unfold p_ret. repeat f1. Qed.
Lemma f_small n ts : fine (length ts) n 14 (p_small w idof numof n ts).
Proof.
  unfold p_small. f1; [tailc f_assign|]. f1; [tailc f_ret|]. f1; [f1|]. f1; [f1|]. f1; [f1|]. f1; [tailc f_globals|].
  f1; [bindc f_del; bindc f_dels; f1|]. repeat f1.
Qed.
Lemma f_smalls n ts : fine (length ts) n 1 (p_smalls_p w idof numof n ts).
Proof.
  revert ts. induction n as [|n IH]; intro ts; [split; [lia|discriminate]|]. rewrite p_smalls_p_S. f1; [|f1]. bindc f_small. repeat f1.
Qed.
Lemma f_simple n ts : fine (length ts) n 14 (p_simple w idof numof n ts).
Proof. unfold p_simple. cbv zeta. bindc f_small. bindc f_smalls. repeat f1. Qed.
(** some token is used *)
Definition short {A} (len : nat) (r : pr A) : Prop := forall a rest, r = Parsed a rest -> length rest < len.
Lemma short_bind A B len n len' c (x : pr A) (f : A -> list item -> pr B) :
  fine len' n c x -> (forall a r, length r <= len' -> short len (f a r)) -> short len (pbind x f).
Proof. intros [_ X] F b rest E. apply pbind_some in E as (a & r & E1 & E). exact (F _ _ (X _ _ E1) _ _ E). Qed.
Lemma short_ret A len (a : A) r : length r < len -> short len (Parsed a r).
Proof. intros L b rest E. injection E as _ <-. exact L. Qed.
Lemma short_syntax A len : short len (@Syntax A).
Proof. intros b rest E. discriminate E. Qed.
Lemma short_eat B len f ts (g : unit -> list item -> pr B) :
  (forall a rest, length ts = S (length rest) -> short len (g a rest)) -> short len (pbind (eat f ts) g).
Proof.
  intros G b rest E. apply pbind_some in E as (a & r & E1 & E). apply eat_some in E1 as (i & -> & _). eapply G; [|exact E]. reflexivity.
Qed.
Lemma short_name B len ts (g : Z -> list item -> pr B) :
  (forall a rest, length ts = S (length rest) -> short len (g a rest)) -> short len (pbind (eat_name idof ts) g).
Proof.
  intros G b rest E. apply pbind_some in E as (a & r & E1 & E). unfold eat_name in E1.
  destruct (take (name_of idof) ts) as [[[u i] r']|] eqn:T; [|discriminate]. injection E1 as -> ->. apply take_len in T. eapply G; eassumption.
Qed.
Ltac sbind L := eapply short_bind; [apply L|intros ? ? ?].
Ltac s1 := match goal with
  | |- forall a rest, ?r = Parsed a rest -> length rest < ?l => change (short l r)
  | |- short _ (Parsed _ _) => apply short_ret; lia
  | |- short _ Syntax => apply short_syntax
  | |- short _ (pbind (eat _ _) _) => apply short_eat; intros ? ? ?
  | |- short _ (pbind (eat_name _ _) _) => apply short_name; intros ? ? ?
  | |- short _ (pbind (p_expr _ _ _ _ _) _) => sbind f_expr
  | |- short _ (pbind (p_opt_actuals _ _ _ _ _) _) => sbind f_actuals
  | |- short _ (if next ?f ?ts then _ else _) =>
      let E := fresh in destruct (next f ts) eqn:E; [apply next_tl in E|clear E]
  | |- short _ (if ?b then _ else _) => destruct b
  | H : forall ts, fine _ _ _ (?f _ _ _ _ ts) |- short _ (pbind (?f _ _ _ _ _) _) => sbind H
  end.
Lemma simple_short n ts s rest : p_simple w idof numof n ts = Parsed s rest -> length rest < length ts.
Proof.
  unfold p_simple. cbv zeta. intro E. apply pbind_some in E as (a & r & E1 & E). apply pbind_some in E as (b & r2 & E2 & E).
  apply pbind_some in E as (u & r3 & E3 & E). injection E as _ <-. apply eat_some in E3 as (i & -> & _).
  apply (proj2 (f_small n ts)) in E1. apply (proj2 (f_smalls n r)) in E2. cbn in E2. lia.
Qed.

Lemma short_stat n ts :
  (forall ts, fine (length ts) n 1 (p_elif w idof numof n ts)) ->
  (forall ts, fine (length ts) n 1 (p_else w idof numof n ts)) ->
  (forall ts, fine (length ts) n 15 (p_suite w idof numof n ts)) ->
  forall s rest, p_stat w idof numof (S n) ts = Parsed s rest -> length rest < length ts.
Proof.
  intros I1 I2 I3. rewrite p_stat_S. cbv zeta. s1. s1; [exact (simple_short n ts)|]. repeat s1.
Qed.
Definition stotals (n : nat) : Prop :=
  (forall ts, fine (length ts) n 15 (p_stat w idof numof n ts)) /\
  (forall ts, fine (length ts) n 1 (p_elif w idof numof n ts)) /\
  (forall ts, fine (length ts) n 1 (p_else w idof numof n ts)) /\
  (forall ts, fine (length ts) n 15 (p_suite w idof numof n ts)) /\
  (forall ts, fine (length ts) n 16 (p_stats w idof numof n ts)) /\
  (forall ts s rest, p_stat w idof numof n ts = Parsed s rest -> length rest < length ts).
Theorem stotal : forall n, stotals n.
Proof.
  induction n as [|n IH]; unfold stotals.
  { repeat match goal with |- _ /\ _ => split end; intros; try discriminate; (split; [lia|discriminate]). }
  destruct IH as (Istat & Ielif & Ielse & Isuite & Istats & Ishort).
  assert (Fstat : forall ts, fine (length ts) (S n) 15 (p_stat w idof numof (S n) ts)).
  { intro ts. rewrite p_stat_S. cbv zeta. f1; [tailc f_simple|]. repeat f1. }
  repeat match goal with |- _ /\ _ => split end.
  - exact Fstat.
  - intro ts. rewrite p_elif_S. cbv zeta. repeat f1.
  - intro ts. rewrite p_else_S. cbv zeta. repeat f1.
  - intro ts. rewrite p_suite_S. cbv zeta. f1; [tailc f_simple|]. repeat f1.
  - intro ts. rewrite p_stats_S. f1; [|f1].
    destruct (p_stat w idof numof n ts) as [s r| |] eqn:E.
    + apply Ishort in E. cbn. bindc Istats. f1.
    + apply fine_syntax.
    + split; [|discriminate]. intro L. exfalso. apply (proj1 (Istat ts)); [lia|exact E].
  - intros ts. apply short_stat; assumption.
Qed.

Lemma f_formal n b ts : fine (length ts) n 14 (p_formal w idof numof n b ts).
Proof. unfold p_formal. repeat f1. Qed.
Lemma f_formals n b ts : fine (length ts) n 1 (p_formals_p w idof numof n b ts).
Proof.
  revert b ts. induction n as [|n IH]; intros b ts; [split; [lia|discriminate]|]. rewrite p_formals_p_S. f1; [|f1].
  bindc f_formal. bindc IH. f1.
Qed.
Lemma f_opt_formals n ts : fine (length ts) n 14 (p_opt_formals w idof numof n ts).
Proof. unfold p_opt_formals. f1; [|f1]. bindc f_formal. bindc f_formals. f1. Qed.
Lemma f_suite n ts : fine (length ts) n 15 (p_suite w idof numof n ts). Proof. apply (stotal n). Qed.
Lemma f_stat n ts : fine (length ts) n 15 (p_stat w idof numof n ts). Proof. apply (stotal n). Qed.
Lemma f_command n ts : fine (length ts) n 15 (p_command w idof numof n ts).
Proof.
  unfold p_command. f1; [do 2 f1; bindc f_opt_formals; do 2 f1; bindc f_suite; f1|]. do 2 (f1; [repeat f1|]). bindc f_stat. f1.
Qed.
Lemma command_short n ts c rest : p_command w idof numof n ts = Parsed c rest -> length rest < length ts.
Proof.
  revert c rest. unfold p_command. s1. s1.
  { do 2 s1. sbind f_opt_formals. do 2 s1. sbind f_suite. s1. }
  do 2 (s1; [repeat s1|]). unfold short. intros c rest E. apply pbind_some in E as (s & r & E & F). injection F as _ <-.
  revert E. apply (stotal n).
Qed.
Lemma f_start n ts : fine (length ts) n 16 (p_start w idof numof n ts).
Proof.
  revert ts. induction n as [|n IH]; intro ts; [split; [lia|discriminate]|]. rewrite p_start_S. f1; [f1|].
  destruct (p_command w idof numof n ts) as [c r| |] eqn:E.
  - apply command_short in E. cbn. bindc IH. f1.
  - apply fine_syntax.
  - split; [|discriminate]. intro L. exfalso. apply (proj1 (f_command n ts)); [lia|exact E].
Qed.
End Total.
