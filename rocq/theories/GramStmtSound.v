(** Whatever the parser accepts is a program of the reference grammar, up to
    the differences named in [snek]. *)
From Coq Require Import ZArith Bool List Ascii String Lia.
From Verif Require Import Base FloatModel PolyModel ValueModel MathModel BinModel LexModel CompModel GramModel GramEqs GramSpec GramStmtSpec GramComplete GramSound.
Import ListNotations.
Local Open Scope Z_scope.
Local Open Scope parse_scope.

Lemma semi_is t : is_semi t = true -> t = TSemi. Proof. destruct t; try discriminate; reflexivity. Qed.
Lemma nl_is t : is_nl t = true -> t = TNl. Proof. destruct t; try discriminate; reflexivity. Qed.
Lemma in_is t : is_in t = true -> proper t -> t = TIn OpIn.
Proof. destruct t; try discriminate. cbn. intros _ ->. reflexivity. Qed.
Lemma indent_is t k : indent_of t = Some k -> t = TIndent k.
Proof. destruct t; try discriminate. cbn. intro H. injection H as ->. reflexivity. Qed.
Lemma exdent_is t k : exdent_of t = Some k -> t = TExdent k.
Proof. destruct t; try discriminate. cbn. intro H. injection H as ->. reflexivity. Qed.
Lemma mulop_is t : is_mulop t = true -> exists p, t = TMulop p. Proof. destruct t; try discriminate; eauto. Qed.
Lemma next_is f ts : next f ts = true -> exists i r, ts = i :: r /\ f (i_tok i) = true.
Proof. destruct ts as [|i r]; [discriminate|]. cbn. eauto. Qed.
Lemma target_stores w x t : as_target x = Some t -> stores (snek w) x t.
Proof.
  revert t. induction x; cbn; intros t H; try discriminate; try (injection H as <-; constructor).
  destruct u; try discriminate. constructor; auto.
Qed.
Lemma stores_nowrap w D x t : stores D x t -> nowrap_target w t -> nowrap w x.
Proof. induction 1; cbn; auto. Qed.

Ltac step2 := first [step | match goal with
  | H : is_semi _ = true |- _ => apply semi_is in H
  | H : is_nl _ = true |- _ => apply nl_is in H
  | H : indent_of _ = Some _ |- _ => apply indent_is in H
  | H : exdent_of _ = Some _ |- _ => apply exdent_is in H
  | H : next (kw _) _ = true |- _ => let i := fresh "i" in let r := fresh "r" in apply next_is in H as (i & r & -> & H); cbn [tl] in *
  | H : (match as_target ?x with Some _ => _ | None => _ end) = Parsed _ _ |- _ => let E := fresh "E" in destruct (as_target x) eqn:E
  end].

Ltac word N i := let r := fresh "r" in apply next_is in N as (i & r & -> & N); cbn [tl line_of] in *; apply kw_is in N.
Ltac pb E H := let a := fresh "a" in let r := fresh "r" in apply pbind_some in E as (a & r & H & E); cbv beta in E.
Ltac et E i := let H := fresh "Q" in pb E H; apply eat_some in H as (i & -> & H).

Section Sound.
Variable w : width.
Variable idof : list Z -> Z.
Variable numof : list Z -> float.
Notation D := (snek w).
Notation uses := (@uses _).
Notation okr := (okr w idof numof).
Notation nowrap_stmt := (nowrap_stmt w).

Ltac peel := match goal with P : Proper _ |- Proper _ =>
  let Q := fresh in pose proof P as Q; repeat first [exact Q|apply proper_tail in Q|apply proper_app in Q] end.
Ltac use L E u R := apply L in E as (u & -> & R); [|first [assumption|prop|peel|lia]..].

Lemma s_expr n ts : uses ts (p_expr w idof numof n ts) (okr OrTest). Proof. apply (soundness w idof numof n). Qed.
Lemma s_array n ts : uses ts (p_array w idof numof n ts) (okr Primary). Proof. apply (soundness w idof numof n). Qed.
Lemma s_actuals n ts : uses ts (p_opt_actuals w idof numof n ts) (fun ka us => nowrap_args w (snd ka) -> counted w (snd ka) ->
     reads_actuals D idof numof (snd ka) us /\ fst ka = npos (snd ka) + 256 * nnamed (snd ka) /\ npos (snd ka) <= 256).
Proof. apply (soundness w idof numof n). Qed.
Lemma s_name ts id rest : eat_name idof ts = Parsed id rest -> exists i s, ts = i :: rest /\ i_tok i = TName s /\ id = idof s.
Proof.
  unfold eat_name. intro E. step. 2: discriminate. step. unfold name_of in E0. destruct (i_tok i) eqn:T; try discriminate. injection E0 as <-. eauto.
Qed.

Lemma s_del n ts : uses ts (p_del w idof numof n ts) (fun s us => exists x t, s = SDel t /\ okr Primary x us /\ stores D x t).
Proof.
  intros P a rest E. unfold p_del in E. step. use s_array H u1 R1. repeat step2.
  exists u1. split; [reflexivity|]. eexists _, _. split; [reflexivity|]. split; [exact R1|]. apply target_stores. exact E0.
Qed.
Lemma s_dels n ts : uses ts (p_dels_p w idof numof n ts) (fun s us => (s = SSkip /\ us = []) \/
  exists c us', us = c :: us' /\ i_tok c = TComma /\ (nowrap_stmt s -> reads_dels D idof numof s us')).
Proof.
  revert ts. induction n as [|n IH]; intros ts P a rest E; [discriminate|]. rewrite p_dels_p_S in E. repeat step2.
  - use s_del H u1 R1. use IH H0 u2 R2. destruct R1 as (y & t & -> & R1 & St).
    exists (i :: u1 ++ u2). split; [cbn; rewrite app_assoc; reflexivity|]. right. eexists _, _. split; [reflexivity|]. split; [assumption|].
    intros [N1 N2]. cbn in N1. pose proof (stores_nowrap _ _ _ _ St N1) as N.
    destruct R2 as [[-> ->]|(c & us' & -> & Ec & R2)].
    + rewrite app_nil_r. econstructor; [apply R1; exact N|exact St].
    + econstructor; eauto.
  - exists []. split; [reflexivity|]. left. auto.
Qed.
Lemma s_globals_p n ts : uses ts (p_globals_p idof n ts) (fun s us => (s = SSkip /\ us = []) \/
  exists c us', us = c :: us' /\ i_tok c = TComma /\ reads_globals idof s us').
Proof.
  revert ts. induction n as [|n IH]; intros ts P a rest E; [discriminate|]. rewrite p_globals_p_S in E. repeat step2.
  - apply s_name in H as (j & s & -> & Ej & ->). use IH H0 u2 R2.
    exists (i :: j :: u2). split; [reflexivity|]. right. eexists _, _. split; [reflexivity|]. split; [assumption|].
    destruct R2 as [[-> ->]|(c & us' & -> & Ec & R2)]; econstructor; eauto.
  - exists []. split; [reflexivity|]. left. auto.
Qed.
Lemma s_globals n ts : uses ts (p_globals idof n ts) (fun s us => (s = SSkip /\ us = []) \/ reads_globals idof s us).
Proof.
  intros P a rest E. unfold p_globals in E. repeat step2.
  - unfold name_of in E0. destruct (i_tok i) eqn:T; try discriminate. injection E0 as <-. use s_globals_p H u2 R2.
    exists (i :: u2). split; [reflexivity|]. right. destruct R2 as [[-> ->]|(c & us' & -> & Ec & R2)]; econstructor; eauto.
  - exists []. split; [reflexivity|]. left. auto.
Qed.
Lemma s_small n ts : uses ts (p_small w idof numof n ts) (fun s us => nowrap_stmt s -> reads_small D idof numof s us).
Proof.
  intros P a rest E. unfold p_small in E.
  destruct (next starts_expr ts) eqn:N0.
  { unfold p_assign in E. step. use s_expr H u1 R1. repeat step2.
    - use s_expr H u2 R2. exists (u1 ++ i :: u2). split; [rewrite <- app_assoc; reflexivity|]. intros [N1 N2]. cbn in N1.
      assert (St : stores D x t) by (apply target_stores; assumption).
      eapply m_assign; [apply R1; eapply stores_nowrap; eassumption|exact St|apply assign_in; [eassumption|prop]|apply R2; exact N2].
    - exists u1. split; [reflexivity|]. intro N. apply m_expr. apply R1. exact N. }
  destruct (next (kw "return") ts) eqn:N1.
  { repeat step2. unfold p_ret in E. repeat step2.
    - use s_expr H u1 R1. exists (i :: u1). split; [reflexivity|]. intro N. apply m_return; [assumption|]. constructor. apply R1. exact N.
    - exists [i]. split; [reflexivity|]. intros _. apply m_return; [assumption|constructor]. }
  destruct (next (kw "break") ts) eqn:N2. { repeat step2. exists [i]. split; [reflexivity|]. intros _. apply m_break. assumption. }
  destruct (next (kw "continue") ts) eqn:N3. { repeat step2. exists [i]. split; [reflexivity|]. intros _. apply m_continue. assumption. }
  destruct (next (kw "pass") ts) eqn:N4. { repeat step2. exists [i]. split; [reflexivity|]. intros _. apply m_pass. assumption. }
  destruct (next (kw "global") ts) eqn:N5.
  { repeat step2. use s_globals E u1 R1. exists (i :: u1). split; [reflexivity|]. intros _. destruct R1 as [[-> ->]|R1].
    - apply m_no_global; [reflexivity|assumption].
    - apply m_global; assumption. }
  destruct (next (kw "del") ts) eqn:N6.
  { repeat step2. use s_del H u1 R1. use s_dels H0 u2 R2. destruct R1 as (y & t & -> & R1 & St).
    exists (i :: u1 ++ u2). split; [cbn; rewrite app_assoc; reflexivity|]. intros [M1 M2]. cbn in M1. apply m_del; [assumption|].
    pose proof (stores_nowrap _ _ _ _ St M1) as N. destruct R2 as [[-> ->]|(c & us' & -> & Ec & R2)].
    - rewrite app_nil_r. econstructor; [apply R1; exact N|exact St].
    - econstructor; eauto. }
  destruct (next (kw "assert") ts) eqn:N7; [|discriminate].
  repeat step2. use s_expr H u1 R1. exists (i :: u1). split; [reflexivity|]. intro N. apply m_assert; [assumption|]. apply R1. exact N.
Qed.
Lemma s_smalls n ts : uses ts (p_smalls_p w idof numof n ts) (fun s us => (s = SSkip /\ us = []) \/
  exists c us', us = c :: us' /\ i_tok c = TSemi /\ (nowrap_stmt s -> reads_smalls D idof numof s us')).
Proof.
  revert ts. induction n as [|n IH]; intros ts P a rest E; [discriminate|]. rewrite p_smalls_p_S in E. repeat step2.
  - use s_small H u1 R1. use IH H0 u2 R2.
    exists (i :: u1 ++ u2). split; [cbn; rewrite app_assoc; reflexivity|]. right. eexists _, _. split; [reflexivity|]. split; [assumption|].
    intros [N1 N2]. destruct R2 as [[-> ->]|(c & us' & -> & Ec & R2)].
    + rewrite app_nil_r. apply ms_last. auto.
    + apply ms_more; auto.
  - exists []. split; [reflexivity|]. left. auto.
Qed.
Lemma small_nonempty s us : reads_small D idof numof s us -> us <> [].
Proof.
  assert (X : forall r e ts, reads D idof numof r e ts -> ts <> []).
  { intros r e us' H ->. destruct (proj1 (firsts idof numof D) _ _ _ H) as (i & t & Q & _). discriminate. }
  intro H. destruct H; try discriminate; try (eapply X; eassumption).
  intro Q. apply app_eq_nil in Q as [_ Q]. discriminate.
Qed.
Lemma s_simple n ts : uses ts (p_simple w idof numof n ts) (fun s us => nowrap_stmt s -> reads_line D idof numof s us).
Proof.
  intros P a rest E. unfold p_simple in E. cbv zeta in E. step. use s_small H u1 R1. step. use s_smalls H u2 R2. repeat step2.
  match goal with |- context [?j :: rest] => exists (u1 ++ u2 ++ [j]) end. split; [rewrite <- !app_assoc; reflexivity|].
  intros [_ [N1 N2]]. specialize (R1 N1). pose proof (small_nonempty _ _ R1) as NE. destruct u1 as [|i u1]; [contradiction|]. cbn [app line_of].
  rewrite app_assoc. apply (ln _ _ _ i (u1 ++ u2)); [|assumption].
  destruct R2 as [[-> ->]|(c & us' & -> & Ec & R2)].
  - rewrite app_nil_r. apply ms_last. exact R1.
  - apply (ms_more _ _ _ _ (i :: u1)); auto.
Qed.

Definition ssound (n : nat) : Prop :=
  (forall ts, uses ts (p_stat w idof numof n ts) (fun s us => nowrap_stmt s -> reads_stat D idof numof s us)) /\
  (forall ts, uses ts (p_elif w idof numof n ts) (fun r us => nowrap_rest w r -> reads_rest D idof numof r us)) /\
  (forall ts, uses ts (p_else w idof numof n ts) (fun s us => nowrap_stmt s -> reads_else D idof numof s us)) /\
  (forall ts, uses ts (p_suite w idof numof n ts) (fun s us => nowrap_stmt s -> reads_suite D idof numof s us)) /\
  (forall ts, uses ts (p_stats w idof numof n ts) (fun s us => (s = SSkip /\ us = []) \/ (nowrap_stmt s -> reads_stats D idof numof s us))).
Theorem ssoundness : forall n, ssound n.
Proof.
  induction n as [|n IH]; [repeat split; intros; intros _ ? ? E; discriminate E|].
  destruct IH as (IS & IE & IL & IU & IT). unfold ssound. repeat match goal with |- _ /\ _ => split end.
  - intros ts P a rest E. rewrite p_stat_S in E. cbv zeta in E.
    destruct (next starts_small ts) eqn:N0. { use s_simple E u1 R1. exists u1. split; [reflexivity|]. intro N. apply b_line. auto. }
    destruct (next (kw "if") ts) eqn:N1.
    { word N1 i. pb E H. use s_expr H u1 R1. et E c. pb E H. use IU H u2 R2. pb E H. use IE H u3 R3. repeat step2.
      exists (i :: u1 ++ c :: u2 ++ u3). split; [cbn; rewrite <- app_assoc; cbn; rewrite <- app_assoc; reflexivity|].
      intros [_ (M1 & M2 & M3)]. apply b_if; auto. }
    destruct (next (kw "while") ts) eqn:N2.
    { word N2 i. pb E H. use s_expr H u1 R1. et E c. pb E H. use IU H u2 R2. pb E H. use IL H u3 R3. repeat step2.
      exists (i :: u1 ++ c :: u2 ++ u3). split; [cbn; rewrite <- app_assoc; cbn; rewrite <- app_assoc; reflexivity|].
      intros [_ (M1 & M2 & M3)]. apply b_while; auto. }
    destruct (next (kw "for") ts) eqn:N3.
    { word N3 i. pb E H. apply s_name in H as (nm & s & -> & Enm & ->). et E j.
      match goal with H : is_in _ = true |- _ => apply in_is in H; [|prop] end.
      match type of E with (if next ?f ?t then _ else _) = _ => destruct (next f t) eqn:NR end.
      - word NR k. et E o. pb E H. use s_actuals H u1 R1. et E q. et E c. destruct (256 <=? fst _) eqn:L in E; [discriminate|].
        pb E H. use IU H u2 R2. pb E H. use IL H u3 R3. repeat step2.
        exists (i :: nm :: j :: k :: o :: u1 ++ q :: c :: u2 ++ u3). split; [cbn; rewrite <- app_assoc; cbn; rewrite <- app_assoc; reflexivity|].
        intros [_ (M1 & M2 & M3 & M4)]. destruct (R1 M2 M1) as (A1 & A2 & A3).
        apply Z.leb_gt in L.
        match type of A1 with reads_actuals _ _ _ ?a _ => pose proof (npos_nonneg a); pose proof (nnamed_nonneg a) end.
        apply b_range; auto; [lia|]. cbn. lia.
      - pb E H. use s_expr H u1 R1. et E c. pb E H. use IU H u2 R2. pb E H. use IL H u3 R3. repeat step2.
        exists (i :: nm :: j :: u1 ++ c :: u2 ++ u3). split; [cbn; rewrite <- app_assoc; cbn; rewrite <- app_assoc; reflexivity|].
        intros [_ (M1 & M2 & M3)]. apply b_for; auto. }
    repeat step2. eexists [_]. split; [reflexivity|]. intros _. apply b_blank. assumption.
  - intros ts P a rest E. rewrite p_elif_S in E. cbv zeta in E.
    destruct (next (kw "elif") ts) eqn:N1.
    { word N1 i. pb E H. use s_expr H u1 R1. et E c. pb E H. use IU H u2 R2. pb E H. use IE H u3 R3. repeat step2.
      exists (i :: u1 ++ c :: u2 ++ u3). split; [cbn; rewrite <- app_assoc; cbn; rewrite <- app_assoc; reflexivity|].
      intros (M1 & M2 & M3). apply e_elif; auto. }
    destruct (next (kw "else") ts) eqn:N2.
    { word N2 i. et E c. pb E H. use IU H u2 R2. repeat step2. exists (i :: c :: u2). split; [reflexivity|]. intro N. apply e_else; auto. }
    repeat step2. exists []. split; [reflexivity|]. intros _. constructor.
  - intros ts P a rest E. rewrite p_else_S in E.
    destruct (next (kw "else") ts) eqn:N2.
    { word N2 i. et E c. use IU E u2 R2. repeat step2. exists (i :: c :: u2). split; [reflexivity|]. intro N. apply f_else; auto. }
    repeat step2. exists []. split; [reflexivity|]. intros _. constructor.
  - intros ts P a rest E. rewrite p_suite_S in E.
    destruct (next starts_small ts) eqn:N0. { use s_simple E u1 R1. exists u1. split; [reflexivity|]. intro N. apply u_line. auto. }
    et E i. destruct (take indent_of _) as [[[k j] r']|] eqn:TI in E; [|discriminate]. apply take_some in TI as [-> TI].
    pb E H0. use IS H0 u1 R1. pb E H0. use IT H0 u2 R2.
    destruct (take exdent_of _) as [[[f e] r'']|] eqn:TE in E; [|discriminate]. apply take_some in TE as [-> TE].
    destruct (k <? f) eqn:L; [discriminate|]. repeat step2.
    exists (i :: j :: (u1 ++ u2) ++ [e]). split; [cbn; rewrite <- !app_assoc; reflexivity|].
    intros [M1 M2]. eapply u_block; try eassumption; [|apply Z.ltb_ge in L; exact L].
    destruct R2 as [[-> ->]|R2]; [rewrite app_nil_r; apply w_last; auto|apply w_more; auto].
  - intros ts P a rest E. rewrite p_stats_S in E. repeat step2.
    + use IS H u1 R1. use IT H0 u2 R2. exists (u1 ++ u2). split; [apply app_assoc|]. right. intros [M1 M2].
      destruct R2 as [[-> ->]|R2]; [rewrite app_nil_r; apply w_last; auto|apply w_more; auto].
    + exists []. split; [reflexivity|]. left. auto.
Qed.

Lemma s_formal n b ts : uses ts (p_formal w idof numof n b ts) (fun f us => (b = true -> defaulted f) /\ (nowrap_opt w (snd f) -> reads_formal D idof numof f us)).
Proof.
  intros P f rest E. unfold p_formal in E. pb E H. apply s_name in H as (i & s & -> & Ei & ->). repeat step2.
  - use s_expr H u1 R1. eexists (i :: _ :: u1). split; [reflexivity|]. split; [intros _ Q; discriminate Q|]. intro N.
    apply fm_default; [exact Ei| |apply R1; exact N]. cbn. eexists. apply assign_in; [eassumption|prop].
  - exists [i]. split; [reflexivity|]. split; [congruence|]. intros _. apply fm_name. exact Ei.
Qed.
Lemma s_formals n b ts : uses ts (p_formals_p w idof numof n b ts) (fun fs us => (b = true -> Forall defaulted fs) /\
  ((fs = [] /\ us = []) \/ exists c us', us = c :: us' /\ i_tok c = TComma /\ (Forall (fun p => nowrap_opt w (snd p)) fs -> reads_formals D idof numof fs us'))).
Proof.
  revert b ts. induction n as [|n IH]; intros b ts P a rest E; [discriminate|]. rewrite p_formals_p_S in E. repeat step2.
  - use s_formal H u1 R1. use IH H0 u2 R2. destruct R1 as [Q1 R1]. destruct R2 as [Q2 R2].
    exists (i :: u1 ++ u2). split; [cbn; rewrite app_assoc; reflexivity|]. split.
    + intros ->. constructor; [auto|]. apply Q2. reflexivity.
    + right. eexists _, _. split; [reflexivity|]. split; [assumption|]. intro N. inversion N as [|? ? N1 N2]; subst.
      destruct R2 as [[-> ->]|(c & us' & -> & Ec & R2)].
      * rewrite app_nil_r. apply fs_last. auto.
      * apply fs_more; auto. intro Df. apply Q2. unfold defaulted in Df. unfold has_default. destruct (snd x); [contradiction|apply orb_true_r].
  - exists []. split; [reflexivity|]. split; [constructor|]. left. auto.
Qed.
Lemma s_params n ts : uses ts (p_opt_formals w idof numof n ts) (fun fs us => Forall (fun p => nowrap_opt w (snd p)) fs -> reads_params D idof numof fs us).
Proof.
  intros P a rest E. unfold p_opt_formals in E. repeat step2.
  - use s_formal H u1 R1. use s_formals H0 u2 R2. destruct R1 as [Q1 R1]. destruct R2 as [Q2 R2].
    exists (u1 ++ u2). split; [apply app_assoc|]. intro N. inversion N as [|? ? N1 N2]; subst. apply pm_some.
    destruct R2 as [[-> ->]|(c & us' & -> & Ec & R2)].
    + rewrite app_nil_r. apply fs_last. auto.
    + apply fs_more; auto. intro Df. apply Q2. unfold defaulted in Df. unfold has_default. destruct (snd x); [contradiction|reflexivity].
  - exists []. split; [reflexivity|]. intros _. constructor.
Qed.
(** a command or an import *)
Lemma s_command n ts : uses ts (p_command w idof numof n ts) (fun c us =>
  (c = CImport /\ reads_import D us) \/ (nowrap_command w c -> reads_command D idof numof c us)).
Proof.
  destruct (ssoundness n) as (IS & _ & _ & IU & _).
  intros P a rest E. unfold p_command in E.
  destruct (next (kw "def") ts) eqn:N1.
  { word N1 i. pb E H. apply s_name in H as (nm & s & -> & Enm & ->). et E o. pb E H. use s_params H u1 R1. et E q. et E c. pb E H. use IU H u2 R2.
    repeat step2. exists (i :: nm :: o :: u1 ++ q :: c :: u2). split; [cbn; rewrite <- app_assoc; reflexivity|]. right. intros [M1 M2]. eapply c_def; eauto. }
  destruct (next (kw "import") ts) eqn:N2.
  { word N2 i. pb E H. apply s_name in H as (nm & s & -> & Enm & ->). repeat step2. exists [i; nm]. split; [reflexivity|]. left. split; [reflexivity|].
    eapply i_import; eassumption. }
  destruct (next (kw "from") ts) eqn:N3.
  { word N3 i. pb E H. apply s_name in H as (nm & s & -> & Enm & ->). et E j. et E o.
    match goal with H : is_mulop _ = true |- _ => apply mulop_is in H as [p H] end. repeat step2.
    exists [i; nm; j; o]. split; [reflexivity|]. left. split; [reflexivity|]. eapply i_from; try eassumption. exact Logic.I. }
  repeat step2. use IS H u1 R1. exists u1. split; [reflexivity|]. right. intro N. apply c_stat. auto.
Qed.
Lemma s_start n ts : uses ts (p_start w idof numof n ts) (fun cs us => Forall (nowrap_command w) cs -> reads_program D idof numof cs us).
Proof.
  revert ts. induction n as [|n IH]; intros ts P a rest E; [discriminate|]. rewrite p_start_S in E. repeat step2.
  - exists []. split; [reflexivity|]. intros _. constructor.
  - use s_command H u1 R1. use IH H0 u2 R2. exists (u1 ++ u2). split; [apply app_assoc|]. intro N. inversion N as [|? ? N1 N2]; subst.
    destruct R1 as [[-> R1]|R1]; [apply pg_lax|apply pg_command]; auto.
Qed.
Lemma start_ends n ts cs rest : p_start w idof numof n ts = Parsed cs rest -> next is_end rest = true.
Proof.
  revert ts cs rest. induction n as [|n IH]; intros ts cs rest E; [discriminate|]. rewrite p_start_S in E.
  destruct (next is_end ts) eqn:N. { injection E as <- <-. exact N. }
  apply pbind_some in E as (c & r & _ & E). apply pbind_some in E as (cs' & r' & E & F). injection F as _ <-. eapply IH. exact E.
Qed.
End Sound.
