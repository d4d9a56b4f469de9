(** Every statement and program that both languages have is accepted, with its
    tree. *)
From Coq Require Import ZArith Bool List Ascii String Lia.
From Verif Require Import Base FloatModel PolyModel ValueModel MathModel BinModel LexModel CompModel GramModel GramEqs GramSpec GramStmtSpec GramComplete.
Import ListNotations.
Local Open Scope Z_scope.
Local Open Scope parse_scope.

Ltac words := repeat match goal with
  | |- context [kw ?a (keyword ?b)] => let v := eval vm_compute in (kw a (keyword b)) in change (kw a (keyword b)) with v
  | |- context [starts_expr (keyword ?b)] => change (starts_expr (keyword b)) with false
  | |- context [starts_small (keyword ?b)] => let v := eval vm_compute in (starts_small (keyword b)) in change (starts_small (keyword b)) with v
  end.
Ltac ystep L := eapply y_step; [intro; apply L|].

(** the end of a small statement *)
Definition ends (rest : list item) : Prop := next (fun t => is_semi t || is_nl t) rest = true.
Lemma ends_quiet rest : ends rest -> quiet rest.
Proof.
  destruct rest as [|i rest]; [discriminate|]. unfold ends, quiet, take, want. cbn.
  destruct (i_tok i); try discriminate; repeat split; auto.
Qed.
Definition starts_stat (t : token) : bool := starts_small t || kw "if" t || kw "while" t || kw "for" t || is_nl t.
(** a word no statement starts with *)
Lemma no_word s t : starts_stat t = true -> starts_stat (keyword s) = false -> kw s t = false.
Proof. intros H N. destruct (kw s t) eqn:E; [|reflexivity]. apply kw_is in E. subst. rewrite H in N. discriminate. Qed.
Lemma expr_word s t : starts_expr t = true -> kw s t = false.
Proof. destruct t; try discriminate; reflexivity. Qed.

Section Stmts.
Variable w : width.
Variable idof : list Z -> Z.
Variable numof : list Z -> float.
Variable D : dialect.
Hypothesis Dpow : d_pow D = false.
Hypothesis Dlim : d_limit D = Some w.
Hypothesis Dtrail : d_trail D = false.
Notation reads := (reads D idof numof).
Notation p_expr := (p_expr w idof numof).
Notation done := (done w idof numof).

Lemma exprs r e ts : reads r e ts -> done r e ts. Proof. apply (complete w idof numof D Dpow Dlim). Qed.
Lemma expr_read e ts rest : reads OrTest e ts -> below 0 rest -> yields (fun n => p_expr n (ts ++ rest)) (Parsed e rest).
Proof. intros H B. apply done_expr; [apply exprs; exact H|exact B]. Qed.
Lemma first_expr r e ts : reads r e ts -> starts_with (fun t => starts_expr t = true) ts.
Proof. intro H. eapply first_starts. exact (proj1 (firsts idof numof D) _ _ _ H). Qed.
Lemma array_read e ts rest : reads Primary e ts -> below 12 rest -> yields (fun n => p_array w idof numof n (ts ++ rest)) (Parsed e rest).
Proof. intros H B. apply (exprs _ _ _ H rest); [eapply below_le; [exact B|cbn; lia]|]. apply array_stops. exact B. Qed.
Lemma stores_target x t : stores D x t -> as_target x = Some t.
Proof. induction 1; cbn; auto. Qed.

Lemma dels_read d ts : reads_dels D idof numof d ts -> forall rest, ends rest ->
  yields (fun n => let* (s, ts) := p_del w idof numof n (ts ++ rest) in let* (s', ts) := p_dels_p w idof numof n ts in Parsed (SSeq s s') ts) (Parsed d rest).
Proof.
  induction 1 as [x t tx Hx Ht|x t tx c d ts Hx Ht Ec _ IH]; intros rest E.
  - apply ends_quiet in E as (B & _ & C & _). eapply y_bind.
    { unfold p_del. eapply y_bind; [apply array_read; [exact Hx|eapply below_le; [exact B|lia]]|]. cbn beta.
      rewrite (stores_target _ _ Ht). apply y_ret. }
    cbn beta. eapply y_bind; [ystep p_dels_p_S; rewrite C; apply y_ret|]. apply y_ret.
  - rewrite <- app_assoc. cbn [app]. eapply y_bind.
    { unfold p_del. eapply y_bind; [apply array_read; [exact Hx|cbn; rewrite Ec; cbn; lia]|]. cbn beta.
      rewrite (stores_target _ _ Ht). apply y_ret. }
    cbn beta. eapply y_bind; [|apply y_ret]. ystep p_dels_p_S. rewrite (take_head _ _ _ _ tt) by (unfold want; rewrite Ec; reflexivity).
    exact (IH _ E).
Qed.
Lemma globals_read g ts : reads_globals idof g ts -> forall rest, ends rest ->
  yields (fun n => p_globals idof n (ts ++ rest)) (Parsed g rest).
Proof.
  induction 1 as [i s Ei|i s c g ts Ei Ec Hg IH]; intros rest E; unfold p_globals; cbn [app].
  - apply ends_quiet in E as (_ & _ & C & _). rewrite (take_head _ _ _ _ (idof s)) by (unfold name_of; rewrite Ei; reflexivity).
    eapply y_bind; [ystep p_globals_p_S; rewrite C; apply y_ret|]. apply y_ret.
  - rewrite (take_head _ _ _ _ (idof s)) by (unfold name_of; rewrite Ei; reflexivity).
    eapply y_bind; [|apply y_ret]. ystep p_globals_p_S. rewrite (take_head _ _ _ _ tt) by (unfold want; rewrite Ec; reflexivity).
    specialize (IH _ E). unfold p_globals in IH. inversion Hg as [j s' Ej|j s' c' g' ts' Ej Ec' Hg']; subst; cbn [app] in *;
      rewrite (take_head _ _ _ _ (idof s')) in IH by (unfold name_of; rewrite Ej; reflexivity);
      unfold eat_name; rewrite (take_head _ _ _ _ (idof s')) by (unfold name_of; rewrite Ej; reflexivity); cbn [pbind]; exact IH.
Qed.

Lemma small_read s ts : reads_small D idof numof s ts -> forall rest, ends rest ->
  yields (fun n => p_small w idof numof n (ts ++ rest)) (Parsed s rest).
Proof.
  intros H rest E. pose proof (ends_quiet _ E) as (B & F & C & A). unfold p_small.
  destruct H as [x tx Hx|x t tx i a e te Hx Ht Ei He|i o ts Ei Ho|i Ei|i Ei|i Ei|i g ts Ei Hg|i L Ei|i d ts Ei Hd|i x tx Ei Hx];
    cbn [app next tl]; try rewrite !Ei; words; cbv iota.
  - rewrite next_starts by (eapply first_expr; exact Hx). unfold p_assign.
    eapply y_bind; [apply expr_read; [exact Hx|exact B]|]. cbn beta. rewrite A. apply y_ret.
  - rewrite <- app_assoc. rewrite next_starts by (eapply first_expr; exact Hx). unfold p_assign. cbn [app].
    destruct (assign_opr _ _ Ei) as [Ea El].
    eapply y_bind; [apply expr_read; [exact Hx|cbn; lia]|]. cbn beta. rewrite (take_head _ _ _ _ a) by exact Ea.
    rewrite (stores_target _ _ Ht). eapply y_bind; [apply expr_read; [exact He|exact B]|]. apply y_ret.
  - unfold p_ret. inversion Ho as [|e te He]; subst; cbn [app].
    + rewrite F. apply y_ret.
    + rewrite next_starts by (eapply first_expr; exact He). eapply y_bind; [apply expr_read; [exact He|exact B]|]. apply y_ret.
  - apply y_ret.
  - apply y_ret.
  - apply y_ret.
  - apply globals_read; assumption.
  - unfold p_globals. replace (take (name_of idof) rest) with (@None (Z * item * list item)); [apply y_ret|].
    destruct rest as [|j rest]; [reflexivity|]. unfold take. unfold ends in E. cbn in E. destruct (i_tok j); try discriminate; reflexivity.
  - apply dels_read; assumption.
  - eapply y_bind; [apply expr_read; [exact Hx|exact B]|]. apply y_ret.
Qed.
Lemma smalls_read s ts : reads_smalls D idof numof s ts -> forall rest, next is_nl rest = true ->
  yields (fun n => let* (a, ts) := p_small w idof numof n (ts ++ rest) in let* (b, ts) := p_smalls_p w idof numof n ts in Parsed (SSeq a b) ts) (Parsed s rest).
Proof.
  induction 1 as [s ts Hs|s ts i Q|s ts i s' ts' Hs Ei _ IH]; intros rest E.
  - eapply y_bind; [apply small_read; [exact Hs|]|].
    + destruct rest; [discriminate|]. unfold ends. cbn in *. rewrite E. apply orb_true_r.
    + cbn beta. eapply y_bind; [ystep p_smalls_p_S|apply y_ret].
      destruct rest as [|j rest]; [discriminate|]. rewrite take_not; [apply y_ret|]. cbn in E. destruct (i_tok j); try discriminate; reflexivity.
  - rewrite Dtrail in Q. discriminate.
  - rewrite <- app_assoc. cbn [app]. eapply y_bind; [apply small_read; [exact Hs|unfold ends; cbn; rewrite Ei; reflexivity]|]. cbn beta.
    eapply y_bind; [|apply y_ret]. ystep p_smalls_p_S. rewrite (take_head _ _ _ _ tt) by (unfold want; rewrite Ei; reflexivity). exact (IH _ E).
Qed.
Lemma line_read s ts : reads_line D idof numof s ts -> forall rest, yields (fun n => p_simple w idof numof n (ts ++ rest)) (Parsed s rest).
Proof.
  intros [i ts' s' j Hs Ej] rest. unfold p_simple. cbv zeta. cbn [app line_of]. rewrite <- app_assoc. cbn [app].
  pose proof (smalls_read _ _ Hs (j :: rest)) as Y. specialize (Y ltac:(cbn; rewrite Ej; reflexivity)). cbn [app] in Y.
  destruct Y as [n Y]. exists n. intros m Hm. specialize (Y m Hm).
  destruct (p_small w idof numof m _) as [a r| |]; cbn [pbind] in *; try discriminate.
  destruct (p_smalls_p w idof numof m r) as [b r2| |]; cbn [pbind] in *; try discriminate.
  injection Y as <- ->. rewrite eat_head by (rewrite Ej; reflexivity). reflexivity.
Qed.
Lemma first_small s ts : reads_small D idof numof s ts -> starts_with (fun t => starts_small t = true) ts.
Proof.
  assert (X : forall r e ts, reads r e ts -> starts_with (fun t => starts_small t = true) ts).
  { intros r e us H. eapply starts_impl; [|eapply first_expr; exact H]. intros t E. unfold starts_small. rewrite E. reflexivity. }
  intros H. destruct H; try (eexists _, _; split; [reflexivity|]; match goal with E : i_tok ?i = _ |- _ => rewrite E; reflexivity end).
  - eapply X. eassumption.
  - apply starts_app. eapply X. eassumption.
Qed.
Lemma first_line s ts : reads_line D idof numof s ts -> starts_with (fun t => starts_small t = true) ts.
Proof.
  intros [i ts' s' j Hs Ej]. enough (S : starts_with (fun t => starts_small t = true) (i :: ts')).
  { destruct S as (k & r & Q & S). injection Q as -> ->. exists k, (r ++ [j]). auto. }
  inversion Hs; subst; try (apply starts_app); eapply first_small; eassumption.
Qed.
Lemma first_stat s ts : reads_stat D idof numof s ts -> starts_with (fun t => starts_stat t = true) ts.
Proof.
  intros H. destruct H; try (eexists _, _; split; [reflexivity|]; match goal with E : i_tok ?i = _ |- starts_stat (i_tok ?i) = _ => rewrite E; reflexivity end).
  eapply starts_impl; [|eapply first_line; eassumption]. intros t E. unfold starts_stat. rewrite E. reflexivity.
Qed.

(** what follows is neither elif nor else *)
Definition alone (rest : list item) : Prop := next (fun t => kw "elif" t || kw "else" t) rest = false.
Definition over (rest : list item) : Prop := next starts_stat rest = false /\ alone rest.
Lemma alone_stat ts rest : starts_with (fun t => starts_stat t = true) ts -> alone (ts ++ rest).
Proof. intros (i & r & -> & E). unfold alone. cbn. rewrite !no_word by (try exact E; reflexivity). reflexivity. Qed.
Lemma alone_elif rest : alone rest -> next (kw "elif") rest = false.
Proof. destruct rest as [|i r]; [reflexivity|]. unfold alone. cbn [next]. intro H. apply orb_false_iff in H. tauto. Qed.
Lemma alone_else rest : alone rest -> next (kw "else") rest = false.
Proof. destruct rest as [|i r]; [reflexivity|]. unfold alone. cbn [next]. intro H. apply orb_false_iff in H. tauto. Qed.
Notation p_stat := (p_stat w idof numof).
Notation p_stats := (p_stats w idof numof).
Notation p_suite := (p_suite w idof numof).

Lemma blocks_read :
  (forall s ts, reads_stat D idof numof s ts -> forall rest, alone rest -> yields (fun n => p_stat n (ts ++ rest)) (Parsed s rest)) /\
  (forall r ts, reads_rest D idof numof r ts -> forall rest, alone rest -> yields (fun n => p_elif w idof numof n (ts ++ rest)) (Parsed r rest)) /\
  (forall s ts, reads_else D idof numof s ts -> forall rest, alone rest -> yields (fun n => p_else w idof numof n (ts ++ rest)) (Parsed s rest)) /\
  (forall s ts, reads_suite D idof numof s ts -> forall rest, yields (fun n => p_suite n (ts ++ rest)) (Parsed s rest)) /\
  (forall s ts, reads_stats D idof numof s ts -> forall rest, over rest ->
     yields (fun n => let* (a, ts) := p_stat n (ts ++ rest) in let* (b, ts) := p_stats n ts in Parsed (SSeq a b) ts) (Parsed s rest)).
Proof.
  assert (LS : forall t s ts, reads_line D idof numof s ts -> next starts_small (ts ++ t) = true).
  { intros t s ts H. destruct (first_line _ _ H) as (i & r & -> & E). exact E. }
  assert (CB : forall c rest, i_tok c = TColon -> below 0 (c :: rest)) by (intros c r E; cbn; rewrite E; cbn; lia).
  apply stats_all.
  - (* line *) intros s ts H rest _. ystep p_stat_S. cbv zeta. rewrite (LS _ _ _ H). apply line_read. exact H.
  - (* blank *) intros i E rest _. ystep p_stat_S. cbv zeta. cbn [app next]. rewrite E.
    change (starts_small TNl) with false. change (kw "if" TNl) with false. change (kw "while" TNl) with false. change (kw "for" TNl) with false.
    cbv iota. rewrite eat_head by (rewrite E; reflexivity). apply y_ret.
  - (* if *) intros i x tx c s ts r tr Ei Hx Ec Hs IHs Hr IHr rest A. ystep p_stat_S. cbv zeta. cbn [app next tl line_of]. rewrite Ei. words. cbv iota.
    rewrite <- !app_assoc. cbn [app]. rewrite <- !app_assoc.
    eapply y_bind; [apply expr_read; [exact Hx|apply CB; exact Ec]|]. cbn beta. rewrite eat_head by (rewrite Ec; reflexivity). cbn [pbind].
    eapply y_bind; [apply IHs|]. cbn beta. eapply y_bind; [apply IHr; exact A|]. apply y_ret.
  - (* while *) intros i x tx c s ts e te Ei Hx Ec Hs IHs Hr IHr rest A. ystep p_stat_S. cbv zeta. cbn [app next tl line_of]. rewrite Ei. words. cbv iota.
    rewrite <- !app_assoc. cbn [app]. rewrite <- !app_assoc.
    eapply y_bind; [apply expr_read; [exact Hx|apply CB; exact Ec]|]. cbn beta. rewrite eat_head by (rewrite Ec; reflexivity). cbn [pbind].
    eapply y_bind; [apply IHs|]. cbn beta. eapply y_bind; [apply IHr; exact A|]. apply y_ret.
  - (* for *) intros i n id j x tx c s ts e te Ei En Ej Hx Ec Hs IHs He IHe rest A. ystep p_stat_S. cbv zeta. cbn [app next tl line_of]. rewrite Ei. words. cbv iota.
    rewrite <- !app_assoc. cbn [app]. rewrite <- !app_assoc.
    unfold eat_name. rewrite (take_head _ _ _ _ (idof id)) by (unfold name_of; rewrite En; reflexivity). cbn [pbind].
    rewrite eat_head by (rewrite Ej; reflexivity). cbn [pbind].
    replace (next (kw "range") (tx ++ c :: ts ++ te ++ rest)) with false.
    2: { destruct (first_expr _ _ _ Hx) as (k & r & -> & F). cbn. symmetry. apply expr_word. exact F. }
    eapply y_bind; [apply expr_read; [exact Hx|apply CB; exact Ec]|]. cbn beta. rewrite eat_head by (rewrite Ec; reflexivity). cbn [pbind].
    eapply y_bind; [apply IHs|]. cbn beta. eapply y_bind; [apply IHe; exact A|]. apply y_ret.
  - (* range *) intros i n id j k o a ta q c s ts e te Ei En Ej Ek Eo Ha Na La Eq Ec Hs IHs He IHe rest A.
    ystep p_stat_S. cbv zeta. cbn [app next tl line_of]. rewrite Ei. words. cbv iota.
    rewrite <- !app_assoc. cbn [app]. rewrite <- !app_assoc.
    unfold eat_name. rewrite (take_head _ _ _ _ (idof id)) by (unfold name_of; rewrite En; reflexivity). cbn [pbind].
    rewrite eat_head by (rewrite Ej; reflexivity). cbn [pbind next tl]. rewrite Ek. words. cbv iota.
    rewrite eat_head by (rewrite Eo; reflexivity). cbn [pbind].
    unfold list_limit in La. rewrite Dlim in La.
    eapply y_bind; [apply (complete w idof numof D Dpow Dlim); [exact Ha|apply closing_cp; exact Eq|lia|]|].
    { unfold counted. rewrite Na. pose proof (npos_nonneg a). destruct w; cbn; lia. }
    cbn beta. rewrite eat_head by (rewrite Eq; reflexivity). cbn [pbind]. rewrite eat_head by (rewrite Ec; reflexivity). cbn [pbind fst snd].
    rewrite Na. replace (256 <=? npos a + 256 * 0) with false by (symmetry; apply Z.leb_gt; lia).
    eapply y_bind; [apply IHs|]. cbn beta. eapply y_bind; [apply IHe; exact A|]. apply y_ret.
  - (* no rest *) intros rest A. ystep p_elif_S. cbv zeta. cbn [app]. rewrite (alone_elif _ A), (alone_else _ A). apply y_ret.
  - (* elif *) intros i x tx c s ts r tr Ei Hx Ec Hs IHs Hr IHr rest A. ystep p_elif_S. cbv zeta. cbn [app next tl line_of]. rewrite Ei. words. cbv iota.
    rewrite <- !app_assoc. cbn [app]. rewrite <- !app_assoc.
    eapply y_bind; [apply expr_read; [exact Hx|apply CB; exact Ec]|]. cbn beta. rewrite eat_head by (rewrite Ec; reflexivity). cbn [pbind].
    eapply y_bind; [apply IHs|]. cbn beta. eapply y_bind; [apply IHr; exact A|]. apply y_ret.
  - (* else *) intros i c s ts Ei Ec Hs IHs rest A. ystep p_elif_S. cbv zeta. cbn [app next tl line_of]. rewrite Ei. words. cbv iota.
    rewrite eat_head by (rewrite Ec; reflexivity). cbn [pbind]. eapply y_bind; [apply IHs|]. apply y_ret.
  - (* no else *) intros rest A. ystep p_else_S. cbn [app]. rewrite (alone_else _ A). apply y_ret.
  - (* else of a loop *) intros i c s ts Ei Ec Hs IHs rest A. ystep p_else_S. cbn [app next tl]. rewrite Ei. words. cbv iota.
    rewrite eat_head by (rewrite Ec; reflexivity). cbn [pbind]. apply IHs.
  - (* suite on the line *) intros s ts H rest. ystep p_suite_S. rewrite (LS _ _ _ H). apply line_read. exact H.
  - (* block *) intros i j k s ts e f Ei Ej Hs IHs Ee L rest. ystep p_suite_S. cbn [app next]. rewrite Ei. change (starts_small TNl) with false. cbv iota.
    rewrite eat_head by (rewrite Ei; reflexivity). cbn [pbind].
    rewrite (take_head _ _ _ _ k) by (unfold indent_of; rewrite Ej; reflexivity).
    rewrite <- app_assoc. cbn [app].
    specialize (IHs (e :: rest)). destruct IHs as [n0 Y].
    { split; unfold alone; cbn; rewrite Ee; reflexivity. }
    exists n0. intros m Hm. specialize (Y m Hm).
    destruct (p_stat m _) as [a r| |]; cbn [pbind] in *; try discriminate.
    destruct (p_stats m r) as [b r2| |]; cbn [pbind] in *; try discriminate.
    injection Y as <- ->. rewrite (take_head _ _ _ _ f) by (unfold exdent_of; rewrite Ee; reflexivity).
    replace (k <? f) with false by (symmetry; apply Z.ltb_ge; lia). reflexivity.
  - (* last statement *) intros s ts H IH rest [O A]. eapply y_bind; [apply IH; exact A|]. cbn beta.
    eapply y_bind; [ystep p_stats_S|apply y_ret]. unfold starts_stat in O. rewrite O. apply y_ret.
  - (* more statements *) intros s ts s' ts' H IH H' IH' rest O. rewrite <- app_assoc.
    assert (F : starts_with (fun t => starts_stat t = true) ts').
    { inversion H'; subst; [|apply starts_app]; eapply first_stat; eassumption. }
    eapply y_bind; [apply IH; apply alone_stat; exact F|]. cbn beta. eapply y_bind; [|apply y_ret]. ystep p_stats_S.
    destruct F as (i & r & -> & F). cbn [app next]. unfold starts_stat in F. rewrite F. exact (IH' _ O).
Qed.

Lemma formal_read f ts : reads_formal D idof numof f ts -> forall named rest, (named = true -> defaulted f) ->
  below 0 rest -> take assign_of rest = None -> yields (fun n => p_formal w idof numof n named (ts ++ rest)) (Parsed f rest).
Proof.
  intros [i s Ei|i s j e te Ei Ej He] named rest N B A; unfold p_formal, eat_name; cbn [app];
    rewrite (take_head _ _ _ _ (idof s)) by (unfold name_of; rewrite Ei; reflexivity); cbn [pbind].
  - rewrite A. destruct named; [|apply y_ret]. destruct (N eq_refl). reflexivity.
  - assert (S : exists a, assign_of (i_tok j) = Some a).
    { destruct (d_lax D); [destruct Ej as [a Ej]; exists a; apply assign_opr in Ej as [Ej _]; exact Ej|exists None; rewrite Ej; reflexivity]. }
    destruct S as [a S]. rewrite (take_head _ _ _ _ a) by exact S. eapply y_bind; [apply expr_read; [exact He|exact B]|]. apply y_ret.
Qed.
Lemma has_defaulted f : has_default f = true -> defaulted f.
Proof. destruct f as [id [|e]]; [discriminate|]. intros _ E. discriminate E. Qed.
Lemma formals_read fs ts : reads_formals D idof numof fs ts -> forall named rest, (named = true -> Forall defaulted fs) -> closing rest ->
  yields (fun n => let* (f, ts) := p_formal w idof numof n named (ts ++ rest) in
                   let* (fs, ts) := p_formals_p w idof numof n (named || has_default f) ts in Parsed (f :: fs) ts) (Parsed fs rest).
Proof.
  induction 1 as [f ts Hf|f ts i Q|f ts i fs ts' Hf Ei _ IH Df]; intros named rest N C.
  - apply closing_quiet in C as (B & _ & Q & A). eapply y_bind; [apply formal_read; [exact Hf| |exact B|exact A]|].
    + intro E. specialize (N E). inversion N; assumption.
    + cbn beta. eapply y_bind; [ystep p_formals_p_S; rewrite Q; apply y_ret|]. apply y_ret.
  - rewrite Dtrail in Q. discriminate.
  - rewrite <- app_assoc. cbn [app]. eapply y_bind; [apply formal_read; [exact Hf| |cbn; rewrite Ei; cbn; lia|apply take_not; rewrite Ei; reflexivity]|].
    + intro E. specialize (N E). inversion N; assumption.
    + cbn beta. eapply y_bind; [|apply y_ret]. ystep p_formals_p_S. rewrite (take_head _ _ _ _ tt) by (unfold want; rewrite Ei; reflexivity).
      apply IH; [|exact C]. intro E. apply orb_prop in E as [E|E]; [specialize (N E); inversion N; assumption|].
      apply Df. apply has_defaulted. exact E.
Qed.
Lemma command_read c ts : reads_command D idof numof c ts -> forall rest, alone rest ->
  yields (fun n => p_command w idof numof n (ts ++ rest)) (Parsed c rest).
Proof.
  destruct blocks_read as (BS & _ & _ & BU & _).
  intros [s us Hs|i n id o fs tf q c' s us Ei En Eo Hf Eq Ec Hs] rest A; unfold p_command.
  - destruct (first_stat _ _ Hs) as (i & r & Q & F). rewrite Q in *. cbn [app next] in *.
    rewrite !no_word by (try exact F; reflexivity). eapply y_bind; [|apply y_ret]. exact (BS _ _ Hs rest A).
  - cbn [app next tl]. rewrite Ei. words. cbv iota. rewrite <- !app_assoc. cbn [app].
    unfold eat_name. rewrite (take_head _ _ _ _ (idof id)) by (unfold name_of; rewrite En; reflexivity). cbn [pbind].
    rewrite eat_head by (rewrite Eo; reflexivity). cbn [pbind].
    eapply y_bind with (a := fs) (ts := q :: c' :: us ++ rest).
    { unfold p_opt_formals. inversion Hf as [|fs' ts' Hf']; subst; cbn [app].
      - cbn [next]. rewrite Eq. apply y_ret.
      - replace (next _ (tf ++ q :: c' :: us ++ rest)) with true.
        2: { inversion Hf'; subst; match goal with H1 : reads_formal _ _ _ _ _ |- _ => inversion H1; subst end; cbn; match goal with E : i_tok ?k = TName _ |- context [i_tok ?k] => rewrite E; reflexivity end. }
        apply (formals_read _ _ Hf' false); [discriminate|apply closing_cp; exact Eq]. }
    cbn beta. rewrite eat_head by (rewrite Eq; reflexivity). cbn [pbind]. rewrite eat_head by (rewrite Ec; reflexivity). cbn [pbind].
    eapply y_bind; [apply (BU _ _ Hs)|]. apply y_ret.
Qed.
Lemma first_program cs ts e r : reads_program D idof numof cs ts -> i_tok e = TEnd -> alone (ts ++ e :: r).
Proof.
  intros H E. inversion H as [|c us cs' us' Hc Hp|us i cs' us' Hi Ei Hp|us cs' us' L Hi Hp]; subst.
  - unfold alone. cbn. rewrite E. reflexivity.
  - rewrite <- app_assoc. destruct Hc as [s us Hs|i n id o fs tf q c' s us Ei].
    + apply alone_stat. eapply first_stat. exact Hs.
    + unfold alone. cbn. rewrite Ei. reflexivity.
  - rewrite <- app_assoc. destruct Hi as [k n id Ek|k n id j o p Ek]; unfold alone; cbn; rewrite Ek; reflexivity.
  - rewrite <- app_assoc. destruct Hi as [k n id Ek|k n id j o p Ek]; unfold alone; cbn; rewrite Ek; reflexivity.
Qed.
Lemma import_read ts rest : reads_import D ts -> yields (fun n => p_command w idof numof n (ts ++ rest)) (Parsed CImport rest).
Proof.
  intros [i n id Ei En|i n id j o p Ei En Ej Eo _]; unfold p_command; cbn [app next tl]; rewrite Ei; words; cbv iota;
    unfold eat_name; rewrite (take_head _ _ _ _ (idof id)) by (unfold name_of; rewrite En; reflexivity); cbn [pbind]; [apply y_ret|].
  rewrite eat_head by (rewrite Ej; reflexivity). cbn [pbind]. rewrite eat_head by (rewrite Eo; reflexivity). apply y_ret.
Qed.
Lemma program_read cs ts : reads_program D idof numof cs ts -> forall e r, i_tok e = TEnd ->
  yields (fun n => p_start w idof numof n (ts ++ e :: r)) (Parsed cs (e :: r)).
Proof.
  assert (NE : forall c n ts rest, p_command w idof numof n ts = Parsed c rest -> next is_end ts = false).
  { intros c n ts' rest E. destruct ts' as [|i ts']; [reflexivity|]. cbn [next]. destruct (is_end (i_tok i)) eqn:T; [|reflexivity].
    exfalso. destruct (i_tok i) eqn:Ei; try discriminate. unfold p_command in E. cbn [next] in E. rewrite Ei in E.
    change (kw "def" TEnd) with false in E. change (kw "import" TEnd) with false in E. change (kw "from" TEnd) with false in E. cbv iota in E.
    destruct n as [|n]; [discriminate|]. rewrite p_stat_S in E. cbv zeta in E. cbn [next] in E. rewrite Ei in E.
    change (starts_small TEnd) with false in E. change (kw "if" TEnd) with false in E. change (kw "while" TEnd) with false in E. change (kw "for" TEnd) with false in E.
    cbv iota in E. unfold eat in E. rewrite take_not in E by (unfold want; rewrite Ei; reflexivity). discriminate. }
  assert (ST : forall c cs ts us r, yields (fun n => p_command w idof numof n ts) (Parsed c us) ->
    yields (fun n => p_start w idof numof n us) (Parsed cs r) -> yields (fun n => p_start w idof numof n ts) (Parsed (c :: cs) r)).
  { intros c cs0 ts0 us r Y1 Y2. assert (N : next is_end ts0 = false) by (destruct Y1 as [n Y1]; eapply (NE c n); apply Y1; lia).
    ystep p_start_S. rewrite N. eapply y_bind; [exact Y1|]. cbn beta. eapply y_bind; [exact Y2|]. apply y_ret. }
  induction 1 as [|c us cs us' Hc Hp IH|us i cs us' Hi Ei Hp IH|us cs us' L Hi Hp IH]; intros e r E.
  - ystep p_start_S. cbn [app next]. rewrite E. cbn [is_end]. apply y_ret.
  - rewrite <- app_assoc. eapply ST; [apply command_read; [exact Hc|eapply first_program; eassumption]|]. apply IH. exact E.
  - rewrite <- app_assoc. cbn [app]. eapply ST; [apply import_read; exact Hi|].
    eapply (ST _ _ ((i :: []) ++ us' ++ e :: r)); [apply command_read; [apply c_stat; apply b_blank; exact Ei|eapply first_program; eassumption]|].
    apply IH. exact E.
  - rewrite <- app_assoc. eapply ST; [apply import_read; exact Hi|]. apply IH. exact E.
Qed.
End Stmts.
