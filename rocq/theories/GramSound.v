(** Whatever the parser accepts as an expression is an expression of the
    reference grammar, up to the differences named in [snek]. *)
From Coq Require Import ZArith Bool List Ascii String Lia.
From Verif Require Import Base FloatModel PolyModel ValueModel MathModel BinModel LexModel CompModel GramModel GramEqs GramSpec GramComplete.
Import ListNotations.
Local Open Scope Z_scope.
Local Open Scope parse_scope.

Lemma take_some A (f : token -> option A) ts a i ts' : take f ts = Some (a, i, ts') -> ts = i :: ts' /\ f (i_tok i) = Some a.
Proof.
  destruct ts as [|j ts]; [discriminate|]. unfold take. destruct (f (i_tok j)) eqn:E; [|discriminate].
  intro H. injection H as -> -> ->. auto.
Qed.
Lemma want_some f t u : want f t = Some u -> f t = true.
Proof. unfold want. destruct (f t); [reflexivity|discriminate]. Qed.
Lemma eat_some f ts u rest : eat f ts = Parsed u rest -> exists i, ts = i :: rest /\ f (i_tok i) = true.
Proof.
  unfold eat. destruct (take (want f) ts) as [[[v i] ts']|] eqn:E; [|discriminate]. intro H. injection H as -> ->.
  apply take_some in E as [-> E]. exists i. split; [reflexivity|]. eapply want_some. exact E.
Qed.
Lemma pbind_some A B (x : pr A) (f : A -> list item -> pr B) b rest : pbind x f = Parsed b rest ->
  exists a ts, x = Parsed a ts /\ f a ts = Parsed b rest.
Proof. destruct x; try discriminate. eauto. Qed.

Definition Proper (ts : list item) : Prop := Forall (fun i => proper (i_tok i)) ts.
Lemma proper_app us rest : Proper (us ++ rest) -> Proper rest.
Proof. intro H. apply Forall_app in H. tauto. Qed.
Lemma proper_tail i rest : Proper (i :: rest) -> Proper rest.
Proof. intro H. inversion H; assumption. Qed.
Lemma proper_head i rest : Proper (i :: rest) -> proper (i_tok i).
Proof. intro H. inversion H; assumption. Qed.

Definition bl (l : level) : binary :=
  match l with Lor => OrExpr | Lxor => XorExpr | Land => AndExpr | Lshift => ShiftExpr | Ladd => AExpr | Lmul => MExpr end.
Lemma level_in l t o : level_op l t = Some o -> proper t -> In (t, o) (binaries (bl l)).
Proof.
  intros H P. destruct l, t; try discriminate; cbn in *; subst; cbn in *;
    repeat match goal with P : _ \/ _ |- _ => destruct P as [P|P]; subst; cbn in * end; try contradiction;
    injection H as <-; auto.
Qed.
Lemma cmp_in t b : cmp_of t = Some b -> proper t -> In (t, b) comparisons.
Proof.
  intros H P. destruct t; try discriminate; cbn in *;
    repeat match goal with P : _ \/ _ |- _ => destruct P as [P|P]; subst; cbn in * end; try contradiction; subst; cbn in *;
    injection H as <-; tauto.
Qed.
Lemma unary_in t u : unary_of t = Some u -> proper t -> In (t, u) unaries.
Proof. intros H P. destruct t; try discriminate; cbn in *; subst; injection H as <-; tauto. Qed.
Lemma assign_in t a : assign_of t = Some a -> proper t -> In (t, a) assignments.
Proof.
  intros H P. destruct t; try discriminate. cbn in P.
  repeat match goal with P : _ \/ _ |- _ => destruct P as [P|P] end; try contradiction;
    injection P as <-; cbn in H; injection H as <-; cbn; tauto.
Qed.
Lemma not_is t : is_not t = true -> t = TNot OpNot.
Proof. destruct t; try discriminate. destruct o; try discriminate. reflexivity. Qed.
Lemma pow_is t : is_pow t = true -> t = TPow OpPow.
Proof. destruct t; try discriminate. destruct o; try discriminate. reflexivity. Qed.
Lemma colon_is t : is_colon t = true -> t = TColon. Proof. destruct t; try discriminate; reflexivity. Qed.
Lemma comma_is t : is_comma t = true -> t = TComma. Proof. destruct t; try discriminate; reflexivity. Qed.
Lemma open_is t : is_open t = true -> t = TOp. Proof. destruct t; try discriminate; reflexivity. Qed.
Lemma close_is t : is_close t = true -> t = TCp. Proof. destruct t; try discriminate; reflexivity. Qed.
Lemma open_square_is t : is_open_square t = true -> t = TOs. Proof. destruct t; try discriminate; reflexivity. Qed.
Lemma close_square_is t : is_close_square t = true -> t = TCs. Proof. destruct t; try discriminate; reflexivity. Qed.
Lemma close_curly_is t : is_close_curly t = true -> t = TCc. Proof. destruct t; try discriminate; reflexivity. Qed.
Lemma name_loads x id : as_name x = Some id -> loads x id.
Proof.
  revert id. induction x; cbn; intros i H; try discriminate.
  - injection H as <-. constructor.
  - destruct u; try discriminate. constructor. auto.
Qed.
Lemma strings_sound ts ls rest : p_strings ts = (ls, rest) -> exists us, ts = us ++ rest /\ reads_strings ls us.
Proof.
  revert ls rest. induction ts as [|i ts IH]; intros ls rest H; cbn in H.
  - injection H as <- <-. exists []. split; [reflexivity|constructor].
  - destruct (i_tok i) eqn:E; try (injection H as <- <-; exists []; split; [reflexivity|constructor]).
    destruct (p_strings ts) as [ls' r'] eqn:P. injection H as <- <-.
    destruct (IH _ _ eq_refl) as (us & -> & R). exists (i :: us). split; [reflexivity|]. econstructor; eauto.
Qed.

Ltac step :=
  match goal with
  | H : pbind _ _ = Parsed _ _ |- _ => apply pbind_some in H as (? & ? & ? & H)
  | H : Parsed _ _ = Parsed _ _ |- _ => injection H as ? ?; subst
  | H : Syntax = Parsed _ _ |- _ => discriminate H
  | H : eat _ _ = Parsed _ _ |- _ => apply eat_some in H as (? & ? & H); subst
  | H : (match take ?f ?ts with Some _ => _ | None => _ end) = Parsed _ _ |- _ =>
      let E := fresh "E" in destruct (take f ts) as [[[? ?] ?]|] eqn:E; [apply take_some in E as [? E]; subst|clear E]
  | H : (if ?b then _ else _) = Parsed _ _ |- _ => let E := fresh "E" in destruct b eqn:E
  | H : want _ _ = Some _ |- _ => apply want_some in H
  | H : is_not _ = true |- _ => apply not_is in H
  | H : is_pow _ = true |- _ => apply pow_is in H
  | H : is_colon _ = true |- _ => apply colon_is in H
  | H : is_comma _ = true |- _ => apply comma_is in H
  | H : is_open _ = true |- _ => apply open_is in H
  | H : is_close _ = true |- _ => apply close_is in H
  | H : is_open_square _ = true |- _ => apply open_square_is in H
  | H : is_close_square _ = true |- _ => apply close_square_is in H
  | H : is_close_curly _ = true |- _ => apply close_curly_is in H
  | H : kw _ _ = true |- _ => apply kw_is in H
  end.
Ltac prop := solve [eauto 9 using proper_app, proper_tail, proper_head].

Section Sound.
Variable w : width.
Variable idof : list Z -> Z.
Variable numof : list Z -> float.
Notation D := (snek w).
Notation reads := (reads D idof numof).
Notation reads_links := (reads_links D idof numof).
Notation reads_opt := (reads_opt D idof numof).
Notation reads_actuals := (reads_actuals D idof numof).
Notation reads_args := (reads_args D idof numof).
Notation reads_name := (reads_name D idof numof).
Notation reads_dents := (reads_dents D idof numof).
Notation nowrap := (nowrap w).
Notation nowrap_args := (nowrap_args w).
Notation nowrap_dents := (nowrap_dents w).
Notation nowrap_opt := (nowrap_opt w).
Notation nowrap_links := (nowrap_links w).

(** the tokens used *)
Definition uses {A} (ts : list item) (r : pr A) (P : A -> list item -> Prop) : Prop :=
  Proper ts -> forall a rest, r = Parsed a rest -> exists us, ts = us ++ rest /\ P a us.
Definition okr (r : rank) (e : expr) (us : list item) : Prop := nowrap e -> reads r e us.
Definition tails (r : rank) (x e : expr) (us : list item) : Prop := forall ux, okr r x ux -> okr r e (ux ++ us).
Definition argsok (k k' : Z) (a : args) (us : list item) : Prop :=
  nowrap_args a -> k + npos a + 256 * nnamed a < 2 ^ wbits w ->
  reads_args (256 <=? k) a us /\ k' = k + npos a + 256 * nnamed a /\ (npos a = 0 \/ k + npos a <= 256).

Definition sound (n : nat) : Prop :=
  (forall ts, uses ts (p_expr w idof numof n ts) (okr OrTest)) /\
  (forall x ts, uses ts (p_or_p w idof numof n x ts) (tails OrTest x)) /\
  (forall ts, uses ts (p_and w idof numof n ts) (okr AndTest)) /\
  (forall x ts, uses ts (p_and_p w idof numof n x ts) (tails AndTest x)) /\
  (forall ts, uses ts (p_not w idof numof n ts) (okr NotTest)) /\
  (forall ts, uses ts (p_cmp w idof numof n ts) (okr Comparison)) /\
  (forall ts, uses ts (p_cmp_p w idof numof n ts) (fun o us => match o with None => us = [] | Some l => nowrap_links l -> reads_links l us end)) /\
  (forall l ts, uses ts (p_bin w idof numof n l ts) (okr (Bin (bl l)))) /\
  (forall l x ts, uses ts (p_bin_p w idof numof n l x ts) (tails (Bin (bl l)) x)) /\
  (forall ts, uses ts (p_unary w idof numof n ts) (okr UExpr)) /\
  (forall ts, uses ts (p_pow w idof numof n ts) (okr Power)) /\
  (forall ts, uses ts (p_array w idof numof n ts) (okr Primary)) /\
  (forall x ts, uses ts (p_array_p w idof numof n x ts) (tails Primary x)) /\
  (forall x ts, uses ts (p_index w idof numof n x ts) (fun e us => forall ux i j, i_tok i = TOs -> i_tok j = TCs ->
     okr Primary x ux -> okr Primary e (ux ++ i :: us ++ [j]))) /\
  (forall x a ts, uses ts (p_slice w idof numof n x a ts) (fun e us => forall ux i ta c j, i_tok i = TOs -> i_tok c = TColon -> i_tok j = TCs ->
     okr Primary x ux -> (nowrap_opt a -> reads_opt a ta) -> okr Primary e (ux ++ i :: ta ++ c :: us ++ [j]))) /\
  (forall ts, uses ts (p_opt_expr w idof numof n ts) (fun o us => nowrap_opt o -> reads_opt o us)) /\
  (forall ts, uses ts (p_prim w idof numof n ts) (okr Atom)) /\
  (forall ts, uses ts (p_opt_tuple w idof numof n ts) (fun e us => forall i j, i_tok i = TOp -> i_tok j = TCp -> okr Atom e (i :: us ++ [j]))) /\
  (forall ts, uses ts (p_opt_actuals w idof numof n ts) (fun ka us => nowrap_args (snd ka) -> counted w (snd ka) ->
     reads_actuals (snd ka) us /\ fst ka = npos (snd ka) + 256 * nnamed (snd ka) /\ npos (snd ka) <= 256)) /\
  (forall k ts, 0 <= k -> uses ts (p_actuals w idof numof n k ts) (fun ka us => argsok k (fst ka) (snd ka) us)) /\
  (forall k ts, 0 <= k -> uses ts (p_actuals_p w idof numof n k ts) (fun ka us =>
     (snd ka = ANil /\ fst ka = k /\ trailing us) \/
     exists c us', us = c :: us' /\ i_tok c = TComma /\ argsok k (fst ka) (snd ka) us')) /\
  (forall ts, uses ts (p_dents w idof numof n ts) (fun d us => nowrap_dents d -> reads_dents d us)) /\
  (forall ts, uses ts (p_dents_p w idof numof n ts) (fun d us => (d = DNil /\ us = []) \/
     exists c us', us = c :: us' /\ i_tok c = TComma /\ (nowrap_dents d -> reads_dents d us'))).

Lemma up r r' e us : tighter_than r = Some r' -> okr r' e us -> okr r e us.
Proof. intros T H N. eapply r_up; eauto. Qed.
Lemma u_of_le x : 0 <= u_of w x.
Proof. unfold u_of, wrapu. apply Z.mod_pos_bound. destruct w; reflexivity. Qed.

Lemma loads_nowrap x id : loads x id -> nowrap x.
Proof. induction 1; cbn; auto. Qed.

Theorem soundness : forall n, sound n.
Proof.
  induction n as [|n IH]; [repeat split; intros; intros _ ? ? E; discriminate E|].
  destruct IH as (IE & IOP & IA & IAP & IN & IC & ICP & IB & IBP & IU & IP & IR & IRP & IX & IS & IO & IM & IT & IQ & IG & IGP & ID & IDP).
  unfold sound. repeat match goal with |- _ /\ _ => split end.
  Ltac use IH E u R := apply IH in E as (u & -> & R); [|first [assumption|prop|lia]..].
  - (* expr *) intros ts P a rest E. rewrite p_expr_S in E. step. use IA H u1 R1. use IOP E u2 R2.
    exists (u1 ++ u2). split; [apply app_assoc|]. apply R2. eapply up; [reflexivity|exact R1].
  - (* or *) intros x ts P a rest E. rewrite p_or_p_S in E. repeat step.
    + use IA H u1 R1. use IOP E u2 R2.
      exists (i :: u1 ++ u2). split; [cbn; rewrite app_assoc; reflexivity|]. intros ux Ux.
      replace (ux ++ i :: u1 ++ u2) with ((ux ++ i :: u1) ++ u2) by (rewrite <- app_assoc; reflexivity).
      apply R2. intros [N1 N2]. apply r_or; auto.
    + exists []. split; [reflexivity|]. intros ux Ux. rewrite app_nil_r. exact Ux.
  - (* and-test *) intros ts P a rest E. rewrite p_and_S in E. step. use IN H u1 R1. use IAP E u2 R2.
    exists (u1 ++ u2). split; [apply app_assoc|]. apply R2. eapply up; [reflexivity|exact R1].
  - (* and *) intros x ts P a rest E. rewrite p_and_p_S in E. repeat step.
    + use IN H u1 R1. use IAP E u2 R2.
      exists (i :: u1 ++ u2). split; [cbn; rewrite app_assoc; reflexivity|]. intros ux Ux.
      replace (ux ++ i :: u1 ++ u2) with ((ux ++ i :: u1) ++ u2) by (rewrite <- app_assoc; reflexivity).
      apply R2. intros [N1 N2]. apply r_and; auto.
    + exists []. split; [reflexivity|]. intros ux Ux. rewrite app_nil_r. exact Ux.
  - (* not *) intros ts P a rest E. rewrite p_not_S in E. repeat step.
    + use IN H u1 R1. exists (i :: u1). split; [reflexivity|]. intro N. apply r_not; auto.
    + use IC E u1 R1. exists u1. split; [reflexivity|]. eapply up; [reflexivity|exact R1].
  - (* comparison *) intros ts P a rest E. rewrite p_cmp_S in E. repeat step. use IB H u1 R1. use ICP H0 u2 R2.
    exists (u1 ++ u2). split; [apply app_assoc|]. destruct x1 as [l|].
    + intros [N1 N2]. apply r_cmp; auto.
    + subst. rewrite app_nil_r. eapply up; [reflexivity|exact R1].
  - (* links *) intros ts P a rest E. rewrite p_cmp_p_S in E. repeat step.
    + assert (C : In (i_tok i, b) comparisons) by (apply cmp_in; [assumption|prop]). use IB H u1 R1. use ICP H0 u2 R2.
      exists (i :: u1 ++ u2). split; [cbn; rewrite app_assoc; reflexivity|]. destruct x1 as [l|].
      * intros [N1 N2]. apply k_more; auto.
      * subst. rewrite app_nil_r. intro N. apply k_last; [exact C|apply R1; exact N].
    + exists []. split; reflexivity.
  - (* binary *) intros l ts P a rest E. rewrite p_bin_S in E. step. destruct (tighter l) as [l'|] eqn:T.
    + use IB H u1 R1. use IBP E u2 R2. exists (u1 ++ u2). split; [apply app_assoc|]. apply R2.
      eapply up; [|exact R1]. destruct l; try discriminate; injection T as <-; reflexivity.
    + use IU H u1 R1. use IBP E u2 R2. exists (u1 ++ u2). split; [apply app_assoc|]. apply R2.
      eapply up; [|exact R1]. destruct l; try discriminate; reflexivity.
  - (* binary operators *) intros l x ts P a rest E. rewrite p_bin_p_S in E. repeat step.
    + assert (C : In (i_tok i, n0) (binaries (bl l))) by (apply level_in; [assumption|prop]).
      assert (M : exists r u1, tighter_than (Bin (bl l)) = Some r /\ l0 = u1 ++ x1 /\ okr r x0 u1).
      { destruct (tighter l) as [l'|] eqn:T.
        - use IB H u1 R1. exists (Bin (bl l')), u1. destruct l; try discriminate; injection T as <-; auto.
        - use IU H u1 R1. exists UExpr, u1. destruct l; try discriminate; auto. }
      destruct M as (r & u1 & T & -> & R1). use IBP E u2 R2.
      exists (i :: u1 ++ u2). split; [cbn; rewrite app_assoc; reflexivity|]. intros ux Ux.
      replace (ux ++ i :: u1 ++ u2) with ((ux ++ i :: u1) ++ u2) by (rewrite <- app_assoc; reflexivity).
      apply R2. intros [N1 N2]. eapply r_bin; eauto.
    + exists []. split; [reflexivity|]. intros ux Ux. rewrite app_nil_r. exact Ux.
  - (* unary *) intros ts P a rest E. rewrite p_unary_S in E. repeat step.
    + assert (C : In (i_tok i, u) unaries) by (apply unary_in; [assumption|prop]).
      use IU H u1 R1. exists (i :: u1). split; [reflexivity|]. intro N. apply r_unary; auto.
    + use IP E u1 R1. exists u1. split; [reflexivity|]. eapply up; [reflexivity|exact R1].
  - (* power *) intros ts P a rest E. rewrite p_pow_S in E. step. use IR H u1 R1. repeat step.
    + use IP H u2 R2. exists (u1 ++ i :: u2). split; [rewrite <- app_assoc; reflexivity|]. intros [N1 N2]. apply r_pow; auto.
    + exists u1. split; [reflexivity|]. eapply up; [reflexivity|exact R1].
  - (* primary *) intros ts P a rest E. rewrite p_array_S in E. step. use IM H u1 R1. use IRP E u2 R2.
    exists (u1 ++ u2). split; [apply app_assoc|]. apply R2. eapply up; [reflexivity|exact R1].
  - (* subscripts and calls *) intros x ts P a rest E. rewrite p_array_p_S in E. repeat step.
    + use IX H u1 R1. use IRP E u2 R2. exists (i :: u1 ++ x4 :: u2). split; [cbn; rewrite <- app_assoc; reflexivity|]. intros ux Ux.
      replace (ux ++ i :: u1 ++ x4 :: u2) with ((ux ++ i :: u1 ++ [x4]) ++ u2) by (rewrite <- !app_assoc; cbn; rewrite <- app_assoc; reflexivity).
      apply R2. apply R1; auto.
    + use IQ H u1 R1. use IRP E u2 R2. exists (i :: u1 ++ x4 :: u2). split; [cbn; rewrite <- app_assoc; reflexivity|]. intros ux Ux.
      replace (ux ++ i :: u1 ++ x4 :: u2) with ((ux ++ i :: u1 ++ [x4]) ++ u2) by (rewrite <- !app_assoc; cbn; rewrite <- app_assoc; reflexivity).
      apply R2. intros (N1 & N2 & N3). destruct (R1 N3 N2) as (A1 & A2 & A3). apply r_call; auto. split; assumption.
    + exists []. split; [reflexivity|]. intros ux Ux. rewrite app_nil_r. exact Ux.
  - (* index *) intros x ts P a rest E. rewrite p_index_S in E. repeat step.
    + use IS E u1 R1. exists (i :: u1). split; [reflexivity|]. intros ux i0 j E1 E2 Ux.
      apply (R1 ux i0 [] i j); auto. intros _. constructor.
    + use IE H u1 R1. use IS E u2 R2. exists (u1 ++ i :: u2). split; [rewrite <- app_assoc; reflexivity|]. intros ux i0 j E1 E2 Ux.
      rewrite <- app_assoc. cbn [app]. apply (R2 ux i0 u1 i j); auto. intro N. constructor. auto.
    + use IE H u1 R1. exists u1. split; [reflexivity|]. intros ux i0 j E1 E2 Ux [N1 N2]. apply r_index; auto.
  - (* slice *) intros x o ts P a rest E. rewrite p_slice_S in E. step. use IO H u1 R1. repeat step.
    + use IO H u2 R2. exists (u1 ++ i :: u2). split; [rewrite <- app_assoc; reflexivity|]. intros ux i0 ta c j E1 E2 E3 Ux Ua (N1 & N2 & N3 & N4).
      rewrite <- app_assoc. cbn [app]. apply r_stride; auto.
    + exists u1. split; [reflexivity|]. intros ux i0 ta c j E1 E2 E3 Ux Ua (N1 & N2 & N3 & N4). apply r_slice; auto.
  - (* optional expression *) intros ts P a rest E. rewrite p_opt_expr_S in E. repeat step.
    + use IE H u1 R1. exists u1. split; [reflexivity|]. intro N. constructor. auto.
    + exists []. split; [reflexivity|]. intros _. constructor.
  - (* atom *) intros ts P a rest E. rewrite p_prim_S in E. destruct ts as [|i ts]; [discriminate|].
    destruct (i_tok i) eqn:Ei; try discriminate; repeat step.
    + use IT H u1 R1. eexists (i :: u1 ++ [_]). split; [cbn; rewrite <- app_assoc; reflexivity|]. apply R1; auto.
    + use IQ H u1 R1. eexists (i :: u1 ++ [_]). split; [cbn; rewrite <- app_assoc; reflexivity|]. intros [N1 N2].
      destruct (R1 N2 N1) as (A1 & A2 & A3). apply Z.leb_gt in E0. pose proof (npos_nonneg (snd x)). pose proof (nnamed_nonneg (snd x)).
      apply r_list; auto; [lia|]. cbn. lia.
    + use ID H u1 R1. eexists (i :: u1 ++ [_]). split; [cbn; rewrite <- app_assoc; reflexivity|]. intro N. apply r_dict; auto.
    + exists [i]. split; [reflexivity|]. intros _. apply r_name. exact Ei.
    + exists [i]. split; [reflexivity|]. intros _. apply r_number. exact Ei.
    + destruct (p_strings ts) as [ls r] eqn:Q. step. apply strings_sound in Q as (us & -> & Q).
      exists (i :: us). split; [reflexivity|]. intros _. eapply r_string; eauto.
  - (* parentheses *) intros ts P a rest E. rewrite p_opt_tuple_S in E. step; [step; use IE H u1 R1; repeat step|step].
    + use IQ H u2 R2. exists (u1 ++ i :: u2). split; [rewrite <- app_assoc; reflexivity|]. intros i0 j F2 F3 (N1 & N2 & N3).
      unfold counted in N1. cbn [npos nnamed] in N1. destruct (R2 N3) as (A1 & A2 & A3); [unfold counted; lia|].
      match goal with X : (256 <=? _) = false |- _ => apply Z.leb_gt in X end. pose proof (npos_nonneg (snd x0)). pose proof (nnamed_nonneg (snd x0)).
      rewrite <- app_assoc. cbn [app]. apply r_tuple; auto; [lia|]. cbn [tuple_limit snek d_limit npos]. lia.
    + exists u1. split; [reflexivity|]. intros i0 j F2 F3 N. apply r_paren; auto.
    + exists []. split; [reflexivity|]. intros i0 j F2 F3 N. apply r_unit; auto.
  - (* optional arguments *) intros ts P a rest E. rewrite p_opt_actuals_S in E. repeat step.
    + apply (IG 0 ts ltac:(lia) P) in E as (u1 & -> & R1). exists u1. split; [reflexivity|]. intros N1 N2.
      destruct (R1 N1) as (A1 & A2 & A3); [exact N2|]. split; [econstructor; exact A1|]. lia.
    + exists []. split; [reflexivity|]. intros _ _. cbn. split; [constructor|]. lia.
  - (* arguments *) intros k ts K P a rest E. rewrite p_actuals_S in E. step. use IE H u1 R1. repeat step.
    + destruct (as_name x) as [id|] eqn:Ex; [|discriminate]. repeat step.
      assert (C : In (i_tok i, o) assignments) by (apply assign_in; [assumption|prop]).
      use IE H u2 R2. apply (IGP _ _ (u_of_le _)) in H0 as (u3 & -> & R3); [|prop]. cbn [fst snd].
      exists (u1 ++ i :: u2 ++ u3). split; [rewrite <- app_assoc; cbn; rewrite <- app_assoc; reflexivity|].
      intros [N1 N2] L. cbn [npos nnamed] in L |- *.
      pose proof (npos_nonneg (snd x2)). pose proof (nnamed_nonneg (snd x2)). rewrite u_of_small in R3 by lia.
      assert (Nx : reads_name id (u1 ++ [i])).
      { apply name_loads in Ex. econstructor; [reflexivity|apply R1; eapply loads_nowrap; exact Ex|exact Ex|exact C]. }
      replace (u1 ++ i :: u2 ++ u3) with ((u1 ++ [i]) ++ u2 ++ u3) by (rewrite <- app_assoc; reflexivity).
      destruct R3 as [(Z1 & Z2 & Z3)|(c & us & -> & Ec & R3)].
      * rewrite Z1 in *. cbn [npos nnamed] in *. split; [|lia]. apply a_named_last; auto.
      * destruct (R3 N2) as (A1 & A2 & A3); [lia|]. split; [|lia]. replace (256 <=? k + 256) with true in A1 by (symmetry; apply Z.leb_le; lia).
        apply a_named_more; auto.
    + apply (IGP (k + 1)) in H as (u2 & -> & R2); [|lia|prop]. cbn [fst snd]. apply Z.leb_gt in E0.
      exists (u1 ++ u2). split; [apply app_assoc|]. intros [N1 N2] L. cbn [npos nnamed] in L |- *.
      pose proof (npos_nonneg (snd x1)). pose proof (nnamed_nonneg (snd x1)).
      replace (256 <=? k) with false by (symmetry; apply Z.leb_gt; exact E0).
      destruct R2 as [(Z1 & Z2 & Z3)|(c & us & -> & Ec & R2)].
      * rewrite Z1 in *. cbn [npos nnamed] in *. split; [|lia]. apply a_last; auto.
      * destruct (R2 N2) as (A1 & A2 & A3); [lia|]. split; [|lia]. eapply a_more; eauto.
  - (* after an argument *) intros k ts K P a rest E. rewrite p_actuals_p_S in E. repeat step.
    + apply (IG k) in E as (u1 & -> & R1); [|lia|prop]. exists (i :: u1). split; [reflexivity|]. right. eauto.
    + exists [i]. split; [reflexivity|]. left. repeat split. constructor. assumption.
    + exists []. split; [reflexivity|]. left. repeat split. constructor.
  - (* entries *) intros ts P a rest E. rewrite p_dents_S in E. repeat step.
    + use IE H u1 R1. repeat step. use IE H1 u2 R2. use IDP H2 u3 R3.
      eexists (u1 ++ _ :: u2 ++ u3). split; [rewrite <- app_assoc; cbn; rewrite <- app_assoc; reflexivity|].
      intros (N1 & N2 & N3). destruct R3 as [[-> ->]|(c & us & -> & Ec & R3)].
      * apply d_last; auto. constructor.
      * apply d_more; auto.
    + exists []. split; [reflexivity|]. intros _. constructor.
  - (* after an entry *) intros ts P a rest E. rewrite p_dents_p_S in E. repeat step.
    + use ID E u1 R1. exists (i :: u1). split; [reflexivity|]. right. eauto.
    + exists []. split; [reflexivity|]. left. auto.
Qed.
End Sound.
