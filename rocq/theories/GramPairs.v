(** Tokens that never stand next to each other in what Snek accepts, although
    they may in Python; and that Snek's reading of a Python phrase is Python's. *)
From Coq Require Import ZArith Bool List Ascii String Lia.
From Verif Require Import Base FloatModel PolyModel ValueModel MathModel BinModel LexModel CompModel GramModel GramSpec GramStmtSpec.
From Verif Require Import GramEqs GramComplete GramStmts GramSound GramStmtSound GramWhole.
Import ListNotations.
Local Open Scope Z_scope.
Notation length := List.length (only parsing).

(** a unary operator after **; a semicolon at the end of a line; a def first in
    a block or on the line of the colon; range anywhere but after in *)
Definition never (a b : token) : bool :=
  match b with
  | TMinus _ | TPlus _ | TLnot OpLnot | TNot OpNot => match a with TPow _ => true | _ => false end
  | TNl => match a with TSemi => true | _ => false end
  | TKeyword s =>
      (text_eqb s (chars "range") && match a with TIn _ => false | _ => true end) ||
      (text_eqb s (chars "def") && match a with TIndent _ | TColon => true | _ => false end)
  | _ => false
  end.
Fixpoint pairs (ts : list item) : bool :=
  match ts with
  | i :: r => negb (match r with j :: _ => never (i_tok i) (i_tok j) | [] => false end) && pairs r
  | [] => true
  end.

Definition ok_first (t : token) : bool := negb (kw "range" t).
Definition ok_last (t : token) : bool := match t with TPow _ | TSemi | TIndent _ | TColon => false | _ => true end.
Definition firstt (ts : list item) : token := match ts with i :: _ => i_tok i | [] => TNl end.
Fixpoint lastt (ts : list item) : token := match ts with [] => TNl | [i] => i_tok i | _ :: r => lastt r end.
Definition calm (ts : list item) : Prop := pairs ts = true /\ ok_first (firstt ts) = true /\ ok_last (lastt ts) = true.

Lemma never_ok a b : ok_last a = true -> ok_first b = true -> never a b = false.
Proof.
  unfold never, ok_first, ok_last, kw. intros A B. destruct b; try reflexivity;
    try (destruct a; try discriminate; try reflexivity; destruct o; reflexivity).
  apply negb_true_iff in B. rewrite B. destruct a; try discriminate; apply andb_false_r.
Qed.
Lemma calm_nil : calm []. Proof. now repeat split. Qed.
Lemma calm_one i : ok_first (i_tok i) = true -> ok_last (i_tok i) = true -> calm [i].
Proof. intros A B. repeat split; auto. Qed.
Lemma calm_app a b : calm a -> calm b -> calm (a ++ b).
Proof.
  intros (A1 & A2 & A3) (B1 & B2 & B3). destruct a as [|i a]; [cbn; repeat split; auto|].
  split; [|split; [exact A2|]].
  - clear A2. revert i A1 A3. induction a as [|j a IH]; intros i A1 A3.
    + cbn in *. destruct b as [|j b]; [reflexivity|]. pose proof (never_ok _ _ A3 B2) as E. cbn [firstt] in E. rewrite E. exact B1.
    + cbn [pairs app] in *. apply andb_prop in A1 as [A0 A1]. rewrite A0. cbn [andb]. apply (IH j); auto.
  - clear A1 A2. revert i A3. induction a as [|j a IH]; intros i A3.
    + cbn [app]. destruct b as [|j b]; [exact A3|]. exact B3.
    + cbn [app lastt]. apply (IH j). exact A3.
Qed.
Lemma calm_cons i b : calm b -> ok_first (i_tok i) = true -> ok_last (i_tok i) = true -> calm (i :: b).
Proof. intros B A1 A2. apply (calm_app [i] b); auto using calm_one. Qed.
(** a token that needs the next one to be looked at *)
Lemma calm_lead i b : calm b -> b <> [] -> ok_first (i_tok i) = true -> never (i_tok i) (firstt b) = false -> calm (i :: b).
Proof.
  intros (B1 & B2 & B3) N A1 A2. destruct b as [|j b]; [congruence|].
  repeat split; auto. cbn [pairs]. cbn [firstt] in A2. rewrite A2. exact B1.
Qed.

(** first tokens *)
Lemma first_app a b : a <> [] -> firstt (a ++ b) = firstt a.
Proof. destruct a; [congruence|reflexivity]. Qed.
Lemma starts_first f ts : starts_with f ts -> f (firstt ts) /\ ts <> [].
Proof. intros (i & r & -> & H). split; [exact H|discriminate]. Qed.
Lemma never_expr a t : starts_expr t = true -> match a with TPow _ => False | _ => True end -> never a t = false.
Proof. destruct t; try discriminate; try reflexivity; destruct a; intros _ H; try reflexivity; try destruct H; destruct o; reflexivity. Qed.
Lemma pow_first t : starts_expr t = true -> is_not t = false -> unary_of t = None -> never (TPow OpPow) t = false.
Proof. destruct t; try discriminate; try reflexivity; destruct o; try discriminate; reflexivity. Qed.
Lemma expr_ok t : starts_expr t = true -> ok_first t = true.
Proof. destruct t; try discriminate; reflexivity. Qed.

Lemma calm_colon i b : i_tok i = TColon -> calm b -> b <> [] -> kw "def" (firstt b) = false -> calm (i :: b).
Proof.
  intros E B N F. apply calm_lead; auto; rewrite E; [reflexivity|]. destruct B as (_ & B & _). unfold never.
  destruct (firstt b); try reflexivity; try (destruct o; reflexivity). unfold ok_first, kw in *. apply negb_true_iff in B. rewrite B, F. reflexivity.
Qed.
Lemma expr_def t : starts_expr t = true -> kw "def" t = false.
Proof. destruct t; try discriminate; reflexivity. Qed.
Lemma app_first f (a b : list item) : (a = [] \/ starts_with f a) -> (forall t, f t -> kw "def" t = false) ->
  kw "def" (firstt b) = false -> kw "def" (firstt (a ++ b)) = false.
Proof. intros [->|(i & r & -> & H)] F E; [exact E|]. cbn. auto. Qed.
Lemma app_some (a b : list item) : b <> [] -> a ++ b <> [].
Proof. destruct a; [auto|discriminate]. Qed.
Lemma app_some' (a b : list item) : a <> [] -> a ++ b <> [].
Proof. destruct a; [congruence|discriminate]. Qed.

Lemma strings_calm ls ts : reads_strings ls ts -> calm ts.
Proof. induction 1 as [|i s ls ts E _ IH]; [apply calm_nil|]. apply calm_cons; auto; rewrite E; reflexivity. Qed.
Lemma comma_calm c : trailing c -> calm c.
Proof. destruct 1 as [|i E]; [apply calm_nil|]. apply calm_one; rewrite E; reflexivity. Qed.
Lemma bin_calm b t o : In (t, o) (binaries b) -> ok_first t = true /\ ok_last t = true.
Proof. intro H. destruct b; cbn in H; repeat (destruct H as [H|H]; [injection H as <- <-; split; reflexivity|]); destruct H. Qed.
Lemma unary_calm t o : In (t, o) unaries -> ok_first t = true /\ ok_last t = true.
Proof. intro H. cbn in H; repeat (destruct H as [H|H]; [injection H as <- <-; split; reflexivity|]); destruct H. Qed.
Lemma cmp_calm t o : In (t, o) comparisons -> ok_first t = true /\ ok_last t = true.
Proof. intro H. cbn in H; repeat (destruct H as [H|H]; [injection H as <- <-; split; reflexivity|]); destruct H. Qed.
Lemma assign_calm t o : In (t, o) assignments -> ok_first t = true /\ ok_last t = true.
Proof. intro H. cbn in H; repeat (destruct H as [H|H]; [injection H as <- <-; split; reflexivity|]); destruct H. Qed.

Section Calm.
Variable D : dialect.
Variable idof : list Z -> Z.
Variable numof : list Z -> float.
Hypothesis Dpow : d_pow D = false.
Hypothesis Dtrail : d_trail D = false.

Notation reads := (reads D idof numof).
Lemma start_of r e ts : reads r e ts -> first_ok r (firstt ts) /\ ts <> [].
Proof. intro H. apply starts_first. now apply (firsts idof numof D) in H. Qed.
Lemma expr_start r e ts : reads r e ts -> starts_expr (firstt ts) = true /\ ts <> [].
Proof. intro H. apply start_of in H as ((A & _) & N). auto. Qed.

Ltac tokens := match goal with
  | E : i_tok ?i = _ |- ok_first (i_tok ?i) = true => rewrite E; reflexivity
  | E : i_tok ?i = _ |- ok_last (i_tok ?i) = true => rewrite E; reflexivity
  | E : In (i_tok ?i, _) (binaries _) |- _ => apply bin_calm in E; tauto
  | E : In (i_tok ?i, _) unaries |- _ => apply unary_calm in E; tauto
  | E : In (i_tok ?i, _) comparisons |- _ => apply cmp_calm in E; tauto
  | E : In (i_tok ?i, _) assignments |- _ => apply assign_calm in E; tauto
  end.
Ltac settle := repeat first
  [ assumption | apply calm_nil | (apply calm_app; [now eauto using strings_calm, comma_calm|])
  | (apply calm_one; now tokens) | (apply calm_cons; [|now tokens|now tokens]) | now eauto using strings_calm, comma_calm ].

Lemma calm_exprs :
  (forall r e ts, reads r e ts -> calm ts) /\
  (forall l ts, reads_links D idof numof l ts -> calm ts) /\
  (forall o ts, reads_opt D idof numof o ts -> calm ts) /\
  (forall a ts, reads_actuals D idof numof a ts -> calm ts) /\
  (forall b a ts, reads_args D idof numof b a ts -> calm ts) /\
  (forall i ts, reads_name D idof numof i ts -> calm ts) /\
  (forall d ts, reads_dents D idof numof d ts -> calm ts).
Proof.
  destruct (firsts idof numof D) as (_ & _ & FO & _).
  apply reads_all; intros; settle.
  - rewrite Dpow in *. match goal with H : reads Power y ty |- _ => pose proof (start_of _ _ _ H) as ((A & B & C) & N) end.
    apply calm_lead; auto; rewrite H1; [reflexivity|]. now apply pow_first.
  - apply calm_colon; auto; settle; [apply app_some; discriminate|].
    match goal with H : reads_opt _ _ _ b tb |- _ => apply FO in H end. eapply app_first; [|exact expr_def|]; [tauto|]. cbn. match goal with H : i_tok j = _ |- _ => rewrite H end. reflexivity.
  - apply calm_colon; auto; settle.
    + apply calm_colon; auto; settle; [apply app_some; discriminate|].
      match goal with H : reads_opt _ _ _ s ts |- _ => apply FO in H end.
      eapply app_first; [|exact expr_def|]; [tauto|]. cbn. match goal with H : i_tok j = _ |- _ => rewrite H end. reflexivity.
    + apply app_some; discriminate.
    + match goal with H : reads_opt _ _ _ b tb |- _ => apply FO in H end.
      eapply app_first; [|exact expr_def|]; [tauto|]. cbn. match goal with H : i_tok c' = _ |- _ => rewrite H end. reflexivity.
  - match goal with H : reads OrTest v tv |- _ => pose proof (expr_start _ _ _ H) as (A & N) end.
    apply calm_colon; auto; settle; [now apply app_some'|]. rewrite first_app by auto. now apply expr_def.
  - match goal with H : reads OrTest v tv |- _ => pose proof (expr_start _ _ _ H) as (A & N) end.
    apply calm_colon; auto; settle; [now apply app_some'|]. rewrite first_app by auto. now apply expr_def.
Qed.
Lemma calm_expr r e ts : reads r e ts -> calm ts. Proof. apply calm_exprs. Qed.
Lemma calm_opt r ts : reads_opt D idof numof r ts -> calm ts. Proof. apply calm_exprs. Qed.
Lemma calm_actuals r ts : reads_actuals D idof numof r ts -> calm ts. Proof. apply calm_exprs. Qed.
Hint Resolve calm_expr calm_opt calm_actuals : calm.

Lemma calm_globals g ts : reads_globals idof g ts -> calm ts.
Proof. induction 1; settle. Qed.
Lemma calm_dels g ts : reads_dels D idof numof g ts -> calm ts.
Proof. induction 1; eauto with calm. apply calm_app; eauto with calm. settle. Qed.
Lemma calm_small g ts : reads_small D idof numof g ts -> calm ts.
Proof.
  destruct 1; eauto with calm; settle; eauto using calm_globals, calm_dels with calm.
  apply calm_app; eauto with calm. settle; eauto with calm.
Qed.
Lemma small_first s ts : reads_small D idof numof s ts -> starts_small (firstt ts) = true /\ ts <> [].
Proof. intro H. apply (starts_first (fun t => starts_small t = true)). now apply (first_small idof numof D) in H. Qed.
Lemma smalls_first s ts : reads_smalls D idof numof s ts -> starts_small (firstt ts) = true /\ ts <> [].
Proof.
  destruct 1 as [s ts H|s ts i _ H _|s ts i s' ts' H _ _]; apply small_first in H as (A & N);
    rewrite ?first_app by auto; auto using app_some'.
Qed.
Lemma calm_smalls s ts : reads_smalls D idof numof s ts -> calm ts.
Proof.
  induction 1 as [s ts H|s ts i T H _|s ts i s' ts' H E H' IH]; [eapply calm_small; eauto|congruence|].
  apply calm_app; [eapply calm_small; eauto|]. apply smalls_first in H' as (A & N).
  apply calm_lead; auto; rewrite E; [reflexivity|]. unfold never. destruct IH as (_ & B & _).
  destruct (firstt ts'); try discriminate; try reflexivity; try (destruct o; reflexivity).
  unfold ok_first, kw in B. apply negb_true_iff in B. rewrite B. cbn. apply andb_false_r.
Qed.
Lemma calm_line s ts : reads_line D idof numof s ts -> calm ts.
Proof. destruct 1 as [i ts s j H E]. apply calm_smalls in H. apply (calm_app (i :: ts) [j]); auto. settle. Qed.
Lemma line_first s ts : reads_line D idof numof s ts -> starts_small (firstt ts) = true /\ ts <> [].
Proof. destruct 1 as [i ts s j H E]. apply smalls_first in H as (A & N). split; [exact A|discriminate]. Qed.
Lemma small_def t : starts_small t = true -> kw "def" t = false.
Proof.
  intro H. destruct (kw "def" t) eqn:E; [|reflexivity]. apply kw_is in E. subst t. discriminate.
Qed.
Lemma suite_first s ts : reads_suite D idof numof s ts -> kw "def" (firstt ts) = false /\ ts <> [].
Proof.
  destruct 1 as [s ts H|i j k s ts e f E _ _ _ _].
  - apply line_first in H as (A & N). split; [now apply small_def|exact N].
  - cbn. rewrite E. split; [reflexivity|discriminate].
Qed.
Lemma stat_first s ts : reads_stat D idof numof s ts -> starts_stat (firstt ts) = true /\ ts <> [].
Proof. intro H. apply (starts_first (fun t => starts_stat t = true)). now apply (first_stat idof numof D) in H. Qed.
Lemma stats_first s ts : reads_stats D idof numof s ts -> starts_stat (firstt ts) = true /\ ts <> [].
Proof. destruct 1 as [s ts H|s ts s' ts' H _]; apply stat_first in H as (A & N); rewrite ?first_app by auto; auto using app_some'. Qed.
Lemma stat_def t : starts_stat t = true -> kw "def" t = false.
Proof. intro H. destruct (kw "def" t) eqn:E; [|reflexivity]. apply kw_is in E. subst t. discriminate. Qed.
Lemma suite_calm i s ts r : i_tok i = TColon -> reads_suite D idof numof s ts -> calm ts -> calm r -> calm (i :: ts ++ r).
Proof.
  intros E H C R. apply suite_first in H as (A & N). apply calm_colon; auto using calm_app, app_some'.
  now rewrite first_app by auto.
Qed.
Lemma suite_calm' i s ts : i_tok i = TColon -> reads_suite D idof numof s ts -> calm ts -> calm (i :: ts).
Proof. intros E H C. apply suite_first in H as (A & N). apply calm_colon; auto. Qed.

Lemma range_calm j k r : i_tok j = TIn OpIn -> i_tok k = keyword "range" -> calm r -> calm (j :: k :: r).
Proof.
  intros E F (A & B & C). split; [|split]; [|cbn; rewrite E; reflexivity|].
  - assert (K : pairs (k :: r) = true).
    { cbn [pairs]. rewrite A, F. destruct r as [|i r]; [reflexivity|]. rewrite never_ok; [reflexivity|reflexivity|exact B]. }
    cbn [pairs]; rewrite E, F; cbn [pairs] in K; rewrite F in K; rewrite K; reflexivity.
  - destruct r; [cbn; rewrite F; reflexivity|exact C].
Qed.
Lemma indent_calm j k s ts r : i_tok j = TIndent k -> reads_stats D idof numof s ts -> calm ts -> calm r -> calm (j :: ts ++ r).
Proof.
  intros E H C R. apply stats_first in H as (A & N). apply calm_lead; auto using calm_app, app_some'; rewrite E; [reflexivity|].
  rewrite first_app by auto. apply stat_def in A. destruct C as (_ & B & _). unfold never.
  destruct (firstt ts); try reflexivity; try (destruct o; reflexivity). unfold ok_first, kw in *. apply negb_true_iff in B. rewrite A, B. reflexivity.
Qed.
Lemma calm_stmts :
  (forall s ts, reads_stat D idof numof s ts -> calm ts) /\
  (forall r ts, reads_rest D idof numof r ts -> calm ts) /\
  (forall s ts, reads_else D idof numof s ts -> calm ts) /\
  (forall s ts, reads_suite D idof numof s ts -> calm ts) /\
  (forall s ts, reads_stats D idof numof s ts -> calm ts).
Proof.
  apply stats_all; intros; eauto using calm_line; repeat first
    [ assumption | apply calm_nil | now (eapply suite_calm; eauto) | now (eapply suite_calm'; eauto)
    | now (eapply indent_calm; eauto; apply calm_one; tokens) | (apply range_calm; [assumption|assumption|])
    | (apply calm_app; [now eauto with calm|]) | (apply calm_cons; [|now tokens|now tokens]) | (apply calm_one; now tokens)].
Qed.
Lemma calm_formal f ts : reads_formal D idof numof f ts -> calm ts.
Proof.
  destruct 1 as [i s E|i s j e te E A H]; [settle|]. apply calm_cons; [|tokens|tokens].
  apply calm_cons; eauto with calm; destruct (d_lax D); try tokens; destruct A as [a A]; tokens.
Qed.
Lemma calm_formals f ts : reads_formals D idof numof f ts -> calm ts.
Proof.
  induction 1 as [f ts H|f ts i T H _|f ts i fs ts' H E _ IH]; [eapply calm_formal; eauto|congruence|].
  apply calm_app; [eapply calm_formal; eauto|]. settle.
Qed.
Lemma calm_command c ts : reads_command D idof numof c ts -> calm ts.
Proof.
  destruct 1 as [s ts H|i n id o fs tf q c s ts E1 E2 E3 H E4 E5 HS]; [now apply calm_stmts in H|].
  assert (calm tf) by (destruct H; eauto using calm_nil, calm_formals).
  settle. pose proof HS as C. apply calm_stmts in C. eapply suite_calm'; eauto.
Qed.
Lemma calm_import ts : reads_import D ts -> calm ts.
Proof. destruct 1; settle. Qed.
Theorem calm_program cs ts : reads_program D idof numof cs ts -> calm ts.
Proof.
  induction 1; eauto using calm_nil, calm_app, calm_command, calm_import.
  apply calm_app; [eapply calm_import; eauto|]. settle.
Qed.
End Calm.

Lemma pairs_app_r a b : pairs (a ++ b) = true -> pairs b = true.
Proof. induction a as [|i a IH]; [auto|]. cbn [app pairs]. intro H. apply andb_prop in H as [_ H]. auto. Qed.
Lemma pairs_app_l a b : pairs (a ++ b) = true -> pairs a = true.
Proof.
  induction a as [|i a IH]; [auto|]. cbn [app pairs]. intro H. apply andb_prop in H as [H0 H]. rewrite (IH H).
  destruct a; [reflexivity|]. cbn [app] in H0. rewrite H0. reflexivity.
Qed.
Lemma pairs_never a i j b : pairs (a ++ i :: j :: b) = true -> never (i_tok i) (i_tok j) = false.
Proof. intro H. apply pairs_app_r in H. cbn [pairs] in H. apply andb_prop in H as [H _]. now apply negb_true_iff in H. Qed.

(** * Python's reading *)
(** the limits of Snek, everywhere in a tree *)
Section Within.
Variable w : width.
Fixpoint within (e : expr) : Prop :=
  match e with
  | ENum _ | EStr _ _ | EId _ => True
  | EList a => npos a <= 255 /\ within_args a
  | ETuple a => npos a <= 256 /\ within_args a
  | EDict d => within_dents d
  | EBin _ x y | EIndex x y | EAnd x y | EOr x y => within x /\ within y
  | EUn _ x => within x
  | ESlice x a b c => within x /\ within_opt a /\ within_opt b /\ within_opt c
  | ECall f a => within f /\ (npos a <= 256 /\ counted w a) /\ within_args a
  | ECmp x l => within x /\ within_links l
  end
with within_args (a : args) : Prop :=
  match a with
  | ANil => True
  | APos e r | ANamed _ e r => within e /\ within_args r
  end
with within_dents (d : dents) : Prop :=
  match d with DNil => True | DCons k v r => within k /\ within v /\ within_dents r end
with within_opt (o : oexpr) : Prop := match o with ONone => True | OSome e => within e end
with within_links (l : links) : Prop :=
  match l with LLast _ y => within y | LMore _ y l => within y /\ within_links l end.
Definition within_target (t : target) : Prop :=
  match t with TId _ => True | TElem x i => within x /\ within i end.
Fixpoint within_stmt (s : stmt) : Prop :=
  match s with
  | SExpr e | SAssert e => within e
  | SAssign _ t e => within_target t /\ within e
  | SDel t => within_target t
  | SReturn o => within_opt o
  | SSeq a b => within_stmt a /\ within_stmt b
  | SIf x s r => within x /\ within_stmt s /\ within_rest r
  | SWhile x s e => within x /\ within_stmt s /\ within_stmt e
  | SFor _ x s e => within x /\ within_stmt s /\ within_stmt e
  | SRange _ a s e => npos a <= 255 /\ within_args a /\ within_stmt s /\ within_stmt e
  | _ => True
  end
with within_rest (r : rest) : Prop :=
  match r with
  | RNone => True
  | RElif _ x s r => within x /\ within_stmt s /\ within_rest r
  | RElse s => within_stmt s
  end.
Definition within_command (c : command) : Prop :=
  match c with
  | CStat s => within_stmt s
  | CDef _ f => Forall (fun p => within_opt (snd p)) (fd_formals f) /\ within_stmt (fd_body f)
  | CImport => True
  end.
End Within.

Section Agree.
Variable w : width.
Variable idof : list Z -> Z.
Variable numof : list Z -> float.
(** Python, with or without the commas and semicolons at the end *)
Variable P : dialect.
Hypothesis Plax : d_lax P = false.
Ltac parts := repeat match goal with
  | P : pairs (_ ++ _) = true |- _ => pose proof (pairs_app_l _ _ P); pose proof (pairs_app_r _ _ P); clear P
  | P : pairs (?i :: ?r) = true |- _ => apply (pairs_app_r [i] r) in P
  end.
Lemma python_common :
  (forall r e ts, reads P idof numof r e ts -> within w e -> pairs ts = true -> reads (common w) idof numof r e ts) /\
  (forall l ts, reads_links P idof numof l ts -> within_links w l -> pairs ts = true -> reads_links (common w) idof numof l ts) /\
  (forall o ts, reads_opt P idof numof o ts -> within_opt w o -> pairs ts = true -> reads_opt (common w) idof numof o ts) /\
  (forall a ts, reads_actuals P idof numof a ts -> within_args w a -> pairs ts = true -> reads_actuals (common w) idof numof a ts) /\
  (forall b a ts, reads_args P idof numof b a ts -> within_args w a -> pairs ts = true -> reads_args (common w) idof numof b a ts) /\
  (forall i ts, reads_name P idof numof i ts -> pairs ts = true -> reads_name (common w) idof numof i ts) /\
  (forall d ts, reads_dents P idof numof d ts -> within_dents w d -> pairs ts = true -> reads_dents (common w) idof numof d ts).
Proof.
  apply reads_all; intros;
    repeat match goal with H : within _ _ |- _ => progress (cbn [within] in H) | H : within_args _ _ |- _ => progress (cbn [within_args] in H)
      | H : within_dents _ _ |- _ => progress (cbn [within_dents] in H) | H : within_opt _ _ |- _ => progress (cbn [within_opt] in H)
      | H : within_links _ _ |- _ => progress (cbn [within_links] in H) end;
    repeat match goal with H : _ /\ _ |- _ => destruct H end.
  all: try (now (parts; econstructor; eauto)).
  - assert (K : forall j r, ty = j :: r -> never (TPow OpPow) (i_tok j) = false).
    { intros j r ->. rewrite <- H1. eapply pairs_never. exact H5. }
    parts.
    apply r_pow; auto. cbn [d_pow common]. destruct (d_pow P); [|auto].
    specialize (H3 H6 ltac:(assumption)). inversion H3; subst.
    + match goal with T : tighter_than UExpr = _ |- _ => injection T as <- end. assumption.
    + exfalso. specialize (K _ _ eq_refl).
      match goal with U : In _ unaries |- _ => cbn in U; repeat (destruct U as [U|U]; [injection U as U _; rewrite <- U in K; discriminate K|]); exact U end.
  - congruence.
Qed.
Lemma as_common r e ts : reads P idof numof r e ts -> within w e -> pairs ts = true -> reads (common w) idof numof r e ts.
Proof. apply python_common. Qed.
Lemma as_opt r ts : reads_opt P idof numof r ts -> within_opt w r -> pairs ts = true -> reads_opt (common w) idof numof r ts.
Proof. apply python_common. Qed.
Lemma as_actuals r ts : reads_actuals P idof numof r ts -> within_args w r -> pairs ts = true -> reads_actuals (common w) idof numof r ts.
Proof. apply python_common. Qed.

(** Snek and Python read an expression the same way *)
Theorem same_tree e e' ts : reads (snek w) idof numof OrTest e ts -> reads P idof numof OrTest e' ts -> within w e' -> e = e'.
Proof.
  intros H H' W. apply (one_reading w idof numof (snek w) eq_refl eq_refl e e' ts H).
  apply (weak (common w) (snek w) idof numof (snek_allows w)). apply as_common; auto.
  now apply (calm_expr (snek w) idof numof eq_refl) in H as (A & _).
Qed.

Hypothesis Ptrail : d_trail P = false.
Lemma as_stores x t : stores P x t -> stores (common w) x t.
Proof. destruct 1; [constructor|constructor|congruence]. Qed.
Lemma target_within x t : stores P x t -> within_target w t -> within w x.
Proof. destruct 1; cbn; auto. congruence. Qed.
Ltac split_within := cbn [within_stmt within_rest within_target within_command] in *;
  repeat match goal with H : _ /\ _ |- _ => destruct H end.
Lemma as_dels d ts : reads_dels P idof numof d ts -> within_stmt w d -> pairs ts = true -> reads_dels (common w) idof numof d ts.
Proof. induction 1; intros W Q; split_within; parts; econstructor; eauto using as_common, as_stores, target_within. Qed.
Lemma as_small d ts : reads_small P idof numof d ts -> within_stmt w d -> pairs ts = true -> reads_small (common w) idof numof d ts.
Proof.
  destruct 1; intros W Q; split_within; parts; try congruence;
    try (now econstructor; eauto using as_common, as_opt, as_stores, target_within, as_dels).
Qed.
Lemma as_smalls d ts : reads_smalls P idof numof d ts -> within_stmt w d -> pairs ts = true -> reads_smalls (common w) idof numof d ts.
Proof. induction 1; intros W Q; split_within; parts; try congruence; econstructor; eauto using as_small. Qed.
Lemma as_line d ts : reads_line P idof numof d ts -> within_stmt w d -> pairs ts = true -> reads_line (common w) idof numof d ts.
Proof.
  destruct 1; intros W Q; split_within. apply (pairs_app_l (i :: ts) [j]) in Q. econstructor; eauto using as_smalls.
Qed.
Lemma as_stmts :
  (forall s ts, reads_stat P idof numof s ts -> within_stmt w s -> pairs ts = true -> reads_stat (common w) idof numof s ts) /\
  (forall r ts, reads_rest P idof numof r ts -> within_rest w r -> pairs ts = true -> reads_rest (common w) idof numof r ts) /\
  (forall s ts, reads_else P idof numof s ts -> within_stmt w s -> pairs ts = true -> reads_else (common w) idof numof s ts) /\
  (forall s ts, reads_suite P idof numof s ts -> within_stmt w s -> pairs ts = true -> reads_suite (common w) idof numof s ts) /\
  (forall s ts, reads_stats P idof numof s ts -> within_stmt w s -> pairs ts = true -> reads_stats (common w) idof numof s ts).
Proof.
  apply stats_all; intros; split_within.
  all: try (now (apply b_line; eauto using as_line)); try (now (apply u_line; eauto using as_line)); parts;
    first [ now (apply b_blank; assumption) | now (eapply b_if; eauto using as_common) | now (eapply b_while; eauto using as_common)
          | now (eapply b_for; eauto using as_common) | now (eapply b_range; eauto using as_actuals) | now (eapply u_block; eauto)
          | now (econstructor; eauto using as_common) ].
Qed.
Lemma as_formal f ts : reads_formal P idof numof f ts -> within_opt w (snd f) -> pairs ts = true -> reads_formal (common w) idof numof f ts.
Proof.
  destruct 1 as [i s E|i s j e te E A H]; intros W Q; [now constructor|]. parts. rewrite Plax in A.
  apply fm_default; auto. apply as_common; auto.
Qed.
Lemma as_formals fs ts : reads_formals P idof numof fs ts -> Forall (fun p => within_opt w (snd p)) fs -> pairs ts = true -> reads_formals (common w) idof numof fs ts.
Proof.
  induction 1; intros W Q; [inversion W; subst; constructor; eauto using as_formal|congruence|].
  parts. inversion W; subst. econstructor; eauto using as_formal.
Qed.
Lemma as_command c ts : reads_command P idof numof c ts -> within_command w c -> pairs ts = true -> reads_command (common w) idof numof c ts.
Proof.
  destruct 1 as [s ts H|i n id o fs tf q c s ts E1 E2 E3 H E4 E5 HS]; intros W Q; split_within.
  - constructor. now apply as_stmts.
  - cbn [fd_formals fd_body] in *. parts. econstructor; eauto; [|now apply as_stmts].
    destruct H; [constructor|]. apply pm_some. apply as_formals; auto.
Qed.
Lemma as_import ts : reads_import P ts -> reads_import (common w) ts.
Proof. destruct 1; econstructor; eauto. now rewrite Plax in *. Qed.
Lemma as_program cs ts : reads_program P idof numof cs ts -> Forall (within_command w) cs -> pairs ts = true -> reads_program (common w) idof numof cs ts.
Proof.
  induction 1; intros W Q; repeat match goal with H : Forall _ (_ :: _) |- _ => inversion H; subst; clear H end; parts; try congruence;
    first [ now apply pg_end | now (apply pg_import; eauto using as_import) | now (apply pg_command; eauto using as_command) ].
Qed.
Theorem same_program cs cs' ts : reads_program (snek w) idof numof cs ts -> reads_program P idof numof cs' ts ->
  Forall (within_command w) cs' -> cs = cs'.
Proof.
  intros H H' W. apply (one_program w idof numof (snek w) eq_refl eq_refl eq_refl cs cs' ts H).
  apply (weak_program (common w) (snek w) idof numof (snek_allows w)). apply as_program; auto.
  now apply (calm_program (snek w) idof numof eq_refl eq_refl) in H as (A & _).
Qed.
End Agree.
