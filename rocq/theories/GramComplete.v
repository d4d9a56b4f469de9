(** Every expression of the reference grammar that both languages have is
    accepted, with its tree. *)
From Coq Require Import ZArith Bool List Ascii String Lia.
From Verif Require Import Base FloatModel PolyModel ValueModel MathModel BinModel LexModel CompModel GramModel GramEqs GramSpec.
Import ListNotations.
Local Open Scope Z_scope.
Local Open Scope parse_scope.

(** * Enough fuel *)
Definition yields {A} (f : nat -> pr A) (r : pr A) : Prop := exists n, forall m, (n <= m)%nat -> f m = r.
Lemma y_ret A (r : pr A) : yields (fun _ => r) r.
Proof. exists O. auto. Qed.
Lemma y_step A (f g : nat -> pr A) r : (forall n, f (S n) = g n) -> yields g r -> yields f r.
Proof.
  intros E [n H]. exists (S n). intros m Hm. destruct m as [|m]; [lia|]. rewrite E. apply H. lia.
Qed.
Lemma y_bind A B (f : nat -> pr A) (g : nat -> A -> list item -> pr B) a ts r :
  yields f (Parsed a ts) -> yields (fun n => g n a ts) r -> yields (fun n => pbind (f n) (g n)) r.
Proof.
  intros [n H] [n' H']. exists (Nat.max n n'). intros m Hm. rewrite H by lia. cbn. apply H'. lia.
Qed.
Lemma y_same A (f g : nat -> pr A) r : (forall n, f n = g n) -> yields g r -> yields f r.
Proof. intros E [n H]. exists n. intros m Hm. rewrite E. auto. Qed.

(** * Looking at the next token *)
Lemma take_head A (f : token -> option A) i ts a : f (i_tok i) = Some a -> take f (i :: ts) = Some (a, i, ts).
Proof. intro H. unfold take. rewrite H. reflexivity. Qed.
Lemma take_not A (f : token -> option A) i ts : f (i_tok i) = None -> take f (i :: ts) = None.
Proof. intro H. unfold take. rewrite H. reflexivity. Qed.
Lemma eat_head f i ts : f (i_tok i) = true -> eat f (i :: ts) = Parsed tt ts.
Proof. intro H. unfold eat, take, want. rewrite H. reflexivity. Qed.
Lemma text_eqb_refl s : text_eqb s s = true.
Proof. induction s; cbn; [reflexivity|]. rewrite Z.eqb_refl. exact IHs. Qed.
Lemma kw_keyword s t : t = keyword s -> kw s t = true.
Proof. intros ->. apply text_eqb_refl. Qed.
Lemma text_eqb_eq a b : text_eqb a b = true -> a = b.
Proof.
  revert b. induction a as [|x a IH]; intros [|y b] H; try discriminate; [reflexivity|]. cbn in H.
  apply andb_prop in H as [E H]. apply Z.eqb_eq in E. subst. f_equal. auto.
Qed.
Lemma kw_is s t : kw s t = true -> t = keyword s.
Proof. destruct t; try discriminate. cbn. intro H. apply text_eqb_eq in H. subst. reflexivity. Qed.

(** How tightly a token continues the phrase before it: 0 if it does not *)
Definition lvl (t : token) : nat :=
  match t with
  | TKeyword x => if text_eqb x (chars "or") then 1 else if text_eqb x (chars "and") then 2 else 0
  | TCmpop o | TIn o => 4
  | TLor _ => 5 | TLxor _ => 6 | TLand _ => 7 | TShift _ => 8 | TPlus _ | TMinus _ => 9 | TMulop _ => 10
  | TPow _ => 12 | TOs | TOp => 13 | TString _ => 14
  | _ => 0
  end.
Definition below (k : nat) (rest : list item) : Prop :=
  match rest with [] => True | i :: _ => (lvl (i_tok i) <= k)%nat end.
Lemma below_le k k' rest : below k rest -> (k <= k')%nat -> below k' rest.
Proof. destruct rest; cbn; [auto|lia]. Qed.

Definition lv (b : binary) : level :=
  match b with OrExpr => Lor | XorExpr => Lxor | AndExpr => Land | ShiftExpr => Lshift | AExpr => Ladd | MExpr => Lmul end.
Definition bk (b : binary) : nat :=
  match b with OrExpr => 5 | XorExpr => 6 | AndExpr => 7 | ShiftExpr => 8 | AExpr => 9 | MExpr => 10 end.
Definition room (r : rank) : nat :=
  match r with
  | OrTest => 1 | AndTest => 2 | NotTest | Comparison => 3 | Bin b => bk b | UExpr | Power => 11 | Primary | Atom => 13
  end.

Ltac heads H := intros H; match type of H with below _ ?ts => destruct ts as [|?i ?ts]; [reflexivity|] end;
  unfold take, want; cbn [below] in H; match goal with |- context [i_tok ?i] => destruct (i_tok i); cbn in *; try reflexivity; try lia end.
Lemma no_or rest : below 0 rest -> take (want (kw "or")) rest = None.
Proof. heads H. destruct (text_eqb _ _); [lia|reflexivity]. Qed.
Lemma no_and rest : below 1 rest -> take (want (kw "and")) rest = None.
Proof.
  heads H. destruct (text_eqb s [97; 110; 100]) eqn:E; [|reflexivity]. apply text_eqb_eq in E. subst. cbn in H. lia.
Qed.
Lemma no_cmp rest : below 3 rest -> take cmp_of rest = None.
Proof. heads H. Qed.
Lemma no_bin b rest : below (bk b - 1) rest -> take (level_op (lv b)) rest = None.
Proof. destruct b; heads H. Qed.
Lemma no_pow rest : below 11 rest -> take (want is_pow) rest = None.
Proof. heads H. Qed.
Lemma no_square rest : below 12 rest -> take (want is_open_square) rest = None.
Proof. heads H. Qed.
Lemma no_open rest : below 12 rest -> take (want is_open) rest = None.
Proof. heads H. Qed.

Lemma bin_op b i o : In (i_tok i, o) (binaries b) -> level_op (lv b) (i_tok i) = Some o /\ lvl (i_tok i) = bk b.
Proof.
  destruct b; cbn; intro H; repeat destruct H as [H|H]; try contradiction; injection H as E <-; rewrite <- E; split; reflexivity.
Qed.
Lemma cmp_opr i b : In (i_tok i, b) comparisons -> cmp_of (i_tok i) = Some b /\ lvl (i_tok i) = 4%nat.
Proof. cbn. intro H. repeat destruct H as [H|H]; try contradiction; injection H as E <-; rewrite <- E; split; reflexivity. Qed.
Lemma un_op i u : In (i_tok i, u) unaries -> unary_of (i_tok i) = Some u /\ is_not (i_tok i) = false /\ starts_expr (i_tok i) = true.
Proof. cbn. intro H. repeat destruct H as [H|H]; try contradiction; injection H as E <-; rewrite <- E; repeat split; reflexivity. Qed.
Lemma assign_opr i a : In (i_tok i, a) assignments -> assign_of (i_tok i) = Some a /\ lvl (i_tok i) = 0%nat.
Proof. cbn. intro H. repeat destruct H as [H|H]; try contradiction; injection H as E <-; rewrite <- E; split; reflexivity. Qed.

(** * Strings *)
Lemma strings_read ls ts : reads_strings ls ts -> forall rest, below 13 rest -> p_strings (ts ++ rest) = (ls, rest).
Proof.
  induction 1 as [|i s ls ts E H IH]; intros rest B; cbn.
  - destruct rest as [|i rest]; [reflexivity|]. cbn in *. destruct (i_tok i); try reflexivity. cbn in B. lia.
  - rewrite E, (IH _ B). reflexivity.
Qed.

(** * The first token of a phrase *)
Definition first_ok (r : rank) (t : token) : Prop :=
  starts_expr t = true /\
  (match r with OrTest | AndTest | NotTest => True | _ => is_not t = false end) /\
  (match r with Power | Primary | Atom => unary_of t = None | _ => True end).
Definition starts_with (P : token -> Prop) (ts : list item) : Prop := exists i ts', ts = i :: ts' /\ P (i_tok i).
Lemma starts_app P ts ts' : starts_with P ts -> starts_with P (ts ++ ts').
Proof. intros (i & r & -> & H). exists i, (r ++ ts'). auto. Qed.
Lemma starts_impl (P Q : token -> Prop) ts : (forall t, P t -> Q t) -> starts_with P ts -> starts_with Q ts.
Proof. intros A (i & r & -> & H). exists i, r. auto. Qed.

Section Complete.
Variable w : width.
Variable idof : list Z -> Z.
Variable numof : list Z -> float.
Variable D : dialect.
Notation reads := (reads D idof numof).
Notation reads_links := (reads_links D idof numof).
Notation reads_opt := (reads_opt D idof numof).
Notation reads_actuals := (reads_actuals D idof numof).
Notation reads_args := (reads_args D idof numof).
Notation reads_name := (reads_name D idof numof).
Notation reads_dents := (reads_dents D idof numof).
Notation p_expr := (p_expr w idof numof).
Notation p_or_p := (p_or_p w idof numof).
Notation p_and := (p_and w idof numof).
Notation p_and_p := (p_and_p w idof numof).
Notation p_not := (p_not w idof numof).
Notation p_cmp := (p_cmp w idof numof).
Notation p_cmp_p := (p_cmp_p w idof numof).
Notation p_bin := (p_bin w idof numof).
Notation p_bin_p := (p_bin_p w idof numof).
Notation p_unary := (p_unary w idof numof).
Notation p_pow := (p_pow w idof numof).
Notation p_array := (p_array w idof numof).
Notation p_array_p := (p_array_p w idof numof).
Notation p_index := (p_index w idof numof).
Notation p_slice := (p_slice w idof numof).
Notation p_opt_expr := (p_opt_expr w idof numof).
Notation p_prim := (p_prim w idof numof).
Notation p_opt_tuple := (p_opt_tuple w idof numof).
Notation p_opt_actuals := (p_opt_actuals w idof numof).
Notation p_actuals := (p_actuals w idof numof).
Notation p_actuals_p := (p_actuals_p w idof numof).
Notation p_dents := (p_dents w idof numof).
Notation p_dents_p := (p_dents_p w idof numof).

Lemma firsts :
  (forall r e ts, reads r e ts -> starts_with (first_ok r) ts) /\
  (forall l ts, reads_links l ts -> starts_with (fun t => lvl t = 4%nat) ts) /\
  (forall o ts, reads_opt o ts -> o = ONone /\ ts = [] \/ starts_with (fun t => starts_expr t = true) ts) /\
  (forall a ts, reads_actuals a ts -> a = ANil /\ ts = [] \/ starts_with (fun t => starts_expr t = true) ts) /\
  (forall b a ts, reads_args b a ts -> starts_with (fun t => starts_expr t = true) ts) /\
  (forall id ts, reads_name id ts -> starts_with (fun t => starts_expr t = true) ts) /\
  (forall d ts, reads_dents d ts -> d = DNil /\ ts = [] \/ starts_with (fun t => starts_expr t = true) ts).
Proof.
  apply reads_all; intros;
    try (left; split; reflexivity);
    try (right);
    try (match goal with A : starts_with _ ?tx |- starts_with _ (?tx ++ _) =>
      apply starts_app; eapply starts_impl; [|exact A]; cbn; intros t; unfold first_ok; tauto end);
    try (match goal with A : starts_with _ ?tx |- starts_with _ ?tx =>
      eapply starts_impl; [|exact A]; cbn; intros t; unfold first_ok; tauto end);
    try (match goal with E : i_tok ?i = _ |- starts_with _ (?i :: _) =>
      eexists _, _; split; [reflexivity|]; rewrite E; repeat split; reflexivity end).
  - eapply starts_impl; [|exact H1]. intros t (X & Y & Q). unfold first_ok.
    destruct r as [| | | |b| | | |]; try destruct b; try discriminate; injection H as <-; repeat split; auto.
  - match goal with E : In _ unaries |- _ => apply un_op in E as (A & B & C) end.
    eexists _, _; split; [reflexivity|]. repeat split; auto.
  - match goal with E : In _ comparisons |- _ => apply cmp_opr in E as (A & B) end. eexists _, _; split; [reflexivity|]. auto.
  - match goal with E : In _ comparisons |- _ => apply cmp_opr in E as (A & B) end. eexists _, _; split; [reflexivity|]. auto.
Qed.

Hypothesis Dpow : d_pow D = false.
Hypothesis Dlim : d_limit D = Some w.

Definition main (r : rank) (n : nat) (ts : list item) : pr expr :=
  match r with
  | OrTest => p_expr n ts | AndTest => p_and n ts | NotTest => p_not n ts | Comparison => p_cmp n ts
  | Bin b => p_bin n (lv b) ts | UExpr => p_unary n ts | Power => p_pow n ts | Primary => p_array n ts | Atom => p_prim n ts
  end.
Definition tailr (r : rank) (e : expr) (n : nat) (rest : list item) : pr expr :=
  match r with
  | OrTest => p_or_p n e rest | AndTest => p_and_p n e rest | Bin b => p_bin_p n (lv b) e rest
  | Primary => p_array_p n e rest | _ => Parsed e rest
  end.
Definition done (r : rank) (e : expr) (ts : list item) : Prop := forall rest res,
  below (room r) rest -> yields (fun n => tailr r e n rest) res -> yields (fun n => main r n (ts ++ rest)) res.

Lemma or_stops e rest : below 0 rest -> yields (fun n => p_or_p n e rest) (Parsed e rest).
Proof. intro B. eapply y_step; [intro; apply p_or_p_S|]. rewrite (no_or _ B). apply y_ret. Qed.
Lemma and_stops e rest : below 1 rest -> yields (fun n => p_and_p n e rest) (Parsed e rest).
Proof. intro B. eapply y_step; [intro; apply p_and_p_S|]. rewrite (no_and _ B). apply y_ret. Qed.
Lemma bin_stops b e rest : below (bk b - 1) rest -> yields (fun n => p_bin_p n (lv b) e rest) (Parsed e rest).
Proof. intro B. eapply y_step; [intro; apply p_bin_p_S|]. rewrite (no_bin _ _ B). apply y_ret. Qed.
Lemma array_stops e rest : below 12 rest -> yields (fun n => p_array_p n e rest) (Parsed e rest).
Proof. intro B. eapply y_step; [intro; apply p_array_p_S|]. rewrite (no_square _ B), (no_open _ B). apply y_ret. Qed.
Lemma cmp_stops rest : below 3 rest -> yields (fun n => p_cmp_p n rest) (Parsed None rest).
Proof. intro B. eapply y_step; [intro; apply p_cmp_p_S|]. rewrite (no_cmp _ B). apply y_ret. Qed.

Lemma tail_stops r r' e rest : tighter_than r = Some r' -> below (room r) rest -> yields (fun n => tailr r' e n rest) (Parsed e rest).
Proof.
  intros T B. destruct r as [| | | |b| | | |]; try destruct b; try discriminate; injection T as <-; cbn [tailr]; try apply y_ret;
    first [apply and_stops|apply bin_stops|apply array_stops]; eapply below_le; try exact B; cbn; lia.
Qed.
Lemma room_up r r' : tighter_than r = Some r' -> (room r <= room r')%nat.
Proof. intro T. destruct r as [| | | |b| | | |]; try destruct b; try discriminate; injection T as <-; cbn; lia. Qed.
Lemma done_stop r r' e ts rest : done r' e ts -> tighter_than r = Some r' -> below (room r) rest ->
  yields (fun n => main r' n (ts ++ rest)) (Parsed e rest).
Proof.
  intros H T B. apply H; [eapply below_le; [exact B|apply room_up; exact T]|]. eapply tail_stops; eassumption.
Qed.
Lemma done_expr e ts rest : done OrTest e ts -> below 0 rest -> yields (fun n => p_expr n (ts ++ rest)) (Parsed e rest).
Proof. intros H B. apply (H rest); [eapply below_le; [exact B|cbn; lia]|]. apply or_stops. exact B. Qed.

Lemma done_up r r' e ts : tighter_than r = Some r' -> starts_with (first_ok r') ts -> done r' e ts -> done r e ts.
Proof.
  intros T F H rest res B Y. pose proof (done_stop _ _ _ _ _ H T B) as M.
  destruct F as (i & ts' & -> & (F1 & F2 & F3)).
  destruct r as [| | | |b| | | |]; try discriminate; cbn [tailr main] in *.
  - injection T as <-. eapply y_step; [intro; apply p_expr_S|]. eapply y_bind; [exact M|exact Y].
  - injection T as <-. eapply y_step; [intro; apply p_and_S|]. eapply y_bind; [exact M|exact Y].
  - injection T as <-. eapply y_step; [intro; apply p_not_S|]. cbn [app]. rewrite take_not by (unfold want; rewrite F2; reflexivity).
    destruct Y as [n0 Y]. specialize (Y n0 (le_n _)). subst res. exact M.
  - injection T as <-. eapply y_step; [intro; apply p_cmp_S|]. eapply y_bind; [exact M|]. cbn beta.
    eapply y_bind; [apply cmp_stops; exact B|]. exact Y.
  - eapply y_step; [intro; apply p_bin_S|]. eapply y_bind; [|exact Y]. destruct b; injection T as <-; exact M.
  - injection T as <-. eapply y_step; [intro; apply p_unary_S|]. cbn [app]. rewrite take_not by exact F3.
    destruct Y as [n0 Y]. specialize (Y n0 (le_n _)). subst res. exact M.
  - injection T as <-. eapply y_step; [intro; apply p_pow_S|]. eapply y_bind; [exact M|]. cbn beta.
    rewrite (no_pow _ B). exact Y.
  - injection T as <-. eapply y_step; [intro; apply p_array_S|]. eapply y_bind; [exact M|]. exact Y.
Qed.

(** closing brackets *)
Definition closing (rest : list item) : Prop := next (fun t => is_close t || is_close_square t || is_close_curly t) rest = true.
Definition quiet (rest : list item) : Prop :=
  below 0 rest /\ next starts_expr rest = false /\ take (want is_comma) rest = None /\ take assign_of rest = None.
Lemma closing_quiet rest : closing rest -> quiet rest.
Proof.
  destruct rest as [|i rest]; [discriminate|]. unfold closing, quiet, take, want. cbn.
  destruct (i_tok i); try discriminate; repeat split; auto.
Qed.
Lemma closing_cp i rest : i_tok i = TCp -> closing (i :: rest).
Proof. intro E. unfold closing. cbn. rewrite E. reflexivity. Qed.
Lemma closing_cs i rest : i_tok i = TCs -> closing (i :: rest).
Proof. intro E. unfold closing. cbn. rewrite E. reflexivity. Qed.
Lemma closing_cc i rest : i_tok i = TCc -> closing (i :: rest).
Proof. intro E. unfold closing. cbn. rewrite E. reflexivity. Qed.
Lemma next_starts ts rest : starts_with (fun t => starts_expr t = true) ts -> next starts_expr (ts ++ rest) = true.
Proof. intros (i & r & -> & H). exact H. Qed.
Lemma first_starts r ts : starts_with (first_ok r) ts -> starts_with (fun t => starts_expr t = true) ts.
Proof. apply starts_impl. intros t H. apply H. Qed.

Definition loaded (id : Z) (tn : list item) : Prop := exists x tx j a, tn = tx ++ [j] /\ done OrTest x tx /\
  as_name x = Some id /\ assign_of (i_tok j) = Some a /\ lvl (i_tok j) = O.
Lemma loads_name x id : loads x id -> as_name x = Some id.
Proof. induction 1; cbn; auto. Qed.
Lemma npos_nonneg a : 0 <= npos a. Proof. induction a; cbn [npos]; lia. Qed.
Lemma nnamed_nonneg a : 0 <= nnamed a. Proof. induction a; cbn [nnamed]; lia. Qed.
Lemma u_of_small x : 0 <= x < 2 ^ wbits w -> u_of w x = x.
Proof. intro H. unfold u_of, wrapu. apply Z.mod_small. exact H. Qed.
Lemma named_only a ts : reads_args true a ts -> npos a = 0.
Proof.
  remember true as b eqn:E. intro H. revert E.
  induction H; intro E; try discriminate; cbn [npos]; auto.
Qed.

Lemma index_slice x a ta c rest r : reads_opt a ta -> (a = ONone /\ ta = [] \/ starts_with (fun t => starts_expr t = true) ta) ->
  yields (fun n => p_opt_expr n (ta ++ c :: rest)) (Parsed a (c :: rest)) -> i_tok c = TColon ->
  yields (fun n => p_slice n x a rest) r -> yields (fun n => p_index n x (ta ++ c :: rest)) r.
Proof.
  intros Ha F IHa Ec Y. eapply y_step; [intro; apply p_index_S|]. destruct F as [[-> ->]|F].
  - cbn [app]. rewrite (take_head _ _ _ _ tt) by (unfold want; rewrite Ec; reflexivity). exact Y.
  - inversion Ha as [|e ts He]; subst; [destruct F as (? & ? & ? & _); discriminate|].
    destruct F as (i0 & ta' & -> & F). cbn [app] in *.
    rewrite take_not by (unfold want; destruct (i_tok i0); try discriminate; reflexivity).
    assert (IHe : yields (fun n => p_expr n (i0 :: ta' ++ c :: rest)) (Parsed e (c :: rest))).
    { destruct IHa as [n0 IHa]. exists n0. intros m Hm.
      specialize (IHa (Datatypes.S m) ltac:(lia)). rewrite p_opt_expr_S in IHa. cbn [next] in IHa. rewrite F in IHa.
      destruct (p_expr m _); cbn in IHa; try discriminate. injection IHa as -> ->. reflexivity. }
    eapply y_bind; [exact IHe|]. cbn beta. rewrite (take_head _ _ _ _ tt) by (unfold want; rewrite Ec; reflexivity). exact Y.
Qed.

Theorem complete :
  (forall r e ts, reads r e ts -> done r e ts) /\
  (forall l ts, reads_links l ts -> forall rest, below 3 rest -> yields (fun n => p_cmp_p n (ts ++ rest)) (Parsed (Some l) rest)) /\
  (forall o ts, reads_opt o ts -> forall rest, below 0 rest -> next starts_expr rest = false ->
    yields (fun n => p_opt_expr n (ts ++ rest)) (Parsed o rest)) /\
  (forall a ts, reads_actuals a ts -> forall rest, closing rest -> npos a <= 256 -> counted w a ->
    yields (fun n => p_opt_actuals n (ts ++ rest)) (Parsed (npos a + 256 * nnamed a, a) rest)) /\
  (forall b a ts, reads_args b a ts -> forall k rest, closing rest -> 0 <= k -> npos a = 0 \/ k + npos a <= 256 ->
    k + npos a + 256 * nnamed a < 2 ^ wbits w ->
    yields (fun n => p_actuals n k (ts ++ rest)) (Parsed (k + npos a + 256 * nnamed a, a) rest)) /\
  (forall id ts, reads_name id ts -> loaded id ts) /\
  (forall d ts, reads_dents d ts -> forall rest, closing rest -> yields (fun n => p_dents n (ts ++ rest)) (Parsed d rest)).
Proof.
  destruct firsts as (FR & FL & FO & FA & FG & FN & FD).
  apply reads_all.
  - (* up *) intros r r' e ts T H IH. eapply done_up; eauto.
  - (* or *) intros x tx i y ty _ IHx E _ IHy rest res B Y.
    rewrite <- app_assoc. apply IHx; [cbn; rewrite E; cbn; lia|]. cbn [tailr].
    eapply y_step; [intro; apply p_or_p_S|]. cbn [app]. rewrite (take_head _ _ _ _ tt) by (unfold want; rewrite kw_keyword by exact E; reflexivity).
    eapply y_bind; [|exact Y]. apply (done_stop OrTest AndTest _ _ _ IHy eq_refl B).
  - (* and *) intros x tx i y ty _ IHx E _ IHy rest res B Y.
    rewrite <- app_assoc. apply IHx; [cbn; rewrite E; cbn; lia|]. cbn [tailr].
    eapply y_step; [intro; apply p_and_p_S|]. cbn [app]. rewrite (take_head _ _ _ _ tt) by (unfold want; rewrite kw_keyword by exact E; reflexivity).
    eapply y_bind; [|exact Y]. apply (done_stop AndTest NotTest _ _ _ IHy eq_refl B).
  - (* not *) intros i x tx E _ IHx rest res B Y. cbn [main tailr] in *.
    eapply y_step; [intro; apply p_not_S|]. cbn [app]. rewrite (take_head _ _ _ _ tt) by (unfold want; rewrite E; reflexivity).
    eapply y_bind; [apply (IHx rest (Parsed x rest) B); cbn [tailr]; apply y_ret|]. exact Y.
  - (* cmp *) intros x tx l tl _ IHx Hl IHl rest res B Y. cbn [main tailr] in *.
    rewrite <- app_assoc. eapply y_step; [intro; apply p_cmp_S|]. destruct (FL _ _ Hl) as (i & tl' & -> & Ei).
    assert (B5 : below 4 ((i :: tl') ++ rest)) by (cbn; lia).
    eapply y_bind; [apply (IHx _ (Parsed x _)); [eapply below_le; [exact B5|cbn; lia]|apply (bin_stops OrExpr); exact B5]|].
    cbn beta. eapply y_bind; [apply IHl; exact B|]. exact Y.
  - (* binary *) intros b r x tx i o y ty _ IHx E T _ IHy rest res B Y.
    destruct (bin_op _ _ _ E) as [Eo El].
    rewrite <- app_assoc. apply IHx; [cbn; lia|]. cbn [tailr].
    eapply y_step; [intro; apply p_bin_p_S|]. cbn [app]. rewrite (take_head _ _ _ _ o) by exact Eo.
    eapply y_bind; [|exact Y]. pose proof (done_stop (Bin b) r _ _ _ IHy T B) as M. destruct b; injection T as <-; exact M.
  - (* unary *) intros i u x tx E _ IHx rest res B Y. cbn [main tailr] in *. destruct (un_op _ _ E) as (Eu & _).
    eapply y_step; [intro; apply p_unary_S|]. cbn [app]. rewrite (take_head _ _ _ _ u) by exact Eu.
    eapply y_bind; [apply (IHx rest (Parsed x rest) B); cbn [tailr]; apply y_ret|]. exact Y.
  - (* pow *) intros x tx i y ty _ IHx E Hy IHy rest res B Y. rewrite Dpow in *. cbn [main tailr] in *.
    rewrite <- app_assoc. eapply y_step; [intro; apply p_pow_S|].
    assert (B12 : below 12 ((i :: ty) ++ rest)) by (cbn; rewrite E; cbn; lia).
    eapply y_bind; [apply (IHx _ (Parsed x _)); [eapply below_le; [exact B12|cbn; lia]|apply array_stops; exact B12]|].
    cbn [app]. cbn beta. rewrite (take_head _ _ _ _ tt) by (unfold want; rewrite E; reflexivity).
    eapply y_bind; [apply (IHy rest (Parsed y rest) B); cbn [tailr]; apply y_ret|]. exact Y.
  - (* index *) intros x tx i y ty j _ IHx E Hy IHy Ej rest res B Y.
    rewrite <- app_assoc. apply IHx; [cbn; rewrite E; cbn; lia|]. cbn [tailr] in *.
    eapply y_step; [intro; apply p_array_p_S|]. cbn [app]. rewrite (take_head _ _ _ _ tt) by (unfold want; rewrite E; reflexivity).
    rewrite <- app_assoc. cbn [app].
    eapply y_bind.
    { eapply y_step; [intro; apply p_index_S|]. destruct (FR _ _ _ Hy) as (i0 & ty' & -> & (F & _)). cbn [app].
      rewrite take_not by (unfold want; destruct (i_tok i0); try discriminate; reflexivity).
      eapply y_bind; [apply (done_expr _ (i0 :: ty')); [exact IHy|cbn; rewrite Ej; cbn; lia]|]. cbn beta.
      rewrite take_not by (unfold want; rewrite Ej; reflexivity). apply y_ret. }
    cbn beta. rewrite eat_head by (rewrite Ej; reflexivity). exact Y.
  - (* slice *) intros x tx i a ta c b tb j _ IHx E Ha IHa Ec Hb IHb Ej rest res B Y.
    rewrite <- app_assoc. apply IHx; [cbn; rewrite E; cbn; lia|]. cbn [tailr] in *.
    eapply y_step; [intro; apply p_array_p_S|]. cbn [app]. rewrite (take_head _ _ _ _ tt) by (unfold want; rewrite E; reflexivity).
    rewrite <- app_assoc. cbn [app]. rewrite <- app_assoc. cbn [app].
    eapply y_bind.
    { eapply index_slice; [exact Ha|auto|apply IHa; cbn; rewrite Ec; cbn; auto|exact Ec|].
      eapply y_step; [intro; apply p_slice_S|].
      eapply y_bind; [apply IHb; [cbn; rewrite Ej; cbn; lia|cbn; rewrite Ej; reflexivity]|]. cbn beta.
      rewrite take_not by (unfold want; rewrite Ej; reflexivity). apply y_ret. }
    cbn beta. rewrite eat_head by (rewrite Ej; reflexivity). exact Y.
  - (* stride *) intros x tx i a ta c b tb c' s ts j _ IHx E Ha IHa Ec Hb IHb Ec' Hs IHs Ej rest res B Y.
    rewrite <- app_assoc. apply IHx; [cbn; rewrite E; cbn; lia|]. cbn [tailr] in *.
    eapply y_step; [intro; apply p_array_p_S|]. cbn [app]. rewrite (take_head _ _ _ _ tt) by (unfold want; rewrite E; reflexivity).
    rewrite <- app_assoc. cbn [app]. rewrite <- app_assoc. cbn [app]. rewrite <- app_assoc. cbn [app].
    eapply y_bind.
    { eapply index_slice; [exact Ha|auto|apply IHa; cbn; rewrite Ec; cbn; auto|exact Ec|].
      eapply y_step; [intro; apply p_slice_S|].
      eapply y_bind; [apply IHb; [cbn; rewrite Ec'; cbn; lia|cbn; rewrite Ec'; reflexivity]|]. cbn beta.
      rewrite (take_head _ _ _ _ tt) by (unfold want; rewrite Ec'; reflexivity).
      eapply y_bind; [apply IHs; [cbn; rewrite Ej; cbn; lia|cbn; rewrite Ej; reflexivity]|]. cbn beta. apply y_ret. }
    cbn beta. rewrite eat_head by (rewrite Ej; reflexivity). exact Y.
  - (* call *) intros f tf i a ta j _ IHf E _ IHa L Ej rest res B Y. unfold call_limit in L. rewrite Dlim in L. destruct L as [L1 L2].
    rewrite <- app_assoc. apply IHf; [cbn; rewrite E; cbn; lia|]. cbn [tailr] in *.
    eapply y_step; [intro; apply p_array_p_S|]. cbn [app]. rewrite take_not by (unfold want; rewrite E; reflexivity).
    rewrite (take_head _ _ _ _ tt) by (unfold want; rewrite E; reflexivity).
    rewrite <- app_assoc. cbn [app].
    eapply y_bind; [apply IHa; [apply closing_cp; exact Ej|exact L1|exact L2]|]. cbn beta.
    rewrite eat_head by (rewrite Ej; reflexivity). exact Y.
  - (* name *) intros i s E rest res B Y. cbn [main tailr] in *. eapply y_step; [intro; apply p_prim_S|]. cbn [app]. rewrite E. exact Y.
  - (* number *) intros i s E rest res B Y. cbn [main tailr] in *. eapply y_step; [intro; apply p_prim_S|]. cbn [app]. rewrite E. exact Y.
  - (* string *) intros i s ls ts E H rest res B Y. cbn [main tailr] in *. eapply y_step; [intro; apply p_prim_S|]. cbn [app]. rewrite E.
    rewrite (strings_read _ _ H _ B). exact Y.
  - (* paren *) intros i x tx j E Hx IHx Ej rest res B Y. cbn [main tailr] in *. eapply y_step; [intro; apply p_prim_S|]. cbn [app]. rewrite E.
    rewrite <- app_assoc. cbn [app].
    eapply y_bind.
    { eapply y_step; [intro; apply p_opt_tuple_S|]. rewrite next_starts by (eapply first_starts; apply (FR _ _ _ Hx)).
      eapply y_bind; [apply done_expr; [exact IHx|cbn; rewrite Ej; cbn; lia]|]. cbn beta.
      rewrite take_not by (unfold want; rewrite Ej; reflexivity). apply y_ret. }
    cbn beta. rewrite eat_head by (rewrite Ej; reflexivity). exact Y.
  - (* unit *) intros i j E Ej rest res B Y. cbn [main tailr] in *. eapply y_step; [intro; apply p_prim_S|]. cbn [app]. rewrite E.
    eapply y_bind.
    { eapply y_step; [intro; apply p_opt_tuple_S|]. cbn [next]. rewrite Ej. cbn [starts_expr]. apply y_ret. }
    cbn beta. rewrite eat_head by (rewrite Ej; reflexivity). exact Y.
  - (* tuple *) intros i x tx c a ta j E Hx IHx Ec Ha IHa Na L Ej rest res B Y. cbn [main tailr] in *. unfold tuple_limit in L. rewrite Dlim in L. cbn [npos] in L.
    eapply y_step; [intro; apply p_prim_S|]. cbn [app]. rewrite E.
    rewrite <- app_assoc. cbn [app]. rewrite <- app_assoc. cbn [app].
    eapply y_bind.
    { eapply y_step; [intro; apply p_opt_tuple_S|]. rewrite next_starts by (eapply first_starts; apply (FR _ _ _ Hx)).
      eapply y_bind; [apply done_expr; [exact IHx|cbn; rewrite Ec; cbn; lia]|]. cbn beta.
      rewrite (take_head _ _ _ _ tt) by (unfold want; rewrite Ec; reflexivity).
      eapply y_bind; [apply IHa; [apply closing_cp; exact Ej|lia|]|].
      { unfold counted. rewrite Na. pose proof (npos_nonneg a). destruct w; cbn; lia. }
      cbn beta. cbn [fst snd]. rewrite Na. replace (256 <=? npos a + 256 * 0) with false by (symmetry; apply Z.leb_gt; lia).
      apply y_ret. }
    cbn beta. rewrite eat_head by (rewrite Ej; reflexivity). exact Y.
  - (* list *) intros i a ta j E Ha IHa Na L Ej rest res B Y. cbn [main tailr] in *. unfold list_limit in L. rewrite Dlim in L.
    eapply y_step; [intro; apply p_prim_S|]. cbn [app]. rewrite E.
    rewrite <- app_assoc. cbn [app].
    eapply y_bind; [apply IHa; [apply closing_cs; exact Ej|lia|]|].
    { unfold counted. rewrite Na. pose proof (npos_nonneg a). destruct w; cbn; lia. }
    cbn beta. cbn [fst snd]. rewrite Na. replace (256 <=? npos a + 256 * 0) with false by (symmetry; apply Z.leb_gt; lia).
    rewrite eat_head by (rewrite Ej; reflexivity). exact Y.
  - (* dict *) intros i d td j E Hd IHd Ej rest res B Y. cbn [main tailr] in *. eapply y_step; [intro; apply p_prim_S|]. cbn [app]. rewrite E.
    rewrite <- app_assoc. cbn [app].
    eapply y_bind; [apply IHd; apply closing_cc; exact Ej|]. cbn beta. rewrite eat_head by (rewrite Ej; reflexivity). exact Y.
  - (* last comparison *) intros i b y ty E _ IHy rest B. destruct (cmp_opr _ _ E) as [Eo El].
    eapply y_step; [intro; apply p_cmp_p_S|]. cbn [app]. rewrite (take_head _ _ _ _ b) by exact Eo.
    eapply y_bind; [apply (done_stop Comparison (Bin OrExpr) _ _ _ IHy eq_refl B)|]. cbn beta.
    eapply y_bind; [apply cmp_stops; exact B|]. cbn beta. apply y_ret.
  - (* more comparisons *) intros i b y ty l tl E _ IHy Hl IHl rest B. destruct (cmp_opr _ _ E) as [Eo El].
    eapply y_step; [intro; apply p_cmp_p_S|]. cbn [app]. rewrite (take_head _ _ _ _ b) by exact Eo.
    rewrite <- app_assoc. destruct (FL _ _ Hl) as (i0 & tl' & -> & Ei).
    assert (B5 : below 4 ((i0 :: tl') ++ rest)) by (cbn; lia).
    eapply y_bind; [apply (IHy _ (Parsed y _)); [eapply below_le; [exact B5|cbn; lia]|apply (bin_stops OrExpr); exact B5]|].
    cbn beta. eapply y_bind; [apply IHl; exact B|]. apply y_ret.
  - (* no expression *) intros rest B F. eapply y_step; [intro; apply p_opt_expr_S|]. cbn [app]. rewrite F. apply y_ret.
  - (* an expression *) intros e ts H IH rest B F. eapply y_step; [intro; apply p_opt_expr_S|].
    rewrite next_starts by (eapply first_starts; apply (FR _ _ _ H)).
    eapply y_bind; [apply done_expr; [exact IH|exact B]|]. apply y_ret.
  - (* no arguments *) intros rest B _ _. eapply y_step; [intro; apply p_opt_actuals_S|]. cbn [app].
    destruct (closing_quiet _ B) as (_ & F & _). rewrite F. apply y_ret.
  - (* arguments *) intros b a ts H IH rest B L1 L2. eapply y_step; [intro; apply p_opt_actuals_S|].
    rewrite next_starts by (eapply FG; exact H). apply (IH 0 rest B); [lia|right; lia|exact L2].
  - (* last argument *) intros e te c H IH Hc k rest B K L1 L2. cbn [npos nnamed] in *.
    eapply y_step; [intro; apply p_actuals_S|]. rewrite <- app_assoc. destruct (closing_quiet _ B) as (Q0 & Q1 & Q2 & Q3).
    assert (X : below 0 (c ++ rest) /\ take assign_of (c ++ rest) = None).
    { inversion Hc as [|i Ei]; subst; cbn [app]; [auto|]. unfold take. cbn. rewrite Ei. cbn. auto. }
    destruct X as [X1 X2]. eapply y_bind; [apply done_expr; [exact IH|exact X1]|]. cbn beta. rewrite X2.
    replace (256 <=? k) with false by (symmetry; apply Z.leb_gt; lia).
    eapply y_bind.
    { eapply y_step; [intro; apply p_actuals_p_S|]. instantiate (1 := rest). instantiate (1 := (k + 1, ANil)).
      inversion Hc as [|i Ei]; subst; cbn [app].
      - rewrite Q2. apply y_ret.
      - rewrite (take_head _ _ _ _ tt) by (unfold want; rewrite Ei; reflexivity). rewrite Q1. apply y_ret. }
    cbn beta. cbn [fst snd]. replace (k + (1 + 0) + 256 * 0) with (k + 1) by lia. apply y_ret.
  - (* more arguments *) intros e te i b a ta H IH Ei Ha IHa k rest B K L1 L2. cbn [npos nnamed] in *. pose proof (npos_nonneg a).
    eapply y_step; [intro; apply p_actuals_S|]. rewrite <- app_assoc. cbn [app].
    eapply y_bind; [apply done_expr; [exact IH|cbn; rewrite Ei; cbn; lia]|]. cbn beta.
    rewrite take_not by (rewrite Ei; reflexivity). replace (256 <=? k) with false by (symmetry; apply Z.leb_gt; lia).
    eapply y_bind.
    { eapply y_step; [intro; apply p_actuals_p_S|]. rewrite (take_head _ _ _ _ tt) by (unfold want; rewrite Ei; reflexivity).
      rewrite next_starts by (eapply FG; exact Ha). apply (IHa (k + 1) rest B); lia. }
    cbn beta. cbn [fst snd]. replace (k + (1 + npos a) + 256 * nnamed a) with (k + 1 + npos a + 256 * nnamed a) by lia. apply y_ret.
  - (* last named *) intros b id tn e te c Hn (x & tx & j & a & -> & IHx & Ex & Ej & Lj) H IH Hc k rest B K L1 L2. cbn [npos nnamed] in *.
    eapply y_step; [intro; apply p_actuals_S|]. rewrite <- !app_assoc. cbn [app]. destruct (closing_quiet _ B) as (Q0 & Q1 & Q2 & Q3).
    eapply y_bind; [apply done_expr; [exact IHx|cbn; lia]|]. cbn beta. rewrite (take_head _ _ _ _ a) by exact Ej. rewrite Ex.
    assert (X : below 0 (c ++ rest)).
    { inversion Hc as [|i Ei]; subst; cbn [app]; [auto|]. cbn. rewrite Ei. cbn. auto. }
    eapply y_bind; [apply done_expr; [exact IH|exact X]|]. cbn beta.
    eapply y_bind.
    { eapply y_step; [intro; apply p_actuals_p_S|]. instantiate (1 := rest). instantiate (1 := (u_of w (k + 256), ANil)).
      inversion Hc as [|i Ei]; subst; cbn [app].
      - rewrite Q2. apply y_ret.
      - rewrite (take_head _ _ _ _ tt) by (unfold want; rewrite Ei; reflexivity). rewrite Q1. apply y_ret. }
    cbn beta. cbn [fst snd]. rewrite u_of_small by lia. replace (k + 0 + 256 * (1 + 0)) with (k + 256) by lia. apply y_ret.
  - (* more named *) intros b id tn e te i a ta Hn (x & tx & j & a0 & -> & IHx & Ex & Ej & Lj) H IH Ei Ha IHa k rest B K L1 L2. cbn [npos nnamed] in *.
    pose proof (nnamed_nonneg a). pose proof (named_only _ _ Ha).
    eapply y_step; [intro; apply p_actuals_S|]. rewrite <- !app_assoc. cbn [app].
    eapply y_bind; [apply done_expr; [exact IHx|cbn; lia]|]. cbn beta. rewrite (take_head _ _ _ _ a0) by exact Ej. rewrite Ex.
    eapply y_bind; [apply done_expr; [exact IH|cbn; rewrite Ei; cbn; lia]|]. cbn beta.
    rewrite u_of_small by lia.
    eapply y_bind.
    { eapply y_step; [intro; apply p_actuals_p_S|]. rewrite (take_head _ _ _ _ tt) by (unfold want; rewrite Ei; reflexivity).
      rewrite next_starts by (eapply FG; exact Ha). apply (IHa (k + 256) rest B); lia. }
    cbn beta. cbn [fst snd]. replace (k + npos a + 256 * (1 + nnamed a)) with (k + 256 + npos a + 256 * nnamed a) by lia. apply y_ret.
  - (* name = *) intros i s j E Ej. exists (EId (idof s)), [i], j, None. rewrite Ej. repeat split.
    repeat (eapply done_up; [reflexivity|eexists _, _; split; [reflexivity|]; rewrite E; repeat split; reflexivity|]).
    intros rest res B Y. cbn [main tailr] in *. eapply y_step; [intro; apply p_prim_S|]. cbn [app]. rewrite E. exact Y.
  - (* anything that loads a variable *) intros x tx id j a _ H IH L E. destruct (assign_opr _ _ E) as [Ea El].
    exists x, tx, j, a. repeat split; auto. apply loads_name. exact L.
  - (* no entries *) intros rest B. eapply y_step; [intro; apply p_dents_S|]. cbn [app].
    destruct (closing_quiet _ B) as (_ & F & _). rewrite F. apply y_ret.
  - (* last entry *) intros k tk i v tv c Hk IHk Ei Hv IHv Hc rest B. destruct (closing_quiet _ B) as (Q0 & Q1 & Q2 & Q3).
    eapply y_step; [intro; apply p_dents_S|]. rewrite <- !app_assoc. cbn [app]. rewrite <- app_assoc.
    rewrite next_starts by (eapply first_starts; apply (FR _ _ _ Hk)).
    eapply y_bind; [apply done_expr; [exact IHk|cbn; rewrite Ei; cbn; lia]|]. cbn beta. rewrite eat_head by (rewrite Ei; reflexivity). cbn [pbind].
    assert (X : below 0 (c ++ rest)).
    { inversion Hc as [|i0 Ei0]; subst; cbn [app]; [auto|]. cbn. rewrite Ei0. cbn. auto. }
    eapply y_bind; [apply done_expr; [exact IHv|exact X]|]. cbn beta.
    eapply y_bind.
    { eapply y_step; [intro; apply p_dents_p_S|]. instantiate (1 := rest). instantiate (1 := DNil).
      inversion Hc as [|i0 Ei0]; subst; cbn [app].
      - rewrite Q2. apply y_ret.
      - rewrite (take_head _ _ _ _ tt) by (unfold want; rewrite Ei0; reflexivity).
        eapply y_step; [intro; apply p_dents_S|]. rewrite Q1. apply y_ret. }
    apply y_ret.
  - (* more entries *) intros k tk i v tv c d td Hk IHk Ei Hv IHv Ec Hd IHd rest B.
    eapply y_step; [intro; apply p_dents_S|]. rewrite <- !app_assoc. cbn [app]. rewrite <- app_assoc. cbn [app].
    rewrite next_starts by (eapply first_starts; apply (FR _ _ _ Hk)).
    eapply y_bind; [apply done_expr; [exact IHk|cbn; rewrite Ei; cbn; lia]|]. cbn beta. rewrite eat_head by (rewrite Ei; reflexivity). cbn [pbind].
    eapply y_bind; [apply done_expr; [exact IHv|cbn; rewrite Ec; cbn; lia]|]. cbn beta.
    eapply y_bind.
    { eapply y_step; [intro; apply p_dents_p_S|]. rewrite (take_head _ _ _ _ tt) by (unfold want; rewrite Ec; reflexivity). apply IHd. exact B. }
    apply y_ret.
Qed.
End Complete.
