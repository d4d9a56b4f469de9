(** Proofs about the lexer: whole tokens, and the block structure. *)
From Coq Require Import ZArith Bool List Ascii String Lia.
From Verif Require Import Base LexModel LexSpec LexProofs LexProofs4.
Import ListNotations.
Local Open Scope Z_scope.

Section P.
Variable C : lexcfg.

(** Effects other than on the block structure. *)
Record sound (s s' : lex) : Prop := {
  so_safe : safe 0 s -> safe 0 s';
  so_line : lineval C s' = lineval C s }.
Lemma sound_refl : forall s, sound s s.
Proof. split; auto. Qed.
Lemma sound_trans : forall a b c, sound a b -> sound b c -> sound a c.
Proof. intros a b c [] []. split; [auto | congruence]. Qed.
Lemma fine_sound : forall n m s s', fine C 0 m s s' -> (n <= m)%nat -> sound s s'.
Proof. intros n m s s' [A B D] L. split; [|exact D]. intros S. destruct (B S). split; [lia | assumption]. Qed.
Lemma sound_flags : forall s a b c, sound s (set_flags a b c s).
Proof. split; auto. Qed.
Lemma sound_indents : forall s a b, sound s (set_indents a b s).
Proof. split; auto. Qed.
Lemma sound_text : forall s t, sound s (set_text t s).
Proof. split; auto. Qed.

(** What the switch changes. *)
Record switched (c : Z) (a : action) (s s' : lex) : Prop := {
  sw_sound : sound s s';
  sw_current : lx_current s' = lx_current s;
  sw_indent : lx_indent s' = lx_indent s;
  sw_exdent : lx_exdent s' = lx_exdent s;
  sw_midline : lx_midline s' = if c =? NL then false else lx_midline s;
  sw_cont : a = AContinue -> lx_ignore s' = lx_ignore s /\ (c = ch " " \/ c = ch "#" \/ (c = NL /\ lx_ignore s <> 0));
  sw_nl : a = AToken TNl -> c = NL /\ lx_ignore s' = lx_ignore s /\ lx_ignore s = 0;
  sw_end : a = AToken TEnd -> c = SNEK_EOF;
  sw_not : forall i, a <> AToken (TIndent i) /\ a <> AToken (TExdent i) }.

Lemma switched_fine : forall c t s s', c <> NL -> fine C 0 0 s s' -> t <> TNl -> (t = TEnd -> c = SNEK_EOF) ->
  (forall i, t <> TIndent i /\ t <> TExdent i) -> switched c (AToken t) s s'.
Proof.
  intros c t s s' N F H1 H2 H3. pose proof (fine_sound 0 0 _ _ F ltac:(lia)) as So. destruct F as [[(K1 & K2 & K3 & K4) K5] _ _].
  split; auto; try congruence. { rewrite (proj2 (Z.eqb_neq c NL) N). exact K3. }
  { intros E. apply H2. congruence. }
  intros i. destruct (H3 i). split; congruence.
Qed.

Lemma check_equal_switched : forall c p o s, c <> NL -> (forall o i, p o <> TIndent i /\ p o <> TExdent i) -> (forall o, p o <> TNl /\ p o <> TEnd) ->
  exists t s', tok (check_equal C p o s) = Some (AToken t, s') /\ switched c (AToken t) s s'.
Proof.
  intros c p o s N H1 H2. destruct (check_equal C p o s) as [t s'] eqn:E. exists t, s'. split; [reflexivity|].
  pose proof (check_equal_fine C _ _ _ _ _ E) as F.
  assert (Ht : t = p o \/ t = TAssign (OpAssignTo o)).
  { unfold check_equal in E. destruct (lextoken C s). destruct (negb _); injection E as <- <-; auto. }
  destruct Ht as [-> | ->]; (apply switched_fine; [exact N | exact F | | | ]).
  - exact (proj1 (H2 o)). - intros E'. elim (proj2 (H2 o) E'). - intros i. exact (H1 o i).
  - discriminate. - discriminate. - intros i. split; discriminate.
Qed.

Lemma switched_trans_fine : forall c a s s1 s', c <> NL -> fine C 0 0 s s1 -> switched c a s1 s' -> switched c a s s'.
Proof.
  intros c a s s1 s' N F [S1 S2 S3 S4 S5 S6 S7 S8 S9]. pose proof (fine_sound 0 0 _ _ F ltac:(lia)) as So.
  destruct F as [[(K1 & K2 & K3 & K4) K5] _ _]. split; try congruence; auto.
  - eapply sound_trans; eassumption.
  - rewrite S5, K3. reflexivity.
  - intros E. destruct (S6 E) as [H1 H2]. split; [congruence|]. destruct H2 as [H2|[H2|[H2 H3]]]; [auto | auto | contradiction].
  - intros E. destruct (S7 E) as (? & ? & ?). repeat split; congruence.
Qed.

Lemma string_switched : forall fuel q s t s', q <> NL -> string_ C fuel q s = Some (t, s') -> switched q (AToken t) s s'.
Proof.
  intros fuel q s t s' N E. unfold string_ in E.
  assert (Ht : t = TInvalid \/ exists v, t = TString v).
  { revert E. generalize (start_token s). induction fuel as [|fuel IH]; intros s0 E; rewrite string_loop_step in E;
    destruct (lexchar C s0) as [c s1]; (destruct (c =? q); [destruct (lc_alloc C); injection E as <- <-; eauto|]);
    (destruct (c =? NL); [injection E as <- <-; auto|]); destruct (if c =? ch "\" then escape C s1 else (Some c, s1)) as [[c'|] s2];
    try (injection E as <- <-; auto; fail); destruct (add_token c' s2) as [[] s3]; cbn [negb] in E;
    try (injection E as <- <-; auto; fail); [discriminate | exact (IH _ E)]. }
  apply switched_fine; [exact N | eapply fine_trans; [apply (fine_text C 0 s []) | exact (string_loop_fine C _ _ _ _ _ E)] | | |];
    destruct Ht as [-> | [v ->]]; try discriminate; intros i; split; discriminate.
Qed.

Lemma flags_switched : forall c t g s, c <> NL -> t <> TNl -> t <> TEnd -> (forall i, t <> TIndent i /\ t <> TExdent i) ->
  switched c (AToken t) s (set_flags g (lx_midline s) (lx_exdent s) s).
Proof.
  intros c t g s N H1 H2 H3. split; auto using sound_flags; try congruence.
  - rewrite (proj2 (Z.eqb_neq c NL) N). reflexivity.
  - intros i. destruct (H3 i). split; congruence.
Qed.

Lemma switch_switched : forall fuel c s a s', lex_switch C fuel c s = Some (a, s') -> switched c a s s'.
Proof.
  intros fuel c s a s' E. unfold lex_switch in E.
  destruct (Z.eqb_spec c SNEK_EOF) as [->|N0].
  { injection E as <- <-. apply switched_fine; try discriminate; [apply fine_refl | reflexivity | split; discriminate]. }
  destruct (Z.eqb_spec c NL) as [->|N1].
  { cbn [lx_ignore set_flags] in E. destruct (Z.eqb_spec (lx_ignore s) 0) as [Hg|Hg]; injection E as <- <-.
    - split; auto using sound_flags; try discriminate. split; discriminate.
    - split; auto using sound_flags; try discriminate. split; discriminate. }
  assert (Hplain : forall t, t <> TNl -> t <> TEnd -> (forall i, t <> TIndent i /\ t <> TExdent i) -> tok (t, s) = Some (a, s') -> switched c a s s').
  { intros t H1 H2 H3 E'. injection E' as <- <-. apply switched_fine; auto; [apply fine_refl | intros; contradiction]. }
  assert (Hopen : forall t, t <> TNl -> t <> TEnd -> (forall i, t <> TIndent i /\ t <> TExdent i) -> tok (lex_open t s) = Some (a, s') -> switched c a s s').
  { intros t H1 H2 H3 E'. injection E' as <- <-. apply flags_switched; assumption. }
  assert (Hclose : forall t, t <> TNl -> t <> TEnd -> (forall i, t <> TIndent i /\ t <> TExdent i) -> tok (lex_close t s) = Some (a, s') -> switched c a s s').
  { intros t H1 H2 H3 E'. unfold lex_close in E'. destruct (lx_ignore s =? 0); [apply (Hplain t); assumption|].
    injection E' as <- <-. apply flags_switched; assumption. }
  assert (Heq : forall p o s1, fine C 0 0 s s1 -> (forall o i, p o <> TIndent i /\ p o <> TExdent i) -> (forall o, p o <> TNl /\ p o <> TEnd) ->
    tok (check_equal C p o s1) = Some (a, s') -> switched c a s s').
  { intros p o s1 F H1 H2 E'. destruct (check_equal_switched c p o s1 N1 H1 H2) as (t & s2 & E2 & S2). rewrite E2 in E'.
    injection E' as <- <-. eapply switched_trans_fine; eassumption. }
  assert (Hpl : forall t s1, fine C 0 0 s s1 -> t <> TNl -> t <> TEnd -> (forall i, t <> TIndent i /\ t <> TExdent i) -> tok (t, s1) = Some (a, s') -> switched c a s s').
  { intros t s1 F H1 H2 H3 E'. injection E' as <- <-. apply switched_fine; auto. intros; contradiction. }
  assert (Hlex : forall n s1, lextoken C s = (n, s1) -> fine C 0 1 s s1) by (intros; eapply lextoken_fine; [eassumption | lia]).
  assert (W : forall s1, fine C 0 1 s s1 -> fine C 0 0 s s1) by (intros; eapply fine_weak; [eassumption | lia]).
  assert (U : forall n s1, fine C 0 1 s s1 -> fine C 0 0 s (unlextoken C n s1)) by (intros; eapply fine_trans; [eassumption | apply unlextoken_fine]).
  Ltac side := first [discriminate | intros; split; discriminate | apply fine_refl | assumption].
  destruct (c =? ch ":"); [apply (Hplain TColon); side|]. destruct (c =? ch ";"); [apply (Hplain TSemi); side|].
  destruct (c =? ch ","); [apply (Hplain TComma); side|].
  destruct (c =? ch "("); [apply (Hopen TOp); side|]. destruct (c =? ch ")"); [apply (Hclose TCp); side|].
  destruct (c =? ch "["); [apply (Hopen TOs); side|]. destruct (c =? ch "]"); [apply (Hclose TCs); side|].
  destruct (c =? ch "{"); [apply (Hopen TOc); side|]. destruct (c =? ch "}"); [apply (Hclose TCc); side|].
  destruct (c =? ch "+"); [apply (Heq TPlus OpPlus s); side|]. destruct (c =? ch "-"); [apply (Heq TMinus OpMinus s); side|].
  destruct (c =? ch "*").
  { destruct (lextoken C s) as [n s1] eqn:E1. specialize (Hlex _ _ eq_refl). destruct (n =? ch "*").
    - apply (Heq TPow OpPow s1); try side. apply W; assumption.
    - apply (Heq TMulop OpTimes (unlextoken C n s1)); try side. apply U; assumption. }
  destruct (c =? ch "/").
  { destruct (lextoken C s) as [n s1] eqn:E1. specialize (Hlex _ _ eq_refl). destruct (n =? ch "/").
    - apply (Heq TMulop OpDiv s1); try side. apply W; assumption.
    - apply (Heq TMulop OpDivide (unlextoken C n s1)); try side. apply U; assumption. }
  destruct (c =? ch "%"); [apply (Heq TMulop OpMod s); side|]. destruct (c =? ch "&"); [apply (Heq TLand OpLand s); side|].
  destruct (c =? ch "|"); [apply (Heq TLor OpLor s); side|]. destruct (c =? ch "~"); [apply (Hplain (TLnot OpLnot)); side|].
  destruct (c =? ch "^"); [apply (Heq TLxor OpLxor s); side|].
  destruct (c =? ch "<").
  { destruct (lextoken C s) as [n s1] eqn:E1. specialize (Hlex _ _ eq_refl). destruct (n =? ch "<"); [|destruct (n =? ch "=")].
    - apply (Heq TShift OpLshift s1); try side. apply W; assumption.
    - apply (Hpl (TCmpop OpLe) s1); try side. apply W; assumption.
    - apply (Hpl (TCmpop OpLt) (unlextoken C n s1)); try side. apply U; assumption. }
  destruct (c =? ch "=").
  { destruct (lextoken C s) as [n s1] eqn:E1. specialize (Hlex _ _ eq_refl). destruct (n =? ch "=").
    - apply (Hpl (TCmpop OpEq) s1); try side. apply W; assumption.
    - apply (Hpl (TAssign OpAssign) (unlextoken C n s1)); try side. apply U; assumption. }
  destruct (c =? ch ">").
  { destruct (lextoken C s) as [n s1] eqn:E1. specialize (Hlex _ _ eq_refl). destruct (n =? ch ">"); [|destruct (n =? ch "=")].
    - apply (Heq TShift OpRshift s1); try side. apply W; assumption.
    - apply (Hpl (TCmpop OpGe) s1); try side. apply W; assumption.
    - apply (Hpl (TCmpop OpGt) (unlextoken C n s1)); try side. apply U; assumption. }
  assert (Hfall : forall a s1, fine C 0 0 s s1 -> (a = AFall \/ (a = AContinue /\ (c = ch " " \/ c = ch "#"))) -> switched c a s s1).
  { intros a0 s1 F Ha. pose proof (fine_sound 0 0 _ _ F ltac:(lia)) as So. destruct F as [[(K1 & K2 & K3 & K4) K5] _ _].
    split; auto; try (intros; destruct Ha as [Ha|[Ha _]]; subst a0; discriminate).
    - rewrite (proj2 (Z.eqb_neq c NL) N1). exact K3.
    - intros ->. split; [assumption|]. destruct Ha as [Ha|[_ [Ha|Ha]]]; [discriminate | auto | auto].
    - intros i. destruct Ha as [Ha|[Ha _]]; subst a0; split; discriminate. }
  destruct (c =? ch "!").
  { destruct (lextoken C s) as [n s1] eqn:E1. specialize (Hlex _ _ eq_refl). destruct (n =? ch "=").
    - apply (Hpl (TCmpop OpNe) s1); try side. apply W; assumption.
    - injection E as <- <-. apply Hfall; auto. }
  destruct ((c =? 34) || (c =? 39)).
  { destruct (string_ C fuel c s) as [[t s1]|] eqn:E1; [|discriminate]. injection E as <- <-. exact (string_switched _ _ _ _ _ N1 E1). }
  destruct (Z.eqb_spec c (ch "#")) as [Hc|Hc].
  { destruct (comment C fuel s) as [s1|] eqn:E1; [|discriminate]. injection E as <- <-.
    pose proof (comment_fine C _ 0 _ _ E1 ltac:(lia)) as F. apply Hfall; auto. eapply fine_trans; [exact F | apply unlexchar_fine]. }
  destruct (Z.eqb_spec c (ch " ")) as [Hs|Hs]; injection E as <- <-; apply Hfall; auto using fine_refl.
Qed.
End P.
