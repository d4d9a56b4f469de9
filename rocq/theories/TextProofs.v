(** Brackets and the lexer. *)
From Coq Require Import ZArith Bool List Ascii String Lia.
From Verif Require Import Base PolyModel LexModel LexSpec LexProofs LexProofs2 LexProofs3 LexProofs4 LexProofs5 LexProofs6 LexProofs8 LexProofs9.
Import ListNotations.
Local Open Scope Z_scope.

Section P.
Variable C : lexcfg.

Definition nest (t : token) (g : Z) : Z :=
  match t with
  | TOp | TOs | TOc => u8 (g + 1)
  | TCp | TCs | TCc => if g =? 0 then g else u8 (g - 1)
  | _ => g
  end.
Definition plain (t : token) : Prop := forall g, nest t g = g.
Definition nested (a : action) (s s' : lex) : Prop :=
  lx_ignore s' = match a with AToken t => nest t (lx_ignore s) | _ => lx_ignore s end.

Lemma fine_ignore n m s s' : fine C n m s s' -> lx_ignore s' = lx_ignore s.
Proof. intros [[_ K] _ _]. exact K. Qed.
Lemma switch_nested : forall fuel c s a s', lex_switch C fuel c s = Some (a, s') -> nested a s s'.
Proof.
  intros fuel c s a s' E. unfold lex_switch in E.
  destruct (c =? SNEK_EOF); [injection E as <- <-; reflexivity|].
  destruct (c =? NL). { cbn [lx_ignore set_flags] in E. destruct (lx_ignore s =? 0); injection E as <- <-; reflexivity. }
  assert (Hplain : forall t s1, plain t -> lx_ignore s1 = lx_ignore s -> tok (t, s1) = Some (a, s') -> nested a s s').
  { intros t s1 H1 H2 E'. injection E' as <- <-. unfold nested. rewrite H1. exact H2. }
  assert (Hopen : forall t, (t = TOp \/ t = TOs \/ t = TOc) -> tok (lex_open t s) = Some (a, s') -> nested a s s').
  { intros t H1 E'. injection E' as <- <-. destruct H1 as [-> |[-> | ->]]; reflexivity. }
  assert (Hclose : forall t, (t = TCp \/ t = TCs \/ t = TCc) -> tok (lex_close t s) = Some (a, s') -> nested a s s').
  { intros t H1 E'. unfold lex_close in E'. injection E' as <- <-. unfold nested.
    destruct H1 as [-> |[-> | ->]]; cbn [nest]; destruct (lx_ignore s =? 0); reflexivity. }
  assert (Heq : forall p o s1, (forall o, plain (p o)) -> lx_ignore s1 = lx_ignore s -> tok (check_equal C p o s1) = Some (a, s') -> nested a s s').
  { intros p o s1 H1 H2 E'. destruct (check_equal C p o s1) as [t s2] eqn:E2. pose proof (fine_ignore _ _ _ _ (check_equal_fine C _ _ _ _ _ E2)) as G.
    apply (Hplain t s2); [|congruence|exact E']. unfold check_equal in E2. destruct (lextoken C s1). destruct (negb _); injection E2 as <- <-; [apply H1|intro; reflexivity]. }
  assert (Hlex : forall n s1, lextoken C s = (n, s1) -> lx_ignore s1 = lx_ignore s /\ lx_ignore (unlextoken C n s1) = lx_ignore s).
  { intros n s1 E1. assert (F : fine C 0 1 s s1) by (eapply lextoken_fine; [eassumption | lia]).
    split; [exact (fine_ignore _ _ _ _ F)|]. rewrite <- (fine_ignore _ _ _ _ F). reflexivity. }
  Ltac pl := first [intros ? ?; reflexivity | intros ?; reflexivity | reflexivity | assumption].
  destruct (c =? ch ":"); [apply (Hplain TColon s); pl|]. destruct (c =? ch ";"); [apply (Hplain TSemi s); pl|].
  destruct (c =? ch ","); [apply (Hplain TComma s); pl|].
  destruct (c =? ch "("); [apply (Hopen TOp); tauto|]. destruct (c =? ch ")"); [apply (Hclose TCp); tauto|].
  destruct (c =? ch "["); [apply (Hopen TOs); tauto|]. destruct (c =? ch "]"); [apply (Hclose TCs); tauto|].
  destruct (c =? ch "{"); [apply (Hopen TOc); tauto|]. destruct (c =? ch "}"); [apply (Hclose TCc); tauto|].
  destruct (c =? ch "+"); [apply (Heq TPlus OpPlus s); pl|]. destruct (c =? ch "-"); [apply (Heq TMinus OpMinus s); pl|].
  destruct (c =? ch "*").
  { destruct (lextoken C s) as [n s1] eqn:E1. destruct (Hlex _ _ eq_refl) as [G1 G2]. destruct (n =? ch "*"); [apply (Heq TPow OpPow s1)|apply (Heq TMulop OpTimes (unlextoken C n s1))]; pl. }
  destruct (c =? ch "/").
  { destruct (lextoken C s) as [n s1] eqn:E1. destruct (Hlex _ _ eq_refl) as [G1 G2]. destruct (n =? ch "/"); [apply (Heq TMulop OpDiv s1)|apply (Heq TMulop OpDivide (unlextoken C n s1))]; pl. }
  destruct (c =? ch "%"); [apply (Heq TMulop OpMod s); pl|]. destruct (c =? ch "&"); [apply (Heq TLand OpLand s); pl|].
  destruct (c =? ch "|"); [apply (Heq TLor OpLor s); pl|]. destruct (c =? ch "~"); [apply (Hplain (TLnot OpLnot) s); pl|].
  destruct (c =? ch "^"); [apply (Heq TLxor OpLxor s); pl|].
  destruct (c =? ch "<").
  { destruct (lextoken C s) as [n s1] eqn:E1. destruct (Hlex _ _ eq_refl) as [G1 G2]. destruct (n =? ch "<"); [apply (Heq TShift OpLshift s1); pl|].
    destruct (n =? ch "="); [apply (Hplain (TCmpop OpLe) s1); pl|apply (Hplain (TCmpop OpLt) (unlextoken C n s1)); pl]. }
  destruct (c =? ch "=").
  { destruct (lextoken C s) as [n s1] eqn:E1. destruct (Hlex _ _ eq_refl) as [G1 G2].
    destruct (n =? ch "="); [apply (Hplain (TCmpop OpEq) s1); pl|apply (Hplain (TAssign OpAssign) (unlextoken C n s1)); pl]. }
  destruct (c =? ch ">").
  { destruct (lextoken C s) as [n s1] eqn:E1. destruct (Hlex _ _ eq_refl) as [G1 G2]. destruct (n =? ch ">"); [apply (Heq TShift OpRshift s1); pl|].
    destruct (n =? ch "="); [apply (Hplain (TCmpop OpGe) s1); pl|apply (Hplain (TCmpop OpGt) (unlextoken C n s1)); pl]. }
  destruct (c =? ch "!").
  { destruct (lextoken C s) as [n s1] eqn:E1. destruct (Hlex _ _ eq_refl) as [G1 G2].
    destruct (n =? ch "="); [apply (Hplain (TCmpop OpNe) s1); pl|]. injection E as <- <-. exact G2. }
  destruct ((c =? 34) || (c =? 39)).
  { unfold string_, otok in E. destruct (string_loop C fuel c (start_token s)) as [[t s2]|] eqn:E2; [|discriminate].
    apply (Hplain t s2); [|exact (fine_ignore _ _ _ _ (string_loop_fine C _ _ _ _ _ E2))|exact E].
    clear - E2. revert E2. generalize (start_token s). revert t s2. induction fuel as [|fuel IH]; intros t s2 s0 E2; rewrite string_loop_step in E2.
    all: destruct (lexchar C s0) as [c1 s1]; destruct (c1 =? c); [injection E2 as <- <-; destruct (lc_alloc C); intro; reflexivity|].
    all: destruct (c1 =? NL); [injection E2 as <- <-; intro; reflexivity|].
    all: match type of E2 with context [let '(_, _) := ?x in _] => destruct x as [[c2|] s3] end; [|injection E2 as <- <-; intro; reflexivity].
    all: destruct (add_token c2 s3) as [ok s4]; destruct (negb ok); [injection E2 as <- <-; intro; reflexivity|].
    - discriminate. - exact (IH _ _ _ E2). }
  destruct (c =? ch "#").
  { destruct (comment C fuel s) as [s1|] eqn:E1; [|discriminate]. injection E as <- <-.
    exact (fine_ignore _ _ _ _ (comment_fine C _ 0 _ _ E1 ltac:(lia))). }
  destruct (c =? ch " "); injection E as <- <-; reflexivity.
Qed.
Lemma rest_nested : forall fuel c s t s', lex_rest C fuel c s = Some (t, s') -> plain t.
Proof.
  intros fuel c s t s' E. unfold lex_rest in E. destruct (_ || _).
  { unfold number in E. destruct (number_token C _ _ _ _ _ _ _ E) as [-> |[v ->]]; intro; reflexivity. }
  destruct (negb _); [injection E as <- <-; intro; reflexivity|]. unfold word in E.
  destruct (name_loop C fuel s) as [[c1 s1]|]; [|discriminate]. cbv zeta in E.
  destruct (is_keyword _); [|injection E as <- <-; intro; reflexivity].
  assert (Tr : forall x a b s0, plain a -> plain b -> trailing C fuel x a b s0 = Some (t, s') -> plain t).
  { intros x a b s0 Pa Pb E'. unfold trailing in E'. destruct (skip_spaces C fuel false s0) as [[[c2 sp] s2]|]; [|discriminate]. injection E' as E'.
    assert (E2 : t = fst (t, s')) by reflexivity. rewrite <- E' in E2.
    destruct (match_word_token C x [] sp c2 a b (snd (add_token c2 (if sp then snd (add_token (ch " ") s2) else s2)))) as [Q|Q]; rewrite Q in E2; subst t; assumption. }
  destruct (text_eqb _ _); [apply (Tr _ _ _ _) in E; [exact E|intro; reflexivity|intro; reflexivity]|].
  destruct (text_eqb _ _); [apply (Tr _ _ _ _) in E; [exact E|intro; reflexivity|intro; reflexivity]|].
  destruct (text_eqb _ _); injection E as <- <-; intro; reflexivity.
Qed.
Lemma lex_nested : forall fuel s t s', inv s -> snek_lex C fuel s = Some (t, s') -> lx_ignore s' = nest t (lx_ignore s).
Proof.
  induction fuel as [|fuel IH]; intros s t s' I E; rewrite snek_lex_step in E.
  all: destruct (line_start C _ s) as [[r s1]|] eqn:E1; [|discriminate]; destruct (line_start_facts C _ _ _ _ I E1) as (_ & I1 & M1 & G1 & R1).
  all: destruct r as [t1|]; [destruct R1 as (-> & _); injection E as <- <-; exact G1|].
  all: destruct (exdents s1) as [[t2|] s2] eqn:E2; unfold exdents in E2;
    [destruct (lx_exdent s1 && (lx_ignore s1 =? 0)); [|discriminate]; destruct (lx_indent s1 <? lx_current s1); [|discriminate];
     injection E2 as <- <-; injection E as <- <-; exact G1|].
  all: assert (G2 : lx_ignore s2 = lx_ignore s1 /\ (lx_exdent s2 = false) /\ lx_indent s2 = lx_indent s1) by
    (destruct (lx_exdent s1 && (lx_ignore s1 =? 0)) eqn:Ex; [destruct (lx_indent s1 <? lx_current s1); [discriminate|]; injection E2 as <-; auto|];
     injection E2 as <-; split; [reflexivity|]; split; [|reflexivity]; destruct (lx_exdent s1) eqn:Q; [|reflexivity]; destruct (iv_exdent _ I1 Q) as (Q1 & _); rewrite Q1 in Ex; discriminate).
  all: destruct G2 as (G2 & X2 & N2); destruct (lextoken C (start_token s2)) as [c s3] eqn:E3;
    pose proof (lextoken_fine C 0 _ _ _ E3 ltac:(lia)) as F3; pose proof (fine_ignore _ _ _ _ F3) as G3; cbn [start_token set_text lx_ignore] in G3;
    destruct F3 as [[(K1 & K2 & K3 & K4) K5] _ _].
  all: destruct (lex_switch C _ c s3) as [[a s4]|] eqn:E4; [|discriminate]; pose proof (switch_nested _ _ _ _ _ E4) as G4; unfold nested in G4;
    pose proof (switch_switched C _ _ _ _ _ E4) as [W1 W2 W3 W4 W5 W6 W7 W8 W9].
  all: destruct a as [t4| |].
  1, 4: (injection E as <- <-; congruence).
  1: discriminate.
  2: { rewrite (IH s4 t s'); [congruence| |exact E]. split; [rewrite W4, K4; cbn; congruence|].
       rewrite W3, K2. cbn. rewrite N2. exact (iv_indent _ I1). }
  all: pose proof (fine_ignore _ _ _ _ (rest_fine C _ _ _ _ _ E)) as G5; rewrite (rest_nested _ _ _ _ _ E); congruence.
Qed.
End P.
