(** Every token the lexer makes carries the operator it was read from. *)
From Coq Require Import ZArith Bool List Ascii String.
From Verif Require Import Base PolyModel LexModel LexSpec CompModel GramModel GramSpec.
Import ListNotations.
Local Open Scope Z_scope.

Section Lex.
Variable C : lexcfg.

Lemma equal_proper : forall plain op s t s', proper (plain op) -> proper (TAssign (OpAssignTo op)) ->
  check_equal C plain op s = (t, s') -> proper t.
Proof.
  intros plain op s t s' H1 H2 H. unfold check_equal in H. destruct (lextoken C s) as [n s1].
  destruct (negb _); injection H as <- <-; assumption.
Qed.
Lemma number_proper : forall fuel n c k s t s', number_loop C fuel n c k s = Some (t, s') -> proper t.
Proof.
  induction fuel as [|fuel IH]; intros n c k s t s' H; cbn [number_loop] in H;
    destruct (match c with CUnderscore => (true, s) | _ => add_token k s end) as [ok s1];
    destruct (negb ok); try (injection H as <- <-; exact Logic.I);
    destruct (lexchar C s1) as [c' s2]; destruct (nstep n (cclass c')); try discriminate H; eauto;
    injection H as <- <-; exact Logic.I.
Qed.
Lemma string_proper : forall fuel q s t s', string_loop C fuel q s = Some (t, s') -> proper t.
Proof.
  induction fuel as [|fuel IH]; intros q s t s' H; cbn [string_loop] in H;
    destruct (lexchar C s) as [c s1];
    (destruct (c =? q); [injection H as <- <-; destruct (lc_alloc C); exact Logic.I|]);
    (destruct (c =? NL); [injection H as <- <-; exact Logic.I|]);
    match type of H with context [let '(_, _) := ?x in _] => destruct x as [[c1|] s2] end;
    try (injection H as <- <-; exact Logic.I);
    destruct (add_token c1 s2) as [ok s3]; destruct (negb ok); try (injection H as <- <-; exact Logic.I);
    try discriminate H; eauto.
Qed.
Lemma match_proper : forall todo done space c a b s t s', proper a -> proper b ->
  match_word C done todo space c a b s = (t, s') -> proper t.
Proof.
  induction todo as [|n todo IH]; intros done space c a b s t s' Ha Hb H; cbn [match_word] in H.
  - injection H as <- <-. exact Hb.
  - destruct (negb _); [injection H as <- <-; exact Ha|].
    destruct todo as [|m todo']; [injection H as <- <-; exact Hb|].
    destruct (lextoken C s) as [c1 s1]. exact (IH _ _ _ _ _ _ _ _ Ha Hb H).
Qed.
Lemma trailing_proper : forall fuel next a b s t s', proper a -> proper b -> LexModel.trailing C fuel next a b s = Some (t, s') -> proper t.
Proof.
  intros fuel next a b s t s' Ha Hb H. unfold LexModel.trailing in H.
  destruct (skip_spaces C fuel false s) as [[[c sp] s1]|]; [|discriminate H]. injection H as H.
  eapply match_proper; [| |exact H]; assumption.
Qed.
Lemma word_proper : forall fuel s t s', word C fuel s = Some (t, s') -> proper t.
Proof.
  intros fuel s t s' H. unfold word in H. destruct (name_loop C fuel s) as [[c s1]|]; [|discriminate H].
  destruct (is_keyword _); [|injection H as <- <-; exact Logic.I].
  destruct (text_eqb _ (chars "is")); [eapply trailing_proper; [| |exact H]; cbn; tauto|].
  destruct (text_eqb _ (chars "not")); [eapply trailing_proper; [| |exact H]; cbn; tauto|].
  destruct (text_eqb _ (chars "in")); injection H as <- <-; cbn; tauto.
Qed.
Lemma switch_proper : forall fuel c s t s', lex_switch C fuel c s = Some (AToken t, s') -> proper t.
Proof.
  intros fuel c s t s' H. unfold lex_switch in H.
  repeat match type of H with
  | (if ?b then _ else _) = Some _ => destruct b
  | (let '(_, _) := lextoken C ?s in _) = Some _ => destruct (lextoken C s) as [? ?]
  | match ?x with Some _ => _ | None => _ end = Some _ => destruct x
  end; try discriminate H;
  unfold tok, otok, lex_open, lex_close in H;
  try (injection H as <- <-; cbn; tauto);
  try (match type of H with (let '(_, _) := check_equal C ?p ?o ?s in _) = Some _ => destruct (check_equal C p o s) as [t1 s1] eqn:E end;
       injection H as <- <-; eapply equal_proper; [| |exact E]; cbn; tauto).
  destruct (string_ C fuel c s) as [[t1 s1]|] eqn:E; [|discriminate H]. injection H as <- <-. eapply string_proper; exact E.
Qed.
Theorem lexer_proper : forall fuel s t s', snek_lex C fuel s = Some (t, s') -> proper t.
Proof.
  induction fuel as [|fuel IH]; intros s t s' H; cbn [snek_lex] in H;
  (destruct (line_start C _ s) as [[[t1|] s1]|] eqn:El; [| |discriminate H]).
  1,3: injection H as <- <-; unfold line_start in El; destruct (lx_midline s); [discriminate El|];
       destruct (find_line C _ s) as [[c s2]|]; [|discriminate El];
       repeat match type of El with (if ?b then _ else _) = Some _ => destruct b | (let _ := _ in _) = Some _ => cbv zeta in El end;
       try discriminate El; injection El as <- _; exact Logic.I.
  all: destruct (exdents s1) as [[t2|] s2] eqn:Ee;
    [injection H as <- <-; unfold exdents in Ee; destruct (_ && _) in Ee; [|discriminate Ee]; destruct (_ <? _) in Ee; [|discriminate Ee];
     injection Ee as <- _; exact Logic.I|];
    destruct (lextoken C (start_token s2)) as [c s3];
    destruct (lex_switch C _ c s3) as [[[t3| |] s4]|] eqn:Es; try discriminate H;
    try (injection H as <- <-; eapply switch_proper; exact Es); eauto;
    unfold lex_rest in H; destruct (_ || _) in H; [eapply number_proper; exact H|];
    destruct (negb _) in H; [injection H as <- <-; exact Logic.I | eapply word_proper; exact H].
Qed.

Theorem blocks_proper : forall s0 ts st s, blocks C s0 ts st s -> Forall proper ts.
Proof. induction 1; constructor; auto; eapply lexer_proper; eassumption. Qed.
End Lex.
