(** Proofs about the lexer: more steps do not change a token; whole runs. *)
From Coq Require Import ZArith Bool List Ascii String Lia.
From Verif Require Import Base LexModel LexSpec LexProofs LexProofs2 LexProofs3 LexProofs4 LexProofs5 LexProofs6 LexProofs7.
Import ListNotations.
Local Open Scope Z_scope.

Section P.
Variable C : lexcfg.

Lemma comment_mono : forall f s r, comment C f s = Some r -> comment C (S f) s = Some r.
Proof.
  induction f as [|f IH]; intros s r H; cbn [comment] in *; destruct (lexchar C s) as [c s1]; destruct (_ || _); try exact H; [discriminate|].
  apply IH in H. exact H.
Qed.
Lemma number_mono : forall f n t c s r, number_loop C f n t c s = Some r -> number_loop C (S f) n t c s = Some r.
Proof.
  induction f as [|f IH]; intros n t c s r H; rewrite number_loop_eq in *; destruct (keep_token t c s) as [[] s1]; try exact H; cbn [negb] in *;
    destruct (lexchar C s1) as [c2 s2]; destruct (nstep n (cclass c2)); try exact H; [discriminate|]. apply IH; exact H.
Qed.
Lemma string_mono : forall f q s r, string_loop C f q s = Some r -> string_loop C (S f) q s = Some r.
Proof.
  induction f as [|f IH]; intros q s r H; rewrite string_loop_step in *; destruct (lexchar C s) as [c s1]; destruct (c =? q); try exact H;
    destruct (c =? NL); try exact H; destruct (if c =? ch "\" then _ else _) as [[c'|] s2]; try exact H;
    destruct (add_token c' s2) as [[] s3]; cbn [negb] in *; try exact H; [discriminate|]. apply IH; exact H.
Qed.
Lemma skip_mono : forall f b s r, skip_spaces C f b s = Some r -> skip_spaces C (S f) b s = Some r.
Proof.
  induction f as [|f IH]; intros b s r H; cbn [skip_spaces] in *; destruct (lexchar C s) as [c s1]; destruct (c =? ch " "); try exact H; [discriminate|].
  apply IH in H. exact H.
Qed.
Lemma trailing_mono : forall f w a b s r, trailing C f w a b s = Some r -> trailing C (S f) w a b s = Some r.
Proof.
  intros f w a b s r H. unfold trailing in *. destruct (skip_spaces C f false s) as [x|] eqn:E; [|discriminate]. rewrite (skip_mono _ _ _ _ E). exact H.
Qed.
Lemma name_mono : forall f s r, name_loop C f s = Some r -> name_loop C (S f) s = Some r.
Proof.
  induction f as [|f IH]; intros s r H; cbn [name_loop] in *; destruct (lextoken C s) as [c s1]; destruct (is_name c false); try exact H; [discriminate|].
  apply IH in H. exact H.
Qed.
Lemma word_mono : forall f s r, word C f s = Some r -> word C (S f) s = Some r.
Proof.
  intros f s r H. unfold word in *. destruct (name_loop C f s) as [[c s1]|] eqn:E; [|discriminate]. rewrite (name_mono _ _ _ E). cbv zeta in *.
  destruct (is_keyword _); [|exact H]. destruct (text_eqb _ _); [apply trailing_mono; exact H|].
  destruct (text_eqb _ _); [apply trailing_mono; exact H | exact H].
Qed.
Lemma rest_mono : forall f c s r, lex_rest C f c s = Some r -> lex_rest C (S f) c s = Some r.
Proof.
  intros f c s r H. unfold lex_rest in *. destruct (_ || _); [apply number_mono; exact H|]. destruct (negb _); [exact H | apply word_mono; exact H].
Qed.
Lemma indent_mono : forall f i s r, indent_spaces C f i s = Some r -> indent_spaces C (S f) i s = Some r.
Proof.
  induction f as [|f IH]; intros i s r H; cbn [indent_spaces] in *; destruct (lexchar C s) as [c s1]; destruct (c =? ch " "); try exact H; [discriminate|].
  apply IH in H. exact H.
Qed.
Lemma find_line_step : forall fuel s, find_line C fuel s =
  match indent_spaces C fuel 0 s with
  | None => None
  | Some (c, i, s) =>
      let s := set_indents (lx_current s) i s in
      if c =? SNEK_EOF then Some (c, set_indents (lx_current s) 0 s)
      else if negb (lc_interactive C) && (c =? NL) then
        match fuel with O => None | S fuel' => find_line C fuel' s end
      else if c =? ch "#" then
        match comment C fuel s with
        | None => None
        | Some s => match fuel with O => None | S fuel' => find_line C fuel' s end
        end
      else Some (c, s)
  end.
Proof. intros [|f] s; reflexivity. Qed.
Lemma find_mono : forall f s r, find_line C f s = Some r -> find_line C (S f) s = Some r.
Proof.
  induction f as [|f IH]; intros s r H; rewrite find_line_step in *.
  all: match type of H with context [indent_spaces C ?g 0 ?s] => destruct (indent_spaces C g 0 s) as [[[c i] s1]|] eqn:E; [|discriminate] end;
    rewrite (indent_mono _ _ _ _ E); cbv zeta in *.
  all: destruct (c =? SNEK_EOF); [exact H|]; destruct (_ && _); [first [discriminate | apply IH; exact H]|]; destruct (c =? ch "#"); [|exact H].
  all: match type of H with context [comment C ?g ?s] => destruct (comment C g s) as [s2|] eqn:E2; [|discriminate] end; rewrite (comment_mono _ _ _ E2).
  - discriminate. - apply IH; exact H.
Qed.
Lemma line_start_mono : forall f s r, line_start C f s = Some r -> line_start C (S f) s = Some r.
Proof.
  intros f s r H. unfold line_start in *. destruct (lx_midline s); [exact H|]. destruct (find_line C f s) as [x|] eqn:E; [|discriminate].
  rewrite (find_mono _ _ _ E). exact H.
Qed.
Lemma switch_mono : forall f c s r, lex_switch C f c s = Some r -> lex_switch C (S f) c s = Some r.
Proof.
  intros f c s r H. unfold lex_switch in *.
  repeat match type of H with (if ?b then ?x else ?y) = _ => destruct b; [first [exact H | idtac] |] end; try exact H.
  - unfold string_ in *. destruct (string_loop C f c (start_token s)) as [x|] eqn:E; [|discriminate]. rewrite (string_mono _ _ _ _ E). exact H.
  - destruct (comment C f s) as [x|] eqn:E; [|discriminate]. rewrite (comment_mono _ _ _ E). exact H.
Qed.
Lemma lex_mono1 : forall f s r, snek_lex C f s = Some r -> snek_lex C (S f) s = Some r.
Proof.
  induction f as [|f IH]; intros s r H; rewrite snek_lex_step in *.
  all: match type of H with context [line_start C ?g ?x] => destruct (line_start C g x) as [[[t|] s1]|] eqn:E; [| |discriminate]; rewrite (line_start_mono _ _ _ E) end; [exact H|idtac].
  all: destruct (exdents s1) as [[t|] s2]; [exact H|]; destruct (lextoken C (start_token s2)) as [c s3].
  all: match type of H with context [lex_switch C ?g ?d ?x] => destruct (lex_switch C g d x) as [[a s4]|] eqn:E4; [|discriminate]; rewrite (switch_mono _ _ _ _ E4) end.
  all: destruct a; [exact H | first [discriminate | apply IH; exact H] | apply rest_mono; exact H].
Qed.
Lemma lex_mono : forall f f' s r, snek_lex C f s = Some r -> (f <= f')%nat -> snek_lex C f' s = Some r.
Proof. intros f f' s r H L. induction L; [exact H | apply lex_mono1; assumption]. Qed.
Lemma lex_same : forall f f' s r r', snek_lex C f s = Some r -> snek_lex C f' s = Some r' -> r = r'.
Proof.
  intros f f' s r r' H H'. destruct (Nat.le_ge_cases f f') as [L|L].
  - rewrite (lex_mono _ _ _ _ H L) in H'. congruence. - rewrite (lex_mono _ _ _ _ H' L) in H. congruence.
Qed.

(** Whole runs: each token but INDENT, EXDENT and END takes some text. *)
Lemma blocks_taken : forall s0 ts st s, lc_abort C = false -> comments_end (pending s0) -> blocks C s0 ts st s ->
  comments_end (pending s) /\ (taken ts + nz (pending s) <= nz (pending s0))%nat.
Proof.
  intros s0 ts st s AB Q B.
  induction B as [|ts st s fuel t s' B (Q1 & L1) E N1 N2|ts st s fuel i s' B (Q1 & L1) E|ts st s fuel e i s' B (Q1 & L1) E Hle].
  - split; [exact Q | cbn; lia].
  - destruct (lex_ends C _ s AB (Nat.le_refl _) Q1) as (t' & s'' & E' & [H1 H2] & H3). pose proof (lex_same _ _ _ _ _ E E') as Eq. injection Eq as <- <-.
    split; [auto|]. unfold taken in *. cbn [filter]. destruct (takes t) eqn:Ht; [|lia]. cbn [length].
    assert (t <> TEnd) by (intros ->; discriminate). specialize (H3 H N1 N2). lia.
  - destruct (lex_ends C _ s AB (Nat.le_refl _) Q1) as (t' & s'' & E' & [H1 H2] & H3). pose proof (lex_same _ _ _ _ _ E E') as Eq. injection Eq as <- <-.
    split; [auto|]. unfold taken in *. cbn [filter takes]. lia.
  - destruct (lex_ends C _ s AB (Nat.le_refl _) Q1) as (t' & s'' & E' & [H1 H2] & H3). pose proof (lex_same _ _ _ _ _ E E') as Eq. injection Eq as <- <-.
    change (pending (set_indents i (lx_indent s') s')) with (pending s').
    split; [auto|]. unfold taken in *. cbn [filter takes]. lia.
Qed.
End P.
Lemma operators_run : forall C n fuel s t w k, is_text t -> ahead s (spaces n ++ t) -> mid s -> longest_operator t w k -> (n <= fuel)%nat ->
  exists s', snek_lex C fuel s = Some (k, s') /\ ahead s' (skipn (length w) t) /\ same_block s s'.
Proof.
  intros C n fuel s t w k T A M L Hf. destruct (skip_token_spaces C n (fuel - n) s t T A M) as (s1 & A1 & K1 & E1).
  replace (n + (fuel - n))%nat with fuel in E1 by lia. rewrite E1.
  destruct (operator_runs C (fuel - n) s1 t w k T A1 (mid_kept _ _ K1 M) L) as (s' & E & A' & B').
  exists s'. split; [exact E|]. split; [exact A'|]. destruct K1 as [(H1 & H2 & H3 & H4) _], B' as (G1 & G2 & G3 & G4). repeat split; congruence.
Qed.
Lemma pushback : forall C input line ts st s, blocks C (lex_start input line) ts st s -> (length (lx_unget s) <= 4)%nat /\ lx_over s = false.
Proof.
  intros C input line ts st s B. destruct (blocks_inv C _ _ _ _ _ B) as (I & _). destruct (bi_safe _ _ _ I) as [H1 H2]. split; [lia | exact H2].
Qed.
Lemma line_numbers : forall C input line ts st s, blocks C (lex_start input line) ts st s ->
  u_of (lc_width C) (lx_line s + newlines (pending s)) = u_of (lc_width C) (line + newlines input).
Proof. intros C input line ts st s B. destruct (blocks_inv C _ _ _ _ _ B) as (_ & L & _). exact L. Qed.
Lemma block_balance : forall C input line ts st s, blocks C (lex_start input line) ts st s ->
  opens ts = (closes ts + length st)%nat /\ descends (lx_current s) st.
Proof. intros C input line ts st s B. destruct (blocks_inv C _ _ _ _ _ B) as ([] & _). split; assumption. Qed.
Lemma lex_ends_start : forall C s, lc_abort C = false -> comments_end (pending s) ->
  exists fuel t s', snek_lex C fuel s = Some (t, s') /\ comments_end (pending s').
Proof.
  intros C s AB Q. destruct (lex_ends C _ s AB (Nat.le_refl _) Q) as (t & s' & E & [H _] & _). eexists _, t, s'. split; [exact E | exact (H Q)].
Qed.
Lemma taken_bound : forall C input line ts st s, lc_abort C = false -> comments_end input -> blocks C (lex_start input line) ts st s ->
  comments_end (pending s) /\ (taken ts <= length input)%nat.
Proof.
  intros C input line ts st s AB Q B. destruct (blocks_taken C (lex_start input line) _ _ _ AB Q B) as [H1 H2]. split; [exact H1|].
  pose proof (nz_length (pending (lex_start input line))) as H. cbn in H, H2. lia.
Qed.
Lemma hash_hangs : forall C fuel line, lc_abort C = false -> snek_lex C fuel (lex_start (chars "#") line) = None.
Proof.
  intros C fuel line AB. rewrite snek_lex_step. unfold line_start. cbn [lex_start lx_midline].
  assert (E : find_line C fuel (lex_start (chars "#") line) = None); [|rewrite E; reflexivity].
  rewrite find_line_step.
  assert (I : exists s, indent_spaces C fuel 0 (lex_start (chars "#") line) = Some (ch "#", 0, s) /\ pending s = []).
  { destruct fuel; eexists; split; reflexivity. }
  destruct I as (s & -> & P). cbv zeta. change (ch "#" =? SNEK_EOF) with false. change (ch "#" =? NL) with false. rewrite andb_false_r. rewrite Z.eqb_refl. cbv iota.
  rewrite comment_hangs; [reflexivity | exact AB | exact P].
Qed.
