(** C39-C45, C56: the lexer. *)
From Coq Require Import ZArith Bool List Ascii String Lia.
From Verif Require Import Base LexModel LexSpec LexProofs LexProofs2 LexProofs3 LexProofs4 LexProofs5 LexProofs6 LexProofs7 LexProofs8 LexProofs9.
Import ListNotations.
Local Open Scope Z_scope.

(** For the examples: the POSIX settings, a text being read in the middle of
    a line. *)
Definition posix : lexcfg := {| lc_width := W32; lc_interactive := false; lc_abort := false; lc_alloc := true |}.
Definition in_line (t : list Z) : lex := set_flags 0 true false (lex_start t 1).
Definition lines (s : string) : list Z := map (fun c => if c =? ch "~" then NL else c) (chars s).   (* ~ for a line end *)
Definition lexed (s : string) (fuel : nat) : option (token * list Z) :=
  match snek_lex posix fuel (in_line (lines s)) with Some (t, s') => Some (t, pending s') | None => None end.
Lemma in_line_ahead : forall t, ahead (in_line t) t.
Proof. intros t. exists 0%nat. cbn. rewrite app_nil_r. reflexivity. Qed.
Lemma in_line_mid : forall t, mid (in_line t).
Proof. split; reflexivity. Qed.
Lemma lines_text : forall s, forallb (fun c => (0 <? c) && (c <? 256)) (lines s) = true -> is_text (lines s).
Proof. intros s H. apply Forall_forall. intros c Hc. rewrite forallb_forall in H. specialize (H c Hc). apply andb_true_iff in H. rewrite !Z.ltb_lt in H. exact H. Qed.

(** ** C39: words *)
(** The longest run of name characters after a letter, other than "is" and
    "not", is one keyword or name, and the text after it is left alone.  Missing:
    words directly before the end of the file or of 255 or more characters, for
    which the claim is false (below). *)
Theorem C39_words_partial : forall C n w r fuel s, is_text (w ++ r) -> ahead s (spaces n ++ w ++ r) -> mid s ->
  is_word w -> w <> chars "is" -> w <> chars "not" -> not_next name_char r -> r <> [] -> (length w < 255)%nat ->
  (n + length w <= fuel)%nat ->
  exists s', snek_lex C fuel s = Some (word_token w, s') /\ ahead s' r /\ same_block s s'.
Proof. exact words. Qed.
Print Assumptions C39_words_partial.
Example C39_words_applies : lexed "  index2 = 3~" 20 = Some (TName (chars "index2"), lines " = 3~") /\
  lexed "define~" 20 = Some (TName (chars "define"), [NL]) /\ lexed "def f~" 20 = Some (TKeyword (chars "def"), lines " f~").
Proof. vm_compute. auto. Qed.

(** "is" and "not": one token with the second word if the text goes on with
    it, and otherwise a token of its own, the text being kept but for all but
    one of the spaces.  Missing: that the second word must end there. *)
Theorem C39_two_words_partial : forall C n k first second alone both r fuel s,
  (first = chars "is" /\ second = chars "not" /\ alone = TCmpop OpIs /\ both = TCmpop OpIsNot) \/
  (first = chars "not" /\ second = chars "in" /\ alone = TNot OpNot /\ both = TCmpop OpNotIn) ->
  is_text r -> ahead s (spaces n ++ first ++ spaces k ++ r) -> mid s ->
  not_next is_space r -> (k = O -> not_next name_char r) -> r <> [] -> (n + k + 3 <= fuel)%nat ->
  exists s' t tok_, snek_lex C fuel s = Some (tok_, s') /\ ahead s' t /\ same_block s s' /\
    ((~ starts second r /\ tok_ = alone /\ t = spaces (min k 1) ++ r) \/ (r = second ++ t /\ tok_ = both)).
Proof. exact two_words. Qed.
Print Assumptions C39_two_words_partial.
Example C39_two_words_applies : lexed "is  not x~" 20 = Some (TCmpop OpIsNot, lines " x~") /\ lexed "is   none~" 20 = Some (TCmpop OpIs, lines " none~").
Proof. vm_compute. auto. Qed.

(** False: the second word need not end where it is found, so [not index]
    reads as [not in dex] and [is nothing] as [is not hing]. *)
Theorem C39_refuted : lexed "not index~" 20 = Some (TCmpop OpNotIn, lines "dex~") /\
  lexed "is nothing~" 20 = Some (TCmpop OpIsNot, lines "hing~").
Proof. vm_compute. auto. Qed.
Print Assumptions C39_refuted.
(** False: a name directly before the end of the file loses its last character. *)
Theorem C39_end_refuted : lexed "abc" 20 = Some (TName (chars "ab"), [0]).
Proof. vm_compute. reflexivity. Qed.
Print Assumptions C39_end_refuted.

(** ** C40: operators *)
Theorem C40_longest : forall C n fuel s t w k, is_text t -> ahead s (spaces n ++ t) -> mid s -> longest_operator t w k -> (n <= fuel)%nat ->
  exists s', snek_lex C fuel s = Some (k, s') /\ ahead s' (skipn (length w) t) /\ same_block s s'.
Proof. exact operators_run. Qed.
Print Assumptions C40_longest.
Ltac by_table := intros w' k' H (u & Hu); cbn in H; decompose [or] H; try contradiction;
  match goal with E : (_, _) = (w', k') |- _ => injection E as <- <- end; cbn; try lia; exfalso; cbn in Hu; congruence.
Example C40_applies : longest_operator (chars "**=x") (chars "**=") (TAssign (OpAssignTo OpPow)) /\
  longest_operator (chars ">=2") (chars ">=") (TCmpop OpGe) /\
  lexed " **=x~" 9 = Some (TAssign (OpAssignTo OpPow), lines "x~") /\ lexed ">=2~" 9 = Some (TCmpop OpGe, lines "2~").
Proof.
  split; [|split; [|vm_compute; auto]].
  - split; [cbn; tauto|]. split; [exists (chars "x"); reflexivity | by_table].
  - split; [cbn; tauto|]. split; [exists (chars "2"); reflexivity | by_table].
Qed.

(** ** C41: numbers *)
Theorem C41_numbers : forall C n ip fp ep r fuel s, is_text (ip ++ fp ++ ep ++ r) -> ahead s (spaces n ++ ip ++ fp ++ ep ++ r) -> mid s ->
  numeral ip fp ep -> numeral_stops fp ep r -> (length (ip ++ fp ++ ep) <= 255)%nat -> (n + length (ip ++ fp ++ ep) <= fuel)%nat ->
  exists s', snek_lex C fuel s = Some (TNumber (no_underscores (ip ++ fp ++ ep)), s') /\ ahead s' r /\ same_block s s'.
Proof. exact numbers. Qed.
Print Assumptions C41_numbers.
Example C41_numbers_applies : numeral (chars "1_000") (chars ".5") (chars "e-3") /\ numeral_stops (chars ".5") (chars "e-3") (chars ")") /\
  lexed " 1_000.5e-3)" 20 = Some (TNumber (chars "1000.5e-3"), chars ")").
Proof.
  split; [|split; [|vm_compute; reflexivity]].
  - split; [|split].
    + exists 49, (chars "_000"). split; [reflexivity|]. split; [unfold digit; lia|]. repeat (constructor; [unfold digit; cbn; lia|]). constructor.
    + right. exists (chars "5"). split; [reflexivity|]. repeat (constructor; [unfold digit; cbn; lia|]). constructor.
    + right. exists 101, [45], (chars "3"). split; [reflexivity|]. split; [right; reflexivity|]. split; [right; right; reflexivity|].
      split; [discriminate|]. repeat (constructor; [unfold digit; cbn; lia|]). constructor.
  - split; [intros c r H; injection H as <- <-; unfold digit; cbn; lia|]. split; [discriminate | discriminate].
Qed.
(** Nothing else is accepted after a first digit.  Missing: an exponent
    without digits is accepted, and so is a number without a first digit. *)
Theorem C41_only_partial : forall C n c t fuel s x s', is_text (c :: t) -> ahead s (spaces n ++ c :: t) -> mid s -> digit c -> (n <= fuel)%nat ->
  snek_lex C fuel s = Some (TNumber x, s') ->
  exists ip fp ep r, c :: t = ip ++ fp ++ ep ++ r /\ int_part ip /\ frac_part fp /\ loose_exp ep /\
    x = no_underscores (ip ++ fp ++ ep) /\ ahead s' r.
Proof. exact numbers_only. Qed.
Print Assumptions C41_only_partial.
Example C41_only_applies : lexed "12.5.5~" 20 = Some (TNumber (chars "12.5"), lines ".5~").
Proof. vm_compute. reflexivity. Qed.
(** False: a single dot, two dots with digits, and an exponent without digits are numbers. *)
Theorem C41_refuted : lexed ".~" 9 = Some (TNumber (chars "."), [NL]) /\ lexed ".5.5~" 9 = Some (TNumber (chars ".5.5"), [NL]) /\
  lexed "1e~" 9 = Some (TNumber (chars "1e"), [NL]) /\ lexed "1e+~" 9 = Some (TNumber (chars "1e+"), [NL]).
Proof. vm_compute. auto. Qed.
Print Assumptions C41_refuted.

(** ** C42: blocks *)
(** At every point of a command the blocks opened and not yet closed have
    strictly increasing indentations, the outermost 0. *)
Theorem C42_nesting : forall C input line ts st s, blocks C (lex_start input line) ts st s ->
  opens ts = (closes ts + length st)%nat /\ descends (lx_current s) st.
Proof. exact block_balance. Qed.
Print Assumptions C42_nesting.
(** At the end of the text, after the end of a line, all blocks have been closed. *)
Theorem C42_balance : forall C input line ts st s, blocks C (lex_start input line) (TEnd :: ts) st s ->
  (ts = [] \/ (exists ts', ts = TNl :: ts') \/ (exists e ts', ts = TExdent e :: ts')) -> st = [] /\ opens ts = closes ts.
Proof. exact blocks_end. Qed.
Print Assumptions C42_balance.
(** After closing blocks, and at the start of a line where no block is opened
    or closed, the line's indentation is that of the innermost open block. *)
Theorem C42_closes_to_open_block : forall C input line ts st s t, blocks C (lex_start input line) (t :: ts) st s ->
  (forall i, t <> TIndent i) -> (forall e, t <> TExdent e) ->
  (forall e ts', ts = TExdent e :: ts' -> lx_current s = e) /\
  (forall ts', ts = TNl :: ts' -> lx_current s = lx_indent s).
Proof. exact blocks_first. Qed.
Print Assumptions C42_closes_to_open_block.
(** The first token of a line that starts with [k] spaces.  Missing: lines
    with 256 or more spaces, for which the claim is false (below). *)
Theorem C42_first_token_partial : forall C k c r fuel s, ahead s (spaces k ++ c :: r) -> starts_line c -> Z.of_nat k < 256 -> (k <= fuel)%nat ->
  lx_midline s = false -> lx_exdent s = false -> lx_ignore s = 0 ->
  (Z.of_nat k > lx_current s -> exists s', snek_lex C fuel s = Some (TIndent (lx_current s), s') /\ ahead s' (c :: r) /\ mid s' /\ lx_current s' = Z.of_nat k) /\
  (Z.of_nat k < lx_current s -> exists s', snek_lex C fuel s = Some (TExdent (Z.of_nat k), s') /\ ahead s' (c :: r) /\
     lx_midline s' = true /\ lx_exdent s' = true /\ lx_ignore s' = 0 /\ lx_indent s' = Z.of_nat k /\ lx_current s' = lx_current s) /\
  (Z.of_nat k = lx_current s -> exists s', snek_lex C fuel s = snek_lex C fuel s' /\ ahead s' (c :: r) /\ mid s' /\
     lx_ignore s' = 0 /\ lx_current s' = lx_current s).
Proof. exact line_runs. Qed.
Print Assumptions C42_first_token_partial.

(** The tokens of a text, with the parser's part, computed. *)
Fixpoint run_blocks (n : nat) (ts : list token) (st : list Z) (s : lex) : option (list token * list Z * lex) :=
  match n with
  | O => Some (ts, st, s)
  | S n' =>
      match snek_lex posix 400 s with
      | Some (TIndent i, s') => run_blocks n' (TIndent i :: ts) (i :: st) s'
      | Some (TExdent e, s') =>
          match st with
          | i :: st' => if e <=? i then run_blocks n' (TExdent e :: ts) st' (set_indents i (lx_indent s') s') else None
          | [] => None
          end
      | Some (t, s') => run_blocks n' (t :: ts) st s'
      | None => None
      end
  end.
Lemma run_blocks_ok : forall s0 n ts st s r, blocks posix s0 ts st s -> run_blocks n ts st s = Some r -> blocks posix s0 (fst (fst r)) (snd (fst r)) (snd r).
Proof.
  induction n as [|n IH]; intros ts st s r B E; cbn [run_blocks] in E; [injection E as <-; exact B|].
  destruct (snek_lex posix 400 s) as [[t s']|] eqn:E1; [|discriminate].
  destruct t; try (apply (IH _ _ _ _ (bl_token _ _ _ _ _ _ _ _ B E1 ltac:(discriminate) ltac:(discriminate)) E)).
  - exact (IH _ _ _ _ (bl_open _ _ _ _ _ _ _ _ B E1) E).
  - destruct st as [|j st]; [discriminate|]. destruct (Z.leb_spec i j) as [H|H]; [|discriminate].
    exact (IH _ _ _ _ (bl_close _ _ _ _ _ _ _ _ _ B E1 H) E).
Qed.
Definition demo_program : list Z := lines "if a:~  if b:~     c~d~".
Example C42_applies : exists ts s, blocks posix (lex_start demo_program 1) (TEnd :: ts) [] s /\
  (exists ts', ts = TNl :: ts') /\ opens ts = 2%nat /\ closes ts = 2%nat /\
  (exists a b, ts = a ++ TExdent 0 :: TExdent 0 :: TNl :: TName (chars "c") :: TIndent 2 :: b).
Proof.
  assert (E : exists r, run_blocks 17 [] [] (lex_start demo_program 1) = Some r /\
     exists ts s, r = (TEnd :: ts, [], s) /\ (exists ts', ts = TNl :: ts') /\ opens ts = 2%nat /\ closes ts = 2%nat /\
       exists a b, ts = a ++ TExdent 0 :: TExdent 0 :: TNl :: TName (chars "c") :: TIndent 2 :: b).
  { eexists. split; [vm_compute; reflexivity|]. eexists _, _. split; [reflexivity|]. split; [eexists; reflexivity|]. split; [reflexivity|]. split; [reflexivity|].
    exists [TNl; TName (chars "d")]. eexists. reflexivity. }
  destruct E as (r & E & ts & s & -> & H). exists ts, s. split; [|exact H].
  exact (run_blocks_ok _ _ _ _ _ _ (bl_start _ _) E).
Qed.
(** False: the spaces are counted modulo 256, so a line indented by 256 opens no block. *)
Theorem C42_refuted : exists s', snek_lex posix 300 (lex_start (spaces 256 ++ lines "x~") 1) = Some (TName (chars "x"), s') /\ lx_indent s' = 0.
Proof. eexists. split; [vm_compute; reflexivity | reflexivity]. Qed.
Print Assumptions C42_refuted.

(** ** C43: lexing ends *)
(** Every token is delivered if every comment has an end of line, and the
    number of tokens of a command other than INDENT, EXDENT and END is bounded by
    the length of the text.  Missing: comments ended by the end of the file. *)
Theorem C43_token_partial : forall C s, lc_abort C = false -> comments_end (pending s) ->
  exists fuel t s', snek_lex C fuel s = Some (t, s') /\ comments_end (pending s').
Proof. exact lex_ends_start. Qed.
Print Assumptions C43_token_partial.
Theorem C43_tokens_partial : forall C input line ts st s, lc_abort C = false -> comments_end input -> blocks C (lex_start input line) ts st s ->
  comments_end (pending s) /\ (taken ts <= length input)%nat.
Proof. exact taken_bound. Qed.
Print Assumptions C43_tokens_partial.
(** How many steps are allowed does not matter. *)
Theorem C43_same_token : forall C f f' s r r', snek_lex C f s = Some r -> snek_lex C f' s = Some r' -> r = r'.
Proof. exact lex_same. Qed.
Print Assumptions C43_same_token.
Example C43_applies : comments_end (lines "x # y~") /\ exists s', snek_lex posix 300 (lex_start (lines "# x~y~") 1) = Some (TName (chars "y"), s').
Proof.
  split; [|eexists; vm_compute; reflexivity]. intros a b E.
  do 6 (destruct a as [|? a]; cbn in E; [try discriminate; injection E as <-; cbn; tauto | injection E as _ E]). destruct a; discriminate.
Qed.
(** False: a comment without an end of line is never left. *)
Theorem C43_refuted : forall C fuel line, lc_abort C = false -> snek_lex C fuel (lex_start (chars "#") line) = None.
Proof. exact hash_hangs. Qed.
Print Assumptions C43_refuted.

(** ** C44: string literals *)
Theorem C44_denotes : forall C n q b v r fuel s, q = 34 \/ q = 39 -> is_text (b ++ q :: r) -> ahead s (spaces n ++ q :: b ++ q :: r) -> mid s ->
  body q b v -> is_text v -> (length v <= 255)%nat -> lc_alloc C = true -> (n + length v <= fuel)%nat ->
  exists s', snek_lex C fuel s = Some (TString v, s') /\ ahead s' r /\ same_block s s'.
Proof. exact strings. Qed.
Print Assumptions C44_denotes.
Theorem C44_writable : forall q v, q = 34 \/ q = 39 -> is_text v -> exists b, body q b v /\ is_text b.
Proof. exact writable. Qed.
Print Assumptions C44_writable.
Example C44_applies : body 39 (chars "a\n\x41""") [97; 10; 65; 34] /\ lexed "'a\n\x41""' + 1~" 9 = Some (TString [97; 10; 65; 34], lines " + 1~").
Proof.
  split; [|vm_compute; reflexivity].
  apply body_raw; [cbn; lia | cbn; lia | cbn; lia|]. apply body_n. apply (body_x 39 52 49 4 1); [left; lia | left; lia | lia|].
  apply body_raw; [cbn; lia | cbn; lia | cbn; lia|]. apply body_end.
Qed.
(** False beyond 7 bits: a hexadecimal escape of 128 or more is refused. *)
Theorem C44_hex_refuted : exists r, lexed "'\x80'~" 9 = Some (TInvalid, r).
Proof. eexists. vm_compute. reflexivity. Qed.
Print Assumptions C44_hex_refuted.

(** ** C45: push-back *)
(** Between tokens at most four characters are pushed back, and no write goes
    beyond the five places. *)
Theorem C45_pushback : forall C input line ts st s, blocks C (lex_start input line) ts st s -> (length (lx_unget s) <= 4)%nat /\ lx_over s = false.
Proof. exact pushback. Qed.
Print Assumptions C45_pushback.
Example C45_applies : exists s, blocks posix (lex_start (lines "is noway~") 1) [TCmpop OpIs] [] s /\ length (lx_unget s) = 4%nat.
Proof.
  eexists. split; [eapply (bl_token posix _ [] [] _ 20); [apply bl_start | vm_compute; reflexivity | discriminate | discriminate] | reflexivity].
Qed.

(** ** C56: line numbers *)
(** The line number is the number at the start plus the line ends read so
    far, in the width of the counter. *)
Theorem C56_line : forall C input line ts st s, blocks C (lex_start input line) ts st s ->
  u_of (lc_width C) (lx_line s + newlines (pending s)) = u_of (lc_width C) (line + newlines input).
Proof. exact line_numbers. Qed.
Print Assumptions C56_line.
Example C56_applies : exists ts st s, blocks posix (lex_start demo_program 1) ts st s /\ lx_line s = 4 /\ newlines (pending s) = 1.
Proof.
  assert (E : exists r, run_blocks 15 [] [] (lex_start demo_program 1) = Some r /\ lx_line (snd r) = 4 /\ newlines (pending (snd r)) = 1).
  { eexists. split; [vm_compute; reflexivity | split; reflexivity]. }
  destruct E as (r & E & H). exists (fst (fst r)), (snd (fst r)), (snd r). split; [exact (run_blocks_ok _ _ _ _ _ _ (bl_start _ _) E) | exact H].
Qed.
