(** C75 to C77: from the text of a file to its tokens, its tree and what it does. *)
From Coq Require Import ZArith Bool List Ascii String Lia.
From Verif Require Import Base FloatModel PolyModel ValueModel MathModel MachModel BinModel FrameModel CodeModel LexModel LexSpec LexProofs LexProps CompModel ExecModel LayoutSpec EvalSpec TameSpec GenProofs GenProofs2 StepProofs SimProofs EvalProofs CodeProofs StrProps CodeProps EvalProps.
From Verif Require Import GramModel GramSpec GramStmtSpec GramComplete GramSound GramTotal2 GramWhole GramPairs GramMore GramLast GramLex GramProps TextSpec TextProofs TextProofs2.
Import ListNotations.
Local Open Scope Z_scope.
Notation length := List.length (only parsing).

(** ** C75 *)
(** A file is divided into tokens as [tokens] says: the parser is given those,
    with those line numbers, and no others. *)
Theorem C75_tokens : forall C t n its, lc_interactive C = false -> lc_abort C = false -> lc_alloc C = true -> is_text t ->
  tokens (lc_width C) AtLine 0 [] 0 n t its -> stream C [] (lex_start t n) its.
Proof. intros C t n its H1 H2 H3. exact (text_stream C H1 H2 H3 t n its). Qed.
Print Assumptions C75_tokens.
Theorem C75_only : forall C t n its its', lc_interactive C = false -> lc_abort C = false -> lc_alloc C = true -> is_text t ->
  tokens (lc_width C) AtLine 0 [] 0 n t its -> stream C [] (lex_start t n) its' -> map token_line its' = map token_line its.
Proof. intros C t n its its' H1 H2 H3 T H H'. exact (stream_one C [] _ _ _ H' (text_stream C H1 H2 H3 t n its T H)). Qed.
Print Assumptions C75_only.

(** ** C76 *)
(** A file whose tokens Python's grammar derives, within Snek's limits, is
    accepted with Python's tree. *)
Theorem C76_text_tree : forall C idof numof t n ts en cs, lc_interactive C = false -> lc_abort C = false -> lc_alloc C = true -> is_text t ->
  tokens (lc_width C) AtLine 0 [] 0 n t (ts ++ [en]) -> i_tok en = TEnd -> reads_program (common (lc_width C)) idof numof cs ts ->
  reads_program python idof numof cs ts /\ stream C [] (lex_start t n) (ts ++ [en]) /\
  p_start (lc_width C) idof numof (enough (ts ++ [en])) (ts ++ [en]) = Parsed cs [en].
Proof.
  intros C idof numof t n ts en cs H1 H2 H3 T Tk E R. destruct (C62_program_tree _ _ _ _ _ en [] R E) as [P Q].
  split; [exact P|]. split; [exact (text_stream C H1 H2 H3 t n _ T Tk)|exact Q].
Qed.
Print Assumptions C76_text_tree.

(** ** C77 *)
(** A file that is one statement does what the evaluator says.  Partial: as C67,
    and for one statement. *)
Theorem C77_text_runs_partial : forall C K i8 FT F, program K i8 FT F -> forall idof numof n m s t ts en c st,
  let w := e_width (cf_env K) in
  lc_width C = w -> lc_interactive C = false -> lc_abort C = false -> lc_alloc C = true -> is_text t ->
  tokens w AtLine 0 [] 0 m t (ts ++ [en]) -> i_tok en = TEnd ->
  reads_stat (common w) idof numof s ts -> s <> SSkip -> oks w s ->
  Forall (in_range w) (cstmt w i8 0 0 None None s) -> good K st ->
  stream C [] (lex_start t m) (ts ++ [en]) /\
  p_start w idof numof (enough (ts ++ [en])) (ts ++ [en]) = Parsed [CStat s] [en] /\
  exists code, gen_command w i8 s c = Ok code /\
  match exs K FT n 0 false s st with
  | Val x st' => quietly st st' /\ x <> Break /\ x <> Continue /\ (forall v, x = Return v -> s_a st' = v) /\
      exists fuel, exec K F fuel code st = Some (s_a st', after st st')
  | Stop st' => failed st st' /\ exists fuel, exec K F fuel code st = Some (s_a st', after st st')
  | _ => True
  end.
Proof.
  intros C K i8 FT F HP idof numof n m s t ts en c st w W H1 H2 H3 T Tk E R N O Rg G. split.
  - rewrite <- W in Tk. exact (text_stream C H1 H2 H3 t m _ T Tk).
  - exact (C67_source_partial K i8 FT F HP idof numof n s ts en [] c st R E N O Rg G).
Qed.
Print Assumptions C77_text_runs_partial.

(** if a:
      b = (1 # c
    )

    b = 2 *)
Definition demo_text : list Z := lines "if a:~  b = (1 # c~)~~b = 2~".
Definition if_tokens : list item :=
  [at_ 1 (key "if"); at_ 1 (nm "a"); at_ 1 (it TColon); at_ 2 (it TNl); at_ 2 (it (TIndent 0));
   at_ 2 (nm "b"); at_ 2 (it (TAssign OpAssign)); at_ 2 (it TOp); at_ 2 (nu "1"); at_ 3 (it TCp); at_ 4 (it TNl); at_ 5 (it (TExdent 0))].
Definition set2_tokens : list item := [at_ 5 (nm "b"); at_ 5 (it (TAssign OpAssign)); at_ 5 (nu "2"); at_ 6 (it TNl)].
Definition demo_items : list item := if_tokens ++ set2_tokens ++ [at_ 6 (it TEnd)].
Ltac differs := intros ? ? QQ; injection QQ as <- <-; cbv; intuition discriminate.
Ltac tidy := match goal with |- tokens ?W ?p ?d ?st ?i ?n ?t ?its =>
  let d' := eval vm_compute in d in let n' := eval vm_compute in n in let i' := eval vm_compute in i in let t' := eval vm_compute in t in let l := eval vm_compute in its in
  change (tokens W p d' st i' n' t' l) end.
Ltac tk w k t := match goal with |- tokens ?W InLine ?d ?st ?i ?n ?x (?u :: ?its) =>
  let r := eval vm_compute in (skipn (length w + k) x) in
  eapply (tk_token W d _ st i n w k r t 0%nat its);
  [|differs|first [apply ns_other; cbv; intuition discriminate|apply (ns_open 0); [tauto|lia]|apply (ns_close 1); [tauto|lia]]|tidy] end.
Ltac word w k := tk w k (word_token w);
  [eapply lx_word; [eexists _, _; split; [reflexivity|]; split; [cbv; intuition discriminate|repeat constructor; cbv; intuition discriminate]|
   discriminate|discriminate|differs|discriminate|cbn; lia]|].
Ltac op w k t := tk w k t; [apply lx_operator; split; [cbn; tauto|]; split; [eexists; reflexivity|by_table]|].
Ltac one w k := tk w k (TNumber w);
  [eapply (lx_number w [] []); [split; [eexists _, _; split; [reflexivity|]; split; [cbv; intuition discriminate|constructor]|split; left; reflexivity]
   |split; [differs|split; intros; differs]|cbn; lia]|].
Ltac nl := apply tk_nl; tidy.
Lemma demo_tokens : tokens W32 AtLine 0 [] 0 1 demo_text demo_items.
Proof.
  tidy. eapply (tk_same _ _ _ _ 0); [repeat split; discriminate|reflexivity|lia|].
  word (chars "if") 1%nat. word (chars "a") 0%nat. op (chars ":") 0%nat TColon. nl.
  eapply (tk_deeper W32 [] 0 2 2 98); [repeat split; discriminate|cbn; lia|]. tidy.
  word (chars "b") 1%nat. op (chars "=") 1%nat (TAssign OpAssign). op (chars "(") 0%nat TOp. one (chars "1") 1%nat.
  eapply (tk_comment _ _ _ _ _ (chars " c")); [cbv; intuition discriminate|]. apply tk_nl_inside; [lia|]. tidy.
  eapply (tk_inside _ _ _ _ _ 0); [lia|repeat split; discriminate|].
  op (chars ")") 0%nat TCp. nl. eapply (tk_blank _ _ _ _ _ 0). tidy.
  eapply (tk_outer _ _ _ _ 0); [repeat split; discriminate|cbn; lia|]. eapply (tk_close W32 [] 2 0 5 0); [lia|cbn; lia|]. apply tk_closed. tidy.
  word (chars "b") 1%nat. op (chars "=") 1%nat (TAssign OpAssign). one (chars "2") 0%nat. nl.
  apply (tk_last _ _ _ _ 0); [lia|]. apply tk_closed. tidy. apply tk_end.
Qed.
Definition demo_cfg : lexcfg := {| lc_width := W32; lc_interactive := false; lc_abort := false; lc_alloc := true |}.
Example C75_applies : lc_interactive demo_cfg = false /\ lc_abort demo_cfg = false /\ lc_alloc demo_cfg = true /\ is_text demo_text /\
  tokens W32 AtLine 0 [] 0 1 demo_text demo_items /\ stream demo_cfg [] (lex_start demo_text 1) demo_items.
Proof.
  assert (T : is_text demo_text) by (vm_compute; repeat (constructor; [split; reflexivity|]); constructor).
  split; [reflexivity|]. split; [reflexivity|]. split; [reflexivity|]. split; [exact T|]. split; [apply demo_tokens|].
  apply C75_tokens; try reflexivity; [exact T|apply demo_tokens].
Qed.
Definition if_tree : stmt := SSeq (SLine 1) (SIf (id_ "a") (SSeq (SSeq (SLine 2) (SSeq (SAssign None (TId (demo_id (chars "b"))) (ENum (demo_num (chars "1")))) SSkip)) SSkip) RNone).
Definition set2_tree : stmt := SSeq (SLine 5) (SSeq (SAssign None (TId (demo_id (chars "b"))) (ENum (demo_num (chars "2")))) SSkip).
Lemma if_reads : forall D, reads_stat D demo_id demo_num if_tree if_tokens.
Proof.
  intro D. apply (b_if D demo_id demo_num (at_ 1 (key "if")) _ [at_ 1 (nm "a")] (at_ 1 (it TColon)) _
    [at_ 2 (it TNl); at_ 2 (it (TIndent 0)); at_ 2 (nm "b"); at_ 2 (it (TAssign OpAssign)); at_ 2 (it TOp); at_ 2 (nu "1"); at_ 3 (it TCp); at_ 4 (it TNl); at_ 5 (it (TExdent 0))] _ []);
    try reflexivity; [atom| |constructor].
  apply (u_block D demo_id demo_num (at_ 2 (it TNl)) (at_ 2 (it (TIndent 0))) 0 _
    [at_ 2 (nm "b"); at_ 2 (it (TAssign OpAssign)); at_ 2 (it TOp); at_ 2 (nu "1"); at_ 3 (it TCp); at_ 4 (it TNl)] (at_ 5 (it (TExdent 0))) 0); try reflexivity; try lia.
  apply w_last. apply b_line. apply (ln D demo_id demo_num (at_ 2 (nm "b")) [at_ 2 (it (TAssign OpAssign)); at_ 2 (it TOp); at_ 2 (nu "1"); at_ 3 (it TCp)]); [|reflexivity].
  apply ms_last. apply (m_assign D demo_id demo_num (id_ "b") _ [at_ 2 (nm "b")] (at_ 2 (it (TAssign OpAssign))) None _ [at_ 2 (it TOp); at_ 2 (nu "1"); at_ 3 (it TCp)]);
    [atom|constructor|cbn; tauto|].
  repeat up. eapply (r_paren D demo_id demo_num (at_ 2 (it TOp)) _ [at_ 2 (nu "1")] (at_ 3 (it TCp))); [reflexivity|atom|reflexivity].
Qed.
Lemma set2_reads : forall D, reads_stat D demo_id demo_num set2_tree set2_tokens.
Proof.
  intro D. apply b_line. apply (ln D demo_id demo_num (at_ 5 (nm "b")) [at_ 5 (it (TAssign OpAssign)); at_ 5 (nu "2")]); [|reflexivity].
  apply ms_last. apply (m_assign D demo_id demo_num (id_ "b") _ [at_ 5 (nm "b")] (at_ 5 (it (TAssign OpAssign))) None _ [at_ 5 (nu "2")]); [atom|constructor|cbn; tauto|atom].
Qed.
Example C76_applies : tokens W32 AtLine 0 [] 0 1 demo_text ((if_tokens ++ set2_tokens) ++ [at_ 6 (it TEnd)]) /\
  reads_program (common W32) demo_id demo_num [CStat if_tree; CStat set2_tree] (if_tokens ++ set2_tokens) /\
  p_start W32 demo_id demo_num (enough demo_items) demo_items = Parsed [CStat if_tree; CStat set2_tree] [at_ 6 (it TEnd)].
Proof.
  assert (R : forall D, reads_program D demo_id demo_num [CStat if_tree; CStat set2_tree] (if_tokens ++ set2_tokens)).
  { intro D. apply pg_command; [apply c_stat, if_reads|]. rewrite <- (app_nil_r set2_tokens). apply pg_command; [apply c_stat, set2_reads|constructor]. }
  split; [apply demo_tokens|]. split; [apply R|].
  exact (proj2 (C62_program_tree _ _ _ _ _ (at_ 6 (it TEnd)) [] (R (common W32)) eq_refl)).
Qed.
(** a = 1 # c *)
Definition set_text : list Z := lines "a = 1 # c~".
Definition set_items : list item := [at_ 1 (nm "a"); at_ 1 (it (TAssign OpAssign)); at_ 1 (nu "1"); at_ 2 (it TNl)].
Example C77_applies : is_text set_text /\ tokens W32 AtLine 0 [] 0 1 set_text (set_items ++ [at_ 2 (it TEnd)]) /\
  reads_stat (common W32) demo_id demo_num set_tree set_items /\ oks W32 set_tree /\
  Forall (in_range W32) (cstmt W32 demo_i8 0 0 None None set_tree) /\
  match exs demo_conf nofun 40 0 false set_tree demo_st with Val Normal s => global_is 397 1 s | _ => false end = true.
Proof.
  split; [vm_compute; repeat (constructor; [split; reflexivity|]); constructor|]. split; [|split; [|split; [cbn; repeat split; discriminate|split; [ranges|vm_compute; reflexivity]]]].
  - tidy. eapply (tk_same _ _ _ _ 0); [repeat split; discriminate|reflexivity|lia|].
    word (chars "a") 1%nat. op (chars "=") 1%nat (TAssign OpAssign). one (chars "1") 1%nat. eapply (tk_comment _ _ _ _ _ (chars " c")); [cbv; intuition discriminate|]. nl.
    apply (tk_last _ _ _ _ 0); [lia|]. apply tk_closed. tidy. apply tk_end.
  - apply b_line. apply (ln (common W32) demo_id demo_num (at_ 1 (nm "a")) [at_ 1 (it (TAssign OpAssign)); at_ 1 (nu "1")]); [|reflexivity].
    apply ms_last. apply (m_assign (common W32) demo_id demo_num (id_ "a") _ [at_ 1 (nm "a")] (at_ 1 (it (TAssign OpAssign))) None _ [at_ 1 (nu "1")]); [atom|constructor|cbn; tauto|atom].
Qed.
