(** C60 to C67: what the parser makes of a sequence of tokens. *)
From Coq Require Import ZArith Bool List Ascii String Lia.
From Verif Require Import Base FloatModel PolyModel ValueModel MathModel MachModel BinModel FrameModel CodeModel LexModel LexSpec CompModel ExecModel LayoutSpec EvalSpec TameSpec GenProofs GenProofs2 StepProofs SimProofs EvalProofs CodeProofs StrProps CodeProps EvalProps.
From Verif Require Import GramModel GramSpec GramStmtSpec GramComplete GramSound GramTotal2 GramWhole GramPairs GramMore GramLast GramLex.
Import ListNotations.
Local Open Scope Z_scope.
Notation length := List.length (only parsing).

(** tokens of line 1, names and numbers *)
Definition nm (s : string) : item := it (TName (chars s)).
Definition nu (s : string) : item := it (TNumber (chars s)).
Definition key (s : string) : item := it (keyword s).
Definition demo_id (s : list Z) : Z := 300 + hd 0 s.
Definition demo_num (s : list Z) : float := f_of_Z (hd 0 s - 48).
Definition id_ (s : string) : expr := EId (demo_id (chars s)).
Ltac up := eapply r_up; [reflexivity|].
Ltac atom := repeat up; first [now eapply r_name | now eapply r_number].

(** ** C60 *)
(** An expression that Python's grammar derives, within Snek's limits and
    without a unary operator after **, gets the tree Python gives it; and
    whenever Snek and Python both read some tokens as an expression, they give
    it the same tree. *)
Theorem C60_expression_tree : forall w idof numof e ts rest, reads (common w) idof numof OrTest e ts -> stopped rest ->
  reads python idof numof OrTest e ts /\ p_expr w idof numof (enough (ts ++ rest)) (ts ++ rest) = Parsed e rest.
Proof.
  intros w idof numof e ts rest H R. split.
  - exact (weak _ _ idof numof (python_allows w) _ _ _ H).
  - exact (parses w idof numof (common w) eq_refl eq_refl e ts rest H R).
Qed.
Print Assumptions C60_expression_tree.
Theorem C60_same_tree : forall w idof numof e e' ts, reads (snek w) idof numof OrTest e ts -> reads python idof numof OrTest e' ts ->
  within w e' -> e = e'.
Proof. intros w idof numof. exact (same_tree w idof numof python eq_refl). Qed.
Print Assumptions C60_same_tree.
(** a - b - c * d < e or not f *)
Definition sum_tokens : list item :=
  [nm "a"; it (TMinus OpMinus); nm "b"; it (TMinus OpMinus); nm "c"; it (TMulop OpTimes); nm "d"].
Definition sum_tree : expr := EBin Nminus (EBin Nminus (id_ "a") (id_ "b")) (EBin Ntimes (id_ "c") (id_ "d")).
Lemma sum_reads : forall D, reads D demo_id demo_num (Bin AExpr) sum_tree sum_tokens.
Proof.
  intro D. apply (r_bin D _ _ AExpr (Bin MExpr) _ [nm "a"; it (TMinus OpMinus); nm "b"] _ Nminus _ [nm "c"; it (TMulop OpTimes); nm "d"]); [|cbn; tauto|reflexivity|].
  - apply (r_bin D _ _ AExpr (Bin MExpr) _ [nm "a"] _ Nminus _ [nm "b"]); [atom|cbn; tauto|reflexivity|atom].
  - apply (r_bin D _ _ MExpr UExpr _ [nm "c"] _ Ntimes _ [nm "d"]); [atom|cbn; tauto|reflexivity|atom].
Qed.
Definition test_tokens : list item := sum_tokens ++ it (TCmpop OpLt) :: nm "e" :: key "or" :: it (TNot OpNot) :: [nm "f"].
Definition test_tree : expr := EOr (ECmp sum_tree (LLast (BCmp OLt) (id_ "e"))) (EUn UNot (id_ "f")).
Lemma test_reads : forall D, reads D demo_id demo_num OrTest test_tree test_tokens.
Proof.
  intro D. apply (r_or D demo_id demo_num (ECmp sum_tree (LLast (BCmp OLt) (id_ "e"))) (sum_tokens ++ [it (TCmpop OpLt); nm "e"])
    (key "or") (EUn UNot (id_ "f")) [it (TNot OpNot); nm "f"]).
  - up. up. up. apply r_cmp.
    + repeat first [apply sum_reads | up].
    + apply (k_last D _ _ (it (TCmpop OpLt)) _ _ [nm "e"]); [cbn; tauto|atom].
  - reflexivity.
  - up. apply r_not; [reflexivity|]. atom.
Qed.
Example C60_applies : reads (common W16) demo_id demo_num OrTest test_tree test_tokens /\ stopped [it TNl] /\
  reads (snek W16) demo_id demo_num OrTest test_tree test_tokens /\ reads python demo_id demo_num OrTest test_tree test_tokens /\ within W16 test_tree /\
  p_expr W16 demo_id demo_num (enough (test_tokens ++ [it TNl])) (test_tokens ++ [it TNl]) = Parsed test_tree [it TNl].
Proof. repeat split; auto using test_reads. Qed.

(** ** C61 *)
(** What is accepted as an expression is one in Snek's grammar, all of it read,
    with that tree; and no two trees have the same tokens.  Partial: the count
    of arguments must not wrap (see C65). *)
Theorem C61_accepted_partial : forall w idof numof n ts e rest, Proper ts -> p_expr w idof numof n ts = Parsed e rest -> nowrap w e ->
  exists us, ts = us ++ rest /\ reads (snek w) idof numof OrTest e us.
Proof. exact accepted. Qed.
Print Assumptions C61_accepted_partial.
Theorem C61_one_reading : forall w idof numof e e' ts,
  reads (snek w) idof numof OrTest e ts -> reads (snek w) idof numof OrTest e' ts -> e = e'.
Proof. intros w idof numof. exact (one_reading w idof numof (snek w) eq_refl eq_refl). Qed.
Print Assumptions C61_one_reading.
(** the tokens the lexer makes are proper *)
Theorem C61_lexer_tokens : forall C s0 ts st s, blocks C s0 ts st s -> Forall proper ts.
Proof. exact blocks_proper. Qed.
Print Assumptions C61_lexer_tokens.
Example C61_applies : Proper (test_tokens ++ [it TNl]) /\
  p_expr W16 demo_id demo_num 300 (test_tokens ++ [it TNl]) = Parsed test_tree [it TNl] /\ nowrap W16 test_tree /\
  reads (snek W16) demo_id demo_num OrTest test_tree test_tokens.
Proof. split; [repeat (constructor; [cbn; tauto|]); constructor|]. split; [reflexivity|]. split; [cbn; tauto|apply test_reads]. Qed.
Definition demo_lexcfg : lexcfg := {| lc_width := W16; lc_interactive := false; lc_abort := false; lc_alloc := true |}.
Example C61_lexer_tokens_applies : exists s, blocks demo_lexcfg (lex_start (chars "-=") 1) [TAssign (OpAssignTo OpMinus)] [] s.
Proof.
  eexists. eapply (bl_token demo_lexcfg _ [] [] _ 9%nat); [apply bl_start|vm_compute; reflexivity|discriminate|discriminate].
Qed.

(** ** C62 *)
(** Programs: the same for statements, blocks, functions and imports, with the
    line numbers of the statements. *)
Theorem C62_program_tree : forall w idof numof cs ts en rest, reads_program (common w) idof numof cs ts -> i_tok en = TEnd ->
  reads_program python idof numof cs ts /\
  p_start w idof numof (enough (ts ++ en :: rest)) (ts ++ en :: rest) = Parsed cs (en :: rest).
Proof.
  intros w idof numof cs ts en rest H E. split.
  - exact (weak_program _ _ idof numof (python_allows w) _ _ H).
  - exact (parses_program w idof numof (common w) eq_refl eq_refl eq_refl cs ts en rest H E).
Qed.
Print Assumptions C62_program_tree.
Theorem C62_accepted_partial : forall w idof numof n ts cs rest, Proper ts -> p_start w idof numof n ts = Parsed cs rest ->
  Forall (nowrap_command w) cs ->
  exists us, ts = us ++ rest /\ next is_end rest = true /\ reads_program (snek w) idof numof cs us.
Proof. exact accepted_program. Qed.
Print Assumptions C62_accepted_partial.
Theorem C62_one_reading : forall w idof numof cs cs' ts,
  reads_program (snek w) idof numof cs ts -> reads_program (snek w) idof numof cs' ts -> cs = cs'.
Proof. intros w idof numof. exact (one_program w idof numof (snek w) eq_refl eq_refl eq_refl). Qed.
Print Assumptions C62_one_reading.
(** Python without semicolons at the end of a line and commas at the end of the parameters *)
Definition python_plain : dialect := {| d_pow := true; d_lax := false; d_limit := None; d_trail := false |}.
Theorem C62_same_program : forall w idof numof cs cs' ts, reads_program (snek w) idof numof cs ts ->
  reads_program python_plain idof numof cs' ts -> Forall (within_command w) cs' -> cs = cs'.
Proof. intros w idof numof. exact (same_program w idof numof python_plain eq_refl eq_refl). Qed.
Print Assumptions C62_same_program.
(** def f(a, b=1):
      while a: b = a; break
      else:
        return b *)
Definition at_ (n : Z) (i : item) : item := {| i_tok := i_tok i; i_line := n; i_obj := 0 |}.
Definition def_tokens : list item :=
  [key "def"; nm "f"; it TOp; nm "a"; it TComma; nm "b"; it (TAssign OpAssign); nu "1"; it TCp; it TColon; it TNl; it (TIndent 0);
   at_ 2 (key "while"); nm "a"; it TColon; at_ 2 (nm "b"); it (TAssign OpAssign); nm "a"; it TSemi; key "break"; it TNl;
   key "else"; it TColon; it TNl; it (TIndent 2); at_ 4 (key "return"); nm "b"; it TNl; it (TExdent 0); it (TExdent 0)].
Definition def_tree : command :=
  CDef (demo_id (chars "f"))
    {| fd_formals := [(demo_id (chars "a"), ONone); (demo_id (chars "b"), OSome (ENum (demo_num (chars "1"))))];
       fd_body := SSeq (SSeq (SLine 2) (SWhile (id_ "a")
         (SSeq (SLine 2) (SSeq (SAssign None (TId (demo_id (chars "b"))) (id_ "a")) (SSeq SBreak SSkip)))
         (SSeq (SSeq (SLine 4) (SSeq (SReturn (OSome (id_ "b"))) SSkip)) SSkip))) SSkip |}.
Lemma def_reads : forall D, reads_program D demo_id demo_num [def_tree] def_tokens.
Proof.
  intro D. rewrite <- (app_nil_r def_tokens). apply pg_command; [|constructor].
  apply (c_def D demo_id demo_num (key "def") (nm "f") (chars "f") (it TOp) _ [nm "a"; it TComma; nm "b"; it (TAssign OpAssign); nu "1"]); try reflexivity.
  - apply pm_some. apply (fs_more D demo_id demo_num (demo_id (chars "a"), ONone) [nm "a"] (it TComma) [_] [nm "b"; it (TAssign OpAssign); nu "1"]).
    + now apply (fm_name D demo_id demo_num (nm "a")).
    + reflexivity.
    + apply fs_last. apply (fm_default D demo_id demo_num (nm "b") (chars "b")); [reflexivity| |atom].
      destruct (d_lax D); [exists None; cbn; tauto|reflexivity].
    + intro H. now elim H.
  - apply (u_block D demo_id demo_num (it TNl) (it (TIndent 0)) 0 _
      [at_ 2 (key "while"); nm "a"; it TColon; at_ 2 (nm "b"); it (TAssign OpAssign); nm "a"; it TSemi; key "break"; it TNl;
       key "else"; it TColon; it TNl; it (TIndent 2); at_ 4 (key "return"); nm "b"; it TNl; it (TExdent 0)] (it (TExdent 0)) 0); try reflexivity; try lia.
    apply w_last.
    apply (b_while D demo_id demo_num (at_ 2 (key "while")) _ [nm "a"] (it TColon) _ [at_ 2 (nm "b"); it (TAssign OpAssign); nm "a"; it TSemi; key "break"; it TNl]
      _ [key "else"; it TColon; it TNl; it (TIndent 2); at_ 4 (key "return"); nm "b"; it TNl; it (TExdent 0)]); try reflexivity.
    + atom.
    + apply u_line. apply (ln D demo_id demo_num (at_ 2 (nm "b")) [it (TAssign OpAssign); nm "a"; it TSemi; key "break"]); [|reflexivity].
      apply (ms_more D demo_id demo_num _ [at_ 2 (nm "b"); it (TAssign OpAssign); nm "a"] (it TSemi) _ [key "break"]); [|reflexivity|].
      * apply (m_assign D demo_id demo_num (id_ "b") _ [at_ 2 (nm "b")] (it (TAssign OpAssign)) None _ [nm "a"]); [atom|constructor|cbn; tauto|atom].
      * apply ms_last. now apply m_break.
    + apply f_else; try reflexivity.
      apply (u_block D demo_id demo_num (it TNl) (it (TIndent 2)) 2 _ [at_ 4 (key "return"); nm "b"; it TNl] (it (TExdent 0)) 0); try reflexivity; try lia.
      apply w_last. apply b_line. apply (ln D demo_id demo_num (at_ 4 (key "return")) [nm "b"]); [|reflexivity].
      apply ms_last. apply m_return; [reflexivity|]. apply o_some. atom.
Qed.
Example C62_applies : reads_program (common W32) demo_id demo_num [def_tree] def_tokens /\
  reads_program (snek W32) demo_id demo_num [def_tree] def_tokens /\ reads_program python_plain demo_id demo_num [def_tree] def_tokens /\
  Forall (within_command W32) [def_tree] /\ Proper (def_tokens ++ [it TEnd]) /\ Forall (nowrap_command W32) [def_tree] /\
  p_start W32 demo_id demo_num (enough (def_tokens ++ [it TEnd])) (def_tokens ++ [it TEnd]) = Parsed [def_tree] [it TEnd].
Proof.
  repeat split; auto using def_reads.
  - repeat constructor.
  - repeat (constructor; [cbn; tauto|]); constructor.
  - repeat constructor.
Qed.

(** ** C63 *)
(** The parser always ends: an amount of steps linear in the number of tokens is
    enough, and more change nothing. *)
Theorem C63_expression_ends : forall w idof numof n ts, (enough ts <= n)%nat ->
  p_expr w idof numof n ts <> NoFuel /\ p_expr w idof numof n ts = p_expr w idof numof (enough ts) ts.
Proof. intros w idof numof n ts H. split; [exact (expr_enough w idof numof n ts H)|exact (expr_stable w idof numof n ts H)]. Qed.
Print Assumptions C63_expression_ends.
Theorem C63_program_ends : forall w idof numof n ts, (enough ts <= n)%nat ->
  p_start w idof numof n ts <> NoFuel /\ p_start w idof numof n ts = p_start w idof numof (enough ts) ts.
Proof. intros w idof numof n ts H. split; [exact (start_enough w idof numof n ts H)|exact (start_stable w idof numof n ts H)]. Qed.
Print Assumptions C63_program_ends.
Example C63_applies :
  p_start W32 demo_id demo_num 3 (def_tokens ++ [it TEnd]) = NoFuel /\
  p_start W32 demo_id demo_num (enough [nm "a"; it TOs; it TEnd]) [nm "a"; it TOs; it TEnd] = Syntax.
Proof. split; reflexivity. Qed.

(** ** C64 *)
(** What may be assigned to or deleted, and what may name an argument, is found
    by looking at the last instruction compiled, which is then removed.  That
    finds a variable or an element exactly if the expression is one (or one with
    plus signs before it), and leaves the code of the object and the index. *)
Theorem C64_assignable : forall w i8 D idof numof r e ts del c c',
  reads D idof numof r e ts -> id_fits w e -> gen w i8 e c = Ok c' ->
  extract_lvalue w del c' = match as_target e with Some t => gen_target w i8 t del c | None => Err end.
Proof. exact lvalue_agrees. Qed.
Print Assumptions C64_assignable.
Theorem C64_argument_name : forall w i8 D idof numof r e ts c c',
  reads D idof numof r e ts -> id_fits w e -> gen w i8 e c = Ok c' ->
  extract_name w c' = match as_name e with Some id => Ok (id, delete_prev (add_off w KId id c)) | None => Err end.
Proof. exact name_agrees. Qed.
Print Assumptions C64_argument_name.
Definition elem_tokens : list item := [nm "a"; it TOs; nm "b"; it TCs].
Example C64_applies : reads (snek W16) demo_id demo_num Primary (EIndex (id_ "a") (id_ "b")) elem_tokens /\
  id_fits W16 (EIndex (id_ "a") (id_ "b")) /\ id_fits W16 (id_ "a") /\
  (exists c', gen W16 demo_i8 (EIndex (id_ "a") (id_ "b")) {| c_buf := []; c_prev := 0; c_pprev := 0 |} = Ok c' /\
     extract_lvalue W16 false c' <> Err /\ extract_name W16 c' = Err) /\
  (exists c', gen W16 demo_i8 (id_ "a") {| c_buf := []; c_prev := 0; c_pprev := 0 |} = Ok c' /\
     match extract_name W16 c' with Ok (id, c) => id = 397 /\ c_buf c = [] | _ => False end) /\
  (exists c', gen W16 demo_i8 (EOr (id_ "a") (id_ "b")) {| c_buf := []; c_prev := 0; c_pprev := 0 |} = Ok c' /\ extract_lvalue W16 false c' = Err).
Proof.
  split; [apply (r_index _ _ _ _ [nm "a"] (it TOs) _ [nm "b"] (it TCs)); [atom|reflexivity|atom|reflexivity]|].
  split; [intros id H; discriminate H|]. split; [intros id H; injection H as <-; vm_compute; split; [discriminate|reflexivity]|].
  repeat split; eexists; (split; [reflexivity|]); [split; [discriminate|reflexivity]|split; reflexivity|reflexivity].
Qed.

(** ** C65 *)
(** Snek accepts more than Python.  A plus sign before the target of an
    assignment is ignored. *)
Theorem C65_plus_target : forall w idof numof x t tx p i a e te nl en rest, reads (common w) idof numof UExpr x tx -> stores (common w) x t ->
  i_tok p = TPlus OpPlus -> In (i_tok i, a) assignments -> reads (common w) idof numof OrTest e te -> i_tok nl = TNl -> i_tok en = TEnd ->
  let src := p :: tx ++ i :: te ++ [nl] in
  p_start w idof numof (enough (src ++ en :: rest)) (src ++ en :: rest) = Parsed (line_program (i_line p) (SAssign a t e)) (en :: rest).
Proof. exact plus_target. Qed.
Print Assumptions C65_plus_target.
(** Any assignment operator makes a named argument. *)
Theorem C65_named_operator : forall w idof numof f o n s i a e te q, i_tok f = TName s -> i_tok o = TOp -> i_tok n = TName a ->
  (exists b, In (i_tok i, b) assignments) -> reads (common w) idof numof OrTest e te -> i_tok q = TCp -> forall rest, stopped rest ->
  let src := f :: o :: n :: i :: te ++ [q] in
  p_expr w idof numof (enough (src ++ rest)) (src ++ rest) = Parsed (ECall (EId (idof s)) (ANamed (idof a) e ANil)) rest.
Proof. exact named_operator. Qed.
Print Assumptions C65_named_operator.
(** Imports need not end a line, and any operator like * does after import;
    global needs no names. *)
Theorem C65_imports : forall w idof numof i m j k n l p nl en rest o,
  i_tok i = keyword "import" -> i_tok m = TName n -> i_tok j = keyword "from" -> i_tok k = TName l -> i_tok p = keyword "import" ->
  i_tok o = TMulop OpMod -> i_tok nl = TNl -> i_tok en = TEnd ->
  let src := [i; m; j; k; p; o; nl] in
  p_start w idof numof (enough (src ++ en :: rest)) (src ++ en :: rest) = Parsed [CImport; CImport; CStat SSkip] (en :: rest).
Proof.
  intros w idof numof i m j k n l p nl en rest o.
  exact (odd_imports w idof numof (snek w) i m j k n l p nl en rest o eq_refl eq_refl eq_refl eq_refl).
Qed.
Print Assumptions C65_imports.
Theorem C65_global : forall w idof numof i nl en rest, i_tok i = keyword "global" -> i_tok nl = TNl -> i_tok en = TEnd ->
  p_start w idof numof (enough (i :: nl :: en :: rest)) (i :: nl :: en :: rest) = Parsed (line_program (i_line i) SSkip) (en :: rest).
Proof. exact no_global. Qed.
Print Assumptions C65_global.
(** A positional argument after named ones is a syntax error, but not if the
    count of the named ones wraps: then the count the call is given is 1. *)
Theorem C65_positional_after_named_refuted : forall w idof numof m f s v y rest, u_of w (256 * Z.of_nat (Datatypes.S m)) = 0 -> stopped rest ->
  p_expr w idof numof (enough (wrapping (Datatypes.S m) f s v y ++ rest)) (wrapping (Datatypes.S m) f s v y ++ rest) =
  Parsed (ECall (EId (idof f)) (add_named (Datatypes.S m) (idof s) (ENum (numof v)) (APos (EId (idof y)) ANil))) rest.
Proof. exact wrapped_count. Qed.
Print Assumptions C65_positional_after_named_refuted.
Example C65_applies :
  stores (common W16) (id_ "a") (TId (demo_id (chars "a"))) /\ reads (common W16) demo_id demo_num UExpr (id_ "a") [nm "a"] /\
  In (i_tok (it (TAssign (OpAssignTo OpPlus))), Some Nplus) assignments /\
  u_of W16 (256 * Z.of_nat 256) = 0 /\ u_of W16 (256 * Z.of_nat 255) <> 0 /\
  p_expr W16 demo_id demo_num 200 (wrapping 1 [1] [2] [3] [4] ++ [it TNl]) = Syntax.
Proof. split; [constructor|]. split; [atom|]. split; [cbn; tauto|]. split; [reflexivity|]. split; [discriminate|reflexivity]. Qed.

(** ** C66 *)
(** Snek accepts less than Python: a unary operator after ** is a syntax error. *)
Theorem C66_power_refuted : forall w idof numof x tx i j u y ty, reads (common w) idof numof Primary x tx -> i_tok i = TPow OpPow ->
  In (i_tok j, u) unaries -> reads python idof numof UExpr y ty ->
  reads python idof numof OrTest (EBin Npow x (EUn u y)) (tx ++ i :: j :: ty) /\
  forall n, (enough (tx ++ i :: j :: ty) <= n)%nat -> p_expr w idof numof n (tx ++ i :: j :: ty) = Syntax.
Proof.
  intros w idof numof x tx i j u y ty H E U Y. split.
  - eapply up_to_expr. apply r_pow; [exact (weak _ _ _ _ (python_allows w) _ _ _ H)|exact E|]. apply r_unary; [exact U|exact Y].
  - intros n L. rewrite (expr_stable w idof numof n _ L). eapply power_unary; eauto.
    cbn in U. repeat (destruct U as [U|U]; [injection U as U _; rewrite <- U; reflexivity|]). destruct U.
Qed.
Print Assumptions C66_power_refuted.
(** An accepted program has no semicolon at the end of a line, no def as the
    first thing in a block, and range only after in. *)
Theorem C66_never_accepted_partial : forall w idof numof n ts cs rest, Proper ts -> p_start w idof numof n ts = Parsed cs rest -> Forall (nowrap_command w) cs ->
  exists us, ts = us ++ rest /\ next is_end rest = true /\ forall a i j b, us = a ++ i :: j :: b -> never (i_tok i) (i_tok j) = false.
Proof. exact never_accepted. Qed.
Print Assumptions C66_never_accepted_partial.
Example C66_applies :
  reads (common W16) demo_id demo_num Primary (id_ "a") [nm "a"] /\ In (i_tok (it (TMinus OpMinus)), UMinus) unaries /\
  reads python demo_id demo_num UExpr (id_ "b") [nm "b"] /\
  never TSemi TNl = true /\ never (TIndent 0) (keyword "def") = true /\ never (TAssign OpAssign) (keyword "range") = true /\ never (TIn OpIn) (keyword "range") = false /\
  p_start W16 demo_id demo_num 200 [nm "a"; it TSemi; it TNl; it TEnd] = Syntax.
Proof. split; [atom|]. split; [cbn; tauto|]. split; [atom|]. repeat split. Qed.

(** ** C67 *)
(** From the tokens of a statement to what it does: it is accepted with
    Python's tree, compiled, and run as the evaluator says. *)
Lemma stat_lined D idof numof s ts : reads_stat D idof numof s ts -> s <> SSkip -> lined s = true.
Proof. destruct 1 as [s ts H| | | | |]; intro N; try reflexivity; [destruct H; reflexivity|congruence]. Qed.
Theorem C67_source_partial : forall K i8 FT F, program K i8 FT F -> forall idof numof n s ts en rest c st,
  let w := e_width (cf_env K) in
  reads_stat (common w) idof numof s ts -> i_tok en = TEnd -> s <> SSkip -> oks w s ->
  Forall (in_range w) (cstmt w i8 0 0 None None s) -> good K st ->
  p_start w idof numof (enough (ts ++ en :: rest)) (ts ++ en :: rest) = Parsed [CStat s] (en :: rest) /\
  exists code, gen_command w i8 s c = Ok code /\
  match exs K FT n 0 false s st with
  | Val x st' => quietly st st' /\ x <> Break /\ x <> Continue /\ (forall v, x = Return v -> s_a st' = v) /\
      exists fuel, exec K F fuel code st = Some (s_a st', after st st')
  | Stop st' => failed st st' /\ exists fuel, exec K F fuel code st = Some (s_a st', after st st')
  | _ => True
  end.
Proof.
  intros K i8 FT F HP idof numof n s ts en rest c st w H E N O R G. split.
  - apply (parses_program w idof numof (common w) eq_refl eq_refl eq_refl); [|exact E].
    rewrite <- (app_nil_r ts). apply pg_command; [now apply c_stat|constructor].
  - exact (command_runs K i8 FT F HP n s c st (stat_lined _ _ _ _ _ H N) O R G).
Qed.
Print Assumptions C67_source_partial.
(** a = 1 *)
Definition set_tokens : list item := [nm "a"; it (TAssign OpAssign); nu "1"; it TNl].
Definition set_tree : stmt := SSeq (SLine 1) (SSeq (SAssign None (TId (demo_id (chars "a"))) (ENum (demo_num (chars "1")))) SSkip).
Example C67_applies :
  reads_stat (common W32) demo_id demo_num set_tree set_tokens /\ set_tree <> SSkip /\ oks W32 set_tree /\
  Forall (in_range W32) (cstmt W32 demo_i8 0 0 None None set_tree) /\
  match exs demo_conf nofun 40 0 false set_tree demo_st with Val Normal s => global_is 397 1 s | _ => false end = true.
Proof.
  split; [|split; [discriminate|split; [cbn; repeat split; discriminate|split; [ranges|vm_compute; reflexivity]]]].
  apply b_line. apply (ln (common W32) demo_id demo_num (nm "a") [it (TAssign OpAssign); nu "1"]); [|reflexivity].
  apply ms_last. apply (m_assign (common W32) demo_id demo_num (id_ "a") _ [nm "a"] (it (TAssign OpAssign)) None _ [nu "1"]); [atom|constructor|cbn; tauto|atom].
Qed.
