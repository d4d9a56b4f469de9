(** C78 and C79: what a program in a file does. *)
From Coq Require Import ZArith Bool List Ascii String Lia.
From Verif Require Import Base FloatModel PolyModel ValueModel MathModel MachModel BinModel VarSpec FrameModel CodeModel LexModel LexSpec LexProofs LexProps CompModel ExecModel LayoutSpec EvalSpec TameSpec TameProofs TameProofs2 EvalTame GenProofs GenProofs2 StepProofs SimProofs EvalProofs CodeProofs StrProps CodeProps EvalProps.
From Verif Require Import GramModel GramSpec GramStmtSpec GramComplete GramSound GramTotal2 GramWhole GramPairs GramMore GramLast GramLex GramProps TextSpec TextProofs TextProofs2 TextProps ProgModel ProgSpec ProgProofs.
Import ListNotations.
Local Open Scope Z_scope.
Notation length := List.length (only parsing).

(** ** C78 *)
(** Compiling and running the commands of a program one by one does what the
    evaluator says: functions are defined as they are reached, each statement
    sees those defined before it, and the first error ends it all.  Partial:
    branches must not leave the range of an offset, the last statement of a
    function must not be a return that can be skipped (see C29), and at most ten
    parameters. *)
Theorem C78_program_partial : forall K i8, (forall f, -128 <= i8 f < 128) -> tame_builtins (cf_env K) (cf_builtins K) ->
  forall n cs defs s, Forall (fit K i8) cs -> follows K i8 defs s -> good K (ss_st s) ->
  match evs K (code_bytes K i8) (func_bytes K) n cs defs (ss_st s) with
  | Val defs' st' => exists fuel s', run_commands K i8 fuel cs s = Some (true, s') /\ ss_st s' = st' /\ follows K i8 defs' s' /\ good K st'
  | Stop st' => exists fuel s', run_commands K i8 fuel cs s = Some (false, s') /\ left_by st' (ss_st s') /\ aborted st' = true
  | _ => True
  end.
Proof. exact commands_run. Qed.
Print Assumptions C78_program_partial.

(** ** C79 *)
(** From the text of a file to what it does.  Partial: as C78. *)
Definition small (K : conf) (i8 : float -> Z) (c : command) : Prop :=
  let w := e_width (cf_env K) in
  match c with
  | CStat s => oks w s /\ Forall (in_range w) (cstmt w i8 0 0 None None s)
  | CDef id f => okfd w f /\ SimProofs.proper K i8 f /\ (length (fd_formals f) <= SNEK_MAX_FORMALS)%nat
  | CImport => True
  end.
Lemma formals_last D idof numof fs ts : reads_params D idof numof fs ts -> defaults_last (map (fun p => (fst p, has_default (snd p))) fs).
Proof.
  destruct 1 as [|fs ts H]; [exact Logic.I|]. induction H as [[i []] ts H|[i []] ts c T H|[i o] ts c fs ts' H C R IH Q]; try exact Logic.I; try constructor.
  cbn [map fst snd has_default]. destruct o; cbn [has_default]; [exact IH|]. cbn [defaults_last].
  assert (A : Forall defaulted fs) by (apply Q; discriminate). clear - A. induction A as [|[i [|e]] fs N A IH]; cbn [map fst snd has_default]; constructor; auto.
Qed.
Lemma small_fit K i8 D idof numof cs ts : reads_program D idof numof cs ts -> Forall (small K i8) cs -> Forall (fit K i8) cs.
Proof.
  induction 1 as [|c ts cs ts' H R IH|ts i cs ts' H N R IH|ts cs ts' L H R IH]; intros S; [constructor| | |].
  - inversion S as [|? ? S1 S2]; subst. constructor; [|auto]. destruct H as [s ts H|i n id o fs tf q c s ts _ _ _ P _ _ _].
    + destruct S1 as [O Rg]. destruct s; try (left; reflexivity); right; (split; [apply (stat_lined _ _ _ _ _ H); discriminate|split; [exact O|exact Rg]]).
    + destruct S1 as (O & Pr & Le). split; [exact O|]. split; [exact Pr|]. split; [exact Le|]. exact (formals_last _ _ _ _ _ P).
  - inversion S as [|? ? _ S1]; subst. inversion S1 as [|? ? _ S2]; subst. repeat constructor; auto.
  - inversion S; subst. repeat constructor; auto.
Qed.
Theorem C79_text_program_partial : forall C K i8, (forall f, -128 <= i8 f < 128) -> tame_builtins (cf_env K) (cf_builtins K) ->
  forall idof numof n m t ts en cs s,
  let w := e_width (cf_env K) in
  lc_width C = w -> lc_interactive C = false -> lc_abort C = false -> lc_alloc C = true -> is_text t ->
  tokens w AtLine 0 [] 0 m t (ts ++ [en]) -> i_tok en = TEnd ->
  reads_program (common w) idof numof cs ts -> Forall (small K i8) cs ->
  ss_funs s = [] -> length (ss_ids s) = SNEK_MAX_FORMALS -> good K (ss_st s) ->
  stream C [] (lex_start t m) (ts ++ [en]) /\
  p_start w idof numof (enough (ts ++ [en])) (ts ++ [en]) = Parsed cs [en] /\
  match evs K (code_bytes K i8) (func_bytes K) n cs [] (ss_st s) with
  | Val _ st' => exists fuel s', run_commands K i8 fuel cs s = Some (true, s') /\ ss_st s' = st'
  | Stop st' => exists fuel s', run_commands K i8 fuel cs s = Some (false, s') /\ left_by st' (ss_st s') /\ aborted st' = true
  | _ => True
  end.
Proof.
  intros C K i8 Hi Hb idof numof n m t ts en cs s w W H1 H2 H3 T Tk E R Sm F I G. split; [|split].
  - rewrite <- W in Tk. exact (text_stream C H1 H2 H3 t m _ T Tk).
  - exact (proj2 (C62_program_tree _ _ _ _ _ en [] R E)).
  - assert (Fo : follows K i8 [] s) by (split; [rewrite F; constructor|exact I]).
    pose proof (commands_run K i8 Hi Hb n cs [] s (small_fit _ _ _ _ _ _ _ R Sm) Fo G) as Q.
    destruct (evs K (code_bytes K i8) (func_bytes K) n cs [] (ss_st s)) as [d st'|st'| | |]; auto.
    destruct Q as (fuel & s' & Q1 & Q2 & _). eauto.
Qed.
Print Assumptions C79_text_program_partial.
(** def f(a, b=1): return a + b
    x = f(2)
    x = y
    x = 5
    The third line is an error: there is no y. *)
Definition prog_text : list Z := lines "def f(a, b=1): return a + b~x = f(2)~x = y~x = 5~".
Definition f_tokens : list item :=
  [at_ 1 (key "def"); at_ 1 (nm "f"); at_ 1 (it TOp); at_ 1 (nm "a"); at_ 1 (it TComma); at_ 1 (nm "b"); at_ 1 (it (TAssign OpAssign)); at_ 1 (nu "1"); at_ 1 (it TCp); at_ 1 (it TColon);
   at_ 1 (key "return"); at_ 1 (nm "a"); at_ 1 (it (TPlus OpPlus)); at_ 1 (nm "b"); at_ 2 (it TNl)].
Definition fx_tokens : list item := [at_ 2 (nm "x"); at_ 2 (it (TAssign OpAssign)); at_ 2 (nm "f"); at_ 2 (it TOp); at_ 2 (nu "2"); at_ 2 (it TCp); at_ 3 (it TNl)].
Definition xy_tokens : list item := [at_ 3 (nm "x"); at_ 3 (it (TAssign OpAssign)); at_ 3 (nm "y"); at_ 4 (it TNl)].
Definition x5_tokens : list item := [at_ 4 (nm "x"); at_ 4 (it (TAssign OpAssign)); at_ 4 (nu "5"); at_ 5 (it TNl)].
Definition ident (s : string) : Z := demo_id (chars s).
Definition f_def : fundef :=
  {| fd_formals := [(ident "a", ONone); (ident "b", OSome (ENum (demo_num (chars "1"))))];
     fd_body := SSeq (SLine 1) (SSeq (SReturn (OSome (EBin Nplus (id_ "a") (id_ "b")))) SSkip) |}.
Definition store_x (n : Z) (e : expr) : command := CStat (SSeq (SLine n) (SSeq (SAssign None (TId (ident "x")) e) SSkip)).
Definition fx_tree : command := store_x 2 (ECall (id_ "f") (APos (ENum (demo_num (chars "2"))) ANil)).
Definition prog_tree : list command := [CDef (ident "f") f_def; fx_tree; store_x 3 (id_ "y"); store_x 4 (ENum (demo_num (chars "5")))].
Definition prog_items : list item := f_tokens ++ fx_tokens ++ xy_tokens ++ x5_tokens ++ [].
Definition prog_sess : sess := {| ss_st := big_st; ss_funs := []; ss_ids := repeat 0 10; ss_buf := no_code |}.
Definition runs_to (n : nat) (cs : list command) : option (bool * bool * nat) :=
  match evs big_conf (code_bytes big_conf demo_i8) (func_bytes big_conf) n cs [] big_st with
  | Val defs s => Some (true, global_is (ident "x") 3 s, length defs)
  | Stop s => Some (false, global_is (ident "x") 3 s, 0%nat)
  | _ => None
  end.
Definition vm_to (fuel : nat) (cs : list command) : option (bool * bool * nat) :=
  match run_commands big_conf demo_i8 fuel cs prog_sess with
  | Some (b, s) => Some (b, global_is (ident "x") 3 (ss_st s), length (ss_funs s))
  | None => None
  end.
Lemma prog_small : Forall (small big_conf demo_i8) prog_tree.
Proof.
  constructor; [|constructor; [|constructor; [|constructor; [|constructor]]]].
  - split; [|split; [split; [ranges|left; reflexivity]|apply Nat.leb_le; reflexivity]].
    split; [repeat constructor; discriminate|]. split; [reflexivity|]. split; [cbn; repeat split; try discriminate|reflexivity].
  - split; [cbn; repeat split; discriminate|ranges].
  - split; [cbn; repeat split; discriminate|ranges].
  - split; [cbn; repeat split; discriminate|ranges].
Qed.
Lemma x_reads D n e ts en : reads D demo_id demo_num OrTest e ts ->
  reads_command D demo_id demo_num (store_x n e) (at_ n (nm "x") :: at_ n (it (TAssign OpAssign)) :: ts ++ [at_ en (it TNl)]).
Proof.
  intro H. apply c_stat, b_line. apply (ln D demo_id demo_num (at_ n (nm "x")) (at_ n (it (TAssign OpAssign)) :: ts)); [|reflexivity].
  apply ms_last. apply (m_assign D demo_id demo_num (id_ "x") _ [at_ n (nm "x")] (at_ n (it (TAssign OpAssign))) None _ ts); [atom|constructor|cbn; tauto|exact H].
Qed.
Lemma prog_reads : forall D, reads_program D demo_id demo_num prog_tree prog_items.
Proof.
  intro D. apply pg_command; [|apply pg_command; [|apply pg_command; [|apply pg_command; [|constructor]]]].
  - apply (c_def D demo_id demo_num (at_ 1 (key "def")) (at_ 1 (nm "f")) (chars "f") (at_ 1 (it TOp)) _
      [at_ 1 (nm "a"); at_ 1 (it TComma); at_ 1 (nm "b"); at_ 1 (it (TAssign OpAssign)); at_ 1 (nu "1")]); try reflexivity.
    + apply pm_some. apply (fs_more D demo_id demo_num (ident "a", ONone) [at_ 1 (nm "a")] (at_ 1 (it TComma)) [_] [at_ 1 (nm "b"); at_ 1 (it (TAssign OpAssign)); at_ 1 (nu "1")]).
      * now apply (fm_name D demo_id demo_num (at_ 1 (nm "a"))).
      * reflexivity.
      * apply fs_last. apply (fm_default D demo_id demo_num (at_ 1 (nm "b")) (chars "b")); [reflexivity| |atom].
        destruct (d_lax D); [exists None; cbn; tauto|reflexivity].
      * intro H. now elim H.
    + apply u_line. apply (ln D demo_id demo_num (at_ 1 (key "return")) [at_ 1 (nm "a"); at_ 1 (it (TPlus OpPlus)); at_ 1 (nm "b")]); [|reflexivity].
      apply ms_last. apply m_return; [reflexivity|]. apply o_some. repeat (lazymatch goal with |- reads _ _ _ (Bin AExpr) _ _ => fail | _ => up end).
      apply (r_bin D _ _ AExpr (Bin MExpr) _ [at_ 1 (nm "a")] _ Nplus _ [at_ 1 (nm "b")]); [atom|cbn; tauto|reflexivity|atom].
  - apply (x_reads D 2 _ [at_ 2 (nm "f"); at_ 2 (it TOp); at_ 2 (nu "2"); at_ 2 (it TCp)] 3).
    repeat (lazymatch goal with |- reads _ _ _ Primary _ _ => fail | _ => up end). apply (r_call D demo_id demo_num (id_ "f") [at_ 2 (nm "f")] (at_ 2 (it TOp)) _ [at_ 2 (nu "2")] (at_ 2 (it TCp))); try reflexivity; [atom| |].
    + eapply q_some. rewrite <- (app_nil_r [at_ 2 (nu "2")]). apply a_last; [atom|constructor].
    + unfold call_limit. destruct (d_limit D) as [z|]; [|exact Logic.I]. split; [cbn; lia|destruct z; reflexivity].
  - apply (x_reads D 3 _ [at_ 3 (nm "y")] 4). atom.
  - apply (x_reads D 4 _ [at_ 4 (nu "5")] 5). atom.
Qed.
Lemma prog_tokens : tokens W32 AtLine 0 [] 0 1 prog_text (prog_items ++ [at_ 5 (it TEnd)]).
Proof.
  tidy. eapply (tk_same _ _ _ _ 0); [repeat split; discriminate|reflexivity|lia|].
  word (chars "def") 1%nat. word (chars "f") 0%nat. op (chars "(") 0%nat TOp. word (chars "a") 0%nat. op (chars ",") 1%nat TComma.
  word (chars "b") 0%nat. op (chars "=") 0%nat (TAssign OpAssign). one (chars "1") 0%nat. op (chars ")") 0%nat TCp. op (chars ":") 1%nat TColon.
  word (chars "return") 1%nat. word (chars "a") 1%nat. op (chars "+") 1%nat (TPlus OpPlus). word (chars "b") 0%nat. nl.
  eapply (tk_same _ _ _ _ 0); [repeat split; discriminate|reflexivity|lia|].
  word (chars "x") 1%nat. op (chars "=") 1%nat (TAssign OpAssign). word (chars "f") 0%nat. op (chars "(") 0%nat TOp. one (chars "2") 0%nat. op (chars ")") 0%nat TCp. nl.
  eapply (tk_same _ _ _ _ 0); [repeat split; discriminate|reflexivity|lia|].
  word (chars "x") 1%nat. op (chars "=") 1%nat (TAssign OpAssign). word (chars "y") 0%nat. nl.
  eapply (tk_same _ _ _ _ 0); [repeat split; discriminate|reflexivity|lia|].
  word (chars "x") 1%nat. op (chars "=") 1%nat (TAssign OpAssign). one (chars "5") 0%nat. nl.
  apply (tk_last _ _ _ _ 0); [lia|]. apply tk_closed. tidy. apply tk_end.
Qed.
Example C78_applies : Forall (fit big_conf demo_i8) prog_tree /\ follows big_conf demo_i8 [] prog_sess /\ good big_conf big_st /\
  tame_builtins (cf_env big_conf) (cf_builtins big_conf) /\
  runs_to 30 (firstn 2 prog_tree) = Some (true, true, 1%nat) /\ runs_to 30 prog_tree = Some (false, true, 0%nat) /\
  vm_to 100 (firstn 2 prog_tree) = Some (true, true, 1%nat) /\ vm_to 100 prog_tree = Some (false, true, 1%nat).
Proof.
  split; [exact (small_fit _ _ _ _ _ _ _ (prog_reads python) prog_small)|]. split; [split; [constructor|reflexivity]|]. split; [repeat split; cbn; lia|].
  split; [intros ? ? ? ? ? ? Q; destruct Q|]. repeat split; vm_compute; reflexivity.
Qed.
Example C79_applies : is_text prog_text /\ tokens W32 AtLine 0 [] 0 1 prog_text (prog_items ++ [at_ 5 (it TEnd)]) /\
  reads_program (common W32) demo_id demo_num prog_tree prog_items /\ Forall (small big_conf demo_i8) prog_tree.
Proof.
  split; [vm_compute; repeat (constructor; [split; reflexivity|]); constructor|]. split; [apply prog_tokens|]. split; [apply prog_reads|apply prog_small].
Qed.
