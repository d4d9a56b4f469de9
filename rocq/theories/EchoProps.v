(** C90: what is printed at the prompt. *)
From Coq Require Import ZArith Bool List Ascii String Lia.
From Verif Require Import Base FloatModel PolyModel ValueModel MathModel MachModel ListModel StrModel MachSpec StrSpec BuiltModel BuiltSpec BuiltRuns.
From Verif Require Import BinModel VarSpec FrameModel CodeModel CompModel ExecModel LayoutSpec EvalSpec TameSpec TameProofs TameProofs2 EvalTame StepProofs SimProofs EvalProofs CodeProofs StrProps CodeProps EvalProps GramModel ProgModel ProgSpec ProgProofs PromptModel PromptSpec PromptProofs2.
Import ListNotations.
Local Open Scope Z_scope.
Open Scope eval_scope.
Notation length := List.length (only parsing).

(** ** C90 *)
(** A command that is an expression: it is evaluated, its value is printed (as
    repr does) with a line end unless it is None, and is the value of [_]
    afterwards; no other variable is changed.  Partial: if [_] is new, the pool
    must not be compacted to make room for it (below). *)
Theorem C90_expression_partial : forall K under i8, (forall f, -128 <= i8 f < 128) -> tame_builtins (cf_env K) (cf_builtins K) ->
  forall n line e defs s st1 p st' v,
  let t := value_of_line line e in let E := cf_env K in let w := e_width E in
  oks w t -> Forall (in_range w) (cstmt w i8 0 0 None None t) -> follows K i8 defs s -> good K (ss_st s) ->
  memory K (code_bytes K i8 (CStat t)) (ss_st s) = Val tt st1 -> ev K (nth_error defs) n e st1 = Val p st' ->
  is_null p = false -> wf_env E -> texts_ok (cf_texts K) -> wf E (s_m st') -> wf_strs E (m_heap (s_m st')) ->
  room E (nesting v + 2) (s_m st') -> tree (m_heap (s_m st')) p v -> wf_poly (m_heap (s_m st')) p -> at_hand E under st' ->
  exists N s' text, (forall fuel, (N <= fuel)%nat -> run_prompt K i8 under fuel (CStat t) s = Some (true, s')) /\
    text_of E (cf_texts K) 114 v text /\ printed (text ++ [10]) (s_m st') (s_m (ss_st s')) /\ untouched E (s_m st') (s_m (ss_st s')) /\
    lookup under (s_globals (ss_st s')) = Some p /\
    forall j, j <> under -> lookup j (s_globals (ss_st s')) = lookup j (s_globals st').
Proof. exact prompt_value. Qed.
Print Assumptions C90_expression_partial.

(** Commands with an assignment or del, compound ones, and those whose last
    value is None print nothing and leave what the evaluator leaves. *)
Theorem C90_silent : forall K under i8, (forall f, -128 <= i8 f < 128) -> tame_builtins (cf_env K) (cf_builtins K) ->
  forall n t defs s x st', let w := e_width (cf_env K) in
  lined t = true -> oks w t -> Forall (in_range w) (cstmt w i8 0 0 None None t) -> follows K i8 defs s -> good K (ss_st s) ->
  (memory K (code_bytes K i8 (CStat t)) &; exs K (nth_error defs) n 0 false t) (ss_st s) = Val x st' ->
  silent t \/ is_null (s_a st') = true ->
  exists N s', (forall fuel, (N <= fuel)%nat -> run_prompt K i8 under fuel (CStat t) s = Some (true, s')) /\
    ss_st s' = set_a PNull (set_frames [] st').
Proof. exact prompt_silent. Qed.
Print Assumptions C90_silent.

(** After an error nothing is printed, and [_] keeps its value. *)
Theorem C90_error : forall K under i8, (forall f, -128 <= i8 f < 128) -> tame_builtins (cf_env K) (cf_builtins K) ->
  forall n t defs s st', let w := e_width (cf_env K) in
  lined t = true -> oks w t -> Forall (in_range w) (cstmt w i8 0 0 None None t) -> follows K i8 defs s -> good K (ss_st s) ->
  (memory K (code_bytes K i8 (CStat t)) &; exs K (nth_error defs) n 0 false t) (ss_st s) = Stop st' ->
  exists N s', (forall fuel, (N <= fuel)%nat -> run_prompt K i8 under fuel (CStat t) s = Some (false, s')) /\ left_by st' (ss_st s') /\ aborted st' = true.
Proof. exact prompt_error. Qed.
Print Assumptions C90_error.

(** False: if making room for [_] compacts the pool, a string, list or function
    is printed through a pointer to where it was before. *)
Theorem C90_stale_refuted : forall K under i8, (forall f, -128 <= i8 f < 128) -> tame_builtins (cf_env K) (cf_builtins K) ->
  forall n t defs s x st', let E := cf_env K in let w := e_width E in
  lined t = true -> oks w t -> Forall (in_range w) (cstmt w i8 0 0 None None t) -> follows K i8 defs s -> good K (ss_st s) ->
  (memory K (code_bytes K i8 (CStat t)) &; exs K (nth_error defs) n 0 false t) (ss_st s) = Val x st' ->
  ~ silent t -> is_ref (s_a st') = true -> room E 1 (s_m st') -> lookup under (s_globals st') = None -> e_move E (m_nalloc (s_m st')) = true ->
  exists N, forall fuel, (N <= fuel)%nat -> run_prompt K i8 under fuel (CStat t) s = None.
Proof. exact prompt_stale. Qed.
Print Assumptions C90_stale_refuted.

(** False for two expressions on a line: the first value is not printed. *)
Theorem C90_two_refuted : forall K under i8, (forall f, -128 <= i8 f < 128) -> tame_builtins (cf_env K) (cf_builtins K) ->
  forall n line a b defs s st1 q st2 p st' v,
  let t := values_of_line line a b in let E := cf_env K in let w := e_width E in
  oks w t -> Forall (in_range w) (cstmt w i8 0 0 None None t) -> follows K i8 defs s -> good K (ss_st s) ->
  memory K (code_bytes K i8 (CStat t)) (ss_st s) = Val tt st1 -> ev K (nth_error defs) (Datatypes.S n) a st1 = Val q st2 ->
  ev K (nth_error defs) n b st2 = Val p st' ->
  is_null p = false -> wf_env E -> texts_ok (cf_texts K) -> wf E (s_m st') -> wf_strs E (m_heap (s_m st')) ->
  room E (nesting v + 2) (s_m st') -> tree (m_heap (s_m st')) p v -> wf_poly (m_heap (s_m st')) p -> at_hand E under st' ->
  exists N s' text, (forall fuel, (N <= fuel)%nat -> run_prompt K i8 under fuel (CStat t) s = Some (true, s')) /\
    text_of E (cf_texts K) 114 v text /\ printed (text ++ [10]) (s_m st') (s_m (ss_st s')).
Proof. exact prompt_two. Qed.
Print Assumptions C90_two_refuted.

(** The prompt with a variable 300, the tuple (1, 'ab'); [_] is 301. *)
Definition tuple_st : st := {| s_m := text_demo; s_a := PNull; s_globals := [(300, PList 3)]; s_frames := [] |}.
Definition tuple_sess : sess := {| ss_st := tuple_st; ss_funs := []; ss_ids := repeat 0 10; ss_buf := no_code |}.
Definition show_x : stmt := value_of_line 1 (EId 300).
Definition tuple_value : value := VSeq KTuple [VNum (f_of_bits 1065353216); VStr [97; 98]].
Definition out_of (r : option (bool * sess)) : option (bool * list Z) := match r with Some (b, s) => Some (b, io_out (m_io (s_m (ss_st s)))) | None => None end.
Lemma demo_follows : follows demo_conf demo_i8 [] tuple_sess.
Proof. split; [constructor|reflexivity]. Qed.
Lemma tuple_good : good demo_conf tuple_st.
Proof. repeat split; cbn; lia. Qed.
Lemma nalloc_wf : forall n, wf still_env (set_nalloc n text_demo).
Proof. intros n. destruct (text_wf still_env eq_refl eq_refl eq_refl). split; assumption. Qed.
Example C90_applies : let st1 := set_m (set_nalloc 1 text_demo) tuple_st in let st' := set_a (PList 3) st1 in
  oks W32 show_x /\ Forall (in_range W32) (cstmt W32 demo_i8 0 0 None None show_x) /\ follows demo_conf demo_i8 [] tuple_sess /\ good demo_conf tuple_st /\
  memory demo_conf (code_bytes demo_conf demo_i8 (CStat show_x)) tuple_st = Val tt st1 /\ ev demo_conf (nth_error []) 3 (EId 300) st1 = Val (PList 3) st' /\
  wf still_env (s_m st') /\ wf_strs still_env (m_heap (s_m st')) /\ room still_env (nesting tuple_value + 2) (s_m st') /\ tree (m_heap (s_m st')) (PList 3) tuple_value /\
  at_hand still_env 301 st' /\
  out_of (run_prompt demo_conf demo_i8 301 20 (CStat show_x) tuple_sess) = Some (true, [40; 49; 44; 32; 39; 97; 98; 39; 41; 10]).
Proof.
  cbv zeta. split; [cbn; repeat split; discriminate|]. split; [ranges|]. split; [apply demo_follows|]. split; [apply tuple_good|].
  split; [vm_compute; reflexivity|]. split; [vm_compute; reflexivity|]. split; [apply nalloc_wf|]. split; [apply (text_wf_strs still_env eq_refl)|].
  split; [unfold room; cbn; lia|]. split; [do 2 eexists; split; [reflexivity|]; split; [reflexivity|]; split; [reflexivity|]; cbn; split; [reflexivity|]; split; [|exact Logic.I]; eexists; split; reflexivity|].
  split; [right; cbn; repeat split; unfold fits_vars; cbn; lia|]. vm_compute. reflexivity.
Qed.
(** An assignment; a name that is not there; the pool being compacted for [_];
    two expressions. *)
Definition set_y : stmt := SSeq (SLine 1) (SSeq (SAssign None (TId 302) (EId 300)) SSkip).
Definition moves : conf :=
  {| cf_env := {| e_width := W32; e_int := 32; e_pool := 4096; e_stack := 8; e_fail := fun _ => false; e_move := fun n => Nat.eqb n 1 |};
     cf_texts := demo_texts; cf_pow := no_pow; cf_builtins := []; cf_names := fun _ => None |}.
Definition ended {A} (r : res A) : option bool := match r with Val _ s => Some (is_null (s_a s)) | Stop _ => Some false | _ => None end.
Example C90_more_applies :
  (lined set_y = true /\ oks W32 set_y /\ Forall (in_range W32) (cstmt W32 demo_i8 0 0 None None set_y) /\ silent set_y /\
   ended ((memory demo_conf (code_bytes demo_conf demo_i8 (CStat set_y)) &; exs demo_conf (nth_error []) 6 0 false set_y) tuple_st) = Some false /\
   out_of (run_prompt demo_conf demo_i8 301 20 (CStat set_y) tuple_sess) = Some (true, [])) /\
  out_of (run_prompt demo_conf demo_i8 301 20 (CStat (value_of_line 1 (EId 303))) tuple_sess) = Some (false, []) /\
  (lined show_x = true /\ ~ silent show_x /\ e_move (cf_env moves) 1 = true /\ lookup 301 (s_globals tuple_st) = None /\
   match (memory moves (code_bytes moves demo_i8 (CStat show_x)) &; exs moves (nth_error []) 6 0 false show_x) tuple_st with
   | Val _ s => is_ref (s_a s) && Nat.eqb (m_nalloc (s_m s)) 1 | _ => false end = true /\
   run_prompt moves demo_i8 301 20 (CStat show_x) tuple_sess = None) /\
  out_of (run_prompt demo_conf demo_i8 301 20 (CStat (values_of_line 1 (k 5) (EId 300))) tuple_sess) = Some (true, [40; 49; 44; 32; 39; 97; 98; 39; 41; 10]).
Proof.
  split; [|split; [|split]].
  - split; [reflexivity|]. split; [cbn; repeat split; discriminate|]. split; [ranges|]. split; [apply si_then, si_first, si_assign|]. split; vm_compute; reflexivity.
  - vm_compute. reflexivity.
  - split; [reflexivity|]. split; [intros H; apply silent_shows in H; discriminate H|]. repeat (split; [vm_compute; reflexivity|]). vm_compute. reflexivity.
  - vm_compute. reflexivity.
Qed.
