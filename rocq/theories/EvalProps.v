(** C25 to C30 and C54: what compiled programs do. *)
From Coq Require Import ZArith Bool List Lia.
From Verif Require Import Base FloatModel PolyModel ValueModel MathModel MachModel ListModel StrModel BinModel FrameModel CodeModel CompModel ExecModel LayoutSpec LayoutProofs LayoutEqs GenProofs GenProofs2 EvalSpec EvalMono TameSpec TameProofs TameProofs2 EvalTame StepProofs SimProofs EvalProofs EvalProofs2 FrameCount CodeProofs ListProps StrProps CodeProps.
From Verif Require VarSpec.
Import ListNotations.
Local Open Scope Z_scope.
Open Scope eval_scope.

Definition nofun : loc -> option (func fundef) := fun _ => None.
Definition nocode : loc -> option (func (list Z)) := fun _ => None.
Definition in_rangeb (w : width) (i : instr) : bool :=
  match i_arg i with
  | ExecModel.ANone | ANum _ => true
  | AByte b => (0 <=? b) && (b <? 256)
  | AOff v => (0 <=? v) && (v <? 2 ^ wbits w)
  | AStep v d id => (0 <=? v) && (v <? 2 ^ wbits w) && ((0 <=? d) && (d <? 256)) && ((0 <=? id) && (id <? 2 ^ wbits w))
  end.
Lemma in_rangeb_ok w l : forallb (in_rangeb w) l = true -> Forall (in_range w) l.
Proof.
  intro H. rewrite forallb_forall in H. apply Forall_forall. intros i Hi. specialize (H i Hi). unfold in_rangeb in H. unfold in_range.
  destruct (i_arg i); auto; rewrite ?andb_true_iff, ?Z.leb_le, ?Z.ltb_lt in H; tauto.
Qed.
Ltac ranges := apply in_rangeb_ok; vm_compute; reflexivity.

(** ** C25 *)
(** Running the code of an expression, at any place, from any state and with
    any pending calls, leaves what the evaluator gives: the value in the
    accumulator (and pushed if asked for), the same state otherwise, the
    operand stack as it was; and an error exactly where the evaluator stops. *)
Theorem C25_expression_partial : forall K i8 FT F, program K i8 FT F -> forall n e p code b st links,
  hosts (e_width (cf_env K)) code b (comp (e_width (cf_env K)) i8 p b e) -> good K st ->
  match ev K FT n e st with
  | Val v st' => good K st' /\ s_a st' = v /\ quietly st st' /\
      forall st'', pushes K p st' st'' ->
        reach K F (V st code b links) (V st'' code (b + size (e_width (cf_env K)) (comp (e_width (cf_env K)) i8 p b e)) links)
  | Stop st' => failed st st' /\ stops K F (V st code b links) st'
  | _ => True
  end.
Proof. exact expr_runs. Qed.
Print Assumptions C25_expression_partial.
(** (10 - 4) - 3 and 10 - (4 - 3) *)
Definition sub (x y : expr) : expr := EBin Nminus x y.
Definition shown (z : Z) (r : res poly) : bool :=
  match r with Val (PNum f) s => feq f (f_of_Z z) && negb (aborted s) | _ => false end.
Example C25_expression_applies :
  hosts W32 (encs W32 (comp W32 demo_i8 false 0 (sub (sub (k 10) (k 4)) (k 3)))) 0 (comp W32 demo_i8 false 0 (sub (sub (k 10) (k 4)) (k 3))) /\
  shown 3 (ev demo_conf nofun 9 (sub (sub (k 10) (k 4)) (k 3)) demo_st) = true /\
  shown 9 (ev demo_conf nofun 9 (sub (k 10) (sub (k 4) (k 3))) demo_st) = true.
Proof.
  split; [|split; vm_compute; reflexivity]. apply (hosts_all demo_conf). ranges.
Qed.

(** ** C26 *)
(** The second operand is evaluated, from the state the first one leaves, only
    if the first decides nothing; otherwise the result is the first operand. *)
Theorem C26_short_circuit : forall K i8 FT F, program K i8 FT F -> forall n k x y p code b st links v st1 (is_and t : bool) m,
  hosts (e_width (cf_env K)) code b (comp (e_width (cf_env K)) i8 p b (if is_and then EAnd x y else EOr x y)) -> good K st ->
  ev K FT n x st = Val v st1 -> truth v (s_m st1) = Some (t, m) ->
  let b' := (b + size (e_width (cf_env K)) (comp (e_width (cf_env K)) i8 p b (if is_and then EAnd x y else EOr x y)))%nat in
  if Bool.eqb t is_and then
    forall r st2, ev K FT k y st1 = Val r st2 ->
      s_a st2 = r /\ forall st3, pushes K p st2 st3 -> reach K F (V st code b links) (V st3 code b' links)
  else s_a st1 = v /\ forall st3, pushes K p st1 st3 -> reach K F (V st code b links) (V st3 code b' links).
Proof. exact short_circuit. Qed.
Print Assumptions C26_short_circuit.
(** 0 and x, x undefined: no error *)
Example C26_short_circuit_applies :
  hosts W32 (encs W32 (comp W32 demo_i8 false 0 (EAnd (k 0) (EId 9)))) 0 (comp W32 demo_i8 false 0 (EAnd (k 0) (EId 9))) /\
  shown 0 (ev demo_conf nofun 9 (k 0) demo_st) = true /\
  val_of (ev demo_conf nofun 9 (k 0) demo_st) = Some false /\
  match ev demo_conf nofun 9 (EId 9) demo_st with Stop s => aborted s | _ => false end = true.
Proof. split; [apply (hosts_all demo_conf); ranges|]. repeat split; vm_compute; reflexivity. Qed.

(** ** C27 *)
(** A chain does what the evaluator says ([C25_expression_partial] covers
    [ECmp]); and when the evaluator gives a chain a value, and the operands in
    the middle are numbers (so evaluating them twice changes nothing), that is
    the value of the conjunction of its links. *)
Theorem C27_chain_partial : forall K FT l, middle l -> forall n vx s r s', ev_links K FT n vx l s = Val r s' ->
  forall m ex s00 s0, ev K FT m ex s00 = Val vx s0 -> wait K vx s0 = Val tt s -> exists k, ev K FT k (conj_of ex l) s00 = Val r s'.
Proof. exact chain_conj. Qed.
Print Assumptions C27_chain_partial.
(** 3 > 2 > 1 and 3 > 2 > 5 *)
Definition gt_chain (a b c : Z) : expr := ECmp (k a) (LMore (BCmp OGt) (k b) (LLast (BCmp OGt) (k c))).
Example C27_chain_applies :
  middle (LMore (BCmp OGt) (k 2) (LLast (BCmp OGt) (k 1))) /\
  val_of (ev demo_conf nofun 9 (gt_chain 3 2 1) demo_st) = Some true /\
  val_of (ev demo_conf nofun 9 (gt_chain 3 2 5) demo_st) = Some false /\
  val_of (ev demo_conf nofun 9 (conj_of (k 3) (LMore (BCmp OGt) (k 2) (LLast (BCmp OGt) (k 1)))) demo_st) = Some true.
Proof.
  split; [cbn; split; [eexists; reflexivity|split; [eexists; reflexivity|exact Logic.I]]|].
  split; [vm_compute; reflexivity|]. split; vm_compute; reflexivity.
Qed.

(** ** C28 *)
(** The code of a command is accepted by the compiler, and running it does
    what the evaluator says: same final state, operand stack as before; if the
    evaluator stops with an error, so does the machine, with one error. *)
Theorem C28_command_partial : forall K i8 FT F, program K i8 FT F -> forall n s c st,
  lined s = true -> oks (e_width (cf_env K)) s -> Forall (in_range (e_width (cf_env K))) (cstmt (e_width (cf_env K)) i8 0 0 None None s) -> good K st ->
  exists code, gen_command (e_width (cf_env K)) i8 s c = Ok code /\
  match exs K FT n 0 false s st with
  | Val x st' => quietly st st' /\ x <> Break /\ x <> Continue /\ (forall v, x = Return v -> s_a st' = v) /\
      exists fuel, exec K F fuel code st = Some (s_a st', after st st')
  | Stop st' => failed st st' /\ exists fuel, exec K F fuel code st = Some (s_a st', after st st')
  | _ => True
  end.
Proof. exact command_runs. Qed.
Print Assumptions C28_command_partial.
(** x = 1
    while x < 9:
      x = x + x
      if x == 4: continue
      if x > 5: break
    else: x = 100 *)
Definition x_ : Z := 300.
Definition prog : stmt :=
  SSeq (SSeq (SLine 1) (SAssign None (TId x_) (k 1)))
   (SSeq (SLine 2) (SWhile (ECmp (EId x_) (LLast (BCmp OLt) (k 9)))
     (SSeq (SSeq (SLine 3) (SAssign None (TId x_) (EBin Nplus (EId x_) (EId x_))))
       (SSeq (SSeq (SLine 4) (SIf (ECmp (EId x_) (LLast (BCmp OEq) (k 4))) (SSeq (SLine 4) SContinue) RNone))
         (SSeq (SLine 5) (SIf (ECmp (EId x_) (LLast (BCmp OGt) (k 5))) (SSeq (SLine 5) SBreak) RNone))))
     (SSeq (SLine 6) (SAssign None (TId x_) (k 100))))).
Definition global_is (x z : Z) (s : st) : bool :=
  match VarSpec.lookup x (s_globals s) with Some (PNum f) => feq f (f_of_Z z) | _ => false end.
Example C28_command_applies :
  lined prog = true /\ oks W32 prog /\ Forall (in_range W32) (cstmt W32 demo_i8 0 0 None None prog) /\
  match exs demo_conf nofun 40 0 false prog demo_st with Val Normal s => global_is x_ 8 s | _ => false end = true /\
  match gen_command W32 demo_i8 prog no_code with
  | Ok code => match exec demo_conf nocode 200 code demo_st with Some (_, s) => global_is x_ 8 s | None => false end
  | _ => false
  end = true.
Proof.
  split; [reflexivity|]. split; [cbn; repeat split; auto; try discriminate|]. split; [ranges|]. split; vm_compute; reflexivity.
Qed.
(** A dict display with three entries hides the break after it from the loop:
    while 1: {1: 1, 1: 1, 1: 1}; break *)
Definition dict_brk : stmt :=
  SSeq (SLine 1) (SWhile (k 1)
    (SSeq (SSeq (SLine 2) (SExpr (EDict (DCons (k 1) (k 1) (DCons (k 1) (k 1) (DCons (k 1) (k 1) DNil)))))) SBreak) SSkip).
Definition big_conf : conf :=
  {| cf_env := {| e_width := W32; e_int := 32; e_pool := 4096; e_stack := 20; e_fail := fun _ => false; e_move := fun _ => false |};
     cf_texts := demo_texts; cf_pow := no_pow; cf_builtins := []; cf_names := fun _ => None |}.
Definition big_st : st := set_m (set_stack (repeat PZero 20) 0 text_demo) demo_st.
Theorem C28_dict_refuted :
  match exs big_conf nofun 40 0 false dict_brk big_st with Val Normal s => negb (aborted s) | _ => false end = true /\
  match gen_command W32 demo_i8 dict_brk no_code with
  | Ok code => match exec big_conf nocode 200 code big_st with Some (_, s) => m_log (s_m s) | None => [] end
  | _ => []
  end = [ENotInLoop].
Proof. split; vm_compute; reflexivity. Qed.
Print Assumptions C28_dict_refuted.

(** ** C29 *)
Theorem C29_none_partial : forall K i8 FT F, program K i8 FT F -> forall n fd c st st1 x st2,
  okfd (e_width (cf_env K)) fd -> proper K i8 fd -> good K st ->
  defaults K FT n (fd_formals fd) st = Val tt st1 -> exs K FT n 0 false (fd_body fd) st1 = Val x st2 ->
  exists code, gen_def (e_width (cf_env K)) i8 fd c = Ok code /\
    returns_value K F code st (match x with Return v => v | _ => PNull end).
Proof. exact function_runs. Qed.
Print Assumptions C29_none_partial.
(** def f(y = 2): x = y *)
Definition setter : fundef :=
  {| fd_formals := [(301, OSome (k 2))]; fd_body := SSeq (SLine 1) (SAssign None (TId x_) (EId 301)) |}.
Example C29_none_applies :
  okfd W32 setter /\ proper demo_conf demo_i8 setter /\
  (let st := set_frames [[(301, PNum (f_of_Z 5))]] demo_st in
   match defaults demo_conf nofun 9 (fd_formals setter) st with
   | Val tt st1 => match exs demo_conf nofun 9 0 false (fd_body setter) st1 with Val Normal _ => true | _ => false end
   | _ => false
   end = true).
Proof.
  split; [|split].
  - split; [constructor; [exact Logic.I|constructor]|]. split; [reflexivity|]. split; [cbn; repeat split; try discriminate; auto|reflexivity].
  - split; [ranges|right; vm_compute; reflexivity].
  - vm_compute. reflexivity.
Qed.
(** A function whose last statement is [if e: return r] gives, when e is
    false, not None but the value of e. *)
Theorem C29_trailing_return_refuted : forall K i8 FT F, program K i8 FT F -> forall n ln e r c st v st' m,
  ok (e_width (cf_env K)) e -> ok (e_width (cf_env K)) r -> Forall (in_range (e_width (cf_env K))) (cbody (e_width (cf_env K)) i8 (ends_if ln e r)) -> good K st ->
  ev K FT n e st = Val v st' -> truth v (s_m st') = Some (false, m) ->
  exs K FT (Sn (Sn n)) 0 false (fd_body (ends_if ln e r)) st = Val Normal st' /\
  exists code, gen_def (e_width (cf_env K)) i8 (ends_if ln e r) c = Ok code /\ returns_value K F code st v.
Proof. exact ends_if_value. Qed.
Print Assumptions C29_trailing_return_refuted.
Example C29_trailing_return_refuted_applies :
  ok W32 (k 0) /\ ok W32 (k 7) /\ Forall (in_range W32) (cbody W32 demo_i8 (ends_if 1 (k 0) (k 7))) /\
  shown 0 (ev demo_conf nofun 1 (k 0) demo_st) = true /\ val_of (ev demo_conf nofun 1 (k 0) demo_st) = Some false.
Proof. split; [exact Logic.I|]. split; [exact Logic.I|]. split; [ranges|]. split; vm_compute; reflexivity. Qed.

(** ** C30 *)
(** Any code, compiled or not, from any state: afterwards the depth of the
    operand stack is the earlier one and no frame is left. *)
Theorem C30_restored : forall K F fuel code s v s', exec K F fuel code s = Some (v, s') ->
  m_sp (s_m s') = m_sp (s_m s) /\ s_frames s' = [].
Proof. exact exec_restores. Qed.
Print Assumptions C30_restored.
(** When code runs to its end, calls and frames have been balanced: this does
    not come from the cleaning up. *)
Theorem C30_balanced : forall K F k fuel v s, run K F fuel v = Some (Done s) -> balanced k v -> nframes s = k.
Proof. exact run_balanced. Qed.
Print Assumptions C30_balanced.
(** x = 1 + y, y undefined: an error with a value on the stack *)
Definition err : stmt := SSeq (SLine 1) (SAssign None (TId x_) (EBin Nplus (k 1) (EId 301))).
Example C30_applies :
  match gen_command W32 demo_i8 err no_code with
  | Ok code =>
      match exec demo_conf nocode 50 code demo_st with
      | Some (_, s) => (length (m_log (s_m s)), m_sp (s_m s), aborted s, s_frames s)
      | None => (9%nat, 9%nat, false, [])
      end
  | _ => (9%nat, 9%nat, false, [])
  end = (1%nat, 0%nat, true, []).
Proof. vm_compute. reflexivity. Qed.

(** ** C54 *)
(** Running any code adds at most one message, and none if there was an error
    since the last reset. *)
Theorem C54_one_error : forall K F, tame_builtins (cf_env K) (cf_builtins K) -> forall fuel code s v s',
  exec K F fuel code s = Some (v, s') -> at_most_one (s_m s) (s_m s').
Proof. exact exec_errors. Qed.
Print Assumptions C54_one_error.
(** so do any number of runs without a reset *)
Fixpoint session (K : conf) (F : loc -> option (func (list Z))) (cs : list (nat * list Z)) (s : st) : option st :=
  match cs with
  | [] => Some s
  | (fuel, code) :: r => match exec K F fuel code s with Some (_, s) => session K F r s | None => None end
  end.
Theorem C54_session : forall K F, tame_builtins (cf_env K) (cf_builtins K) -> forall cs s s',
  session K F cs s = Some s' -> at_most_one (s_m s) (s_m s').
Proof.
  intros K F Hb cs. induction cs as [|[fuel code] r IH]; intros s s' H; cbn [session] in H.
  - injection H as <-. unfold at_most_one. destruct (m_abort (s_m s)); auto.
  - destruct (exec K F fuel code s) as [[v s1]|] eqn:e; [|discriminate]. eapply amo_trans; [exact (C54_one_error K F Hb _ _ _ _ _ e)|exact (IH _ _ H)].
Qed.
Print Assumptions C54_session.
(** the erroneous command twice: one message *)
Example C54_applies :
  match gen_command W32 demo_i8 err no_code with
  | Ok code => match session demo_conf nocode [(50%nat, code); (50%nat, code)] demo_st with Some s => length (m_log (s_m s)) | None => 9%nat end
  | _ => 9%nat
  end = 1%nat.
Proof. vm_compute. reflexivity. Qed.
