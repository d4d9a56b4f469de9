(** C102: an interrupt is obeyed. *)
From Coq Require Import ZArith Bool List String Lia.
From Verif Require Import Base FloatModel PolyModel ValueModel MathModel MachModel ListModel StrModel BinModel FrameModel CodeModel CompModel ExecModel TameSpec TameProofs TameProofs2 ListProps StrProps CodeProps EvalProps BuiltModel BuiltSpec BuiltProps StopSpec StopProofs.
Import ListNotations.
Local Open Scope Z_scope.
Notation length := List.length (only parsing).

(** However the program goes on, an endless loop included: once snek_abort is
    set, functions that are at the end of their code return, at most one
    instruction is carried out, and the run ends; no number of further rounds
    makes a difference, and nothing is reported. *)
Theorem C102_stops : forall K F, tame_builtins (cf_env K) (cf_builtins K) -> forall v,
  (forall fuel, (length (v_links v) < fuel)%nat -> run K F fuel (interrupted v) = run K F (1 + length (v_links v)) (interrupted v)) /\
  forall fuel r, run K F fuel (interrupted v) = Some r ->
    exists n v1, (n <= length (v_links v))%nat /\ unwinds K F n (interrupted v) v1 /\ step K F v1 = Some r /\
      exists s, (r = Done s \/ r = Aborted s) /\ aborted s = true /\ m_log (s_m s) = m_log (s_m (v_s v)).
Proof. intros K F Hb v. exact (stop_run K F Hb (interrupted v) eq_refl). Qed.
Print Assumptions C102_stops.
(** Where an instruction is next, that is at most this one instruction. *)
Theorem C102_instruction : forall K F, tame_builtins (cf_env K) (cf_builtins K) -> forall v r,
  (v_ip v < length (v_code v))%nat -> step K F (interrupted v) = Some r -> exists s, r = Aborted s.
Proof.
  intros K F Hb v r L H. destruct r as [v1|s|s]; [|exfalso|eauto].
  - exfalso. destruct (stop_next K F Hb _ _ H eq_refl) as [Q _]. cbn in Q. lia.
  - unfold step in H. cbn [interrupted v_ip v_code v_s] in H. rewrite (proj2 (Nat.ltb_lt _ _) L) in H.
    repeat match type of H with
    | (match ?x with _ => _ end) = _ => destruct x; try discriminate
    | Some _ = Some _ => discriminate
    end.
Qed.
Print Assumptions C102_instruction.
(** while 1: pass *)
Definition forever : stmt := SSeq (SLine 7) (SWhile (k 1) (SLine 8) SSkip).
Definition forever_code : list Z := match gen_command W32 demo_i8 forever no_code with Ok c => c | _ => [] end.
Definition forever_vm (ip : nat) : vm := {| v_s := demo_st; v_code := forever_code; v_ip := ip; v_links := [] |}.
Example C102_applies : tame_builtins (cf_env demo_conf) (cf_builtins demo_conf) /\ length forever_code = 22%nat /\
  run demo_conf nocode 50 (forever_vm 0) = None /\
  match run demo_conf nocode 1 (interrupted (forever_vm 5)) with Some (Aborted s) => length (m_log (s_m s)) | _ => 9%nat end = 0%nat.
Proof. split; [intros key fn np nn actuals n []|]. vm_compute. repeat split. Qed.

(** An error in an instruction ends the run at once, unless the error is that
    the stack is full; then C102_stops bounds what is still done. *)
Theorem C102_error_partial : forall K F v v1, step K F v = Some (Next v1) -> aborted (v_s v) = false -> aborted (v_s v1) = true ->
  m_sp (s_m (v_s v1)) = e_stack (cf_env K) /\ exists log, m_log (s_m (v_s v1)) = EStack :: log.
Proof. exact error_next. Qed.
Print Assumptions C102_error_partial.
(** When the stack has no room for a value, the error is reported but the next instruction is still carried out.  If that is a call
    with one argument, the function called is the one two places below the top
    of the stack, with what is at the top. *)
Theorem C102_overflow_refuted : forall K F v b c u x k fn m' r,
  let E := cf_env K in
  aborted (v_s v) = false -> m_sp (s_m (v_s v)) = e_stack E -> length (m_stack (s_m (v_s v))) = e_stack E ->
  nth_error (v_code v) (v_ip v) = Some (44 + 128) -> get_at 1 (1 + v_ip v) (v_code v) = Some b ->
  nth_error (v_code v) (v_ip v + 2) = Some c -> byte_op c = 53 -> get_at (obytes (e_width E)) (v_ip v + 3) (v_code v) = Some 1 ->
  (2 <= e_stack E)%nat ->
  nth_error (m_stack (s_m (v_s v))) (e_stack E - 2) = Some (PBuiltin u) -> nth_error (m_stack (s_m (v_s v))) (e_stack E - 1) = Some x ->
  builtin E (cf_builtins K) u = Some (k, fn) -> k = 1 \/ k < 0 ->
  fn 1 0 [x] (set_err true (EStack :: m_log (s_m (v_s v))) (s_m (v_s v))) = Some (r, m') -> m_abort m' = true -> m_sp m' = e_stack E ->
  exists v1 s, step K F v = Some (Next v1) /\ aborted (v_s v1) = true /\ m_log (s_m (v_s v1)) = EStack :: m_log (s_m (v_s v)) /\
    m_io (s_m (v_s v1)) = m_io (s_m (v_s v)) /\
    step K F v1 = Some (Aborted s) /\ m_io (s_m s) = m_io m' /\ m_heap (s_m s) = m_heap m'.
Proof. exact overflow_goes_on. Qed.
Print Assumptions C102_overflow_refuted.
(** print(print(5)) with room for two: the outer print is called with the inner
    one and writes its text *)
Definition nested_conf : conf :=
  {| cf_env := still_env; cf_texts := demo_texts; cf_pow := no_pow; cf_builtins := two_builtins; cf_names := fun _ => None |}.
Definition brimful : mach := set_stack (repeat PNull (e_stack still_env - 2) ++ [PBuiltin 7; PBuiltin 7]) (e_stack still_env) text_demo.
Definition brimful_vm : vm :=
  {| v_s := {| s_m := brimful; s_a := PNull; s_globals := []; s_frames := [] |}; v_code := [172; 5; 53; 1; 0; 0; 0]; v_ip := 0; v_links := [] |}.
Definition brimful_print := applied demo_port "print" [PBuiltin 7] [] (set_err true (EStack :: m_log brimful) brimful).
Example C102_overflow_applies :
  (exists n fn, builtin still_env two_builtins 7 = Some (n, fn) /\ find "print" (functions_of demo_port) = Some (n, fn) /\ n < 0) /\
  match brimful_print with Some (_, m') => (m_abort m', m_sp m') | None => (false, 0%nat) end = (true, 8%nat) /\
  match run nested_conf nocode 3 brimful_vm with
  | Some (Aborted s) => (m_log (s_m s), io_out (m_io (s_m s)))
  | _ => ([], [])
  end = ([EStack], [98; 10]) /\
  match step nested_conf nocode brimful_vm with Some (Next v1) => (aborted (v_s brimful_vm), aborted (v_s v1)) | _ => (true, true) end = (false, true).
Proof. split; [|vm_compute; repeat split; reflexivity]. do 2 eexists. split; [reflexivity|]. split; [reflexivity|lia]. Qed.
