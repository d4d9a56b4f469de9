(** C21, C52 and C53: calls and definitions. *)
From Coq Require Import ZArith Bool List Lia.
From Verif Require Import Base FloatModel PolyModel ValueModel MachModel ListModel MachSpec FrameModel VarSpec VarProofs FuncProofs ListProps ScopeProps.
Import ListNotations.
Local Open Scope Z_scope.
Open Scope st_scope.

(** C21, the part that holds.  A call with at least as many arguments as there
    are required formals: if every argument has a formal and no formal two
    arguments, the body starts in a frame with exactly these bindings, the
    arguments are off the stack, and the caller's variables are untouched;
    otherwise a complaint that names a real cause is reported and nothing else
    has changed.  Or there was no memory.  Missing for C21: that the required
    formals are among those bound (refuted below). *)
Theorem C21_binding_partial : forall E builtins C (F : loc -> option (func C)) s o below l ps ns f,
  calling s o below (PFunc l) ps ns -> F l = Some f -> func_ok f -> fits_vars E (length ps + length ns) ->
  fn_nrequired f <= Z.of_nat (length ps + length ns) ->
  sruns (call_op E builtins F o) s (fun r s' =>
    (r = None /\ reported EMemory (s_m s) (s_m s') /\ call_over s s' below) \/
    (arguments_ok (fn_formals f) ps ns /\ r = Some f /\ quiet (s_m s) (s_m s') /\
     heap_kept (m_heap (s_m s)) (m_heap (s_m s')) /\ m_sp (s_m s') = length below /\ (exists rest, m_stack (s_m s') = below ++ rest) /\
     s_globals s' = s_globals s /\ s_frames s' = bindings (fn_formals f) ps ns :: s_frames s) \/
    (~ arguments_ok (fn_formals f) ps ns /\ r = None /\
     (exists e, reported e (s_m s) (s_m s') /\ blamed (fn_formals f) ps ns e) /\ call_over s s' below)).
Proof. exact call_func. Qed.
Print Assumptions C21_binding_partial.

(** def f(a, b = ..., c = ...) with names 50, 51, 52 *)
Definition f_abc : func unit := {| fn_nrequired := 1; fn_formals := [50; 51; 52]; fn_code := tt |}.
Definition funcs (l : loc) : option (func unit) := if Nat.eqb l 2 then Some f_abc else None.
Definition with_stack (xs : list poly) : st :=
  {| s_m := set_stack (xs ++ repeat PZero (8 - length xs)) (length xs) demo; s_a := PNull;
     s_globals := [(40, n1)]; s_frames := [[(41, n2)]] |}.
(** f(1, c = 3) *)
Definition call_demo : st := with_stack (n4 :: PFunc 2 :: actuals [n1] [(52, n3)]).
(** f(1, a = 3) *)
Definition call_twice : st := with_stack (n4 :: PFunc 2 :: actuals [n1] [(50, n3)]).
Lemma calling_of : forall o c ps ns, (length (n4 :: c :: actuals ps ns) <= 8)%nat ->
  o = Z.of_nat (length ps) + 256 * Z.of_nat (length ns) -> (length ps + length ns < 256)%nat ->
  Forall (fun v : var => 0 < fst v < 32768) ns ->
  calling (with_stack (n4 :: c :: actuals ps ns)) o [n4] c ps ns.
Proof. intros o c ps ns H Ho Hc Hn. split; [reflexivity | eexists; reflexivity | exact Ho | exact Hc | exact Hn]. Qed.
Example C21_binding_applies :
  calling call_demo 257 [n4] (PFunc 2) [n1] [(52, n3)] /\ funcs 2 = Some f_abc /\ func_ok f_abc /\ fits_vars demo_env 2 /\
  arguments_ok (fn_formals f_abc) [n1] [(52, n3)] /\
  match call_op demo_env [] funcs 257 call_demo with
  | Some (r, s') => r = Some f_abc /\ s_frames s' = [[(50, n1); (52, n3)]; [(41, n2)]] /\ m_sp (s_m s') = 1%nat
  | None => False end /\
  calling call_twice 257 [n4] (PFunc 2) [n1] [(50, n3)] /\ ~ arguments_ok (fn_formals f_abc) [n1] [(50, n3)] /\
  match call_op demo_env [] funcs 257 call_twice with
  | Some (r, s') => r = None /\ m_log (s_m s') = [EArg 50] /\ s_frames s' = [[(41, n2)]]
  | None => False end.
Proof.
  split; [apply calling_of; [cbn; lia | reflexivity | cbn; lia | repeat constructor]|].
  split; [reflexivity|]. split; [split; [cbn; lia | repeat constructor]|]. split; [vm_compute; reflexivity|].
  split; [split; [cbn; lia|]; split; [intros id [<-|[]]; cbn; auto | cbn; repeat constructor; cbn; lia]|].
  split; [vm_compute; repeat split; reflexivity|].
  split; [apply calling_of; [cbn; lia | reflexivity | cbn; lia | repeat constructor]|].
  split; [intros (_ & _ & N); cbn in N; inversion N as [|? ? K]; apply K; left; reflexivity|].
  vm_compute; repeat split; reflexivity.
Qed.

(** The code in front of the body then gives each unbound formal its default,
    and leaves the bound ones alone. *)
Theorem C21_defaults : forall E ds s b frs, s_frames s = b :: frs -> NoDup (map fst ds) ->
  fits_vars E (nvars s + length ds) -> (m_sp (s_m s) <= length (m_stack (s_m s)))%nat -> m_abort (s_m s) = false ->
  sruns (run_defaults E ds) s (fun _ s' => mstill (s_m s) (s_m s') /\
    (reported EMemory (s_m s) (s_m s') \/
     quiet (s_m s) (s_m s') /\ s_globals s' = s_globals s /\
     exists b', s_frames s' = b' :: frs /\
       forall i, lookup i b' = match lookup i b with Some v => Some v | None => lookup i ds end)).
Proof. exact run_defaults_runs. Qed.
Print Assumptions C21_defaults.
Example C21_defaults_applies :
  NoDup (map fst [(41, n3); (42, n4)]) /\ fits_vars demo_env (nvars call_demo + 2) /\
  match run_defaults demo_env [(41, n3); (42, n4)] call_demo with
  | Some (_, s') => s_frames s' = [[(41, n2); (42, n4)]] | None => False end.
Proof.
  split; [cbn; repeat constructor; cbn; lia|]. split; [vm_compute; reflexivity|].
  vm_compute. reflexivity.
Qed.

(** C21 is false for required formals.  No call is ever rejected for leaving one
    unbound: with enough arguments of any names the body runs without it (above;
    an instance here), and with fewer the check reads past the frame, which is
    undefined. *)
Theorem C21_too_few_refuted : forall E builtins C (F : loc -> option (func C)) s o below l ps ns f,
  calling s o below (PFunc l) ps ns -> F l = Some f -> func_ok f -> fits_vars E (length ps + length ns) ->
  Z.of_nat (length ps + length ns) < fn_nrequired f -> arguments_ok (fn_formals f) ps ns ->
  match call_op E builtins F o s with
  | None => True
  | Some (r, s') => r = None /\ reported EMemory (s_m s) (s_m s')
  end.
Proof. exact call_too_few. Qed.
Print Assumptions C21_too_few_refuted.
Example C21_too_few_applies :
  calling (with_stack (n4 :: PFunc 2 :: actuals [] [])) 0 [n4] (PFunc 2) [] [] /\
  arguments_ok (fn_formals f_abc) [] [] /\ call_op demo_env [] funcs 0 (with_stack (n4 :: PFunc 2 :: actuals [] [])) = None.
Proof.
  split; [apply calling_of; [cbn; lia | reflexivity | cbn; lia | constructor]|].
  split; [split; [cbn; lia|]; split; [contradiction | constructor]|]. vm_compute. reflexivity.
Qed.
(** f(b = 3): the body runs without a. *)
Theorem C21_required_refuted : fn_nrequired f_abc = 1 /\ hd_error (fn_formals f_abc) = Some 50 /\
  match call_op demo_env [] funcs 256 (with_stack (n4 :: PFunc 2 :: actuals [] [(51, n3)])) with
  | Some (r, s') => r = Some f_abc /\ lookup 50 (hd [] (s_frames s')) = None
  | None => False end.
Proof. vm_compute. repeat split; reflexivity. Qed.
Print Assumptions C21_required_refuted.

(** C52.  Calling a number, a string, a list, a tuple or a dictionary, with any
    arguments, is a type error, and nothing else changes. *)
Theorem C52_not_callable : forall E builtins C (F : loc -> option (func C)) s o below callee ps ns,
  calling s o below callee ps ns -> match callee with PNum _ | PStr _ | PList _ => True | _ => False end ->
  sruns (call_op E builtins F o) s (fun r s' => r = None /\ reported (EType1 callee) (s_m s) (s_m s') /\ call_over s s' below).
Proof. exact call_other. Qed.
Print Assumptions C52_not_callable.
Example C52_not_callable_applies :
  calling (with_stack (n4 :: PList 1 :: actuals [n1; n2] [])) 2 [n4] (PList 1) [n1; n2] [] /\
  match call_op demo_env [] funcs 2 (with_stack (n4 :: PList 1 :: actuals [n1; n2] [])) with
  | Some (r, s') => r = None /\ m_log (s_m s') = [EType1 (PList 1)] | None => False end.
Proof.
  split; [apply calling_of; [cbn; lia | reflexivity | cbn; lia | constructor]|].
  vm_compute. split; reflexivity.
Qed.
(** C52 is false of None, which looks like a builtin: the entry read is far
    outside the table, however it is configured. *)
Theorem C52_none_refuted : forall E builtins C (F : loc -> option (func C)) s o below ps ns,
  calling s o below PNull ps ns -> Z.of_nat (length builtins) < 16383 -> call_op E builtins F o s = None.
Proof. exact call_none. Qed.
Print Assumptions C52_none_refuted.
Example C52_none_applies : calling (with_stack (n4 :: PNull :: actuals [] [])) 0 [n4] PNull [] [].
Proof. apply calling_of; [cbn; lia | reflexivity | cbn; lia | constructor]. Qed.

(** C53, the part that holds.  Up to ten formals: a list in which one without
    default follows one with is a syntax error, any other gives a function with
    these formals.  Missing: the rejections (refuted below). *)
Theorem C53_formals_partial : forall C fs old (code : C), (length old = SNEK_MAX_FORMALS)%nat -> (length fs <= SNEK_MAX_FORMALS)%nat ->
  defaults_last fs ->
  exists p', parse_formals fs (formals_start old) = Ok p' /\
    fn_formals (func_of p' code) = map fst fs /\ fn_nrequired (func_of p' code) = nrequired fs /\ fn_code (func_of p' code) = code.
Proof. exact @formals_function. Qed.
Print Assumptions C53_formals_partial.
Theorem C53_defaults_last : forall fs p, (pf_nformal p + length fs <= SNEK_MAX_FORMALS)%nat -> 0 <= pf_nnamed p -> pf_nnamed p + Z.of_nat (length fs) < 256 ->
  (pf_nnamed p = 0 /\ ~ defaults_last fs \/ pf_nnamed p <> 0 /\ ~ Forall (fun f => snd f = true) fs) -> parse_formals fs p = Err.
Proof. exact parse_formals_err. Qed.
Print Assumptions C53_defaults_last.
Definition no_formals : pformals := formals_start (repeat 0 10).
Example C53_formals_applies :
  length (pf_ids no_formals) = SNEK_MAX_FORMALS /\ defaults_last [(50, false); (51, true); (52, true)] /\
  match parse_formals [(50, false); (51, true); (52, true)] no_formals with
  | Ok p => @func_of unit p tt = f_abc | _ => False end /\
  ~ defaults_last [(50, true); (51, false)] /\ parse_formals [(50, true); (51, false)] no_formals = Err.
Proof.
  split; [reflexivity|]. split; [repeat constructor|]. split; [reflexivity|]. split; [| reflexivity].
  cbn. intros H. inversion H. discriminate.
Qed.

(** C53 is false of every list with more than ten formals, which overruns the
    array, and of every one with a formal twice, which is accepted (by
    [C53_formals_partial], which asks nothing of the names). *)
Theorem C53_too_many_refuted : forall fs p, (pf_nformal p <= SNEK_MAX_FORMALS)%nat -> (SNEK_MAX_FORMALS < pf_nformal p + length fs)%nat -> 0 <= pf_nnamed p ->
  pf_nnamed p + Z.of_nat (length fs) < 256 ->
  (pf_nnamed p = 0 /\ defaults_last fs \/ Forall (fun f => snd f = true) fs) -> parse_formals fs p = UB.
Proof. exact parse_formals_many. Qed.
Print Assumptions C53_too_many_refuted.
Example C53_too_many_applies : defaults_last (map (fun i => (Z.of_nat i, false)) (seq 50 11)) /\
  parse_formals (map (fun i => (Z.of_nat i, false)) (seq 50 11)) no_formals = UB.
Proof. split; [vm_compute; exact I | reflexivity]. Qed.
Theorem C53_twice_refuted : forall id, match parse_formals [(id, false); (id, false)] no_formals with
  | Ok p => fn_formals (@func_of unit p tt) = [id; id] | _ => False end.
Proof. reflexivity. Qed.
Print Assumptions C53_twice_refuted.
