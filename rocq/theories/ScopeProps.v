(** C20 and C22: scopes, and deleting a global. *)
From Coq Require Import ZArith Bool List Lia.
From Verif Require Import Base FloatModel PolyModel ValueModel MachModel ListModel MachSpec FrameModel VarSpec VarProofs DelProofs ListProps.
Import ListNotations.
Local Open Scope Z_scope.
Open Scope st_scope.

(** C20.  Every history of assignments, reads, global declarations, entries to
    functions and returns, from any state, over any variables, gives the values
    read and the variables that the scopes of VarSpec.v give; or memory runs
    out, which is reported, and the reads before that are right.  A collection
    may run at any allocation.  [PGlobal] is no value of a program. *)
Theorem C20_scopes : forall E os s sc,
  scopes_are s sc -> Forall sop_ok os -> fits_vars E (nvars s + length os) ->
  (m_sp (s_m s) <= length (m_stack (s_m s)))%nat -> m_abort (s_m s) = false ->
  sruns (run_sops E os) s (fun rs s' => mstill (s_m s) (s_m s') /\
    (reported EMemory (s_m s) (s_m s') /\ (exists later, snd (scope_run os sc) = rs ++ later) \/
     quiet (s_m s) (s_m s') /\ scopes_are s' (fst (scope_run os sc)) /\ rs = snd (scope_run os sc))).
Proof. exact run_sops_runs. Qed.
Print Assumptions C20_scopes.

(** a global x = 1; in a function: x read, assigned, read; y declared global,
    assigned; then x and y read outside *)
Definition var_demo : st :=
  {| s_m := demo; s_a := PNull; s_globals := [(40, n1)]; s_frames := [] |}.
Definition var_ops : list sop :=
  [SEnter; SRead 40; SAssign 40 n2; SRead 40; SGlobal 41; SAssign 41 n3; SLeave; SRead 40; SRead 41; SRead 42].
Example C20_scopes_applies :
  scopes_are var_demo {| sc_locals := []; sc_globals := fun id => lookup id [(40, n1)] |} /\
  Forall sop_ok var_ops /\ fits_vars demo_env (nvars var_demo + length var_ops) /\
  snd (scope_run var_ops {| sc_locals := []; sc_globals := fun id => lookup id [(40, n1)] |}) =
    [Some n1; Some n2; Some n1; Some n3; None] /\
  exists s', run_sops demo_env var_ops var_demo = Some ([Some n1; Some n2; Some n1; Some n3; None], s') /\
    m_abort (s_m s') = false /\ (m_epoch (s_m var_demo) < m_epoch (s_m s'))%nat.
Proof.
  split; [split; [reflexivity | constructor]|].
  split; [repeat first [apply Forall_nil | apply Forall_cons; [cbn; reflexivity || exact I|]]|].
  split; [vm_compute; reflexivity|]. split; [reflexivity|].
  eexists. split; [vm_compute; reflexivity|]. split; [reflexivity|]. vm_compute. lia.
Qed.

(** C22 where it holds.  Deleting the newest global makes it undefined and
    leaves all others alone. *)
Theorem C22_delete_newest_partial : forall E id v others s,
  s_globals s = others ++ [(id, v)] -> NoDup (map fst (s_globals s)) ->
  fits_vars E (length (s_globals s)) -> (m_sp (s_m s) <= length (m_stack (s_m s)))%nat ->
  match id_del E id s with
  | Some (r, s') => r = true /\ heap_kept (m_heap (s_m s)) (m_heap (s_m s')) /\ quiet (s_m s) (s_m s') /\ s_frames s' = s_frames s /\
      lookup id (s_globals s') = None /\ (forall i, i <> id -> lookup i (s_globals s') = lookup i (s_globals s))
  | None => exists m', new_frame E (length others) s = Some (None, set_m m' s) /\ reported EMemory (s_m s) m'
  end.
Proof. exact id_del_last. Qed.
Print Assumptions C22_delete_newest_partial.
Definition three_vars : st :=
  {| s_m := demo; s_a := PNull; s_globals := [(40, n1); (41, n2); (42, PList 1)]; s_frames := [] |}.
Example C22_delete_newest_applies :
  s_globals three_vars = [(40, n1); (41, n2)] ++ [(42, PList 1)] /\ NoDup (map fst (s_globals three_vars)) /\
  fits_vars demo_env 3 /\
  exists s', id_del demo_env 42 three_vars = Some (true, s') /\ lookup 41 (s_globals s') = Some n2.
Proof.
  split; [reflexivity|]. split; [repeat constructor; cbn; lia|]. split; [vm_compute; reflexivity|].
  eexists. split; [vm_compute; reflexivity|]. reflexivity.
Qed.

(** Deleting what is not defined does nothing. *)
Theorem C22_undefined : forall E id s, lookup id (s_globals s) = None -> id_del E id s = Some (false, s).
Proof. exact id_del_undefined. Qed.
Print Assumptions C22_undefined.
Example C22_undefined_applies : lookup 43 (s_globals three_vars) = None.
Proof. reflexivity. Qed.

(** C22 is false of every other global: whatever is deleted, and whatever was
    defined after it, the newest global is gone too.  (If there is no memory
    for the copy, the behaviour is undefined.) *)
Theorem C22_delete_refuted : forall E id v before after last w s,
  s_globals s = before ++ (id, v) :: after ++ [(last, w)] -> NoDup (map fst (s_globals s)) ->
  Forall (fun v => 0 < fst v < 256) (s_globals s) ->
  fits_vars E (length (s_globals s)) -> (m_sp (s_m s) <= length (m_stack (s_m s)))%nat ->
  match id_del E id s with
  | Some (r, s') => lookup last (s_globals s) = Some w /\ lookup last (s_globals s') = None
  | None => exists m', new_frame E (length (s_globals s) - 1) s = Some (None, set_m m' s) /\ reported EMemory (s_m s) m'
  end.
Proof. exact id_del_loses. Qed.
Print Assumptions C22_delete_refuted.
Example C22_delete_refuted_applies :
  s_globals three_vars = [(40, n1)] ++ (41, n2) :: [] ++ [(42, PList 1)] /\
  exists s', id_del demo_env 41 three_vars = Some (true, s') /\
    lookup 42 (s_globals three_vars) = Some (PList 1) /\ lookup 42 (s_globals s') = None.
Proof. split; [reflexivity|]. eexists. split; [vm_compute; reflexivity|]. split; reflexivity. Qed.
