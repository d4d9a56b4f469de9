(** C08-C11: lists.  [E] is the configuration together with an oracle that
    says which allocations fail and which move every object, so each theorem
    holds for every behaviour of the collector. *)
From Coq Require Import ZArith Bool List Lia.
From Verif Require Import Base FloatModel PolyModel ValueModel SliceModel SliceSpec MachModel ListModel
  MachSpec ListSpec FrameProofs ListProofs ListProofs2 ListProofs3.
Import ListNotations.
Local Open Scope Z_scope.

(** A small machine used to show that the hypotheses can be met: a 32-bit
    configuration in which every allocation moves all objects; three lists
    [1, 2], [3], (4) and their references on the stack. *)
Definition num (z : Z) : poly := PNum (f_of_bits z).
Definition n1 := num 0x3f800000. Definition n2 := num 0x40000000.
Definition n3 := num 0x40400000. Definition n4 := num 0x40800000.
Definition demo_env : env :=
  {| e_width := W32; e_int := 32; e_pool := 4096; e_stack := 8; e_fail := fun _ => false; e_move := fun _ => true |}.
Definition lst (k : lkind) (xs : list poly) : obj :=
  OList {| lo_kind := k; lo_size := Z.of_nat (length xs); lo_alloc := Z.of_nat (length xs); lo_data := xs |}.
Definition demo_heap : list obj := [lst KList [n1; n2]; lst KList [n3; PList 2]; lst KTuple [n4]].
Definition demo : mach :=
  {| m_heap := demo_heap; m_epoch := 0; m_nalloc := 0;
     m_stack := [PList 0; PList 1; PList 2; PZero; PZero; PZero; PZero; PZero]; m_sp := 3;
     m_empty := None; m_abort := false; m_log := []; m_io := io_start |}.

Lemma demo_wf_env : wf_env demo_env.
Proof. unfold wf_env; cbn; lia. Qed.
Lemma demo_wf : wf demo_env demo.
Proof.
  split; cbn; try lia; try discriminate.
  - intros [|[|[|[|l]]]] o H; cbn in H; try discriminate;
      (injection H as <-; split; cbn; try lia; try discriminate;
       unfold elems; cbn; repeat (constructor; cbn; try (eexists; reflexivity))).
  - repeat (constructor; cbn; try (eexists; reflexivity)).
Qed.
Lemma demo_room : room demo_env 3 demo.
Proof. unfold room; cbn; lia. Qed.
Ltac at_ := eexists; split; [reflexivity | split; reflexivity].

(** C08.  [a + b] for two lists or two tuples is a new object with the
    elements of both; nothing that existed before looks different. *)
Theorem C08_plus : forall E m la lb k xs ys,
  wf_env E -> roomy E -> wf E m -> room E 3 m -> k <> KDict ->
  seq_at (m_heap m) la k xs -> seq_at (m_heap m) lb k ys ->
  runs (list_plus E (la, m_epoch m) (lb, m_epoch m)) m (fun r m' =>
    wf E m' /\ stack_kept m m' /\ heap_kept (m_heap m) (m_heap m') /\
    match r with
    | Some (l, ep) => quiet m m' /\ ep = m_epoch m' /\ seq_at (m_heap m') l k (xs ++ ys) /\
                      ((length (m_heap m) <= l)%nat \/ (k = KTuple /\ xs ++ ys = []))
    | None => oom E (Z.of_nat (length (xs ++ ys))) m m'
    end).
Proof. exact plus_new. Qed.
Print Assumptions C08_plus.

Example C08_applies :
  seq_at (m_heap demo) 0 KList [n1; n2] /\ seq_at (m_heap demo) 1 KList [n3; PList 2] /\ roomy demo_env /\
  exists ep m', list_plus demo_env (0%nat, 0%nat) (1%nat, 0%nat) demo = Some (Some (3%nat, ep), m') /\
    seq_at (m_heap m') 3 KList [n1; n2; n3; PList 2].
Proof.
  split; [at_|]. split; [at_|]. split; [left; reflexivity|]. eexists _, _. split; [vm_compute; reflexivity | at_].
Qed.

(** C09.  [a += b] for lists changes the list object itself, so every
    reference to it sees the new elements; no other object changes. *)
Theorem C09_append : forall E m la lb xs ys,
  wf_env E -> roomy E -> wf E m -> room E 2 m ->
  seq_at (m_heap m) la KList xs -> seq_at (m_heap m) lb KList ys ->
  runs (list_append E (la, m_epoch m) (lb, m_epoch m)) m (fun r m' =>
    wf E m' /\ stack_kept m m' /\
    match r with
    | Some p => p = (la, m_epoch m') /\ quiet m m' /\ others_kept (Some la) (m_heap m) (m_heap m') /\
                seq_at (m_heap m') la KList (xs ++ ys)
    | None => oom E (Z.of_nat (length (xs ++ ys))) m m' /\ heap_kept (m_heap m) (m_heap m')
    end).
Proof. exact append_inplace. Qed.
Print Assumptions C09_append.

(** [a += a] included. *)
Example C09_applies :
  seq_at (m_heap demo) 1 KList [n3; PList 2] /\
  exists ep m', list_append demo_env (1%nat, 0%nat) (1%nat, 0%nat) demo = Some (Some (1%nat, ep), m') /\
    seq_at (m_heap m') 1 KList [n3; PList 2; n3; PList 2].
Proof. split; [at_|]. eexists _, _. split; [vm_compute; reflexivity | at_]. Qed.

(** C10.  [a * n] is a new object repeating the elements [n] times (none for
    [n <= 0]). *)
Theorem C10_times : forall E m la k xs n,
  wf_env E -> wf E m -> room E 2 m -> k <> KDict ->
  seq_at (m_heap m) la k xs -> fits (e_width E) (Z.of_nat (length xs) * Z.max 0 n) ->
  runs (list_times E (la, m_epoch m) n) m (fun r m' =>
    wf E m' /\ stack_kept m m' /\ heap_kept (m_heap m) (m_heap m') /\
    let zs := concat (repeat xs (Z.to_nat n)) in
    match r with
    | Some (l, ep) => quiet m m' /\ ep = m_epoch m' /\ seq_at (m_heap m') l k zs /\
                      ((length (m_heap m) <= l)%nat \/ (k = KTuple /\ zs = []))
    | None => oom E (Z.of_nat (length zs)) m m'
    end).
Proof. exact times_new. Qed.
Print Assumptions C10_times.

Example C10_applies :
  fits W32 (2 * Z.max 0 3) /\
  exists ep m', list_times demo_env (1%nat, 0%nat) 3 demo = Some (Some (3%nat, ep), m') /\
    seq_at (m_heap m') 3 KList [n3; PList 2; n3; PList 2; n3; PList 2].
Proof. split; [reflexivity|]. eexists _, _. split; [vm_compute; reflexivity | at_]. Qed.

(** C11.  A history of stores, additions and deletions on any number of lists
    (aliased in any way) has the effect it has on mathematical sequences, up to
    the first operation that is rejected; that one changes nothing and reports
    an error: a position that does not exist, or no memory for an addition. *)
Theorem C11_history : forall E ops m s,
  wf E m -> wf_env E -> roomy E -> wbits (e_width E) <= e_int E -> room E 2 m -> shows (m_heap m) s ->
  m_abort m = false -> Forall (lop_ok E (m_heap m)) ops ->
  runs (exec_lops E ops) m (fun _ m' =>
    wf E m' /\ stack_kept m m' /\ only_lists (m_heap m) (m_heap m') /\
    exists n s', lsteps s (firstn n ops) = Some s' /\ shows (m_heap m') s' /\
      ((n = length ops /\ quiet m m') \/
       (exists op, nth_error ops n = Some op /\
          (out_of_memory E s' op m m' \/ exists e, lstep s' op = None /\ bad_index op = Some e /\ reported e m m')))).
Proof. exact exec_lops_runs. Qed.
Print Assumptions C11_history.

(** a = [1, 2]; b = [3, (4)]; b += a; a[-1] = b; del b[0]; a += a *)
Definition demo_ops : list lop :=
  [LAdd 1 0; LSet 0 (f_of_bits 0xbf800000) (-1) (PList 1); LDel 1 f_zero 0; LAdd 0 0].
Definition demo_seq (l : loc) : list poly := match l with 0%nat => [n1; n2] | 1%nat => [n3; PList 2] | _ => [] end.
Example C11_applies :
  shows (m_heap demo) demo_seq /\ Forall (lop_ok demo_env (m_heap demo)) demo_ops /\
  (exists s', lsteps demo_seq demo_ops = Some s' /\ s' 0%nat = [n1; PList 1; n1; PList 1] /\ s' 1%nat = [PList 2; n1; n2]) /\
  exists m', exec_lops demo_env demo_ops demo = Some (tt, m') /\
    seq_at (m_heap m') 0 KList [n1; PList 1; n1; PList 1] /\ seq_at (m_heap m') 1 KList [PList 2; n1; n2].
Proof.
  split; [intros [|[|[|l]]] xs (o & Ho & Hk & <-); cbn in Ho; try (injection Ho as <-; try discriminate; reflexivity);
          destruct l; discriminate|].
  split.
  { repeat constructor; cbn; try (eexists; at_); try (vm_compute; reflexivity); try (eexists; reflexivity). }
  split; [eexists; split; [reflexivity|]; split; vm_compute; reflexivity|].
  eexists. split; [vm_compute; reflexivity|]. split; at_.
Qed.
