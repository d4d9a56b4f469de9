(** C12-C14: dictionaries. *)
From Coq Require Import ZArith Bool List Lia.
From Verif Require Import Base FloatModel PolyModel ValueModel OrderSpec OrderProofs2 SliceModel SliceSpec MachModel ListModel MachProofs
  MachSpec ListSpec DictSpec FrameProofs ListProofs ListProofs2 ListProofs3 ListProps DictProofs DictProofs2 DictProofs3
  DictProofs4 DictProofs5.
Import ListNotations.
Local Open Scope Z_scope.

(** A machine with a dictionary {} at 0, the tuples (1), (1, 2), (2, 1) at 1-3,
    the string "k" at 4, the list [1] at 5 and the tuple ([1]) at 6. *)
Definition dict_heap : list obj :=
  [lst KDict []; lst KTuple [n1]; lst KTuple [n1; n2]; lst KTuple [n2; n1]; OStr [107]; lst KList [n1]; lst KTuple [PList 5]].
Definition dict_demo : mach :=
  {| m_heap := dict_heap; m_epoch := 0; m_nalloc := 0;
     m_stack := [PList 0; n1; n2; PStr 4; n3; n1; n4; PZero]; m_sp := 1;
     m_empty := None; m_abort := false; m_log := []; m_io := io_start |}.
Lemma dict_demo_wf : wf demo_env dict_demo.
Proof.
  split; cbn; try lia; try discriminate.
  - intros [|[|[|[|[|[|[|l]]]]]]] o H; cbn in H; try discriminate;
      try (injection H as <-; split; cbn; try lia; try discriminate;
       unfold elems; cbn; try (intros _; split; [exists 0%nat; reflexivity|]); repeat (constructor; cbn; try lia; try (eexists; reflexivity))).
    destruct l; discriminate.
  - repeat (constructor; cbn; try (eexists; reflexivity)).
Qed.
Lemma dict_demo_room : room demo_env 2 dict_demo.
Proof. unfold room; cbn; lia. Qed.
Lemma demo_roomy : roomy_dict demo_env.
Proof. left; reflexivity. Qed.

(** C12.  After any history of stores and deletions of present keys on an
    empty dictionary, keys being numbers, strings, None or functions: d[k] is
    the last value stored under k, and an error for an absent k; [k in d] tells
    whether there is one; len(d) is the number of distinct keys that have one.
    If memory runs out at the operation with number [n] this holds for the
    first [n] operations. *)
Theorem C12_history : forall E ops m l,
  wf_env E -> roomy_dict E -> wf E m -> room E 2 m -> m_abort m = false ->
  seq_at (m_heap m) l KDict [] -> Forall (dop_ok scalar (m_heap m)) ops -> dels_present (m_heap m) ops ->
  runs (exec_dops E l ops) m (fun _ m' =>
    wf E m' /\ stack_kept m m' /\ others_kept (Some l) (m_heap m) (m_heap m') /\
    exists n len,
      poly_len (PList l) m' = Some (Z.of_nat len, m') /\
      ((n = length ops /\ quiet m m') \/
       ((exists p v, nth_error ops n = Some (DSet p v)) /\ oom E (2 * Z.of_nat len + 2) m m')) /\
      let hist := rev (firstn n ops) in
      (forall p k r, wf_poly (m_heap m) p -> tree (m_heap m) p k -> scalar k -> after (m_heap m) hist k r -> reads E l p m' r) /\
      (forall k, scalar k -> exists r, after (m_heap m) hist k r) /\
      live_keys scalar (fun k => exists v, after (m_heap m) hist k (Some v)) len).
Proof. exact (fun E ops m l => dict_history scalar E ops m l scalar_prefix_free). Qed.
Print Assumptions C12_history.

(** d = {}; d[2] = 1; d["k"] = 2; d[1] = 3; d[2] = 4; del d[1] *)
Definition demo_dops : list dop := [DSet n2 n1; DSet (PStr 4) n2; DSet n1 n3; DSet n2 n4; DDel n1].
Ltac num_key := eexists (VNum _); split; [exact eq_refl | cbn; unfold canonical_num; vm_compute; discriminate].
Ltac not_eq := let E := fresh in intros E; apply value_eq_cases in E; vm_compute in E; discriminate.
Example C12_applies :
  Forall (dop_ok scalar dict_heap) demo_dops /\ dels_present dict_heap demo_dops /\
  seq_at (m_heap dict_demo) 0 KDict [] /\
  exists m', exec_dops demo_env 0 demo_dops dict_demo = Some (tt, m') /\
    reads demo_env 0 n2 m' (Some n4) /\ reads demo_env 0 (PStr 4) m' (Some n2) /\ reads demo_env 0 n1 m' None.
Proof.
  split; [| split; [| split; [at_|]]].
  - repeat constructor; cbn; try (eexists; reflexivity); try num_key.
    eexists (VStr _); split; [cbn; eexists; split; reflexivity | exact I].
  - intros pre p post k E Hk.
    destruct pre as [|? [|? [|? [|? [|? pre]]]]]; try discriminate; [| destruct pre; discriminate].
    injection E as <- <- <- <- <- <-. rewrite (tree_fun dict_heap k n1 (VNum (f_of_bits 0x3f800000)) Hk eq_refl).
    exists n3. cbn [rev app].
    apply (af_other _ _ _ _ (VNum (f_of_bits 0x40000000))); [exact eq_refl | not_eq|].
    apply (af_set _ _ _ _ _ (VNum (f_of_bits 0x3f800000))); [exact eq_refl | apply value_eq_refl].
  - eexists. split; [vm_compute; reflexivity|].
    split; [split; vm_compute; reflexivity|]. split; [split; vm_compute; reflexivity|].
    split; [eexists; split; [vm_compute; reflexivity | split; vm_compute; reflexivity] | vm_compute; reflexivity].
Qed.

(** The same for a dictionary built by a literal {k: v, ...} whose keys and
    values are on the stack. *)
Theorem C12_literal : forall E m n prs,
  wf_env E -> roomy_dict E -> wf E m -> room E 2 m -> m_abort m = false ->
  n = length prs -> (2 * n <= m_sp m)%nat -> top (2 * n) m = flat prs -> Forall (dop_ok scalar (m_heap m)) (map dset prs) ->
  fits (e_width E) (2 * Z.of_nat n) ->
  runs (list_imm E (2 * n) KDict) m (fun r m' =>
    wf E m' /\ stack_kept (dropped (2 * n) m) m' /\ heap_kept (m_heap m) (m_heap m') /\
    ((r = PNull /\ oom E (2 * Z.of_nat n) m m') \/
     exists l len, r = PList l /\ (length (m_heap m) <= l)%nat /\ quiet m m' /\
       poly_len (PList l) m' = Some (Z.of_nat len, m') /\
       let hist := rev (map dset prs) in
       (forall p k r, wf_poly (m_heap m) p -> tree (m_heap m) p k -> scalar k -> after (m_heap m) hist k r -> reads E l p m' r) /\
       (forall k, scalar k -> exists r, after (m_heap m) hist k r) /\
       live_keys scalar (fun k => exists v, after (m_heap m) hist k (Some v)) len)).
Proof. exact (fun E m n prs => dict_literal scalar E m n prs scalar_prefix_free). Qed.
Print Assumptions C12_literal.

(** {1: 2, "k": 3, 1: 4}: the later value of 1 counts *)
Definition literal_pairs : list (poly * poly) := [(n1, n2); (PStr 4, n3); (n1, n4)].
Example C12_literal_applies :
  let m := set_stack [n1; n2; PStr 4; n3; n1; n4; PZero; PZero] 6 dict_demo in
  top 6 m = flat literal_pairs /\ Forall (dop_ok scalar (m_heap m)) (map dset literal_pairs) /\ room demo_env 2 m /\
  exists m', list_imm demo_env 6 KDict m = Some (PList 7, m') /\
    reads demo_env 7 n1 m' (Some n4) /\ poly_len (PList 7) m' = Some (2, m').
Proof.
  cbv zeta. split; [reflexivity|]. split; [|split].
  - repeat constructor; cbn; try (eexists; reflexivity); try num_key.
    eexists (VStr _); split; [cbn; eexists; split; reflexivity | exact I].
  - unfold room; cbn; lia.
  - eexists. split; [vm_compute; reflexivity|]. split; [split; vm_compute; reflexivity | vm_compute; reflexivity].
Qed.

(** C13 (partial: the property asks for all tuples).  The same for keys that
    include tuples, as long as no two keys compared with each other contain
    tuples one of which starts with the other, e.g. when all tuples have the
    same length. *)
Theorem C13_tuples_partial : forall K E ops m l,
  prefix_free K ->
  wf_env E -> roomy_dict E -> wf E m -> room E 2 m -> m_abort m = false ->
  seq_at (m_heap m) l KDict [] -> Forall (dop_ok K (m_heap m)) ops -> dels_present (m_heap m) ops ->
  runs (exec_dops E l ops) m (fun _ m' =>
    wf E m' /\ stack_kept m m' /\ others_kept (Some l) (m_heap m) (m_heap m') /\
    exists n len,
      poly_len (PList l) m' = Some (Z.of_nat len, m') /\
      ((n = length ops /\ quiet m m') \/
       ((exists p v, nth_error ops n = Some (DSet p v)) /\ oom E (2 * Z.of_nat len + 2) m m')) /\
      let hist := rev (firstn n ops) in
      (forall p k r, wf_poly (m_heap m) p -> tree (m_heap m) p k -> K k -> after (m_heap m) hist k r -> reads E l p m' r) /\
      (forall k, K k -> exists r, after (m_heap m) hist k r) /\
      live_keys K (fun k => exists v, after (m_heap m) hist k (Some v)) len).
Proof. exact dict_history. Qed.
Print Assumptions C13_tuples_partial.

Theorem C13_same_length_partial : forall n, prefix_free (fun v => canonical v /\ frozen v /\ tuples_of n v).
Proof. exact same_length_prefix_free. Qed.
Print Assumptions C13_same_length_partial.

(** d[(1, 2)] = 1; d[(2, 1)] = 2; d["k"] = 3 *)
Example C13_applies :
  Forall (dop_ok (fun v => canonical v /\ frozen v /\ tuples_of 2 v) dict_heap) [DSet (PList 2) n1; DSet (PList 3) n2; DSet (PStr 4) n3] /\
  exists m', exec_dops demo_env 0 [DSet (PList 2) n1; DSet (PList 3) n2; DSet (PStr 4) n3] dict_demo = Some (tt, m') /\
    reads demo_env 0 (PList 2) m' (Some n1) /\ reads demo_env 0 (PList 3) m' (Some n2).
Proof.
  split.
  - assert (T : forall l a b, nth_error dict_heap l = Some (lst KTuple [num a; num b]) ->
      canonical_num (f_of_bits a) -> canonical_num (f_of_bits b) ->
      key_in (fun v => canonical v /\ frozen v /\ tuples_of 2 v) dict_heap (PList l)).
    { intros l a b H Ha Hb. split; [eexists; exact H|]. exists (VSeq KTuple [VNum (f_of_bits a); VNum (f_of_bits b)]).
      split; [|cbn; auto 10]. cbn [tree]. exists l. eexists. split; [reflexivity|]. split; [exact H|]. change (firstn _ _) with [num a; num b]. cbn. repeat split. }
    constructor; [split; [apply (T _ 0x3f800000 0x40000000); [reflexivity | vm_compute; discriminate | vm_compute; discriminate] | exact I]|].
    constructor; [split; [apply (T _ 0x40000000 0x3f800000); [reflexivity | vm_compute; discriminate | vm_compute; discriminate] | exact I]|].
    constructor; [| constructor]. split; [| exact I]. split; [eexists; reflexivity|].
    eexists (VStr _); split; [cbn; eexists; split; reflexivity | cbn; auto].
  - eexists. split; [vm_compute; reflexivity|]. split; split; vm_compute; reflexivity.
Qed.

(** Without that restriction a stored key is lost: after d[(1,)] = 3 and
    d[(1, 2)] = 4, d[(1,)] is an error. *)
Theorem C13_refuted : exists E m l p1 p2 v1 v2 m',
  wf_env E /\ wf E m /\ seq_at (m_heap m) l KDict [] /\ frozen_at (m_heap m) p1 /\ frozen_at (m_heap m) p2 /\
  exec_dops E l [DSet p1 v1; DSet p2 v2] m = Some (tt, m') /\ quiet m m' /\
  exists m'', list_get E (l, m_epoch m') p1 true m' = Some (PNull, m'') /\ reported (EValue p1) m' m''.
Proof.
  exists demo_env, dict_demo, 0%nat, (PList 1), (PList 2), n3, n4. eexists.
  split; [exact demo_wf_env|]. split; [exact dict_demo_wf|]. split; [at_|].
  split. { exists (VSeq KTuple [VNum (f_of_bits 0x3f800000)]). split; [|cbn; auto]. cbn. exists 1%nat. eexists. repeat split; reflexivity. }
  split. { exists (VSeq KTuple [VNum (f_of_bits 0x3f800000); VNum (f_of_bits 0x40000000)]). split; [|cbn; auto]. cbn. exists 2%nat. eexists. repeat split; reflexivity. }
  split; [vm_compute; reflexivity|]. split; [split; vm_compute; reflexivity|].
  eexists. split; [vm_compute; reflexivity|]. split; vm_compute; reflexivity.
Qed.
Print Assumptions C13_refuted.

(** C14.  A key that is or contains a list or dictionary is rejected with an
    error, and nothing else changes (not even the stack or the heap's places). *)
Theorem C14_mutable_key : forall E m l kvs p v,
  wf E m -> wf_env E -> roomy_dict E -> room E 2 m -> dict_at (m_heap m) l kvs -> wf_poly (m_heap m) p -> wf_poly (m_heap m) v ->
  ~ frozen_at (m_heap m) p ->
  elem_assign E (PList l) p v m = Some (tt, errored (EValue p) m).
Proof. exact mutable_key_rejected. Qed.
Print Assumptions C14_mutable_key.

(** d[([1],)] = 2 *)
Example C14_key_applies :
  dict_at (m_heap dict_demo) 0 [] /\ wf_poly (m_heap dict_demo) (PList 6) /\ ~ frozen_at (m_heap dict_demo) (PList 6).
Proof.
  split; [at_|]. split; [eexists; reflexivity|]. intros (v & Hv & Fv).
  apply tree_list_inv in Hv. destruct Hv as (o & vs & -> & Ho & H2). injection Ho as <-.
  apply frozen_seq in Fv. destruct Fv as [_ Fv]. inversion H2 as [|? w ? ? Hw]; subst. inversion Fv as [|? ? Fw]; subst.
  apply tree_list_inv in Hw. destruct Hw as (o & vs & -> & Ho & _). injection Ho as <-. apply frozen_seq in Fw. destruct Fw. discriminate.
Qed.

(** Assigning to or deleting an element of a tuple is an error and changes
    nothing. *)
Theorem C14_tuple_store : forall E m l xs p v, seq_at (m_heap m) l KTuple xs ->
  elem_assign E (PList l) p v m = Some (tt, errored (EType1 (PList l)) m).
Proof. exact tuple_store. Qed.
Print Assumptions C14_tuple_store.
Theorem C14_tuple_del : forall E m l xs f i, wf E m -> wf_env E -> wbits (e_width E) <= e_int E ->
  seq_at (m_heap m) l KTuple xs -> denotes E f i ->
  elem_del E (PList l) (PNum f) m =
    Some (tt, errored (match py_pos (length xs) i with Some _ => EValue (PList l) | None => EValue (PNum f) end) m).
Proof. exact tuple_del. Qed.
Print Assumptions C14_tuple_del.

Example C14_tuple_applies :
  seq_at (m_heap dict_demo) 2 KTuple [n1; n2] /\ denotes demo_env (f_of_bits 0x3f800000) 1 /\ py_pos 2 1 = Some 1%nat.
Proof. split; [at_|]. split; [split; vm_compute; auto | reflexivity]. Qed.
