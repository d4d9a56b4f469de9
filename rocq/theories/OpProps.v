(** C02-C05, C57 and C58: comparisons, list elements and type errors as
    snek_binary runs them. *)
From Coq Require Import ZArith Bool List Lia.
From Verif Require Import Base FloatModel PolyModel ValueModel OrderSpec SliceModel SliceSpec MathModel MachModel ListModel
  StrModel BinModel MachSpec ListSpec StrSpec MachProofs FrameProofs BinProofs BinProofs2 ListProps DictProps StrProps BinProps.
Import ListNotations.
Local Open Scope Z_scope.
Open Scope mach_scope.

(** C02-C04.  A comparison of two values of a program, whatever they contain,
    gives what [snek_compare] says of them (OrderProps.v: the order of their
    values), and has no other effect. *)
Theorem C02_binary : forall E T powf c m a b va vb inplace, tree (m_heap m) a va -> tree (m_heap m) b vb ->
  binary E T powf a (BCmp c) b inplace m = Some (bool_to_poly (snek_compare c va vb), m).
Proof. exact binary_compare. Qed.
Print Assumptions C02_binary.
Example C02_binary_applies :
  tree (m_heap demo) (PList 2) (VSeq KTuple [VNum (f_of_bits 0x40800000)]) /\
  tree (m_heap demo) n4 (VNum (f_of_bits 0x40800000)) /\
  snek_compare OGe (VSeq KTuple [VNum (f_of_bits 0x40800000)]) (VSeq KTuple [VNum (f_of_bits 0x40800000)]) = true /\
  snek_compare OGe (VNum (f_of_bits 0x40800000)) (VSeq KTuple [VNum (f_of_bits 0x40800000)]) = true.
Proof.
  split; [|split; [exact eq_refl | split; vm_compute; reflexivity]].
  cbn. eexists _, _. split; [reflexivity|]. split; [reflexivity|]. split; [reflexivity|]. cbn. split; [exact eq_refl | exact I].
Qed.

(** C58.  [is] on lists, functions and builtins is identity; everything else is
    a different object. *)
Theorem C58_identity : forall E T powf m a b (pos : bool) inplace, wf_poly (m_heap m) a -> wf_poly (m_heap m) b ->
  (forall l, a <> PStr l) -> (forall f, a <> PNum f) ->
  binary E T powf a (if pos then BIs else BIsNot) b inplace m =
  Some (bool_to_poly (Bool.eqb pos (match a, b with
     | PList l, PList l' | PFunc l, PFunc l' => Nat.eqb l l'
     | PBuiltin u, PBuiltin u' => u =? u'
     | _, _ => false end)), m).
Proof. exact binary_is. Qed.
Print Assumptions C58_identity.
Example C58_identity_applies :
  wf_poly (m_heap demo) (PList 2) /\ wf_poly (m_heap demo) (PList 1) /\
  binary demo_env demo_texts no_pow (PList 2) BIs (PList 1) false demo = Some (PZero, demo) /\
  binary demo_env demo_texts no_pow (PList 2) BIs (PList 2) false demo = Some (POne, demo).
Proof. split; [eexists; reflexivity|]. split; [eexists; reflexivity|]. split; reflexivity. Qed.

(** C05.  [l[i]] on a list or tuple: the element, or an error and None. *)
Theorem C05_binary : forall E T powf m l k xs f i inplace,
  wf E m -> wf_env E -> wbits (e_width E) <= e_int E -> seq_at (m_heap m) l k xs -> k <> KDict -> denotes E f i ->
  Forall (fun x => is_invalid x = false) xs ->
  binary E T powf (PList l) BArray (PNum f) inplace m =
  match py_index xs i with
  | Some x => Some (x, m)
  | None => Some (PNull, errored (EValue (PNum f)) m)
  end.
Proof. exact binary_list_elem. Qed.
Print Assumptions C05_binary.
Example C05_binary_applies :
  seq_at (m_heap demo) 2 KTuple [n4] /\ denotes demo_env (f_of_Z (-1)) (-1) /\ py_index [n4] (-1) = Some n4 /\ py_index [n4] 1 = None.
Proof.
  split; [eexists; split; [reflexivity|]; split; reflexivity|].
  split; [split; [vm_compute; reflexivity | cbn; lia]|]. split; reflexivity.
Qed.

(** C57.  An operator on operands it is not defined for ([typed]) reports the
    two operands, gives None and changes nothing.  The repetition count must be
    in range and not negative. *)
Theorem C57_type_error_partial : forall E T powf op m a b ka kb inplace,
  kind_of (m_heap m) a ka -> kind_of (m_heap m) b kb -> ~ typed op ka kb -> count_ok E op a b ->
  exists x y, (x = a /\ y = b \/ x = b /\ y = a) /\
  binary E T powf a op b inplace m = Some (PNull, errored (EType2 x y) m).
Proof. exact binary_type_error. Qed.
Print Assumptions C57_type_error_partial.
Example C57_applies :
  kind_of (m_heap demo) (PList 0) (KSeq KList) /\ kind_of (m_heap demo) (PList 2) (KSeq KTuple) /\
  ~ typed (BNum Nplus) (KSeq KList) (KSeq KTuple) /\ ~ typed (BNum Nminus) (KSeq KList) (KSeq KList) /\
  ~ typed BArray KNumber KNumber /\ ~ typed (BNum Nmod) KNumber KText.
Proof.
  split; [eexists _, _; split; [reflexivity|]; eexists; split; [reflexivity|]; split; reflexivity|].
  split; [eexists _, _; split; [reflexivity|]; eexists; split; [reflexivity|]; split; reflexivity|].
  split; [intros [H _]; discriminate|]. cbn. auto.
Qed.

(** C57 fails for a negative count: repeating a dictionary, a function or None
    gives None without an error. *)
Theorem C57_negative_refuted : forall E T powf m a f n inplace,
  (forall g, a <> PNum g) -> denotes E f n -> n < 0 ->
  binary E T powf a (BNum Ntimes) (PNum f) inplace m = Some (PNull, m).
Proof. exact binary_negative. Qed.
Print Assumptions C57_negative_refuted.
Example C57_negative_applies : denotes demo_env (f_of_Z (-1)) (-1).
Proof. split; [vm_compute; reflexivity | cbn; lia]. Qed.
