(** C09, C10, C15, C17, C38 and C51: the operators as snek_binary runs them,
    augmented assignment to an element, and sizes. *)
From Coq Require Import ZArith Bool List Lia.
From Verif Require Import Base FloatModel PolyModel ValueModel OrderSpec SliceModel SliceSpec MathModel MathSpec MachModel ListModel
  StrModel BinModel MachSpec ListSpec DictSpec StrSpec MachProofs FrameProofs ListProofs DictProofs DictProofs2 DictProofs3 DictProofs4 StrProofs StrProofs2
  FormatProofs InterpProofs BinProofs UpdateProofs SizeProofs ListProps DictProps StrProps.
Import ListNotations.
Local Open Scope Z_scope.
Open Scope mach_scope.

(** C08/C09.  [a + b], and [a += b] on tuples, give a new object. *)
Theorem C09_tuple : forall E T powf, wf_env E -> forall m la lb k xs ys inplace,
  roomy E -> wf E m -> room E 3 m -> k <> KDict -> (inplace = false \/ k = KTuple) ->
  seq_at (m_heap m) la k xs -> seq_at (m_heap m) lb k ys ->
  runs (binary E T powf (PList la) (BNum Nplus) (PList lb) inplace) m (seq_result E m k (xs ++ ys)).
Proof. exact binary_plus. Qed.
Print Assumptions C09_tuple.
Example C09_tuple_applies : exists m',
  binary demo_env demo_texts no_pow (PList 2) (BNum Nplus) (PList 2) true demo = Some (PList 3, m') /\
  seq_at (m_heap m') 3 KTuple [n4; n4] /\ seq_at (m_heap m') 2 KTuple [n4].
Proof. eexists. split; [vm_compute; reflexivity | split; at_]. Qed.

(** [a += b] on lists is the same object. *)
Theorem C09_in_place : forall E T powf, wf_env E -> forall m la lb xs ys,
  roomy E -> wf E m -> room E 2 m -> seq_at (m_heap m) la KList xs -> seq_at (m_heap m) lb KList ys ->
  runs (binary E T powf (PList la) (BNum Nplus) (PList lb) true) m (fun r m' =>
    wf E m' /\ stack_kept m m' /\
    ((r = PList la /\ quiet m m' /\ others_kept (Some la) (m_heap m) (m_heap m') /\ seq_at (m_heap m') la KList (xs ++ ys)) \/
     (r = PNull /\ oom E (Z.of_nat (length (xs ++ ys))) m m' /\ heap_kept (m_heap m) (m_heap m')))).
Proof. exact binary_append. Qed.
Print Assumptions C09_in_place.
Example C09_in_place_applies : exists m',
  binary demo_env demo_texts no_pow (PList 0) (BNum Nplus) (PList 1) true demo = Some (PList 0, m') /\
  seq_at (m_heap m') 0 KList [n1; n2; n3; PList 2].
Proof. eexists. split; [vm_compute; reflexivity | at_]. Qed.

(** C10.  [xs * n] and [n * xs] *)
Theorem C10_binary : forall E T powf, wf_env E -> forall m l k xs f n inplace,
  wf E m -> room E 2 m -> k <> KDict -> seq_at (m_heap m) l k xs -> denotes E f n -> 0 <= n ->
  fits (e_width E) (Z.of_nat (length xs) * n) ->
  runs (binary E T powf (PList l) (BNum Ntimes) (PNum f) inplace) m (seq_result E m k (concat (repeat xs (Z.to_nat n)))) /\
  runs (binary E T powf (PNum f) (BNum Ntimes) (PList l) inplace) m (seq_result E m k (concat (repeat xs (Z.to_nat n)))).
Proof. exact binary_list_times. Qed.
Print Assumptions C10_binary.
Example C10_binary_applies : exists m',
  binary demo_env demo_texts no_pow n2 (BNum Ntimes) (PList 0) false demo = Some (PList 3, m') /\
  seq_at (m_heap m') 3 KList [n1; n2; n1; n2].
Proof. eexists. split; [vm_compute; reflexivity | at_]. Qed.

(** C17.  [x in c] for a list, tuple or dictionary: some element (or key)
    compares equal.  [not in] is its negation. *)
Theorem C17_container : forall E T powf, wf_env E -> forall m l k vs x v inplace,
  wf E m -> tree (m_heap m) (PList l) (VSeq k vs) -> tree (m_heap m) x v ->
  canonical v -> Forall canonical vs ->
  exists b, binary E T powf x BIn (PList l) inplace m = Some (bool_to_poly b, m) /\
            binary E T powf x BNotIn (PList l) inplace m = Some (bool_to_poly (negb b), m) /\
            (b = true <-> member v k vs).
Proof. exact binary_in_list. Qed.
Print Assumptions C17_container.
(** 2 in {1: 2, 'ab': 2} is false; 'ab' in it is true. *)
Example C17_container_applies :
  let m := set_heap (text_heap ++ [lst KDict [n1; n2; PStr 0; n2]]) text_demo in
  binary demo_env demo_texts no_pow n2 BIn (PList 10) false m = Some (bool_to_poly false, m) /\
  binary demo_env demo_texts no_pow (PStr 0) BIn (PList 10) false m = Some (bool_to_poly true, m) /\
  binary demo_env demo_texts no_pow n1 BNotIn (PList 10) false m = Some (bool_to_poly false, m).
Proof. cbn zeta. repeat split; vm_compute; reflexivity. Qed.

(** [a in b] for two strings: a occurs in b. *)
Theorem C17_substring : forall E T powf m la lb sa sb inplace, str_at (m_heap m) la sa -> str_at (m_heap m) lb sb ->
  exists b, binary E T powf (PStr la) BIn (PStr lb) inplace m = Some (bool_to_poly b, m) /\
            binary E T powf (PStr la) BNotIn (PStr lb) inplace m = Some (bool_to_poly (negb b), m) /\
            (b = true <-> substring sa sb).
Proof. exact binary_in_str. Qed.
Print Assumptions C17_substring.
Example C17_substring_applies :
  let m := set_heap [OStr [98; 97]; OStr [97; 98; 98; 97]] text_demo in
  binary demo_env demo_texts no_pow (PStr 0) BIn (PStr 1) false m = Some (bool_to_poly true, m) /\
  binary demo_env demo_texts no_pow (PStr 1) BIn (PStr 0) false m = Some (bool_to_poly false, m) /\
  substring [98; 97] [97; 98; 98; 97].
Proof. cbn zeta. split; [reflexivity|]. split; [reflexivity|]. exists [97; 98], []. reflexivity. Qed.

(** Any other right operand, except a number for a number, is a type error
    that changes nothing. *)
Theorem C17_other : forall E T powf m a b op inplace, op = BIn \/ op = BNotIn ->
  (forall l, b <> PList l) -> (forall la lb, a = PStr la -> b <> PStr lb) -> (forall f g, a = PNum f -> b <> PNum g) ->
  binary E T powf a op b inplace m = Some (PNull, errored (EType2 a b) m).
Proof. exact binary_in_other. Qed.
Print Assumptions C17_other.
Example C17_other_applies :
  binary demo_env demo_texts no_pow n1 BIn (PStr 0) false text_demo = Some (PNull, errored (EType2 n1 (PStr 0)) text_demo).
Proof. vm_compute. reflexivity. Qed.

(** [x in y] and [x not in y] for two numbers are both x, without an error. *)
Theorem C17_numbers_refuted : forall E T powf m f g inplace,
  binary E T powf (PNum f) BIn (PNum g) inplace m = Some (float_to_poly f, m) /\
  binary E T powf (PNum f) BNotIn (PNum g) inplace m = Some (float_to_poly f, m).
Proof. exact binary_in_numbers. Qed.
Print Assumptions C17_numbers_refuted.

(** C15.  [c[k] op= a] with the container and the key on top of the stack.
    On a tuple or on anything that is not a list: an error, nothing else. *)
Theorem C15_readonly_partial : forall E T powf m c k op a,
  target m c k -> (forall l, c = PList l -> exists xs, seq_at (m_heap m) l KTuple xs) ->
  augment_elem E T powf op a m = Some (a, errored (EType1 c) (taken2 m)).
Proof. exact augment_readonly. Qed.
Print Assumptions C15_readonly_partial.
Definition upd (c k : poly) (m : mach) : mach := set_stack [c; k; PZero; PZero; PZero; PZero; PZero; PZero] 2 m.
Example C15_readonly_applies :
  target (upd (PList 2) PZero demo) (PList 2) PZero /\
  augment_elem demo_env demo_texts no_pow Nplus n1 (upd (PList 2) PZero demo) =
  Some (n1, errored (EType1 (PList 2)) (taken2 (upd (PList 2) PZero demo))).
Proof. split; [exists 0%nat; repeat split | vm_compute; reflexivity]. Qed.

(** On a list with an index out of range. *)
Theorem C15_list_partial : forall E T powf, wf_env E -> forall m l xs f i op a,
  wf E m -> wbits (e_width E) <= e_int E -> target m (PList l) (PNum f) -> seq_at (m_heap m) l KList xs -> denotes E f i ->
  py_pos (length xs) i = None ->
  augment_elem E T powf op a m = Some (a, errored (EValue (PNum f)) (taken2 m)).
Proof. exact augment_out_of_range. Qed.
Print Assumptions C15_list_partial.
Example C15_list_applies :
  denotes demo_env (f_of_bits 0x40400000) 3 /\ py_pos 2 3 = None /\
  exists m', augment_elem demo_env demo_texts no_pow Nplus n1 (upd (PList 0) n3 demo) = Some (n1, m') /\
    m_heap m' = demo_heap /\ m_log m' = [EValue n3].
Proof.
  split; [split; [vm_compute; reflexivity | cbn; lia]|]. split; [reflexivity|].
  eexists; split; [vm_compute; reflexivity | split; reflexivity].
Qed.

(** On a dictionary with a key that contains something mutable. *)
Theorem C15_mutable_key_partial : forall E T powf, wf_env E -> forall m l kvs k op a,
  wf E m -> target m (PList l) k -> dict_at (m_heap m) l kvs -> ~ frozen_at (m_heap m) k ->
  augment_elem E T powf op a m = Some (a, errored (EValue k) (taken2 m)).
Proof. exact augment_mutable_key. Qed.
Print Assumptions C15_mutable_key_partial.
Example C15_mutable_key_applies :
  exists m', augment_elem demo_env demo_texts no_pow Nplus n1 (upd (PList 0) (PList 5) dict_demo) = Some (n1, m') /\
    m_heap m' = dict_heap /\ m_log m' = [EValue (PList 5)].
Proof. eexists; split; [vm_compute; reflexivity | split; reflexivity]. Qed.

(** The claim fails for [d[k] += x] with a missing key: every time there is
    memory for it, the key ends up in the dictionary, and an error is raised. *)
Theorem C15_refuted : forall E T powf, wf_env E -> forall m l kvs k f,
  roomy_dict E -> wf E m -> target m (PList l) k -> dict_at (m_heap m) l kvs -> absent E m l k -> frozen_at (m_heap m) k ->
  runs (augment_elem E T powf Nplus (PNum f)) m (fun _ m' =>
    m_abort m' = true /\
    ((m_log m' = if m_abort m then m_log m else EMemory :: m_log m) \/
     exists c x, dict_at (m_heap m') l (inserted kvs c (k, x)))).
Proof. exact augment_missing. Qed.
Print Assumptions C15_refuted.
Example C15_refuted_applies :
  match augment_elem demo_env demo_texts no_pow Nplus n1 (upd (PList 0) (PStr 4) dict_demo) with
  | Some (_, m') =>
      m_abort m' = true /\ match nth_error (m_heap m') 0 with Some (OList o) => lo_size o = 2 | _ => False end
  | None => False
  end.
Proof. vm_compute. split; reflexivity. Qed.

(** [del d[k]] of a missing key leaves the dictionary as it is, but raises no
    error either; proved where the allocation it makes does not move. *)
Theorem C15_del_partial : forall E, wf_env E -> forall m l kvs k,
  roomy_dict E -> wf E m -> room E 2 m -> dict_at (m_heap m) l kvs -> wf_poly (m_heap m) k -> absent E m l k ->
  frozen_at (m_heap m) k -> e_move E (m_nalloc m) = false ->
  runs (elem_del E (PList l) k) m (fun _ m' =>
    frame (Some l) m m' /\ dict_at (m_heap m') l kvs /\ (quiet m m' \/ oom E (2 * Z.of_nat (length kvs) + 2) m m')).
Proof. exact del_missing. Qed.
Print Assumptions C15_del_partial.
Example C15_del_applies :
  match elem_del still_env (PList 0) n1 dict_demo with
  | Some (_, m') => m_abort m' = false /\ match nth_error (m_heap m') 0 with Some (OList o) => lo_size o = 0 | _ => False end
  | None => False
  end.
Proof. vm_compute. split; reflexivity. Qed.

(** C38.  Operations that read an operand at its old place after an allocation
    moved it: string repetition, always; *)
Theorem C38_times_refuted : forall E T powf, wf_env E -> forall m l s f n inplace,
  wf_strs E (m_heap m) -> str_at (m_heap m) l s -> denotes E f n -> 0 < n ->
  e_move E (m_nalloc m) = true -> e_fail E (m_nalloc m) = false ->
  size_round (e_width E) (u_of (e_width E) (Z.of_nat (length s) * n + 1)) <= e_pool E ->
  binary E T powf (PStr l) (BNum Ntimes) (PNum f) inplace m = None.
Proof. exact binary_times_moved. Qed.
Print Assumptions C38_times_refuted.
Example C38_times_applies :
  binary demo_env demo_texts no_pow (PStr 0) (BNum Ntimes) n3 false text_demo = None.
Proof. vm_compute. reflexivity. Qed.

(** [del d[k]] of a missing key; *)
Theorem C38_del_refuted : elem_del demo_env (PList 0) n1 dict_demo = None.
Proof. vm_compute. reflexivity. Qed.
Print Assumptions C38_del_refuted.

(** a string written in quotes by the format operator; *)
Theorem C38_format_refuted :
  binary demo_env demo_texts no_pow (PStr 9) (BNum Nmod) (PStr 0) false text_demo = None.
Proof. vm_compute. reflexivity. Qed.
Print Assumptions C38_format_refuted.

(** the error report of a format that does not match its arguments. *)
Theorem C38_report_refuted :
  binary demo_env demo_texts no_pow (PStr 7) (BNum Nmod) (PList 3) false text_demo = None.
Proof. vm_compute. reflexivity. Qed.
Print Assumptions C38_report_refuted.

(** C51.  Sizes are computed in the offset type and wrap: the elements are
    then written outside what was allocated. *)
Theorem C51_list_times_refuted : forall E m l k xs n,
  wf_env E -> wf E m -> room E 2 m -> seq_at (m_heap m) l k xs -> xs <> [] ->
  let size := u_of (e_width E) (Z.of_nat (length xs) * n) in
  2 ^ wbits (e_width E) <= 4 * (Z.of_nat (length xs) * n) -> size <> 0 ->
  (forall i, e_fail E i = false) -> sizeof_list E <= e_pool E -> asked (e_width E) k size <= e_pool E ->
  list_times E (l, m_epoch m) n m = None.
Proof. exact list_times_outside. Qed.
Print Assumptions C51_list_times_refuted.
(** (1, 2) * 536870912 on a 32-bit build *)
Definition pair_demo : mach := set_heap [lst KTuple [n1; n2]] text_demo.
Example C51_list_times_applies :
  list_times demo_env (0%nat, m_epoch pair_demo) 0x20000000 pair_demo = None.
Proof.
  apply (C51_list_times_refuted demo_env pair_demo 0%nat KTuple [n1; n2] 0x20000000).
  - exact demo_wf_env.
  - split.
    + intros [|[|l]] o H; cbn in H; try discriminate. injection H as <-.
      split; cbn; try lia; try discriminate; unfold elems; cbn; intros; repeat constructor.
    + reflexivity.
    + cbn; lia.
    + constructor.
    + discriminate.
  - unfold room; cbn; lia.
  - at_.
  - discriminate.
  - vm_compute. discriminate.
  - vm_compute. discriminate.
  - reflexivity.
  - vm_compute. discriminate.
  - vm_compute. discriminate.
Qed.

Theorem C51_list_plus_refuted : forall E m la lb k xs ys,
  wf_env E -> wf E m -> room E 3 m -> seq_at (m_heap m) la k xs -> seq_at (m_heap m) lb k ys ->
  let size := Z.of_nat (length xs + length ys) in
  0 < size < 2 ^ wbits (e_width E) -> asked (e_width E) k size < 4 * Z.of_nat (length xs) ->
  (forall i, e_fail E i = false) -> sizeof_list E <= e_pool E ->
  list_plus E (la, m_epoch m) (lb, m_epoch m) m = None.
Proof. exact list_plus_outside. Qed.
Print Assumptions C51_list_plus_refuted.
(** [a + a] for any list of 7318 numbers on a 16-bit build with a pool of
    32768 *)
Definition small_env : env :=
  {| e_width := W16; e_int := 16; e_pool := 32768; e_stack := 8; e_fail := fun _ => false; e_move := fun _ => false |}.
Definition many_demo (xs : list poly) : mach :=
  set_heap [OList {| lo_kind := KList; lo_size := 7318; lo_alloc := 7318; lo_data := xs |}] text_demo.
Example C51_list_plus_applies : forall xs,
  Z.of_nat (length xs) = 7318 -> Forall (fun p => exists f, p = PNum f) xs ->
  list_plus small_env (0%nat, m_epoch (many_demo xs)) (0%nat, m_epoch (many_demo xs)) (many_demo xs) = None.
Proof.
  intros xs Hlen Hx.
  assert (Hel : firstn (Z.to_nat 7318) xs = xs).
  { apply firstn_all2. apply Nat2Z.inj_le. rewrite Hlen, Z2Nat.id; discriminate. }
  assert (Hat : seq_at (m_heap (many_demo xs)) 0 KList xs).
  { eexists. split; [reflexivity|]. split; [reflexivity | exact Hel]. }
  apply (C51_list_plus_refuted small_env (many_demo xs) 0%nat 0%nat KList xs xs).
  - unfold wf_env; cbn; lia.
  - split.
    + intros [|[|l]] o H; cbn [nth_error set_heap m_heap many_demo] in H; try discriminate. injection H as <-.
      split; cbn [lo_size lo_alloc lo_data lo_kind e_pool small_env]; try lia; try discriminate.
      unfold elems. cbn [lo_size lo_data]. rewrite Hel. eapply Forall_impl; [|exact Hx]. intros p [f ->]. exact I.
    + reflexivity.
    + cbn; lia.
    + constructor.
    + discriminate.
  - unfold room; cbn; lia.
  - exact Hat.
  - exact Hat.
  - cbn [e_width small_env wbits]. change (2 ^ 16) with 65536. lia.
  - rewrite Nat2Z.inj_add, Hlen. reflexivity.
  - reflexivity.
  - vm_compute. discriminate.
Qed.

Theorem C51_string_times_refuted : forall E m l s n,
  wf_env E -> wf E m -> wf_strs E (m_heap m) -> str_at (m_heap m) l s ->
  2 ^ wbits (e_width E) <= Z.of_nat (length s) * n ->
  (forall i, e_fail E i = false) ->
  size_round (e_width E) (u_of (e_width E) (Z.of_nat (length s) * n + 1)) <= e_pool E ->
  string_times E (l, m_epoch m) n m = None.
Proof. exact string_times_outside. Qed.
Print Assumptions C51_string_times_refuted.
(** "ab" * 2147483648 on a 32-bit build; through snek_soffset_t the same happens
    with "abcd" * 1073741824. *)
Example C51_string_times_applies :
  string_times demo_env (0%nat, m_epoch text_demo) 0x80000000 text_demo = None.
Proof.
  apply (C51_string_times_refuted demo_env text_demo 0%nat [97; 98] 0x80000000).
  - exact demo_wf_env.
  - apply text_wf; reflexivity.
  - apply text_wf_strs; reflexivity.
  - reflexivity.
  - vm_compute. discriminate.
  - reflexivity.
  - vm_compute. discriminate.
Qed.
