(** What is observed of a machine state, and when a state is well formed.
    Used to state the list, dictionary and string properties. *)
From Coq Require Import ZArith Bool List.
From Verif Require Import Base FloatModel PolyModel ValueModel MachModel.
Import ListNotations.
Local Open Scope Z_scope.

(** A computation runs without undefined behaviour and ends as described. *)
Definition runs {A} (c : M A) (m : mach) (Q : A -> mach -> Prop) : Prop :=
  exists a m', c m = Some (a, m') /\ Q a m'.

(** The elements of a list object. *)
Definition elems (o : lobj) : list poly := firstn (Z.to_nat (lo_size o)) (lo_data o).

(** At [l] there is a list, tuple or dictionary (flat: key, value, key, ...)
    with these elements. *)
Definition seq_at (h : list obj) (l : loc) (k : lkind) (xs : list poly) : Prop :=
  exists o, nth_error h l = Some (OList o) /\ lo_kind o = k /\ elems o = xs.
Definition str_at (h : list obj) (l : loc) (s : list Z) : Prop := nth_error h l = Some (OStr s).

(** Two objects look the same to a program. *)
Definition obj_same (a b : obj) : Prop :=
  match a, b with
  | OList x, OList y => lo_kind x = lo_kind y /\ elems x = elems y
  | OStr s, OStr t => s = t
  | OOther, OOther => True
  | _, _ => False
  end.
(** All objects of [h], but possibly that at [except], look the same in [h']. *)
Definition others_kept (except : option loc) (h h' : list obj) : Prop :=
  (length h <= length h')%nat /\
  forall l o, nth_error h l = Some o -> Some l <> except ->
    exists o', nth_error h' l = Some o' /\ obj_same o o'.
Definition heap_kept := others_kept None.

(** The stack below the stack pointer is as before. *)
Definition stack_kept (m m' : mach) : Prop :=
  m_sp m' = m_sp m /\ firstn (m_sp m) (m_stack m') = firstn (m_sp m) (m_stack m).

(** No error was reported, resp. this one was (silently if an earlier one is
    still pending). *)
Definition quiet (m m' : mach) : Prop := m_abort m' = m_abort m /\ m_log m' = m_log m.
Definition reported (e : emsg) (m m' : mach) : Prop :=
  m_abort m' = true /\ m_log m' = (if m_abort m then m_log m else e :: m_log m).

(** An out-of-memory error was reported, and with reason: an allocation failed,
    or the pool has no room for a list of [sz] elements. *)
Definition oom (E : env) (sz : Z) (m m' : mach) : Prop :=
  reported EMemory m m' /\ ((exists n, e_fail E n = true) \/ e_pool E < 4 * (sz + sz / 8 + 6)).

(** A reference refers to an object of its type. *)
Definition wf_poly (h : list obj) (p : poly) : Prop :=
  match p with
  | PNum _ | PBuiltin _ => True
  | PStr l => exists s, nth_error h l = Some (OStr s)
  | PList l => exists o, nth_error h l = Some (OList o)
  | PFunc l => nth_error h l = Some OOther
  | PJunk _ => False
  end.

(** The value a reference stands for, followed through the heap. *)
Fixpoint tree (h : list obj) (p : poly) (v : value) {struct v} : Prop :=
  match v with
  | VNum f => p = PNum f
  | VStr s => exists l, p = PStr l /\ nth_error h l = Some (OStr s)
  | VFunc u => exists l, p = PFunc l /\ u = Z.of_nat l
  | VBuiltin u => p = PBuiltin u
  | VSeq k vs => exists l o, p = PList l /\ nth_error h l = Some (OList o) /\ lo_kind o = k /\
      (fix all2 (ps : list poly) (vs : list value) {struct vs} : Prop :=
         match vs, ps with
         | [], [] => True
         | v :: vs', p :: ps' => tree h p v /\ all2 ps' vs'
         | _, _ => False
         end) (elems o) vs
  end.

(** A value that cannot be changed: no list or dictionary inside. *)
Fixpoint frozen (v : value) : Prop :=
  match v with
  | VSeq k vs => k = KTuple /\
      (fix all (vs : list value) : Prop := match vs with [] => True | v :: vs' => frozen v /\ all vs' end) vs
  | _ => True
  end.
Definition frozen_at (h : list obj) (p : poly) : Prop := exists v, tree h p v /\ frozen v.

(** The keys of a flat dictionary. *)
Fixpoint keys {A} (l : list A) : list A :=
  match l with k :: _ :: l' => k :: keys l' | _ => [] end.

(** A reference to an object older than [l]. *)
Definition older (l : loc) (p : poly) : Prop :=
  match p with PStr l' | PList l' | PFunc l' => (l' < l)%nat | _ => True end.

(** The list object [o] at [l] in the heap [h]. *)
Record wf_list (E : env) (h : list obj) (l : loc) (o : lobj) : Prop := {
  wl_size : 0 <= lo_size o <= lo_alloc o;
  wl_data : Z.of_nat (length (lo_data o)) = lo_alloc o;
  wl_pool : 4 * lo_alloc o <= e_pool E;
  wl_elems : Forall (wf_poly h) (elems o);
  wl_tuple : lo_kind o = KTuple -> Forall (older l) (elems o);
  wl_dict : lo_kind o = KDict -> Nat.Even (length (elems o)) /\ Forall (frozen_at h) (keys (elems o)) }.

(** Pool sizes that go with the offset type (snek.h 60). *)
Definition wf_env (E : env) : Prop :=
  0 <= e_pool E /\
  match e_width E with W16 => e_pool E <= 65536 | W32 => e_pool E <= 2 ^ 24 end /\
  (e_int E = 16 \/ e_int E = 32).

Record wf (E : env) (m : mach) : Prop := {
  wf_heap : forall l o, nth_error (m_heap m) l = Some (OList o) -> wf_list E (m_heap m) l o;
  wf_stack_len : length (m_stack m) = e_stack E;
  wf_sp : (m_sp m <= e_stack E)%nat;
  wf_stack : Forall (wf_poly (m_heap m)) (firstn (m_sp m) (m_stack m));
  wf_empty : forall l, m_empty m = Some l -> seq_at (m_heap m) l KTuple [] }.

(** [n] more values can be pushed. *)
Definition room (E : env) (n : nat) (m : mach) : Prop := (m_sp m + n <= e_stack E)%nat.

(** The bytes asked for a list of [n] elements fit the offset type. *)
Definition fits (w : width) (n : Z) : Prop := 4 * (n + n / 8 + 6) + 3 < 2 ^ wbits w.
