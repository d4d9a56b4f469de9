(** Dictionaries as finite maps: what a history of stores and deletions means. *)
From Coq Require Import ZArith Bool List.
From Verif Require Import Base FloatModel PolyModel ValueModel OrderSpec MachModel ListModel MachSpec.
Import ListNotations.
Local Open Scope Z_scope.
Open Scope mach_scope.

(** A set of keys that can be compared: unchangeable values among which
    comparison never meets two tuples one of which starts with the other.
    Numbers and strings are always of this kind. *)
Definition prefix_free (K : value -> Prop) : Prop :=
  forall a b, K a -> K b -> canonical a /\ frozen a /\ no_prefix a b.

(** d[p] = v, del d[p] *)
Inductive dop := DSet (p v : poly) | DDel (p : poly).
Definition dkey (op : dop) : poly := match op with DSet p _ => p | DDel p => p end.

(** [after h hist k r]: after the history [hist] (latest operation first) on an
    empty dictionary, the value of the key [k] is [r] ([None]: absent). *)
Inductive after (h : list obj) : list dop -> value -> option poly -> Prop :=
| af_start : forall k, after h [] k None
| af_set : forall p v hist k kp, tree h p kp -> value_eq kp k -> after h (DSet p v :: hist) k (Some v)
| af_del : forall p hist k kp, tree h p kp -> value_eq kp k -> after h (DDel p :: hist) k None
| af_other : forall op hist k kp r, tree h (dkey op) kp -> ~ value_eq kp k -> after h hist k r ->
    after h (op :: hist) k r.

(** The operation is about existing things, with a key in [K]. *)
Definition key_in (K : value -> Prop) (h : list obj) (p : poly) : Prop :=
  wf_poly h p /\ exists k, tree h p k /\ K k.
Definition dop_ok (K : value -> Prop) (h : list obj) (op : dop) : Prop :=
  key_in K h (dkey op) /\ match op with DSet _ v => wf_poly h v | DDel _ => True end.
(** Only keys that are present are deleted. *)
Definition dels_present (h : list obj) (ops : list dop) : Prop :=
  forall pre p post k, ops = pre ++ DDel p :: post -> tree h p k -> exists v, after h (rev pre) k (Some v).

(** The calls made for an operation on the dictionary at [l], and for a history;
    execution stops at the first error (snek-exec.c 763). *)
Definition exec_dop (E : env) (l : loc) (op : dop) : M unit :=
  match op with
  | DSet p v => elem_assign E (PList l) p v
  | DDel p => elem_del E (PList l) p
  end.
Fixpoint exec_dops (E : env) (l : loc) (ops : list dop) : M unit :=
  match ops with
  | [] => ret tt
  | op :: ops' => exec_dop E l op;; fun m => if m_abort m then Some (tt, m) else exec_dops E l ops' m
  end.

(** The observations d[p], p in d and len(d) in a state. *)
Definition reads (E : env) (l : loc) (p : poly) (m : mach) (r : option poly) : Prop :=
  match r with
  | Some v => list_get E (l, m_epoch m) p true m = Some (v, m) /\ list_in E p (l, m_epoch m) m = Some (true, m)
  | None => (exists m', list_get E (l, m_epoch m) p true m = Some (PNull, m') /\ reported (EValue p) m m') /\
            list_in E p (l, m_epoch m) m = Some (false, m)
  end.

(** [n] is the number of distinct keys that have a value. *)
Definition live_keys (K : value -> Prop) (has : value -> Prop) (n : nat) : Prop :=
  exists ks, length ks = n /\ Forall K ks /\ Forall has ks /\
    (forall i j a b, nth_error ks i = Some a -> nth_error ks j = Some b -> value_eq a b -> i = j) /\
    (forall k, K k -> has k -> exists k', In k' ks /\ value_eq k' k).

(** Pools in which the size of a dictionary cannot overflow the offset type. *)
Definition roomy_dict (E : env) : Prop := e_width E = W32 \/ e_pool E <= 58000.

(** Every tuple inside has [n] elements. *)
Fixpoint tuples_of (n : nat) (v : value) : Prop :=
  match v with
  | VSeq _ vs => length vs = n /\
      (fix all (vs : list value) : Prop := match vs with [] => True | v :: vs' => tuples_of n v /\ all vs' end) vs
  | _ => True
  end.
