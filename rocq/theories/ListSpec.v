(** Lists as mathematical sequences: what a history of stores, additions and
    deletions does to a collection of lists. *)
From Coq Require Import ZArith Bool List.
From Verif Require Import Base FloatModel PolyModel ValueModel SliceModel SliceSpec MachModel MachSpec.
Import ListNotations.
Local Open Scope Z_scope.

(** An index [i], and the number that denotes it in the program. *)
Definition denotes (E : env) (f : float) (i : Z) : Prop :=
  float_index (e_width E) f = Ok i /\ - 2 ^ (wbits (e_width E) - 1) < i < 2 ^ (wbits (e_width E) - 1).

(** l[i] = v, l += l', del l[i] *)
Inductive lop :=
| LSet (l : loc) (f : float) (i : Z) (v : poly)
| LAdd (l l' : loc)
| LDel (l : loc) (f : float) (i : Z).

(** The operation makes sense in a heap: it is about lists, and the index and
    the value exist. *)
Definition lop_ok (E : env) (h : list obj) (op : lop) : Prop :=
  match op with
  | LSet l f i v => (exists xs, seq_at h l KList xs) /\ denotes E f i /\ wf_poly h v
  | LAdd l l' => (exists xs, seq_at h l KList xs) /\ (exists xs, seq_at h l' KList xs)
  | LDel l f i => (exists xs, seq_at h l KList xs) /\ denotes E f i
  end.

(** The mathematical effect on the collection of sequences; [None]: no such
    position. *)
Definition put (s : loc -> list poly) (l : loc) (xs : list poly) : loc -> list poly :=
  fun l' => if Nat.eqb l' l then xs else s l'.
Definition set_nth {A} (j : nat) (v : A) (xs : list A) : list A := firstn j xs ++ v :: skipn (S j) xs.
Definition del_nth {A} (j : nat) (xs : list A) : list A := firstn j xs ++ skipn (S j) xs.
Definition lstep (s : loc -> list poly) (op : lop) : option (loc -> list poly) :=
  match op with
  | LSet l f i v => option_map (fun j => put s l (set_nth j v (s l))) (py_pos (length (s l)) i)
  | LAdd l l' => Some (put s l (s l ++ s l'))
  | LDel l f i => option_map (fun j => put s l (del_nth j (s l))) (py_pos (length (s l)) i)
  end.
Fixpoint lsteps (s : loc -> list poly) (ops : list lop) : option (loc -> list poly) :=
  match ops with
  | [] => Some s
  | op :: ops' => match lstep s op with Some s' => lsteps s' ops' | None => None end
  end.
Definition bad_index (op : lop) : option emsg :=
  match op with LSet _ f _ _ | LDel _ f _ => Some (EValue (PNum f)) | LAdd _ _ => None end.

(** The lists of the heap hold these sequences. *)
Definition shows (h : list obj) (s : loc -> list poly) : Prop :=
  forall l xs, seq_at h l KList xs -> s l = xs.
(** Nothing but lists differs, and lists remain lists. *)
Definition only_lists (h h' : list obj) : Prop :=
  length h' = length h /\
  forall l o, nth_error h l = Some o -> exists o', nth_error h' l = Some o' /\
    match o with
    | OList x => if match lo_kind x with KList => true | _ => false end
                 then exists y, o' = OList y /\ lo_kind y = KList
                 else obj_same o o'
    | _ => obj_same o o'
    end.

(** Pools in which the size of a list cannot overflow the offset type when two
    lists are joined. *)
Definition roomy (E : env) : Prop := e_width E = W32 \/ e_pool E <= 29112.

(** Only an addition can run out of memory. *)
Definition out_of_memory (E : env) (s : loc -> list poly) (op : lop) (m m' : mach) : Prop :=
  match op with
  | LAdd l l' => oom E (Z.of_nat (length (s l ++ s l'))) m m'
  | _ => False
  end.
