(** The interpreter's run-time state and the primitive operations on it:
    heap objects, the value stack, allocation, errors.

    Objects are named by locations that never change.  In the C program an
    object's address changes when a collection moves it; the collector rewrites
    every reference held in a root or in another object (that is a property
    proved separately, GcProps.v), but not the pointers and values held in C
    local variables.  To keep this visible every C pointer carries the epoch at
    which it was obtained: each collection starts a new epoch, and using a
    pointer of an older epoch is undefined behaviour here.

    An operation returns [None] for undefined behaviour. *)
From Coq Require Import ZArith Bool List.
From Verif Require Import Base FloatModel MathModel PolyModel ValueModel.
Import ListNotations.
Local Open Scope Z_scope.

Notation loc := nat (only parsing).

(** snek.h 76-79: snek_poly_t, decoded as PolyModel.v describes *)
Inductive poly :=
| PNum (f : float)
| PStr (l : loc)
| PList (l : loc)
| PFunc (l : loc)
| PBuiltin (u : Z)
| PJunk (t : ptype).   (* a reference the collector did not keep up to date: it points nowhere *)
Definition PNull : poly := PBuiltin SNEK_NULL_U.        (* snek.h 320-321 *)
Definition PInvalid : poly := PBuiltin SNEK_INVALID_U.  (* snek.h 324-325 *)
Definition PZero : poly := PNum f_zero.                 (* snek.h 326; also a cleared word *)
Definition POne : poly := PNum f_one.                   (* snek.h 327 *)

Definition is_null (p : poly) : bool := match p with PBuiltin u => u =? SNEK_NULL_U | _ => false end.
Definition is_invalid (p : poly) : bool := match p with PBuiltin u => u =? SNEK_INVALID_U | _ => false end.
Definition is_ref (p : poly) : bool :=
  match p with PStr _ | PList _ | PFunc _ | PJunk _ => true | _ => false end.

(** snek-poly.c 61-65 *)
Definition poly_type (p : poly) : ptype :=
  match p with PNum _ => TFloat | PStr _ => TString | PList _ => TList | PFunc _ => TFunc
  | PBuiltin _ => TBuiltin | PJunk t => t end.

(** snek.h 210-215: snek_list_t together with its data block, which belongs to
    this list alone.  [lo_alloc] is the field, [lo_data] the words of the block
    that exist. *)
Record lobj := { lo_kind : lkind; lo_size : Z; lo_alloc : Z; lo_data : list poly }.
Inductive obj :=
| OList (o : lobj)
| OStr (s : list Z)          (* the characters, without the final NUL *)
| OOther.                    (* functions and code: not looked into here *)

(** snek-error.c 80-126: the error reports *)
Inductive emsg :=
| EValue (p : poly)          (* invalid value *)
| EType1 (p : poly)          (* invalid type *)
| EType2 (p q : poly)        (* type mismatch *)
| EStep | EArgs (want got : Z) | EArg (id : Z)
| EMemory | EStack | EUndefined (id : Z) | EAssertion | ENotInLoop.

(** Parameters of a run: the configuration, and what the collector will do.
    The [n]th allocation fails if [e_fail n], and moves objects if
    [e_move n]. *)
Record env := {
  e_width : width; e_int : Z; e_pool : Z; e_stack : nat;
  e_fail : nat -> bool; e_move : nat -> bool }.

(** What lies outside the interpreter: the bytes written to stdout, earliest
    first (error reports are in [m_log]), the bytes getchar will still deliver,
    and the state of the random number generator. *)
Record io := { io_out : list Z; io_in : list Z; io_rnd : rnd }.
Definition io_start : io := {| io_out := []; io_in := []; io_rnd := {| rnd_x := 0; rnd_w := 0 |} |}.

Record mach := {
  m_heap : list obj;
  m_epoch : nat;
  m_nalloc : nat;
  m_stack : list poly;       (* all SNEK_STACK slots *)
  m_sp : nat;                (* snek_stackp *)
  m_empty : option loc;      (* snek_empty_tuple *)
  m_abort : bool;            (* snek_abort *)
  m_log : list emsg;         (* the errors that have been reported, latest first *)
  m_io : io }.

Definition M (A : Type) := mach -> option (A * mach).
Definition ret {A} (a : A) : M A := fun m => Some (a, m).
Definition undef {A} : M A := fun _ => None.
Definition bind {A B} (x : M A) (f : A -> M B) : M B :=
  fun m => match x m with Some (a, m') => f a m' | None => None end.
Declare Scope mach_scope.
Delimit Scope mach_scope with mach.
Notation "'let*' x := a 'in' b" := (bind a (fun x => b))
  (at level 200, x pattern, a at level 100, b at level 200) : mach_scope.
Notation "a ;; b" := (bind a (fun _ => b)) (at level 199, right associativity) : mach_scope.
Open Scope mach_scope.

Definition set_heap h (m : mach) : mach :=
  {| m_heap := h; m_epoch := m_epoch m; m_nalloc := m_nalloc m; m_stack := m_stack m; m_sp := m_sp m;
     m_empty := m_empty m; m_abort := m_abort m; m_log := m_log m; m_io := m_io m |}.
Definition set_stack s sp (m : mach) : mach :=
  {| m_heap := m_heap m; m_epoch := m_epoch m; m_nalloc := m_nalloc m; m_stack := s; m_sp := sp;
     m_empty := m_empty m; m_abort := m_abort m; m_log := m_log m; m_io := m_io m |}.
Definition set_nalloc n (m : mach) : mach :=
  {| m_heap := m_heap m; m_epoch := m_epoch m; m_nalloc := n; m_stack := m_stack m; m_sp := m_sp m;
     m_empty := m_empty m; m_abort := m_abort m; m_log := m_log m; m_io := m_io m |}.
Definition set_empty e (m : mach) : mach :=
  {| m_heap := m_heap m; m_epoch := m_epoch m; m_nalloc := m_nalloc m; m_stack := m_stack m; m_sp := m_sp m;
     m_empty := e; m_abort := m_abort m; m_log := m_log m; m_io := m_io m |}.
Definition set_err ab lg (m : mach) : mach :=
  {| m_heap := m_heap m; m_epoch := m_epoch m; m_nalloc := m_nalloc m; m_stack := m_stack m; m_sp := m_sp m;
     m_empty := m_empty m; m_abort := ab; m_log := lg; m_io := m_io m |}.

Definition set_io x (m : mach) : mach :=
  {| m_heap := m_heap m; m_epoch := m_epoch m; m_nalloc := m_nalloc m; m_stack := m_stack m; m_sp := m_sp m;
     m_empty := m_empty m; m_abort := m_abort m; m_log := m_log m; m_io := x |}.

(** snek-error.c 39-78: snek_error_name: only the first error is reported *)
Definition error (e : emsg) : M unit :=
  fun m => Some (tt, if m_abort m then m else set_err true (e :: m_log m) m).

Fixpoint upd {A} (n : nat) (x : A) (l : list A) : list A :=
  match l, n with
  | [], _ => []
  | _ :: l', O => x :: l'
  | y :: l', S n' => y :: upd n' x l'
  end.

(** snek-exec.c 29-37: snek_stack_push *)
Definition push (E : env) (p : poly) : M unit :=
  fun m => if Nat.eqb (m_sp m) (e_stack E) then error EStack m
           else Some (tt, set_stack (upd (m_sp m) p (m_stack m)) (S (m_sp m)) m).

(** snek-exec.c 42-50: snek_stack_pop *)
Definition pop : M poly :=
  fun m => match m_sp m with
           | O => None
           | S n => match nth_error (m_stack m) n with
                    | Some p => Some (p, set_stack (m_stack m) n m)
                    | None => None
                    end
           end.

(** snek-exec.c 57-65: snek_stack_pick *)
Definition pick (off : nat) : M poly :=
  fun m => if Nat.ltb off (m_sp m)
           then match nth_error (m_stack m) (m_sp m - off - 1) with Some p => Some (p, m) | None => None end
           else None.

(** snek-exec.c 70-78: snek_stack_drop *)
Definition drop (off : nat) : M unit :=
  fun m => if Nat.leb off (m_sp m) then Some (tt, set_stack (m_stack m) (m_sp m - off) m) else None.

(** snek-memory.c 184-188: snek_size_round *)
Definition size_round (w : width) (size : Z) : Z := u_of w (u_of w (size + 3) - u_of w (size + 3) mod 4).

(** A collection rewrites the references it knows of: in list blocks those
    below the list's size (snek-list.c 360-384), on the stack those below the
    stack pointer (snek-memory.c 292-293).  Other words are left alone, so
    references among them no longer point anywhere. *)
Definition junk (p : poly) : poly :=
  match p with PStr _ => PJunk TString | PList _ => PJunk TList | PFunc _ => PJunk TFunc | _ => p end.
Definition junk_above (n : nat) (l : list poly) : list poly := firstn n l ++ map junk (skipn n l).
Definition moved_obj (o : obj) : obj :=
  match o with
  | OList l => OList {| lo_kind := lo_kind l; lo_size := lo_size l; lo_alloc := lo_alloc l;
                        lo_data := junk_above (Z.to_nat (lo_size l)) (lo_data l) |}
  | _ => o
  end.
Definition moved (m : mach) : mach :=
  {| m_heap := map moved_obj (m_heap m); m_epoch := S (m_epoch m); m_nalloc := m_nalloc m;
     m_stack := junk_above (m_sp m) (m_stack m); m_sp := m_sp m;
     m_empty := m_empty m; m_abort := m_abort m; m_log := m_log m; m_io := m_io m |}.

(** snek-memory.c 714-732: snek_alloc: whether it succeeds, and how many bytes
    the new object has *)
Definition alloc (E : env) (size : Z) : M (option Z) :=
  fun m =>
    let size := size_round (e_width E) (u_of (e_width E) size) in
    let n := m_nalloc m in
    let m := set_nalloc (S n) (if e_move E n then moved m else m) in
    if e_fail E n || (e_pool E <? size)
    then match error EMemory m with Some (_, m) => Some (None, m) | None => None end
    else Some (Some size, m).

(** Pointers to list heads and to strings. *)
Definition ptr := (loc * nat)%type.

Definition here (l : loc) : M ptr := fun m => Some ((l, m_epoch m), m).

Definition deref (p : ptr) : M obj :=
  fun m => if Nat.eqb (snd p) (m_epoch m)
           then match nth_error (m_heap m) (fst p) with Some o => Some (o, m) | None => None end
           else None.
Definition assign_obj (p : ptr) (o : obj) : M unit :=
  fun m => if Nat.eqb (snd p) (m_epoch m) && Nat.ltb (fst p) (length (m_heap m))
           then Some (tt, set_heap (upd (fst p) o (m_heap m)) m)
           else None.
Definition new_obj (o : obj) : M ptr :=
  fun m => Some ((length (m_heap m), m_epoch m), set_heap (m_heap m ++ [o]) m).

(** Address in the pool of a list head: UB if it is something else. *)
Definition deref_list (p : ptr) : M lobj :=
  let* o := deref p in match o with OList l => ret l | _ => undef end.
Definition assign_list (p : ptr) (o : lobj) : M unit := assign_obj p (OList o).
Definition deref_str (p : ptr) : M (list Z) :=
  let* o := deref p in match o with OStr s => ret s | _ => undef end.

(** snek.h 915-925: snek_list_to_poly, snek_poly_to_list.  Reading a value
    that is not a list as a list is undefined. *)
Definition list_to_poly (p : option ptr) : M poly :=
  match p with
  | None => ret PNull
  | Some p => fun m => if Nat.eqb (snd p) (m_epoch m) then Some (PList (fst p), m) else None
  end.
Definition poly_to_list (p : poly) : M ptr := match p with PList l => here l | _ => undef end.
Definition str_to_poly (p : option ptr) : M poly :=
  match p with
  | None => ret PNull
  | Some p => fun m => if Nat.eqb (snd p) (m_epoch m) then Some (PStr (fst p), m) else None
  end.
Definition poly_to_str (p : poly) : M ptr := match p with PStr l => here l | _ => undef end.

(** A value kept in a C local variable since epoch [snd p]. *)
Definition held := (poly * nat)%type.
Definition hold (p : poly) : M held := fun m => Some ((p, m_epoch m), m).
Definition use (h : held) : M poly :=
  fun m => if negb (is_ref (fst h)) || Nat.eqb (snd h) (m_epoch m) then Some (fst h, m) else None.

(** memcpy of [src] into the words of a block from index [off]; undefined
    outside the block *)
Definition blit {A} (off : nat) (src dst : list A) : option (list A) :=
  if Nat.leb (off + length src) (length dst)
  then Some (firstn off dst ++ src ++ skipn (off + length src) dst)
  else None.
(** the first [n] words of a block; undefined outside it *)
Definition take {A} (n : nat) (l : list A) : option (list A) :=
  if Nat.leb n (length l) then Some (firstn n l) else None.
Definition lift {A} (o : option A) : M A := match o with Some a => ret a | None => undef end.
