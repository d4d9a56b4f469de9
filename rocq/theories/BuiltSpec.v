(** What the builtin functions are expected to do, and how a call of one is
    observed. *)
From Coq Require Import ZArith Bool List String Reals.
From Verif Require Import Base FloatModel PolyModel ValueModel MachModel StrModel MachSpec StrSpec BuiltModel.
Import ListNotations.
Local Open Scope Z_scope.

(** What a port determines: sizes, the conversions of the C library, the
    identifiers [end], [rel_tol] and [abs_tol]. *)
Record port := {
  pt_env : env;
  pt_texts : texts;
  pt_signed : bool;
  pt_id_bits : Z;
  pt_end : Z;
  pt_rel_tol : Z;
  pt_abs_tol : Z;
  pt_strtof : list Z -> float;
  pt_libm1 : string -> float -> float;
  pt_libm2 : string -> float -> float -> float;
  pt_minus_inf : Z }.
Definition functions_of (P : port) : list (string * entry) :=
  functions (pt_env P) (pt_texts P) (pt_signed P) (pt_id_bits P) (pt_end P) (pt_rel_tol P) (pt_abs_tol P)
            (pt_strtof P) (pt_libm1 P) (pt_libm2 P) (pt_minus_inf P).
(** Identifiers fit their type. *)
Definition is_id (P : port) (i : Z) : Prop := 0 < i < 2 ^ pt_id_bits P /\ i < 2 ^ 24.
Definition wf_port (P : port) : Prop :=
  wf_env (pt_env P) /\ texts_ok (pt_texts P) /\ 0 < pt_id_bits P /\
  is_id P (pt_end P) /\ is_id P (pt_rel_tol P) /\ is_id P (pt_abs_tol P) /\ pt_rel_tol P <> pt_abs_tol P.

Fixpoint find (name : string) (l : list (string * entry)) : option entry :=
  match l with
  | [] => None
  | (s, e) :: l => if String.eqb name s then Some e else find name l
  end.

(** Named arguments are passed as the number of the identifier and the value. *)
Definition flatten (named : list (Z * poly)) : list poly := List.concat (List.map (fun x => [PNum (f_of_Z (fst x)); snd x]) named).

(** A call of [name] with these arguments: its result and what it changes. *)
Definition applied (P : port) (name : string) (args : list poly) (named : list (Z * poly)) : M poly :=
  match find name (functions_of P) with
  | Some (_, f) => f (Z.of_nat (List.length args)) (Z.of_nat (List.length named)) (args ++ flatten named)
  | None => undef
  end.

(** What became of output, input and generator. *)
Definition printed (t : list Z) (m m' : mach) : Prop :=
  m_io m' = {| io_out := io_out (m_io m) ++ t; io_in := io_in (m_io m); io_rnd := io_rnd (m_io m) |}.
(** Objects, stack and errors are as before. *)
Definition untouched (E : env) (m m' : mach) : Prop :=
  wf E m' /\ wf_strs E (m_heap m') /\ stack_kept m m' /\ heap_kept (m_heap m) (m_heap m') /\ quiet m m'.

(** Texts with a space between any two. *)
Fixpoint spaced (ts : list (list Z)) : list Z :=
  match ts with [] => [] | t :: ts' => t ++ match ts' with [] => [] | _ => 32 :: spaced ts' end end.

(** The value given last to the name [i], if any. *)
Fixpoint given {A} (i : Z) (named : list (Z * A)) : option A :=
  match named with
  | [] => None
  | (j, v) :: r => match given i r with Some u => Some u | None => if j =? i then Some v else None end
  end.
(** What print ends with. *)
Definition ended (E : env) (T : texts) (v : option value) (t : list Z) : Prop :=
  match v with
  | None => t = [10]
  | Some v => (v = VNone /\ t = [10]) \/ (v <> VNone /\ text_of E T str_fmt v t)
  end.

(** A result that is a new tuple of two numbers, or None with a report when
    memory is exhausted. *)
Definition pair_result (E : env) (m : mach) (x y : float) (r : poly) (m' : mach) : Prop :=
  wf E m' /\ wf_strs E (m_heap m') /\ stack_kept m m' /\ heap_kept (m_heap m) (m_heap m') /\ m_io m' = m_io m /\
  ((exists l, r = PList l /\ (List.length (m_heap m) <= l)%nat /\ seq_at (m_heap m') l KTuple [PNum x; PNum y] /\ quiet m m') \/
   (r = PNull /\ oom E 2 m m')).

(** The characters of a line that a string can hold. *)
Definition nonzero (s : list Z) : list Z := filter (fun c => negb (c =? 0)) s.
(** The result is a new string of them. *)
Definition line_result (E : env) (m : mach) (line : list Z) (r : poly) (m' : mach) : Prop :=
  untouched E m m' /\ exists l, r = PStr l /\ (List.length (m_heap m) <= l)%nat /\ str_at (m_heap m') l (nonzero line).

(** How long a value is. *)
Definition size_of (v : value) : Z :=
  match v with
  | VStr s => Z.of_nat (List.length s)
  | VSeq KDict vs => Z.of_nat (List.length vs) / 2
  | VSeq _ vs => Z.of_nat (List.length vs)
  | _ => 0
  end.

(** The relative and the absolute tolerance. *)
Definition tolerances (P : port) (named : list (Z * poly)) : float * float :=
  (match given (pt_rel_tol P) named with Some v => to_float v | None => default_rel_tol end,
   match given (pt_abs_tol P) named with Some v => to_float v | None => f_zero end).

(** The result is the number [s], or None with a report when there is no memory
    for a list of some size up to [n]. *)
Definition sum_result (E : env) (m : mach) (n : nat) (s : float) (r : poly) (m' : mach) : Prop :=
  wf E m' /\ wf_strs E (m_heap m') /\ stack_kept m m' /\ heap_kept (m_heap m) (m_heap m') /\ m_io m' = m_io m /\
  ((r = PNum s /\ quiet m m') \/ (r = PNull /\ exists k, 0 <= k <= Z.of_nat n /\ oom E k m m')).
