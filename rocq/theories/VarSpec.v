(** Scopes: what assignments, reads and global declarations mean (C20), and how
    arguments bind to formals (C21). *)
From Coq Require Import ZArith Bool List.
From Verif Require Import Base FloatModel PolyModel ValueModel MachModel MachSpec FrameModel.
Import ListNotations.
Local Open Scope Z_scope.

Definition sruns {A} (c : S A) (s : st) (Q : A -> st -> Prop) : Prop :=
  exists a s', c s = Some (a, s') /\ Q a s'.

(** The value of the first variable with this id. *)
Definition lookup (id : Z) (vs : list var) : option poly :=
  option_map snd (find (fun v => fst v =? id) vs).

(** A local is a value, or a mark that the name is global.  The locals of the
    running functions, the innermost first; none at the top level. *)
Inductive local := LVal (v : poly) | LGlobal.
Record scopes := {
  sc_locals : list (Z -> option local);
  sc_globals : Z -> option poly }.

Definition mset {A} (id : Z) (x : A) (f : Z -> option A) : Z -> option A :=
  fun i => if i =? id then Some x else f i.

Inductive sop := SAssign (id : Z) (v : poly) | SGlobal (id : Z) | SRead (id : Z) | SEnter | SLeave.

(** One operation; a read gives the value found. *)
Definition scope_step (o : sop) (sc : scopes) : scopes * list (option poly) :=
  match o with
  | SRead id =>
      (sc, [match sc_locals sc with
            | L :: _ => match L id with Some (LVal v) => Some v | _ => sc_globals sc id end
            | [] => sc_globals sc id
            end])
  | SAssign id v =>
      (match sc_locals sc with
       | L :: Ls => match L id with
                    | Some LGlobal => {| sc_locals := L :: Ls; sc_globals := mset id v (sc_globals sc) |}
                    | _ => {| sc_locals := mset id (LVal v) L :: Ls; sc_globals := sc_globals sc |}
                    end
       | [] => {| sc_locals := []; sc_globals := mset id v (sc_globals sc) |}
       end, [])
  | SGlobal id =>
      (match sc_locals sc with
       | L :: Ls => {| sc_locals := mset id LGlobal L :: Ls; sc_globals := sc_globals sc |}
       | [] => sc
       end, [])
  | SEnter => ({| sc_locals := (fun _ => None) :: sc_locals sc; sc_globals := sc_globals sc |}, [])
  | SLeave => ({| sc_locals := tl (sc_locals sc); sc_globals := sc_globals sc |}, [])
  end.
Fixpoint scope_run (os : list sop) (sc : scopes) : scopes * list (option poly) :=
  match os with
  | [] => (sc, [])
  | o :: os' =>
      let '(sc, r) := scope_step o sc in
      let '(sc, rs) := scope_run os' sc in
      (sc, r ++ rs)
  end.

(** The scopes of a state. *)
Definition local_of (p : poly) : local := if is_global p then LGlobal else LVal p.
Definition locals_are (f : list var) (L : Z -> option local) : Prop := forall id, L id = option_map local_of (lookup id f).
Definition scopes_are (s : st) (sc : scopes) : Prop :=
  (forall id, sc_globals sc id = lookup id (s_globals s)) /\ Forall2 locals_are (s_frames s) (sc_locals sc).

(** The interpreter's version of a history. *)
Open Scope st_scope.
Definition read_id (id : Z) (E : env) : S (option poly) :=
  let^ r := id_ref E id false in
  match r with Some r => let^ v := read r in sret (Some v) | None => sret None end.
Definition run_sop (E : env) (o : sop) : S (list (option poly)) :=
  match o with
  | SRead id => let^ v := read_id id E in sret [v]
  | SAssign id v => put_a v ^; assign_id E id ^; sret []
  | SGlobal id => mark_global E id ^; sret []
  | SEnter => frame_push E 0 ^; sret []
  | SLeave => frame_pop ^; sret []
  end.
Fixpoint run_sops (E : env) (os : list sop) : S (list (option poly)) :=
  match os with
  | [] => sret []
  | o :: os' =>
      let^ r := run_sop E o in
      let^ s := get in
      if m_abort (s_m s) then sret [] else
      let^ rs := run_sops E os' in sret (r ++ rs)
  end.

(** Frames of this many variables can be allocated. *)
Definition fits_vars (E : env) (n : nat) : Prop :=
  sizeof_frame E + Z.of_nat n * sizeof_var E + 3 < 2 ^ wbits (e_width E).
Definition nvars (s : st) : nat := length (s_globals s) + list_sum (map (@length var) (s_frames s)).

(** * Calls *)
(** What the caller pushes: the positional values, then name and value of each
    named one. *)
Definition actuals (ps : list poly) (ns : list var) : list poly :=
  ps ++ flat_map (fun v : var => [PNum (f_of_Z (fst v)); snd v]) ns.
(** Formals and what they are bound to. *)
Definition bindings (formals : list Z) (ps : list poly) (ns : list var) : list var := combine formals ps ++ ns.
(** Every argument has a formal, and no formal has two. *)
Definition arguments_ok (formals : list Z) (ps : list poly) (ns : list var) : Prop :=
  (length ps <= length formals)%nat /\
  (forall id, In id (map fst ns) -> In id formals) /\
  NoDup (map fst (bindings formals ps ns)).
(** What a complaint may be about. *)
Definition blamed (formals : list Z) (ps : list poly) (ns : list var) (e : emsg) : Prop :=
  match e with
  | EArgs want have => (length formals < length ps)%nat /\ want = Z.of_nat (length formals) /\ have = Z.of_nat (length ps)
  | EArg id => In id (map fst ns) /\ ~ In id formals \/ (2 <= count_occ Z.eq_dec (map fst (bindings formals ps ns)) id)%nat
  | _ => False
  end.
(** A call instruction about to run: the stack holds the callee and the
    arguments, [o] is the operand. *)
Record calling (s : st) (o : Z) (below : list poly) (callee : poly) (ps : list poly) (ns : list var) : Prop := {
  cl_sp : m_sp (s_m s) = length (below ++ callee :: actuals ps ns);
  cl_stack : exists rest, m_stack (s_m s) = (below ++ callee :: actuals ps ns) ++ rest;
  cl_operand : o = Z.of_nat (length ps) + 256 * Z.of_nat (length ns);
  cl_count : (length ps + length ns < 256)%nat;
  cl_names : Forall (fun v : var => 0 < fst v < 32768) ns }.
(** Definitions have this form. *)
Definition func_ok {C} (f : func C) : Prop :=
  0 <= fn_nrequired f <= fn_nformal f /\ Forall (fun id => 0 < id < 32768) (fn_formals f).
(** After a call that did not get to run: the arguments are gone, and frames
    and globals are as before. *)
Definition call_over (s s' : st) (below : list poly) : Prop :=
  heap_kept (m_heap (s_m s)) (m_heap (s_m s')) /\ m_sp (s_m s') = length below /\ (exists rest, m_stack (s_m s') = below ++ rest) /\
  s_globals s' = s_globals s /\ s_frames s' = s_frames s.

(** * Defaults *)
(** The code at the start of a body: each default is computed and assigned
    unless the formal is bound. *)
Fixpoint run_defaults (E : env) (ds : list var) : S unit :=
  match ds with
  | [] => sret tt
  | (id, v) :: ds' =>
      put_a v ^; assign_named E id ^;
      let^ s := get in
      if m_abort (s_m s) then sret tt else run_defaults E ds'
  end.

(** * Definitions *)
(** Formals without a default come first. *)
Fixpoint defaults_last (fs : list (Z * bool)) : Prop :=
  match fs with
  | [] => True
  | (_, true) :: fs' => Forall (fun f => snd f = true) fs'
  | (_, false) :: fs' => defaults_last fs'
  end.
Definition nrequired (fs : list (Z * bool)) : Z := Z.of_nat (length (filter (fun f => negb (snd f)) fs)).
