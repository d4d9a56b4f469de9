(** Variables, frames and calls: snek-frame.c, snek-func.c, snek_assign and the
    call instruction of snek-exec.c. *)
From Coq Require Import ZArith Bool List.
From Verif Require Import Base FloatModel PolyModel ValueModel SliceModel MathModel MachModel ListModel StrModel BinModel.
Import ListNotations.
Local Open Scope Z_scope.

(** snek.h 251-254: snek_variable_t *)
Definition var := (Z * poly)%type.   (* id, value *)

(** The state of the interpreter between two instructions, without the code:
    the variables of the frames, the current one first (snek-frame.c 17-18;
    frame->code, frame->ip and snek_line are in ExecModel.v). *)
Record st := {
  s_m : mach;
  s_a : poly;                    (* snek_a *)
  s_globals : list var;
  s_frames : list (list var) }.

Definition set_m m s := {| s_m := m; s_a := s_a s; s_globals := s_globals s; s_frames := s_frames s |}.
Definition set_a a s := {| s_m := s_m s; s_a := a; s_globals := s_globals s; s_frames := s_frames s |}.
Definition set_globals g s := {| s_m := s_m s; s_a := s_a s; s_globals := g; s_frames := s_frames s |}.
Definition set_frames f s := {| s_m := s_m s; s_a := s_a s; s_globals := s_globals s; s_frames := f |}.

(** As in MachModel.v: [None] is undefined behaviour. *)
Definition S (A : Type) := st -> option (A * st).
Definition sret {A} (a : A) : S A := fun s => Some (a, s).
Definition sundef {A} : S A := fun _ => None.
Definition sbind {A B} (x : S A) (f : A -> S B) : S B :=
  fun s => match x s with Some (a, s') => f a s' | None => None end.
Definition lm {A} (x : M A) : S A :=
  fun s => match x (s_m s) with Some (a, m) => Some (a, set_m m s) | None => None end.
Declare Scope st_scope.
Delimit Scope st_scope with st.
Notation "'let^' x := a 'in' b" := (sbind a (fun x => b))
  (at level 200, x pattern, a at level 100, b at level 200) : st_scope.
Notation "a ^; b" := (sbind a (fun _ => b)) (at level 199, right associativity) : st_scope.
Open Scope st_scope.

Definition get : S st := fun s => Some (s, s).
Definition put_a (a : poly) : S unit := fun s => Some (tt, set_a a s).
Definition get_a : S poly := fun s => Some (s_a s, s).

(** snek.h 322-323, 352-356 *)
Definition SNEK_GLOBAL_U : Z := 4294967288.
Definition PGlobal : poly := PBuiltin SNEK_GLOBAL_U.
Definition is_global (p : poly) : bool := match p with PBuiltin u => u =? SNEK_GLOBAL_U | _ => false end.

(** A reference to a variable: of the globals, or of the current frame. *)
Record vref := { vr_global : bool; vr_index : nat }.

(** snek-func.h 237-242: snek_func_t, with the code behind it as a parameter *)
Record func (C : Type) := { fn_nrequired : Z; fn_formals : list Z; fn_code : C }.
Arguments fn_nrequired {C}.
Arguments fn_formals {C}.
Arguments fn_code {C}.
Definition fn_nformal {C} (f : func C) : Z := Z.of_nat (length (fn_formals f)).

Section WithEnv.
Variable E : env.
Variable T : texts.
Variable powf : float -> float -> outcome float.

(** snek.h 251-262 *)
Definition sizeof_var : Z := match e_width E with W16 => 6 | W32 => 8 end.
Definition sizeof_frame : Z := match e_width E with W16 => 8 | W32 => 16 end.

(** snek-frame.c 20-25: snek_pick_frame *)
Definition pick_frame (globals : bool) (s : st) : option (list var) :=
  if globals then Some (s_globals s) else hd_error (s_frames s).
(** snek-frame.c 61-64, and stores into a frame *)
Definition put_frame (globals : bool) (vs : list var) (s : st) : st :=
  if globals then set_globals vs s
  else match s_frames s with [] => s | _ :: fs => set_frames (vs :: fs) s end.

(** A new frame of [n] variables, cleared (snek-memory.c 731); undefined if
    fewer bytes were allocated than it has. *)
Definition new_frame (n : nat) : S (option (list var)) :=
  let size := sizeof_frame + Z.of_nat n * sizeof_var in
  let^ r := lm (alloc E size) in
  match r with
  | None => sret None
  | Some b => if size <=? b then sret (Some (repeat (0, PZero) n)) else sundef
  end.

(** snek-frame.c 48-68: snek_variable_insert *)
Definition variable_insert (globals : bool) : S (option nat) :=
  let^ s := get in
  match pick_frame globals s with
  | None => sundef
  | Some old =>
      let n := length old in
      let^ r := new_frame (n + 1) in
      match r with
      | None => sret None
      | Some vs => fun s => Some (Some n, put_frame globals (old ++ skipn n vs) s)
      end
  end.

Fixpoint index_of (id : Z) (vs : list var) : option nat :=
  match vs with
  | [] => None
  | (i, _) :: vs' => if i =? id then Some O else option_map Datatypes.S (index_of id vs')
  end.

(** snek-frame.c 85-108: snek_variable_lookup *)
Definition set_id (globals : bool) (n : nat) (id : Z) : S unit :=
  fun s => match pick_frame globals s with
           | None => None
           | Some vs => match nth_error vs n with
                        | None => None
                        | Some (_, v) => Some (tt, put_frame globals (upd n (id, v) vs) s)
                        end
           end.
Definition variable_lookup (globals : bool) (id : Z) (insert : bool) : S (option vref) :=
  let^ s := get in
  match pick_frame globals s with
  | None => sret None
  | Some vs =>
      match index_of id vs with
      | Some n => sret (Some {| vr_global := globals; vr_index := n |})
      | None =>
          if insert then
            let^ r := variable_insert globals in
            match r with
            | None => sret None
            | Some n => set_id globals n id ^; sret (Some {| vr_global := globals; vr_index := n |})
            end
          else sret None
      end
  end.

(** reading and writing through a reference *)
Definition read (r : vref) : S poly :=
  fun s => match pick_frame (vr_global r) s with
           | None => None
           | Some vs => match nth_error vs (vr_index r) with Some (_, v) => Some (v, s) | None => None end
           end.
Definition write (r : vref) (v : poly) : S unit :=
  fun s => match pick_frame (vr_global r) s with
           | None => None
           | Some vs => match nth_error vs (vr_index r) with
                        | Some (id, _) => Some (tt, put_frame (vr_global r) (upd (vr_index r) (id, v) vs) s)
                        | None => None
                        end
           end.

(** snek-frame.c 110-120: snek_frame_lookup; 166-173: snek_id_ref *)
Definition id_ref (id : Z) (insert : bool) : S (option vref) :=
  let^ v := variable_lookup false id insert in
  match v with
  | Some r =>
      let^ p := read r in
      if is_global p then variable_lookup true id insert else sret (Some r)
  | None => variable_lookup true id insert
  end.

(** snek-frame.c 122-132: snek_frame_mark_global *)
Definition mark_global (id : Z) : S unit :=
  let^ s := get in
  match s_frames s with
  | [] => sret tt
  | _ => let^ v := variable_lookup false id true in
         match v with Some r => write r PGlobal | None => sret tt end
  end.

(** snek-frame.c 175-187: snek_id_store *)
Definition id_store (id : Z) (value : poly) : S bool :=
  lm (push E value) ^;
  let^ r := id_ref id true in
  let^ v := lm pop in
  match r with None => sret false | Some r => write r v ^; sret true end.

(** snek-frame.c 189-193: snek_id_is_local *)
Definition id_is_local (id : Z) : S bool :=
  let^ v := variable_lookup false id false in
  sret (match v with Some _ => true | None => false end).

(** snek-frame.c 70-83: snek_variable_delete.  The second memcpy copies
    [n - i - 1] bytes.  [var_bytes k v]: the first [k] bytes of [v] over
    cleared memory; of a reference less than its four bytes gives an unknown
    number. *)
Definition var_bytes (k : Z) (v : var) : var :=
  let '(id, p) := v in
  (if k <=? 4 then 0 else id mod 256 ^ (k - 4),
   if 4 <=? k then p
   else if k <=? 0 then PZero
   else match p with
        | PNum f => PNum (f_of_bits (bits_of_f f mod 256 ^ k))
        | PBuiltin u => PNum (f_of_bits (u mod 256 ^ k))
        | _ => PJunk TFloat
        end).
Fixpoint copy_bytes (k : Z) (vs : list var) : list var :=
  match vs with
  | [] => []
  | v :: vs' => var_bytes (Z.min sizeof_var k) v :: copy_bytes (k - sizeof_var) vs'
  end.
Definition variable_delete (i : nat) : S unit :=
  let^ s := get in
  let old := s_globals s in
  let n := length old in
  let^ r := new_frame (n - 1) in
  match r with
  | None => sundef
  | Some _ => fun s => Some (tt, set_globals (firstn i old ++ copy_bytes (Z.of_nat (n - i - 1)) (skipn (i + 1) old)) s)
  end.

(** snek-frame.c 195-207: snek_id_del *)
Definition id_del (id : Z) : S bool :=
  let^ s := get in
  match index_of id (s_globals s) with
  | Some i => variable_delete i ^; sret true
  | None => sret false
  end.

(** snek-frame.c 134-148: snek_frame_push *)
Definition frame_push (n : nat) : S bool :=
  let^ r := new_frame n in
  match r with
  | None => sret false
  | Some vs => fun s => Some (true, set_frames (vs :: s_frames s) s)
  end.
(** snek-frame.c 150-164: snek_frame_pop, without code and ip *)
Definition frame_pop : S unit := fun s => Some (tt, set_frames (tl (s_frames s)) s).

(** snek-exec.c 588-666: snek_assign, [id] not SNEK_ID_NONE *)
Definition assign_id (id : Z) : S unit :=
  let^ r := id_ref id true in
  match r with
  | None => lm (error (EUndefined id))
  | Some r => let^ a := get_a in write r a
  end.
Definition assign_named (id : Z) : S unit :=
  let^ l := id_is_local id in
  if l then sret tt else assign_id id.
Definition augment_id (op : numop) (id : Z) : S unit :=
  let^ s := get in
  let^ l := id_is_local id in
  let^ r := (if match s_frames s with [] => false | _ => true end && negb l then sret None else id_ref id false) in
  match r with
  | None => lm (error (EUndefined id))
  | Some r =>
      let^ v := read r in
      let^ a := get_a in
      let^ b := lm (binary E T powf v (BNum op) a true) in
      put_a b ^; assign_id id
  end.

(** snek-func.c 44-63: snek_func_actual: from the last variable down to [pos] *)
Definition func_actual (id : Z) (value : poly) (pos : nat) : S bool :=
  fun s => match s_frames s with
           | [] => None
           | vs :: _ =>
               if Nat.ltb pos (length vs) then
                 if existsb (fun v => fst v =? id) (skipn (pos + 1) vs) then Some (false, s)
                 else Some (true, put_frame false (upd pos (id, value) vs) s)
               else None
           end.

(** snek-func.c 68-75: snek_func_check_formal *)
Definition check_formal {C} (id : Z) (f : func C) : bool := existsb (Z.eqb id) (fn_formals f).

(** snek-exec.c 84-98: snek_stack_pop_soffset, as a snek_id_t *)
Definition pop_id : S Z :=
  let^ p := lm pop in
  let^ so := lm (get_soffset E p) in
  sret (u_of (e_width E) so).

(** snek-func.c 107-127: the loop; [Some id] to complain about it *)
Fixpoint bind_actuals {C} (f : func C) (nposition : nat) (pos : nat) : S (option Z) :=
  match pos with
  | O => sret None
  | Datatypes.S pos =>
      let^ value := lm pop in
      let^ (id, ok) :=
        (if Nat.leb nposition pos then
           let^ id := pop_id in sret (id, check_formal id f)
         else match nth_error (fn_formals f) pos with Some id => sret (id, true) | None => sundef end) in
      if ok then
        let^ ok := func_actual id value pos in
        if ok then bind_actuals f nposition pos else sret (Some id)
      else sret (Some id)
  end.

(** snek-func.c 129-134: the check of the required formals: the first [k] slots
    from [pos] on; undefined beyond the end of the frame *)
Fixpoint check_required {C} (f : func C) (k : nat) (pos : nat) : S (option Z) :=
  match k with
  | O => sret None
  | Datatypes.S k =>
      let^ s := get in
      match s_frames s with
      | [] => sundef
      | vs :: _ =>
          match nth_error vs pos, nth_error (fn_formals f) pos with
          | Some (id, _), Some formal => if id =? 0 then sret (Some formal) else check_required f k (pos + 1)
          | _, _ => sundef
          end
      end
  end.

(** snek-func.c 80-143: snek_func_push; the function is known to be [f] *)
Definition func_push {C} (f : func C) (nposition nnamed : Z) : S bool :=
  let nparam := Z.to_nat ((nposition + nnamed) mod 256) in
  let^ ok := frame_push nparam in
  if negb ok then sret false
  else if fn_nformal f <? nposition
  then lm (error (EArgs (fn_nformal f) nposition)) ^; frame_pop ^; sret false
  else
    let^ s := get in
    let sp := m_sp (s_m s) in
    let^ bad := bind_actuals f (Z.to_nat nposition) nparam in
    let^ bad := match bad with
                | Some id => sret (Some id)
                | None => check_required f (Z.to_nat (fn_nrequired f)) 0
                end in
    match bad with
    | None => sret true
    | Some id =>
        (fun s => Some (tt, set_m (set_stack (m_stack (s_m s)) sp (s_m s)) s)) ^;
        lm (error (EArg id)) ^; frame_pop ^; sret false
    end.

(** snek_builtins: number of formals and function of each entry (snek.h
    281-305). *)
Variable builtins : list (Z * (Z -> Z -> list poly -> M poly)).

(** snek.h 959-969: snek_poly_to_builtin, undefined outside the table *)
Definition builtin (u : Z) : option (Z * (Z -> Z -> list poly -> M poly)) :=
  let id := Z.shiftr (u_of (e_width E) (snek_poly_to_offset u)) 2 in
  if id <? 1 then None else nth_error builtins (Z.to_nat (id - 1)).

(** snek-exec.c 671-710: snek_call_builtin *)
Definition call_builtin (u : Z) (nposition nnamed : Z) : S unit :=
  match builtin u with
  | None => sundef
  | Some (nformal, fn) =>
      let^ s := get in
      let n := Z.to_nat (nposition + 2 * nnamed) in
      let actuals := firstn n (skipn (m_sp (s_m s) - n) (m_stack (s_m s))) in
      if nformal <? 0 then let^ r := lm (fn nposition nnamed actuals) in put_a r
      else if negb (nposition =? nformal) || negb (nnamed =? 0)
      then lm (error (EArgs nformal nposition))
      else let^ r := lm (fn nposition nnamed actuals) in put_a r
  end.

(** snek-exec.c 861-918: the call instruction with operand [o]: [Some l] if the
    body of the function at [l] is to run now *)
Definition call_op {C} (F : loc -> option (func C)) (o : Z) : S (option (func C)) :=
  let nposition := o mod 256 in
  let nnamed := o / 256 in
  let nstack := Z.to_nat (nposition + 2 * nnamed) in
  let^ a := lm (pick nstack) in
  put_a a ^;
  let finish := lm (drop (nstack + 1)) ^; sret None in
  match a with
  | PFunc l =>
      match F l with
      | None => sundef
      | Some f =>
          let^ ok := func_push f nposition (nnamed mod 256) in
          if ok then let^ a := lm pop in put_a a ^; sret (Some f) else finish
      end
  | PJunk _ => sundef
  | PBuiltin u => call_builtin u nposition (nnamed mod 256) ^; finish
  | _ => lm (error (EType1 a)) ^; finish
  end.
End WithEnv.

(** * Formals *)
(** snek-parse.c 21-23: snek_parse_formals, snek_parse_nformal, snek_parse_nnamed *)
Record pformals := { pf_ids : list Z; pf_nformal : nat; pf_nnamed : Z }.
Definition SNEK_MAX_FORMALS : nat := 10.   (* snek.h 792 *)
(** snek-gram.ll 31-36 *)
Definition formals_start (old : list Z) : pformals := {| pf_ids := old; pf_nformal := 0; pf_nnamed := 0 |}.
(** snek-gram.ll 65-81: a formal, with or without a default; [Err] is a syntax
    error.  The counters are uint8_t, the array has ten entries. *)
Definition parse_formal (id : Z) (default : bool) (p : pformals) : outcome pformals :=
  if Nat.ltb (pf_nformal p) SNEK_MAX_FORMALS then
    let p := {| pf_ids := upd (pf_nformal p) id (pf_ids p);
                pf_nformal := Datatypes.S (pf_nformal p); pf_nnamed := pf_nnamed p |} in
    if default then Ok {| pf_ids := pf_ids p; pf_nformal := pf_nformal p; pf_nnamed := (pf_nnamed p + 1) mod 256 |}
    else if pf_nnamed p =? 0 then Ok p else Err
  else UB.
Fixpoint parse_formals (fs : list (Z * bool)) (p : pformals) : outcome pformals :=
  match fs with
  | [] => Ok p
  | (id, default) :: fs' => obind (parse_formal id default p) (parse_formals fs')
  end.
(** snek-func.c 19-35: snek_func_alloc, the fields *)
Definition func_of {C} (p : pformals) (code : C) : func C :=
  {| fn_nrequired := (Z.of_nat (pf_nformal p) - pf_nnamed p) mod 256;
     fn_formals := firstn (pf_nformal p) (pf_ids p); fn_code := code |}.
