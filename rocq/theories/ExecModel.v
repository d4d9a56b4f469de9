(** The virtual machine: snek-exec.c 100-237, 486-573, 717-1044. *)
From Coq Require Import ZArith Bool List.
From Verif Require Import Base FloatModel PolyModel ValueModel SliceModel MathModel MachModel ListModel StrModel BinModel FrameModel CodeModel.
Import ListNotations.
Local Open Scope Z_scope.

(** * Instructions, as the machine reads them *)
Inductive arg := ANone | AByte (b : Z) | AOff (v : Z) | ANum (f : float) | AStep (v depth id : Z).
Inductive akind := GNone | GByte | GOff | GNum | GStep.
Definition arg_kind (o : op) : akind :=
  match o with
  | KChain _ | KAug _ | KAssign | KAssignNamed | KString | KMake _ | KId | KCall | KGlobal | KDel
  | KBranch | KBranchTrue | KBranchFalse | KLine => GOff
  | KNum => GNum
  | KInt | KSlice => GByte
  | KRangeStart | KRangeStep | KInStep => GStep
  | _ => GNone
  end.

(** What a configuration of the interpreter consists of. *)
Record conf := {
  cf_env : env;
  cf_texts : texts;
  cf_pow : float -> float -> outcome float;
  cf_builtins : list (Z * (Z -> Z -> list poly -> M poly));
  (** snek.h 951-957 and the test before it (snek-exec.c 850): what a builtin
      name stands for *)
  cf_names : Z -> option poly }.

(** where to go on, and whether to push the result *)
Inductive flow := Go (ip : nat) (push : bool) | Call (code : list Z).

Section WithConf.
Variable K : conf.
Notation E := (cf_env K).
Notation w := (e_width E).
Notation T := (cf_texts K).
Notation powf := (cf_pow K).

(** snek-poly.c 109-122: snek_poly_true *)
Definition truth (p : poly) : M bool :=
  match p with
  | PNum f => ret (negb (feq f f_zero))
  | PList _ => bind (poly_to_list p) (fun l => bind (deref_list l) (fun o => ret (negb (lo_size o =? 0))))
  | PStr _ => bind (poly_to_str p) (fun l => bind (deref_str l) (fun s => ret (negb (Nat.eqb (length s) 0))))
  | PFunc _ | PBuiltin _ => ret false
  | PJunk _ => undef
  end.

(** the operand at [ip], and where the next instruction starts *)
Definition read_arg (k : akind) (ip : nat) (code : list Z) : option (arg * nat) :=
  match k with
  | GNone => Some (ANone, ip)
  | GByte => match get_at 1 ip code with Some b => Some (AByte b, ip + 1)%nat | None => None end
  | GOff => match get_at (obytes w) ip code with Some v => Some (AOff v, ip + obytes w)%nat | None => None end
  | GNum => match get_at 4 ip code with Some v => Some (ANum (f_of_bits v), ip + 4)%nat | None => None end
  | GStep =>
      match get_at (obytes w) ip code, get_at 1 (ip + obytes w) code, get_at (obytes w) (ip + obytes w + 1) code with
      | Some v, Some d, Some i => Some (AStep v d i, ip + obytes w + 1 + obytes w)%nat
      | _, _, _ => None
      end
  end.

(** snek-exec.c 84-98 *)
Definition pop_float : M float := bind pop get_float.
Definition pop_soffset : M Z := bind pop (get_soffset E).
Definition soffset_to_poly (z : Z) : poly := float_to_poly (f_of_Z z).   (* snek.h 940-944 *)

(** snek-exec.c 103-151: snek_range_start *)
Definition range_start (nactual depth id : Z) : S unit :=
  let^ p := (if nactual =? 1 then
               let^ limit := lm pop_float in sret (Some (f_zero, limit, f_one))
             else if nactual =? 2 then
               let^ limit := lm pop_float in
               let^ current := lm pop_float in
               sret (Some (current, limit, f_one))
             else if nactual =? 3 then
               let^ step := lm pop_float in
               let^ limit := lm pop_float in
               let^ current := lm pop_float in
               if feq step f_zero then lm (error EStep) ^; sret None
               else sret (Some (current, limit, step))
             else lm (drop (Z.to_nat nactual)) ^; lm (error (EArgs 3 nactual)) ^; sret None) in
  match p with
  | None => sret tt
  | Some (current, limit, step) =>
      id_store E id (float_to_poly (fsub current step)) ^;
      id_store E (for_tmp w depth 0) (float_to_poly limit) ^;
      id_store E (for_tmp w depth 1) (float_to_poly step) ^;
      sret tt
  end.

(** snek-exec.c 156-185: snek_range_step *)
Definition range_step (depth id : Z) : S bool :=
  let^ i := id_ref E id false in
  let^ l := id_ref E (for_tmp w depth 0) false in
  let^ t := id_ref E (for_tmp w depth 1) false in
  match i, l, t with
  | Some i, Some l, Some t =>
      let^ p := read t in
      let^ step := lm (get_float p) in
      let^ p := read i in
      let^ x := lm (get_float p) in
      let value := fadd x step in
      write i (float_to_poly value) ^;
      let^ p := read l in
      let^ limit := lm (get_float p) in
      sret (negb (if flt f_zero step then fle limit value else fle value limit))
  | _, _, _ => sret false
  end.

(** snek-exec.c 190-237: snek_in_step *)
Definition in_step (depth id : Z) : S bool :=
  let^ r := id_ref E (for_tmp w depth 1) false in
  match r with
  | None => sundef
  | Some r =>
      let^ p := read r in
      let^ i := lm (get_soffset E p) in
      write r (soffset_to_poly (s_of w (i + 1))) ^;
      let^ a := id_ref E (for_tmp w depth 0) false in
      match a with
      | None => sundef
      | Some a =>
          let^ array := read a in
          let^ v := match array with
                    | PList _ =>
                        let^ l := lm (poly_to_list array) in
                        let^ o := lm (deref_list l) in
                        let^ i := (if lkind_eqb (lo_kind o) KDict
                                   then match sint (e_int E) (i * 2) with Ok i => sret (s_of w i) | _ => sundef end
                                   else sret i) in
                        if u_of w i <? lo_size o
                        then let^ v := lm (nth_data o (u_of w i)) in sret (Some v)
                        else sret (Some PNull)
                    | PStr _ =>
                        let^ s := lm (poly_to_str array) in
                        let^ v := lm (string_get E s (soffset_to_poly i) false) in sret (Some v)
                    | PJunk _ => sundef
                    | _ => lm (error (EType1 array)) ^; sret None
                    end in
          match v with
          | None => sret true
          | Some v => if is_null v then sret false else id_store E id v
          end
      end
  end.

(** snek-exec.c 486-573: snek_slice *)
Definition opt_pop (b : bool) : S (option Z) :=
  if b then let^ z := lm pop_soffset in sret (Some z) else sret None.
Definition slice_op (bits : Z) : S unit :=
  let^ stride := opt_pop (Z.testbit bits 2) in
  let^ end_ := opt_pop (Z.testbit bits 1) in
  let^ start := opt_pop (Z.testbit bits 0) in
  let^ a := lm pop in
  put_a a ^;
  let^ len := lm (poly_len a) in
  match snek_slice_setup w (e_int E) len start end_ stride with
  | UB => sundef
  | Err => lm (error EStep)
  | Ok s =>
      match a with
      | PStr _ =>
          let^ p := lm (poly_to_str a) in
          let^ r := lm (string_slice E p s) in
          let^ v := lm (str_to_poly r) in put_a v
      | PList _ =>
          let^ p := lm (poly_to_list a) in
          let^ r := lm (list_slice E p s) in
          let^ v := lm (list_to_poly r) in put_a v
      | PJunk _ => sundef
      | _ => sret tt
      end
  end.

(** snek-exec.c 588-666: snek_assign *)
Definition assign (o : op) (id : Z) : S unit :=
  match o with
  | KAssignNamed => assign_named E id
  | KAug n =>
      if id =? 0 then let^ a := get_a in let^ v := lm (augment_elem E T powf n a) in put_a v
      else augment_id E T powf n id
  | _ =>
      if id =? 0 then let^ a := get_a in let^ v := lm (assign_elem E a) in put_a v
      else assign_id E id
  end.

(** snek-exec.c 859-864 *)
Definition lnot_op (p : poly) : M poly :=
  bind (get_float p) (fun f =>
  match num_lnot f with
  | Ok (r, e) => bind (if e then error (EValue (PNum f)) else ret tt) (fun _ => ret (float_to_poly r))
  | _ => undef
  end).

(** the functions: snek_poly_to_func and the code behind them *)
Variable F : loc -> option (func (list Z)).

(** snek-exec.c 738-1000: one instruction, [o] being the opcode, [size] the
    size of the code, [next] where the instruction ends *)
Definition bin_ins (b : bop) : S unit :=
  let^ x := lm (pick 0) in
  let^ a := get_a in
  let^ r := lm (binary E T powf x b a false) in
  put_a r ^; lm (drop 1).
Definition branch_ins (when : bool) (t next : nat) (push : bool) : S flow :=
  let^ a := get_a in
  let^ b := lm (truth a) in
  sret (Go (if Bool.eqb b when then t else next) push).
Definition ins (o : op) (x : arg) (push : bool) (next size : nat) : S flow :=
  let next_ := sret (Go next push) in
  match o, x with
  | KChain c, AOff t =>
      let^ v := lm (pick 0) in
      let^ a := get_a in
      let^ r := lm (binary E T powf v (BCmp c) a false) in
      lm (drop 1) ^;
      let^ b := lm (truth r) in
      if b then next_ else put_a r ^; sret (Go (Z.to_nat t) false)
  | KBin b, ANone => bin_ins b ^; next_
  | KAug _, AOff id | KAssign, AOff id | KAssignNamed, AOff id => assign o id ^; next_
  | KNum, ANum f => put_a (PNum f) ^; next_
  | KInt, AByte b => put_a (PNum (f_of_Z (wraps 8 b))) ^; next_
  | KString, AOff v => put_a (PStr (Z.to_nat v)) ^; next_
  | KMake k, AOff n => let^ v := lm (list_imm E (Z.to_nat n) k) in put_a v ^; next_
  | KId, AOff id =>
      let^ r := id_ref E id false in
      (match r with
       | Some r => let^ v := read r in put_a v
       | None => match cf_names K id with
                 | Some v => put_a v
                 | None => lm (error (EUndefined id))
                 end
       end) ^; next_
  | KNot, ANone => let^ a := get_a in let^ b := lm (truth a) in put_a (bool_to_poly (negb b)) ^; next_
  | KUminus, ANone => let^ a := get_a in let^ f := lm (get_float a) in put_a (float_to_poly (num_uminus f)) ^; next_
  | KLnot, ANone => let^ a := get_a in let^ v := lm (lnot_op a) in put_a v ^; next_
  | KCall, AOff n =>
      let^ r := call_op E (cf_builtins K) F n in
      match r with None => next_ | Some f => sret (Call (fn_code f)) end
  | KSlice, AByte b => slice_op b ^; next_
  | KGlobal, AOff id => mark_global E id ^; next_
  | KDel, AOff id =>
      (if id =? 0 then
         let^ lp := lm pop in
         let^ a := get_a in
         lm (elem_del E lp a) ^;
         match lp with PList _ => put_a PNull | _ => sret tt end
       else let^ _ := id_del E id in sret tt) ^; next_
  | KReturn, ANone => sret (Go size push)
  | KAssert, ANone =>
      let^ a := get_a in
      let^ b := lm (truth a) in
      (if b then sret tt else lm (error EAssertion)) ^; put_a PNull ^; next_
  | KBranch, AOff t => sret (Go (Z.to_nat t) push)
  | KBranchTrue, AOff t => branch_ins true (Z.to_nat t) next push
  | KBranchFalse, AOff t => branch_ins false (Z.to_nat t) next push
  | KForward, ANone => lm (error ENotInLoop) ^; next_
  | KRangeStart, AStep n d id => range_start n d id ^; next_
  | KRangeStep, AStep t d id =>
      let^ b := range_step d id in sret (Go (if b then next else Z.to_nat t) push)
  | KInStep, AStep t d id =>
      let^ b := in_step d id in sret (Go (if b then next else Z.to_nat t) push)
  | KLine, AOff _ => next_
  | KNull, ANone => put_a PNull ^; next_
  | KNop, ANone => next_
  | _, _ => sundef
  end.

(** snek_frame's code and ip, for each frame, the current one first *)
Definition returns := list (list Z * nat).
Record vm := { v_s : st; v_code : list Z; v_ip : nat; v_links : returns }.
Inductive vres := Next (v : vm) | Done (s : st) | Aborted (s : st).
Definition aborted (s : st) : bool := m_abort (s_m s).

(** snek-exec.c 735-1037: one round of the loops.  snek_line is left out. *)
Definition step (v : vm) : option vres :=
  let code := v_code v in
  if Nat.ltb (v_ip v) (length code) then
    match nth_error code (v_ip v) with
    | None => None
    | Some b =>
        let push := byte_push b in
        match op_of (byte_op b) with
        | None =>                          (* no case of the switch *)
            if aborted (v_s v) then Some (Aborted (v_s v))
            else match (if push then lm (MachModel.push E (s_a (v_s v))) else sret tt) (v_s v) with
                 | None => None
                 | Some (_, s) => Some (Next {| v_s := s; v_code := code; v_ip := Datatypes.S (v_ip v); v_links := v_links v |})
                 end
        | Some o =>
            match read_arg (arg_kind o) (Datatypes.S (v_ip v)) code with
            | None => None
            | Some (x, next) =>
                match ins o x push next (length code) (v_s v) with
                | None => None
                | Some (fl, s) =>
                    if aborted s then Some (Aborted s)
                    else match fl with
                         | Call code' =>
                             Some (Next {| v_s := s; v_code := code'; v_ip := 0; v_links := (code, v_ip v) :: v_links v |})
                         | Go ip push =>
                             match (if push then lm (MachModel.push E (s_a s)) else sret tt) s with
                             | None => None
                             | Some (_, s) => Some (Next {| v_s := s; v_code := code; v_ip := ip; v_links := v_links v |})
                             end
                         end
                end
            end
        end
    end
  else
    match v_links v with
    | [] => Some (Done (v_s v))
    | (code, ip) :: links =>
        match nth_error code ip, frame_pop (v_s v) with
        | Some b, Some (_, s) =>
            match (if byte_push b then lm (MachModel.push E (s_a s)) else sret tt) s with
            | None => None
            | Some (_, s) => Some (Next {| v_s := s; v_code := code; v_ip := ip + obytes w + 1; v_links := links |})
            end
        | _, _ => None
        end
    end.

(** snek-exec.c 717-1044: snek_exec on code that is there; [None] undefined or
    out of fuel *)
Fixpoint run (fuel : nat) (v : vm) : option vres :=
  match fuel with
  | O => None
  | Datatypes.S fuel =>
      match step v with
      | Some (Next v) => run fuel v
      | r => r
      end
  end.
Definition exec (fuel : nat) (code : list Z) (s : st) : option (poly * st) :=
  match run fuel {| v_s := s; v_code := code; v_ip := 0; v_links := [] |} with
  | Some (Done s') | Some (Aborted s') =>
      Some (s_a s', set_a PNull (set_frames [] (set_m (set_stack (m_stack (s_m s')) (m_sp (s_m s)) (s_m s')) s')))
  | _ => None
  end.
End WithConf.
