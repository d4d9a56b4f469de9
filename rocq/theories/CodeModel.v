(** Instructions, the compiler's buffer and the walks over it: snek.h 92-177,
    400-490, 1064-1091, snek-code.c. *)
From Coq Require Import ZArith Bool List.
From Verif Require Import Base FloatModel PolyModel ValueModel MathModel MachModel BinModel.
Import ListNotations.
Local Open Scope Z_scope.
Local Open Scope outcome_scope.

(** * Opcodes: snek.h 92-170 *)
Inductive op :=
| KBin (b : bop)                  (* snek_op_eq .. snek_op_le, snek_op_is .. snek_op_rshift *)
| KChain (c : cmpop)
| KAug (n : numop)                (* snek_op_assign_plus .. snek_op_assign_rshift *)
| KAssign | KAssignNamed | KNum | KInt | KString | KMake (k : lkind)   (* list, tuple, dict *)
| KId | KNot | KUminus | KLnot | KCall | KSlice | KGlobal | KDel | KAssert
| KBranch | KBranchTrue | KBranchFalse | KForward | KRangeStart | KRangeStep | KInStep
| KReturn | KLine | KNull | KNop.

Definition all_cmps : list cmpop := [OEq; ONe; OGt; OLt; OGe; OLe].
Definition all_nums : list numop :=
  [Nplus; Nminus; Ntimes; Ndivide; Ndiv; Nmod; Npow; Nland; Nlor; Nlxor; Nlshift; Nrshift].
(** the enumeration, in order *)
Definition all_ops : list op :=
  map (fun c => KBin (BCmp c)) all_cmps ++ map KChain all_cmps ++
  map KBin [BIs; BIsNot; BIn; BNotIn; BArray] ++ map (fun n => KBin (BNum n)) all_nums ++
  map KAug all_nums ++
  [KAssign; KAssignNamed; KNum; KInt; KString; KMake KList; KMake KTuple; KMake KDict;
   KId; KNot; KUminus; KLnot; KCall; KSlice; KGlobal; KDel; KAssert;
   KBranch; KBranchTrue; KBranchFalse; KForward; KRangeStart; KRangeStep; KInStep;
   KReturn; KLine; KNull; KNop].
Definition op_of (z : Z) : option op := if z <? 0 then None else nth_error all_ops (Z.to_nat z).
Definition cmp_code (c : cmpop) : Z :=
  match c with OEq => 0 | ONe => 1 | OGt => 2 | OLt => 3 | OGe => 4 | OLe => 5 end.
Definition num_code (n : numop) : Z :=
  match n with
  | Nplus => 0 | Nminus => 1 | Ntimes => 2 | Ndivide => 3 | Ndiv => 4 | Nmod => 5 | Npow => 6
  | Nland => 7 | Nlor => 8 | Nlxor => 9 | Nlshift => 10 | Nrshift => 11
  end.
Definition op_code (o : op) : Z :=
  match o with
  | KBin (BCmp c) => cmp_code c
  | KChain c => 6 + cmp_code c
  | KBin BIs => 12 | KBin BIsNot => 13 | KBin BIn => 14 | KBin BNotIn => 15 | KBin BArray => 16
  | KBin (BNum n) => 17 + num_code n
  | KAug n => 29 + num_code n
  | KAssign => 41 | KAssignNamed => 42 | KNum => 43 | KInt => 44 | KString => 45
  | KMake KList => 46 | KMake KTuple => 47 | KMake KDict => 48
  | KId => 49 | KNot => 50 | KUminus => 51 | KLnot => 52 | KCall => 53 | KSlice => 54
  | KGlobal => 55 | KDel => 56 | KAssert => 57
  | KBranch => 58 | KBranchTrue => 59 | KBranchFalse => 60 | KForward => 61
  | KRangeStart => 62 | KRangeStep => 63 | KInStep => 64
  | KReturn => 65 | KLine => 66 | KNull => 67 | KNop => 68
  end.
(** snek_op_push, 0x80 *)
Definition op_byte (o : op) (push : bool) : Z := op_code o + if push then 128 else 0.
Definition byte_op (b : Z) : Z := b mod 128.
Definition byte_push (b : Z) : bool := 128 <=? b mod 256.

(** snek.h 172-177 *)
Inductive fwd := FBreak | FContinue | FIf | FCmp.
Definition fwd_code (f : fwd) : Z := match f with FBreak => 0 | FContinue => 1 | FIf => 2 | FCmp => 3 end.

(** * Bytes *)
Definition obytes (w : width) : nat := match w with W16 => 2 | W32 => 4 end.
Fixpoint le_bytes (n : nat) (v : Z) : list Z :=
  match n with O => [] | S n' => v mod 256 :: le_bytes n' (v / 256) end.
Fixpoint le_val (l : list Z) : Z := match l with [] => 0 | b :: l' => b + 256 * le_val l' end.
(** the [n]-byte number at [ip]; [None]: not all of it is there *)
Definition get_at (n ip : nat) (code : list Z) : option Z :=
  let l := firstn n (skipn ip code) in
  if Nat.eqb (length l) n then Some (le_val l) else None.
(** memcpy into the buffer *)
Definition put_at (ip : nat) (bs code : list Z) : outcome (list Z) :=
  match blit ip bs code with Some c => Ok c | None => UB end.

Section Width.
Variable w : width.

(** snek-code.c 38-89: snek_op_operand_size *)
Definition operand_size (c : Z) : nat :=
  if c =? 43 then 4
  else if c =? 44 then 1
  else if (45 <=? c) && (c <=? 47) then obytes w
  else if (c =? 49) || (c =? 55) || (c =? 56) || ((29 <=? c) && (c <=? 42)) then obytes w
  else if c =? 53 then obytes w
  else if c =? 54 then 1
  else if ((6 <=? c) && (c <=? 11)) || ((58 <=? c) && (c <=? 61)) || (c =? 66) then obytes w
  else if (62 <=? c) && (c <=? 64) then obytes w + 1 + obytes w
  else 0.

(** * The buffer: snek-code.c 21-32.  Simplified: there is always memory to
    extend it, so compile_alloc is left out. *)
Record cbuf := { c_buf : list Z; c_prev : nat; c_pprev : nat }.
Definition c_size (c : cbuf) : nat := length (c_buf c).
Definition set_buf (b : list Z) (c : cbuf) : cbuf := {| c_buf := b; c_prev := c_prev c; c_pprev := c_pprev c |}.

(** snek-code.c 97-110: compile_extend *)
Definition extend (bs : list Z) (c : cbuf) : cbuf := set_buf (c_buf c ++ bs) c.
(** snek-code.c 118-123: snek_code_delete_prev *)
Definition delete_prev (c : cbuf) : cbuf :=
  {| c_buf := firstn (c_prev c) (c_buf c); c_prev := c_pprev c; c_pprev := c_pprev c |}.
(** snek-code.c 128-134: snek_code_add_op; [b] is the byte *)
Definition add_byte (b : Z) (c : cbuf) : cbuf :=
  {| c_buf := c_buf c ++ [b]; c_prev := c_size c; c_pprev := c_prev c |}.
Definition add_op (o : op) : cbuf -> cbuf := add_byte (op_code o).
(** snek-code.c 140-145: snek_code_add_op_offset; snek.h 438-442 *)
Definition add_off (o : op) (v : Z) (c : cbuf) : cbuf := extend (le_bytes (obytes w) v) (add_op o c).
(** snek-code.c 151-156: snek_code_add_op_uint8; snek.h 467-471 *)
Definition add_u8 (o : op) (v : Z) (c : cbuf) : cbuf := extend [v mod 256] (add_op o c).
(** snek-code.c 164-174: snek_code_add_number.  Converting a float outside
    int8_t is undefined in C; whatever it gives, [i8], is checked. *)
Definition add_number (i8 : float -> Z) (f : float) (c : cbuf) : cbuf :=
  let i := i8 f in
  if feq (f_of_Z i) f then add_u8 KInt (i mod 256) c
  else extend (le_bytes 4 (bits_of_f f)) (add_op KNum c).
(** snek-code.c 179-188: snek_code_add_string.  The operand is the pool offset
    of the string; in the model it is the number of the object. *)
Definition add_string (l : nat) (c : cbuf) : cbuf := add_off KString (Z.of_nat l) c.
(** snek.h 444-456: snek_code_add_forward_op, snek_code_add_forward *)
Definition add_forward_op (f : fwd) (o : Z) (c : cbuf) : cbuf := add_off KForward (fwd_code f + 256 * o) c.
Definition add_forward (f : fwd) (c : cbuf) : cbuf := add_forward_op f (op_code KBranch) c.
(** an instruction with offset, depth and id *)
Definition add_step (o : op) (v depth id : Z) (c : cbuf) : cbuf :=
  extend (le_bytes (obytes w) id) (extend [depth mod 256] (add_off o v c)).
(** snek.h 63-68, 410-415: snek_for_tmp *)
Definition for_tmp (depth i : Z) : Z := u_of w (2 ^ wbits w - 5 - (depth mod 256 * 2 + i)).
(** snek-code.c 193-206: snek_code_add_in_range *)
Definition add_in_range (id nactual depth : Z) (c : cbuf) : cbuf :=
  add_step KRangeStep 0 depth id (add_step KRangeStart (nactual mod 256) depth id c).
(** snek-code.c 211-237: snek_code_add_in_enum *)
Definition add_in_enum (i8 : float -> Z) (id depth : Z) (c : cbuf) : cbuf :=
  let c := add_off KAssign (for_tmp depth 0) c in
  let c := add_number i8 f_zero c in
  let c := add_off KAssign (for_tmp depth 1) c in
  add_step KInStep 0 depth id c.
(** snek-code.c 239-243: snek_code_add_line *)
Definition add_line (line : Z) (c : cbuf) : cbuf := add_off KLine line c.

(** snek.h 1087-1091: snek_code_set_push *)
Definition set_push (off : nat) (c : cbuf) : outcome cbuf :=
  match nth_error (c_buf c) off with
  | None => UB
  | Some b => Ok (set_buf (upd off (byte_op b + 128) (c_buf c)) c)
  end.
(** snek.h 482-486: snek_code_patch_branch *)
Definition patch_branch (branch : nat) (target : Z) (c : cbuf) : outcome cbuf :=
  let! b := put_at (branch + 1) (le_bytes (obytes w) target) (c_buf c) in
  Ok (set_buf b c).

(** snek-code.c 248-273: snek_code_patch_forward.  [fuel] bounds the number of
    instructions. *)
Fixpoint patch_loop_ (fuel : nat) (ip stop : nat) (f : fwd) (target : Z) (buf : list Z) : outcome (list Z) :=
  if Nat.ltb ip stop then
    match fuel with
    | O => UB
    | S fuel' =>
        match nth_error buf ip with
        | None => UB
        | Some b =>
            let o := byte_op b in
            let ip1 := S ip in
            let! buf :=
              (if o =? op_code KForward then
                 match get_at (obytes w) ip1 buf with
                 | None => UB
                 | Some v =>
                     if v mod 256 =? fwd_code f
                     then let! buf := put_at ip1 (le_bytes (obytes w) target) buf in
                          Ok (upd ip (Z.lor (v / 256) (if byte_push b then 128 else 0) mod 256) buf)
                     else Ok buf
                 end
               else Ok buf) in
            patch_loop_ fuel' (ip1 + operand_size o) stop f target buf
        end
    end
  else Ok buf.
Definition patch_forward (start stop : nat) (f : fwd) (target : Z) (c : cbuf) : outcome cbuf :=
  let! b := patch_loop_ (S stop) start stop f target (c_buf c) in
  Ok (set_buf b c).

(** snek-code.c 276-282: snek_code_reset (the offsets of the previous
    instructions stay) *)
Definition code_reset (c : cbuf) : cbuf := set_buf [] c.

(** The loop of code_mark, code_move and patch_forward (snek-code.c 251-272,
    342-376): the places where instructions are seen *)
Fixpoint walk (fuel : nat) (ip : nat) (code : list Z) : list nat :=
  match fuel with
  | O => []
  | S fuel' =>
      match nth_error code ip with
      | None => []
      | Some b => ip :: walk fuel' (S ip + operand_size (byte_op b)) code
      end
  end.
(** snek-code.c 307-323: snek_code_line; the opcode is not masked *)
Fixpoint code_line_ (fuel : nat) (ip : nat) (code : list Z) : option Z :=
  match fuel with
  | O => Some 0
  | S fuel' =>
      match nth_error code ip with
      | None => Some 0
      | Some b => if b =? op_code KLine then get_at (obytes w) (S ip) code
                  else code_line_ fuel' (S ip + operand_size b) code
      end
  end.
Definition code_line (code : list Z) : option Z := code_line_ (S (length code)) 0 code.
End Width.
