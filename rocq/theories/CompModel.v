(** The compiler: the actions of snek-gram.ll with snek-parse.c 150-215.  The
    parser is generated by lola, which is not in the repository; the model
    starts from the derivation tree and runs the actions in its order.  The
    value stack of the actions is left out: what one action pushes and another
    pops is passed along (its overflow, at 127 entries, is not modelled). *)
From Coq Require Import ZArith Bool List.
From Verif Require Import Base FloatModel PolyModel ValueModel MathModel MachModel BinModel CodeModel.
Import ListNotations.
Local Open Scope Z_scope.
Local Open Scope outcome_scope.

(** * Derivation trees *)
Inductive unop := UNot | UMinus | ULnot | UPlus.
Definition is_lnk (b : bop) : bool := match b with BArray | BNum _ => false | _ => true end.

(** snek-gram.ll 292-612.  Strings and names are given by their objects and
    ids.  [ECmp] is a chain of one or more comparisons, [ESlice] has the parts
    that are present. *)
Inductive expr :=
| ENum (f : float)
| EStr (l : nat) (ls : list nat)
| EId (id : Z)
| EList (a : args)
| ETuple (a : args)
| EDict (d : dents)
| EBin (n : numop) (x y : expr)
| EUn (u : unop) (x : expr)
| EIndex (x i : expr)
| ESlice (x : expr) (a b c : oexpr)
| ECall (f : expr) (a : args)
| EAnd (x y : expr)
| EOr (x y : expr)
| ECmp (x : expr) (l : links)
with args := ANil | APos (e : expr) (r : args) | ANamed (id : Z) (e : expr) (r : args)
with dents := DNil | DCons (k v : expr) (r : dents)
with oexpr := ONone | OSome (e : expr)
with links := LLast (b : bop) (y : expr) | LMore (b : bop) (y : expr) (l : links).

(** what can be assigned to or deleted *)
Inductive target := TId (id : Z) | TElem (l i : expr).

(** snek-gram.ll 82-291.  [SLine] is the snek_code_add_line() before a
    statement; a suite is a sequence; [SSkip] is pass and the missing else of a
    loop.  The line of [RElif] is the one added with elif. *)
Inductive stmt :=
| SSkip
| SSeq (s t : stmt)
| SLine (n : Z)
| SExpr (e : expr)
| SAssign (a : option numop) (t : target) (e : expr)
| SDel (t : target)
| SReturn (e : oexpr)
| SBreak
| SContinue
| SGlobal (id : Z)
| SAssert (e : expr)
| SIf (c : expr) (s : stmt) (r : rest)
| SWhile (c : expr) (s els : stmt)
| SRange (id : Z) (a : args) (s els : stmt)
| SFor (id : Z) (e : expr) (s els : stmt)
with rest := RNone | RElse (s : stmt) | RElif (line : Z) (c : expr) (s : stmt) (r : rest).

(** a function: its formals, with or without default, and its body *)
Record fundef := { fd_formals : list (Z * oexpr); fd_body : stmt }.

Section Gen.
Variable w : width.
Variable i8 : float -> Z.

Notation G := (cbuf -> outcome cbuf).
Definition seqg {A} (x : outcome A) (f : A -> outcome cbuf) : outcome cbuf := obind x f.
Definition unop_code (u : unop) : op :=
  match u with UNot => KNot | UMinus => KUminus | _ => KLnot end.
Definition push_prev (c : cbuf) : outcome cbuf := set_push (c_prev c) c.

(** snek-gram.ll 513-532: strings-p *)
Fixpoint gen_strings (ls : list nat) (c : cbuf) : outcome cbuf :=
  match ls with
  | [] => Ok c
  | l :: ls' => let! c := push_prev c in gen_strings ls' (add_op (KBin (BNum Nplus)) (add_string w l c))
  end.

(** snek-gram.ll 339-350: before an operand of a comparison: the previous
    comparison becomes a link of a chain, or the start of the chain is noted *)
Definition chain_start (cmp_off : nat) (c : cbuf) : outcome (nat * cbuf) :=
  if Nat.eqb cmp_off 0 then Ok (c_prev c, c)
  else match nth_error (c_buf c) (c_prev c) with
       | None => UB
       | Some prev_cmp => Ok (cmp_off, add_forward_op w FCmp (prev_cmp + 6) (delete_prev c))
       end.

(** snek-gram.ll 292-612 *)
Fixpoint gen (e : expr) (c : cbuf) {struct e} : outcome cbuf :=
  match e with
  | ENum f => Ok (add_number i8 f c)
  | EStr l ls => gen_strings ls (add_string w l c)
  | EId id => Ok (add_off w KId id c)
  | EList a =>
      let! (n, c) := gen_args a 0 c in
      if 256 <=? n then Err else Ok (add_off w (KMake KList) n c)
  | ETuple a =>
      match a with
      | ANil => Ok (add_off w (KMake KTuple) 0 c)
      | APos e a =>
          let! c := gen e c in
          let! c := push_prev c in
          let! (n, c) := gen_args a 0 c in
          if 256 <=? n then Err else Ok (add_off w (KMake KTuple) (n + 1) c)
      | ANamed _ _ _ => Err
      end
  | EDict d => let! (n, c) := gen_dents d 0 c in Ok (add_off w (KMake KDict) n c)
  | EBin n x y =>
      let! c := gen x c in
      let! c := push_prev c in
      let! c := gen y c in
      Ok (add_op (KBin (BNum n)) c)
  | EUn UPlus x => gen x c
  | EUn u x => let! c := gen x c in Ok (add_op (unop_code u) c)
  | EIndex x i =>
      let! c := gen x c in
      let! c := push_prev c in
      let! c := gen i c in
      Ok (add_op (KBin BArray) c)
  | ESlice x a b s =>
      let! c := gen x c in
      let! c := push_prev c in
      let! (fa, c) := (match a with
                       | ONone => Ok (0, c)
                       | OSome e => let! c := gen e c in Ok (1, c)
                       end) in
      let! (fb, c) := gen_opt b c in
      let! (fs, c) := gen_opt s c in
      let! c := push_prev c in
      Ok (add_u8 KSlice (fa * 1 + fb * 2 + fs * 4) c)
  | ECall f a =>
      let! c := gen f c in
      let! c := push_prev c in
      let! (n, c) := gen_args a 0 c in
      Ok (add_off w KCall n c)
  | EAnd x y =>
      let! c := gen x c in
      let c := add_off w KBranchFalse 0 c in
      let off := c_prev c in
      let! c := gen y c in
      let! c := patch_branch w off (Z.of_nat (c_size c)) c in
      Ok (add_op KNop c)
  | EOr x y =>
      let! c := gen x c in
      let c := add_off w KBranchTrue 0 c in
      let off := c_prev c in
      let! c := gen y c in
      let! c := patch_branch w off (Z.of_nat (c_size c)) c in
      Ok (add_op KNop c)
  | ECmp x l =>
      let! c := gen x c in
      let! (cmp_off, c) := gen_links l O c in
      if Nat.eqb cmp_off 0 then Ok c
      else
        let! c := patch_forward w cmp_off (c_size c) FCmp (Z.of_nat (c_size c)) c in
        Ok (add_op KNop c)
  end
(** 539-600: actuals; the number so far, 256 for each named one *)
with gen_args (a : args) (n : Z) (c : cbuf) {struct a} : outcome (Z * cbuf) :=
  match a with
  | ANil => Ok (n, c)
  | APos e r =>
      let! c := gen e c in
      if 256 <=? n then Err
      else let! c := push_prev c in gen_args r (n + 1) c
  | ANamed id e r =>
      let c := delete_prev (add_off w KId id c) in
      let c := add_number i8 (f_of_Z id) c in
      let! c := push_prev c in
      let! c := gen e c in
      let! c := push_prev c in
      gen_args r (u_of w (n + 256)) c
  end
(** 591-612: dict-ents *)
with gen_dents (d : dents) (n : Z) (c : cbuf) {struct d} : outcome (Z * cbuf) :=
  match d with
  | DNil => Ok (n, c)
  | DCons k v r =>
      let! c := gen k c in
      let! c := push_prev c in
      let! c := gen v c in
      let! c := push_prev c in
      gen_dents r (u_of w (n + 2)) c
  end
(** 470-481: opt-expr *)
with gen_opt (o : oexpr) (c : cbuf) {struct o} : outcome (Z * cbuf) :=
  match o with
  | ONone => Ok (0, c)
  | OSome e => let! c := push_prev c in let! c := gen e c in Ok (1, c)
  end
(** 325-356: expr-cmp-p *)
with gen_links (l : links) (cmp_off : nat) (c : cbuf) {struct l} : outcome (nat * cbuf) :=
  match l with
  | LLast b y =>
      let! (cmp_off, c) := chain_start cmp_off c in
      let! c := push_prev c in
      let! c := gen y c in
      Ok (cmp_off, add_op (KBin b) c)
  | LMore b y l =>
      let! (cmp_off, c) := chain_start cmp_off c in
      let! c := push_prev c in
      let! c := gen y c in
      gen_links l cmp_off (add_op (KBin b) c)
  end.

Definition assign_op (a : option numop) : op := match a with None => KAssign | Some n => KAug n end.

(** 118-166: what is assigned to is compiled like any expression, and its last
    instruction then removed.  [del] is true for del. *)
Definition gen_target (t : target) (del : bool) (c : cbuf) : outcome (Z * cbuf) :=
  match t with
  | TId id => Ok (id, delete_prev (add_off w KId id c))
  | TElem l i =>
      let! c := gen (EIndex l i) c in
      let! c := (if del then Ok c else set_push (c_pprev c) c) in
      Ok (0, delete_prev c)
  end.

(** snek-parse.c 177-188: patch_loop *)
Definition patch_loop (top while_off loop_end else_off : nat) (c : cbuf) : outcome cbuf :=
  let! c := patch_branch w while_off (Z.of_nat else_off) c in
  let! c := patch_branch w loop_end (Z.of_nat top) c in
  let! c := patch_forward w while_off loop_end FContinue (Z.of_nat top) c in
  patch_forward w while_off loop_end FBreak (Z.of_nat (c_size c)) c.

(** 82-291; [d] is for_depth *)
Fixpoint gen_stmt (d : Z) (s : stmt) (c : cbuf) {struct s} : outcome cbuf :=
  match s with
  | SSkip => Ok c
  | SSeq s t => let! c := gen_stmt d s c in gen_stmt d t c
  | SLine n => Ok (add_line w n c)
  | SExpr e => gen e c
  | SAssign a t e =>
      let! (id, c) := gen_target t false c in
      let! c := gen e c in
      Ok (add_off w (assign_op a) id c)
  | SDel t => let! (id, c) := gen_target t true c in Ok (add_off w KDel id c)
  | SReturn o =>
      let! c := (match o with ONone => Ok (add_op KNull c) | OSome e => gen e c end) in
      Ok (add_op KReturn c)
  | SBreak => Ok (add_forward w FBreak c)
  | SContinue => Ok (add_forward w FContinue c)
  | SGlobal id => Ok (add_off w KGlobal id c)
  | SAssert e => let! c := gen e c in Ok (add_op KAssert c)
  | SIf e s r =>
      let! c := gen e c in
      let c := add_off w KBranchFalse 0 c in
      let if_off := c_prev c in
      let! c := gen_stmt d s c in
      let! (else_off, c) := gen_rest d r c in
      let! c := patch_branch w if_off (Z.of_nat else_off) c in
      patch_forward w if_off (c_size c) FIf (Z.of_nat (c_size c)) c
  | SWhile e s els =>
      let top := c_size c in
      let! c := gen e c in
      let c := add_off w KBranchFalse 0 c in
      let while_off := c_prev c in
      let! c := gen_stmt d s c in
      let c := add_off w KBranch 0 c in
      let loop_end := c_prev c in
      let else_off := c_size c in
      let! c := gen_stmt d els c in
      patch_loop top while_off loop_end else_off c
  | SRange id a s els =>
      let! (n, c) := gen_args a 0 c in
      if 256 <=? n then Err
      else
        let c := add_in_range w id n d c in
        let for_off := c_prev c in
        let! c := gen_stmt (d + 1) s c in
        let c := add_off w KBranch 0 c in
        let loop_end := c_prev c in
        let else_off := c_size c in
        let! c := gen_stmt d els c in
        patch_loop for_off for_off loop_end else_off c
  | SFor id e s els =>
      let! c := gen e c in
      let c := add_in_enum w i8 id d c in
      let for_off := c_prev c in
      let! c := gen_stmt (d + 1) s c in
      let c := add_off w KBranch 0 c in
      let loop_end := c_prev c in
      let else_off := c_size c in
      let! c := gen_stmt d els c in
      patch_loop for_off for_off loop_end else_off c
  end
(** 187-210: elif-stats; where the rest starts *)
with gen_rest (d : Z) (r : rest) (c : cbuf) {struct r} : outcome (nat * cbuf) :=
  match r with
  | RNone => Ok (c_size c, c)
  | RElse s =>
      let c := add_forward w FIf c in
      let off := c_size c in
      let! c := gen_stmt d s c in
      Ok (off, c)
  | RElif line e s r =>
      let c := add_forward w FIf (add_line w line c) in
      let off := c_size c in
      let! c := gen e c in
      let c := add_off w KBranchFalse 0 c in
      let if_off := c_prev c in
      let! c := gen_stmt d s c in
      let! (else_off, c) := gen_rest d r c in
      let! c := patch_branch w if_off (Z.of_nat else_off) c in
      Ok (off, c)
  end.

(** 59-81: formals; 37-43: the end of a definition *)
Fixpoint gen_formals (fs : list (Z * oexpr)) (c : cbuf) : outcome cbuf :=
  match fs with
  | [] => Ok c
  | (id, ONone) :: fs' => gen_formals fs' c
  | (id, OSome e) :: fs' =>
      let! c := gen e c in
      gen_formals fs' (add_off w KAssignNamed id c)
  end.
Definition gen_def (f : fundef) (c : cbuf) : outcome (list Z) :=
  let! c := gen_formals (fd_formals f) (code_reset c) in
  let! c := gen_stmt 0 (fd_body f) c in
  match nth_error (c_buf c) (c_prev c) with
  | None => UB
  | Some b => Ok (c_buf (if b =? op_code KReturn then delete_prev c else add_op KNull c))
  end.
(** 18-23: a command *)
Definition gen_command (s : stmt) (c : cbuf) : outcome (list Z) :=
  let! c := gen_stmt 0 s (code_reset c) in
  Ok (c_buf c).
End Gen.
