(** The layout of compiled code: which instructions stand where, given by the
    structure of the program alone, with final branch targets. *)
From Coq Require Import ZArith Bool List.
From Verif Require Import Base FloatModel PolyModel ValueModel MathModel MachModel BinModel CodeModel CompModel FrameModel ExecModel.
Import ListNotations.
Local Open Scope Z_scope.

Record instr := I { i_op : op; i_push : bool; i_arg : arg }.

Section Layout.
Variable w : width.
Variable i8 : float -> Z.

Definition arg_bytes (a : arg) : list Z :=
  match a with
  | ExecModel.ANone => []
  | AByte b => [b mod 256]
  | AOff v => le_bytes (obytes w) v
  | ANum f => le_bytes 4 (bits_of_f f)
  | AStep v d id => le_bytes (obytes w) v ++ [d mod 256] ++ le_bytes (obytes w) id
  end.
Definition enc (i : instr) : list Z := op_byte (i_op i) (i_push i) :: arg_bytes (i_arg i).
Definition encs (l : list instr) : list Z := concat (map enc l).
Definition size (l : list instr) : nat := length (encs l).
(** where the instructions start, the first one at [b] *)
Fixpoint starts (b : nat) (l : list instr) : list nat :=
  match l with [] => [] | i :: l' => b :: starts (b + length (enc i)) l' end.

(** * Expressions *)
Definition osize : nat := 1 + obytes w.        (* an instruction with an offset *)
Definition io (o : op) (p : bool) (v : Z) : instr := I o p (AOff v).
Definition i0 (o : op) (p : bool) : instr := I o p ExecModel.ANone.
Definition inum (p : bool) (f : float) : instr :=
  if feq (f_of_Z (i8 f)) f then I KInt p (AByte (i8 f mod 256)) else I KNum p (ANum f).

Fixpoint cstrs (p : bool) (ls : list nat) : list instr :=
  match ls with
  | [] => []
  | l :: ls' => io KString false (Z.of_nat l) ::
                i0 (KBin (BNum Nplus)) (p || match ls' with [] => false | _ => true end) :: cstrs p ls'
  end.
Fixpoint nargs (a : args) : Z := match a with ANil => 0 | APos _ r => 1 + nargs r | ANamed _ _ r => 256 + nargs r end.
Fixpoint ndents (d : dents) : Z := match d with DNil => 0 | DCons _ _ r => 2 + ndents r end.
Definition obit (o : oexpr) : Z := match o with ONone => 0 | OSome _ => 1 end.

(** [comp p b e]: the code of [e] at [b]; [p] is whether its value is pushed *)
Fixpoint comp (p : bool) (b : nat) (e : expr) : list instr :=
  match e with
  | ENum f => [inum p f]
  | EStr l ls => io KString (p || match ls with [] => false | _ => true end) (Z.of_nat l) :: cstrs p ls
  | EId id => [io KId p id]
  | EList a => cargs b a ++ [io (KMake KList) p (nargs a)]
  | ETuple a => cargs b a ++ [io (KMake KTuple) p (nargs a)]
  | EDict d => cdents b d ++ [io (KMake KDict) p (ndents d)]
  | EBin n x y =>
      let cx := comp true b x in
      cx ++ comp false (b + size cx) y ++ [i0 (KBin (BNum n)) p]
  | EUn UPlus x => comp p b x
  | EUn u x => comp false b x ++ [i0 (unop_code u) p]
  | EIndex x i =>
      let cx := comp true b x in
      cx ++ comp false (b + size cx) i ++ [i0 (KBin BArray) p]
  | ESlice x l m n =>
      let cx := comp true b x in
      let b1 := (b + size cx)%nat in
      let cl := copt b1 l in
      let b2 := (b1 + size cl)%nat in
      let cm := copt b2 m in
      let b3 := (b2 + size cm)%nat in
      cx ++ cl ++ cm ++ copt b3 n ++ [I KSlice p (AByte (obit l * 1 + obit m * 2 + obit n * 4))]
  | ECall f a =>
      let cf := comp true b f in
      cf ++ cargs (b + size cf) a ++ [io KCall p (nargs a)]
  | EAnd x y =>
      let cx := comp false b x in
      let b1 := (b + size cx + osize)%nat in
      let cy := comp false b1 y in
      cx ++ [io KBranchFalse false (Z.of_nat (b1 + size cy))] ++ cy ++ [i0 KNop p]
  | EOr x y =>
      let cx := comp false b x in
      let b1 := (b + size cx + osize)%nat in
      let cy := comp false b1 y in
      cx ++ [io KBranchTrue false (Z.of_nat (b1 + size cy))] ++ cy ++ [i0 KNop p]
  | ECmp x l =>
      let cx := comp true b x in
      let b1 := (b + size cx)%nat in
      cx ++ clinks (Some (b1 + size (clinks None b1 l))%nat) b1 l ++ [i0 KNop p]
  end
with cargs (b : nat) (a : args) : list instr :=
  match a with
  | ANil => []
  | APos e r => let ce := comp true b e in ce ++ cargs (b + size ce) r
  | ANamed id e r =>
      let cn := [inum true (f_of_Z id)] in
      let b1 := (b + size cn)%nat in
      let ce := comp true b1 e in
      cn ++ ce ++ cargs (b1 + size ce) r
  end
with cdents (b : nat) (d : dents) : list instr :=
  match d with
  | DNil => []
  | DCons k v r =>
      let ck := comp true b k in
      let b1 := (b + size ck)%nat in
      let cv := comp true b1 v in
      ck ++ cv ++ cdents (b1 + size cv) r
  end
with copt (b : nat) (o : oexpr) : list instr :=
  match o with ONone => [] | OSome e => comp true b e end
(** [t] is the end of the chain, [None] while it is not known *)
with clinks (t : option nat) (b : nat) (l : links) : list instr :=
  match l with
  | LLast k y => comp false b y ++ [i0 (KBin k) false]
  | LMore k y l =>
      let cy := comp false b y in
      cy ++ [match t with
             | Some t => io (match k with BCmp c => KChain c | _ => KNop end) true (Z.of_nat t)
             | None => io KForward true (fwd_code FCmp + 256 * (op_code (KBin k) + 6))
             end] ++ clinks t (b + size cy + osize) l
  end.

(** * Statements *)
Definition jump (t : option nat) (f : fwd) : instr :=
  match t with
  | Some t => io KBranch false (Z.of_nat t)
  | None => io KForward false (fwd_code f + 256 * op_code KBranch)
  end.
(** where the rest of an [if] starts, relative to where it is entered after
    the body *)
Definition relse (r : rest) : nat :=
  match r with RNone => 0 | RElse _ => osize | RElif _ _ _ _ => osize + osize end.

(** [k] and [c]: the targets of break and continue, if there is a loop *)
Fixpoint cstmt (d : Z) (b : nat) (k c : option nat) (s : stmt) : list instr :=
  match s with
  | SSkip => []
  | SSeq s t => let cs := cstmt d b k c s in cs ++ cstmt d (b + size cs) k c t
  | SLine n => [io KLine false n]
  | SExpr e => comp false b e
  | SAssign a (TId id) e => comp false b e ++ [io (assign_op a) false id]
  | SAssign a (TElem l i) e =>
      let cl := comp true b l in
      let b1 := (b + size cl)%nat in
      let ci := comp true b1 i in
      cl ++ ci ++ comp false (b1 + size ci) e ++ [io (assign_op a) false 0]
  | SDel (TId id) => [io KDel false id]
  | SDel (TElem l i) =>
      let cl := comp true b l in
      cl ++ comp false (b + size cl) i ++ [io KDel false 0]
  | SReturn ONone => [i0 KNull false; i0 KReturn false]
  | SReturn (OSome e) => comp false b e ++ [i0 KReturn false]
  | SBreak => [jump k FBreak]
  | SContinue => [jump c FContinue]
  | SGlobal id => [io KGlobal false id]
  | SAssert e => comp false b e ++ [i0 KAssert false]
  | SIf e s r =>
      let ce := comp false b e in
      let b1 := (b + size ce + osize)%nat in
      let cs := cstmt d b1 k c s in
      let b2 := (b1 + size cs)%nat in
      ce ++ [io KBranchFalse false (Z.of_nat (b2 + relse r))] ++ cs ++
      crest d b2 k c (Some (b2 + size (crest d b2 k c None r))%nat) r
  | SWhile e s els =>
      let ce := comp false b e in
      let b1 := (b + size ce + osize)%nat in
      let b2 := (b1 + size (cstmt d b1 None None s) + osize)%nat in
      let cels := cstmt d b2 k c els in
      ce ++ [io KBranchFalse false (Z.of_nat b2)] ++
      cstmt d b1 (Some (b2 + size cels)%nat) (Some b) s ++ [io KBranch false (Z.of_nat b)] ++ cels
  | SRange id a s els =>
      let ca := cargs b a in
      let st := [I KRangeStart false (AStep (nargs a) d id)] in
      let b0 := (b + size ca + size st)%nat in
      let b1 := (b0 + size st)%nat in
      let b2 := (b1 + size (cstmt (d + 1) b1 None None s) + osize)%nat in
      let cels := cstmt d b2 k c els in
      ca ++ st ++ [I KRangeStep false (AStep (Z.of_nat b2) d id)] ++
      cstmt (d + 1) b1 (Some (b2 + size cels)%nat) (Some b0) s ++ [io KBranch false (Z.of_nat b0)] ++ cels
  | SFor id e s els =>
      let ce := comp false b e ++ [io KAssign false (for_tmp w d 0); inum false f_zero; io KAssign false (for_tmp w d 1)] in
      let b0 := (b + size ce)%nat in
      let b1 := (b0 + size [I KInStep false (AStep 0 d id)])%nat in
      let b2 := (b1 + size (cstmt (d + 1) b1 None None s) + osize)%nat in
      let cels := cstmt d b2 k c els in
      ce ++ [I KInStep false (AStep (Z.of_nat b2) d id)] ++
      cstmt (d + 1) b1 (Some (b2 + size cels)%nat) (Some b0) s ++ [io KBranch false (Z.of_nat b0)] ++ cels
  end
with crest (d : Z) (b : nat) (k c fin : option nat) (r : rest) : list instr :=
  match r with
  | RNone => []
  | RElse s => [jump fin FIf] ++ cstmt d (b + osize) k c s
  | RElif line e s r =>
      let b0 := (b + osize + osize)%nat in
      let ce := comp false b0 e in
      let b1 := (b0 + size ce + osize)%nat in
      let cs := cstmt d b1 k c s in
      let b2 := (b1 + size cs)%nat in
      [io KLine false line; jump fin FIf] ++ ce ++
      [io KBranchFalse false (Z.of_nat (b2 + relse r))] ++ cs ++ crest d b2 k c fin r
  end.

Fixpoint cformals (b : nat) (fs : list (Z * oexpr)) : list instr :=
  match fs with
  | [] => []
  | (_, ONone) :: fs' => cformals b fs'
  | (id, OSome e) :: fs' =>
      let ce := comp false b e ++ [io KAssignNamed false id] in
      ce ++ cformals (b + size ce) fs'
  end.

(** the code of a function: a final return is taken away, otherwise it ends
    with None *)
Definition is_return (i : instr) : bool :=
  match i_op i with KReturn => negb (i_push i) | _ => false end.
Definition cbody (f : fundef) : list instr :=
  let cf := cformals 0 (fd_formals f) in
  cf ++ cstmt 0 (size cf) None None (fd_body f).
Definition cdef (f : fundef) : list instr :=
  match rev (cbody f) with
  | i :: l => if is_return i then rev l else cbody f ++ [i0 KNull false]
  | [] => [i0 KNull false]
  end.

(** * What the compiler asks of a program *)
(** the walk over a dictionary's count sees no operands in its bytes (it takes
    the bytes for instructions, see C23) *)
Definition harmless (b : Z) : Prop := operand_size w (byte_op b) = O /\ byte_op b <> op_code KForward.
Definition dict_ok (n : Z) : Prop := Forall harmless (le_bytes (obytes w) n).
(** positional arguments come first; fewer than 256 of each *)
Fixpoint positional (a : args) : bool := match a with ANil => true | APos _ r => positional r | ANamed _ _ _ => false end.
Fixpoint args_order (a : args) : bool :=
  match a with ANil => true | APos _ r => args_order r | ANamed _ _ r => match r with APos _ _ => false | _ => args_order r end end.
Fixpoint npos (a : args) : Z := match a with ANil => 0 | APos _ r => 1 + npos r | ANamed _ _ r => npos r end.
Fixpoint nnamed (a : args) : Z := match a with ANil => 0 | APos _ r => nnamed r | ANamed _ _ r => 1 + nnamed r end.

Fixpoint ok (e : expr) : Prop :=
  match e with
  | ENum _ | EStr _ _ | EId _ => True
  | EList a => oka a /\ positional a = true /\ npos a < 256
  | ETuple a => oka a /\ positional a = true /\ npos a <= 256
  | EDict d => okd d /\ dict_ok (ndents d) /\ ndents d < 2 ^ wbits w
  | EBin _ x y | EIndex x y | EAnd x y | EOr x y => ok x /\ ok y
  | EUn _ x => ok x
  | ESlice x l m n => ok x /\ oko l /\ oko m /\ oko n
  | ECall f a => ok f /\ oka a /\ args_order a = true /\ npos a < 256 /\ nnamed a < 256
  | ECmp x l => ok x /\ okl l
  end
with oka (a : args) : Prop :=
  match a with ANil => True | APos e r => ok e /\ oka r | ANamed _ e r => ok e /\ oka r end
with okd (d : dents) : Prop := match d with DNil => True | DCons k v r => ok k /\ ok v /\ okd r end
with oko (o : oexpr) : Prop := match o with ONone => True | OSome e => ok e end
with okl (l : links) : Prop :=
  match l with
  | LLast b y => is_lnk b = true /\ ok y
  | LMore b y l => (exists c, b = BCmp c) /\ ok y /\ okl l
  end.
Definition okt (t : target) : Prop := match t with TId id => id <> 0 | TElem l i => ok l /\ ok i end.
Fixpoint oks (s : stmt) : Prop :=
  match s with
  | SSkip | SLine _ | SBreak | SContinue | SGlobal _ => True
  | SSeq s t => oks s /\ oks t
  | SExpr e | SAssert e => ok e
  | SAssign _ t e => okt t /\ ok e
  | SDel t => okt t
  | SReturn o => oko o
  | SIf e s r => ok e /\ oks s /\ okr r
  | SWhile e s els => ok e /\ oks s /\ oks els
  | SRange _ a s els => oka a /\ positional a = true /\ npos a < 256 /\ oks s /\ oks els
  | SFor _ e s els => ok e /\ oks s /\ oks els
  end
with okr (r : rest) : Prop :=
  match r with
  | RNone => True
  | RElse s => oks s
  | RElif _ e s r => ok e /\ oks s /\ okr r
  end.
(** the first thing compiled is a comparison of a single instruction *)
Fixpoint single (e : expr) : bool :=
  match e with
  | ENum _ | EId _ => true
  | EStr _ ls => match ls with [] => true | _ => false end
  | EList ANil | ETuple ANil | EDict DNil => true
  | EUn UPlus x => single x
  | _ => false
  end.
Fixpoint lead (e : expr) : bool :=
  match e with
  | ENum _ | EStr _ _ | EId _ => false
  | EList a | ETuple a => leada a
  | EDict d => match d with DNil => false | DCons k _ _ => lead k end
  | EBin _ x _ | EIndex x _ | EAnd x _ | EOr x _ | EUn _ x | ESlice x _ _ _ | ECall x _ => lead x
  | ECmp x _ => single x || lead x
  end
with leada (a : args) : bool := match a with ANil | ANamed _ _ _ => false | APos e _ => lead e end.
(** every statement starts with its line (snek-gram.ll 82-101) *)
Fixpoint lined (s : stmt) : bool := match s with SLine _ => true | SSeq s _ => lined s | _ => false end.
Fixpoint lead_formals (fs : list (Z * oexpr)) : bool :=
  match fs with [] => false | (_, ONone) :: fs' => lead_formals fs' | (_, OSome e) :: _ => lead e end.
Definition okfd (f : fundef) : Prop :=
  Forall (fun p => oko (snd p)) (fd_formals f) /\ lead_formals (fd_formals f) = false /\
  oks (fd_body f) /\ lined (fd_body f) = true.
End Layout.
