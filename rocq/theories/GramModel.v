(** The grammar: snek-gram.ll, with the checks its actions make on the code just
    emitted.  The parser is generated by lola, which is not in the repository.
    The grammar is LL(1), so the parser is modelled by one function per
    nonterminal that looks at the next token; the alternative that derives
    nothing is taken when no other one starts with that token.  (lola's parser
    may notice a syntax error some steps earlier; what it accepts is the same.)
    The sizes of the parser's two stacks are not modelled.  The result is the
    derivation tree of CompModel.v.  [fuel] bounds the recursion; GramTotal.v
    shows an amount that is always enough. *)
From Coq Require Import ZArith Bool List Ascii String.
From Verif Require Import Base FloatModel PolyModel ValueModel MathModel BinModel LexModel CompModel.
Import ListNotations.
Local Open Scope Z_scope.

(** A token with snek_line, as the macro lex (snek-parse.c 153-161) leaves it,
    and the object of a STRING (snek_token_val.string). *)
Record item := { i_tok : token; i_line : Z; i_obj : nat }.

(** What the parser for a nonterminal gives: a tree and the tokens not used;
    parse_return_syntax; or the fuel was not enough. *)
Inductive pr (A : Type) := Parsed (a : A) (rest : list item) | Syntax | NoFuel.
Arguments Parsed {A}. Arguments Syntax {A}. Arguments NoFuel {A}.
Definition pbind {A B} (x : pr A) (f : A -> list item -> pr B) : pr B :=
  match x with Parsed a ts => f a ts | Syntax => Syntax | NoFuel => NoFuel end.
Declare Scope parse_scope.
Notation "'let*' ( a , ts ) := x 'in' y" := (pbind x (fun a ts => y)) (at level 200, a name, ts name) : parse_scope.
Local Open Scope parse_scope.

(** The next token, if it is the one looked for; what comes after it *)
Definition take {A} (f : token -> option A) (ts : list item) : option (A * item * list item) :=
  match ts with
  | i :: ts' => match f (i_tok i) with Some a => Some (a, i, ts') | None => None end
  | [] => None
  end.
Definition want (f : token -> bool) (t : token) : option unit := if f t then Some tt else None.
Definition next (f : token -> bool) (ts : list item) : bool := match ts with i :: _ => f (i_tok i) | [] => false end.
Definition eat (f : token -> bool) (ts : list item) : pr unit :=
  match take (want f) ts with Some (u, _, ts') => Parsed u ts' | None => Syntax end.

(** the token of a keyword *)
Definition kw (s : string) (t : token) : bool := match t with TKeyword x => text_eqb x (chars s) | _ => false end.
Definition is_colon t := match t with TColon => true | _ => false end.
Definition is_semi t := match t with TSemi => true | _ => false end.
Definition is_comma t := match t with TComma => true | _ => false end.
Definition is_open t := match t with TOp => true | _ => false end.
Definition is_close t := match t with TCp => true | _ => false end.
Definition is_open_square t := match t with TOs => true | _ => false end.
Definition is_close_square t := match t with TCs => true | _ => false end.
Definition is_close_curly t := match t with TCc => true | _ => false end.
Definition is_nl t := match t with TNl => true | _ => false end.
Definition is_end t := match t with TEnd => true | _ => false end.
Definition is_not t := match t with TNot OpNot => true | _ => false end.
Definition is_in t := match t with TIn _ => true | _ => false end.
Definition is_pow t := match t with TPow OpPow => true | _ => false end.
Definition is_mulop t := match t with TMulop _ => true | _ => false end.
Definition indent_of t := match t with TIndent i => Some i | _ => None end.
Definition exdent_of t := match t with TExdent i => Some i | _ => None end.

(** FIRST(expr), snek-gram.ll 296-520 *)
Definition starts_expr (t : token) : bool :=
  match t with
  | TNot _ | TLnot _ | TMinus _ | TPlus _ | TOp | TOs | TOc | TName _ | TNumber _ | TString _ => true
  | _ => false
  end.

(** The values of snek_token_val.op as instructions *)
Definition num_op (o : lexop) : option numop :=
  match o with
  | OpPlus => Some Nplus | OpMinus => Some Nminus | OpTimes => Some Ntimes | OpDivide => Some Ndivide
  | OpDiv => Some Ndiv | OpMod => Some Nmod | OpPow => Some Npow | OpLand => Some Nland | OpLor => Some Nlor
  | OpLxor => Some Nlxor | OpLshift => Some Nlshift | OpRshift => Some Nrshift
  | _ => None
  end.
Definition cmp_op (o : lexop) : option bop :=
  match o with
  | OpEq => Some (BCmp OEq) | OpNe => Some (BCmp ONe) | OpGt => Some (BCmp OGt) | OpLt => Some (BCmp OLt)
  | OpGe => Some (BCmp OGe) | OpLe => Some (BCmp OLe) | OpIs => Some BIs | OpIsNot => Some BIsNot
  | OpIn => Some BIn | OpNotIn => Some BNotIn
  | _ => None
  end.
(** 354-357: cmpop *)
Definition cmp_of (t : token) : option bop := match t with TCmpop o | TIn o => cmp_op o | _ => None end.
(** 126: ASSIGN, and its operator *)
Definition assign_of (t : token) : option (option numop) :=
  match t with
  | TAssign OpAssign => Some None
  | TAssign (OpAssignTo o) => match num_op o with Some n => Some (Some n) | None => None end
  | _ => None
  end.
(** 389-391 *)
Definition unary_of (t : token) : option unop :=
  match t with TLnot OpLnot => Some ULnot | TMinus _ => Some UMinus | TPlus _ => Some UPlus | _ => None end.

(** 358-388: the six levels of binary operators from expr-lor to expr-mul have
    rules of one shape; [level] says which, and [level_op] which tokens belong
    to it.  The operand of a level is the next one, that of expr-mul is
    expr-unary. *)
Inductive level := Lor | Lxor | Land | Lshift | Ladd | Lmul.
Definition tighter (l : level) : option level :=
  match l with
  | Lor => Some Lxor | Lxor => Some Land | Land => Some Lshift
  | Lshift => Some Ladd | Ladd => Some Lmul | Lmul => None
  end.
Definition level_op (l : level) (t : token) : option numop :=
  match l, t with
  | Lor, TLor o | Lxor, TLxor o | Land, TLand o | Lshift, TShift o
  | Ladd, TPlus o | Ladd, TMinus o | Lmul, TMulop o => num_op o
  | _, _ => None
  end.

(** 577-582 and 136-148: whether the instruction just emitted loads a variable,
    or an element; unary plus emits nothing.  (That this is what looking at the
    code says is shown in GramLast.v.) *)
Fixpoint as_name (e : expr) : option Z :=
  match e with EId id => Some id | EUn UPlus x => as_name x | _ => None end.
Fixpoint as_target (e : expr) : option target :=
  match e with
  | EId id => Some (TId id)
  | EIndex x i => Some (TElem x i)
  | EUn UPlus x => as_target x
  | _ => None
  end.

(** 522-530: strings-p *)
Fixpoint p_strings (ts : list item) : list nat * list item :=
  match ts with
  | i :: ts' => match i_tok i with
                | TString _ => let '(ls, r) := p_strings ts' in (i_obj i :: ls, r)
                | _ => ([], ts)
                end
  | [] => ([], ts)
  end.

Section Gram.
Variable w : width.                 (* of snek_offset_t *)
Variable idof : list Z -> Z.        (* snek_name_id (snek-lex.c 550): the id of a name *)
Variable numof : list Z -> float.   (* strtof (snek-lex.c 272) *)

(** 296-304: expr, expr-or-p *)
Fixpoint p_expr (fuel : nat) (ts : list item) {struct fuel} : pr expr :=
  match fuel with O => NoFuel | S n =>
    let* (x, ts) := p_and n ts in p_or_p n x ts
  end
with p_or_p (fuel : nat) (x : expr) (ts : list item) {struct fuel} : pr expr :=
  match fuel with O => NoFuel | S n =>
    match take (want (kw "or")) ts with
    | Some (_, _, ts) => let* (y, ts) := p_and n ts in p_or_p n (EOr x y) ts
    | None => Parsed x ts
    end
  end
(** 305-313: expr-and, expr-and-p *)
with p_and (fuel : nat) (ts : list item) {struct fuel} : pr expr :=
  match fuel with O => NoFuel | S n =>
    let* (x, ts) := p_not n ts in p_and_p n x ts
  end
with p_and_p (fuel : nat) (x : expr) (ts : list item) {struct fuel} : pr expr :=
  match fuel with O => NoFuel | S n =>
    match take (want (kw "and")) ts with
    | Some (_, _, ts) => let* (y, ts) := p_not n ts in p_and_p n (EAnd x y) ts
    | None => Parsed x ts
    end
  end
(** 314-316: expr-not *)
with p_not (fuel : nat) (ts : list item) {struct fuel} : pr expr :=
  match fuel with O => NoFuel | S n =>
    match take (want is_not) ts with
    | Some (_, _, ts) => let* (x, ts) := p_not n ts in Parsed (EUn UNot x) ts
    | None => p_cmp n ts
    end
  end
(** 317-353: expr-cmp, expr-cmp-p *)
with p_cmp (fuel : nat) (ts : list item) {struct fuel} : pr expr :=
  match fuel with O => NoFuel | S n =>
    let* (x, ts) := p_bin n Lor ts in
    let* (l, ts) := p_cmp_p n ts in
    Parsed (match l with Some l => ECmp x l | None => x end) ts
  end
with p_cmp_p (fuel : nat) (ts : list item) {struct fuel} : pr (option links) :=
  match fuel with O => NoFuel | S n =>
    match take cmp_of ts with
    | Some (b, _, ts) =>
        let* (y, ts) := p_bin n Lor ts in
        let* (l, ts) := p_cmp_p n ts in
        Parsed (Some (match l with Some l => LMore b y l | None => LLast b y end)) ts
    | None => Parsed None ts
    end
  end
(** 358-388 *)
with p_bin (fuel : nat) (l : level) (ts : list item) {struct fuel} : pr expr :=
  match fuel with O => NoFuel | S n =>
    let* (x, ts) := (match tighter l with Some l' => p_bin n l' ts | None => p_unary n ts end) in
    p_bin_p n l x ts
  end
with p_bin_p (fuel : nat) (l : level) (x : expr) (ts : list item) {struct fuel} : pr expr :=
  match fuel with O => NoFuel | S n =>
    match take (level_op l) ts with
    | Some (o, _, ts) =>
        let* (y, ts) := (match tighter l with Some l' => p_bin n l' ts | None => p_unary n ts end) in
        p_bin_p n l (EBin o x y) ts
    | None => Parsed x ts
    end
  end
(** 389-393: expr-unary *)
with p_unary (fuel : nat) (ts : list item) {struct fuel} : pr expr :=
  match fuel with O => NoFuel | S n =>
    match take unary_of ts with
    | Some (u, _, ts) => let* (x, ts) := p_unary n ts in Parsed (EUn u x) ts
    | None => p_pow n ts
    end
  end
(** 397-402: expr-pow; expr-pow-p is POW followed by expr-pow *)
with p_pow (fuel : nat) (ts : list item) {struct fuel} : pr expr :=
  match fuel with O => NoFuel | S n =>
    let* (x, ts) := p_array n ts in
    match take (want is_pow) ts with
    | Some (_, _, ts) => let* (y, ts) := p_pow n ts in Parsed (EBin Npow x y) ts
    | None => Parsed x ts
    end
  end
(** 403-441: expr-array, expr-array-p *)
with p_array (fuel : nat) (ts : list item) {struct fuel} : pr expr :=
  match fuel with O => NoFuel | S n =>
    let* (x, ts) := p_prim n ts in p_array_p n x ts
  end
with p_array_p (fuel : nat) (x : expr) (ts : list item) {struct fuel} : pr expr :=
  match fuel with O => NoFuel | S n =>
    match take (want is_open_square) ts with
    | Some (_, _, ts) =>
        let* (y, ts) := p_index n x ts in
        let* (u, ts) := eat is_close_square ts in
        p_array_p n y ts
    | None =>
        match take (want is_open) ts with
        | Some (_, _, ts) =>
            let* (a, ts) := p_opt_actuals n ts in
            let* (u, ts) := eat is_close ts in
            p_array_p n (ECall x (snd a)) ts
        | None => Parsed x ts
        end
    end
  end
(** 443-459: array-index, opt-slice *)
with p_index (fuel : nat) (x : expr) (ts : list item) {struct fuel} : pr expr :=
  match fuel with O => NoFuel | S n =>
    match take (want is_colon) ts with
    | Some (_, _, ts) => p_slice n x ONone ts
    | None =>
        let* (i, ts) := p_expr n ts in
        match take (want is_colon) ts with
        | Some (_, _, ts) => p_slice n x (OSome i) ts
        | None => Parsed (EIndex x i) ts
        end
    end
  end
(** 460-470: slice, after the colon, and slice-p *)
with p_slice (fuel : nat) (x : expr) (a : oexpr) (ts : list item) {struct fuel} : pr expr :=
  match fuel with O => NoFuel | S n =>
    let* (b, ts) := p_opt_expr n ts in
    match take (want is_colon) ts with
    | Some (_, _, ts) => let* (c, ts) := p_opt_expr n ts in Parsed (ESlice x a b c) ts
    | None => Parsed (ESlice x a b ONone) ts
    end
  end
(** 471-480: opt-expr *)
with p_opt_expr (fuel : nat) (ts : list item) {struct fuel} : pr oexpr :=
  match fuel with O => NoFuel | S n =>
    if next starts_expr ts then let* (x, ts) := p_expr n ts in Parsed (OSome x) ts
    else Parsed ONone ts
  end
(** 482-520: expr-prim *)
with p_prim (fuel : nat) (ts : list item) {struct fuel} : pr expr :=
  match fuel with O => NoFuel | S n =>
    match ts with
    | [] => Syntax
    | i :: ts =>
        match i_tok i with
        | TOp =>
            let* (x, ts) := p_opt_tuple n ts in
            let* (u, ts) := eat is_close ts in Parsed x ts
        | TOs =>
            let* (a, ts) := p_opt_actuals n ts in
            let* (u, ts) := eat is_close_square ts in
            if 256 <=? fst a then Syntax else Parsed (EList (snd a)) ts
        | TOc =>
            let* (d, ts) := p_dents n ts in
            let* (u, ts) := eat is_close_curly ts in Parsed (EDict d) ts
        | TName s => Parsed (EId (idof s)) ts
        | TNumber s => Parsed (ENum (numof s)) ts
        | TString _ => let '(ls, ts) := p_strings ts in Parsed (EStr (i_obj i) ls) ts
        | _ => Syntax
        end
    end
  end
(** 532-556: opt-tuple, opt-tuple-p *)
with p_opt_tuple (fuel : nat) (ts : list item) {struct fuel} : pr expr :=
  match fuel with O => NoFuel | S n =>
    if next starts_expr ts then
      let* (x, ts) := p_expr n ts in
      match take (want is_comma) ts with
      | Some (_, _, ts) =>
          let* (a, ts) := p_opt_actuals n ts in
          if 256 <=? fst a then Syntax else Parsed (ETuple (APos x (snd a))) ts
      | None => Parsed x ts
      end
    else Parsed (ETuple ANil) ts
  end
(** 557-570: opt-actuals, actuals *)
with p_opt_actuals (fuel : nat) (ts : list item) {struct fuel} : pr (Z * args) :=
  match fuel with O => NoFuel | S n =>
    if next starts_expr ts then p_actuals n 0 ts else Parsed (0, ANil) ts
  end
(** 571-611: expr actual-p actuals-p; [k] is the count so far, 256 for each
    named one.  The result has the final count. *)
with p_actuals (fuel : nat) (k : Z) (ts : list item) {struct fuel} : pr (Z * args) :=
  match fuel with O => NoFuel | S n =>
    let* (x, ts) := p_expr n ts in
    match take assign_of ts with
    | Some (_, _, ts) =>
        match as_name x with
        | None => Syntax
        | Some id =>
            let* (e, ts) := p_expr n ts in
            let* (a, ts) := p_actuals_p n (u_of w (k + 256)) ts in
            Parsed (fst a, ANamed id e (snd a)) ts
        end
    | None =>
        if 256 <=? k then Syntax
        else
          let* (a, ts) := p_actuals_p n (k + 1) ts in
          Parsed (fst a, APos x (snd a)) ts
    end
  end
with p_actuals_p (fuel : nat) (k : Z) (ts : list item) {struct fuel} : pr (Z * args) :=
  match fuel with O => NoFuel | S n =>
    match take (want is_comma) ts with
    | Some (_, _, ts) => if next starts_expr ts then p_actuals n k ts else Parsed (k, ANil) ts
    | None => Parsed (k, ANil) ts
    end
  end
(** 613-632: opt-dict-ents, dict-ents-end; dict-ents-p *)
with p_dents (fuel : nat) (ts : list item) {struct fuel} : pr dents :=
  match fuel with O => NoFuel | S n =>
    if next starts_expr ts then
      let* (x, ts) := p_expr n ts in
      let* (u, ts) := eat is_colon ts in
      let* (y, ts) := p_expr n ts in
      let* (d, ts) := p_dents_p n ts in Parsed (DCons x y d) ts
    else Parsed DNil ts
  end
with p_dents_p (fuel : nat) (ts : list item) {struct fuel} : pr dents :=
  match fuel with O => NoFuel | S n =>
    match take (want is_comma) ts with
    | Some (_, _, ts) => p_dents n ts
    | None => Parsed DNil ts
    end
  end.

(** * Statements *)
Definition name_of (t : token) : option Z := match t with TName s => Some (idof s) | _ => None end.
Definition eat_name (ts : list item) : pr Z :=
  match take name_of ts with Some (id, _, ts) => Parsed id ts | None => Syntax end.

(** 124-159: assign-expr *)
Definition p_assign (fuel : nat) (ts : list item) : pr stmt :=
  let* (x, ts) := p_expr fuel ts in
  match take assign_of ts with
  | Some (a, _, ts) =>
      match as_target x with
      | None => Syntax
      | Some t => let* (e, ts) := p_expr fuel ts in Parsed (SAssign a t e) ts
      end
  | None => Parsed (SExpr x) ts
  end.
(** 113-119: del; 109-112: dels-p *)
Definition p_del (fuel : nat) (ts : list item) : pr stmt :=
  let* (x, ts) := p_array fuel ts in
  match as_target x with None => Syntax | Some t => Parsed (SDel t) ts end.
Fixpoint p_dels_p (fuel : nat) (ts : list item) {struct fuel} : pr stmt :=
  match fuel with O => NoFuel | S n =>
    match take (want is_comma) ts with
    | Some (_, _, ts) => let* (s, ts) := p_del n ts in let* (s', ts) := p_dels_p n ts in Parsed (SSeq s s') ts
    | None => Parsed SSkip ts
    end
  end.
(** 160-170: globals, globals-p, global *)
Fixpoint p_globals_p (fuel : nat) (ts : list item) {struct fuel} : pr stmt :=
  match fuel with O => NoFuel | S n =>
    match take (want is_comma) ts with
    | Some (_, _, ts) =>
        let* (id, ts) := eat_name ts in let* (s, ts) := p_globals_p n ts in Parsed (SSeq (SGlobal id) s) ts
    | None => Parsed SSkip ts
    end
  end.
Definition p_globals (fuel : nat) (ts : list item) : pr stmt :=
  match take name_of ts with
  | Some (id, _, ts) => let* (s, ts) := p_globals_p fuel ts in Parsed (SSeq (SGlobal id) s) ts
  | None => Parsed SSkip ts
  end.
(** 120-123: ret-expr *)
Definition p_ret (fuel : nat) (ts : list item) : pr stmt :=
  if next starts_expr ts then let* (x, ts) := p_expr fuel ts in Parsed (SReturn (OSome x)) ts
  else Parsed (SReturn ONone) ts.

(** 95-107: small-stat *)
Definition p_small (fuel : nat) (ts : list item) : pr stmt :=
  if next starts_expr ts then p_assign fuel ts
  else if next (kw "return") ts then p_ret fuel (tl ts)
  else if next (kw "break") ts then Parsed SBreak (tl ts)
  else if next (kw "continue") ts then Parsed SContinue (tl ts)
  else if next (kw "pass") ts then Parsed SSkip (tl ts)
  else if next (kw "global") ts then p_globals fuel (tl ts)
  else if next (kw "del") ts then
    let* (s, ts) := p_del fuel (tl ts) in let* (s', ts) := p_dels_p fuel ts in Parsed (SSeq s s') ts
  else if next (kw "assert") ts then let* (x, ts) := p_expr fuel (tl ts) in Parsed (SAssert x) ts
  else Syntax.
(** 92-94: small-stats-p *)
Fixpoint p_smalls_p (fuel : nat) (ts : list item) {struct fuel} : pr stmt :=
  match fuel with O => NoFuel | S n =>
    match take (want is_semi) ts with
    | Some (_, _, ts) => let* (s, ts) := p_small n ts in let* (s', ts) := p_smalls_p n ts in Parsed (SSeq s s') ts
    | None => Parsed SSkip ts
    end
  end.
(** FIRST(small-stat) *)
Definition starts_small (t : token) : bool :=
  starts_expr t || kw "return" t || kw "break" t || kw "continue" t || kw "pass" t || kw "global" t || kw "del" t || kw "assert" t.
Definition line_of (ts : list item) : Z := match ts with i :: _ => i_line i | [] => 0 end.
(** 90-91: simple-stat; the line is that of the token looked at *)
Definition p_simple (fuel : nat) (ts : list item) : pr stmt :=
  let line := line_of ts in
  let* (s, ts) := p_small fuel ts in
  let* (s', ts) := p_smalls_p fuel ts in
  let* (u, ts) := eat is_nl ts in
  Parsed (SSeq (SLine line) (SSeq s s')) ts.

(** 85-89: stat; 171-174: compound-stat *)
Fixpoint p_stat (fuel : nat) (ts : list item) {struct fuel} : pr stmt :=
  match fuel with O => NoFuel | S n =>
    let line := line_of ts in
    if next starts_small ts then p_simple n ts
    else if next (kw "if") ts then   (* 175-183: if-stat *)
      let* (x, ts) := p_expr n (tl ts) in
      let* (u, ts) := eat is_colon ts in
      let* (s, ts) := p_suite n ts in
      let* (r, ts) := p_elif n ts in
      Parsed (SSeq (SLine line) (SIf x s r)) ts
    else if next (kw "while") ts then   (* 216-237: while-stat *)
      let* (x, ts) := p_expr n (tl ts) in
      let* (u, ts) := eat is_colon ts in
      let* (s, ts) := p_suite n ts in
      let* (e, ts) := p_else n ts in
      Parsed (SSeq (SLine line) (SWhile x s e)) ts
    else if next (kw "for") ts then   (* 241-278: for-stat, for-params *)
      let* (id, ts) := eat_name (tl ts) in
      let* (u, ts) := eat is_in ts in
      if next (kw "range") ts then
        let* (u, ts) := eat is_open (tl ts) in
        let* (a, ts) := p_opt_actuals n ts in
        let* (u, ts) := eat is_close ts in
        let* (u, ts) := eat is_colon ts in
        if 256 <=? fst a then Syntax
        else
          let* (s, ts) := p_suite n ts in
          let* (e, ts) := p_else n ts in
          Parsed (SSeq (SLine line) (SRange id (snd a) s e)) ts
      else
        let* (x, ts) := p_expr n ts in
        let* (u, ts) := eat is_colon ts in
        let* (s, ts) := p_suite n ts in
        let* (e, ts) := p_else n ts in
        Parsed (SSeq (SLine line) (SFor id x s e)) ts
    else let* (u, ts) := eat is_nl ts in Parsed SSkip ts
  end
(** 184-207: elif-stats; the line is that of the elif *)
with p_elif (fuel : nat) (ts : list item) {struct fuel} : pr rest :=
  match fuel with O => NoFuel | S n =>
    let line := line_of ts in
    if next (kw "elif") ts then
      let* (x, ts) := p_expr n (tl ts) in
      let* (u, ts) := eat is_colon ts in
      let* (s, ts) := p_suite n ts in
      let* (r, ts) := p_elif n ts in Parsed (RElif line x s r) ts
    else if next (kw "else") ts then
      let* (u, ts) := eat is_colon (tl ts) in
      let* (s, ts) := p_suite n ts in Parsed (RElse s) ts
    else Parsed RNone ts
  end
(** 238-240: while-else-stat *)
with p_else (fuel : nat) (ts : list item) {struct fuel} : pr stmt :=
  match fuel with O => NoFuel | S n =>
    if next (kw "else") ts then let* (u, ts) := eat is_colon (tl ts) in p_suite n ts
    else Parsed SSkip ts
  end
(** 279-295: suite.  The column the block started from is the value of INDENT;
    EXDENT may not be beyond it *)
with p_suite (fuel : nat) (ts : list item) {struct fuel} : pr stmt :=
  match fuel with O => NoFuel | S n =>
    if next starts_small ts then p_simple n ts
    else
      let* (u, ts) := eat is_nl ts in
      match take indent_of ts with
      | None => Syntax
      | Some (indent, _, ts) =>
          let* (s, ts) := p_stat n ts in
          let* (s', ts) := p_stats n ts in
          match take exdent_of ts with
          | None => Syntax
          | Some (exdent, _, ts) => if indent <? exdent then Syntax else Parsed (SSeq s s') ts
          end
      end
  end
(** 82-84: opt-stats *)
with p_stats (fuel : nat) (ts : list item) {struct fuel} : pr stmt :=
  match fuel with O => NoFuel | S n =>
    if next (fun t => starts_small t || kw "if" t || kw "while" t || kw "for" t || is_nl t) ts then
      let* (s, ts) := p_stat n ts in
      let* (s', ts) := p_stats n ts in Parsed (SSeq s s') ts
    else Parsed SSkip ts
  end.

(** 57-81: opt-formals, formals, formal; [named] is whether a default has been given *)
Definition p_formal (fuel : nat) (named : bool) (ts : list item) : pr (Z * oexpr) :=
  let* (id, ts) := eat_name ts in
  match take assign_of ts with
  | Some (_, _, ts) => let* (x, ts) := p_expr fuel ts in Parsed (id, OSome x) ts
  | None => if named then Syntax else Parsed (id, ONone) ts
  end.
Definition has_default (f : Z * oexpr) : bool := match snd f with OSome _ => true | ONone => false end.
Fixpoint p_formals_p (fuel : nat) (named : bool) (ts : list item) {struct fuel} : pr (list (Z * oexpr)) :=
  match fuel with O => NoFuel | S n =>
    match take (want is_comma) ts with
    | Some (_, _, ts) =>
        let* (f, ts) := p_formal n named ts in
        let* (fs, ts) := p_formals_p n (named || has_default f) ts in Parsed (f :: fs) ts
    | None => Parsed [] ts
    end
  end.
Definition p_opt_formals (fuel : nat) (ts : list item) : pr (list (Z * oexpr)) :=
  if next (fun t => match t with TName _ => true | _ => false end) ts then
    let* (f, ts) := p_formal fuel false ts in
    let* (fs, ts) := p_formals_p fuel (has_default f) ts in Parsed (f :: fs) ts
  else Parsed [] ts.

(** 17-56: command *)
Inductive command := CStat (s : stmt) | CDef (id : Z) (f : fundef) | CImport.
Definition p_command (fuel : nat) (ts : list item) : pr command :=
  if next (kw "def") ts then
    let* (id, ts) := eat_name (tl ts) in
    let* (u, ts) := eat is_open ts in
    let* (fs, ts) := p_opt_formals fuel ts in
    let* (u, ts) := eat is_close ts in
    let* (u, ts) := eat is_colon ts in
    let* (s, ts) := p_suite fuel ts in
    Parsed (CDef id {| fd_formals := fs; fd_body := s |}) ts
  else if next (kw "import") ts then let* (id, ts) := eat_name (tl ts) in Parsed CImport ts
  else if next (kw "from") ts then
    let* (id, ts) := eat_name (tl ts) in
    let* (u, ts) := eat (kw "import") ts in
    let* (u, ts) := eat is_mulop ts in Parsed CImport ts
  else let* (s, ts) := p_stat fuel ts in Parsed (CStat s) ts.
(** 14-16: start, up to END *)
Fixpoint p_start (fuel : nat) (ts : list item) {struct fuel} : pr (list command) :=
  match fuel with O => NoFuel | S n =>
    if next is_end ts then Parsed [] ts
    else let* (c, ts) := p_command n ts in let* (cs, ts) := p_start n ts in Parsed (c :: cs) ts
  end.
End Gram.
