(** The expressions of the Python Language Reference (6.2 to 6.11, 6.16), cut
    down to the phrases Snek has, as a relation between trees and tokens.  The
    rules are those of the reference, left recursion included. *)
From Coq Require Import ZArith Bool List Ascii String.
From Verif Require Import Base FloatModel PolyModel ValueModel MathModel BinModel LexModel CompModel GramModel.
Import ListNotations.
Local Open Scope Z_scope.
Notation length := List.length (only parsing).

Definition keyword (s : string) : token := TKeyword (chars s).

(** Where Snek and Python differ: whether the right operand of ** may start
    with a unary operator; whether anything that ends up loading a variable may
    name an argument, and any assignment operator follow it, and what else Snek
    alone accepts; the limits on the number of elements and arguments; and
    whether a semicolon may end a line and a comma the parameters. *)
Record dialect := { d_pow : bool; d_lax : bool; d_limit : option width; d_trail : bool }.
Definition python : dialect := {| d_pow := true; d_lax := false; d_limit := None; d_trail := true |}.
Definition snek (w : width) : dialect := {| d_pow := false; d_lax := true; d_limit := Some w; d_trail := false |}.
(** what both accept *)
Definition common (w : width) : dialect := {| d_pow := false; d_lax := false; d_limit := Some w; d_trail := false |}.

(** Phrases, from the loosest to the tightest *)
Inductive binary := OrExpr | XorExpr | AndExpr | ShiftExpr | AExpr | MExpr.
Inductive rank := OrTest | AndTest | NotTest | Comparison | Bin (b : binary) | UExpr | Power | Primary | Atom.
Definition tighter_than (r : rank) : option rank :=
  match r with
  | OrTest => Some AndTest | AndTest => Some NotTest | NotTest => Some Comparison
  | Comparison => Some (Bin OrExpr) | Bin OrExpr => Some (Bin XorExpr) | Bin XorExpr => Some (Bin AndExpr)
  | Bin AndExpr => Some (Bin ShiftExpr) | Bin ShiftExpr => Some (Bin AExpr) | Bin AExpr => Some (Bin MExpr)
  | Bin MExpr => Some UExpr | UExpr => Some Power | Power => Some Primary | Primary => Some Atom
  | Atom => None
  end.
(** the operators of each kind and what they compute *)
Definition binaries (b : binary) : list (token * numop) :=
  match b with
  | OrExpr => [(TLor OpLor, Nlor)]
  | XorExpr => [(TLxor OpLxor, Nlxor)]
  | AndExpr => [(TLand OpLand, Nland)]
  | ShiftExpr => [(TShift OpLshift, Nlshift); (TShift OpRshift, Nrshift)]
  | AExpr => [(TPlus OpPlus, Nplus); (TMinus OpMinus, Nminus)]
  | MExpr => [(TMulop OpTimes, Ntimes); (TMulop OpDivide, Ndivide); (TMulop OpDiv, Ndiv); (TMulop OpMod, Nmod)]
  end.
Definition unaries : list (token * unop) := [(TMinus OpMinus, UMinus); (TPlus OpPlus, UPlus); (TLnot OpLnot, ULnot)].
Definition comparisons : list (token * bop) :=
  [(TCmpop OpEq, BCmp OEq); (TCmpop OpNe, BCmp ONe); (TCmpop OpGt, BCmp OGt); (TCmpop OpLt, BCmp OLt);
   (TCmpop OpGe, BCmp OGe); (TCmpop OpLe, BCmp OLe); (TCmpop OpIs, BIs); (TCmpop OpIsNot, BIsNot);
   (TIn OpIn, BIn); (TCmpop OpNotIn, BNotIn)].
(** the assignment tokens, with the operator of an augmented assignment *)
Definition assignments : list (token * option numop) :=
  (TAssign OpAssign, None) ::
  map (fun p => (TAssign (OpAssignTo (fst p)), Some (snd p)))
    [(OpPlus, Nplus); (OpMinus, Nminus); (OpTimes, Ntimes); (OpDivide, Ndivide); (OpDiv, Ndiv); (OpMod, Nmod);
     (OpPow, Npow); (OpLand, Nland); (OpLor, Nlor); (OpLxor, Nlxor); (OpLshift, Nlshift); (OpRshift, Nrshift)].

(** Positional and named arguments *)
Fixpoint npos (a : args) : Z := match a with ANil => 0 | APos _ r => 1 + npos r | ANamed _ _ r => npos r end.
Fixpoint nnamed (a : args) : Z := match a with ANil => 0 | APos _ r => nnamed r | ANamed _ _ r => 1 + nnamed r end.
(** the argument count, in which a named argument counts 256, does not wrap *)
Definition counted (w : width) (a : args) : Prop := npos a + 256 * nnamed a < 2 ^ wbits w.
Definition list_limit (D : dialect) (a : args) : Prop := match d_limit D with Some _ => npos a <= 255 | None => True end.
Definition tuple_limit (D : dialect) (a : args) : Prop := match d_limit D with Some _ => npos a <= 256 | None => True end.
Definition call_limit (D : dialect) (a : args) : Prop :=
  match d_limit D with Some w => npos a <= 256 /\ counted w a | None => True end.

(** an expression that comes down to a variable *)
Inductive loads : expr -> Z -> Prop :=
| l_id : forall id, loads (EId id) id
| l_plus : forall x id, loads x id -> loads (EUn UPlus x) id.

(** a comma or nothing *)
Inductive trailing : list item -> Prop :=
| t_none : trailing []
| t_comma : forall i, i_tok i = TComma -> trailing [i].

Section Reads.
Variable D : dialect.
Variable idof : list Z -> Z.
Variable numof : list Z -> float.

Inductive reads_strings : list nat -> list item -> Prop :=
| s_none : reads_strings [] []
| s_more : forall i s ls ts, i_tok i = TString s -> reads_strings ls ts -> reads_strings (i_obj i :: ls) (i :: ts).

(** [reads r e ts]: the tokens [ts] are a phrase of kind [r] whose meaning is [e] *)
Inductive reads : rank -> expr -> list item -> Prop :=
| r_up : forall r r' e ts, tighter_than r = Some r' -> reads r' e ts -> reads r e ts
| r_or : forall x tx i y ty, reads OrTest x tx -> i_tok i = keyword "or" -> reads AndTest y ty ->
    reads OrTest (EOr x y) (tx ++ i :: ty)
| r_and : forall x tx i y ty, reads AndTest x tx -> i_tok i = keyword "and" -> reads NotTest y ty ->
    reads AndTest (EAnd x y) (tx ++ i :: ty)
| r_not : forall i x tx, i_tok i = TNot OpNot -> reads NotTest x tx -> reads NotTest (EUn UNot x) (i :: tx)
| r_cmp : forall x tx l tl, reads (Bin OrExpr) x tx -> reads_links l tl -> reads Comparison (ECmp x l) (tx ++ tl)
| r_bin : forall b r x tx i o y ty, reads (Bin b) x tx -> In (i_tok i, o) (binaries b) ->
    tighter_than (Bin b) = Some r -> reads r y ty -> reads (Bin b) (EBin o x y) (tx ++ i :: ty)
| r_unary : forall i u x tx, In (i_tok i, u) unaries -> reads UExpr x tx -> reads UExpr (EUn u x) (i :: tx)
| r_pow : forall x tx i y ty, reads Primary x tx -> i_tok i = TPow OpPow ->
    reads (if d_pow D then UExpr else Power) y ty -> reads Power (EBin Npow x y) (tx ++ i :: ty)
| r_index : forall x tx i y ty j, reads Primary x tx -> i_tok i = TOs -> reads OrTest y ty -> i_tok j = TCs ->
    reads Primary (EIndex x y) (tx ++ i :: ty ++ [j])
| r_slice : forall x tx i a ta c b tb j, reads Primary x tx -> i_tok i = TOs -> reads_opt a ta -> i_tok c = TColon ->
    reads_opt b tb -> i_tok j = TCs -> reads Primary (ESlice x a b ONone) (tx ++ i :: ta ++ c :: tb ++ [j])
| r_stride : forall x tx i a ta c b tb c' s ts j, reads Primary x tx -> i_tok i = TOs -> reads_opt a ta -> i_tok c = TColon ->
    reads_opt b tb -> i_tok c' = TColon -> reads_opt s ts -> i_tok j = TCs ->
    reads Primary (ESlice x a b s) (tx ++ i :: ta ++ c :: tb ++ c' :: ts ++ [j])
| r_call : forall f tf i a ta j, reads Primary f tf -> i_tok i = TOp -> reads_actuals a ta -> call_limit D a -> i_tok j = TCp ->
    reads Primary (ECall f a) (tf ++ i :: ta ++ [j])
| r_name : forall i s, i_tok i = TName s -> reads Atom (EId (idof s)) [i]
| r_number : forall i s, i_tok i = TNumber s -> reads Atom (ENum (numof s)) [i]
| r_string : forall i s ls ts, i_tok i = TString s -> reads_strings ls ts -> reads Atom (EStr (i_obj i) ls) (i :: ts)
| r_paren : forall i x tx j, i_tok i = TOp -> reads OrTest x tx -> i_tok j = TCp -> reads Atom x (i :: tx ++ [j])
| r_unit : forall i j, i_tok i = TOp -> i_tok j = TCp -> reads Atom (ETuple ANil) [i; j]
| r_tuple : forall i x tx c a ta j, i_tok i = TOp -> reads OrTest x tx -> i_tok c = TComma -> reads_actuals a ta ->
    nnamed a = 0 -> tuple_limit D (APos x a) -> i_tok j = TCp -> reads Atom (ETuple (APos x a)) (i :: tx ++ c :: ta ++ [j])
| r_list : forall i a ta j, i_tok i = TOs -> reads_actuals a ta -> nnamed a = 0 -> list_limit D a -> i_tok j = TCs ->
    reads Atom (EList a) (i :: ta ++ [j])
| r_dict : forall i d td j, i_tok i = TOc -> reads_dents d td -> i_tok j = TCc -> reads Atom (EDict d) (i :: td ++ [j])
(** the comparisons after the first operand *)
with reads_links : links -> list item -> Prop :=
| k_last : forall i b y ty, In (i_tok i, b) comparisons -> reads (Bin OrExpr) y ty -> reads_links (LLast b y) (i :: ty)
| k_more : forall i b y ty l tl, In (i_tok i, b) comparisons -> reads (Bin OrExpr) y ty -> reads_links l tl ->
    reads_links (LMore b y l) (i :: ty ++ tl)
with reads_opt : oexpr -> list item -> Prop :=
| o_none : reads_opt ONone []
| o_some : forall e ts, reads OrTest e ts -> reads_opt (OSome e) ts
with reads_actuals : args -> list item -> Prop :=
| q_none : reads_actuals ANil []
| q_some : forall b a ts, reads_args b a ts -> reads_actuals a ts
(** one or more arguments, only named ones if [b]; the last may be followed by a comma *)
with reads_args : bool -> args -> list item -> Prop :=
| a_last : forall e te c, reads OrTest e te -> trailing c -> reads_args false (APos e ANil) (te ++ c)
| a_more : forall e te i b a ta, reads OrTest e te -> i_tok i = TComma -> reads_args b a ta ->
    reads_args false (APos e a) (te ++ i :: ta)
| a_named_last : forall b id tn e te c, reads_name id tn -> reads OrTest e te -> trailing c ->
    reads_args b (ANamed id e ANil) (tn ++ te ++ c)
| a_named_more : forall b id tn e te i a ta, reads_name id tn -> reads OrTest e te -> i_tok i = TComma -> reads_args true a ta ->
    reads_args b (ANamed id e a) (tn ++ te ++ i :: ta)
(** what stands before the value of a named argument *)
with reads_name : Z -> list item -> Prop :=
| n_name : forall i s j, i_tok i = TName s -> i_tok j = TAssign OpAssign -> reads_name (idof s) [i; j]
| n_lax : forall x tx id j a, d_lax D = true -> reads OrTest x tx -> loads x id -> In (i_tok j, a) assignments ->
    reads_name id (tx ++ [j])
with reads_dents : dents -> list item -> Prop :=
| d_none : reads_dents DNil []
| d_last : forall k tk i v tv c, reads OrTest k tk -> i_tok i = TColon -> reads OrTest v tv -> trailing c ->
    reads_dents (DCons k v DNil) (tk ++ i :: tv ++ c)
| d_more : forall k tk i v tv c d td, reads OrTest k tk -> i_tok i = TColon -> reads OrTest v tv -> i_tok c = TComma ->
    reads_dents d td -> reads_dents (DCons k v d) (tk ++ i :: tv ++ c :: td).
End Reads.

(** Operator tokens carry the operator that was read (snek-lex.c 431-537): the
    lexer makes no other ones. *)
Definition proper (t : token) : Prop :=
  match t with
  | TPlus o => o = OpPlus | TMinus o => o = OpMinus | TPow o => o = OpPow
  | TMulop o => In o [OpTimes; OpDivide; OpDiv; OpMod]
  | TLand o => o = OpLand | TLor o => o = OpLor | TLxor o => o = OpLxor | TLnot o => o = OpLnot
  | TShift o => In o [OpLshift; OpRshift]
  | TCmpop o => In o [OpEq; OpNe; OpGt; OpLt; OpGe; OpLe; OpIs; OpIsNot; OpNotIn]
  | TNot o => o = OpNot | TIn o => o = OpIn
  | TAssign o => In (TAssign o) (map fst assignments)
  | _ => True
  end.

(** No argument list in the tree has so many named arguments that their count wraps *)
Section Counts.
Variable w : width.
Fixpoint nowrap (e : expr) : Prop :=
  match e with
  | ENum _ | EStr _ _ | EId _ => True
  | EList a | ETuple a => counted w a /\ nowrap_args a
  | EDict d => nowrap_dents d
  | EBin _ x y | EIndex x y | EAnd x y | EOr x y => nowrap x /\ nowrap y
  | EUn _ x => nowrap x
  | ESlice x a b c => nowrap x /\ nowrap_opt a /\ nowrap_opt b /\ nowrap_opt c
  | ECall f a => nowrap f /\ counted w a /\ nowrap_args a
  | ECmp x l => nowrap x /\ nowrap_links l
  end
with nowrap_args (a : args) : Prop :=
  match a with
  | ANil => True
  | APos e r | ANamed _ e r => nowrap e /\ nowrap_args r
  end
with nowrap_dents (d : dents) : Prop :=
  match d with DNil => True | DCons k v r => nowrap k /\ nowrap v /\ nowrap_dents r end
with nowrap_opt (o : oexpr) : Prop := match o with ONone => True | OSome e => nowrap e end
with nowrap_links (l : links) : Prop :=
  match l with LLast _ y => nowrap y | LMore _ y l => nowrap y /\ nowrap_links l end.
End Counts.

Scheme reads_mut := Minimality for reads Sort Prop
with reads_links_mut := Minimality for reads_links Sort Prop
with reads_opt_mut := Minimality for reads_opt Sort Prop
with reads_actuals_mut := Minimality for reads_actuals Sort Prop
with reads_args_mut := Minimality for reads_args Sort Prop
with reads_name_mut := Minimality for reads_name Sort Prop
with reads_dents_mut := Minimality for reads_dents Sort Prop.
Combined Scheme reads_all from reads_mut, reads_links_mut, reads_opt_mut, reads_actuals_mut, reads_args_mut, reads_name_mut, reads_dents_mut.
