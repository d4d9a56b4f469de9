(** The statements of the Python Language Reference (7.1, 7.2, 7.3, 7.4, 7.5,
    7.6, 7.9, 7.10, 7.12, 8.1 to 8.3, 8.7, 9.2), cut down to the phrases Snek
    has.  range is a word of the for statement, as in Snek.  A line with nothing
    on it is the statement that does nothing.  A block's INDENT carries the
    indentation outside it, its EXDENT that of the line after it. *)
From Coq Require Import ZArith Bool List Ascii String.
From Verif Require Import Base FloatModel PolyModel ValueModel MathModel BinModel LexModel CompModel GramModel GramSpec.
Import ListNotations.
Local Open Scope Z_scope.
Notation length := List.length (only parsing).

Section Stmts.
Variable D : dialect.
Variable idof : list Z -> Z.
Variable numof : list Z -> float.
Notation reads := (reads D idof numof).
Notation reads_opt := (reads_opt D idof numof).
Notation reads_actuals := (reads_actuals D idof numof).

(** what can be assigned to or deleted *)
Inductive stores : expr -> target -> Prop :=
| v_id : forall id, stores (EId id) (TId id)
| v_elem : forall x i, stores (EIndex x i) (TElem x i)
| v_plus : forall x t, d_lax D = true -> stores x t -> stores (EUn UPlus x) t.

Inductive reads_globals : stmt -> list item -> Prop :=
| g_last : forall i s, i_tok i = TName s -> reads_globals (SSeq (SGlobal (idof s)) SSkip) [i]
| g_more : forall i s c g ts, i_tok i = TName s -> i_tok c = TComma -> reads_globals g ts ->
    reads_globals (SSeq (SGlobal (idof s)) g) (i :: c :: ts).
Inductive reads_dels : stmt -> list item -> Prop :=
| x_last : forall x t tx, reads Primary x tx -> stores x t -> reads_dels (SSeq (SDel t) SSkip) tx
| x_more : forall x t tx c d ts, reads Primary x tx -> stores x t -> i_tok c = TComma -> reads_dels d ts ->
    reads_dels (SSeq (SDel t) d) (tx ++ c :: ts).

Inductive reads_small : stmt -> list item -> Prop :=
| m_expr : forall x tx, reads OrTest x tx -> reads_small (SExpr x) tx
| m_assign : forall x t tx i a e te, reads OrTest x tx -> stores x t -> In (i_tok i, a) assignments -> reads OrTest e te ->
    reads_small (SAssign a t e) (tx ++ i :: te)
| m_return : forall i o ts, i_tok i = keyword "return" -> reads_opt o ts -> reads_small (SReturn o) (i :: ts)
| m_break : forall i, i_tok i = keyword "break" -> reads_small SBreak [i]
| m_continue : forall i, i_tok i = keyword "continue" -> reads_small SContinue [i]
| m_pass : forall i, i_tok i = keyword "pass" -> reads_small SSkip [i]
| m_global : forall i g ts, i_tok i = keyword "global" -> reads_globals g ts -> reads_small g (i :: ts)
| m_no_global : forall i, d_lax D = true -> i_tok i = keyword "global" -> reads_small SSkip [i]
| m_del : forall i d ts, i_tok i = keyword "del" -> reads_dels d ts -> reads_small d (i :: ts)
| m_assert : forall i x tx, i_tok i = keyword "assert" -> reads OrTest x tx -> reads_small (SAssert x) (i :: tx).
Inductive reads_smalls : stmt -> list item -> Prop :=
| ms_last : forall s ts, reads_small s ts -> reads_smalls (SSeq s SSkip) ts
| ms_trail : forall s ts i, d_trail D = true -> reads_small s ts -> i_tok i = TSemi -> reads_smalls (SSeq s SSkip) (ts ++ [i])
| ms_more : forall s ts i s' ts', reads_small s ts -> i_tok i = TSemi -> reads_smalls s' ts' -> reads_smalls (SSeq s s') (ts ++ i :: ts').
(** a line of them; its number is that of the line its first token is on *)
Inductive reads_line : stmt -> list item -> Prop :=
| ln : forall i ts s j, reads_smalls s (i :: ts) -> i_tok j = TNl -> reads_line (SSeq (SLine (i_line i)) s) (i :: ts ++ [j]).

Inductive reads_stat : stmt -> list item -> Prop :=
| b_line : forall s ts, reads_line s ts -> reads_stat s ts
| b_blank : forall i, i_tok i = TNl -> reads_stat SSkip [i]
| b_if : forall i x tx c s ts r tr, i_tok i = keyword "if" -> reads OrTest x tx -> i_tok c = TColon ->
    reads_suite s ts -> reads_rest r tr -> reads_stat (SSeq (SLine (i_line i)) (SIf x s r)) (i :: tx ++ c :: ts ++ tr)
| b_while : forall i x tx c s ts e te, i_tok i = keyword "while" -> reads OrTest x tx -> i_tok c = TColon ->
    reads_suite s ts -> reads_else e te -> reads_stat (SSeq (SLine (i_line i)) (SWhile x s e)) (i :: tx ++ c :: ts ++ te)
| b_for : forall i n id j x tx c s ts e te, i_tok i = keyword "for" -> i_tok n = TName id -> i_tok j = TIn OpIn ->
    reads OrTest x tx -> i_tok c = TColon -> reads_suite s ts -> reads_else e te ->
    reads_stat (SSeq (SLine (i_line i)) (SFor (idof id) x s e)) (i :: n :: j :: tx ++ c :: ts ++ te)
| b_range : forall i n id j k o a ta q c s ts e te, i_tok i = keyword "for" -> i_tok n = TName id -> i_tok j = TIn OpIn ->
    i_tok k = keyword "range" -> i_tok o = TOp -> reads_actuals a ta -> nnamed a = 0 -> list_limit D a -> i_tok q = TCp ->
    i_tok c = TColon -> reads_suite s ts -> reads_else e te ->
    reads_stat (SSeq (SLine (i_line i)) (SRange (idof id) a s e)) (i :: n :: j :: k :: o :: ta ++ q :: c :: ts ++ te)
with reads_rest : rest -> list item -> Prop :=
| e_none : reads_rest RNone []
| e_elif : forall i x tx c s ts r tr, i_tok i = keyword "elif" -> reads OrTest x tx -> i_tok c = TColon ->
    reads_suite s ts -> reads_rest r tr -> reads_rest (RElif (i_line i) x s r) (i :: tx ++ c :: ts ++ tr)
| e_else : forall i c s ts, i_tok i = keyword "else" -> i_tok c = TColon -> reads_suite s ts -> reads_rest (RElse s) (i :: c :: ts)
with reads_else : stmt -> list item -> Prop :=
| f_none : reads_else SSkip []
| f_else : forall i c s ts, i_tok i = keyword "else" -> i_tok c = TColon -> reads_suite s ts -> reads_else s (i :: c :: ts)
with reads_suite : stmt -> list item -> Prop :=
| u_line : forall s ts, reads_line s ts -> reads_suite s ts
| u_block : forall i j k s ts e f, i_tok i = TNl -> i_tok j = TIndent k -> reads_stats s ts -> i_tok e = TExdent f -> f <= k ->
    reads_suite s (i :: j :: ts ++ [e])
with reads_stats : stmt -> list item -> Prop :=
| w_last : forall s ts, reads_stat s ts -> reads_stats (SSeq s SSkip) ts
| w_more : forall s ts s' ts', reads_stat s ts -> reads_stats s' ts' -> reads_stats (SSeq s s') (ts ++ ts').

(** parameters; after one with a default the others have one *)
Inductive reads_formal : Z * oexpr -> list item -> Prop :=
| fm_name : forall i s, i_tok i = TName s -> reads_formal (idof s, ONone) [i]
| fm_default : forall i s j e te, i_tok i = TName s ->
    (if d_lax D then exists a, In (i_tok j, a) assignments else i_tok j = TAssign OpAssign) ->
    reads OrTest e te -> reads_formal (idof s, OSome e) (i :: j :: te).
Definition defaulted (f : Z * oexpr) : Prop := snd f <> ONone.
Inductive reads_formals : list (Z * oexpr) -> list item -> Prop :=
| fs_last : forall f ts, reads_formal f ts -> reads_formals [f] ts
| fs_trail : forall f ts i, d_trail D = true -> reads_formal f ts -> i_tok i = TComma -> reads_formals [f] (ts ++ [i])
| fs_more : forall f ts i fs ts', reads_formal f ts -> i_tok i = TComma -> reads_formals fs ts' ->
    (defaulted f -> Forall defaulted fs) -> reads_formals (f :: fs) (ts ++ i :: ts').
Inductive reads_params : list (Z * oexpr) -> list item -> Prop :=
| pm_none : reads_params [] []
| pm_some : forall fs ts, reads_formals fs ts -> reads_params fs ts.

Inductive reads_command : command -> list item -> Prop :=
| c_stat : forall s ts, reads_stat s ts -> reads_command (CStat s) ts
| c_def : forall i n id o fs tf q c s ts, i_tok i = keyword "def" -> i_tok n = TName id -> i_tok o = TOp -> reads_params fs tf ->
    i_tok q = TCp -> i_tok c = TColon -> reads_suite s ts ->
    reads_command (CDef (idof id) {| fd_formals := fs; fd_body := s |}) (i :: n :: o :: tf ++ q :: c :: ts).
(** import m; from m import * *)
Inductive reads_import : list item -> Prop :=
| i_import : forall i n id, i_tok i = keyword "import" -> i_tok n = TName id -> reads_import [i; n]
| i_from : forall i n id j o p, i_tok i = keyword "from" -> i_tok n = TName id -> i_tok j = keyword "import" ->
    i_tok o = TMulop p -> (if d_lax D then True else p = OpTimes) -> reads_import [i; n; j; o].
(** a program; an import ends a line, in Snek it need not *)
Inductive reads_program : list command -> list item -> Prop :=
| pg_end : reads_program [] []
| pg_command : forall c ts cs ts', reads_command c ts -> reads_program cs ts' -> reads_program (c :: cs) (ts ++ ts')
| pg_import : forall ts i cs ts', reads_import ts -> i_tok i = TNl -> reads_program cs ts' ->
    reads_program (CImport :: CStat SSkip :: cs) (ts ++ i :: ts')
| pg_lax : forall ts cs ts', d_lax D = true -> reads_import ts -> reads_program cs ts' ->
    reads_program (CImport :: cs) (ts ++ ts').
End Stmts.

Scheme reads_stat_mut := Minimality for reads_stat Sort Prop
with reads_rest_mut := Minimality for reads_rest Sort Prop
with reads_else_mut := Minimality for reads_else Sort Prop
with reads_suite_mut := Minimality for reads_suite Sort Prop
with reads_stats_mut := Minimality for reads_stats Sort Prop.
Combined Scheme stats_all from reads_stat_mut, reads_rest_mut, reads_else_mut, reads_suite_mut, reads_stats_mut.

(** no argument list wraps its count, in a statement *)
Section Counts.
Variable w : width.
Definition nowrap_target (t : target) : Prop :=
  match t with TId _ => True | TElem x i => nowrap w x /\ nowrap w i end.
Fixpoint nowrap_stmt (s : stmt) : Prop :=
  match s with
  | SExpr e | SAssert e => nowrap w e
  | SAssign _ t e => nowrap_target t /\ nowrap w e
  | SDel t => nowrap_target t
  | SReturn o => nowrap_opt w o
  | SSeq a b => nowrap_stmt a /\ nowrap_stmt b
  | SIf x s r => nowrap w x /\ nowrap_stmt s /\ nowrap_rest r
  | SWhile x s e => nowrap w x /\ nowrap_stmt s /\ nowrap_stmt e
  | SFor _ x s e => nowrap w x /\ nowrap_stmt s /\ nowrap_stmt e
  | SRange _ a s e => counted w a /\ nowrap_args w a /\ nowrap_stmt s /\ nowrap_stmt e
  | _ => True
  end
with nowrap_rest (r : rest) : Prop :=
  match r with
  | RNone => True
  | RElif _ x s r => nowrap w x /\ nowrap_stmt s /\ nowrap_rest r
  | RElse s => nowrap_stmt s
  end.
Definition nowrap_command (c : command) : Prop :=
  match c with
  | CStat s => nowrap_stmt s
  | CDef _ f => Forall (fun p => nowrap_opt w (snd p)) (fd_formals f) /\ nowrap_stmt (fd_body f)
  | CImport => True
  end.
End Counts.
