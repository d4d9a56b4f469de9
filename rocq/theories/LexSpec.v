(** Vocabulary for the statements about the lexer. *)
From Coq Require Import ZArith Bool List Ascii String.
From Verif Require Import Base LexModel.
Import ListNotations.
Local Open Scope Z_scope.
Notation length := List.length (only parsing).

(** [t] is the text still to be read, followed by the end of the file. *)
Definition ahead (s : lex) (t : list Z) : Prop :=
  exists k, lx_unget s ++ lx_input s = t ++ repeat SNEK_EOF k.
(** Text: bytes other than NUL. *)
Definition is_text (t : list Z) : Prop := Forall (fun c => 0 < c < 256) t.

(** In the middle of a line: indentation has been dealt with. *)
Definition mid (s : lex) : Prop := lx_midline s = true /\ lx_exdent s = false.
(** The block structure is as before. *)
Definition same_block (s s' : lex) : Prop :=
  lx_current s' = lx_current s /\ lx_indent s' = lx_indent s /\
  lx_midline s' = lx_midline s /\ lx_exdent s' = lx_exdent s.

Definition spaces (n : nat) : list Z := repeat (ch " ") n.
Definition starts (w t : list Z) : Prop := exists r, t = w ++ r.

(** ** Operators and punctuation (doc: the Snek operators) *)
Definition operators : list (list Z * token) :=
  map (fun p => (chars (fst p), snd p))
  [(":", TColon); (";", TSemi); (",", TComma);
   ("(", TOp); (")", TCp); ("[", TOs); ("]", TCs); ("{", TOc); ("}", TCc);
   ("+", TPlus OpPlus); ("-", TMinus OpMinus); ("*", TMulop OpTimes); ("/", TMulop OpDivide);
   ("//", TMulop OpDiv); ("%", TMulop OpMod); ("**", TPow OpPow);
   ("&", TLand OpLand); ("|", TLor OpLor); ("^", TLxor OpLxor); ("~", TLnot OpLnot);
   ("<<", TShift OpLshift); (">>", TShift OpRshift);
   ("==", TCmpop OpEq); ("!=", TCmpop OpNe); ("<", TCmpop OpLt); (">", TCmpop OpGt);
   ("<=", TCmpop OpLe); (">=", TCmpop OpGe); ("=", TAssign OpAssign);
   ("+=", TAssign (OpAssignTo OpPlus)); ("-=", TAssign (OpAssignTo OpMinus));
   ("*=", TAssign (OpAssignTo OpTimes)); ("/=", TAssign (OpAssignTo OpDivide));
   ("//=", TAssign (OpAssignTo OpDiv)); ("%=", TAssign (OpAssignTo OpMod)); ("**=", TAssign (OpAssignTo OpPow));
   ("&=", TAssign (OpAssignTo OpLand)); ("|=", TAssign (OpAssignTo OpLor)); ("^=", TAssign (OpAssignTo OpLxor));
   ("<<=", TAssign (OpAssignTo OpLshift)); (">>=", TAssign (OpAssignTo OpRshift))]%string.
(** The longest operator that [t] starts with. *)
Definition longest_operator (t w : list Z) (k : token) : Prop :=
  In (w, k) operators /\ starts w t /\
  forall w' k', In (w', k') operators -> starts w' t -> (length w' <= length w)%nat.

(** ** Words *)
Definition digit (c : Z) : Prop := 48 <= c <= 57.
Definition letter (c : Z) : Prop := 65 <= c <= 90 \/ 97 <= c <= 122 \/ c = 95 \/ 128 <= c < 256.
Definition name_char (c : Z) : Prop := letter c \/ digit c \/ c = 46.
Definition is_word (w : list Z) : Prop :=
  exists c w', w = c :: w' /\ letter c /\ Forall name_char w'.
(** [t] does not start with a character for which [P] holds. *)
Definition not_next (P : Z -> Prop) (t : list Z) : Prop := forall c r, t = c :: r -> ~ P c.
Definition is_space (c : Z) : Prop := c = 32.
Definition word_token (w : list Z) : token :=
  if is_keyword w then if text_eqb w (chars "in") then TIn OpIn else TKeyword w else TName w.

(** ** Numbers: digits with underscores, a fraction, an exponent *)
Definition int_part (w : list Z) : Prop := exists c w', w = c :: w' /\ digit c /\ Forall (fun c => digit c \/ c = 95) w'.
Definition frac_part (w : list Z) : Prop := w = [] \/ exists w', w = 46 :: w' /\ Forall digit w'.
Definition exp_mark (c : Z) : Prop := c = 69 \/ c = 101.
Definition sign (w : list Z) : Prop := w = [] \/ w = [43] \/ w = [45].
Definition exp_part (w : list Z) : Prop :=
  w = [] \/ exists e sg ds, w = e :: sg ++ ds /\ exp_mark e /\ sign sg /\ ds <> [] /\ Forall digit ds.
Definition numeral (ip fp ep : list Z) : Prop := int_part ip /\ frac_part fp /\ exp_part ep.
(** The numeral cannot be continued by [t]. *)
Definition numeral_stops (fp ep t : list Z) : Prop :=
  not_next digit t /\ (ep = [] -> not_next exp_mark t) /\
  (ep = [] -> fp = [] -> not_next (fun c => c = 46 \/ c = 95) t).
(** As above, but the digits of the exponent may be missing. *)
Definition loose_exp (w : list Z) : Prop :=
  w = [] \/ exists e sg ds, w = e :: sg ++ ds /\ exp_mark e /\ sign sg /\ Forall digit ds.
Definition no_underscores (w : list Z) : list Z := filter (fun c => negb (c =? 95)) w.

(** ** String literals: what stands between quotes [q], and what it denotes *)
Definition hex_digit (c v : Z) : Prop :=
  (48 <= c <= 57 /\ v = c - 48) \/ (65 <= c <= 70 /\ v = c - 55) \/ (97 <= c <= 102 /\ v = c - 87).
Inductive body (q : Z) : list Z -> list Z -> Prop :=
| body_end : body q [] []
| body_raw : forall c b v, c <> q -> c <> 92 -> c <> 10 -> body q b v -> body q (c :: b) (c :: v)
| body_n : forall b v, body q b v -> body q (92 :: ch "n" :: b) (10 :: v)
| body_r : forall b v, body q b v -> body q (92 :: ch "r" :: b) (13 :: v)
| body_t : forall b v, body q b v -> body q (92 :: ch "t" :: b) (9 :: v)
| body_x : forall a a' c d b v, hex_digit a c -> hex_digit a' d -> 16 * c + d < 128 ->
    body q b v -> body q (92 :: ch "x" :: a :: a' :: b) (16 * c + d :: v)
| body_char : forall c b v, ~ In c (chars "nrtx") -> body q b v -> body q (92 :: c :: b) (c :: v).

(** ** Comments and the end of the text *)
Definition comments_end (t : list Z) : Prop := forall a b, t = a ++ ch "#" :: b -> In NL b.

(** What is still to be read, pushed-back characters first. *)
Definition pending (s : lex) : list Z := lx_unget s ++ lx_input s.

(** ** Line numbers *)
Definition newlines (t : list Z) : Z := Z.of_nat (count_occ Z.eq_dec t NL).
(** The number of the last line: the lexer's line number plus the line ends to come. *)
Definition lineval (C : lexcfg) (s : lex) : Z := u_of (lc_width C) (lx_line s + newlines (pending s)).

(** ** Blocks: the lexer together with what the parser does for INDENT and
    EXDENT (snek-gram.ll 279-295, the rule [suite]: push the old indentation;
    pop it and make it current again, it being an error if the line is indented
    more).  Result: the tokens, latest first, and the stack of indentations. *)
Inductive blocks (C : lexcfg) (s0 : lex) : list token -> list Z -> lex -> Prop :=
| bl_start : blocks C s0 [] [] s0
| bl_token : forall ts st s fuel t s', blocks C s0 ts st s -> snek_lex C fuel s = Some (t, s') ->
    (forall i, t <> TIndent i) -> (forall i, t <> TExdent i) -> blocks C s0 (t :: ts) st s'
| bl_open : forall ts st s fuel i s', blocks C s0 ts st s -> snek_lex C fuel s = Some (TIndent i, s') ->
    blocks C s0 (TIndent i :: ts) (i :: st) s'
| bl_close : forall ts st s fuel e i s', blocks C s0 ts (i :: st) s -> snek_lex C fuel s = Some (TExdent e, s') ->
    e <= i -> blocks C s0 (TExdent e :: ts) st (set_indents i (lx_indent s') s').
Definition opens (ts : list token) : nat := length (filter (fun t => match t with TIndent _ => true | _ => false end) ts).
Definition closes (ts : list token) : nat := length (filter (fun t => match t with TExdent _ => true | _ => false end) ts).
(** Strictly decreasing to 0: the indentations of the open blocks, innermost first. *)
Fixpoint descends (i : Z) (st : list Z) : Prop :=
  match st with [] => i = 0 | j :: st' => j < i /\ descends j st' end.
(** A first character of a line that is neither blank nor a comment. *)
Definition starts_line (c : Z) : Prop := 0 < c < 256 /\ c <> ch " " /\ c <> ch "#" /\ c <> NL.
(** The tokens that take some of the text. *)
Definition takes (t : token) : bool := match t with TEnd | TIndent _ | TExdent _ => false | _ => true end.
Definition taken (ts : list token) : nat := length (filter takes ts).
