(** The tokens of a text: how a file is divided into words, numbers, strings,
    operators, lines and blocks, said without the lexer. *)
From Coq Require Import ZArith Bool List Ascii String.
From Verif Require Import Base PolyModel LexModel LexSpec GramModel.
Import ListNotations.
Local Open Scope Z_scope.

(** [w] stands for the token [t] when [r] follows it. *)
Inductive lexeme : list Z -> list Z -> token -> Prop :=
| lx_word : forall w r, is_word w -> w <> chars "is" -> w <> chars "not" -> not_next name_char r -> r <> [] -> (length w < 255)%nat ->
    lexeme w r (word_token w)
| lx_operator : forall w r k, longest_operator (w ++ r) w k -> lexeme w r k
| lx_number : forall ip fp ep r, numeral ip fp ep -> numeral_stops fp ep r -> (length (ip ++ fp ++ ep) <= 255)%nat ->
    lexeme (ip ++ fp ++ ep) r (TNumber (no_underscores (ip ++ fp ++ ep)))
| lx_string : forall q b v r, q = 34 \/ q = 39 -> body q b v -> is_text v -> (length v <= 255)%nat -> lexeme (q :: b ++ [q]) r (TString v)
| lx_is : forall k r, not_next name_char (spaces k ++ r) -> not_next is_space r -> r <> [] -> ~ starts (chars "not") r -> lexeme (chars "is") (spaces k ++ r) (TCmpop OpIs)
| lx_is_not : forall k r, not_next name_char r -> lexeme (chars "is" ++ spaces (Datatypes.S k) ++ chars "not") r (TCmpop OpIsNot)
| lx_not : forall k r, not_next name_char (spaces k ++ r) -> not_next is_space r -> r <> [] -> ~ starts (chars "in") r -> lexeme (chars "not") (spaces k ++ r) (TNot OpNot)
| lx_not_in : forall k r, not_next name_char r -> lexeme (chars "not" ++ spaces (Datatypes.S k) ++ chars "in") r (TCmpop OpNotIn).

(** How many brackets are open after the token; Snek counts to 255. *)
Inductive nests (d : Z) : token -> Z -> Prop :=
| ns_open : forall t, t = TOp \/ t = TOs \/ t = TOc -> d < 255 -> nests d t (d + 1)
| ns_close : forall t, t = TCp \/ t = TCs \/ t = TCc -> 0 < d -> nests d t (d - 1)
| ns_other : forall t, ~ In t [TOp; TOs; TOc; TCp; TCs; TCc] -> nests d t d.

(** Where in the text: in a line; at the start of one; or after the spaces of
    one, while blocks are being closed, with its indentation. *)
Inductive place := InLine | AtLine | Closing (k : Z).

(** [tokens W p d st i n t its]: the rest [t] of a text, from the place [p] in
    line [n] on, where [d] brackets are open and the innermost open block is
    indented by [i] and those around it by [st], gives the tokens [its], each
    with the number of the line in which it ends. *)
Inductive tokens (W : width) : place -> Z -> list Z -> Z -> Z -> list Z -> list item -> Prop :=
(* a token, then spaces *)
| tk_token : forall d d' st i n w k r t o its, lexeme w (spaces k ++ r) t -> not_next is_space r -> nests d t d' ->
    tokens W InLine d' st i (n + newlines w) r its ->
    tokens W InLine d st i n (w ++ spaces k ++ r) ({| i_tok := t; i_line := u_of W (n + newlines w); i_obj := o |} :: its)
(* a comment *)
| tk_comment : forall d st i n c r its, ~ In NL c -> tokens W InLine d st i n (NL :: r) its ->
    tokens W InLine d st i n (ch "#" :: c ++ NL :: r) its
(* the end of a line *)
| tk_nl : forall st i n r o its, tokens W AtLine 0 st i (n + 1) r its ->
    tokens W InLine 0 st i n (NL :: r) ({| i_tok := TNl; i_line := u_of W (n + 1); i_obj := o |} :: its)
| tk_nl_inside : forall d st i n r its, 0 < d -> tokens W AtLine d st i (n + 1) r its -> tokens W InLine d st i n (NL :: r) its
(* lines that do not count *)
| tk_blank : forall d st i n k r its, tokens W AtLine d st i (n + 1) r its -> tokens W AtLine d st i n (spaces k ++ NL :: r) its
| tk_comment_line : forall d st i n k c r its, ~ In NL c -> tokens W AtLine d st i (n + 1) r its ->
    tokens W AtLine d st i n (spaces k ++ ch "#" :: c ++ NL :: r) its
(* the first token of a line, inside brackets, or in the same, a new or an outer block *)
| tk_inside : forall d st i n k c r its, 0 < d -> starts_line c -> tokens W InLine d st i n (c :: r) its ->
    tokens W AtLine d st i n (spaces k ++ c :: r) its
| tk_same : forall st i n k c r its, starts_line c -> Z.of_nat k = i -> i < 256 -> tokens W InLine 0 st i n (c :: r) its ->
    tokens W AtLine 0 st i n (spaces k ++ c :: r) its
| tk_deeper : forall st i n k c r o its, starts_line c -> i < Z.of_nat k < 256 -> tokens W InLine 0 (i :: st) (Z.of_nat k) n (c :: r) its ->
    tokens W AtLine 0 st i n (spaces k ++ c :: r) ({| i_tok := TIndent i; i_line := u_of W n; i_obj := o |} :: its)
| tk_outer : forall st i n k c r its, starts_line c -> Z.of_nat k < i < 256 -> tokens W (Closing (Z.of_nat k)) 0 st i n (c :: r) its ->
    tokens W AtLine 0 st i n (spaces k ++ c :: r) its
| tk_close : forall st i j n k t o its, k < i -> k <= j -> tokens W (Closing k) 0 st j n t its ->
    tokens W (Closing k) 0 (j :: st) i n t ({| i_tok := TExdent k; i_line := u_of W n; i_obj := o |} :: its)
| tk_closed : forall st i n t its, tokens W InLine 0 st i n t its -> tokens W (Closing i) 0 st i n t its
(* the end of the file *)
| tk_last : forall st i n k its, 0 <= i < 256 -> tokens W (Closing 0) 0 st i n [] its -> tokens W AtLine 0 st i n (spaces k) its
| tk_end : forall st i n o, tokens W InLine 0 st i n [] [{| i_tok := TEnd; i_line := u_of W n; i_obj := o |}].

(** The tokens the parser is given: snek-parse.c 153-161 (the macro lex, which
    stores the line) and snek-gram.ll 279-295 (what INDENT and EXDENT do to the
    indentation), as in [blocks]. *)
Inductive stream (C : lexcfg) : list Z -> lex -> list item -> Prop :=
| sm_end : forall st s fuel s' o, snek_lex C fuel s = Some (TEnd, s') ->
    stream C st s [{| i_tok := TEnd; i_line := u_of (lc_width C) (lx_line s'); i_obj := o |}]
| sm_token : forall st s fuel t s' o its, snek_lex C fuel s = Some (t, s') -> t <> TEnd -> (forall i, t <> TIndent i) -> (forall i, t <> TExdent i) ->
    stream C st s' its -> stream C st s ({| i_tok := t; i_line := u_of (lc_width C) (lx_line s'); i_obj := o |} :: its)
| sm_open : forall st s fuel i s' o its, snek_lex C fuel s = Some (TIndent i, s') -> stream C (i :: st) s' its ->
    stream C st s ({| i_tok := TIndent i; i_line := u_of (lc_width C) (lx_line s'); i_obj := o |} :: its)
| sm_close : forall st s fuel e i s' o its, snek_lex C fuel s = Some (TExdent e, s') -> e <= i ->
    stream C st (set_indents i (lx_indent s') s') its ->
    stream C (i :: st) s ({| i_tok := TExdent e; i_line := u_of (lc_width C) (lx_line s'); i_obj := o |} :: its).
