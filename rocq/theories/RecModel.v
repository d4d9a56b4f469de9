(** snek-parse.c 220-291: what snek_parse does at the prompt after a syntax
    error, on the side of the lexer. *)
From Coq Require Import ZArith Bool List.
From Verif Require Import Base LexModel.
Import ListNotations.
Local Open Scope Z_scope.

Section Rec.
Variable C : lexcfg.

(** snek-parse.c 262-287: skip tokens until the end of a line with no block
    open.  snek_error_syntax (258) has set snek_abort, so [C] is to have
    [lc_abort] (snek-lex.c 171 reads it).  The result tells whether reading goes
    on; it does not at the end of the input. *)
Fixpoint recover (fuel : nat) (s : lex) : option (bool * lex) :=
  match fuel with
  | O => None
  | S fuel' =>
      match snek_lex C fuel (set_flags 0 (lx_midline s) (lx_exdent s) s) with
      | None => None
      | Some (TEnd, s) => Some (false, s)
      | Some (TNl, s) => if lx_current s =? 0 then Some (true, s) else recover fuel' s
      | Some (TExdent i, s) => recover fuel' (set_indents i (lx_indent s) s)
      | Some (_, s) => recover fuel' s
      end
  end.

(** snek-parse.c 225-230: before each command after an error.  The text of the
    last token is not cleared, but it is before it is next read
    (snek-lex.c 430). *)
Definition lex_reset (s : lex) : lex :=
  {| lx_unget := lx_unget s; lx_input := lx_input s; lx_line := lx_line s; lx_text := []; lx_current := 0; lx_indent := 0;
     lx_ignore := 0; lx_midline := false; lx_exdent := false; lx_over := lx_over s |}.
End Rec.
