(** What reading goes on with at the prompt after a syntax error. *)
From Coq Require Import ZArith Bool List Ascii String.
From Verif Require Import Base LexModel LexSpec RecModel.
Import ListNotations.
Local Open Scope Z_scope.

(** A piece of a line without comment; after a backslash come three characters
    at least (as many as an escape can take). *)
Definition plain_piece (p : list Z) : Prop :=
  (forall c, In c p -> 0 < c < 256 /\ c <> NL /\ c <> ch "#") /\ (forall a b, p = a ++ 92 :: b -> (3 <= List.length b)%nat) /\
  (List.length p <= 250)%nat.
(** A line: its indentation and the rest of it. *)
Definition plain_line (k : nat) (p : list Z) : Prop := plain_piece p /\ (k < 256)%nat /\ hd 0 p <> ch " ".
Definition a_line (k : nat) (p : list Z) : list Z := spaces k ++ p ++ [NL].
Definition lines (ls : list (nat * list Z)) : list Z := flat_map (fun l => a_line (fst l) (snd l)) ls.

(** The error was found at a token inside a line: of the line, [p] and then [t]
    is still to be read.  What has been pushed back is in [p] but for one
    character. *)
Record inside (s : lex) (p t : list Z) : Prop := {
  in_mid : lx_midline s = true;
  in_exdent : lx_exdent s = false;
  in_indent : 0 <= lx_indent s;
  in_over : lx_over s = false;
  in_back : (List.length (lx_unget s) <= 4)%nat /\ (List.length (lx_unget s) <= 1 + List.length p)%nat;
  in_ahead : pending s = p ++ t }.
(** The error was found at the end of a line, [t] being the lines after it. *)
Record at_end (s : lex) (t : list Z) : Prop := {
  ae_mid : lx_midline s = false;
  ae_exdent : lx_exdent s = false;
  ae_indent : 0 <= lx_indent s;
  ae_over : lx_over s = false;
  ae_back : lx_unget s = [];
  ae_ahead : lx_input s = t }.

(** After the error the next command is read from the start of the text [t],
    [n] lines further on. *)
Definition goes_on (C : lexcfg) (s : lex) (n : Z) (t : list Z) : Prop :=
  exists N s', (forall fuel, (N <= fuel)%nat -> recover C fuel s = Some (true, s')) /\
    lex_reset s' = lex_start t (lx_line s') /\ u_of (lc_width C) (lx_line s') = u_of (lc_width C) (lx_line s + n).
