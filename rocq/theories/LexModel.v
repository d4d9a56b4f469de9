(** snek-lex.c: the lexer, function by function.

    Characters are bytes 0..255 ([char] may be signed or not; the code only
    tests [c & 0x80] on the upper half, and compares with ASCII characters).
    The input is a list of bytes followed by end-of-file for ever.  Reading the
    end of the file gives 0, as a NUL byte does.  Loops take a bound on the
    number of steps, [None] meaning that the loop was still running; so a result
    [Some] is the C program's result, and a loop that never ends gives [None]
    for every bound.

    Not modelled: the debug output, snek_file, and the keyword/identifier
    numbers (names are kept as text; see NameModel.v).  The number token keeps
    its text; strtof is applied to it. *)
From Coq Require Import ZArith Bool List Ascii String.
From Verif Require Import Base PolyModel.
Import ListNotations.
Local Open Scope Z_scope.

Definition ch (a : ascii) : Z := Z.of_N (N_of_ascii a).
Fixpoint chars (s : string) : list Z :=
  match s with EmptyString => [] | String a s' => ch a :: chars s' end.
Definition NL : Z := 10.
Definition SNEK_EOF : Z := 0.   (* snek-lex.c 55 *)

(** The part of snek_op_t (snek.h) that the lexer stores in snek_token_val.op *)
Inductive lexop :=
| OpEq | OpNe | OpGt | OpLt | OpGe | OpLe | OpIs | OpIsNot | OpIn | OpNotIn
| OpPlus | OpMinus | OpTimes | OpDivide | OpDiv | OpMod | OpPow
| OpLand | OpLor | OpLxor | OpLshift | OpRshift
| OpAssignTo (o : lexop)      (* snek_op_assign_plus etc.: op + (snek_op_assign_plus - snek_op_plus) *)
| OpAssign | OpNot | OpLnot.

Inductive token :=
| TEnd | TNl | TColon | TSemi | TComma | TOp | TCp | TOs | TCs | TOc | TCc
| TPlus (o : lexop) | TMinus (o : lexop) | TMulop (o : lexop) | TPow (o : lexop)
| TLand (o : lexop) | TLor (o : lexop) | TLxor (o : lexop) | TLnot (o : lexop)
| TShift (o : lexop) | TCmpop (o : lexop) | TAssign (o : lexop)
| TNot (o : lexop)
| TKeyword (s : list Z)       (* the other keywords *)
| TIn (o : lexop)
| TName (s : list Z)
| TNumber (s : list Z)
| TString (s : list Z)
| TIndent (i : Z) | TExdent (i : Z)
| TInvalid.                   (* FIRST_NON_TERMINAL, TOKEN_INVALID *)

(** Settings that do not change while a token is read: size of snek_lex_line,
    snek_interactive, snek_abort, and whether snek_alloc succeeds in string(). *)
Record lexcfg := { lc_width : width; lc_interactive : bool; lc_abort : bool; lc_alloc : bool }.

Record lex := {
  lx_unget : list Z;     (* ungetbuf, top first; lx_unget's length is ungetcount *)
  lx_input : list Z;
  lx_line : Z;           (* snek_lex_line *)
  lx_text : list Z;      (* snek_lex_text, snek_lex_len characters *)
  lx_current : Z;        (* snek_current_indent, uint8_t *)
  lx_indent : Z;         (* snek_lex_indent, uint8_t *)
  lx_ignore : Z;         (* snek_ignore_nl, uint8_t *)
  lx_midline : bool; lx_exdent : bool;
  lx_over : bool }.      (* a write beyond ungetbuf's 5 places has happened: undefined behaviour *)

Definition set_chars u i l (s : lex) : lex :=
  {| lx_unget := u; lx_input := i; lx_line := l; lx_text := lx_text s; lx_current := lx_current s;
     lx_indent := lx_indent s; lx_ignore := lx_ignore s; lx_midline := lx_midline s; lx_exdent := lx_exdent s;
     lx_over := lx_over s |}.
Definition set_text t (s : lex) : lex :=
  {| lx_unget := lx_unget s; lx_input := lx_input s; lx_line := lx_line s; lx_text := t; lx_current := lx_current s;
     lx_indent := lx_indent s; lx_ignore := lx_ignore s; lx_midline := lx_midline s; lx_exdent := lx_exdent s;
     lx_over := lx_over s |}.
Definition set_indents c i (s : lex) : lex :=
  {| lx_unget := lx_unget s; lx_input := lx_input s; lx_line := lx_line s; lx_text := lx_text s; lx_current := c;
     lx_indent := i; lx_ignore := lx_ignore s; lx_midline := lx_midline s; lx_exdent := lx_exdent s;
     lx_over := lx_over s |}.
Definition set_flags g ml ex (s : lex) : lex :=
  {| lx_unget := lx_unget s; lx_input := lx_input s; lx_line := lx_line s; lx_text := lx_text s; lx_current := lx_current s;
     lx_indent := lx_indent s; lx_ignore := g; lx_midline := ml; lx_exdent := ex; lx_over := lx_over s |}.

Definition u8 (z : Z) : Z := z mod 256.
Definition s8 (z : Z) : Z := wraps 8 z.

Section WithCfg.
Variable C : lexcfg.

(** snek-lex.c 61-78: lexchar *)
Definition lexchar (s : lex) : Z * lex :=
  let '(c, u, i) :=
    match lx_unget s with
    | c :: u => (c, u, lx_input s)
    | [] => match lx_input s with c :: i => (c, [], i) | [] => (SNEK_EOF, [], []) end
    end in
  (c, set_chars u i (if c =? NL then u_of (lc_width C) (lx_line s + 1) else lx_line s) s).

(** snek-lex.c 80-86: unlexchar; snek-lex.c 48: the buffer has 5 places *)
Definition unlexchar (c : Z) (s : lex) : lex :=
  {| lx_unget := c :: lx_unget s; lx_input := lx_input s;
     lx_line := if c =? NL then u_of (lc_width C) (lx_line s - 1) else lx_line s;
     lx_text := lx_text s; lx_current := lx_current s; lx_indent := lx_indent s; lx_ignore := lx_ignore s;
     lx_midline := lx_midline s; lx_exdent := lx_exdent s;
     lx_over := lx_over s || Nat.leb 5 (List.length (lx_unget s)) |}.

(** snek-lex.c 88-93: start_token *)
Definition start_token (s : lex) : lex := set_text [] s.

Definition SNEK_MAX_TOKEN : Z := 255.   (* snek-lex.c 28-30 *)

(** snek-lex.c 95-103: add_token *)
Definition add_token (c : Z) (s : lex) : bool * lex :=
  if Z.of_nat (List.length (lx_text s)) =? SNEK_MAX_TOKEN then (false, s)
  else (true, set_text (lx_text s ++ [c]) s).

(** snek-lex.c 105-113: lextoken *)
Definition lextoken (s : lex) : Z * lex :=
  let '(c, s) := lexchar s in
  if c =? SNEK_EOF then (c, s)
  else let '(ok, s) := add_token c s in
       if (ok : bool) then (c, s) else (SNEK_EOF, s).

(** snek-lex.c 115-121: unlextoken *)
Definition unlextoken (c : Z) (s : lex) : lex :=
  let s := unlexchar c s in
  set_text (removelast (lx_text s)) s.

(** snek-lex.c 123-134: check_equal *)
Definition check_equal (plain : lexop -> token) (op : lexop) (s : lex) : token * lex :=
  let '(n, s) := lextoken s in
  if negb (n =? ch "=") then (plain op, unlextoken n s)
  else (TAssign (OpAssignTo op), s).

(** snek-lex.c 136-153: is_name *)
Definition lower (c : Z) : Z := Z.lor c 32.
Definition between (a c b : Z) : bool := (a <=? c) && (c <=? b).
Definition is_name (c : Z) (first : bool) : bool :=
  if c =? ch "_" then true
  else if negb (Z.land c 128 =? 0) then true
  else if negb first && (c =? ch ".") then true
  else if negb first && between (ch "0") c (ch "9") then true
  else between (ch "a") (lower c) (ch "z").

(** snek-lex.c 155-164: hex *)
Definition hex (c : Z) : Z :=
  if between (ch "0") c (ch "9") then c - ch "0"
  else let c := lower c in
       if between (ch "a") c (ch "f") then c - (ch "a" - 10) else -1.

(** snek-lex.c 166-175: comment.  The assignment in the loop condition stores
    the comparison's result, so the test for the end of the file inside the loop
    is never true. *)
Fixpoint comment (fuel : nat) (s : lex) : option lex :=
  let '(c, s) := lexchar s in
  if (c =? NL) || lc_abort C then Some s
  else match fuel with O => None | S fuel' => comment fuel' s end.

(** snek-lex.c 177-207 *)
Inductive nstate := NInt | NFrac | NExpsign | NExp.
Inductive nclass := CDigit | CDot | CE | CSign | COther | CUnderscore.
Definition cclass (c : Z) : nclass :=
  if between (ch "0") c (ch "9") then CDigit
  else if c =? ch "." then CDot
  else if lower c =? ch "e" then CE
  else if (c =? ch "-") || (c =? ch "+") then CSign
  else if c =? ch "_" then CUnderscore
  else COther.
(** snek-lex.c 221-268: the next state, or [None] to stop *)
Definition nstep (n : nstate) (t : nclass) : option nstate :=
  match n, t with
  | NInt, CDigit | NInt, CUnderscore => Some NInt
  | NInt, CDot => Some NFrac
  | NInt, CE => Some NExpsign
  | NFrac, CDigit => Some NFrac
  | NFrac, CE => Some NExpsign
  | NExpsign, CSign | NExpsign, CDigit => Some NExp
  | NExp, CDigit => Some NExp
  | _, _ => None
  end.

(** snek-lex.c 209-275: number *)
Fixpoint number_loop (fuel : nat) (n : nstate) (t : nclass) (c : Z) (s : lex) : option (token * lex) :=
  let '(ok, s) := match t with CUnderscore => (true, s) | _ => add_token c s end in
  if negb ok then Some (TInvalid, s)
  else
    let '(c, s) := lexchar s in
    let t := cclass c in
    match nstep n t with
    | Some n => match fuel with O => None | S fuel' => number_loop fuel' n t c s end
    | None => let s := unlexchar c s in Some (TNumber (lx_text s), s)
    end.
Definition number (fuel : nat) (c : Z) (s : lex) : option (token * lex) :=
  number_loop fuel NInt CDigit c (start_token s).

(** The text as a C string: up to the first NUL. *)
Fixpoint c_string (s : list Z) : list Z :=
  match s with [] => [] | c :: s' => if c =? 0 then [] else c :: c_string s' end.

(** snek-lex.c 311-315: the value of two hexadecimal digits, as int8_t
    (shifting the negative result of hex left is taken as a multiplication) *)
Definition hex_pair (a b : Z) : Z := s8 (Z.lor (s8 (hex a * 16)) (hex b)).

(** snek-lex.c 277-324: string *)
Fixpoint string_loop (fuel : nat) (q : Z) (s : lex) : option (token * lex) :=
  let '(c, s) := lexchar s in
  if c =? q then
    Some (if lc_alloc C then TString (c_string (lx_text s)) else TInvalid, s)
  else if c =? NL then Some (TInvalid, unlexchar c s)
  else
    let '(c, s) :=
      if c =? ch "\" then
        let '(c, s) := lexchar s in
        if c =? ch "n" then (Some 10, s)
        else if c =? ch "r" then (Some 13, s)
        else if c =? ch "t" then (Some 9, s)
        else if c =? ch "x" then
          let '(a, s) := lexchar s in
          let '(b, s) := lexchar s in
          let t := hex_pair a b in
          (if t <? 0 then None else Some t, s)
        else (Some c, s)
      else (Some c, s) in
    match c with
    | None => Some (TInvalid, s)
    | Some c =>
        let '(ok, s) := add_token c s in
        if negb ok then Some (TInvalid, s)
        else match fuel with O => None | S fuel' => string_loop fuel' q s end
    end.
Definition string_ (fuel : nat) (q : Z) (s : lex) : option (token * lex) := string_loop fuel q (start_token s).

(** snek-lex.c 338-339: skipping spaces; the first other character, and
    whether there were spaces *)
Fixpoint skip_spaces (fuel : nat) (space : bool) (s : lex) : option (Z * bool * lex) :=
  let '(c, s) := lexchar s in
  if c =? ch " " then match fuel with O => None | S fuel' => skip_spaces fuel' true s end
  else Some (c, space, s).

(** snek-lex.c 350-351: push back the matched characters, [done] being the
    matched part, last character first *)
Fixpoint unlex_all (done : list Z) (s : lex) : lex :=
  match done with [] => s | c :: done' => unlex_all done' (unlextoken c s) end.

(** snek-lex.c 346-360: match the trailing word; [todo] is what remains of it *)
Fixpoint match_word (done todo : list Z) (space : bool) (c : Z) (without with_ : token) (s : lex) : token * lex :=
  match todo with
  | [] => (with_, s)       (* not reached: the words are not empty *)
  | n :: todo' =>
      if negb (c =? n) then
        let s := unlextoken c s in
        let s := unlex_all done s in
        let s := if space then unlextoken (ch " ") s else s in
        (without, s)
      else
        match todo' with
        | [] => (with_, s)
        | _ => let '(c, s) := lextoken s in match_word (n :: done) todo' space c without with_ s
        end
  end.

(** snek-lex.c 330-361: trailing *)
Definition trailing (fuel : nat) (next : list Z) (without with_ : token) (s : lex) : option (token * lex) :=
  match skip_spaces fuel false s with
  | None => None
  | Some (c, space, s) =>
      let s := if (space : bool) then snd (add_token (ch " ") s) else s in
      let s := snd (add_token c s) in
      Some (match_word [] next space c without with_ s)
  end.

(** snek-lex.c 363-369: snek_lex_close *)
Definition lex_close (t : token) (s : lex) : token * lex :=
  (t, if lx_ignore s =? 0 then s else set_flags (u8 (lx_ignore s - 1)) (lx_midline s) (lx_exdent s) s).
Definition lex_open (t : token) (s : lex) : token * lex :=
  (t, set_flags (u8 (lx_ignore s + 1)) (lx_midline s) (lx_exdent s) s).

(** snek-keyword.builtin *)
Definition keywords : list (list Z) :=
  map chars ["def"; "del"; "global"; "assert"; "if"; "else"; "elif"; "for"; "from"; "while"; "continue"; "pass";
             "break"; "return"; "import"; "range"; "or"; "and"; "is"; "in"; "not"]%string.
Fixpoint text_eqb (a b : list Z) : bool :=
  match a, b with
  | [], [] => true
  | x :: a', y :: b' => (x =? y) && text_eqb a' b'
  | _, _ => false
  end.
Definition is_keyword (w : list Z) : bool := existsb (text_eqb w) keywords.

(** snek-lex.c 544-546: the rest of a name *)
Fixpoint name_loop (fuel : nat) (s : lex) : option (Z * lex) :=
  let '(c, s) := lextoken s in
  if is_name c false then match fuel with O => None | S fuel' => name_loop fuel' s end
  else Some (c, s).

(** snek-lex.c 544-567: names and keywords *)
Definition word (fuel : nat) (s : lex) : option (token * lex) :=
  match name_loop fuel s with
  | None => None
  | Some (c, s) =>
      let s := unlextoken c s in
      let w := lx_text s in
      if is_keyword w then
        if text_eqb w (chars "is") then trailing fuel (chars "not") (TCmpop OpIs) (TCmpop OpIsNot) s
        else if text_eqb w (chars "not") then trailing fuel (chars "in") (TNot OpNot) (TCmpop OpNotIn) s
        else if text_eqb w (chars "in") then Some (TIn OpIn, s)
        else Some (TKeyword w, s)
      else Some (TName w, s)
  end.

(** snek-lex.c 381-400: find a line that is not a comment (or blank).  Counts
    the spaces; returns the first other character. *)
Fixpoint indent_spaces (fuel : nat) (i : Z) (s : lex) : option (Z * Z * lex) :=
  let '(c, s) := lexchar s in
  if c =? ch " " then match fuel with O => None | S fuel' => indent_spaces fuel' (u8 (i + 1)) s end
  else Some (c, i, s).
Fixpoint find_line (fuel : nat) (s : lex) : option (Z * lex) :=
  match indent_spaces fuel 0 s with
  | None => None
  | Some (c, i, s) =>
      let s := set_indents (lx_current s) i s in
      if c =? SNEK_EOF then Some (c, set_indents (lx_current s) 0 s)
      else if negb (lc_interactive C) && (c =? NL) then
        match fuel with O => None | S fuel' => find_line fuel' s end
      else if c =? ch "#" then
        match comment fuel s with        (* comment never returns false *)
        | None => None
        | Some s => match fuel with O => None | S fuel' => find_line fuel' s end
        end
      else Some (c, s)
  end.

(** snek-lex.c 378-416: at the beginning of a line.  [inl]: a token. *)
Definition line_start (fuel : nat) (s : lex) : option (option token * lex) :=
  if lx_midline s then Some (None, s)
  else match find_line fuel s with
       | None => None
       | Some (c, s) =>
           let s := set_flags (lx_ignore s) true (lx_exdent s) s in
           let s := unlexchar c s in
           if lx_ignore s =? 0 then
             if lx_current s <? lx_indent s then
               let i := lx_current s in
               Some (Some (TIndent i), set_indents (lx_indent s) (lx_indent s) s)
             else if lx_indent s <? lx_current s then
               Some (None, set_flags (lx_ignore s) (lx_midline s) true s)
             else Some (None, s)
           else Some (None, s)
       end.

(** snek-lex.c 418-428: pending EXDENT tokens *)
Definition exdents (s : lex) : option token * lex :=
  if lx_exdent s && (lx_ignore s =? 0) then
    if lx_indent s <? lx_current s then (Some (TExdent (lx_indent s)), s)
    else (None, set_flags (lx_ignore s) (lx_midline s) false s)
  else (None, s).

(** What the switch does: return a token, go round the loop, or fall out of
    the switch to the part after it. *)
Inductive action := AToken (t : token) | AContinue | AFall.
Definition tok (r : token * lex) : option (action * lex) := let '(t, s) := r in Some (AToken t, s).
Definition otok (r : option (token * lex)) : option (action * lex) :=
  match r with Some (t, s) => Some (AToken t, s) | None => None end.

(** snek-lex.c 433-536: the switch on the first character *)
Definition lex_switch (fuel : nat) (c : Z) (s : lex) : option (action * lex) :=
  if c =? SNEK_EOF then tok (TEnd, s)
  else if c =? NL then
    let s := set_flags (lx_ignore s) false (lx_exdent s) s in
    if lx_ignore s =? 0 then tok (TNl, s) else Some (AContinue, s)
  else if c =? ch ":" then tok (TColon, s)
  else if c =? ch ";" then tok (TSemi, s)
  else if c =? ch "," then tok (TComma, s)
  else if c =? ch "(" then tok (lex_open TOp s)
  else if c =? ch ")" then tok (lex_close TCp s)
  else if c =? ch "[" then tok (lex_open TOs s)
  else if c =? ch "]" then tok (lex_close TCs s)
  else if c =? ch "{" then tok (lex_open TOc s)
  else if c =? ch "}" then tok (lex_close TCc s)
  else if c =? ch "+" then tok (check_equal TPlus OpPlus s)
  else if c =? ch "-" then tok (check_equal TMinus OpMinus s)
  else if c =? ch "*" then
    let '(n, s) := lextoken s in
    if n =? ch "*" then tok (check_equal TPow OpPow s)
    else tok (check_equal TMulop OpTimes (unlextoken n s))
  else if c =? ch "/" then
    let '(n, s) := lextoken s in
    if n =? ch "/" then tok (check_equal TMulop OpDiv s)
    else tok (check_equal TMulop OpDivide (unlextoken n s))
  else if c =? ch "%" then tok (check_equal TMulop OpMod s)
  else if c =? ch "&" then tok (check_equal TLand OpLand s)
  else if c =? ch "|" then tok (check_equal TLor OpLor s)
  else if c =? ch "~" then tok (TLnot OpLnot, s)
  else if c =? ch "^" then tok (check_equal TLxor OpLxor s)
  else if c =? ch "<" then
    let '(n, s) := lextoken s in
    if n =? ch "<" then tok (check_equal TShift OpLshift s)
    else if n =? ch "=" then tok (TCmpop OpLe, s)
    else tok (TCmpop OpLt, unlextoken n s)
  else if c =? ch "=" then
    let '(n, s) := lextoken s in
    if n =? ch "=" then tok (TCmpop OpEq, s)
    else tok (TAssign OpAssign, unlextoken n s)
  else if c =? ch ">" then
    let '(n, s) := lextoken s in
    if n =? ch ">" then tok (check_equal TShift OpRshift s)
    else if n =? ch "=" then tok (TCmpop OpGe, s)
    else tok (TCmpop OpGt, unlextoken n s)
  else if c =? ch "!" then
    let '(n, s) := lextoken s in
    if n =? ch "=" then tok (TCmpop OpNe, s)
    else Some (AFall, unlextoken n s)
  else if (c =? 34) || (c =? 39) then otok (string_ fuel c s)    (* the two quotes *)
  else if c =? ch "#" then
    match comment fuel s with
    | None => None
    | Some s => Some (AContinue, unlexchar NL s)
    end
  else if c =? ch " " then Some (AContinue, s)
  else Some (AFall, s).

(** snek-lex.c 538-567: after the switch *)
Definition lex_rest (fuel : nat) (c : Z) (s : lex) : option (token * lex) :=
  if between (ch "0") c (ch "9") || (c =? ch ".") then number fuel c s
  else if negb (is_name c true) then Some (TInvalid, s)
  else word fuel s.

(** snek-lex.c 371-569: snek_lex *)
Fixpoint snek_lex (fuel : nat) (s : lex) : option (token * lex) :=
  match line_start fuel s with
  | None => None
  | Some (Some t, s) => Some (t, s)
  | Some (None, s) =>
      match exdents s with
      | (Some t, s) => Some (t, s)
      | (None, s) =>
          let '(c, s) := lextoken (start_token s) in
          match lex_switch fuel c s with
          | None => None
          | Some (AToken t, s) => Some (t, s)
          | Some (AContinue, s) => match fuel with O => None | S fuel' => snek_lex fuel' s end
          | Some (AFall, s) => lex_rest fuel c s
          end
      end
  end.
End WithCfg.

(** snek-parse.c 225-230: the state in which a command is read *)
Definition lex_start (input : list Z) (line : Z) : lex :=
  {| lx_unget := []; lx_input := input; lx_line := line; lx_text := []; lx_current := 0; lx_indent := 0;
     lx_ignore := 0; lx_midline := false; lx_exdent := false; lx_over := false |}.
