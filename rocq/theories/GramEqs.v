(** The equations of the parser, one for each nonterminal. *)
From Coq Require Import ZArith Bool List Ascii String.
From Verif Require Import Base FloatModel PolyModel ValueModel MathModel BinModel LexModel CompModel GramModel.
Import ListNotations.
Local Open Scope Z_scope.
Local Open Scope parse_scope.

Section Eqs.
Variable w : width.
Variable idof : list Z -> Z.
Variable numof : list Z -> float.
Notation p_expr := (p_expr w idof numof).
Notation p_or_p := (p_or_p w idof numof).
Notation p_and := (p_and w idof numof).
Notation p_and_p := (p_and_p w idof numof).
Notation p_not := (p_not w idof numof).
Notation p_cmp := (p_cmp w idof numof).
Notation p_cmp_p := (p_cmp_p w idof numof).
Notation p_bin := (p_bin w idof numof).
Notation p_bin_p := (p_bin_p w idof numof).
Notation p_unary := (p_unary w idof numof).
Notation p_pow := (p_pow w idof numof).
Notation p_array := (p_array w idof numof).
Notation p_array_p := (p_array_p w idof numof).
Notation p_index := (p_index w idof numof).
Notation p_slice := (p_slice w idof numof).
Notation p_opt_expr := (p_opt_expr w idof numof).
Notation p_prim := (p_prim w idof numof).
Notation p_opt_tuple := (p_opt_tuple w idof numof).
Notation p_opt_actuals := (p_opt_actuals w idof numof).
Notation p_actuals := (p_actuals w idof numof).
Notation p_actuals_p := (p_actuals_p w idof numof).
Notation p_dents := (p_dents w idof numof).
Notation p_dents_p := (p_dents_p w idof numof).
Notation name_of := (name_of idof).
Notation eat_name := (eat_name idof).
Notation p_assign := (p_assign w idof numof).
Notation p_del := (p_del w idof numof).
Notation p_dels_p := (p_dels_p w idof numof).
Notation p_globals_p := (p_globals_p idof).
Notation p_globals := (p_globals idof).
Notation p_ret := (p_ret w idof numof).
Notation p_small := (p_small w idof numof).
Notation p_smalls_p := (p_smalls_p w idof numof).
Notation p_simple := (p_simple w idof numof).
Notation p_stat := (p_stat w idof numof).
Notation p_elif := (p_elif w idof numof).
Notation p_else := (p_else w idof numof).
Notation p_suite := (p_suite w idof numof).
Notation p_stats := (p_stats w idof numof).
Notation p_formal := (p_formal w idof numof).
Notation p_formals_p := (p_formals_p w idof numof).
Notation p_opt_formals := (p_opt_formals w idof numof).
Notation p_command := (p_command w idof numof).
Notation p_start := (p_start w idof numof).

Lemma p_expr_S n (ts : list item) : p_expr (S n) ts =
    let* (x, ts) := p_and n ts in p_or_p n x ts.
Proof. reflexivity. Qed.
Lemma p_or_p_S n (x : expr) (ts : list item) : p_or_p (S n) x ts =
    match take (want (kw "or")) ts with
    | Some (_, _, ts) => let* (y, ts) := p_and n ts in p_or_p n (EOr x y) ts
    | None => Parsed x ts
    end.
Proof. reflexivity. Qed.
Lemma p_and_S n (ts : list item) : p_and (S n) ts =
    let* (x, ts) := p_not n ts in p_and_p n x ts.
Proof. reflexivity. Qed.
Lemma p_and_p_S n (x : expr) (ts : list item) : p_and_p (S n) x ts =
    match take (want (kw "and")) ts with
    | Some (_, _, ts) => let* (y, ts) := p_not n ts in p_and_p n (EAnd x y) ts
    | None => Parsed x ts
    end.
Proof. reflexivity. Qed.
Lemma p_not_S n (ts : list item) : p_not (S n) ts =
    match take (want is_not) ts with
    | Some (_, _, ts) => let* (x, ts) := p_not n ts in Parsed (EUn UNot x) ts
    | None => p_cmp n ts
    end.
Proof. reflexivity. Qed.
Lemma p_cmp_S n (ts : list item) : p_cmp (S n) ts =
    let* (x, ts) := p_bin n Lor ts in
    let* (l, ts) := p_cmp_p n ts in
    Parsed (match l with Some l => ECmp x l | None => x end) ts.
Proof. reflexivity. Qed.
Lemma p_cmp_p_S n (ts : list item) : p_cmp_p (S n) ts =
    match take cmp_of ts with
    | Some (b, _, ts) =>
        let* (y, ts) := p_bin n Lor ts in
        let* (l, ts) := p_cmp_p n ts in
        Parsed (Some (match l with Some l => LMore b y l | None => LLast b y end)) ts
    | None => Parsed None ts
    end.
Proof. reflexivity. Qed.
Lemma p_bin_S n (l : level) (ts : list item) : p_bin (S n) l ts =
    let* (x, ts) := (match tighter l with Some l' => p_bin n l' ts | None => p_unary n ts end) in
    p_bin_p n l x ts.
Proof. reflexivity. Qed.
Lemma p_bin_p_S n (l : level) (x : expr) (ts : list item) : p_bin_p (S n) l x ts =
    match take (level_op l) ts with
    | Some (o, _, ts) =>
        let* (y, ts) := (match tighter l with Some l' => p_bin n l' ts | None => p_unary n ts end) in
        p_bin_p n l (EBin o x y) ts
    | None => Parsed x ts
    end.
Proof. reflexivity. Qed.
Lemma p_unary_S n (ts : list item) : p_unary (S n) ts =
    match take unary_of ts with
    | Some (u, _, ts) => let* (x, ts) := p_unary n ts in Parsed (EUn u x) ts
    | None => p_pow n ts
    end.
Proof. reflexivity. Qed.
Lemma p_pow_S n (ts : list item) : p_pow (S n) ts =
    let* (x, ts) := p_array n ts in
    match take (want is_pow) ts with
    | Some (_, _, ts) => let* (y, ts) := p_pow n ts in Parsed (EBin Npow x y) ts
    | None => Parsed x ts
    end.
Proof. reflexivity. Qed.
Lemma p_array_S n (ts : list item) : p_array (S n) ts =
    let* (x, ts) := p_prim n ts in p_array_p n x ts.
Proof. reflexivity. Qed.
Lemma p_array_p_S n (x : expr) (ts : list item) : p_array_p (S n) x ts =
    match take (want is_open_square) ts with
    | Some (_, _, ts) =>
        let* (y, ts) := p_index n x ts in
        let* (u, ts) := eat is_close_square ts in
        p_array_p n y ts
    | None =>
        match take (want is_open) ts with
        | Some (_, _, ts) =>
            let* (a, ts) := p_opt_actuals n ts in
            let* (u, ts) := eat is_close ts in
            p_array_p n (ECall x (snd a)) ts
        | None => Parsed x ts
        end
    end.
Proof. reflexivity. Qed.
Lemma p_index_S n (x : expr) (ts : list item) : p_index (S n) x ts =
    match take (want is_colon) ts with
    | Some (_, _, ts) => p_slice n x ONone ts
    | None =>
        let* (i, ts) := p_expr n ts in
        match take (want is_colon) ts with
        | Some (_, _, ts) => p_slice n x (OSome i) ts
        | None => Parsed (EIndex x i) ts
        end
    end.
Proof. reflexivity. Qed.
Lemma p_slice_S n (x : expr) (a : oexpr) (ts : list item) : p_slice (S n) x a ts =
    let* (b, ts) := p_opt_expr n ts in
    match take (want is_colon) ts with
    | Some (_, _, ts) => let* (c, ts) := p_opt_expr n ts in Parsed (ESlice x a b c) ts
    | None => Parsed (ESlice x a b ONone) ts
    end.
Proof. reflexivity. Qed.
Lemma p_opt_expr_S n (ts : list item) : p_opt_expr (S n) ts =
    if next starts_expr ts then let* (x, ts) := p_expr n ts in Parsed (OSome x) ts
    else Parsed ONone ts.
Proof. reflexivity. Qed.
Lemma p_prim_S n (ts : list item) : p_prim (S n) ts =
    match ts with
    | [] => Syntax
    | i :: ts =>
        match i_tok i with
        | TOp =>
            let* (x, ts) := p_opt_tuple n ts in
            let* (u, ts) := eat is_close ts in Parsed x ts
        | TOs =>
            let* (a, ts) := p_opt_actuals n ts in
            let* (u, ts) := eat is_close_square ts in
            if 256 <=? fst a then Syntax else Parsed (EList (snd a)) ts
        | TOc =>
            let* (d, ts) := p_dents n ts in
            let* (u, ts) := eat is_close_curly ts in Parsed (EDict d) ts
        | TName s => Parsed (EId (idof s)) ts
        | TNumber s => Parsed (ENum (numof s)) ts
        | TString _ => let '(ls, ts) := p_strings ts in Parsed (EStr (i_obj i) ls) ts
        | _ => Syntax
        end
    end.
Proof. reflexivity. Qed.
Lemma p_opt_tuple_S n (ts : list item) : p_opt_tuple (S n) ts =
    if next starts_expr ts then
      let* (x, ts) := p_expr n ts in
      match take (want is_comma) ts with
      | Some (_, _, ts) =>
          let* (a, ts) := p_opt_actuals n ts in
          if 256 <=? fst a then Syntax else Parsed (ETuple (APos x (snd a))) ts
      | None => Parsed x ts
      end
    else Parsed (ETuple ANil) ts.
Proof. reflexivity. Qed.
Lemma p_opt_actuals_S n (ts : list item) : p_opt_actuals (S n) ts =
    if next starts_expr ts then p_actuals n 0 ts else Parsed (0, ANil) ts.
Proof. reflexivity. Qed.
Lemma p_actuals_S n (k : Z) (ts : list item) : p_actuals (S n) k ts =
    let* (x, ts) := p_expr n ts in
    match take assign_of ts with
    | Some (_, _, ts) =>
        match as_name x with
        | None => Syntax
        | Some id =>
            let* (e, ts) := p_expr n ts in
            let* (a, ts) := p_actuals_p n (u_of w (k + 256)) ts in
            Parsed (fst a, ANamed id e (snd a)) ts
        end
    | None =>
        if 256 <=? k then Syntax
        else
          let* (a, ts) := p_actuals_p n (k + 1) ts in
          Parsed (fst a, APos x (snd a)) ts
    end.
Proof. reflexivity. Qed.
Lemma p_actuals_p_S n (k : Z) (ts : list item) : p_actuals_p (S n) k ts =
    match take (want is_comma) ts with
    | Some (_, _, ts) => if next starts_expr ts then p_actuals n k ts else Parsed (k, ANil) ts
    | None => Parsed (k, ANil) ts
    end.
Proof. reflexivity. Qed.
Lemma p_dents_S n (ts : list item) : p_dents (S n) ts =
    if next starts_expr ts then
      let* (x, ts) := p_expr n ts in
      let* (u, ts) := eat is_colon ts in
      let* (y, ts) := p_expr n ts in
      let* (d, ts) := p_dents_p n ts in Parsed (DCons x y d) ts
    else Parsed DNil ts.
Proof. reflexivity. Qed.
Lemma p_dents_p_S n (ts : list item) : p_dents_p (S n) ts =
    match take (want is_comma) ts with
    | Some (_, _, ts) => p_dents n ts
    | None => Parsed DNil ts
    end.
Proof. reflexivity. Qed.
Lemma p_dels_p_S n (ts : list item) : p_dels_p (S n) ts =
    match take (want is_comma) ts with
    | Some (_, _, ts) => let* (s, ts) := p_del n ts in let* (s', ts) := p_dels_p n ts in Parsed (SSeq s s') ts
    | None => Parsed SSkip ts
    end.
Proof. reflexivity. Qed.
Lemma p_globals_p_S n (ts : list item) : p_globals_p (S n) ts =
    match take (want is_comma) ts with
    | Some (_, _, ts) =>
        let* (id, ts) := eat_name ts in let* (s, ts) := p_globals_p n ts in Parsed (SSeq (SGlobal id) s) ts
    | None => Parsed SSkip ts
    end.
Proof. reflexivity. Qed.
Lemma p_smalls_p_S n (ts : list item) : p_smalls_p (S n) ts =
    match take (want is_semi) ts with
    | Some (_, _, ts) => let* (s, ts) := p_small n ts in let* (s', ts) := p_smalls_p n ts in Parsed (SSeq s s') ts
    | None => Parsed SSkip ts
    end.
Proof. reflexivity. Qed.
Lemma p_stat_S n (ts : list item) : p_stat (S n) ts =
    let line := line_of ts in
    if next starts_small ts then p_simple n ts
    else if next (kw "if") ts then   
      let* (x, ts) := p_expr n (tl ts) in
      let* (u, ts) := eat is_colon ts in
      let* (s, ts) := p_suite n ts in
      let* (r, ts) := p_elif n ts in
      Parsed (SSeq (SLine line) (SIf x s r)) ts
    else if next (kw "while") ts then   
      let* (x, ts) := p_expr n (tl ts) in
      let* (u, ts) := eat is_colon ts in
      let* (s, ts) := p_suite n ts in
      let* (e, ts) := p_else n ts in
      Parsed (SSeq (SLine line) (SWhile x s e)) ts
    else if next (kw "for") ts then   
      let* (id, ts) := eat_name (tl ts) in
      let* (u, ts) := eat is_in ts in
      if next (kw "range") ts then
        let* (u, ts) := eat is_open (tl ts) in
        let* (a, ts) := p_opt_actuals n ts in
        let* (u, ts) := eat is_close ts in
        let* (u, ts) := eat is_colon ts in
        if 256 <=? fst a then Syntax
        else
          let* (s, ts) := p_suite n ts in
          let* (e, ts) := p_else n ts in
          Parsed (SSeq (SLine line) (SRange id (snd a) s e)) ts
      else
        let* (x, ts) := p_expr n ts in
        let* (u, ts) := eat is_colon ts in
        let* (s, ts) := p_suite n ts in
        let* (e, ts) := p_else n ts in
        Parsed (SSeq (SLine line) (SFor id x s e)) ts
    else let* (u, ts) := eat is_nl ts in Parsed SSkip ts.
Proof. reflexivity. Qed.
Lemma p_elif_S n (ts : list item) : p_elif (S n) ts =
    let line := line_of ts in
    if next (kw "elif") ts then
      let* (x, ts) := p_expr n (tl ts) in
      let* (u, ts) := eat is_colon ts in
      let* (s, ts) := p_suite n ts in
      let* (r, ts) := p_elif n ts in Parsed (RElif line x s r) ts
    else if next (kw "else") ts then
      let* (u, ts) := eat is_colon (tl ts) in
      let* (s, ts) := p_suite n ts in Parsed (RElse s) ts
    else Parsed RNone ts.
Proof. reflexivity. Qed.
Lemma p_else_S n (ts : list item) : p_else (S n) ts =
    if next (kw "else") ts then let* (u, ts) := eat is_colon (tl ts) in p_suite n ts
    else Parsed SSkip ts.
Proof. reflexivity. Qed.
Lemma p_suite_S n (ts : list item) : p_suite (S n) ts =
    if next starts_small ts then p_simple n ts
    else
      let* (u, ts) := eat is_nl ts in
      match take indent_of ts with
      | None => Syntax
      | Some (indent, _, ts) =>
          let* (s, ts) := p_stat n ts in
          let* (s', ts) := p_stats n ts in
          match take exdent_of ts with
          | None => Syntax
          | Some (exdent, _, ts) => if indent <? exdent then Syntax else Parsed (SSeq s s') ts
          end
      end.
Proof. reflexivity. Qed.
Lemma p_stats_S n (ts : list item) : p_stats (S n) ts =
    if next (fun t => starts_small t || kw "if" t || kw "while" t || kw "for" t || is_nl t) ts then
      let* (s, ts) := p_stat n ts in
      let* (s', ts) := p_stats n ts in Parsed (SSeq s s') ts
    else Parsed SSkip ts.
Proof. reflexivity. Qed.
Lemma p_formals_p_S n (named : bool) (ts : list item) : p_formals_p (S n) named ts =
    match take (want is_comma) ts with
    | Some (_, _, ts) =>
        let* (f, ts) := p_formal n named ts in
        let* (fs, ts) := p_formals_p n (named || has_default f) ts in Parsed (f :: fs) ts
    | None => Parsed [] ts
    end.
Proof. reflexivity. Qed.
Lemma p_start_S n (ts : list item) : p_start (S n) ts =
    if next is_end ts then Parsed [] ts
    else let* (c, ts) := p_command n ts in let* (cs, ts) := p_start n ts in Parsed (c :: cs) ts.
Proof. reflexivity. Qed.
End Eqs.
