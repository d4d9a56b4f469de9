(** Particular phrases: a unary operator after **; the count of named arguments
    that wraps; what Snek adds to Python. *)
From Coq Require Import ZArith Bool List Ascii String Lia.
From Verif Require Import Base FloatModel PolyModel ValueModel MathModel BinModel LexModel CompModel GramModel GramSpec GramStmtSpec.
From Verif Require Import GramEqs GramComplete GramMono GramStmts GramSound GramStmtSound GramWhole GramPairs.
Import ListNotations.
Local Open Scope Z_scope.
Notation length := List.length (only parsing).

(** a name; a number; any phrase of a tighter kind *)
Lemma up_to_expr D idof numof r e ts : reads D idof numof r e ts -> reads D idof numof OrTest e ts.
Proof.
  intro H.
  assert (U : forall r r', tighter_than r = Some r' -> reads D idof numof r' e ts -> reads D idof numof r e ts) by (intros; eapply r_up; eauto).
  destruct r as [| | | |b| | | |]; try destruct b; repeat first [exact H | (eapply U; [reflexivity|])].
Qed.
Lemma name_reads D idof numof i s : i_tok i = TName s -> reads D idof numof OrTest (EId (idof s)) [i].
Proof. intro H. eapply up_to_expr. eapply r_name. exact H. Qed.

Section More.
Variable w : width.
Variable idof : list Z -> Z.
Variable numof : list Z -> float.
Notation p_expr := (p_expr w idof numof).
Notation p_actuals := (p_actuals w idof numof).
Notation p_opt_actuals := (p_opt_actuals w idof numof).

Lemma y_fail A B (f : nat -> pr A) (g : nat -> A -> list item -> pr B) :
  yields f Syntax -> yields (fun n => pbind (f n) (g n)) Syntax.
Proof. intros [n H]. exists n. intros m Hm. rewrite H by lia. reflexivity. Qed.

(** * A unary operator after ** *)
Lemma power_fails tx x i j ty : reads (common w) idof numof Primary x tx -> i_tok i = TPow OpPow ->
  never (TPow OpPow) (i_tok j) = true -> yields (fun n => p_expr n (tx ++ i :: j :: ty)) Syntax.
Proof.
  intros H E N.
  pose proof (proj1 (firsts idof numof (common w)) _ _ _ H) as (i0 & r0 & Ets & (F1 & F2 & F3)).
  assert (P : yields (fun n => p_pow w idof numof n (tx ++ i :: j :: ty)) Syntax).
  { eapply y_step; [intro; apply p_pow_S|]. eapply y_bind.
    - apply (array_read w idof numof (common w) eq_refl eq_refl); [exact H|]. cbn. rewrite E. cbn. lia.
    - cbn beta. rewrite (take_head _ _ i _ tt) by (unfold want; rewrite E; reflexivity). cbn beta iota.
      apply (y_fail _ _ (fun n => p_pow w idof numof n (j :: ty))).
      eapply y_step; [intro; apply p_pow_S|]. apply (y_fail _ _ (fun n => p_array w idof numof n (j :: ty))).
      eapply y_step; [intro; apply p_array_S|]. apply (y_fail _ _ (fun n => p_prim w idof numof n (j :: ty))).
      eapply y_step; [intro; apply p_prim_S|]. cbv beta iota. destruct (i_tok j); try discriminate N; apply y_ret. }
  assert (U : yields (fun n => p_unary w idof numof n (tx ++ i :: j :: ty)) Syntax).
  { eapply y_step; [intro; apply p_unary_S|]. rewrite Ets in *. cbn [app] in *. rewrite take_not by exact F3. exact P. }
  assert (B : forall l, yields (fun n => p_bin w idof numof n l (tx ++ i :: j :: ty)) Syntax).
  { assert (Bm : yields (fun n => p_bin w idof numof n Lmul (tx ++ i :: j :: ty)) Syntax)
      by (eapply y_step; [intro; apply p_bin_S|]; apply (y_fail _ _ (fun n => p_unary w idof numof n (tx ++ i :: j :: ty))); exact U).
    assert (Bs : forall l l', tighter l = Some l' -> yields (fun n => p_bin w idof numof n l' (tx ++ i :: j :: ty)) Syntax ->
                 yields (fun n => p_bin w idof numof n l (tx ++ i :: j :: ty)) Syntax).
    { intros l l' T Y. eapply y_step; [intro; apply p_bin_S|]. rewrite T. apply (y_fail _ _ (fun n => p_bin w idof numof n l' (tx ++ i :: j :: ty))). exact Y. }
    destruct l; repeat first [exact Bm | (eapply Bs; [reflexivity|])]. }
  assert (C : yields (fun n => p_not w idof numof n (tx ++ i :: j :: ty)) Syntax).
  { eapply y_step; [intro; apply p_not_S|]. rewrite Ets in *. cbn [app] in *. rewrite take_not by (unfold want; rewrite F2; reflexivity).
    eapply y_step; [intro; apply p_cmp_S|]. apply (y_fail _ _ (fun n => p_bin w idof numof n Lor _)). apply B. }
  eapply y_step; [intro; apply p_expr_S|]. apply (y_fail _ _ (fun n => p_and w idof numof n _)).
  eapply y_step; [intro; apply p_and_S|]. apply (y_fail _ _ (fun n => p_not w idof numof n _)). exact C.
Qed.
Theorem power_unary tx x i j ty : reads (common w) idof numof Primary x tx -> i_tok i = TPow OpPow ->
  never (TPow OpPow) (i_tok j) = true ->
  p_expr (enough (tx ++ i :: j :: ty)) (tx ++ i :: j :: ty) = Syntax.
Proof.
  intros H E N. apply (yields_enough _ (fun n => p_expr n (tx ++ i :: j :: ty))).
  - intro n. apply expr_le.
  - apply expr_enough. lia.
  - eapply power_fails; eauto.
Qed.

(** * Named arguments that wrap the count *)
Definition it (t : token) : item := {| i_tok := t; i_line := 1; i_obj := 0 |}.
Definition named_arg (s v : list Z) : list item := [it (TName s); it (TAssign OpAssign); it (TNumber v); it TComma].
Fixpoint named_args (m : nat) (s v : list Z) : list item :=
  match m with O => [] | S m => named_arg s v ++ named_args m s v end.
Fixpoint add_named (m : nat) (id : Z) (e : expr) (a : args) : args :=
  match m with O => a | S m => ANamed id e (add_named m id e a) end.
Lemma named_runs s v rest : forall m k k' a tail, next starts_expr rest = true ->
  yields (fun n => p_actuals n (u_of w (k + 256 * Z.of_nat (S m))) rest) (Parsed (k', a) tail) ->
  yields (fun n => p_actuals n k (named_args (S m) s v ++ rest)) (Parsed (k', add_named (S m) (idof s) (ENum (numof v)) a) tail).
Proof.
  assert (X : forall rest', yields (fun n => p_expr n (it (TName s) :: it (TAssign OpAssign) :: rest')) (Parsed (EId (idof s)) (it (TAssign OpAssign) :: rest'))).
  { intro rest'. apply (expr_read w idof numof (common w) eq_refl eq_refl (EId (idof s)) [it (TName s)]); [|cbn; lia]. now apply name_reads. }
  assert (Y : forall rest', yields (fun n => p_expr n (it (TNumber v) :: it TComma :: rest')) (Parsed (ENum (numof v)) (it TComma :: rest'))).
  { intro rest'. apply (expr_read w idof numof (common w) eq_refl eq_refl (ENum (numof v)) [it (TNumber v)]); [|cbn; lia].
    eapply up_to_expr. now eapply r_number. }
  induction m as [|m IH]; intros k k' a tail R H.
  - cbn [named_args named_arg app add_named]. eapply y_step; [intro; apply p_actuals_S|]. eapply y_bind; [apply X|]. cbn beta.
    rewrite (take_head _ _ _ _ None) by reflexivity. cbn beta iota. cbn [as_name]. cbn beta iota.
    eapply (y_bind _ _ (fun n => p_expr n _)); [apply Y|]. cbn beta.
    apply (y_bind _ _ (fun n => p_actuals_p w idof numof n _ _) (fun _ a ts => Parsed (fst a, ANamed (idof s) (ENum (numof v)) (snd a)) ts) (k', a) tail);
      [|apply y_ret].
    eapply y_step; [intro; apply p_actuals_p_S|]. rewrite (take_head _ _ _ _ tt) by reflexivity. cbn beta iota. rewrite R. exact H.
  - change (named_args (S (S m)) s v) with (named_arg s v ++ named_args (S m) s v). rewrite <- app_assoc. cbn [named_arg app].
    change (add_named (S (S m)) (idof s) (ENum (numof v)) a) with (ANamed (idof s) (ENum (numof v)) (add_named (S m) (idof s) (ENum (numof v)) a)).
    eapply y_step; [intro; apply p_actuals_S|]. eapply y_bind; [apply X|]. cbn beta.
    rewrite (take_head _ _ _ _ None) by reflexivity. cbn beta iota. cbn [as_name]. cbn beta iota.
    eapply (y_bind _ _ (fun n => p_expr n _)); [apply Y|]. cbn beta.
    apply (y_bind _ _ (fun n => p_actuals_p w idof numof n _ _) (fun _ a ts => Parsed (fst a, ANamed (idof s) (ENum (numof v)) (snd a)) ts)
             (k', add_named (S m) (idof s) (ENum (numof v)) a) tail); [|apply y_ret].
    eapply y_step; [intro; apply p_actuals_p_S|]. rewrite (take_head _ _ _ _ tt) by reflexivity. cbn beta iota.
    change (next starts_expr (named_args (S m) s v ++ rest)) with true. cbn iota.
    apply IH; [exact R|]. replace (u_of w (u_of w (k + 256) + 256 * Z.of_nat (S m))) with (u_of w (k + 256 * Z.of_nat (S (S m)))); [exact H|].
    unfold u_of, wrapu. rewrite Zplus_mod_idemp_l. f_equal. lia.
Qed.
(** f(x = v, ..., x = v, y) *)
Definition wrapping (m : nat) (f s v y : list Z) : list item :=
  it (TName f) :: it TOp :: named_args m s v ++ [it (TName y); it TCp].
Lemma wrapping_done m f s v y : u_of w (256 * Z.of_nat (S m)) = 0 ->
  done w idof numof Primary (ECall (EId (idof f)) (add_named (S m) (idof s) (ENum (numof v)) (APos (EId (idof y)) ANil))) (wrapping (S m) f s v y).
Proof.
  intros W rest res B Y.
  pose proof (proj1 (complete w idof numof (common w) eq_refl eq_refl) Primary (EId (idof f)) [it (TName f)]
                (r_up (common w) idof numof Primary Atom _ _ eq_refl (r_name (common w) idof numof (it (TName f)) f eq_refl))) as F.
  unfold wrapping. cbn [app]. apply (F (it TOp :: (named_args (S m) s v ++ [it (TName y); it TCp]) ++ rest)); [cbn; lia|].
  cbn [tailr]. eapply y_step; [intro; apply p_array_p_S|]. rewrite take_not by reflexivity. rewrite (take_head _ _ _ _ tt) by reflexivity. cbn beta iota.
  rewrite <- app_assoc. cbn [app].
  eapply (y_bind _ _ (fun n => p_opt_actuals n _) _ (1, add_named (S m) (idof s) (ENum (numof v)) (APos (EId (idof y)) ANil)) (it TCp :: rest)).
  - eapply y_step; [intro; apply p_opt_actuals_S|].
    change (next starts_expr (named_args (S m) s v ++ it (TName y) :: it TCp :: rest)) with true. cbn iota.
    apply named_runs; [reflexivity|]. rewrite Z.add_0_l, W.
    eapply y_step; [intro; apply p_actuals_S|].
    eapply (y_bind _ _ (fun n => p_expr n _)).
    { apply (expr_read w idof numof (common w) eq_refl eq_refl (EId (idof y)) [it (TName y)]); [|cbn; lia]. now apply name_reads. }
    cbn beta. rewrite take_not by reflexivity. cbn beta iota. change (256 <=? 0) with false. cbn iota.
    apply (y_bind _ _ (fun n => p_actuals_p w idof numof n _ _) (fun _ a ts => Parsed (fst a, APos (EId (idof y)) (snd a)) ts) (1, ANil) (it TCp :: rest)); [|apply y_ret].
    eapply y_step; [intro; apply p_actuals_p_S|]. rewrite take_not by reflexivity. cbn beta iota. apply y_ret.
  - cbn beta. cbn [snd]. exact Y.
Qed.
Theorem wrapped_count m f s v y rest : u_of w (256 * Z.of_nat (S m)) = 0 -> stopped rest ->
  p_expr (enough (wrapping (S m) f s v y ++ rest)) (wrapping (S m) f s v y ++ rest) =
  Parsed (ECall (EId (idof f)) (add_named (S m) (idof s) (ENum (numof v)) (APos (EId (idof y)) ANil))) rest.
Proof.
  intros W R. apply (yields_enough _ (fun n => p_expr n (wrapping (S m) f s v y ++ rest))).
  - intro n. apply expr_le.
  - apply expr_enough. lia.
  - apply done_expr; [|now apply stopped_below].
    assert (U : forall r', starts_with (first_ok r') (wrapping (S m) f s v y)).
    { intro r'. eexists _, _. split; [reflexivity|]. unfold first_ok. cbn. destruct r'; auto. }
    repeat first [ exact (wrapping_done m f s v y W) | (eapply done_up; [reflexivity|apply U|]) ].
Qed.

(** * What Snek adds *)
Definition line_program (n : Z) (s : stmt) : list command := [CStat (SSeq (SLine n) (SSeq s SSkip))].
Lemma one_line D s i ts nl : reads_small D idof numof s (i :: ts) -> i_tok nl = TNl ->
  reads_program D idof numof (line_program (i_line i) s) (i :: ts ++ [nl]).
Proof.
  intros H E. rewrite <- (app_nil_r (i :: ts ++ [nl])). apply (pg_command D idof numof _ (i :: ts ++ [nl])); [|constructor].
  constructor. apply b_line. apply (ln D idof numof i ts _ nl); auto. now apply ms_last.
Qed.
(** +x = e is x = e *)
Theorem plus_target x t tx p i a e te nl en rest : reads (common w) idof numof UExpr x tx -> stores (common w) x t ->
  i_tok p = TPlus OpPlus -> In (i_tok i, a) assignments -> reads (common w) idof numof OrTest e te -> i_tok nl = TNl -> i_tok en = TEnd ->
  let src := p :: tx ++ i :: te ++ [nl] in
  p_start w idof numof (enough (src ++ en :: rest)) (src ++ en :: rest) = Parsed (line_program (i_line p) (SAssign a t e)) (en :: rest).
Proof.
  intros H S P I E N K src. apply (parses_program w idof numof (snek w) eq_refl eq_refl eq_refl); auto. subst src.
  replace (p :: tx ++ i :: te ++ [nl]) with (p :: (tx ++ i :: te) ++ [nl]) by (rewrite <- app_assoc; reflexivity).
  apply one_line; auto. apply (m_assign (snek w) idof numof (EUn UPlus x) t (p :: tx)); auto.
  - eapply up_to_expr. apply r_unary; [rewrite P; cbn; tauto|]. eapply weak; [apply snek_allows|exact H].
  - apply v_plus; [reflexivity|]. eapply weak_stores; [apply snek_allows|exact S].
  - eapply weak; [apply snek_allows|exact E].
Qed.
(** f(x += e) is f(x = e) *)
Theorem named_operator f o n s i a e te q : i_tok f = TName s -> i_tok o = TOp -> i_tok n = TName a -> (exists b, In (i_tok i, b) assignments) ->
  reads (common w) idof numof OrTest e te -> i_tok q = TCp -> forall rest, stopped rest ->
  let src := f :: o :: n :: i :: te ++ [q] in
  p_expr (enough (src ++ rest)) (src ++ rest) = Parsed (ECall (EId (idof s)) (ANamed (idof a) e ANil)) rest.
Proof.
  intros F O N [b I] E Q rest R src. apply (parses w idof numof (snek w) eq_refl eq_refl); auto. subst src.
  eapply up_to_expr.
  replace (f :: o :: n :: i :: te ++ [q]) with ([f] ++ o :: (n :: i :: te) ++ [q]) by reflexivity.
  apply r_call; auto.
  - eapply r_up; [reflexivity|]. now apply r_name.
  - apply (q_some (snek w) idof numof true). rewrite <- (app_nil_r te).
    apply (a_named_last (snek w) idof numof true (idof a) [n; i] e te []); [|eapply weak; [apply snek_allows|exact E]|constructor].
    apply (n_lax (snek w) idof numof (EId (idof a)) [n]) with (a := b); auto; [now apply name_reads|constructor].
  - cbn. split; [lia|]. unfold counted. cbn. destruct w; reflexivity.
Qed.
(** two imports on a line, any operator like *, global without names *)
Theorem odd_imports D i m j k n l p nl en rest o : d_lax D = true -> d_pow D = false -> d_limit D = Some w -> d_trail D = false ->
  i_tok i = keyword "import" -> i_tok m = TName n -> i_tok j = keyword "from" -> i_tok k = TName l -> i_tok p = keyword "import" ->
  i_tok o = TMulop OpMod -> i_tok nl = TNl -> i_tok en = TEnd ->
  let src := [i; m; j; k; p; o; nl] in
  p_start w idof numof (enough (src ++ en :: rest)) (src ++ en :: rest) = Parsed [CImport; CImport; CStat SSkip] (en :: rest).
Proof.
  intros L P Q T A B C E F G H K src. apply (parses_program w idof numof D P Q T); auto.
  change src with ([i; m] ++ [j; k; p; o] ++ nl :: []). apply pg_lax; auto; [eapply i_import; eauto|].
  apply pg_import; auto; [|constructor]. eapply i_from; eauto. now rewrite L.
Qed.
Theorem no_global i nl en rest : i_tok i = keyword "global" -> i_tok nl = TNl -> i_tok en = TEnd ->
  p_start w idof numof (enough (i :: nl :: en :: rest)) (i :: nl :: en :: rest) = Parsed (line_program (i_line i) SSkip) (en :: rest).
Proof.
  intros A B C. apply (parses_program w idof numof (snek w) eq_refl eq_refl eq_refl _ [i; nl]); auto.
  apply (one_line (snek w) SSkip i [] nl); auto. apply m_no_global; auto.
Qed.

(** * What Snek rejects *)
Theorem never_accepted n ts cs rest : Proper ts -> p_start w idof numof n ts = Parsed cs rest -> Forall (nowrap_command w) cs ->
  exists us, ts = us ++ rest /\ next is_end rest = true /\ forall a i j b, us = a ++ i :: j :: b -> never (i_tok i) (i_tok j) = false.
Proof.
  intros P E N. destruct (accepted_program w idof numof n ts cs rest P E N) as (us & -> & R & H).
  exists us. split; [reflexivity|]. split; [exact R|]. intros a i j b ->.
  apply (calm_program (snek w) idof numof eq_refl eq_refl) in H as (A & _). eapply pairs_never; eauto.
Qed.
End More.
