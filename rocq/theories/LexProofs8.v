(** Proofs about the lexer: the first token of a line. *)
From Coq Require Import ZArith Bool List Ascii String Lia.
From Verif Require Import Base LexModel LexSpec LexProofs LexProofs2 LexProofs4 LexProofs5 LexProofs6.
Import ListNotations.
Local Open Scope Z_scope.

Section P.
Variable C : lexcfg.

Lemma indent_spaces_runs : forall k fuel i s c r, ahead s (spaces k ++ c :: r) -> c <> ch " " -> 0 <= i -> i + Z.of_nat k < 256 -> (k <= fuel)%nat ->
  exists s', indent_spaces C fuel i s = Some (c, i + Z.of_nat k, s') /\ ahead s' r /\ kept s s'.
Proof.
  induction k as [|k IH]; intros fuel i s c r A N Hi Hk Hf.
  - destruct (lexchar_next C s _ A) as (s1 & E1 & A1 & K1 & _). cbn [spaces repeat app next tl] in *. exists s1.
    destruct fuel; cbn [indent_spaces]; rewrite E1, (proj2 (Z.eqb_neq _ _) N); rewrite Z.add_0_r; auto.
  - destruct (lexchar_next C s _ A) as (s1 & E1 & A1 & K1 & _). cbn [spaces repeat app next tl] in *.
    destruct fuel as [|fuel]; [lia|]. cbn [indent_spaces]. rewrite E1, Z.eqb_refl.
    assert (U : u8 (i + 1) = i + 1) by (unfold u8; apply Z.mod_small; lia). rewrite U.
    destruct (IH fuel (i + 1) s1 c r A1 N ltac:(lia) ltac:(lia) ltac:(lia)) as (s' & E & A' & K').
    exists s'. rewrite E. split; [f_equal; f_equal; f_equal; lia|]. split; [exact A' | eauto using kept_trans].
Qed.

Lemma line_runs : forall k c r fuel s, ahead s (spaces k ++ c :: r) -> starts_line c -> Z.of_nat k < 256 -> (k <= fuel)%nat ->
  lx_midline s = false -> lx_exdent s = false -> lx_ignore s = 0 ->
  (Z.of_nat k > lx_current s -> exists s', snek_lex C fuel s = Some (TIndent (lx_current s), s') /\ ahead s' (c :: r) /\ mid s' /\ lx_current s' = Z.of_nat k) /\
  (Z.of_nat k < lx_current s -> exists s', snek_lex C fuel s = Some (TExdent (Z.of_nat k), s') /\ ahead s' (c :: r) /\
     lx_midline s' = true /\ lx_exdent s' = true /\ lx_ignore s' = 0 /\ lx_indent s' = Z.of_nat k /\ lx_current s' = lx_current s) /\
  (Z.of_nat k = lx_current s -> exists s', snek_lex C fuel s = snek_lex C fuel s' /\ ahead s' (c :: r) /\ mid s' /\
     lx_ignore s' = 0 /\ lx_current s' = lx_current s).
Proof.
  intros k c r fuel s A (Hc & N1 & N2 & N3) Hk Hf M X G.
  destruct (indent_spaces_runs k fuel 0 s c r A N1 ltac:(lia) ltac:(lia) Hf) as (s1 & E1 & A1 & K1). rewrite Z.add_0_l in E1.
  destruct K1 as [(K1 & K2 & K3 & K4) K5].
  set (s2 := set_indents (lx_current s1) (Z.of_nat k) s1).
  assert (E2 : find_line C fuel s = Some (c, s2)).
  { destruct fuel; cbn [find_line]; rewrite E1; unfold SNEK_EOF; rewrite (proj2 (Z.eqb_neq c 0)) by lia;
      rewrite (proj2 (Z.eqb_neq c NL) N3), andb_false_r, (proj2 (Z.eqb_neq c (ch "#")) N2); reflexivity. }
  set (s3 := unlexchar C c (set_flags (lx_ignore s2) true (lx_exdent s2) s2)).
  assert (A3 : ahead s3 (c :: r)) by (apply unlexchar_ahead; exact A1).
  assert (F3 : lx_current s3 = lx_current s /\ lx_indent s3 = Z.of_nat k /\ lx_midline s3 = true /\ lx_exdent s3 = false /\ lx_ignore s3 = 0).
  { cbn. rewrite K1, K4, K5. auto. }
  destruct F3 as (F1 & F2 & F4 & F5 & F6).
  assert (E3 : line_start C fuel s = if lx_current s3 <? lx_indent s3 then Some (Some (TIndent (lx_current s3)), set_indents (lx_indent s3) (lx_indent s3) s3)
     else if lx_indent s3 <? lx_current s3 then Some (None, set_flags (lx_ignore s3) (lx_midline s3) true s3) else Some (None, s3)).
  { unfold line_start. rewrite M, E2. cbv zeta. fold s3. rewrite (proj2 (Z.eqb_eq _ 0) F6). reflexivity. }
  rewrite F1, F2 in E3. split; [|split]; intros H.
  - rewrite snek_lex_step, E3. rewrite (proj2 (Z.ltb_lt _ _)) by lia. eexists. split; [reflexivity|]. split; [exact A3|].
    split; [split; cbn; assumption | reflexivity].
  - rewrite snek_lex_step, E3. rewrite (proj2 (Z.ltb_ge _ _)) by lia. rewrite (proj2 (Z.ltb_lt _ _)) by lia. unfold exdents.
    cbn [set_flags lx_exdent lx_ignore lx_indent lx_current]. rewrite F6, F2, F1. cbn [Z.eqb andb]. rewrite (proj2 (Z.ltb_lt _ _)) by lia.
    eexists. split; [reflexivity|]. split; [exact A3|]. cbn. repeat split; try assumption. 
  - exists s3. split; [|split; [exact A3|]; split; [split; assumption | split; assumption]].
    rewrite !snek_lex_step, E3. rewrite !(proj2 (Z.ltb_ge _ _)) by lia. unfold line_start. rewrite F4. reflexivity.
Qed.
End P.
