(** Skipping the rest of a line, and of a block: whole lines. *)
From Coq Require Import ZArith Bool List Ascii String Lia.
From Verif Require Import Base LexModel LexSpec LexProofs LexProofs2 LexProofs4 LexProofs5 LexProofs6 LexProofs9 RecModel RecProofs RecProofs2.
Import ListNotations.
Local Open Scope Z_scope.
Notation length := List.length (only parsing).

(** At the start of a line. *)
Definition line_at (t : list Z) (s : lex) : Prop :=
  lx_unget s = [] /\ lx_input s = t /\ lx_midline s = false /\ lx_exdent s = false.

Section P.
Variable C : lexcfg.
Hypothesis Hab : lc_abort C = true.
Hypothesis Hin : lc_interactive C = true.

Lemma recover_step fuel s : recover C (S fuel) s =
  match snek_lex C (S fuel) (set_flags 0 (lx_midline s) (lx_exdent s) s) with
  | None => None
  | Some (TEnd, s) => Some (false, s)
  | Some (TNl, s) => if lx_current s =? 0 then Some (true, s) else recover C fuel s
  | Some (TExdent i, s) => recover C fuel (set_indents i (lx_indent s) s)
  | Some (_, s) => recover C fuel s
  end.
Proof. reflexivity. Qed.

Lemma recover_inner fuel s t s1 : snek_lex C (S fuel) (set_flags 0 (lx_midline s) (lx_exdent s) s) = Some (t, s1) -> inner t -> recover C (S fuel) s = recover C fuel s1.
Proof.
  intros E (N1 & N2 & _ & N3). rewrite recover_step, E. destruct t; try reflexivity; try congruence.
Qed.

Section Line.
Variable rest : list Z.
Variable e : Z.
Hypothesis He : e = NL \/ e = ch "#".

Lemma rec_mid : forall n p s, (length p <= n)%nat -> plain p -> stops e p -> (length p <= 250)%nat -> ready rest e p s ->
  exists k s', line_at (after rest e) s' /\ lx_current s' = lx_current s /\
    forall f, (length p < f)%nat -> recover C (k + f) s = if lx_current s =? 0 then Some (true, s') else recover C f s'.
Proof.
  induction n as [n IH] using lt_wf_ind. intros p s Ln Pl St Lp R. pose proof R as (H & M & X).
  set (s0 := set_flags 0 (lx_midline s) (lx_exdent s) s). assert (R0 : ready rest e p s0) by exact R.
  assert (G : forall fuel, (length p < fuel)%nat -> exists t s1, snek_lex C fuel s0 = Some (t, s1) /\ lx_current s1 = lx_current s /\
    ((inner t /\ exists q, suffix q p /\ (length q < length p)%nat /\ ready rest e q s1) \/ (t = TNl /\ fresh rest e s1))).
  { intros fuel F. destruct (mid_lex C Hab rest e He p fuel s0 Pl St Lp R0 eq_refl F) as (t & s1 & E & Cu & O). exists t, s1. auto. }
  (* the token does not depend on the fuel: take it from the least one *)
  destruct (G (S (length p)) ltac:(lia)) as (t & s1 & E & Cu & O).
  assert (Mono : forall fuel, (length p < fuel)%nat -> snek_lex C fuel s0 = Some (t, s1)).
  { intros fuel F. exact (lex_mono C (S (length p)) fuel s0 (t, s1) E ltac:(lia)). }
  destruct O as [(In & q & Q1 & Q2 & Q3)|(-> & U & N & M1 & X1 & I1)].
  - destruct (IH (length q) ltac:(lia) q s1 ltac:(lia) (plain_suffix _ _ Q1 Pl)) as (k & s' & L' & C' & F').
    { destruct St as [St|St]; [left; exact St|right; destruct Q1 as [x ->]; apply Forall_app in St; apply St]. }
    { lia. } { exact Q3. }
    exists (S k), s'. split; [exact L'|]. split; [congruence|]. intros f F. cbn [plus]. rewrite (recover_inner _ _ _ _ (Mono (S (k + f)) ltac:(lia)) In), F' by lia. rewrite Cu. reflexivity.
  - exists 1%nat, s1. split; [repeat split; assumption|]. split; [exact Cu|]. intros f F. cbn [plus]. rewrite recover_step.
    fold s0. rewrite Mono by lia. rewrite Cu. reflexivity.
Qed.

(** *** The start of a line *)
Lemma spaces_read : forall k fuel i c t s, lx_unget s = [] -> lx_input s = spaces k ++ c :: t -> c <> ch " " -> (k <= fuel)%nat -> 0 <= i -> i + Z.of_nat k < 256 ->
  exists s1, indent_spaces C fuel i s = Some (c, i + Z.of_nat k, s1) /\ lx_unget s1 = [] /\ lx_input s1 = t /\ kept s s1.
Proof.
  induction k as [|k IH]; intros fuel i c t s U N Nc F Hi Hk.
  - assert (G : exists s1, lexchar C s = (c, s1) /\ lx_unget s1 = [] /\ lx_input s1 = t /\ kept s s1).
    { unfold lexchar. rewrite U, N. cbn [spaces repeat app]. eexists. split; [reflexivity|]. repeat split. }
    destruct G as (s1 & E & G). exists s1. split; [|exact G]. replace (i + Z.of_nat 0) with i by lia.
    destruct fuel; cbn [indent_spaces]; rewrite E, (proj2 (Z.eqb_neq c (ch " ")) Nc); reflexivity.
  - destruct fuel as [|fuel]; [lia|]. cbn [indent_spaces]. unfold lexchar. rewrite U, N. cbn [spaces repeat app]. rewrite Z.eqb_refl. change (ch " " =? NL) with false. cbv iota.
    destruct (IH fuel (u8 (i + 1)) c t (set_chars [] (repeat (ch " ") k ++ c :: t) (lx_line s) s) eq_refl eq_refl Nc ltac:(lia)) as (s1 & E & A & B & D).
    { unfold u8. apply Z.mod_pos_bound. lia. } { unfold u8. rewrite Z.mod_small by lia. lia. }
    exists s1. rewrite E. unfold u8. rewrite Z.mod_small by lia. split; [do 3 f_equal; lia|]. split; [exact A|]. split; [exact B|]. eapply kept_trans; [|exact D]. repeat split.
Qed.

Definition not_space (p : list Z) : Prop := match p with c :: _ => c <> ch " " | [] => True end.
Lemma line_head_read p k fuel s : e = NL -> plain p -> not_space p -> line_at (spaces k ++ p ++ e :: rest) s -> (k <= fuel)%nat -> Z.of_nat k < 256 ->
  exists s1, here rest e p s1 /\ lx_midline s1 = true /\ lx_ignore s1 = lx_ignore s /\ lx_exdent s1 = false /\ lx_indent s1 = Z.of_nat k /\ lx_current s1 = lx_current s /\
    line_start C fuel s = if lx_ignore s =? 0 then if lx_current s <? Z.of_nat k then Some (Some (TIndent (lx_current s)), set_indents (Z.of_nat k) (Z.of_nat k) s1)
      else if Z.of_nat k <? lx_current s then Some (None, set_flags (lx_ignore s) true true s1) else Some (None, s1) else Some (None, s1).
Proof.
  intros Ee Pl Ns (U & N & M & X) F Hk.
  assert (D : exists c t, p ++ e :: rest = c :: t /\ c <> ch " " /\ 0 < c < 256 /\ c <> ch "#").
  { destruct p as [|c p]; [exists e, rest; rewrite Ee; repeat split; discriminate|]. exists c, (p ++ e :: rest). destruct Pl as [Pf _]. inversion Pf as [|? ? (B & _ & D) _]; subst. cbn in Ns. auto. }
  destruct D as (c & t & Et & Nc & Bc & Nh). rewrite Et in N. destruct (spaces_read k fuel 0 c t s U N Nc F ltac:(lia) ltac:(lia)) as (s1 & E & U1 & N1 & [(K1 & K2 & K3 & K4) K5]).
  exists (unlexchar C c (set_flags (lx_ignore s) true (lx_exdent s1) (set_indents (lx_current s1) (Z.of_nat k) s1))).
  split. { split; [cbn; rewrite U1, N1, Et; reflexivity|cbn; rewrite U1; cbn; lia]. }
  split; [reflexivity|]. split; [reflexivity|]. split; [cbn; congruence|]. split; [reflexivity|]. split; [cbn; congruence|].
  unfold line_start. rewrite M. assert (Fl : find_line C fuel s = Some (c, set_indents (lx_current s1) (Z.of_nat k) s1)).
  { destruct fuel; cbn [find_line]; rewrite E; cbv zeta; rewrite Hin; cbn [negb andb]; change SNEK_EOF with 0; (destruct (Z.eqb_spec c 0); [lia|]); (destruct (Z.eqb_spec c (ch "#")); [contradiction|]); reflexivity. }
  rewrite Fl. cbn [lx_ignore set_flags unlexchar set_indents lx_current lx_indent lx_midline lx_exdent]. rewrite K5, K1.
  destruct (lx_ignore s =? 0); [|reflexivity]. destruct (_ <? _); [reflexivity|]. destruct (_ <? _); reflexivity.
Qed.

Lemma rec_start p k s : e = NL -> plain p -> not_space p -> Z.of_nat k < 256 -> line_at (spaces k ++ p ++ e :: rest) s ->
  exists j s1, ready rest e p s1 /\ lx_current s1 = Z.of_nat k /\ forall f, (k < f)%nat -> recover C (j + f) s = recover C f s1.
Proof.
  intros Ee Pl Ns Hk L. set (s0 := set_flags 0 (lx_midline s) (lx_exdent s) s). assert (L0 : line_at (spaces k ++ p ++ e :: rest) s0) by exact L.
  assert (G : forall fuel, (k <= fuel)%nat -> exists s1, here rest e p s1 /\ lx_midline s1 = true /\ lx_ignore s1 = 0 /\ lx_exdent s1 = false /\ lx_indent s1 = Z.of_nat k /\ lx_current s1 = lx_current s /\
    line_start C fuel s0 = if lx_current s <? Z.of_nat k then Some (Some (TIndent (lx_current s)), set_indents (Z.of_nat k) (Z.of_nat k) s1)
      else if Z.of_nat k <? lx_current s then Some (None, set_flags 0 true true s1) else Some (None, s1)).
  { intros fuel F. exact (line_head_read p k fuel s0 Ee Pl Ns L0 F Hk). }
  destruct (G k ltac:(lia)) as (s1 & H1 & M1 & I1 & X1 & D1 & C1 & E1).
  assert (Mono : forall fuel, (k <= fuel)%nat -> line_start C fuel s0 = line_start C k s0).
  { intros fuel F. destruct (line_start C k s0) as [r|] eqn:E; [|destruct (_ <? _); [discriminate|destruct (_ <? _); discriminate]].
    induction F as [|fuel F IHF]; [exact E|]. apply line_start_mono. exact IHF. }
  destruct (Z.ltb_spec (lx_current s) (Z.of_nat k)) as [A|A].
  - exists 1%nat, (set_indents (Z.of_nat k) (Z.of_nat k) s1). split; [split; [exact H1|]; split; [exact M1|]; cbn; congruence|]. split; [reflexivity|].
    intros f F. cbn [plus]. rewrite recover_step. fold s0. rewrite snek_lex_step, Mono, E1 by lia. reflexivity.
  - destruct (Z.ltb_spec (Z.of_nat k) (lx_current s)) as [B|B].
    + exists 1%nat, (set_indents (Z.of_nat k) (Z.of_nat k) (set_flags 0 true true s1)). split; [split; [exact H1|]; split; [reflexivity|]; cbn; lia|]. split; [reflexivity|].
      intros f F. cbn [plus]. rewrite recover_step. fold s0. rewrite snek_lex_step, Mono, E1 by lia. unfold exdents. cbn [lx_exdent set_flags lx_ignore andb Z.eqb lx_indent lx_current].
      rewrite D1, C1, (proj2 (Z.ltb_lt _ _) B). cbn [set_flags lx_indent]. rewrite D1. reflexivity.
    + exists 0%nat, s1. split; [split; [exact H1|]; split; [exact M1|]; congruence|]. split; [lia|]. intros f F. cbn [plus]. destruct f as [|f]; [lia|]. rewrite !recover_step. fold s0.
      replace (set_flags 0 (lx_midline s1) (lx_exdent s1) s1) with s1 by (destruct s1; cbn in *; subst; reflexivity).
      rewrite (snek_lex_step C _ s0), Mono, E1 by lia. rewrite (snek_lex_step C _ s1). unfold line_start at 1. rewrite M1. reflexivity.
Qed.
End Line.

(** A line of the piece of program that is skipped: its indentation and the rest of it. *)
Definition line_ok (l : nat * list Z) : Prop := plain (snd l) /\ not_space (snd l) /\ Z.of_nat (fst l) < 256 /\ (length (snd l) <= 250)%nat.
Definition line_text (l : nat * list Z) : list Z := spaces (fst l) ++ snd l ++ [NL].

Lemma rec_line l rest s : line_ok l -> line_at (line_text l ++ rest) s ->
  exists j N s', line_at rest s' /\ lx_current s' = Z.of_nat (fst l) /\
    forall f, (N <= f)%nat -> recover C (j + f) s = if Z.of_nat (fst l) =? 0 then Some (true, s') else recover C f s'.
Proof.
  destruct l as [k p]. intros (Pl & Ns & Hk & Lp) L. cbn [fst snd] in *.
  assert (L' : line_at (spaces k ++ p ++ NL :: rest) s). { unfold line_text in L. cbn [fst snd] in L. rewrite <- !app_assoc in L. exact L. }
  destruct (rec_start rest NL (or_introl eq_refl) p k s eq_refl Pl Ns Hk L') as (j & s1 & R & Cu & E).
  destruct (rec_mid rest NL (or_introl eq_refl) (length p) p s1 ltac:(lia) Pl (or_introl eq_refl) Lp R) as (k' & s' & A & B & D).
  exists (j + k')%nat, (S (length p) + S k)%nat, s'. split; [exact A|]. split; [congruence|]. intros f F. rewrite <- Nat.add_assoc, E, D, Cu by lia. reflexivity.
Qed.

Lemma rec_lines : forall ls q rest s, Forall (fun l => line_ok l /\ fst l <> 0%nat) ls -> line_ok (0%nat, q) ->
  line_at (flat_map line_text ls ++ q ++ NL :: rest) s -> exists N s', line_at rest s' /\ lx_current s' = 0 /\ forall f, (N <= f)%nat -> recover C f s = Some (true, s').
Proof.
  induction ls as [|l ls IH]; intros q rest s Hl Hq L.
  - cbn [flat_map app] in L. assert (L' : line_at (line_text (0%nat, q) ++ rest) s). { unfold line_text. cbn [fst snd spaces repeat app]. rewrite <- app_assoc. exact L. }
    destruct (rec_line _ _ _ Hq L') as (j & N & s' & A & B & D). exists (j + N)%nat, s'. split; [exact A|]. split; [exact B|]. intros f F. replace f with (j + (f - j))%nat by lia. rewrite D by lia. reflexivity.
  - inversion Hl as [|? ? [Ok Nk] Hl']; subst. cbn [flat_map] in L. rewrite <- app_assoc in L. destruct (rec_line _ _ _ Ok L) as (j & N & s1 & A & B & D).
    destruct (IH q rest s1 Hl' Hq A) as (N' & s' & A' & B' & D'). exists (j + N + N')%nat, s'. split; [exact A'|]. split; [exact B'|]. intros f F. replace f with (j + (f - j))%nat by lia. rewrite D by lia.
    destruct (Z.eqb_spec (Z.of_nat (fst l)) 0); [lia|]. apply D'. lia.
Qed.

(** *** From the middle of a line *)
Lemma rec_here rest e n p s : e = NL \/ e = ch "#" -> (length p <= n)%nat -> plain p -> stops e p -> (length p <= 250)%nat -> ready rest e p s -> lx_current s = 0 ->
  exists N s', line_at (after rest e) s' /\ lx_current s' = 0 /\ forall f, (N <= f)%nat -> recover C f s = Some (true, s').
Proof.
  intros He Ln Pl St Lp R Cu. destruct (rec_mid rest e He n p s Ln Pl St Lp R) as (k & s' & A & B & D). exists (k + S (length p))%nat, s'. split; [exact A|]. split; [congruence|].
  intros f F. replace f with (k + (f - k))%nat by lia. rewrite D, Cu by lia. reflexivity.
Qed.
Lemma rec_block p ls q rest s : plain p -> (length p <= 250)%nat -> ready (flat_map line_text ls ++ q ++ NL :: rest) NL p s -> lx_current s <> 0 ->
  Forall (fun l => line_ok l /\ fst l <> 0%nat) ls -> line_ok (0%nat, q) ->
  exists N s', line_at rest s' /\ lx_current s' = 0 /\ forall f, (N <= f)%nat -> recover C f s = Some (true, s').
Proof.
  intros Pl Lp R Cu Hl Hq. destruct (rec_mid _ NL (or_introl eq_refl) (length p) p s ltac:(lia) Pl (or_introl eq_refl) Lp R) as (k & s1 & A & B & D).
  destruct (rec_lines ls q rest s1 Hl Hq A) as (N & s' & A' & B' & D'). exists (k + S (length p) + N)%nat, s'. split; [exact A'|]. split; [exact B'|].
  intros f F. replace f with (k + (f - k))%nat by lia. rewrite D by lia. destruct (Z.eqb_spec (lx_current s) 0); [contradiction|]. apply D'. lia.
Qed.

(** *** The push-back buffer and the line number *)
Lemma recover_sound : forall fuel s b s', inv s -> recover C fuel s = Some (b, s') -> sound C s s' /\ inv s'.
Proof.
  induction fuel as [|fuel IH]; intros s b s' I E; [discriminate|]. rewrite recover_step in E. set (s0 := set_flags 0 (lx_midline s) (lx_exdent s) s) in *.
  assert (I0 : inv s0). { destruct I as [A B]. split; [|exact B]. intros X. destruct (A X) as (_ & M & H). split; [reflexivity|]. split; [exact M|exact H]. }
  destruct (snek_lex C (S fuel) s0) as [[t s1]|] eqn:El; [|discriminate]. destruct (lex_result C _ _ _ _ I0 El) as [So Iv _ _ _ _ _ _].
  assert (So' : sound C s s1) by (eapply sound_trans; [|exact So]; split; auto).
  assert (Nx : forall s2 b s', sound C s1 s2 -> inv s2 -> recover C fuel s2 = Some (b, s') -> sound C s s' /\ inv s').
  { intros s2 b2 s2' H1 H2 H3. destruct (IH _ _ _ H2 H3) as [J1 J2]. split; [|exact J2]. eapply sound_trans; [exact So'|]. eapply sound_trans; eauto. }
  destruct t; try (exact (Nx s1 _ _ (sound_refl C s1) Iv E)).
  - injection E as _ <-. split; assumption.
  - destruct (_ =? _); [injection E as _ <-; split; assumption|]. exact (Nx s1 _ _ (sound_refl C s1) Iv E).
  - refine (Nx _ _ _ _ _ E); [split; auto|]. destruct Iv as [A B]. split; [exact A|exact B].
Qed.
End P.
