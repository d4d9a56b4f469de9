(** Skipping the rest of a line, and of a block: the tokens. *)
From Coq Require Import ZArith Bool List Ascii String Lia.
From Verif Require Import Base LexModel LexSpec LexProofs LexProofs2 LexProofs4 LexProofs5 LexProofs6 RecModel RecProofs.
Import ListNotations.
Local Open Scope Z_scope.
Notation length := List.length (only parsing).

(** A token inside a line. *)
Definition inner (t : token) : Prop := t <> TNl /\ t <> TEnd /\ (forall i, t <> TIndent i) /\ (forall i, t <> TExdent i).

Section P.
Variable C : lexcfg.
Hypothesis Hab : lc_abort C = true.
Variable rest : list Z.
Variable e : Z.
Hypothesis He : e = NL \/ e = ch "#".
Notation here := (here rest e).
Notation past := (past rest).
Notation at_char := (at_char rest e).
Notation on := (on rest e).
Notation stops := (stops e).

Definition within (p : list Z) (s s' : lex) : Prop := exists q, suffix q p /\ here q s' /\ same_block s s'.
Lemma on_within p s s' : on p s s' -> within p s s'.
Proof. intros (q & A & B & [D _]). exists q. auto. Qed.
Lemma same_block_refl s : same_block s s.
Proof. repeat split. Qed.
Lemma within_trans p s s1 s2 : same_block s s1 -> within p s1 s2 -> within p s s2.
Proof. intros A (q & B & D & F). exists q. split; [exact B|]. split; [exact D|]. eapply same_block_trans; eauto. Qed.
Lemma within_flags p s s' g : here p s -> s' = set_flags g (lx_midline s) (lx_exdent s) s -> within p s s'.
Proof. intros H ->. exists p. split; [apply suffix_refl|]. split; [exact H|]. repeat split. Qed.

(** A character that may come with an other. *)
Lemma second_on p s n s1 : plain p -> here p s -> (length (lx_text s) < 255)%nat -> lextoken C s = (n, s1) ->
  within p s (unlextoken C n s1) /\ (n <> e -> within p s s1 /\ exists q, p = n :: q /\ here q s1 /\ same_block s s1) /\
  (length (lx_text (unlextoken C n s1)) <= length (lx_text s))%nat /\ (length (lx_text s1) <= Datatypes.S (length (lx_text s)))%nat.
Proof.
  intros Pl H L E. destruct (token_any C rest e He p s Pl H L) as (c & s1' & A & B & K & T). rewrite A in E. injection E as -> ->.
  destruct (back_token C rest e _ _ _ B) as (Hb & Kb & Tb). split; [|split; [|split]].
  - exists p. split; [apply suffix_refl|]. split; [exact Hb|]. apply kp_block. eapply kept_trans; eauto.
  - intros N. destruct B as [(q & -> & Hq)|(-> & -> & _)]; [|contradiction]. split; [exists q; split; [apply suffix_cons, suffix_refl|]; split; [exact Hq|apply K]|].
    exists q. split; [reflexivity|]. split; [exact Hq|apply K].
  - rewrite Tb, T, removelast_last. lia.
  - rewrite T, app_length. cbn. lia.
Qed.
Lemma equal_on pl o p s : plain p -> here p s -> (length (lx_text s) < 255)%nat -> within p s (snd (check_equal C pl o s)).
Proof.
  intros Pl H L. unfold check_equal. destruct (lextoken C s) as [n s1] eqn:E. destruct (second_on _ _ _ _ Pl H L E) as (A & B & _).
  destruct (Z.eqb_spec n (ch "=")) as [->|]; cbn [negb snd]; [|exact A]. apply B. destruct He as [-> | ->]; discriminate.
Qed.

Lemma switch_on fuel c p s : plain (c :: p) -> stops (c :: p) -> here p s -> (length (lx_text s) < 254)%nat -> (length p <= fuel)%nat ->
  exists a s', lex_switch C fuel c s = Some (a, s') /\ within p s s' /\ (a = AContinue -> s' = s) /\
    (a = AFall -> (length (lx_text s') <= length (lx_text s))%nat).
Proof.
  intros Pc St H L F. pose proof (plain_suffix _ _ (suffix_cons c _ _ (suffix_refl p)) Pc) as Pl. destruct Pc as [Pf _].
  inversion Pf as [|? ? (Bc & Nn & Nh) _]; subst. unfold lex_switch. change SNEK_EOF with 0. destruct (Z.eqb_spec c 0); [lia|].
  destruct (Z.eqb_spec c NL); [contradiction|]. clear n n0.
  assert (Same : within p s s) by (exists p; split; [apply suffix_refl|]; split; [exact H|apply same_block_refl]).
  assert (Tk : forall t s', within p s s' -> exists a s0, Some (AToken t, s') = Some (a, s0) /\ within p s s0 /\ (a = AContinue -> s0 = s) /\ (a = AFall -> (length (lx_text s0) <= length (lx_text s))%nat)).
  { intros t s' W. eexists _, _. split; [reflexivity|]. split; [exact W|]. split; discriminate. }
  assert (Eq : forall pl o q s1, suffix q p -> here q s1 -> same_block s s1 -> (length (lx_text s1) < 255)%nat ->
    exists a s0, tok (check_equal C pl o s1) = Some (a, s0) /\ within p s s0 /\ (a = AContinue -> s0 = s) /\ (a = AFall -> (length (lx_text s0) <= length (lx_text s))%nat)).
  { intros pl o q s1 Sq Hq Kq Lq. destruct (check_equal C pl o s1) as [t s'] eqn:E. apply Tk. pose proof (equal_on pl o q s1 (plain_suffix _ _ Sq Pl) Hq Lq) as W.
    rewrite E in W. cbn [snd] in W. destruct W as (r & R1 & R2 & R3). exists r. split; [eapply suffix_trans; eauto|]. split; [exact R2|]. eapply same_block_trans; eauto. }
  destruct (lextoken C s) as [n s1] eqn:E1. destruct (second_on _ _ _ _ Pl H ltac:(lia) E1) as (Wb & Wn & Lb & Ln).
  assert (EqN : forall pl o, n <> e -> exists a s0, tok (check_equal C pl o s1) = Some (a, s0) /\ within p s s0 /\ (a = AContinue -> s0 = s) /\ (a = AFall -> (length (lx_text s0) <= length (lx_text s))%nat)).
  { intros pl o N. destruct (Wn N) as (_ & q & -> & Hq & Kq). apply (Eq pl o q); [apply suffix_cons, suffix_refl|exact Hq|exact Kq|lia]. }
  assert (EqB : forall pl o, exists a s0, tok (check_equal C pl o (unlextoken C n s1)) = Some (a, s0) /\ within p s s0 /\ (a = AContinue -> s0 = s) /\ (a = AFall -> (length (lx_text s0) <= length (lx_text s))%nat)).
  { intros pl o. destruct Wb as (q & Sq & Hq & Kq). apply (Eq pl o q); auto. lia. }
  assert (EqS : forall pl o, exists a s0, tok (check_equal C pl o s) = Some (a, s0) /\ within p s s0 /\ (a = AContinue -> s0 = s) /\ (a = AFall -> (length (lx_text s0) <= length (lx_text s))%nat)).
  { intros pl o. apply (Eq pl o p); [apply suffix_refl|exact H|apply same_block_refl|lia]. }
  unfold lex_open, lex_close.
  repeat (match goal with |- context [if c =? ?k then tok (_, _) else _] => destruct (c =? k); [cbn [tok]; apply Tk; solve [exact Same | destruct (lx_ignore s =? 0); [exact Same|eapply within_flags; [exact H|reflexivity]] | eapply within_flags; [exact H|reflexivity]]|] end).
  destruct (c =? ch "+"); [apply EqS|]. destruct (c =? ch "-"); [apply EqS|].
  destruct (c =? ch "*"). { destruct (Z.eqb_spec n (ch "*")) as [->|]; [apply EqN; destruct He as [-> | ->]; discriminate|apply EqB]. }
  destruct (c =? ch "/"). { destruct (Z.eqb_spec n (ch "/")) as [->|]; [apply EqN; destruct He as [-> | ->]; discriminate|apply EqB]. }
  destruct (c =? ch "%"); [apply EqS|]. destruct (c =? ch "&"); [apply EqS|]. destruct (c =? ch "|"); [apply EqS|].
  destruct (c =? ch "~"); [apply Tk; exact Same|]. destruct (c =? ch "^"); [apply EqS|].
  destruct (c =? ch "<").
  { destruct (Z.eqb_spec n (ch "<")) as [->|]; [apply EqN; destruct He as [-> | ->]; discriminate|].
    destruct (Z.eqb_spec n (ch "=")) as [->|]; [apply Tk, Wn; destruct He as [-> | ->]; discriminate|apply Tk, Wb]. }
  destruct (c =? ch "="). { destruct (Z.eqb_spec n (ch "=")) as [->|]; [apply Tk, Wn; destruct He as [-> | ->]; discriminate|apply Tk, Wb]. }
  destruct (c =? ch ">").
  { destruct (Z.eqb_spec n (ch ">")) as [->|]; [apply EqN; destruct He as [-> | ->]; discriminate|].
    destruct (Z.eqb_spec n (ch "=")) as [->|]; [apply Tk, Wn; destruct He as [-> | ->]; discriminate|apply Tk, Wb]. }
  destruct (c =? ch "!").
  { destruct (Z.eqb_spec n (ch "=")) as [->|]; [apply Tk, Wn; destruct He as [-> | ->]; discriminate|].
    eexists _, _. split; [reflexivity|]. split; [exact Wb|]. split; [discriminate|]. intros _. exact Lb. }
  destruct ((c =? 34) || (c =? 39)) eqn:Eq0.
  { assert (Ee : e = NL). { destruct St as [St|St]; [exact St|]. inversion St as [|? ? [S1 S2] _]; subst. apply orb_true_iff in Eq0. destruct Eq0 as [X|X]; apply Z.eqb_eq in X; contradiction. }
    destruct (string_on C rest e Ee fuel p c (start_token s) Pl Nn H F) as (k & s' & E & W). unfold string_. rewrite E. cbn [otok]. apply Tk.
    apply on_within in W. destruct W as (q & Q1 & Q2 & Q3). exists q. split; [exact Q1|]. split; [exact Q2|exact Q3]. }
  destruct (Z.eqb_spec c (ch "#")); [contradiction|]. destruct (c =? ch " "); (eexists _, _; split; [reflexivity|]; split; [exact Same|]; split; intros ?; [reflexivity || discriminate|lia]).
Qed.

Lemma rest_on fuel c p s : plain p -> here p s -> (length (lx_text s) + length p < 254)%nat -> (length p <= fuel)%nat ->
  exists k s', lex_rest C fuel c s = Some (k, s') /\ within p s s'.
Proof.
  intros Pl H L F. unfold lex_rest. destruct (_ || _).
  - destruct (number_on C rest e He p fuel NInt CDigit c (start_token s) Pl H F) as (k & s' & E & W). exists k, s'. split; [exact E|]. apply on_within in W.
    destruct W as (q & Q1 & Q2 & Q3). exists q. split; [exact Q1|]. split; [exact Q2|exact Q3].
  - destruct (negb _); [eexists _, _; split; [reflexivity|]; exists p; split; [apply suffix_refl|]; split; [exact H|apply same_block_refl]|].
    destruct (word_on C rest e He p fuel s Pl H L F) as (k & s' & E & W). exists k, s'. split; [exact E|]. apply on_within. exact W.
Qed.

(** In the middle of a line, and at the start of the next. *)
Definition ready (p : list Z) (s : lex) : Prop :=
  here p s /\ lx_midline s = true /\ (lx_exdent s = true -> lx_current s <= lx_indent s).
Definition after : list Z := if e =? NL then rest else tl rest.
Definition fresh (s : lex) : Prop :=
  lx_unget s = [] /\ lx_input s = after /\ lx_midline s = false /\ lx_exdent s = false /\ lx_ignore s = 0.

Lemma exdents_off s : (lx_exdent s = true -> lx_current s <= lx_indent s) ->
  exists s1, exdents s = (None, s1) /\ (lx_ignore s = 0 -> lx_exdent s1 = false) /\ lx_unget s1 = lx_unget s /\ lx_input s1 = lx_input s /\
    lx_midline s1 = lx_midline s /\ lx_ignore s1 = lx_ignore s /\ lx_current s1 = lx_current s /\ lx_indent s1 = lx_indent s.
Proof.
  intros H. unfold exdents. destruct (lx_exdent s) eqn:E; cbn [andb].
  - specialize (H eq_refl). destruct (Z.eqb_spec (lx_ignore s) 0).
    + rewrite (proj2 (Z.ltb_ge _ _) H). eexists. split; [reflexivity|]. cbn. repeat split; auto.
    + eexists. split; [reflexivity|]. repeat split; auto; congruence.
  - eexists. split; [reflexivity|]. repeat split; auto.
Qed.

Lemma nl_switch fuel s : lex_switch C fuel NL s = if lx_ignore s =? 0 then Some (AToken TNl, set_flags (lx_ignore s) false (lx_exdent s) s) else Some (AContinue, set_flags (lx_ignore s) false (lx_exdent s) s).
Proof. reflexivity. Qed.
Lemma end_lex fuel s : here [] s -> lx_midline s = true -> (lx_exdent s = true -> lx_current s <= lx_indent s) -> lx_ignore s = 0 -> (1 <= fuel)%nat ->
  exists s', snek_lex C fuel s = Some (TNl, s') /\ fresh s' /\ lx_current s' = lx_current s.
Proof.
  intros H M X I F. destruct fuel as [|fuel]; [lia|]. rewrite snek_lex_step. unfold line_start. rewrite M.
  destruct (exdents_off s X) as (s1 & E1 & X1 & U1 & N1 & M1 & I1 & C1 & D1). rewrite E1. specialize (X1 I).
  assert (H1 : here [] (start_token s1)). { destruct H as [Ha Hb]. split; cbn; rewrite U1, ?N1; assumption. }
  destruct (token_any C rest e He [] _ (conj (Forall_nil _) (fun a b E => match a return [] = a ++ 92 :: b -> _ with [] => fun E => ltac:(discriminate E) | _ => fun E => ltac:(discriminate E) end E)) H1 ltac:(cbn; lia)) as (c & s2 & A & B & [(K1 & K2 & K3 & K4) K5] & T).
  rewrite A. destruct B as [(q & B & _)|(_ & -> & Bu & Bi)]; [discriminate|]. cbn in K1, K2, K3, K4, K5.
  destruct He as [Ee | Ee]; rewrite Ee in A |- *.
  - rewrite nl_switch, K5, I1, I. cbn [Z.eqb].
    eexists. split; [reflexivity|]. split; [|cbn; congruence]. unfold fresh, after. rewrite Ee, Z.eqb_refl. cbn. repeat split; congruence.
  - assert (Sw : lex_switch C (Datatypes.S fuel) (ch "#") s2 = match comment C (Datatypes.S fuel) s2 with None => None | Some s => Some (AContinue, unlexchar C NL s) end) by reflexivity.
    rewrite Sw. cbn [comment]. unfold lexchar. rewrite Bu, Bi, Hab.
    assert (G : exists s3, (match match rest with [] => (SNEK_EOF, [], []) | c :: i => (c, [], i) end with (c, u, i) => (c, set_chars u i (if c =? NL then u_of (lc_width C) (lx_line s2 + 1) else lx_line s2) s2) end) = (List.hd 0 rest, s3) /\
      lx_unget s3 = [] /\ lx_input s3 = tl rest /\ kept s2 s3).
    { destruct rest as [|r0 rest']; (eexists; split; [reflexivity|]; repeat split). }
    destruct G as (s3 & -> & U3 & N3 & [(L1 & L2 & L3 & L4) L5]). rewrite orb_true_r. rewrite snek_lex_step. unfold line_start. cbn [lx_midline unlexchar]. rewrite L3, K3, M1, M.
    destruct (exdents_off (unlexchar C NL s3) ltac:(cbn; congruence)) as (s4 & E4 & X4 & U4 & N4 & M4 & I4 & C4 & D4). rewrite E4.
    cbn in X4, U4, N4, M4, I4, C4, D4. rewrite U3 in U4. unfold lextoken, lexchar. cbn [lx_unget start_token set_text]. rewrite U4.
    cbn [Z.eqb]. change (NL =? SNEK_EOF) with false. unfold add_token, SNEK_MAX_TOKEN. cbn [lx_text set_chars start_token set_text List.length app]. change (Z.of_nat 0 =? 255) with false. cbv iota zeta.
    rewrite nl_switch. cbn [lx_ignore set_text set_chars start_token]. rewrite I4, L5, K5, I1, I. cbn [Z.eqb].
    eexists. split; [reflexivity|]. split; [|cbn; congruence]. unfold fresh, after. rewrite Ee. change (ch "#" =? NL) with false. cbn. repeat split; try congruence.
    apply X4. congruence.
Qed.

Lemma mid_lex : forall p fuel s, plain p -> stops p -> (length p <= 250)%nat -> ready p s -> lx_ignore s = 0 -> (length p < fuel)%nat ->
  exists t s', snek_lex C fuel s = Some (t, s') /\ lx_current s' = lx_current s /\
    ((inner t /\ exists q, suffix q p /\ (length q < length p)%nat /\ ready q s') \/ (t = TNl /\ fresh s')).
Proof.
  induction p as [|c p IH]; intros fuel s Pl St Lp (H & M & X) I F.
  - destruct (end_lex fuel s H M X I ltac:(cbn in F; lia)) as (s' & E & Fr & Cu). exists TNl, s'. auto.
  - destruct fuel as [|fuel]; [lia|]. cbn [length] in F, Lp. rewrite snek_lex_step. unfold line_start. rewrite M.
    destruct (exdents_off s X) as (s1 & E1 & X1 & U1 & N1 & M1 & I1 & C1 & D1). rewrite E1. specialize (X1 I).
    assert (H1 : here (c :: p) (start_token s1)). { destruct H as [Ha Hb]. split; cbn; rewrite U1, ?N1; assumption. }
    destruct (token_any C rest e He _ _ Pl H1 ltac:(cbn; lia)) as (c' & s2 & A & B & [(K1 & K2 & K3 & K4) K5] & T). rewrite A.
    destruct B as [(q & [= <- <-] & B)|(B & _)]; [|discriminate]. cbn in K1, K2, K3, K4, K5, T.
    pose proof (plain_suffix _ _ (suffix_cons c _ _ (suffix_refl p)) Pl) as Pl'.
    assert (St' : stops p). { destruct St as [St|St]; [left; exact St|right; inversion St; assumption]. }
    destruct (switch_on (Datatypes.S fuel) c p s2 Pl St B ltac:(rewrite T; cbn; lia) ltac:(lia)) as (a & s3 & Es & (q & Q1 & Q2 & (J1 & J2 & J3 & J4)) & Ac & Af).
    rewrite Es. pose proof (switch_switched C _ _ _ _ _ Es) as Sw. destruct Pl as [Pf _]. inversion Pf as [|? ? (Bc & Nn & Nh) _]; subst.
    assert (Rd : forall q s', suffix q p -> here q s' -> same_block s2 s' -> (length q < Datatypes.S (length p))%nat /\ ready q s' /\ lx_current s' = lx_current s).
    { intros r s' R1 R2 (Y1 & Y2 & Y3 & Y4). pose proof (suffix_length _ _ R1). split; [lia|]. split; [|congruence]. split; [exact R2|]. split; [congruence|]. intros Z. congruence. }
    destruct a as [t| |].
    + destruct (Rd q s3 Q1 Q2 ltac:(repeat split; assumption)) as (R1 & R2 & R3). exists t, s3. split; [reflexivity|]. split; [exact R3|]. left. split.
      { split; [intros ->; destruct (sw_nl _ _ _ _ _ Sw eq_refl); contradiction|]. split; [intros ->; pose proof (sw_end _ _ _ _ _ Sw eq_refl); unfold SNEK_EOF in *; lia|].
        split; intros i ->; destruct (sw_not _ _ _ _ _ Sw i); contradiction. }
      exists q. split; [apply suffix_cons; exact Q1|]. auto.
    + specialize (Ac eq_refl). subst s3. destruct (Rd p s2 (suffix_refl p) B ltac:(repeat split)) as (_ & R2 & R3).
      destruct (IH fuel s2 Pl' St' ltac:(lia) R2 ltac:(congruence) ltac:(lia)) as (t & s' & E & Cu & O). exists t, s'. split; [exact E|]. split; [congruence|].
      destruct O as [(In & r & Y1 & Y2 & Y3)|O]; [|right; exact O]. left. split; [exact In|]. exists r. split; [apply suffix_cons; exact Y1|]. split; [cbn; lia|exact Y3].
    + specialize (Af eq_refl). rewrite T in Af. cbn in Af. pose proof (suffix_length _ _ Q1).
      destruct (rest_on (Datatypes.S fuel) c q s3 (plain_suffix _ _ Q1 Pl') Q2 ltac:(lia) ltac:(lia)) as (k & s' & E & r & Y1 & Y2 & Y3).
      destruct (Rd r s' (suffix_trans _ _ _ Y1 Q1) Y2 (same_block_trans s2 s3 s' (conj J1 (conj J2 (conj J3 J4))) Y3)) as (R1 & R2 & R3).
      exists k, s'. split; [exact E|]. split; [exact R3|]. left. split; [exact (rest_token C _ _ _ _ _ E)|]. exists r. split; [apply suffix_cons; eapply suffix_trans; eauto|]. auto.
Qed.
End P.
