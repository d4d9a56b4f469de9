(** Proofs about the lexer: the block structure. *)
From Coq Require Import ZArith Bool List Ascii String Lia.
From Verif Require Import Base LexModel LexSpec LexProofs LexProofs4 LexProofs5.
Import ListNotations.
Local Open Scope Z_scope.

Section P.
Variable C : lexcfg.

(** The state between tokens. *)
Definition line_head (s : lex) : Prop :=
  exists c r, pending s = c :: r /\ (c = SNEK_EOF -> lx_indent s = 0) /\ c <> ch " " /\ c <> ch "#".
Record inv (s : lex) : Prop := {
  iv_exdent : lx_exdent s = true -> lx_ignore s = 0 /\ lx_midline s = true /\ line_head s;
  iv_indent : 0 <= lx_indent s }.

Lemma indent_spaces_facts : forall fuel i s c i' s', indent_spaces C fuel i s = Some (c, i', s') -> 0 <= i ->
  fine C 0 1 s s' /\ 0 <= i' /\ c <> ch " ".
Proof.
  induction fuel as [|fuel IH]; intros i s c i' s' E Hi; cbn [indent_spaces] in E; destruct (lexchar C s) as [d s1] eqn:E1;
    pose proof (lexchar_fine C 0 _ _ _ E1 ltac:(lia)) as F1; destruct (Z.eqb_spec d (ch " ")) as [Hd|Hd].
  - discriminate.
  - injection E as <- <- <-. auto.
  - destruct (IH _ _ _ _ _ E) as (F2 & H2 & H3); [unfold u8; apply Z.mod_pos_bound; lia|].
    split; [eapply fine_trans; [exact (fine_weak _ _ _ 0 _ _ F1 ltac:(lia)) | exact F2] | auto].
  - injection E as <- <- <-. auto.
Qed.

Record found (c : Z) (s s' : lex) : Prop := {
  fd_safe : safe 0 s -> safe 1 s';
  fd_line : lineval C s' = lineval C s;
  fd_current : lx_current s' = lx_current s;
  fd_ignore : lx_ignore s' = lx_ignore s;
  fd_exdent : lx_exdent s' = lx_exdent s;
  fd_indent : 0 <= lx_indent s';
  fd_eof : c = SNEK_EOF -> lx_indent s' = 0;
  fd_char : c <> ch " " /\ c <> ch "#" }.
Lemma found_back : forall c s s1 s', fine C 0 0 s s1 \/ (exists i, s1 = set_indents (lx_current s) i s) -> found c s1 s' -> found c s s'.
Proof.
  intros c s s1 s' H [F1 F2 F3 F4 F5 F6 F7 F8]. destruct H as [[[(K1 & K2 & K3 & K4) K5] KS KL] | [i ->]].
  - split; try assumption; try congruence. auto.
  - split; assumption.
Qed.

Lemma find_line_found : forall fuel s c s', find_line C fuel s = Some (c, s') -> found c s s'.
Proof.
  assert (Done : forall s c i s1 b, indent_spaces C b 0 s = Some (c, i, s1) -> c <> ch "#" -> (c = SNEK_EOF -> i = 0) ->
    found c s (set_indents (lx_current s1) i s1)).
  { intros s c i s1 b E N H. destruct (indent_spaces_facts _ _ _ _ _ _ E ltac:(lia)) as ([[(K1 & K2 & K3 & K4) K5] KS KL] & Hi & Hc).
    split; auto. }
  induction fuel as [|fuel IH]; intros s c s' E; cbn [find_line] in E.
  - destruct (indent_spaces C 0 0 s) as [[[d i] s1]|] eqn:E1; [|discriminate].
    destruct (indent_spaces_facts _ _ _ _ _ _ E1 ltac:(lia)) as ([[(K1 & K2 & K3 & K4) K5] KS KL] & Hi & Hc).
    destruct (Z.eqb_spec d SNEK_EOF) as [->|N0].
    { injection E as <- <-. split; auto; cbn [set_indents lx_indent]; try lia. split; discriminate. }
    destruct (_ && _); [discriminate|]. destruct (Z.eqb_spec d (ch "#")) as [->|N1].
    { destruct (comment C 0 _); discriminate. }
    injection E as <- <-. apply (Done _ _ _ _ _ E1); auto. contradiction.
  - destruct (indent_spaces C (S fuel) 0 s) as [[[d i] s1]|] eqn:E1; [|discriminate].
    destruct (indent_spaces_facts _ _ _ _ _ _ E1 ltac:(lia)) as (F1 & Hi & Hc).
    assert (F1' : fine C 0 0 s s1) by (eapply fine_weak; [exact F1 | lia]).
    destruct (Z.eqb_spec d SNEK_EOF) as [->|N0].
    { injection E as <- <-. destruct F1 as [[(K1 & K2 & K3 & K4) K5] KS KL].
      split; auto; cbn [set_indents lx_indent]; try lia. split; discriminate. }
    destruct (_ && _).
    { eapply found_back; [left; exact F1'|]. eapply found_back; [right; eexists; reflexivity | exact (IH _ _ _ E)]. }
    destruct (Z.eqb_spec d (ch "#")) as [->|N1].
    { destruct (comment C (S fuel) _) as [s2|] eqn:E2; [|discriminate].
      pose proof (comment_fine C _ 0 _ _ E2 ltac:(lia)) as F2.
      eapply found_back; [left; exact F1'|]. eapply found_back; [right; eexists; reflexivity|].
      eapply found_back; [left; exact (fine_weak _ _ _ 0 _ _ F2 ltac:(lia)) | exact (IH _ _ _ E)]. }
    injection E as <- <-. apply (Done _ _ _ _ _ E1); auto. contradiction.
Qed.

(** At the beginning of a logical line, or while blocks are being closed. *)
Definition line_end (s : lex) : Prop := lx_exdent s = true \/ (lx_midline s = false /\ lx_ignore s = 0).

Lemma line_start_facts : forall fuel s r s1, inv s -> line_start C fuel s = Some (r, s1) ->
  sound C s s1 /\ inv s1 /\ lx_midline s1 = true /\ lx_ignore s1 = lx_ignore s /\
  match r with
  | Some t => t = TIndent (lx_current s) /\ lx_current s < lx_current s1 /\ lx_exdent s1 = false /\ lx_current s1 = lx_indent s1 /\ lx_ignore s = 0
  | None => lx_current s1 = lx_current s /\
      (line_end s -> line_head s1 /\ lx_ignore s1 = 0 /\ (lx_exdent s1 = false -> lx_indent s1 = lx_current s1)) /\
      (lx_midline s = true -> s1 = s) /\ (lx_midline s = false -> lx_indent s1 <= lx_current s1 \/ lx_ignore s <> 0)
  end.
Proof.
  intros fuel s r s1 I E. pose proof I as [I1 I2]. unfold line_start in E.
  destruct (lx_midline s) eqn:Em.
  { injection E as <- <-. split; [apply sound_refl|]. split; [exact I|]. split; [exact Em|]. split; [reflexivity|].
    split; [reflexivity|]. split; [|split; [reflexivity | discriminate]]. intros [H|[H _]]; [|congruence].
    destruct (I1 H) as (G1 & G2 & G3). split; [exact G3|]. split; [exact G1 | congruence]. }
  assert (X : lx_exdent s = false) by (destruct (lx_exdent s); [destruct (I1 eq_refl) as (_ & H & _); congruence | reflexivity]).
  destruct (find_line C fuel s) as [[c s0]|] eqn:E0; [|discriminate].
  destruct (find_line_found _ _ _ _ E0) as [F1 F2 F3 F4 F5 F6 F7 F8].
  set (s2 := unlexchar C c (set_flags (lx_ignore s0) true (lx_exdent s0) s0)) in *.
  assert (So : sound C s s2).
  { split.
    - intros S. destruct (F1 S) as [S1 S2]. apply (fn_safe C _ _ _ _ (unlexchar_fine C 0 (set_flags (lx_ignore s0) true (lx_exdent s0) s0) c)). split; assumption.
    - unfold s2. rewrite unlexchar_lineval. exact F2. }
  assert (HH : line_head s2) by (exists c, (pending s0); split; [reflexivity|]; tauto).
  cbv zeta in E. fold s2 in E.
  change (lx_ignore s2) with (lx_ignore s0) in E. change (lx_current s2) with (lx_current s0) in E. change (lx_indent s2) with (lx_indent s0) in E.
  destruct (Z.eqb_spec (lx_ignore s0) 0) as [Hg|Hg].
  - destruct (Z.ltb_spec (lx_current s0) (lx_indent s0)) as [Hl|Hl]; [|destruct (Z.ltb_spec (lx_indent s0) (lx_current s0)) as [Hl'|Hl']]; injection E as <- <-.
    + split; [exact (sound_trans _ _ _ _ So (sound_indents C _ _ _))|]. split; [split; [intros H; change (lx_exdent s0 = true) in H; congruence | exact F6]|].
      split; [reflexivity|]. split; [exact F4|]. rewrite F3. split; [reflexivity|]. split; [cbn; lia|]. split; [cbn; congruence|]. split; [reflexivity | congruence].
    + split; [exact (sound_trans _ _ _ _ So (sound_flags C _ _ _ _))|].
      split; [split; [intros _; split; [exact Hg | split; [reflexivity | exact HH]] | exact F6]|].
      split; [reflexivity|]. split; [exact F4|]. split; [exact F3|].
      split; [intros _; split; [exact HH|]; split; [exact Hg | discriminate]|]. split; [discriminate|]. intros _. left. cbn. lia.
    + split; [exact So|]. split; [split; [intros H; change (lx_exdent s0 = true) in H; congruence | exact F6]|].
      split; [reflexivity|]. split; [exact F4|]. split; [exact F3|].
      split; [intros _; split; [exact HH|]; split; [exact Hg | intros _; cbn; lia]|]. split; [discriminate|]. intros _. left. cbn. lia.
  - injection E as <- <-. split; [exact So|]. split; [split; [intros H; change (lx_exdent s0 = true) in H; congruence | exact F6]|].
    split; [reflexivity|]. split; [exact F4|]. split; [exact F3|].
    split; [intros [H|[_ H]]; congruence|]. split; [discriminate|]. intros _. right. congruence.
Qed.

Record result (s : lex) (t : token) (s' : lex) : Prop := {
  rs_sound : sound C s s';
  rs_inv : inv s';
  rs_indent : forall i, t = TIndent i -> i = lx_current s /\ i < lx_current s' /\ lx_exdent s' = false;
  rs_exdent : forall e, t = TExdent e -> lx_current s' = lx_current s /\ lx_indent s' = e /\ e < lx_current s /\ lx_exdent s' = true;
  rs_other : (forall i, t <> TIndent i) -> (forall e, t <> TExdent e) -> lx_current s' = lx_current s /\ lx_exdent s' = false;
  rs_nl : t = TNl -> lx_midline s' = false /\ lx_ignore s' = 0;
  rs_end : t = TEnd -> line_end s -> lx_current s <= 0;
  rs_first : (forall i, t <> TIndent i) -> (forall e, t <> TExdent e) -> line_end s ->
    lx_current s <= lx_indent s' /\ (lx_exdent s = true -> lx_indent s' = lx_indent s) /\ (lx_exdent s = false -> lx_indent s' = lx_current s) }.

Lemma number_token : forall fuel n t c s k s', number_loop C fuel n t c s = Some (k, s') -> k = TInvalid \/ exists v, k = TNumber v.
Proof.
  induction fuel as [|fuel IH]; intros n t c s k s' E; cbn [number_loop] in E.
  all: destruct (match t with CUnderscore => (true, s) | _ => add_token c s end) as [[] s1]; cbn [negb] in E; [|injection E as <- <-; auto].
  all: destruct (lexchar C s1) as [c2 s2]; destruct (nstep n (cclass c2)); [|injection E as <- <-; eauto].
  - discriminate.
  - exact (IH _ _ _ _ _ _ E).
Qed.
Lemma match_word_token : forall todo done sp c a b s, fst (match_word C done todo sp c a b s) = a \/ fst (match_word C done todo sp c a b s) = b.
Proof.
  induction todo as [|n todo IH]; intros; cbn [match_word]; [auto|]. destruct (negb _); [auto|].
  destruct todo; [auto|]. destruct (lextoken C s). apply IH.
Qed.
Lemma rest_token : forall fuel c s k s', lex_rest C fuel c s = Some (k, s') ->
  k <> TNl /\ k <> TEnd /\ (forall i, k <> TIndent i) /\ (forall e, k <> TExdent e).
Proof.
  assert (Tr : forall fuel w a b s k s', trailing C fuel w a b s = Some (k, s') -> k = a \/ k = b).
  { intros fuel w a b s k s' E. unfold trailing in E. destruct (skip_spaces C fuel false s) as [[[c sp] s1]|]; [|discriminate].
    injection E as E. match type of E with match_word C ?d ?t ?sp ?c ?a ?b ?s = _ => pose proof (match_word_token t d sp c a b s) as H end.
    rewrite E in H. exact H. }
  intros fuel c s k s' E. unfold lex_rest in E. destruct (_ || _).
  - destruct (number_token _ _ _ _ _ _ _ E) as [-> | [v ->]]; repeat split; discriminate.
  - destruct (negb _); [injection E as <- <-; repeat split; discriminate|]. unfold word in E.
    destruct (name_loop C fuel s) as [[d s1]|]; [|discriminate]. cbv zeta in E.
    destruct (is_keyword _); [|injection E as <- <-; repeat split; discriminate].
    destruct (text_eqb _ _); [destruct (Tr _ _ _ _ _ _ _ E) as [-> | ->]; repeat split; discriminate|].
    destruct (text_eqb _ _); [destruct (Tr _ _ _ _ _ _ _ E) as [-> | ->]; repeat split; discriminate|].
    destruct (text_eqb _ _); injection E as <- <-; repeat split; discriminate.
Qed.

Lemma snek_lex_step : forall fuel s, snek_lex C fuel s =
  match line_start C fuel s with
  | None => None
  | Some (Some t, s) => Some (t, s)
  | Some (None, s) =>
      match exdents s with
      | (Some t, s) => Some (t, s)
      | (None, s) =>
          let '(c, s) := lextoken C (start_token s) in
          match lex_switch C fuel c s with
          | None => None
          | Some (AToken t, s) => Some (t, s)
          | Some (AContinue, s) => match fuel with O => None | S fuel' => snek_lex C fuel' s end
          | Some (AFall, s) => lex_rest C fuel c s
          end
      end
  end.
Proof. intros [|fuel] s; reflexivity. Qed.

Lemma lex_result : forall fuel s t s', inv s -> snek_lex C fuel s = Some (t, s') -> result s t s'.
Proof.
  induction fuel as [|fuel IH]; intros s t s' I E; rewrite snek_lex_step in E.
  all: destruct (line_start C _ s) as [[r s1]|] eqn:E1; [|discriminate];
    destruct (line_start_facts _ _ _ _ I E1) as (So1 & I1 & M1 & G1 & R1).
  all: destruct r as [t1|].
  1, 3: (injection E as <- <-; destruct R1 as (-> & H1 & H2 & H3 & H4); split;
    [ exact So1 | exact I1 | intros i Hi; injection Hi as <-; auto | discriminate | intros H; elim (H _ eq_refl) | discriminate | discriminate
    | intros H; elim (H _ eq_refl) ]).
  all: destruct R1 as (R1 & R2 & R3 & R4); unfold exdents in E.
  all: destruct (lx_exdent s1 && (lx_ignore s1 =? 0)) eqn:Ex; [destruct (Z.ltb_spec (lx_indent s1) (lx_current s1)) as [Hl|Hl]|].
  1, 4: (injection E as <- <-; apply andb_true_iff in Ex; destruct Ex as [Ex Eg]; split;
    [ exact So1 | exact I1 | discriminate | intros e He; injection He as <-; repeat split; auto; lia
    | intros _ H; elim (H _ eq_refl) | discriminate | discriminate | intros _ H; elim (H _ eq_refl) ]).
  all: match type of E with (let '(_, _) := lextoken C (start_token ?x) in _) = _ => set (s2 := x) in E end.
  all: assert (F2 : sound C s1 s2 /\ lx_exdent s2 = false /\ lx_current s2 = lx_current s1 /\ lx_indent s2 = lx_indent s1 /\
    lx_ignore s2 = lx_ignore s1 /\ lx_midline s2 = true /\ pending s2 = pending s1) by
    (first [ subst s2; split; [apply sound_flags | repeat split; assumption]
           | subst s2; split; [apply sound_refl|]; split; [|repeat split; assumption];
             destruct (lx_exdent s1) eqn:Q; [destruct (iv_exdent _ I1 Q) as (Q1 & _); rewrite Q1 in Ex; discriminate | reflexivity] ]).
  all: assert (L2 : line_end s -> lx_current s <= lx_indent s2 /\ (lx_exdent s = true -> lx_indent s2 = lx_indent s) /\ (lx_exdent s = false -> lx_indent s2 = lx_current s)) by
    (intros L; destruct (R2 L) as (_ & _ & H3); destruct F2 as (_ & _ & _ & Hi & _); rewrite Hi;
     assert (Hc : lx_current s1 <= lx_indent s1) by
       (first [exact Hl | destruct (lx_exdent s1) eqn:Q; [destruct (iv_exdent _ I1 Q) as (Q1 & _); rewrite Q1 in Ex; discriminate | rewrite H3 by reflexivity; lia]]);
     split; [lia|]; split;
     [ intros Xt; destruct (iv_exdent _ I Xt) as (_ & Mt & _); rewrite (R3 Mt); reflexivity
     | intros Xf; destruct L as [L|[L L']]; [congruence|]; destruct (R4 L) as [R|R]; [lia | congruence] ]).
  all: assert (Hd : line_end s -> line_head s2) by
    (intros L; destruct (R2 L) as ((c & rr & P & H1 & H2) & _); destruct F2 as (_ & _ & _ & Hi & _ & _ & Hp);
     exists c, rr; rewrite Hp, Hi; tauto).
  all: clear R2 R4; destruct F2 as (So2 & X2 & C2 & N2 & G2 & M2 & P2);
    destruct (lextoken C (start_token s2)) as [c s3] eqn:E3;
    pose proof (fine_weak _ _ _ 0 _ _ (lextoken_fine C 0 _ _ _ E3 ltac:(lia)) ltac:(lia)) as F3;
    pose proof (fine_sound C 0 0 _ _ F3 ltac:(lia)) as So3; destruct F3 as [[(K1 & K2 & K3 & K4) K5] _ _].
  all: assert (Hc : line_head s2 -> (c = SNEK_EOF -> lx_indent s2 = 0) /\ c <> ch " " /\ c <> ch "#") by
    (intros (d & rr & P & H1 & H2); unfold lextoken in E3; destruct (lexchar C (start_token s2)) as [d' s3'] eqn:E3';
     destruct (lexchar_inv C _ _ _ E3') as ([Q|(_ & Q & _)] & _ & _ & _ & _ & X3); change (pending (start_token s2)) with (pending s2) in Q; rewrite P in Q; [|discriminate];
     injection Q as <- _; destruct (Z.eqb_spec d SNEK_EOF) as [Ed|Ed]; [injection E3 as <- <-; auto|];
     unfold add_token in E3; rewrite X3 in E3; cbn in E3; injection E3 as <- <-; auto).
  all: assert (So : sound C s s3) by (eapply sound_trans; [exact So1|]; eapply sound_trans; [exact So2|]; eapply sound_trans; [exact (sound_text C s2 [])| exact So3]).
  all: cbn [start_token set_text lx_current lx_indent lx_midline lx_exdent lx_ignore] in K1, K2, K3, K4, K5.
  all: destruct (lex_switch C _ c s3) as [[a s4]|] eqn:E4; [|discriminate]; pose proof (switch_switched C _ _ _ _ _ E4) as [W1 W2 W3 W4 W5 W6 W7 W8 W9].
  all: assert (I4 : inv s4) by (split; [rewrite W4, K4, X2; discriminate | rewrite W3, K2, N2; exact (iv_indent _ I1)]).
  all: destruct a as [t4| |].
  1, 4, 7, 10: (injection E as <- <-; split;
    [ exact (sound_trans _ _ _ _ So W1) | exact I4 | intros i ->; elim (proj1 (W9 i) eq_refl) | intros e ->; elim (proj2 (W9 e) eq_refl)
    | intros _ _; split; congruence
    | intros ->; destruct (W7 eq_refl) as (-> & Q1 & Q2); split; [rewrite W5; reflexivity | congruence]
    | intros -> L; destruct (Hc (Hd L)) as (Q & _); specialize (Q (W8 eq_refl)); destruct (L2 L); lia
    | intros _ _ L; rewrite W3, K2; exact (L2 L) ]).
  1, 3: discriminate.
  3, 5: (assert (NL : ~ line_end s) by (intros L; destruct (Hc (Hd L)) as (Q1 & Q2 & Q3);
      assert (Q4 : lx_ignore s3 = 0) by (destruct L as [L|[_ L]]; [destruct (iv_exdent _ I L); congruence | congruence]);
      destruct (W6 eq_refl) as (_ & [Q|[Q|[_ Q]]]); [contradiction | contradiction | congruence]);
    destruct (IH _ _ _ I4 E) as [R1' R2' R3' R4' R5' R6' R7' R8'];
    assert (Hcur : lx_current s4 = lx_current s) by congruence; rewrite Hcur in *;
    split; [exact (sound_trans _ _ _ _ So (sound_trans _ _ _ _ W1 R1')) | assumption | assumption | assumption | assumption | assumption
           | intros; contradiction | intros; contradiction ]).
  all: pose proof (rest_fine C _ _ _ _ _ E) as F5; pose proof (fine_sound C 0 0 _ _ F5 ltac:(lia)) as So5; destruct F5 as [[(J1 & J2 & J3 & J4) J5] _ _];
    destruct (rest_token _ _ _ _ _ E) as (T1 & T2 & T3 & T4); split;
    [ exact (sound_trans _ _ _ _ So (sound_trans _ _ _ _ W1 So5))
    | split; [rewrite J4, W4, K4, X2; discriminate | rewrite J2, W3, K2, N2; exact (iv_indent _ I1)]
    | intros i Hi; elim (T3 i Hi) | intros e He; elim (T4 e He) | intros _ _; split; congruence
    | intros Ht; elim (T1 Ht) | intros Ht; elim (T2 Ht) | intros _ _ L; rewrite J2, W3, K2; exact (L2 L) ].
Qed.

(** ** Blocks *)
Lemma descends_nonneg : forall st i, descends i st -> 0 <= i.
Proof. induction st as [|j st IH]; intros i H; cbn in H; [lia|]. destruct H as [H1 H2]. specialize (IH j H2). lia. Qed.

Record block_inv (ts : list token) (st : list Z) (s : lex) : Prop := {
  bi_inv : inv s;
  bi_safe : safe 0 s;
  bi_count : opens ts = (closes ts + length st)%nat;
  bi_stack : descends (lx_current s) st;
  bi_exdent : lx_exdent s = true -> lx_indent s <= lx_current s }.

Lemma blocks_inv : forall input line ts st s, blocks C (lex_start input line) ts st s ->
  block_inv ts st s /\ lineval C s = lineval C (lex_start input line) /\
  match ts with
  | [] => line_end s
  | TNl :: _ => line_end s
  | TExdent e :: _ => line_end s /\ lx_indent s = e
  | _ => True
  end.
Proof.
  intros input line ts st s B. induction B as [|ts st s fuel t s' B (I & L & H) E N1 N2|ts st s fuel i s' B (I & L & H) E|ts st s fuel e i s' B (I & L & H) E Hle].
  - split; [|split; [reflexivity | right; split; reflexivity]]. split; [split; [discriminate | cbn; lia] | split; [cbn; lia | reflexivity] | reflexivity | reflexivity | discriminate].
  - destruct I as [I1 I2 I3 I4 I5]. destruct (lex_result _ _ _ _ I1 E) as [R1 R2 R3 R4 R5 R6 R7 R8].
    destruct (R5 N1 N2) as [Hc Hx]. split; [|split; [rewrite (so_line _ _ _ R1); exact L|]].
    + split; [exact R2 | exact (so_safe _ _ _ R1 I2) | | rewrite Hc; exact I4 | congruence].
      unfold opens, closes in *. destruct t; try exact I3; [elim (N1 i eq_refl) | elim (N2 i eq_refl)].
    + destruct t; try exact Logic.I; [right; exact (R6 eq_refl) | elim (N2 i eq_refl)].
  - destruct I as [I1 I2 I3 I4 I5]. destruct (lex_result _ _ _ _ I1 E) as [R1 R2 R3 R4 R5 R6 R7 R8].
    destruct (R3 i eq_refl) as (-> & Hlt & Hx). split; [|split; [rewrite (so_line _ _ _ R1); exact L | exact Logic.I]].
    split; [exact R2 | exact (so_safe _ _ _ R1 I2) | | split; assumption | congruence].
    unfold opens, closes in *. cbn [filter length] in *. lia.
  - destruct I as [I1 I2 I3 I4 I5]. destruct (lex_result _ _ _ _ I1 E) as [R1 R2 R3 R4 R5 R6 R7 R8].
    destruct (R4 e eq_refl) as (Hc & He & Hlt & Hx). split; [|split; [rewrite <- L; exact (so_line _ _ _ R1)|]].
    + split; [split; [exact (iv_exdent _ R2) | exact (iv_indent _ R2)] | exact (so_safe _ _ _ R1 I2) | | exact (proj2 I4) | cbn; lia].
      unfold opens, closes in *. cbn [filter length] in *. lia.
    + split; [left; exact Hx | exact He].
Qed.

Lemma blocks_end : forall input line ts st s, blocks C (lex_start input line) (TEnd :: ts) st s ->
  (ts = [] \/ (exists ts', ts = TNl :: ts') \/ (exists e ts', ts = TExdent e :: ts')) -> st = [] /\ opens ts = closes ts.
Proof.
  intros input line ts st s B Ht. inversion B as [|? ? s1 fuel ? ? B1 E N1 N2| |]; subst.
  destruct (blocks_inv _ _ _ _ _ B1) as ([I1 I2 I3 I4 I5] & _ & H).
  assert (L : line_end s1) by (destruct Ht as [-> | [[ts' ->] | (e & ts' & ->)]]; [exact H | exact H | exact (proj1 H)]).
  pose proof (rs_end _ _ _ (lex_result _ _ _ _ I1 E) eq_refl L) as Hz.
  destruct st as [|j st]; [split; [reflexivity | cbn in I3; lia]|].
  cbn in I4. destruct I4 as [H1 H2]. pose proof (descends_nonneg _ _ H2). lia.
Qed.

Lemma blocks_first : forall input line ts st s t, blocks C (lex_start input line) (t :: ts) st s ->
  (forall i, t <> TIndent i) -> (forall e, t <> TExdent e) ->
  (forall e ts', ts = TExdent e :: ts' -> lx_current s = e) /\
  (forall ts', ts = TNl :: ts' -> lx_current s = lx_indent s).
Proof.
  intros input line ts st s t B N1 N2. inversion B as [|? ? s1 fuel ? ? B1 E M1 M2|? ? s1 fuel i ? B1 E|? ? s1 fuel e i s2 B1 E Hle]; subst;
    [|elim (N1 i eq_refl) | elim (N2 e eq_refl)].
  destruct (blocks_inv _ _ _ _ _ B1) as ([I1 I2 I3 I4 I5] & _ & H). destruct (lex_result _ _ _ _ I1 E) as [R1 R2 R3 R4 R5 R6 R7 R8].
  destruct (R5 N1 N2) as [Hc Hx]. split.
  - intros e ts' ->. destruct H as [L He]. assert (Xt : lx_exdent s1 = true).
    { inversion B1 as [|? ? ? ? ? ? ? ? ? Q| |? ? s0 fuel0 ? ? s0' B0 E0 Hle0]; subst; [elim (Q _ eq_refl)|].
      destruct (blocks_inv _ _ _ _ _ B0) as ([I0 _ _ _ _] & _). exact (proj2 (proj2 (proj2 (rs_exdent _ _ _ (lex_result _ _ _ _ I0 E0) _ eq_refl)))). }
    destruct (R8 N1 N2 L) as (Q1 & Q2 & Q3). specialize (I5 Xt). specialize (Q2 Xt). rewrite Hc. lia.
  - intros ts' ->. destruct (R8 N1 N2 H) as (Q1 & Q2 & Q3). rewrite Hc.
    destruct (lx_exdent s1) eqn:Xt; [|rewrite Q3; reflexivity].
    destruct H as [H|[H _]]; [|destruct (iv_exdent _ I1 Xt) as (_ & M & _); congruence]. specialize (I5 eq_refl). rewrite (Q2 eq_refl). specialize (Q2 eq_refl). lia.
Qed.
End P.
