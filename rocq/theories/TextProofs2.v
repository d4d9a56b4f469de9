(** The lexer gives the tokens of a text. *)
From Coq Require Import ZArith Bool List Ascii String Lia.
From Verif Require Import Base PolyModel LexModel LexSpec LexProofs LexProofs2 LexProofs3 LexProofs4 LexProofs5 LexProofs6 LexProofs8 LexProofs9 GramModel TextSpec TextProofs.
Local Notation next := LexProofs.next.
Import ListNotations.
Local Open Scope Z_scope.
Notation length := List.length (only parsing).

(** ** Spaces and lines *)
Lemma spaces_inj a b r r' : spaces a ++ r = spaces b ++ r' -> not_next is_space r -> not_next is_space r' -> a = b /\ r = r'.
Proof.
  revert b. induction a as [|a IH]; intros [|b] E N N'; cbn [spaces repeat app] in E.
  - auto.
  - exfalso. exact (N _ _ E eq_refl).
  - exfalso. symmetry in E. exact (N' _ _ E eq_refl).
  - injection E as E. destruct (IH b E N N') as [-> ->]. auto.
Qed.
Lemma newlines_app a b : newlines (a ++ b) = newlines a + newlines b.
Proof. unfold newlines. rewrite count_occ_app. lia. Qed.
Lemma newlines_spaces k : newlines (spaces k) = 0.
Proof. induction k as [|k IH]; [reflexivity|]. change (spaces (Datatypes.S k)) with (ch " " :: spaces k). rewrite newlines_cons, IH. reflexivity. Qed.
Lemma newlines_none c : ~ In NL c -> newlines c = 0.
Proof. intros H. unfold newlines. rewrite (proj1 (count_occ_not_In Z.eq_dec c NL) H). reflexivity. Qed.
Lemma newlines_zeros k : newlines (repeat SNEK_EOF k) = 0.
Proof. induction k as [|k IH]; [reflexivity|]. cbn [repeat]. rewrite newlines_cons, IH. reflexivity. Qed.
Lemma ahead_newlines s t : ahead s t -> newlines (pending s) = newlines t.
Proof. intros [k H]. unfold pending. rewrite H, newlines_app, newlines_zeros. lia. Qed.
Lemma u_of_cancel w a b k : u_of w (a + k) = u_of w (b + k) -> u_of w a = u_of w b.
Proof.
  intros H. replace a with (a + k + - k) by lia. replace b with (b + k + - k) by lia.
  rewrite <- (u_of_add w (a + k) (- k)), <- (u_of_add w (b + k) (- k)), H. reflexivity.
Qed.
Lemma text_tail a b : is_text (a ++ b) -> is_text b.
Proof. intros H. apply text_app in H. apply H. Qed.

Section P.
Variable C : lexcfg.
Hypothesis file : lc_interactive C = false.
Hypothesis running : lc_abort C = false.
Hypothesis room : lc_alloc C = true.
Let W := lc_width C.

Definition on (s : lex) (n : Z) (t : list Z) : Prop := lineval C s = u_of W (n + newlines t).
Lemma on_line s n t : ahead s t -> on s n t -> u_of W (lx_line s) = u_of W n.
Proof. intros A H. unfold on, lineval in H. rewrite (ahead_newlines _ _ A) in H. exact (u_of_cancel _ _ _ _ H). Qed.

(** ** Going on elsewhere *)
Definition leads (s s' : lex) : Prop := forall f r, snek_lex C f s' = Some r -> exists f', snek_lex C f' s = Some r.
Lemma stream_leads st s s' its : leads s s' -> stream C st s' its -> stream C st s its.
Proof.
  intros L H. destruct H as [st s' fuel s2 o E|st s' fuel t s2 o its E N1 N2 N3 R|st s' fuel i s2 o its E R|st s' fuel e i s2 o its E Hle R];
    destruct (L _ _ E) as [f' E']; [eapply sm_end|eapply sm_token|eapply sm_open|eapply sm_close]; eassumption.
Qed.
Lemma leads_trans a b c : leads a b -> leads b c -> leads a c.
Proof. intros H1 H2 f r E. destruct (H2 _ _ E) as [f1 E1]. exact (H1 _ _ E1). Qed.

Lemma fine_start s : fine C 0 0 s (start_token s).
Proof. apply fine_text. Qed.
Lemma step_fine : forall fuel s t, is_text t -> ahead s t -> mid s ->
  exists s1, ahead s1 (tl t) /\ fine C 0 0 s s1 /\
  snek_lex C fuel s =
    match lex_switch C fuel (next t) s1 with
    | None => None
    | Some (AToken k, s) => Some (k, s)
    | Some (AContinue, s) => match fuel with O => None | Datatypes.S fuel' => snek_lex C fuel' s end
    | Some (AFall, s) => lex_rest C fuel (next t) s
    end.
Proof.
  intros fuel s t T A [M X].
  destruct (lextoken_next C (start_token s) t T (ahead_text s t [] A)) as (s1 & E & A1 & K1 & X1); [cbn; lia|].
  exists s1. split; [exact A1|]. split.
  { eapply fine_trans; [apply fine_start|]. eapply fine_weak; [eapply lextoken_fine; [exact E|lia]|lia]. }
  rewrite snek_lex_step. unfold line_start. rewrite M. unfold exdents. rewrite X. cbn [andb]. rewrite E. reflexivity.
Qed.
Lemma fine_mid s s' : fine C 0 0 s s' -> mid s -> mid s'.
Proof. intros [K _ _]. exact (mid_kept _ _ K). Qed.
Lemma fine_on s s' n t : fine C 0 0 s s' -> on s n t -> on s' n t.
Proof. intros [_ _ L] H. unfold on in *. congruence. Qed.
Lemma skip_fine : forall j s t, is_text t -> ahead s (spaces j ++ t) -> mid s ->
  exists s', ahead s' t /\ fine C 0 0 s s' /\ leads s s'.
Proof.
  induction j as [|j IH]; intros s t T A M.
  - exists s. split; [exact A|]. split; [apply fine_refl|]. intros f r E. eauto.
  - assert (T' : is_text (spaces (Datatypes.S j) ++ t)) by (apply text_app; split; [apply spaces_text|exact T]).
    assert (S1 : exists s1, ahead s1 (spaces j ++ t) /\ fine C 0 0 s s1 /\ leads s s1).
    { destruct (lextoken_next C (start_token s) _ T' (ahead_text s _ [] A)) as (s1 & E & A1 & K1 & X1); [cbn; lia|].
      exists s1. split; [exact A1|]. split.
      { eapply fine_trans; [apply fine_start|]. eapply fine_weak; [eapply lextoken_fine; [exact E|lia]|lia]. }
      intros f r Er. exists (Datatypes.S f). rewrite snek_lex_step. unfold line_start. destruct M as [M X]. rewrite M. unfold exdents. rewrite X. cbn [andb]. rewrite E. exact Er. }
    destruct S1 as (s1 & A1 & F1 & L1). destruct (IH s1 t T A1 (fine_mid _ _ F1 M)) as (s2 & A2 & F2 & L2).
    exists s2. split; [exact A2|]. split; [eapply fine_trans; eassumption|]. exact (leads_trans _ _ _ L1 L2).
Qed.

(** ** Comments *)
Lemma comment_runs : forall c r fuel s, ahead s (c ++ NL :: r) -> ~ In NL c -> (length c <= fuel)%nat ->
  exists s', comment C fuel s = Some s' /\ ahead s' r.
Proof.
  induction c as [|x c IH]; intros r fuel s A N L.
  - destruct (lexchar_next C s _ A) as (s1 & E1 & A1 & _). exists s1.
    destruct fuel; cbn [comment]; rewrite E1; cbn [next orb]; auto.
  - destruct (lexchar_next C s _ A) as (s1 & E1 & A1 & _). cbn [app next tl] in E1, A1. destruct fuel as [|fuel]; [cbn in L; lia|].
    cbn [comment]. rewrite E1. rewrite (proj2 (Z.eqb_neq x NL)) by (intros ->; apply N; left; reflexivity). rewrite running. cbn [orb].
    apply IH; [exact A1|intro H; apply N; right; exact H|cbn in L; lia].
Qed.
Lemma comment_leads : forall c r s, is_text (ch "#" :: c ++ NL :: r) -> ahead s (ch "#" :: c ++ NL :: r) -> mid s -> ~ In NL c ->
  exists s', ahead s' (NL :: r) /\ fine C 0 0 s s' /\ leads s s'.
Proof.
  intros c r s T A M N.
  destruct (lextoken_next C (start_token s) _ T (ahead_text s _ [] A)) as (s1 & E & A1 & K1 & X1); [cbn; lia|]. cbn [next tl] in E, A1.
  destruct (comment_runs c r (length c) s1 A1 N ltac:(lia)) as (s2 & E2 & A2).
  exists (unlexchar C NL s2). split; [apply unlexchar_ahead; exact A2|].
  assert (F1 : fine C 0 0 s s1) by (eapply fine_trans; [apply fine_start|]; eapply fine_weak; [eapply lextoken_fine; [exact E|lia]|lia]).
  split.
  { eapply fine_trans; [exact F1|]. eapply fine_trans; [eapply (comment_fine C _ 0); [exact E2|lia]|]. apply unlexchar_fine. }
  intros f x Ex. exists (Datatypes.S (f + length c)). rewrite snek_lex_step. unfold line_start. destruct M as [M X]. rewrite M. unfold exdents. rewrite X.
  cbn [andb]. rewrite E.
  assert (E3 : lex_switch C (Datatypes.S (f + length c)) (ch "#") s1 = Some (AContinue, unlexchar C NL s2)).
  { unfold lex_switch. cbn -[comment unlexchar].
    destruct (comment_runs c r (Datatypes.S (f + length c)) s1 A1 N ltac:(lia)) as (s2' & E2' & _).
    assert (Mono : forall a b s r, comment C a s = Some r -> (a <= b)%nat -> comment C b s = Some r).
    { intros a b s0 r0 H Hab. induction Hab; [exact H|]. apply comment_mono. assumption. }
    rewrite (Mono _ (Datatypes.S (f + length c)) _ _ E2) by lia. reflexivity. }
  rewrite E3. apply (lex_mono C f); [exact Ex|lia].
Qed.

(** ** One token *)
Lemma same_kept_mid s s' : same_block s s' -> mid s -> mid s'.
Proof. intros (_ & _ & H1 & H2) [M X]. split; congruence. Qed.
Lemma lexeme_runs : forall w u t k r s, lexeme w u t -> u = spaces k ++ r -> not_next is_space r -> is_text (w ++ u) -> ahead s (w ++ u) -> mid s ->
  exists fuel s' j, snek_lex C fuel s = Some (t, s') /\ ahead s' (spaces j ++ r) /\ same_block s s'.
Proof.
  intros w u t k r s H Eu N T A M. destruct H as [w u H1 H2 H3 H4 H5 H6|w u t H|ip fp ep u H1 H2 H3|q b v u H1 H2 H3 H4|k' r' H1 H2 H3 H4|k' u H1|k' r' H1 H2 H3 H4|k' u H1].
  - destruct (words C 0 w u (length w) s T A M H1 H2 H3 H4 H5 H6) as (s' & E & A' & B); [lia|]. subst u. eauto 6.
  - destruct (operators_run C 0 0 s (w ++ u) w t T A M H) as (s' & E & A' & B); [lia|].
    rewrite skipn_app, skipn_all, Nat.sub_diag in A'. subst u. eauto 6.
  - rewrite <- !app_assoc in T, A. destruct (numbers C 0 ip fp ep u (length (ip ++ fp ++ ep)) s T A M H1 H2 H3) as (s' & E & A' & B); [lia|]. subst u. eauto 6.
  - cbn [app] in T, A. rewrite <- app_assoc in T, A. cbn [app] in T, A. inversion T as [|? ? _ T2]; subst.
    destruct (strings C 0 q b v (spaces k ++ r) (length v) s H1 T2 A M H2 H3 H4 room) as (s' & E & A' & B); [lia|]. eauto 6.
  - destruct (spaces_inj _ _ _ _ Eu H2 N) as [-> ->].
    destruct (two_words C 0 k _ _ _ _ r (k + 3) s (or_introl (conj eq_refl (conj eq_refl (conj eq_refl eq_refl)))) (text_tail _ _ (text_tail _ _ T)) A M N)
      as (s' & t' & tk & E & A' & B & [(Q & -> & ->)|(Q & _)]); auto; try lia.
    { intros ->. exact H1. } { eauto 6. } exfalso. apply H4. exists t'. exact Q.
  - rewrite <- !app_assoc in T, A.
    destruct (two_words C 0 (Datatypes.S k') _ _ _ _ (chars "not" ++ u) (Datatypes.S k' + 3) s (or_introl (conj eq_refl (conj eq_refl (conj eq_refl eq_refl)))) (text_tail _ _ (text_tail _ _ T)) A M)
      as (s' & t' & tk & E & A' & B & [(Q & _)|(Q & ->)]); try lia.
    { intros c r0 E. cbn in E. injection E as <- <-. discriminate. } { discriminate. }
    { exfalso. apply Q. exists u. reflexivity. } apply app_inv_head in Q. subst t' u. eauto 6.
  - destruct (spaces_inj _ _ _ _ Eu H2 N) as [-> ->].
    destruct (two_words C 0 k _ _ _ _ r (k + 3) s (or_intror (conj eq_refl (conj eq_refl (conj eq_refl eq_refl)))) (text_tail _ _ (text_tail _ _ T)) A M N)
      as (s' & t' & tk & E & A' & B & [(Q & -> & ->)|(Q & _)]); auto; try lia.
    { intros ->. exact H1. } { eauto 6. } exfalso. apply H4. exists t'. exact Q.
  - rewrite <- !app_assoc in T, A.
    destruct (two_words C 0 (Datatypes.S k') _ _ _ _ (chars "in" ++ u) (Datatypes.S k' + 3) s (or_intror (conj eq_refl (conj eq_refl (conj eq_refl eq_refl)))) (text_tail _ _ (text_tail _ _ T)) A M)
      as (s' & t' & tk & E & A' & B & [(Q & _)|(Q & ->)]); try lia.
    { intros c r0 E. cbn in E. injection E as <- <-. discriminate. } { discriminate. }
    { exfalso. apply Q. exists u. reflexivity. } apply app_inv_head in Q. subst t' u. eauto 6.
Qed.
Definition ordinary (t : token) : Prop := t <> TEnd /\ (forall i, t <> TIndent i) /\ (forall i, t <> TExdent i) /\ t <> TNl.
Lemma lexeme_ordinary w u t : lexeme w u t -> ordinary t.
Proof.
  intros H. destruct H as [w u H1 H2 H3 H4 H5 H6|w u t (H & _)| | | | | |]; try (repeat split; discriminate).
  - unfold word_token. destruct (is_keyword w); [destruct (text_eqb w _)|]; repeat split; discriminate.
  - cbn in H. repeat (destruct H as [H|H]; [injection H as _ <-; repeat split; discriminate|]). destruct H.
Qed.
Lemma nests_nest d t d' : nests d t d' -> 0 <= d <= 255 -> nest t d = d' /\ 0 <= d' <= 255.
Proof.
  intros H Hd. destruct H as [t Q L|t Q L|t Q].
  - split; [|lia]. destruct Q as [-> |[-> | ->]]; cbn [nest]; unfold u8; apply Z.mod_small; lia.
  - split; [|lia]. destruct Q as [-> |[-> | ->]]; cbn [nest]; rewrite (proj2 (Z.eqb_neq d 0)) by lia; unfold u8; apply Z.mod_small; lia.
  - split; [|lia]. destruct t; try reflexivity; exfalso; apply Q; cbn; tauto.
Qed.

(** ** The start of a line *)
Lemma indent_any : forall k fuel i s t, ahead s (spaces k ++ t) -> not_next is_space t -> 0 <= i < 256 -> (k <= fuel)%nat ->
  exists s', indent_spaces C fuel i s = Some (next t, (i + Z.of_nat k) mod 256, s') /\ ahead s' (tl t).
Proof.
  induction k as [|k IH]; intros fuel i s t A N Hi Hf.
  - destruct (lexchar_next C s _ A) as (s1 & E1 & A1 & K1 & _). exists s1.
    assert (Q : next t <> ch " ") by (destruct t as [|c r]; [discriminate|]; exact (N c r eq_refl)).
    cbn [spaces repeat app] in E1. rewrite Z.add_0_r, Z.mod_small by lia.
    destruct fuel; cbn [indent_spaces]; rewrite E1, (proj2 (Z.eqb_neq _ _) Q); auto.
  - destruct (lexchar_next C s _ A) as (s1 & E1 & A1 & K1 & _). cbn [spaces repeat app tl] in A1. change (next (spaces (Datatypes.S k) ++ t)) with (ch " ") in E1.
    destruct fuel as [|fuel]; [lia|]. cbn [indent_spaces]. rewrite E1, Z.eqb_refl.
    destruct (IH fuel (u8 (i + 1)) s1 t A1 N) as (s' & E & A'); [unfold u8; apply Z.mod_pos_bound; lia|lia|].
    exists s'. rewrite E. split; [|exact A'].
    assert (Q : (u8 (i + 1) + Z.of_nat k) mod 256 = (i + Z.of_nat (Datatypes.S k)) mod 256) by (unfold u8; rewrite Zplus_mod_idemp_l; f_equal; lia).
    rewrite Q. reflexivity.
Qed.
Lemma find_leads s s1 : lx_midline s = false -> lx_midline s1 = false ->
  (exists f0, forall f x, (f0 <= f)%nat -> find_line C f s1 = Some x -> exists f', (f <= f')%nat /\ find_line C f' s = Some x) -> leads s s1.
Proof.
  intros M M1 (f0 & H) f r E.
  assert (E' : snek_lex C (f + f0) s1 = Some r) by (apply (lex_mono C f); [exact E|lia]).
  assert (FM : forall a b z y, find_line C a z = Some y -> (a <= b)%nat -> find_line C b z = Some y).
  { intros a b z y Q L. induction L; [exact Q|]. apply find_mono. assumption. }
  destruct (find_line C (f + f0) s1) as [x|] eqn:F.
  - destruct (H (f + f0)%nat x ltac:(lia) F) as (f' & L & F'). exists f'. pose proof (lex_mono C _ f' _ _ E' L) as E2.
    rewrite snek_lex_step in E2 |- *. unfold line_start in E2 |- *. rewrite M1 in E2. rewrite M. rewrite (FM _ _ _ _ F L) in E2. rewrite F'. exact E2.
  - rewrite snek_lex_step in E'. unfold line_start in E'. rewrite M1, F in E'. discriminate.
Qed.
Record fresh (d cur : Z) (s : lex) : Prop := {
  fr_inv : inv s; fr_mid : lx_midline s = false; fr_ex : lx_exdent s = false; fr_ignore : lx_ignore s = d; fr_cur : lx_current s = cur }.
Lemma fresh_fine d cur s s1 i : fresh d cur s -> fine C 0 0 s s1 -> 0 <= i -> fresh d cur (set_indents (lx_current s1) i s1).
Proof.
  intros [I M X G Cu] [[(K1 & K2 & K3 & K4) K5] _ _] Hi. split; cbn; try congruence. split; cbn; [congruence|exact Hi].
Qed.
Lemma blank_leads k r s d cur n : ahead s (spaces k ++ NL :: r) -> fresh d cur s -> on s n (spaces k ++ NL :: r) ->
  exists s', ahead s' r /\ fresh d cur s' /\ on s' (n + 1) r /\ leads s s'.
Proof.
  intros A F O. assert (N : not_next is_space (NL :: r)) by (intros c u Q; injection Q as <- <-; discriminate).
  destruct (indent_any k k 0 s _ A N ltac:(lia) ltac:(lia)) as (s1 & E & A1). cbn [next tl] in E, A1. rewrite Z.add_0_l in E.
  destruct (indent_spaces_facts C _ _ _ _ _ _ E ltac:(lia)) as (F1 & Hi & _). assert (F0 : fine C 0 0 s s1) by (eapply fine_weak; [exact F1|lia]).
  exists (set_indents (lx_current s1) (Z.of_nat k mod 256) s1).
  split; [exact A1|]. split; [exact (fresh_fine _ _ _ _ _ F F0 Hi)|]. split.
  { unfold on in *. change (lineval C s1 = u_of W (n + 1 + newlines r)). rewrite (fn_line _ _ _ _ _ F0), O, newlines_app, newlines_spaces, newlines_cons. change (NL =? NL) with true. cbv iota. f_equal. lia. }
  assert (IM : forall f, (k <= f)%nat -> indent_spaces C f 0 s = Some (NL, Z.of_nat k mod 256, s1)).
  { intros f L. induction L; [exact E|]. apply indent_mono. assumption. }
  apply find_leads; [exact (fr_mid _ _ _ F)|exact (fr_mid _ _ _ (fresh_fine _ _ _ _ (Z.of_nat k mod 256) F F0 Hi))|].
  exists k. intros f x L Ex. exists (Datatypes.S f). split; [lia|]. rewrite find_line_step, (IM (Datatypes.S f) ltac:(lia)). cbv zeta.
  change (NL =? SNEK_EOF) with false. cbv iota. rewrite file. change (NL =? NL) with true. cbn [negb andb]. exact Ex.
Qed.
Lemma comment_line_leads k c r s d cur n : ahead s (spaces k ++ ch "#" :: c ++ NL :: r) -> ~ In NL c -> fresh d cur s -> on s n (spaces k ++ ch "#" :: c ++ NL :: r) ->
  exists s', ahead s' r /\ fresh d cur s' /\ on s' (n + 1) r /\ leads s s'.
Proof.
  intros A Nc F O. assert (N : not_next is_space (ch "#" :: c ++ NL :: r)) by (intros x u Q; injection Q as <- <-; discriminate).
  destruct (indent_any k k 0 s _ A N ltac:(lia) ltac:(lia)) as (s1 & E & A1). cbn [next tl] in E, A1. rewrite Z.add_0_l in E.
  destruct (indent_spaces_facts C _ _ _ _ _ _ E ltac:(lia)) as (F1 & Hi & _). assert (F0 : fine C 0 0 s s1) by (eapply fine_weak; [exact F1|lia]).
  set (s2 := set_indents (lx_current s1) (Z.of_nat k mod 256) s1).
  destruct (comment_runs c r (length c) s2 A1 Nc ltac:(lia)) as (s3 & E3 & A3).
  assert (F3 : fine C 0 0 s2 s3) by (eapply fine_weak; [eapply (comment_fine C _ 0); [exact E3|lia]|lia]).
  pose proof (fresh_fine _ _ _ _ _ F F0 Hi) as Fr2. fold s2 in Fr2.
  assert (Fr3 : fresh d cur s3).
  { destruct Fr2 as [I M X G Cu], F3 as [[(K1 & K2 & K3 & K4) K5] _ _]. split; try congruence. split; [congruence|]. rewrite K2. exact (iv_indent _ I). }
  exists s3. split; [exact A3|]. split; [exact Fr3|]. split.
  { unfold on in *. rewrite (fn_line _ _ _ _ _ F3). change (lineval C s2) with (lineval C s1). rewrite (fn_line _ _ _ _ _ F0), O, newlines_app, newlines_spaces, newlines_cons, newlines_app, newlines_cons, (newlines_none c Nc).
    change (NL =? NL) with true. change (ch "#" =? NL) with false. cbv iota. f_equal. lia. }
  assert (IM : forall f, (k <= f)%nat -> indent_spaces C f 0 s = Some (ch "#", Z.of_nat k mod 256, s1)).
  { intros f L. induction L; [exact E|]. apply indent_mono. assumption. }
  assert (CM : forall f, (length c <= f)%nat -> comment C f s2 = Some s3).
  { intros f L. induction L; [exact E3|]. apply comment_mono. assumption. }
  apply find_leads; [exact (fr_mid _ _ _ F)|exact (fr_mid _ _ _ Fr3)|].
  exists (k + length c)%nat. intros f x L Ex. exists (Datatypes.S f). split; [lia|]. rewrite find_line_step, (IM (Datatypes.S f) ltac:(lia)). cbv zeta. fold s2.
  change (ch "#" =? SNEK_EOF) with false. change (ch "#" =? NL) with false. rewrite andb_false_r. change (ch "#" =? ch "#") with true. cbv iota.
  rewrite (CM (Datatypes.S f)) by lia. exact Ex.
Qed.
Lemma line_found k t s d cur n : ahead s (spaces k ++ t) -> t = [] \/ (exists c r, t = c :: r /\ starts_line c) -> fresh d cur s -> on s n (spaces k ++ t) ->
  exists s3, ahead s3 t /\ lx_current s3 = cur /\ lx_indent s3 = (match t with [] => 0 | _ => Z.of_nat k mod 256 end) /\ lx_midline s3 = true /\
    lx_exdent s3 = false /\ lx_ignore s3 = d /\ on s3 n t /\ inv s3 /\
    exists f0, forall f, (f0 <= f)%nat -> line_start C f s =
      (if d =? 0 then if cur <? lx_indent s3 then Some (Some (TIndent cur), set_indents (lx_indent s3) (lx_indent s3) s3)
       else if lx_indent s3 <? cur then Some (None, set_flags d true true s3) else Some (None, s3)
       else Some (None, s3)).
Proof.
  intros A Ht F O.
  assert (N : not_next is_space t). { intros c u ->. destruct Ht as [Q|(c' & r & Q & (_ & Q2 & _))]; [discriminate|]. injection Q as <- <-. exact Q2. }
  destruct (indent_any k k 0 s _ A N ltac:(lia) ltac:(lia)) as (s1 & E & A1). rewrite Z.add_0_l in E.
  destruct (indent_spaces_facts C _ _ _ _ _ _ E ltac:(lia)) as (F1 & Hi & _). assert (F0 : fine C 0 0 s s1) by (eapply fine_weak; [exact F1|lia]).
  set (i := match t with [] => 0 | _ => Z.of_nat k mod 256 end).
  assert (Hi' : 0 <= i) by (unfold i; destruct t; [lia|exact Hi]).
  set (s2 := set_indents (lx_current s1) i s1).
  pose proof (fresh_fine _ _ _ _ _ F F0 Hi') as Fr2. fold s2 in Fr2. destruct Fr2 as [I2 M2 X2 G2 C2].
  set (s3 := unlexchar C (next t) (set_flags (lx_ignore s2) true (lx_exdent s2) s2)).
  assert (IM : forall f, (k <= f)%nat -> indent_spaces C f 0 s = Some (next t, Z.of_nat k mod 256, s1)).
  { intros f L. induction L; [exact E|]. apply indent_mono. assumption. }
  assert (FL : forall f, (k <= f)%nat -> find_line C f s = Some (next t, s2)).
  { intros f L. rewrite find_line_step, (IM f L). cbv zeta. destruct Ht as [-> |(c & r & -> & (Q0 & Q1 & Q2 & Q3))]; cbn [next].
    - change (SNEK_EOF =? SNEK_EOF) with true. reflexivity.
    - unfold SNEK_EOF. rewrite (proj2 (Z.eqb_neq c 0)) by lia. rewrite (proj2 (Z.eqb_neq c NL) Q3), andb_false_r, (proj2 (Z.eqb_neq c (ch "#")) Q2). reflexivity. }
  exists s3. split; [apply (unlexchar_next C); exact A1|]. split; [exact C2|]. split; [reflexivity|]. split; [reflexivity|]. split; [exact X2|]. split; [exact G2|].
  split. { unfold on in *. unfold s3. rewrite unlexchar_lineval. change (lineval C s1 = u_of W (n + newlines t)). rewrite (fn_line _ _ _ _ _ F0), O, newlines_app, newlines_spaces. f_equal. }
  split. { split; [intros Q; exfalso; change (lx_exdent s3) with (lx_exdent s2) in Q; congruence|exact Hi']. }
  exists k. intros f L. unfold line_start. rewrite (fr_mid _ _ _ F), (FL f L). cbv zeta. fold s3.
  change (lx_ignore s3) with (lx_ignore s2). change (lx_current s3) with (lx_current s2). rewrite G2, C2. change (lx_midline s3) with true. reflexivity.
Qed.
Lemma start_leads s s' f0 : (forall f, (f0 <= f)%nat -> line_start C f s = Some (None, s')) -> lx_midline s' = true -> leads s s'.
Proof.
  intros H M f r E. exists (f + f0)%nat. assert (E' : snek_lex C (f + f0) s' = Some r) by (apply (lex_mono C f); [exact E|lia]).
  rewrite snek_lex_step in E' |- *. rewrite (H (f + f0)%nat) by lia. unfold line_start in E'. rewrite M in E'. exact E'.
Qed.

(** ** The whole text *)
Definition at_place (p : place) (d cur n : Z) (t : list Z) (s : lex) : Prop :=
  match p with
  | InLine => inv s /\ lx_ignore s = d /\ lx_current s = cur /\ mid s /\ exists j, ahead s (spaces j ++ t) /\ on s n t
  | AtLine => fresh d cur s /\ ahead s t /\ on s n t
  | Closing k => inv s /\ lx_ignore s = 0 /\ lx_current s = cur /\ lx_midline s = true /\ lx_indent s = k /\ (lx_exdent s = true \/ (lx_exdent s = false /\ cur = k)) /\
      ahead s t /\ on s n t
  end.
Theorem tokens_stream p d st cur n t its : tokens W p d st cur n t its -> forall s, is_text t -> 0 <= d <= 255 -> at_place p d cur n t s -> stream C st s its.
Proof.
  induction 1 as [d d' st i n w k r t o its Lx N Ns Tk IH|d st i n c r its Nc Tk IH|st i n r o its Tk IH|d st i n r its Hd Tk IH
    |d st i n k r its Tk IH|d st i n k c r its Nc Tk IH|d st i n k c r its Hd Sl Tk IH|st i n k c r its Sl Hk Hi Tk IH|st i n k c r o its Sl Hk Tk IH
    |st i n k c r its Sl Hk Tk IH|st i j n k t o its H1 H2 Tk IH|st i n t its Tk IH|st i n k its Hi Tk IH|st i n o]; intros s T D P.
  - destruct P as (I & G & Cu & M & j & A & O). destruct (skip_fine j s _ T A M) as (s1 & A1 & F1 & L1).
    apply (stream_leads _ _ _ _ L1). pose proof (fine_mid _ _ F1 M) as M1. pose proof (fine_on _ _ _ _ F1 O) as O1.
    destruct F1 as [[(K1 & K2 & K3 & K4) K5] _ _].
    assert (I1 : inv s1) by (split; [rewrite (proj2 M1); discriminate|rewrite K2; exact (iv_indent _ I)]).
    destruct (lexeme_runs _ _ _ k r s1 Lx eq_refl N T A1 M1) as (fuel & s2 & j2 & E & A2 & B2).
    destruct (lexeme_ordinary _ _ _ Lx) as (Q1 & Q2 & Q3 & Q4). pose proof (lex_result C _ _ _ _ I1 E) as R. pose proof (lex_nested C _ _ _ _ I1 E) as G2.
    destruct (nests_nest _ _ _ Ns D) as [Nd D']. pose proof (rs_other _ _ _ _ R Q2 Q3) as [C2 X2].
    assert (O2 : on s2 (n + newlines w) r).
    { unfold on in *. rewrite (so_line _ _ _ (rs_sound _ _ _ _ R)), O1. rewrite !newlines_app, newlines_spaces. f_equal. lia. }
    assert (A3 : on s2 (n + newlines w) (spaces j2 ++ r)) by (unfold on in *; rewrite newlines_app, newlines_spaces; exact O2).
    rewrite <- (on_line _ _ _ A2 A3). apply (sm_token C st s1 fuel t s2 o its E Q1 Q2 Q3). apply IH; [exact (text_tail _ _ (text_tail _ _ T))|exact D'|].
    split; [exact (rs_inv _ _ _ _ R)|]. split; [congruence|]. split; [congruence|]. split; [exact (same_kept_mid _ _ B2 M1)|]. eauto.
  - destruct P as (I & G & Cu & M & j & A & O). destruct (skip_fine j s _ T A M) as (s1 & A1 & F1 & L1).
    pose proof (fine_mid _ _ F1 M) as M1. destruct (comment_leads c r s1 T A1 M1 Nc) as (s2 & A2 & F2 & L2).
    apply (stream_leads _ _ _ _ (leads_trans _ _ _ L1 L2)). pose proof (fine_trans _ _ _ _ _ _ _ F1 F2) as F. pose proof (fine_mid _ _ F M) as M2. pose proof (fine_on _ _ _ _ F O) as O2.
    destruct F as [[(K1 & K2 & K3 & K4) K5] _ _].
    apply IH; [exact (text_tail (ch "#" :: c) _ T)|exact D|]. split; [split; [rewrite (proj2 M2); discriminate|rewrite K2; exact (iv_indent _ I)]|].
    split; [congruence|]. split; [congruence|]. split; [exact M2|]. exists 0%nat. split; [exact A2|].
    unfold on in *. rewrite O2. rewrite newlines_cons, newlines_app, (newlines_none c Nc). change (ch "#" =? NL) with false. cbv iota. f_equal.
  - destruct P as (I & G & Cu & M & j & A & O). destruct (skip_fine j s _ T A M) as (s1 & A1 & F1 & L1).
    apply (stream_leads _ _ _ _ L1). pose proof (fine_mid _ _ F1 M) as M1. pose proof (fine_on _ _ _ _ F1 O) as O1.
    destruct F1 as [[(K1 & K2 & K3 & K4) K5] _ _].
    assert (I1 : inv s1) by (split; [rewrite (proj2 M1); discriminate|rewrite K2; exact (iv_indent _ I)]).
    destruct (step_fine 0 s1 _ T A1 M1) as (s2 & A2 & F2 & E). cbn [next tl] in E, A2. unfold lex_switch in E.
    change (NL =? SNEK_EOF) with false in E. change (NL =? NL) with true in E. cbv iota zeta in E. cbn [lx_ignore set_flags] in E.
    assert (G2 : lx_ignore s2 = 0) by (destruct F2 as [[_ K] _ _]; congruence). rewrite G2 in E. change (0 =? 0) with true in E. cbn [tok] in E.
    set (s3 := set_flags 0 false (lx_exdent s2) s2) in E.
    pose proof (lex_result C _ _ _ _ I1 E) as R. pose proof (rs_other _ _ _ _ R ltac:(discriminate) ltac:(discriminate)) as [C2 X2]. destruct (rs_nl _ _ _ _ R eq_refl) as [M3 G3].
    assert (O3 : on s3 (n + 1) r).
    { unfold on in *. rewrite (so_line _ _ _ (rs_sound _ _ _ _ R)), O1. rewrite newlines_cons. change (NL =? NL) with true. cbv iota. f_equal. lia. }
    rewrite <- (on_line s3 _ _ A2 O3). apply (sm_token C st s1 0 TNl s3 o its E); try discriminate. apply IH; [exact (text_tail [NL] _ T)|lia|].
    split; [|split; [exact A2|exact O3]]. split; [exact (rs_inv _ _ _ _ R)|exact M3|exact X2|exact G3|congruence].
  - destruct P as (I & G & Cu & M & j & A & O). destruct (skip_fine j s _ T A M) as (s1 & A1 & F1 & L1).
    pose proof (fine_mid _ _ F1 M) as M1. pose proof (fine_on _ _ _ _ F1 O) as O1.
    assert (L2 : exists s2, ahead s2 r /\ fine C 0 0 s1 s2 /\ leads s1 (set_flags (lx_ignore s2) false (lx_exdent s2) s2)).
    { destruct (lextoken_next C (start_token s1) _ T (ahead_text s1 _ [] A1)) as (s2 & E & A2 & _ & _); [cbn; lia|]. cbn [next tl] in E, A2.
      assert (F2 : fine C 0 0 s1 s2) by (eapply fine_trans; [apply fine_start|]; eapply fine_weak; [eapply lextoken_fine; [exact E|lia]|lia]).
      exists s2. split; [exact A2|]. split; [exact F2|]. intros f x Ex. exists (Datatypes.S f). rewrite snek_lex_step. unfold line_start. rewrite (proj1 M1). unfold exdents. rewrite (proj2 M1).
      cbn [andb]. rewrite E. unfold lex_switch. change (NL =? SNEK_EOF) with false. change (NL =? NL) with true. cbv iota zeta. cbn [lx_ignore set_flags].
      assert (G2 : lx_ignore s2 = d) by (destruct F1 as [[_ K] _ _], F2 as [[_ K'] _ _]; congruence). rewrite G2 in *. rewrite (proj2 (Z.eqb_neq d 0)) by lia. exact Ex. }
    destruct L2 as (s2 & A2 & F2 & L2). apply (stream_leads _ _ _ _ (leads_trans _ _ _ L1 L2)).
    pose proof (fine_trans _ _ _ _ _ _ _ F1 F2) as F. pose proof (fine_mid _ _ F M) as M2. pose proof (fine_on _ _ _ _ F O) as O2. destruct F as [[(K1 & K2 & K3 & K4) K5] _ _].
    apply IH; [exact (text_tail [NL] _ T)|exact D|].
    split; [|split; [exact A2|]].
    + split; cbn; try congruence; [|exact (proj2 M2)]. split; cbn; [rewrite (proj2 M2); discriminate|rewrite K2; exact (iv_indent _ I)].
    + unfold on in *. change (lineval C s2 = u_of W (n + 1 + newlines r)). rewrite O2. rewrite newlines_cons. change (NL =? NL) with true. cbv iota. f_equal. lia.
  - destruct P as (F & A & O). destruct (blank_leads _ _ _ _ _ _ A F O) as (s' & A' & F' & O' & L). apply (stream_leads _ _ _ _ L).
    apply IH; [exact (text_tail [NL] _ (text_tail _ _ T))|exact D|]. split; [exact F'|]. split; assumption.
  - destruct P as (F & A & O). destruct (comment_line_leads _ _ _ _ _ _ _ A Nc F O) as (s' & A' & F' & O' & L). apply (stream_leads _ _ _ _ L).
    apply IH; [|exact D|]. { apply (text_tail [NL]). apply (text_tail c). apply (text_tail [ch "#"]). exact (text_tail _ _ T). }
    split; [exact F'|]. split; assumption.
  - destruct P as (F & A & O). destruct (line_found k (c :: r) s d i n A ltac:(eauto) F O) as (s3 & A3 & C3 & N3 & M3 & X3 & G3 & O3 & I3 & f0 & E).
    rewrite (proj2 (Z.eqb_neq d 0)) in E by lia. apply (stream_leads _ _ _ _ (start_leads _ _ f0 E M3)).
    apply IH; [exact (text_tail _ _ T)|exact D|]. split; [exact I3|]. split; [exact G3|]. split; [exact C3|]. split; [split; assumption|]. exists 0%nat. split; assumption.
  - destruct P as (F & A & O). destruct (line_found k (c :: r) s 0 i n A ltac:(eauto) F O) as (s3 & A3 & C3 & N3 & M3 & X3 & G3 & O3 & I3 & f0 & E).
    rewrite Z.mod_small in N3 by lia. rewrite N3, Hk in E. rewrite Z.ltb_irrefl in E. change (0 =? 0) with true in E. cbv iota in E.
    apply (stream_leads _ _ _ _ (start_leads _ _ f0 E M3)).
    apply IH; [exact (text_tail _ _ T)|exact D|]. split; [exact I3|]. split; [exact G3|]. split; [exact C3|]. split; [split; assumption|]. exists 0%nat. split; assumption.
  - destruct P as (F & A & O). pose proof (fr_inv _ _ _ F) as I. destruct (line_found k (c :: r) s 0 i n A ltac:(eauto) F O) as (s3 & A3 & C3 & N3 & M3 & X3 & G3 & O3 & I3 & f0 & E).
    assert (I0 : 0 <= Z.of_nat k) by lia. rewrite Z.mod_small in N3 by lia. rewrite N3 in E. rewrite (proj2 (Z.ltb_lt _ _)) in E by lia. change (0 =? 0) with true in E. cbv iota in E.
    set (s4 := set_indents (Z.of_nat k) (Z.of_nat k) s3) in E.
    assert (E4 : snek_lex C f0 s = Some (TIndent i, s4)) by (rewrite snek_lex_step, (E f0) by lia; reflexivity).
    assert (A4 : ahead s4 (c :: r)) by exact A3. assert (O4 : on s4 n (c :: r)) by exact O3.
    rewrite <- (on_line s4 _ _ A4 O4). apply (sm_open C st s f0 i s4 o its E4). apply IH; [exact (text_tail _ _ T)|exact D|].
    split; [split; cbn; [congruence|lia]|]. split; [exact G3|]. split; [reflexivity|]. split; [split; assumption|]. exists 0%nat. split; assumption.
  - destruct P as (F & A & O). pose proof (fr_inv _ _ _ F) as I. destruct (line_found k (c :: r) s 0 i n A ltac:(eauto) F O) as (s3 & A3 & C3 & N3 & M3 & X3 & G3 & O3 & I3 & f0 & E).
    rewrite Z.mod_small in N3 by lia. rewrite N3 in E. rewrite (proj2 (Z.ltb_ge _ _)) in E by lia. rewrite (proj2 (Z.ltb_lt _ _)) in E by lia. change (0 =? 0) with true in E. cbv iota in E.
    set (s4 := set_flags 0 true true s3) in E. apply (stream_leads _ _ _ _ (start_leads _ _ f0 E eq_refl)).
    destruct (line_start_facts C _ _ _ _ I (E f0 (le_n _))) as (_ & I4 & _).
    apply IH; [exact (text_tail _ _ T)|exact D|]. split; [exact I4|]. split; [reflexivity|]. split; [exact C3|]. split; [reflexivity|]. split; [exact N3|]. split; [left; reflexivity|]. split; assumption.
  - destruct P as (I & G & Cu & M & Ni & X & A & O). assert (X' : lx_exdent s = true) by (destruct X as [X|[_ X]]; [exact X|lia]).
    assert (E : snek_lex C 0 s = Some (TExdent k, s)).
    { rewrite snek_lex_step. unfold line_start. rewrite M. unfold exdents. rewrite X', G, Ni, Cu. cbn [Z.eqb andb]. rewrite (proj2 (Z.ltb_lt _ _)) by lia. reflexivity. }
    rewrite <- (on_line s _ _ A O). apply (sm_close C st s 0 k j s o its E H2). apply IH; [exact T|exact D|].
    split; [|split; [exact G|split; [reflexivity|split; [exact M|split; [exact Ni|split; [left; exact X'|split; assumption]]]]]].
    destruct I as [I1 I2]. split; assumption.
  - destruct P as (I & G & Cu & M & Ni & X & A & O). destruct X as [X|[X _]].
    + set (s' := set_flags 0 true false s).
      assert (L : leads s s').
      { intros f x E. exists f. rewrite snek_lex_step in E |- *. unfold line_start in E |- *. rewrite M. change (lx_midline s') with true in E. cbv iota in E.
        unfold exdents in E |- *. change (lx_exdent s') with false in E. cbn [andb] in E. rewrite X, G, Ni, Cu, M. cbn [Z.eqb andb]. rewrite Z.ltb_irrefl. exact E. }
      apply (stream_leads _ _ _ _ L). apply IH; [exact T|exact D|]. split; [split; [discriminate|exact (iv_indent _ I)]|].
      split; [reflexivity|]. split; [exact Cu|]. split; [split; reflexivity|]. exists 0%nat. split; [exact A|exact O].
    + apply IH; [exact T|exact D|]. split; [exact I|]. split; [exact G|]. split; [exact Cu|]. split; [split; assumption|]. exists 0%nat. split; assumption.
  - destruct P as (F & A & O). pose proof (fr_inv _ _ _ F) as I. rewrite <- (app_nil_r (spaces k)) in A, O.
    destruct (line_found k [] s 0 i n A ltac:(auto) F O) as (s3 & A3 & C3 & N3 & M3 & X3 & G3 & O3 & I3 & f0 & E).
    rewrite N3 in E. rewrite (proj2 (Z.ltb_ge i 0)) in E by lia. change (0 =? 0) with true in E. cbv iota in E.
    destruct (Z.ltb_spec 0 i) as [Hp|Hp].
    + set (s4 := set_flags 0 true true s3) in E. apply (stream_leads _ _ _ _ (start_leads _ _ f0 E eq_refl)).
      destruct (line_start_facts C _ _ _ _ I (E f0 (le_n _))) as (_ & I4 & _).
      apply IH; [constructor|exact D|]. split; [exact I4|]. split; [reflexivity|]. split; [exact C3|]. split; [reflexivity|]. split; [exact N3|]. split; [left; reflexivity|]. split; assumption.
    + apply (stream_leads _ _ _ _ (start_leads _ _ f0 E M3)). apply IH; [constructor|exact D|].
      split; [exact I3|]. split; [exact G3|]. split; [exact C3|]. split; [exact M3|]. split; [exact N3|]. split; [right; split; [exact X3|lia]|]. split; assumption.
  - destruct P as (I & G & Cu & M & j & A & O). destruct (skip_fine j s _ T A M) as (s1 & A1 & F1 & L1).
    apply (stream_leads _ _ _ _ L1). pose proof (fine_mid _ _ F1 M) as M1. pose proof (fine_on _ _ _ _ F1 O) as O1.
    destruct (step_fine 0 s1 _ T A1 M1) as (s2 & A2 & F2 & E). cbn [next tl] in E, A2. unfold lex_switch in E. change (SNEK_EOF =? SNEK_EOF) with true in E. cbn [tok] in E.
    rewrite <- (on_line s2 _ _ A2 (fine_on _ _ _ _ F2 O1)). exact (sm_end C st s1 0 s2 o E).
Qed.
Theorem text_stream t n its : is_text t -> tokens W AtLine 0 [] 0 n t its -> stream C [] (lex_start t n) its.
Proof.
  intros T H. apply (tokens_stream _ _ _ _ _ _ _ H); [exact T|lia|]. split; [|split].
  - split; try reflexivity. split; [discriminate|cbn; lia].
  - exists 0%nat. cbn. rewrite app_nil_r. reflexivity.
  - reflexivity.
Qed.
End P.

(** The tokens are determined by the text, but for the objects of strings. *)
Definition token_line (i : item) : token * Z := (i_tok i, i_line i).
Lemma stream_one C st s its its' : stream C st s its -> stream C st s its' -> map token_line its = map token_line its'.
Proof.
  intros H. revert its'. induction H as [st s fuel s2 o E|st s fuel t s2 o its E N1 N2 N3 R IH|st s fuel i s2 o its E R IH|st s fuel e i s2 o its E Hle R IH];
    intros its' H'; inversion H'; subst;
    match goal with E : snek_lex _ _ ?s = Some (_, ?a), E' : snek_lex _ _ ?s = Some (_, ?b) |- _ =>
      pose proof (lex_same _ _ _ _ _ _ E E') as Q; injection Q; intros; subst end; try congruence.
  all: cbn [map]; f_equal; auto.
  all: try (exfalso; eauto; congruence).
Qed.
