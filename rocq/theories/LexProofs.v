(** Proofs about the lexer: reading characters, operators, words, numbers,
    strings. *)
From Coq Require Import ZArith Bool List Ascii String Lia.
From Verif Require Import Base LexModel LexSpec.
Import ListNotations.
Local Open Scope Z_scope.

Ltac zb := repeat (rewrite ?Z.eqb_refl; match goal with
  | |- context [?a =? ?b] => first [rewrite (proj2 (Z.eqb_neq a b)) by (first [lia | congruence]) | rewrite (proj2 (Z.eqb_eq a b)) by (first [lia | congruence])] end).

(** ** Reading and pushing back one character *)
Lemma repeat_0 : forall k, repeat SNEK_EOF (S k) = SNEK_EOF :: repeat SNEK_EOF k.
Proof. reflexivity. Qed.

Record kept (s s' : lex) : Prop := {
  kp_block : same_block s s'; kp_ignore : lx_ignore s' = lx_ignore s }.
Lemma kept_refl : forall s, kept s s.
Proof. intros; repeat split. Qed.
Lemma kept_trans : forall a b c, kept a b -> kept b c -> kept a c.
Proof. intros a b c [(A & B & D & F) G] [(A' & B' & D' & F') G']. split; [repeat split|]; congruence. Qed.
Lemma kept_text : forall s t, kept s (set_text t s).
Proof. intros; repeat split. Qed.

Section P.
Variable C : lexcfg.

Lemma lexchar_cons : forall s c t, ahead s (c :: t) ->
  exists s', lexchar C s = (c, s') /\ ahead s' t /\ kept s s' /\ lx_text s' = lx_text s.
Proof.
  intros s c t [k H]. unfold lexchar. destruct (lx_unget s) as [|d u] eqn:Eu.
  - destruct (lx_input s) as [|d i] eqn:Ei; [discriminate|]. cbn in H. injection H as -> H.
    eexists. split; [reflexivity|]. split; [exists k; exact H|]. repeat split.
  - cbn in H. injection H as -> H. eexists. split; [reflexivity|]. split; [exists k; exact H|]. repeat split.
Qed.
Lemma lexchar_nil : forall s, ahead s [] ->
  exists s', lexchar C s = (SNEK_EOF, s') /\ ahead s' [] /\ kept s s' /\ lx_text s' = lx_text s.
Proof.
  intros s [k H]. unfold lexchar. destruct (lx_unget s) as [|d u] eqn:Eu.
  - destruct (lx_input s) as [|d i] eqn:Ei.
    + eexists. split; [reflexivity|]. split; [exists 0%nat; reflexivity|]. repeat split.
    + destruct k; [discriminate|]. cbn in H. injection H as -> H.
      eexists. split; [reflexivity|]. split; [exists k; exact H|]. repeat split.
  - destruct k; [discriminate|]. cbn in H. injection H as -> H.
    eexists. split; [reflexivity|]. split; [exists k; exact H|]. repeat split.
Qed.
Lemma unlexchar_ahead : forall s c t, ahead s t -> ahead (unlexchar C c s) (c :: t).
Proof. intros s c t [k H]. exists k. cbn. f_equal. exact H. Qed.
Lemma unlexchar_eof : forall s, ahead s [] -> ahead (unlexchar C SNEK_EOF s) [].
Proof. intros s [k H]. exists (S k). cbn in *. f_equal. exact H. Qed.
Lemma unlexchar_kept : forall s c, kept s (unlexchar C c s).
Proof. intros; repeat split. Qed.
Lemma ahead_text : forall s t x, ahead s t -> ahead (set_text x s) t.
Proof. intros s t x H; exact H. Qed.

(** Next character, in both cases. *)
Definition next (t : list Z) : Z := match t with [] => SNEK_EOF | c :: _ => c end.
Lemma lexchar_next : forall s t, ahead s t ->
  exists s', lexchar C s = (next t, s') /\ ahead s' (tl t) /\ kept s s' /\ lx_text s' = lx_text s.
Proof. intros s [|c t] H; [apply lexchar_nil | apply lexchar_cons]; exact H. Qed.
Lemma unlexchar_next : forall s t, ahead s (tl t) -> ahead (unlexchar C (next t) s) t.
Proof. intros s [|c t] H; [apply unlexchar_eof | apply unlexchar_ahead]; exact H. Qed.

Lemma lextoken_next : forall s t, is_text t -> ahead s t -> (length (lx_text s) < 255)%nat ->
  exists s', lextoken C s = (next t, s') /\ ahead s' (tl t) /\ kept s s' /\
    lx_text s' = match t with [] => lx_text s | c :: _ => lx_text s ++ [c] end.
Proof.
  intros s t T A L. destruct (lexchar_next s t A) as (s' & E & A' & K & X). unfold lextoken. rewrite E.
  destruct t as [|c t].
  - eexists. split; [reflexivity|]. auto.
  - inversion T as [|? ? Hc]; subst. cbn [next]. unfold SNEK_EOF. rewrite (proj2 (Z.eqb_neq c 0)) by lia.
    unfold add_token, SNEK_MAX_TOKEN. rewrite X. rewrite (proj2 (Z.eqb_neq _ _)) by lia.
    eexists. split; [reflexivity|]. split; [exact A'|]. split; [exact (kept_trans _ _ _ K (kept_text _ _)) | reflexivity].
Qed.
Lemma unlextoken_next : forall s t, ahead s (tl t) -> ahead (unlextoken C (next t) s) t /\ kept s (unlextoken C (next t) s).
Proof. intros s t A. split; [exact (unlexchar_next s t A) | repeat split]. Qed.
Lemma unlextoken_ahead : forall s c t, ahead s t -> ahead (unlextoken C c s) (c :: t) /\ kept s (unlextoken C c s).
Proof. intros s c t A. split; [exact (unlexchar_ahead s c t A) | repeat split]. Qed.

(** ** Bracket level aside, what a token leaves behind *)
Lemma same_block_trans : forall a b c, same_block a b -> same_block b c -> same_block a c.
Proof. intros a b c (A & B & D & F) (A' & B' & D' & F'). repeat split; congruence. Qed.

(** ** Operators *)
Definition fin (t : list Z) (k : token) (s : lex) (r : option (token * lex)) : Prop :=
  exists s', r = Some (k, s') /\ ahead s' t /\ same_block s s'.

Lemma check_equal_runs : forall s t plain op, is_text t -> ahead s t -> (length (lx_text s) < 255)%nat ->
  exists k r s', check_equal C plain op s = (k, s') /\ ahead s' r /\ kept s s' /\
    ((next t <> 61 /\ k = plain op /\ r = t) \/ (t = 61 :: r /\ k = TAssign (OpAssignTo op))).
Proof.
  intros s t plain op T A L. destruct (lextoken_next s t T A L) as (s' & E & A' & K & X).
  unfold check_equal. rewrite E. change (ch "=") with 61. destruct (Z.eqb_spec (next t) 61) as [Eq|Ne]; cbn [negb].
  - destruct t as [|c t]; [discriminate|]. cbn in Eq. subst c.
    eexists _, t, _. split; [reflexivity|]. split; [exact A'|]. split; [exact K|]. right. auto.
  - destruct (unlextoken_next s' t A') as [A2 K2]. eexists _, t, _. split; [reflexivity|].
    split; [exact A2|]. split; [exact (kept_trans _ _ _ K K2)|]. left; auto.
Qed.

(** One pass of the loop of snek_lex in the middle of a line. *)
Lemma lex_step : forall fuel s t, is_text t -> ahead s t -> mid s ->
  exists s1, ahead s1 (tl t) /\ kept s s1 /\ lx_text s1 = match t with [] => [] | c :: _ => [c] end /\
  snek_lex C fuel s =
    match lex_switch C fuel (next t) s1 with
    | None => None
    | Some (AToken k, s) => Some (k, s)
    | Some (AContinue, s) => match fuel with O => None | S fuel' => snek_lex C fuel' s end
    | Some (AFall, s) => lex_rest C fuel (next t) s
    end.
Proof.
  intros fuel s t T A [M X].
  destruct (lextoken_next (start_token s) t T (ahead_text s t [] A)) as (s1 & E & A1 & K1 & X1); [cbn; lia|].
  exists s1. split; [exact A1|]. split; [exact (kept_trans _ _ _ (kept_text s []) K1)|]. split; [rewrite X1; destruct t; reflexivity|].
  destruct fuel; cbn [snek_lex]; unfold line_start; rewrite M; unfold exdents; rewrite X; cbn [andb]; rewrite E; reflexivity.
Qed.

(** Spaces between tokens are skipped. *)
Lemma skip_token_spaces : forall n fuel s t, is_text t -> ahead s (spaces n ++ t) -> mid s ->
  exists s', ahead s' t /\ kept s s' /\ snek_lex C (n + fuel) s = snek_lex C fuel s'.
Proof.
  induction n as [|n IH]; intros fuel s t T A M.
  - exists s. split; [exact A|]. split; [apply kept_refl | reflexivity].
  - destruct (lex_step (S n + fuel) s (spaces (S n) ++ t)) as (s1 & A1 & K1 & _ & E); auto.
    { apply Forall_app. split; [| exact T]. apply Forall_forall. intros x Hx. apply repeat_spec in Hx. subst x. cbn. lia. }
    rewrite E. change (next (spaces (S n) ++ t)) with 32. change (tl (spaces (S n) ++ t)) with (spaces n ++ t) in A1.
    unfold lex_switch. change (S n + fuel)%nat with (S (n + fuel))%nat. cbn -[snek_lex spaces string_ comment].
    destruct (IH fuel s1 t T A1) as (s2 & A2 & K2 & E2).
    { destruct M as [M1 M2]. destruct K1 as [(_ & _ & B1 & B2) _]. split; congruence. }
    exists s2. split; [exact A2|]. split; [exact (kept_trans _ _ _ K1 K2) | exact E2].
Qed.

Ltac too_long Hmax x := exfalso; let L := fresh in
  assert (L := Hmax (chars x) _ ltac:(cbn; repeat (first [left; reflexivity | right])) ltac:(eexists; reflexivity)); cbn in L; lia.
Ltac too_long_any Hmax := first
  [ too_long Hmax "+="%string | too_long Hmax "-="%string | too_long Hmax "*="%string | too_long Hmax "**="%string
  | too_long Hmax "**"%string | too_long Hmax "/="%string | too_long Hmax "//="%string | too_long Hmax "//"%string
  | too_long Hmax "%="%string | too_long Hmax "&="%string | too_long Hmax "|="%string | too_long Hmax "^="%string
  | too_long Hmax "<<="%string | too_long Hmax ">>="%string | too_long Hmax "<<"%string | too_long Hmax ">>"%string
  | too_long Hmax "<="%string | too_long Hmax ">="%string | too_long Hmax "=="%string ].

Ltac ce Hmax :=
  match goal with A1 : ahead ?s1 ?u, T : is_text ?tt, L : (length (lx_text ?s1) < 255)%nat |- context [check_equal C ?pl ?op ?s1] =>
    let T1 := fresh "T1" in assert (T1 : is_text u) by (inversion T; assumption);
    let k := fresh "k" in let r' := fresh "r'" in let s' := fresh "s'" in let E := fresh "E" in let A' := fresh "A'" in
    let K' := fresh "K'" in let N := fresh "N" in let Eq := fresh "Eq" in
    destruct (check_equal_runs s1 u pl op T1 A1 L) as (k & r' & s' & E & A' & K' & [(N & -> & ->)|(Eq & ->)]);
    rewrite E; cbn [tok];
    [ first [exfalso; apply N; reflexivity
            | match goal with Plain : forall (k : token) (s' : lex), _ |- _ => apply Plain end; [exact A' | apply K'] ]
    | first [ injection Eq as <-; match goal with Plain : forall (k : token) (s' : lex), _ |- _ => apply Plain end; [exact A' | apply K']
            | subst u; too_long_any Hmax ] ]
  end.
Ltac text_tail T := solve [assumption | inversion T; assumption | inversion T as [|? ? ? T']; inversion T'; assumption].
Lemma unlextoken_text : forall c s n, (length (lx_text s) < n)%nat -> (length (lx_text (unlextoken C c s)) < n)%nat.
Proof.
  intros c s n H. cbn. assert (forall l : list Z, (length (removelast l) <= length l)%nat); [|specialize (H0 (lx_text s)); lia].
  induction l as [|a [|b l] IH]; cbn in *; lia.
Qed.
Ltac done_op := match goal with Plain : forall (k : token) (s' : lex), _, Sb : forall a b, kept a b -> _ |- _ =>
  apply Plain; [assumption | apply Sb; eauto 6 using kept_trans] end.
Ltac ce2 Hmax :=
  match goal with T : is_text (_ :: _), A1 : ahead ?s1 ?u |- context [check_equal C ?pl ?op ?s1] =>
    let T1 := fresh "T1" in assert (T1 : is_text u) by (text_tail T);
    let L := fresh in assert (L : (length (lx_text s1) < 255)%nat) by (first [assumption | apply unlextoken_text; assumption]);
    let k := fresh "k" in let r' := fresh "r'" in let s' := fresh "s'" in let E := fresh "E" in let A' := fresh "A'" in
    let K' := fresh "K'" in let N := fresh "N" in let Eq := fresh "Eq" in
    destruct (check_equal_runs s1 u pl op T1 A1 L) as (k & r' & s' & E & A' & K' & [(N & -> & ->)|(Eq & ->)]);
    rewrite E; cbn [tok];
    [ first [exfalso; apply N; reflexivity | done_op]
    | first [ injection Eq as <-; done_op | subst u; too_long_any Hmax ] ]
  end.
Ltac two Hmax :=
  repeat match goal with
  | |- context [next ?u =? ?x] =>
      let Q := fresh "Q" in destruct (Z.eqb_spec (next u) x) as [Q|Q];
      [ let n := fresh "n" in let u' := fresh "u" in destruct u as [|n u']; [discriminate Q|]; cbn [next] in Q; subst n;
        first [discriminate | too_long_any Hmax | idtac] | cbv iota ]
  | H : context [next (?c :: _)] |- _ => change (next (c :: _)) with c in H
  end.

Lemma operator_runs : forall fuel s t w k, is_text t -> ahead s t -> mid s -> longest_operator t w k ->
  exists s', snek_lex C fuel s = Some (k, s') /\ ahead s' (skipn (length w) t) /\ same_block s s'.
Proof.
  intros fuel s t w k T A M (Hin & [r ->] & Hmax).
  destruct (lex_step fuel s (w ++ r) T A M) as (s1 & A1 & [K1 _] & X1 & E). rewrite E. clear E.
  assert (Sk : skipn (length w) (w ++ r) = r) by (rewrite skipn_app, skipn_all, Nat.sub_diag; reflexivity). rewrite Sk. clear Sk.
  assert (Tl : forall u, is_text (w ++ u) -> is_text u) by (intros u Hu; apply Forall_app in Hu; apply Hu).
  assert (Plain : forall (k : token) (s' : lex), ahead s' r -> same_block s1 s' ->
    exists s'' : lex, Some (k, s') = Some (k, s'') /\ ahead s'' r /\ same_block s s'').
  { intros k' s' Ha Hb. exists s'. split; [reflexivity|]. split; [exact Ha | exact (same_block_trans _ _ _ K1 Hb)]. }
  assert (Text1 : (length (lx_text s1) < 255)%nat) by (rewrite X1; destruct (w ++ r); cbn; lia).
  assert (Sb : forall a b, kept a b -> same_block a b) by (intros a b Hk; apply Hk).
  cbn in Hin.
  repeat (destruct Hin as [Hin|Hin]; [injection Hin as <- <-; cbn [chars app next tl ch] in *|]); try contradiction;
  unfold lex_switch;
  repeat match goal with
  | |- context [ch ?a] => let v := eval vm_compute in (ch a) in change (ch a) with v
  | H : context [ch ?a] |- _ => let v := eval vm_compute in (ch a) in change (ch a) with v in H
  | |- context [?a =? ?b] => let v := eval vm_compute in (a =? b) in
      lazymatch v with true => change (a =? b) with true | false => change (a =? b) with false end; cbv iota
  end.
  all: cbn [skipn length] in *.
  all: try (apply Plain; [exact A1 | repeat split]; fail).
  all: try (unfold lex_open; cbn [tok]; apply Plain; [exact A1 | repeat split]; fail).
  all: try (unfold lex_close; cbn [tok]; destruct (lx_ignore s1 =? 0); apply Plain; [exact A1 | repeat split | exact A1 | repeat split]; fail).
  all: try (ce Hmax; fail).
  all: match goal with H : ahead ?s1 ?u, Text1 : (length (lx_text ?s1) < 255)%nat, X1 : lx_text ?s1 = _, T : is_text _ |- context [lextoken C ?s1] =>
    let T1 := fresh "T1" in assert (T1 : is_text u) by (inversion T; assumption);
    let s2 := fresh "s2" in let E := fresh "E" in let A2 := fresh "A2" in let K2 := fresh "K2" in let X2 := fresh "X2" in
    destruct (lextoken_next s1 u T1 H Text1) as (s2 & E & A2 & K2 & X2); rewrite E; clear E;
    let Text2 := fresh "Text2" in assert (Text2 : (length (lx_text s2) < 255)%nat) by (rewrite X2; destruct u; rewrite ?app_length, ?X1; cbn; lia);
    let A3 := fresh "A3" in let K3 := fresh "K3" in destruct (unlextoken_next s2 u A2) as [A3 K3]
  end.
  all: repeat match goal with
  | |- context [next (?c :: ?u) =? ?b] => first
      [ change (next (c :: u) =? b) with true | change (next (c :: u) =? b) with false ]; cbv iota
  | H : ahead _ (tl (?c :: ?u)) |- _ => change (tl (c :: u)) with u in H
  end.
  all: try match goal with Plain : forall (k : token) (s' : lex), _, Sb : forall a b, kept a b -> _, A2 : ahead ?s2 (tl _) |- context [Some (AToken _, ?s2)] => apply Plain; [exact A2 | apply Sb; assumption] end.
  all: try (ce2 Hmax; fail).
  all: match goal with Hmax : forall w' k', In (w', k') _ -> _ |- _ => two Hmax; cbn [tok]; try done_op; try (ce2 Hmax; fail) end.
  all: idtac.
Qed.

End P.
