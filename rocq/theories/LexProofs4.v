(** Proofs about the lexer: the push-back buffer and the line number. *)
From Coq Require Import ZArith Bool List Ascii String Lia.
From Verif Require Import Base LexModel LexSpec LexProofs.
Import ListNotations.
Local Open Scope Z_scope.

Lemma newlines_cons : forall c t, newlines (c :: t) = (if c =? NL then 1 else 0) + newlines t.
Proof.
  intros c t. unfold newlines. cbn [count_occ]. destruct (Z.eq_dec c NL) as [->|N]; [rewrite Z.eqb_refl; lia|].
  rewrite (proj2 (Z.eqb_neq c NL) N). lia.
Qed.

Section P.
Variable C : lexcfg.

Lemma u_of_add : forall w a b, u_of w (u_of w a + b) = u_of w (a + b).
Proof. intros. unfold u_of, wrapu. apply Zplus_mod_idemp_l. Qed.

Lemma lexchar_inv : forall s c s1, lexchar C s = (c, s1) ->
  (pending s = c :: pending s1 \/ (c = SNEK_EOF /\ pending s = [] /\ pending s1 = [])) /\
  (length (lx_unget s1) <= pred (length (lx_unget s)))%nat /\ lx_over s1 = lx_over s /\ kept s s1 /\
  lineval C s1 = lineval C s /\ lx_text s1 = lx_text s.
Proof.
  intros s c s1 E. unfold lexchar in E. unfold pending, lineval.
  destruct (lx_unget s) as [|d u] eqn:Eu; [destruct (lx_input s) as [|d i] eqn:Ei|]; injection E as <- <-; cbn -[newlines]; unfold pending; cbn -[newlines]; rewrite ?Eu, ?Ei.
  - split; [right; auto|]. split; [lia|]. split; [reflexivity|]. split; [repeat split|]. split; reflexivity.
  - split; [left; reflexivity|]. split; [lia|]. split; [reflexivity|]. split; [repeat split|]. split; [|reflexivity].
    cbn [app]. rewrite newlines_cons. destruct (d =? NL); [|f_equal; lia].
    cbn [lx_line lx_unget lx_input set_chars]. rewrite u_of_add. f_equal. cbn [app]. lia.
  - split; [left; reflexivity|]. split; [lia|]. split; [reflexivity|]. split; [repeat split|]. split; [|reflexivity].
    cbn [app]. rewrite newlines_cons. destruct (d =? NL); [|f_equal; lia].
    cbn [lx_line lx_unget lx_input set_chars]. rewrite u_of_add. f_equal. lia.
Qed.
Lemma unlexchar_lineval : forall c s, lineval C (unlexchar C c s) = lineval C s.
Proof.
  intros c s. unfold lineval, pending. cbn [unlexchar lx_line lx_unget lx_input app]. rewrite newlines_cons.
  destruct (c =? NL); [|f_equal; lia]. rewrite u_of_add. f_equal. lia.
Qed.

(** [n] characters can be pushed back before and [m] after. *)
Definition safe (n : nat) (s : lex) : Prop := (length (lx_unget s) + n <= 4)%nat /\ lx_over s = false.
Record fine (n m : nat) (s s' : lex) : Prop := {
  fn_kept : kept s s';
  fn_safe : safe n s -> safe m s';
  fn_line : lineval C s' = lineval C s }.

Lemma fine_refl : forall n s, fine n n s s.
Proof. intros; split; auto using kept_refl. Qed.
Lemma fine_trans : forall n m k s s' s'', fine n m s s' -> fine m k s' s'' -> fine n k s s''.
Proof. intros n m k s s' s'' [A1 B1 D1] [A2 B2 D2]. split; [eauto using kept_trans | auto | congruence]. Qed.
Lemma fine_weak : forall n m m' s s', fine n m s s' -> (m' <= m)%nat -> fine n m' s s'.
Proof. intros n m m' s s' [A1 B1 D1] L. split; auto. intros S. destruct (B1 S). split; [lia | assumption]. Qed.
Lemma fine_text : forall n s t, fine n n s (set_text t s).
Proof. intros. split; auto. apply kept_text. Qed.

Lemma lexchar_fine : forall n s c s1, lexchar C s = (c, s1) -> (n < 4)%nat -> fine n (S n) s s1.
Proof.
  intros n s c s1 E L. destruct (lexchar_inv s c s1 E) as (_ & H1 & H2 & H3 & H4 & _). split; auto.
  intros [S1 S2]. split; [destruct (length (lx_unget s)); cbn in H1; lia | congruence].
Qed.
Lemma unlexchar_fine : forall n s c, fine (S n) n s (unlexchar C c s).
Proof.
  intros. split; [apply unlexchar_kept | | apply unlexchar_lineval].
  intros [S1 S2]. split; cbn [unlexchar lx_unget lx_over length]; [lia|]. rewrite S2. cbn [orb]. apply Nat.leb_gt. lia.
Qed.
Lemma unlextoken_fine : forall n s c, fine (S n) n s (unlextoken C c s).
Proof. intros. unfold unlextoken. eapply fine_trans; [apply unlexchar_fine | apply fine_text]. Qed.
Lemma add_token_fine : forall n s c ok s1, add_token c s = (ok, s1) -> fine n n s s1.
Proof. intros n s c ok s1 E. unfold add_token in E. destruct (_ =? _); injection E as <- <-; [apply fine_refl | apply fine_text]. Qed.
Lemma lextoken_fine : forall n s c s1, lextoken C s = (c, s1) -> (n < 4)%nat -> fine n (S n) s s1.
Proof.
  intros n s c s1 E L. unfold lextoken in E. destruct (lexchar C s) as [c0 s0] eqn:E0.
  pose proof (lexchar_fine n s c0 s0 E0 L) as F0. destruct (c0 =? SNEK_EOF); [injection E as <- <-; exact F0|].
  destruct (add_token c0 s0) as [ok s2] eqn:E2. pose proof (add_token_fine (S n) _ _ _ _ E2) as F2.
  destruct ok; injection E as <- <-; exact (fine_trans _ _ _ _ _ _ F0 F2).
Qed.

Ltac fine := repeat first [eassumption | apply fine_refl | eapply fine_trans; [eassumption|] | eapply fine_trans; [|eassumption]].

Lemma comment_fine : forall fuel n s s', comment C fuel s = Some s' -> (n < 4)%nat -> fine n (S n) s s'.
Proof.
  induction fuel as [|fuel IH]; intros n s s' E L; cbn [comment] in E; destruct (lexchar C s) as [c s1] eqn:E1;
    pose proof (lexchar_fine n s c s1 E1 L) as F1; destruct (_ || _).
  - injection E as <-. exact F1.
  - discriminate.
  - injection E as <-. exact F1.
  - eapply fine_trans; [exact (fine_weak _ _ n _ _ F1 ltac:(lia)) | apply IH; assumption].
Qed.

Lemma number_loop_fine : forall fuel n t c s k s', number_loop C fuel n t c s = Some (k, s') -> fine 0 0 s s'.
Proof.
  induction fuel as [|fuel IH]; intros n t c s k s' E; cbn [number_loop] in E.
  all: destruct (match t with CUnderscore => (true, s) | _ => add_token c s end) as [ok s1] eqn:E1.
  all: assert (F1 : fine 0 0 s s1) by (destruct t; try (eapply add_token_fine; exact E1); injection E1 as <- <-; apply fine_refl).
  all: destruct ok; cbn [negb] in E; [|injection E as <- <-; exact F1].
  all: destruct (lexchar C s1) as [c2 s2] eqn:E2; pose proof (lexchar_fine 0 _ _ _ E2 ltac:(lia)) as F2.
  all: destruct (nstep n (cclass c2)) as [n'|]; [| injection E as <- <-; eapply fine_trans; [exact F1|]; eapply fine_trans; [exact F2 | apply unlexchar_fine]].
  - discriminate.
  - eapply fine_trans; [exact F1|]. eapply fine_trans; [exact (fine_weak _ _ 0 _ _ F2 ltac:(lia))|]. exact (IH _ _ _ _ _ _ E).
Qed.

Definition escape (s : lex) : option Z * lex :=
  let '(c, s) := lexchar C s in
  if c =? ch "n" then (Some 10, s)
  else if c =? ch "r" then (Some 13, s)
  else if c =? ch "t" then (Some 9, s)
  else if c =? ch "x" then
    let '(a, s) := lexchar C s in
    let '(b, s) := lexchar C s in
    let t := hex_pair a b in
    (if t <? 0 then None else Some t, s)
  else (Some c, s).
Lemma string_loop_step : forall fuel q s, string_loop C fuel q s =
  let '(c, s) := lexchar C s in
  if c =? q then Some (if lc_alloc C then TString (c_string (lx_text s)) else TInvalid, s)
  else if c =? NL then Some (TInvalid, unlexchar C c s)
  else
    let '(c, s) := if c =? ch "\" then escape s else (Some c, s) in
    match c with
    | None => Some (TInvalid, s)
    | Some c =>
        let '(ok, s) := add_token c s in
        if negb ok then Some (TInvalid, s)
        else match fuel with O => None | S fuel' => string_loop C fuel' q s end
    end.
Proof. intros [|fuel] q s; reflexivity. Qed.

Lemma escape_fine : forall s r s', escape s = (r, s') -> fine 0 0 s s'.
Proof.
  intros s r s' E. unfold escape in E. destruct (lexchar C s) as [c s1] eqn:E1.
  pose proof (fine_weak _ _ 0 _ _ (lexchar_fine 0 _ _ _ E1 ltac:(lia)) ltac:(lia)) as F1.
  destruct (c =? ch "n"); [injection E as <- <-; exact F1|]. destruct (c =? ch "r"); [injection E as <- <-; exact F1|].
  destruct (c =? ch "t"); [injection E as <- <-; exact F1|]. destruct (c =? ch "x"); [|injection E as <- <-; exact F1].
  destruct (lexchar C s1) as [a s2] eqn:E2. pose proof (fine_weak _ _ 0 _ _ (lexchar_fine 0 _ _ _ E2 ltac:(lia)) ltac:(lia)) as F2.
  destruct (lexchar C s2) as [a' s3] eqn:E3. pose proof (fine_weak _ _ 0 _ _ (lexchar_fine 0 _ _ _ E3 ltac:(lia)) ltac:(lia)) as F3.
  injection E as <- <-. eauto using fine_trans.
Qed.

Lemma string_loop_fine : forall fuel q s k s', string_loop C fuel q s = Some (k, s') -> fine 0 0 s s'.
Proof.
  induction fuel as [|fuel IH]; intros q s k s' E; rewrite string_loop_step in E.
  all: destruct (lexchar C s) as [c s1] eqn:E1; pose proof (lexchar_fine 0 _ _ _ E1 ltac:(lia)) as F1.
  all: destruct (c =? q); [injection E as <- <-; exact (fine_weak _ _ 0 _ _ F1 ltac:(lia))|].
  all: destruct (c =? NL); [injection E as <- <-; eapply fine_trans; [exact F1 | apply unlexchar_fine]|].
  all: apply (fun H => fine_weak _ _ 0 _ _ H (Nat.le_0_l 1)) in F1.
  all: destruct (if c =? ch "\" then escape s1 else (Some c, s1)) as [r s2] eqn:E2.
  all: assert (F2 : fine 0 0 s s2) by (destruct (c =? ch "\"); [eapply fine_trans; [exact F1|]; exact (escape_fine _ _ _ E2) | injection E2 as <- <-; exact F1]).
  all: destruct r as [c'|]; [|injection E as <- <-; exact F2].
  all: destruct (add_token c' s2) as [ok s3] eqn:E3; pose proof (add_token_fine 0 _ _ _ _ E3) as F3.
  all: destruct ok; cbn [negb] in E; [|injection E as <- <-; eapply fine_trans; eassumption].
  - discriminate.
  - eapply fine_trans; [exact F2|]. eapply fine_trans; [exact F3|]. exact (IH _ _ _ _ E).
Qed.

Lemma skip_spaces_fine : forall fuel b s c b' s', skip_spaces C fuel b s = Some (c, b', s') ->
  fine 0 1 s s' /\ (b' = true -> b = true \/ fine 0 2 s s').
Proof.
  induction fuel as [|fuel IH]; intros b s c b' s' E; cbn [skip_spaces] in E; destruct (lexchar C s) as [d s1] eqn:E1;
    pose proof (lexchar_fine 0 _ _ _ E1 ltac:(lia)) as F1; destruct (d =? ch " ").
  - discriminate.
  - injection E as <- <- <-. auto.
  - destruct (IH _ _ _ _ _ E) as [F2 _]. split; [eapply fine_trans; [exact (fine_weak _ _ 0 _ _ F1 ltac:(lia)) | exact F2]|].
    intros _. right. clear F2. revert s1 c b' s' E E1 F1.
    assert (G : forall f b s c b' s', skip_spaces C f b s = Some (c, b', s') -> fine 1 2 s s').
    { induction f as [|f IHf]; intros b0 s0 c0 b0' s0' E0; cbn [skip_spaces] in E0; destruct (lexchar C s0) as [d0 s2] eqn:E2;
        pose proof (lexchar_fine 1 _ _ _ E2 ltac:(lia)) as F2; destruct (d0 =? ch " ").
      - discriminate.
      - injection E0 as <- <- <-. exact F2.
      - eapply fine_trans; [exact (fine_weak _ _ 1 _ _ F2 ltac:(lia)) | exact (IHf _ _ _ _ _ E0)].
      - injection E0 as <- <- <-. exact F2. }
    intros s1 c b' s' E E1 F1. eapply fine_trans; [exact F1 | exact (G _ _ _ _ _ _ E)].
  - injection E as <- <- <-. auto.
Qed.

Lemma unlex_all_fine : forall done n s, fine (length done + n) n s (unlex_all C done s).
Proof.
  induction done as [|c done IH]; intros n s; cbn [unlex_all]; [apply fine_refl|].
  eapply fine_trans; [apply unlextoken_fine | apply IH].
Qed.
Lemma match_word_fine : forall todo done (sp : bool) c a b s k s', todo <> [] -> (length done + length todo <= 3)%nat ->
  match_word C done todo sp c a b s = (k, s') -> fine (length done + 1 + (if sp then 1 else 0)) 0 s s'.
Proof.
  induction todo as [|n todo IH]; intros done sp c a b s k s' Hne L E; [congruence|]. cbn [match_word length] in *.
  destruct (negb (c =? n)).
  - injection E as <- <-. replace (length done + 1 + (if sp then 1 else 0))%nat with (S (length done + (if sp then 1 else 0))) by lia.
    eapply fine_trans; [apply unlextoken_fine|]. eapply fine_trans; [apply unlex_all_fine|].
    destruct sp; [apply unlextoken_fine | apply fine_refl].
  - destruct todo as [|n2 todo]; [injection E as <- <-; eapply fine_weak; [apply fine_refl | lia]|].
    destruct (lextoken C s) as [c2 s2] eqn:E2.
    assert (Hl : (length done + 1 + (if sp then 1 else 0) < 4)%nat) by (destruct sp; cbn [length] in L; lia).
    pose proof (lextoken_fine _ _ _ _ E2 Hl) as F2. eapply fine_trans; [exact F2|].
    apply (IH (n :: done) sp c2 a b s2 k s' ltac:(discriminate)); [cbn [length] in *; lia | exact E].
Qed.

Lemma trailing_fine : forall fuel w a b s k s', w <> [] -> (length w <= 3)%nat -> trailing C fuel w a b s = Some (k, s') -> fine 0 0 s s'.
Proof.
  intros fuel w a b s k s' Hw L E. unfold trailing in E.
  destruct (skip_spaces C fuel false s) as [[[c sp] s1]|] eqn:E1; [|discriminate].
  destruct (skip_spaces_fine _ _ _ _ _ _ E1) as [F1 F1'].
  injection E as E. pose proof (match_word_fine w [] sp c a b _ k s' Hw ltac:(cbn; lia) E) as F2. cbn [length] in F2.
  assert (T : forall n s c, fine n n s (snd (add_token c s))).
  { intros n s0 c0. destruct (add_token c0 s0) as [ok s2] eqn:E2. exact (add_token_fine _ _ _ _ _ E2). }
  destruct sp.
  - destruct (F1' eq_refl) as [H|F]; [discriminate|]. eapply fine_trans; [exact F|]. eapply fine_trans; [apply T|].
    eapply fine_trans; [apply T | exact F2].
  - eapply fine_trans; [exact F1|]. eapply fine_trans; [apply T | exact F2].
Qed.

Lemma name_loop_fine : forall fuel s c s', name_loop C fuel s = Some (c, s') -> fine 0 1 s s'.
Proof.
  induction fuel as [|fuel IH]; intros s c s' E; cbn [name_loop] in E; destruct (lextoken C s) as [d s1] eqn:E1;
    pose proof (lextoken_fine 0 _ _ _ E1 ltac:(lia)) as F1; destruct (is_name d false).
  - discriminate.
  - injection E as <- <-. exact F1.
  - eapply fine_trans; [exact (fine_weak _ _ 0 _ _ F1 ltac:(lia)) | exact (IH _ _ _ E)].
  - injection E as <- <-. exact F1.
Qed.
Lemma word_fine : forall fuel s k s', word C fuel s = Some (k, s') -> fine 0 0 s s'.
Proof.
  intros fuel s k s' E. unfold word in E. destruct (name_loop C fuel s) as [[c s1]|] eqn:E1; [|discriminate].
  pose proof (name_loop_fine _ _ _ _ E1) as F1. cbv zeta in E. set (s2 := unlextoken C c s1) in *.
  assert (F2 : fine 0 0 s s2) by (eapply fine_trans; [exact F1 | apply unlextoken_fine]).
  destruct (is_keyword (lx_text s2)); [|injection E as <- <-; exact F2].
  destruct (text_eqb _ _); [eapply fine_trans; [exact F2 | eapply trailing_fine; [| |exact E]; [discriminate | cbn; lia]]|].
  destruct (text_eqb _ _); [eapply fine_trans; [exact F2 | eapply trailing_fine; [| |exact E]; [discriminate | cbn; lia]]|].
  destruct (text_eqb _ _); injection E as <- <-; exact F2.
Qed.
Lemma rest_fine : forall fuel c s k s', lex_rest C fuel c s = Some (k, s') -> fine 0 0 s s'.
Proof.
  intros fuel c s k s' E. unfold lex_rest in E. destruct (_ || _).
  - eapply fine_trans; [apply (fine_text 0 s []) | exact (number_loop_fine _ _ _ _ _ _ _ E)].
  - destruct (negb _); [injection E as <- <-; apply fine_refl | exact (word_fine _ _ _ _ E)].
Qed.
Lemma check_equal_fine : forall p o s k s', check_equal C p o s = (k, s') -> fine 0 0 s s'.
Proof.
  intros p o s k s' E. unfold check_equal in E. destruct (lextoken C s) as [c s1] eqn:E1.
  pose proof (lextoken_fine 0 _ _ _ E1 ltac:(lia)) as F1. destruct (negb _); injection E as <- <-.
  - eapply fine_trans; [exact F1 | apply unlextoken_fine].
  - exact (fine_weak _ _ 0 _ _ F1 ltac:(lia)).
Qed.
End P.
