(** Proofs about the lexer: it ends. *)
From Coq Require Import ZArith Bool List Ascii String Lia.
From Verif Require Import Base LexModel LexSpec LexProofs LexProofs2 LexProofs4 LexProofs5 LexProofs6.
Import ListNotations.
Local Open Scope Z_scope.

Definition nz (t : list Z) : nat := length (filter (fun c => negb (c =? 0)) t).
Definition one (c : Z) : nat := if c =? 0 then 0%nat else 1%nat.
Lemma nz_cons : forall c t, nz (c :: t) = (one c + nz t)%nat.
Proof. intros. unfold nz, one. cbn. destruct (c =? 0); reflexivity. Qed.
Lemma nz_length : forall t, (nz t <= length t)%nat.
Proof. induction t as [|c t IH]; [cbn; lia|]. rewrite nz_cons. unfold one. cbn. destruct (c =? 0); lia. Qed.
Lemma nz_app : forall x t, nz (x ++ t) = (nz x + nz t)%nat.
Proof. induction x as [|c x IH]; intros; cbn [app]; [reflexivity|]. rewrite !nz_cons, IH. lia. Qed.
Lemma one_nz : forall c, c <> 0 -> one c = 1%nat.
Proof. intros c H. unfold one. rewrite (proj2 (Z.eqb_neq c 0) H). reflexivity. Qed.

Lemma ce_suffix : forall x t, comments_end (x ++ t) -> comments_end t.
Proof. intros x t H a b ->. apply (H (x ++ a) b). rewrite app_assoc. reflexivity. Qed.
Lemma ce_cons : forall c t, comments_end t -> (c = ch "#" -> In NL t) -> comments_end (c :: t).
Proof.
  intros c t H Hc [|d a] b E; cbn in E; injection E as -> E.
  - subst t. auto.
  - apply (H a b E).
Qed.
Lemma ce_head : forall t, comments_end (ch "#" :: t) -> In NL t.
Proof. intros t H. apply (H [] t). reflexivity. Qed.

Section P.
Variable C : lexcfg.
Notation Q s := (comments_end (pending s)).
Notation N s := (nz (pending s)).

Record less (s s' : lex) : Prop := { ls_q : Q s -> Q s'; ls_n : (N s' <= N s)%nat }.
Lemma less_refl : forall s, less s s.
Proof. split; auto. Qed.
Lemma less_trans : forall a b c, less a b -> less b c -> less a c.
Proof. intros a b c [] []. split; [auto | lia]. Qed.

(** Reading one character. *)
Lemma read : forall s c s1, lexchar C s = (c, s1) ->
  less s s1 /\ (N s = one c + N s1)%nat /\ (Q s -> c = ch "#" -> In NL (pending s1)) /\
  (pending s = c :: pending s1 \/ (c = 0 /\ pending s = [] /\ pending s1 = [])) /\ lx_text s1 = lx_text s.
Proof.
  intros s c s1 E. destruct (lexchar_inv C _ _ _ E) as ([P|(-> & P & P1)] & _ & _ & _ & _ & X).
  - split; [split; [rewrite P; apply (ce_suffix [c]) | rewrite P, nz_cons; lia]|]. split; [rewrite P, nz_cons; reflexivity|].
    split; [rewrite P; intros Hq ->; apply ce_head; exact Hq|]. auto.
  - split; [split; rewrite P, P1; auto|]. split; [rewrite P, P1; reflexivity|]. split; [discriminate|]. auto.
Qed.
Lemma back : forall s c, Q s -> (c = ch "#" -> In NL (pending s)) -> Q (unlexchar C c s).
Proof. intros. apply ce_cons; assumption. Qed.
Lemma back_n : forall s c, N (unlexchar C c s) = (one c + N s)%nat.
Proof. intros. change (pending (unlexchar C c s)) with (c :: pending s). apply nz_cons. Qed.
Lemma read_back : forall s c s1, lexchar C s = (c, s1) -> less s (unlexchar C c s1).
Proof.
  intros s c s1 E. destruct (read _ _ _ E) as ([H1 H2] & H3 & H4 & _). split; [intros HQ; apply back; auto|]. rewrite back_n. lia.
Qed.

Lemma add_token_pending : forall c s ok s1, add_token c s = (ok, s1) -> pending s1 = pending s /\ (ok = false -> s1 = s) /\
  (ok = true -> lx_text s1 = lx_text s ++ [c] /\ (length (lx_text s) <> 255)%nat).
Proof.
  intros c s ok s1 E. unfold add_token, SNEK_MAX_TOKEN in E. destruct (Z.eqb_spec (Z.of_nat (length (lx_text s))) 255); injection E as <- <-;
    (split; [reflexivity|]; split; [auto; discriminate|]; try discriminate). intros _. split; [reflexivity | lia].
Qed.
Lemma read_token : forall s c s1, lextoken C s = (c, s1) ->
  less s s1 /\ (one c + N s1 <= N s)%nat /\ (Q s -> c = ch "#" -> In NL (pending s1)).
Proof.
  intros s c s1 E. unfold lextoken in E. destruct (lexchar C s) as [d s0] eqn:E0.
  destruct (read _ _ _ E0) as (L & H1 & H2 & _). destruct (d =? SNEK_EOF); [injection E as <- <-; split; [exact L|]; split; [lia | exact H2]|].
  destruct (add_token d s0) as [ok s2] eqn:E2. destruct (add_token_pending _ _ _ _ E2) as (P & _).
  destruct ok; injection E as <- <-; (split; [split; rewrite P; [exact (ls_q _ _ L) | exact (ls_n _ _ L)]|]); rewrite P.
  - split; [lia | exact H2].
  - split; [unfold SNEK_EOF, one; cbn; lia | discriminate].
Qed.
Lemma back_token : forall s c, pending (unlextoken C c s) = c :: pending s.
Proof. reflexivity. Qed.
Lemma read_back_token : forall s c s1, lextoken C s = (c, s1) -> less s (unlextoken C c s1).
Proof.
  intros s c s1 E. destruct (read_token _ _ _ E) as ([H1 H2] & H3 & H4). split; rewrite back_token.
  - intros HQ. apply ce_cons; auto.
  - rewrite nz_cons. lia.
Qed.

(** Comments. *)
Lemma comment_ends : forall fuel s, lc_abort C = false -> In NL (pending s) -> (length (pending s) <= S fuel)%nat ->
  exists s' x, comment C fuel s = Some s' /\ pending s = x ++ pending s' /\ (1 <= nz x)%nat.
Proof.
  induction fuel as [|fuel IH]; intros s AB HN L; cbn [comment]; destruct (lexchar C s) as [c s1] eqn:E1; rewrite AB, orb_false_r;
    destruct (read _ _ _ E1) as (_ & _ & _ & [P|(_ & P & _)] & _); rewrite P in HN; try contradiction.
  - rewrite P in L. cbn in L. destruct (pending s1) eqn:P1; [|cbn in L; lia]. destruct HN as [->|[]]. rewrite Z.eqb_refl.
    exists s1, [NL]. rewrite P1, P. split; [reflexivity|]. split; [reflexivity | cbn; lia].
  - destruct (Z.eqb_spec c NL) as [->|B]; [exists s1, [NL]; rewrite P; split; [reflexivity|]; split; [reflexivity | cbn; lia]|].
    destruct HN as [HN|HN]; [contradiction|].
    rewrite P in L. cbn in L. destruct (IH s1 AB HN ltac:(lia)) as (s2 & x & E2 & P2 & Hx). exists s2, (c :: x). rewrite P, P2.
    split; [exact E2|]. split; [reflexivity | rewrite nz_cons; lia].
Qed.

Lemma cclass_0 : forall n, nstep n (cclass 0) = None.
Proof. intros []; reflexivity. Qed.
Lemma number_ends : forall fuel n t c s, (N s <= fuel)%nat -> exists k s', number_loop C fuel n t c s = Some (k, s') /\ less s s'.
Proof.
  induction fuel as [|fuel IH]; intros n t c s L; cbn [number_loop].
  all: destruct (match t with CUnderscore => (true, s) | _ => add_token c s end) as [ok s1] eqn:E1.
  all: assert (P1 : pending s1 = pending s) by (destruct t; try (exact (proj1 (add_token_pending _ _ _ _ E1))); injection E1 as <- <-; reflexivity).
  all: destruct ok; cbn [negb]; [|exists TInvalid, s1; split; [reflexivity|]; split; rewrite P1; auto].
  all: destruct (lexchar C s1) as [c2 s2] eqn:E2; destruct (read _ _ _ E2) as ([H1 H2] & H3 & H4 & _).
  all: destruct (nstep n (cclass c2)) as [n'|] eqn:En;
    [ assert (Hc : c2 <> 0) by (intros ->; rewrite cclass_0 in En; discriminate); rewrite (one_nz _ Hc) in H3
    | eexists _, _; split; [reflexivity|]; destruct (read_back _ _ _ E2) as [G1 G2]; rewrite P1 in *; split; auto ].
  - rewrite P1 in H3. lia.
  - rewrite P1 in *. destruct (IH n' (cclass c2) c2 s2 ltac:(lia)) as (k & s' & E & [G1 G2]). exists k, s'. split; [exact E|]. split; [auto | lia].
Qed.

Lemma escape_less : forall s r s', escape C s = (r, s') -> less s s'.
Proof.
  intros s r s' E. unfold escape in E. destruct (lexchar C s) as [c s1] eqn:E1. destruct (read _ _ _ E1) as (L1 & _).
  destruct (c =? ch "n"); [injection E as <- <-; exact L1|]. destruct (c =? ch "r"); [injection E as <- <-; exact L1|].
  destruct (c =? ch "t"); [injection E as <- <-; exact L1|]. destruct (c =? ch "x"); [|injection E as <- <-; exact L1].
  destruct (lexchar C s1) as [a s2] eqn:E2. destruct (read _ _ _ E2) as (L2 & _).
  destruct (lexchar C s2) as [a' s3] eqn:E3. destruct (read _ _ _ E3) as (L3 & _).
  injection E as <- <-. eauto using less_trans.
Qed.
Lemma string_ends : forall fuel q s, (255 <= fuel + length (lx_text s))%nat -> (length (lx_text s) <= 255)%nat -> exists k s', string_loop C fuel q s = Some (k, s') /\ less s s'.
Proof.
  induction fuel as [|fuel IH]; intros q s L Lm; rewrite string_loop_step.
  all: destruct (lexchar C s) as [c s1] eqn:E1; destruct (read _ _ _ E1) as (L1 & _ & _ & _ & X1).
  all: destruct (c =? q); [eexists _, _; split; [reflexivity | exact L1]|].
  all: destruct (c =? NL); [eexists _, _; split; [reflexivity | exact (read_back _ _ _ E1)]|].
  all: destruct (if c =? ch "\" then escape C s1 else (Some c, s1)) as [r s2] eqn:E2.
  all: assert (L2 : less s s2 /\ lx_text s2 = lx_text s) by
    (destruct (c =? ch "\");
     [ split; [eapply less_trans; [exact L1 | exact (escape_less _ _ _ E2)]|]; rewrite <- X1; revert E2; unfold escape;
       destruct (lexchar C s1) as [d s3] eqn:E3; destruct (read _ _ _ E3) as (_ & _ & _ & _ & X3);
       repeat (destruct (d =? ch _); [intros E2; injection E2 as <- <-; exact X3|]); destruct (d =? ch "x"); [|intros E2; injection E2 as <- <-; exact X3];
       destruct (lexchar C s3) as [d4 s4] eqn:E4; destruct (read _ _ _ E4) as (_ & _ & _ & _ & X4);
       destruct (lexchar C s4) as [d5 s5] eqn:E5; destruct (read _ _ _ E5) as (_ & _ & _ & _ & X5); intros E2; injection E2 as <- <-; congruence
     | injection E2 as <- <-; auto ]).
  all: destruct L2 as [L2 X2]; destruct r as [c'|]; [|eexists _, _; split; [reflexivity | exact L2]].
  all: destruct (add_token c' s2) as [ok s3] eqn:E3; destruct (add_token_pending _ _ _ _ E3) as (P3 & _ & T3).
  all: assert (L3 : less s s3) by (destruct L2; split; rewrite P3; assumption).
  all: destruct ok; cbn [negb]; [|eexists _, _; split; [reflexivity | exact L3]].
  all: destruct (T3 eq_refl) as (X3 & Hn); rewrite X2 in *.
  - lia.
  - destruct (IH q s3) as (k & s' & E & L'); [rewrite X3, app_length; cbn; lia | rewrite X3, app_length; cbn; lia |].
    exists k, s'. split; [exact E | eauto using less_trans].
Qed.

Lemma skip_spaces_ends : forall fuel b s, (N s <= fuel)%nat ->
  exists c b' s', skip_spaces C fuel b s = Some (c, b', s') /\ less s s' /\ (one c + (if b' then if b then 0 else 1 else 0) + N s' <= N s)%nat /\
    (Q s -> c = ch "#" -> In NL (pending s')).
Proof.
  induction fuel as [|fuel IH]; intros b s L; cbn [skip_spaces]; destruct (lexchar C s) as [c s1] eqn:E1;
    destruct (read _ _ _ E1) as (L1 & H1 & H2 & _); destruct (Z.eqb_spec c (ch " ")) as [->|Hc].
  - change (one (ch " ")) with 1%nat in H1. lia.
  - exists c, b, s1. split; [reflexivity|]. split; [exact L1|]. split; [destruct b; lia | exact H2].
  - change (one (ch " ")) with 1%nat in H1. destruct (IH true s1 ltac:(lia)) as (c & b' & s' & E & L' & H3 & H4).
    exists c, b', s'. split; [exact E|]. split; [eauto using less_trans|]. split; [destruct b', b; lia|].
    intros HQ. apply H4. exact (ls_q _ _ L1 HQ).
  - exists c, b, s1. split; [reflexivity|]. split; [exact L1|]. split; [destruct b; lia | exact H2].
Qed.

Lemma one_le : forall c, (one c <= 1)%nat.
Proof. intros. unfold one. destruct (c =? 0); lia. Qed.
Lemma unlex_all_less : forall done s, Forall (fun d => d <> ch "#") done -> (Q s -> Q (unlex_all C done s)) /\ (N (unlex_all C done s) <= length done + N s)%nat.
Proof.
  induction done as [|d done IH]; intros s H; cbn [unlex_all length]; [auto|]. inversion H as [|? ? Hd Hr]; subst.
  destruct (IH (unlextoken C d s) Hr) as [H1 H2]. rewrite back_token in *. split.
  - intros HQ. apply H1. apply ce_cons; [exact HQ | contradiction].
  - rewrite nz_cons in H2. pose proof (one_le d). lia.
Qed.
Lemma match_word_less : forall todo done (sp : bool) c a b s n, Forall (fun d => d <> ch "#" /\ d <> 0) todo -> Forall (fun d => d <> ch "#") done ->
  (one c + length done + (if sp then 1 else 0) + N s <= n)%nat -> Q s -> (c = ch "#" -> In NL (pending s)) ->
  let s' := snd (match_word C done todo sp c a b s) in Q s' /\ (N s' <= n)%nat.
Proof.
  induction todo as [|w todo IH]; intros done sp c a b s n T D L HQ HC; cbn [match_word].
  - cbn. split; [exact HQ | lia].
  - inversion T as [|? ? [Tw Tw0] Tr]; subst. destruct (Z.eqb_spec c w) as [->|Hc]; cbn [negb].
    + destruct todo as [|w2 todo]; [cbn; split; [exact HQ | lia]|].
      destruct (lextoken C s) as [c2 s2] eqn:E2. destruct (read_token _ _ _ E2) as ([H1 H2] & H3 & H4).
      apply IH; auto. cbn [length]. rewrite (one_nz w Tw0) in L. lia.
    + cbn [snd]. set (s1 := unlextoken C c s).
      assert (Q1 : Q s1) by (apply ce_cons; assumption).
      assert (N1 : (N s1 <= one c + N s)%nat) by (unfold s1; rewrite back_token, nz_cons; lia).
      destruct (unlex_all_less done s1 D) as [H1 H2]. specialize (H1 Q1). destruct sp.
      * rewrite back_token, nz_cons. change (one (ch " ")) with 1%nat. split; [apply ce_cons; [exact H1 | discriminate] | lia].
      * split; [exact H1 | lia].
Qed.
Lemma trailing_ends : forall fuel w a b s, Forall (fun d => d <> ch "#" /\ d <> 0) w -> (N s <= fuel)%nat -> Q s ->
  exists k s', trailing C fuel w a b s = Some (k, s') /\ less s s'.
Proof.
  intros fuel w a b s T L HQ. unfold trailing. destruct (skip_spaces_ends fuel false s L) as (c & sp & s1 & -> & [L1 L1'] & H1 & H2).
  set (s2 := snd (add_token c (if sp then snd (add_token (ch " ") s1) else s1))).
  assert (P2 : pending s2 = pending s1).
  { assert (T1 : forall d s, pending (snd (add_token d s)) = pending s).
    { intros d s3. destruct (add_token d s3) as [ok s4] eqn:E. exact (proj1 (add_token_pending _ _ _ _ E)). }
    unfold s2. rewrite T1. destruct sp; [apply T1 | reflexivity]. }
  destruct (match_word C [] w sp c a b s2) as [k s'] eqn:E. exists k, s'. split; [reflexivity|].
  pose proof (match_word_less w [] sp c a b s2 (N s) T (Forall_nil _)) as M. rewrite E in M. cbn [snd length] in M. rewrite P2 in M.
  destruct M as [M1 M2]; auto; [destruct sp; lia|]. split; auto.
Qed.

Lemma is_name_0 : is_name 0 false = false.
Proof. reflexivity. Qed.
Lemma name_ends : forall fuel s, (N s <= fuel)%nat -> exists c s' s0, name_loop C fuel s = Some (c, s') /\ less s s0 /\ lextoken C s0 = (c, s').
Proof.
  induction fuel as [|fuel IH]; intros s L; cbn [name_loop]; destruct (lextoken C s) as [c s1] eqn:E1;
    destruct (read_token _ _ _ E1) as (L1 & H1 & _); destruct (is_name c false) eqn:En.
  - assert (Hc : c <> 0) by (intros ->; discriminate). rewrite (one_nz c Hc) in H1. lia.
  - exists c, s1, s. auto using less_refl.
  - assert (Hc : c <> 0) by (intros ->; discriminate). rewrite (one_nz c Hc) in H1.
    destruct (IH s1 ltac:(lia)) as (d & s' & s0 & E & L' & E'). exists d, s', s0. eauto using less_trans.
  - exists c, s1, s. auto using less_refl.
Qed.
Lemma word_ends : forall fuel s, (N s <= fuel)%nat -> Q s -> exists k s', word C fuel s = Some (k, s') /\ less s s'.
Proof.
  intros fuel s L HQ. unfold word. destruct (name_ends fuel s L) as (c & s1 & s0 & -> & L0 & E0). cbv zeta.
  pose proof (less_trans _ _ _ L0 (read_back_token _ _ _ E0)) as L2. set (s2 := unlextoken C c s1) in *.
  destruct L2 as [H1 H2]. pose proof (H1 HQ) as Q2.
  destruct (is_keyword _); [|eexists _, _; split; [reflexivity | split; auto]].
  destruct (text_eqb _ _).
  { destruct (trailing_ends fuel (chars "not") (TCmpop OpIs) (TCmpop OpIsNot) s2) as (k & s' & E & [G1 G2]); auto; try lia.
    - repeat constructor; discriminate. - exists k, s'. split; [exact E|]. split; [auto | lia]. }
  destruct (text_eqb _ _).
  { destruct (trailing_ends fuel (chars "in") (TNot OpNot) (TCmpop OpNotIn) s2) as (k & s' & E & [G1 G2]); auto; try lia.
    - repeat constructor; discriminate. - exists k, s'. split; [exact E|]. split; [auto | lia]. }
  destruct (text_eqb _ _); eexists _, _; (split; [reflexivity | split; auto]).
Qed.
Lemma rest_ends : forall fuel c s, (N s <= fuel)%nat -> Q s -> exists k s', lex_rest C fuel c s = Some (k, s') /\ less s s'.
Proof.
  intros fuel c s L HQ. unfold lex_rest. destruct (_ || _).
  { destruct (number_ends fuel NInt CDigit c (start_token s) L) as (k & s' & E & [H1 H2]). exists k, s'. split; [exact E | split; assumption]. }
  destruct (negb _); [eexists _, _; split; [reflexivity | apply less_refl] | apply word_ends; assumption].
Qed.
Lemma check_equal_less : forall p o s k s', check_equal C p o s = (k, s') -> less s s'.
Proof.
  intros p o s k s' E. unfold check_equal in E. destruct (lextoken C s) as [c s1] eqn:E1. destruct (negb _); injection E as <- <-.
  - exact (read_back_token _ _ _ E1). - exact (proj1 (read_token _ _ _ E1)).
Qed.

(** The switch ends; when the lexer goes round its loop, less is pending. *)
Lemma switch_ends : forall fuel c s, lc_abort C = false -> (length (pending s) <= fuel)%nat -> (255 <= fuel)%nat -> Q s -> (c = ch "#" -> In NL (pending s)) ->
  exists a s', lex_switch C fuel c s = Some (a, s') /\ less s s' /\ (a = AContinue -> c <> 0 /\ (length (pending s') <= length (pending s))%nat) /\
    (c = 0 -> a = AToken TEnd).
Proof.
  intros fuel c s AB L L' HQ HC. unfold lex_switch. change SNEK_EOF with 0.
  destruct (Z.eqb_spec c 0) as [->|N0]; [eexists _, _; split; [reflexivity|]; split; [apply less_refl|]; split; [discriminate | reflexivity]|].
  assert (Plain : forall t s', less s s' -> exists a s'', Some (AToken t, s') = Some (a, s'') /\ less s s'' /\
    (a = AContinue -> c <> 0 /\ (length (pending s'') <= length (pending s))%nat) /\ (c = 0 -> a = AToken TEnd)).
  { intros t s' Ls. eexists _, _. split; [reflexivity|]. split; [exact Ls|]. split; [discriminate | contradiction]. }
  assert (Eq : forall p o s1, less s s1 -> exists a s'', tok (check_equal C p o s1) = Some (a, s'') /\ less s s'' /\
    (a = AContinue -> c <> 0 /\ (length (pending s'') <= length (pending s))%nat) /\ (c = 0 -> a = AToken TEnd)).
  { intros p o s1 Ls. destruct (check_equal C p o s1) as [t s'] eqn:E. apply Plain. eapply less_trans; [exact Ls | exact (check_equal_less _ _ _ _ _ E)]. }
  assert (Lex : forall n s1, lextoken C s = (n, s1) -> less s s1 /\ less s (unlextoken C n s1)).
  { intros n s1 E. split; [exact (proj1 (read_token _ _ _ E)) | exact (read_back_token _ _ _ E)]. }
  destruct (c =? NL).
  { cbn [lx_ignore set_flags]. destruct (_ =? _); [apply Plain; split; auto|]. eexists _, _. split; [reflexivity|]. split; [split; auto|].
    split; [intros _; split; [exact N0 | apply Nat.le_refl] | contradiction]. }
  unfold tok, lex_open, lex_close.
  destruct (c =? ch ":"); [apply Plain, less_refl|]. destruct (c =? ch ";"); [apply Plain, less_refl|]. destruct (c =? ch ","); [apply Plain, less_refl|].
  destruct (c =? ch "("); [apply Plain; split; auto|]. destruct (c =? ch ")"); [destruct (lx_ignore s =? 0); apply Plain; split; auto|].
  destruct (c =? ch "["); [apply Plain; split; auto|]. destruct (c =? ch "]"); [destruct (lx_ignore s =? 0); apply Plain; split; auto|].
  destruct (c =? ch "{"); [apply Plain; split; auto|]. destruct (c =? ch "}"); [destruct (lx_ignore s =? 0); apply Plain; split; auto|].
  unfold tok in Eq.
  destruct (c =? ch "+"); [apply Eq, less_refl|]. destruct (c =? ch "-"); [apply Eq, less_refl|].
  destruct (lextoken C s) as [n s1] eqn:E1. destruct (Lex _ _ eq_refl) as [La Lb].
  destruct (c =? ch "*"); [destruct (n =? _); apply Eq; assumption|].
  destruct (c =? ch "/"); [destruct (n =? _); apply Eq; assumption|].
  destruct (c =? ch "%"); [apply Eq, less_refl|]. destruct (c =? ch "&"); [apply Eq, less_refl|]. destruct (c =? ch "|"); [apply Eq, less_refl|].
  destruct (c =? ch "~"); [apply Plain, less_refl|]. destruct (c =? ch "^"); [apply Eq, less_refl|].
  destruct (c =? ch "<"); [destruct (n =? _); [apply Eq; assumption|]; destruct (n =? _); apply Plain; assumption|].
  destruct (c =? ch "="); [destruct (n =? _); apply Plain; assumption|].
  destruct (c =? ch ">"); [destruct (n =? _); [apply Eq; assumption|]; destruct (n =? _); apply Plain; assumption|].
  destruct (c =? ch "!").
  { destruct (n =? _); [apply Plain; assumption|]. eexists _, _. split; [reflexivity|]. split; [exact Lb|]. split; [discriminate | contradiction]. }
  destruct ((c =? 34) || (c =? 39)).
  { destruct (string_ends fuel c (start_token s)) as (k & s' & E & Ls); [cbn; lia | cbn; lia|]. unfold string_. rewrite E. cbn [otok]. apply Plain.
    destruct Ls as [G1 G2]. split; assumption. }
  destruct (Z.eqb_spec c (ch "#")) as [Hc|Hc].
  { destruct (comment_ends fuel s AB (HC Hc) ltac:(lia)) as (s' & x & -> & P & Hx). eexists _, _. split; [reflexivity|].
    split; [|split; [intros _; split; [exact N0|]; change (pending (unlexchar C NL s')) with (NL :: pending s'); rewrite P, app_length; pose proof (nz_length x); cbn [length]; lia | contradiction]].
    split; change (pending (unlexchar C NL s')) with (NL :: pending s'); rewrite P.
    - intros HQ'. apply ce_cons; [exact (ce_suffix _ _ HQ') | discriminate].
    - rewrite nz_cons, nz_app. change (one NL) with 1%nat. lia. }
  destruct (c =? ch " "); (eexists _, _; split; [reflexivity|]; split; [apply less_refl|]).
  - split; [intros _; split; [exact N0 | lia] | contradiction].
  - split; [discriminate | contradiction].
Qed.

Lemma indent_spaces_ends : forall fuel i s, (length (pending s) <= fuel)%nat ->
  exists c i' s' s0 x, indent_spaces C fuel i s = Some (c, i', s') /\ pending s = x ++ pending s0 /\ lexchar C s0 = (c, s').
Proof.
  induction fuel as [|fuel IH]; intros i s L; cbn [indent_spaces]; destruct (lexchar C s) as [c s1] eqn:E1;
    destruct (read _ _ _ E1) as (_ & _ & _ & P & _); destruct (Z.eqb_spec c (ch " ")) as [->|Hc].
  - destruct P as [P|(P & _)]; [rewrite P in L; cbn in L; lia | discriminate].
  - exists c, i, s1, s, []. auto.
  - destruct P as [P|(P & _)]; [|discriminate]. rewrite P in L. cbn in L. destruct (IH (u8 (i + 1)) s1 ltac:(lia)) as (c & i' & s' & s0 & x & E & P' & E').
    exists c, i', s', s0, (ch " " :: x). split; [exact E|]. rewrite P, P'. auto.
  - exists c, i, s1, s, []. auto.
Qed.
Lemma find_line_ends : forall fuel s, lc_abort C = false -> (length (pending s) <= fuel)%nat -> Q s ->
  exists c s' x p, find_line C fuel s = Some (c, s') /\ pending s = x ++ p /\ (p = c :: pending s' \/ (c = 0 /\ p = [] /\ pending s' = [])).
Proof.
  induction fuel as [|fuel IH]; intros s AB L HQ; cbn [find_line].
  all: match goal with |- context [indent_spaces C ?f 0 ?s] => destruct (indent_spaces_ends f 0 s ltac:(assumption)) as (c & i & s1 & s0 & x & -> & P & E1) end;
    destruct (read _ _ _ E1) as (_ & _ & _ & P1 & _).
  all: destruct (Z.eqb_spec c SNEK_EOF) as [->|N0]; [eexists _, _, x, (pending s0); split; [reflexivity|]; split; [exact P | exact P1]|].
  all: destruct P1 as [P1|(P1 & _)]; [|contradiction]; rewrite P, P1 in L; rewrite app_length in L; cbn [length] in L.
  1: lia.
  assert (Again : forall s2, (exists y, c :: pending s1 = y ++ pending s2) -> (length (pending s2) <= fuel)%nat ->
    exists c' s' x' p, find_line C fuel s2 = Some (c', s') /\ pending s = x' ++ p /\ (p = c' :: pending s' \/ (c' = 0 /\ p = [] /\ pending s' = []))).
  { intros s2 (y & Py) L2. rewrite P, P1 in HQ. rewrite Py in HQ. rewrite app_assoc in HQ.
    destruct (IH s2 AB L2 (ce_suffix _ _ HQ)) as (c' & s' & x' & p & E & P' & H). exists c', s', ((x ++ y) ++ x'), p.
    split; [exact E|]. split; [|exact H]. rewrite P, P1, Py, P', <- !app_assoc. reflexivity. }
  destruct (negb (lc_interactive C) && (c =? NL)).
  { apply Again; [exists [c]; reflexivity | change (pending (set_indents (lx_current s1) i s1)) with (pending s1); lia]. }
  destruct (Z.eqb_spec c (ch "#")) as [->|Hc].
  { set (s2 := set_indents (lx_current s1) i s1). assert (P2 : pending s2 = pending s1) by reflexivity.
    destruct (comment_ends (S fuel) s2 AB) as (s3 & y & -> & P3 & Hy).
    - rewrite P2. apply ce_head. rewrite P, P1 in HQ. exact (ce_suffix _ _ HQ). - rewrite P2. lia.
    - apply Again; [exists (ch "#" :: y); rewrite <- P2, P3; reflexivity|]. rewrite <- P2, P3, app_length in L. lia. }
  eexists _, _, x, (pending s0). split; [reflexivity|]. split; [exact P | left; exact P1].
Qed.
Lemma line_start_ends : forall fuel s, lc_abort C = false -> (length (pending s) <= fuel)%nat -> Q s ->
  exists r s1, line_start C fuel s = Some (r, s1) /\ less s s1 /\ ((length (pending s1) <= length (pending s))%nat \/ pending s1 = [0]) /\
    (r = None \/ exists i, r = Some (TIndent i)).
Proof.
  intros fuel s AB L HQ. unfold line_start. destruct (lx_midline s); [exists None, s; split; [reflexivity|]; split; [apply less_refl | auto]|].
  destruct (find_line_ends fuel s AB L HQ) as (c & s' & x & p & -> & P & H).
  assert (G : forall s1, pending s1 = c :: pending s' -> less s s1 /\ ((length (pending s1) <= length (pending s))%nat \/ pending s1 = [0])).
  { intros s1 P1. destruct H as [H|(-> & H1 & H2)].
    - rewrite P, P1, H. split; [split; rewrite P, P1, H; [apply ce_suffix | rewrite nz_app; lia] | left; rewrite app_length; lia].
    - rewrite P1, H2. split; [|auto]. split; rewrite P1, H2; [|cbn; lia]. intros _ a b E. destruct a as [|d [|? ?]]; discriminate. }
  cbv zeta. repeat match goal with |- context [if ?b then _ else _] => destruct b end; eexists _, _; (split; [reflexivity|]; apply and_assoc; split; [apply G; reflexivity | eauto]).
Qed.

Lemma lex_ends : forall fuel s, lc_abort C = false -> (length (pending s) + 257 <= fuel)%nat -> Q s ->
  exists t s', snek_lex C fuel s = Some (t, s') /\ less s s' /\
    (t <> TEnd -> (forall i, t <> TIndent i) -> (forall e, t <> TExdent e) -> (N s' < N s)%nat).
Proof.
  induction fuel as [|fuel IH]; intros s AB L HQ; [lia|]. rewrite snek_lex_step.
  destruct (line_start_ends (S fuel) s AB ltac:(lia) HQ) as (r & s1 & -> & L1 & H1 & Hr). destruct r as [t|].
  { exists t, s1. split; [reflexivity|]. split; [exact L1|]. intros _ T _. destruct Hr as [Hr|[i Hr]]; [discriminate|]. injection Hr as ->. elim (T i eq_refl). }
  clear Hr. unfold exdents.
  assert (Go : forall s2, pending s2 = pending s1 -> exists t s', (let '(c, s) := lextoken C (start_token s2) in
          match lex_switch C (S fuel) c s with
          | None => None
          | Some (AToken t, s) => Some (t, s)
          | Some (AContinue, s) => snek_lex C fuel s
          | Some (AFall, s) => lex_rest C (S fuel) c s
          end) = Some (t, s') /\ less s s' /\
    (t <> TEnd -> (forall i, t <> TIndent i) -> (forall e, t <> TExdent e) -> (N s' < N s)%nat)).
  { intros s2 P2. destruct (lextoken C (start_token s2)) as [c s3] eqn:E3.
    assert (R3 : less s1 s3 /\ (N s1 = one c + N s3)%nat /\ (c = ch "#" -> In NL (pending s3)) /\
      (pending s1 = c :: pending s3 \/ (c = 0 /\ pending s1 = [] /\ pending s3 = []))).
    { unfold lextoken in E3. destruct (lexchar C (start_token s2)) as [d s4] eqn:E4.
      destruct (read _ _ _ E4) as ([G1 G2] & G3 & G4 & G5 & G6). change (pending (start_token s2)) with (pending s2) in *. rewrite P2 in *.
      assert (Q1 : Q s1) by exact (ls_q _ _ L1 HQ).
      destruct (d =? SNEK_EOF); [injection E3 as <- <-; split; [split; assumption|]; split; [exact G3|]; split; auto|].
      destruct (add_token d s4) as [ok s5] eqn:E5. destruct (add_token_pending _ _ _ _ E5) as (P5 & _).
      unfold add_token in E5. rewrite G6 in E5. cbn in E5. injection E5 as <- E5. injection E3 as <- <-.
      split; [split; rewrite P5; assumption|]. rewrite P5. split; [exact G3|]. split; auto. }
    destruct R3 as (L3 & H3 & H4 & H5).
    assert (Q3 : Q s3) by exact (ls_q _ _ L3 (ls_q _ _ L1 HQ)).
    assert (Len : c <> 0 -> (length (pending s3) < length (pending s))%nat).
    { intros Hc. destruct H5 as [H5|[H5 _]]; [|contradiction]. destruct H1 as [H1|H1]; rewrite H5 in H1; [cbn in H1; lia | injection H1 as H1 _; contradiction]. }
    assert (Len' : (length (pending s3) <= length (pending s) + 1)%nat).
    { destruct H5 as [H5|(_ & _ & H5)]; [|rewrite H5; cbn; lia]. destruct H1 as [H1|H1]; rewrite H5 in H1; [cbn in H1; lia | injection H1 as _ H1; rewrite H1; cbn; lia]. }
    destruct (switch_ends (S fuel) c s3 AB ltac:(lia) ltac:(lia) Q3 H4) as (a & s4 & -> & L4 & H6 & H7).
    pose proof (less_trans _ _ _ (less_trans _ _ _ L1 L3) L4) as L4'.
    assert (Less : c <> 0 -> (N s4 < N s)%nat).
    { intros Hc. rewrite (one_nz c Hc) in H3. pose proof (ls_n _ _ L1). pose proof (ls_n _ _ L4). lia. }
    destruct a as [t4| |].
    - exists t4, s4. split; [reflexivity|]. split; [exact L4'|]. intros Ht _ _. apply Less. intros ->. specialize (H7 eq_refl). congruence.
    - destruct (H6 eq_refl) as [Hc Hl]. specialize (Len Hc). destruct (IH s4 AB ltac:(lia) (ls_q _ _ L4 Q3)) as (t & s' & E & L5 & H8).
      exists t, s'. split; [exact E|]. split; [eauto using less_trans|]. intros. specialize (Less Hc). pose proof (ls_n _ _ L5). lia.
    - assert (Hc : c <> 0) by (intros ->; specialize (H7 eq_refl); discriminate).
      assert (Hf : (N s4 <= S fuel)%nat) by (pose proof (ls_n _ _ L4); pose proof (nz_length (pending s3)); lia).
      destruct (rest_ends (S fuel) c s4 Hf (ls_q _ _ L4 Q3)) as (t & s' & E & L5).
      exists t, s'. split; [exact E|]. split; [eauto using less_trans|]. intros. specialize (Less Hc). pose proof (ls_n _ _ L5). lia. }
  destruct (lx_exdent s1 && (lx_ignore s1 =? 0)); [|apply Go; reflexivity].
  destruct (lx_indent s1 <? lx_current s1); [|apply Go; reflexivity].
  exists (TExdent (lx_indent s1)), s1. split; [reflexivity|]. split; [exact L1|]. intros _ _ T. elim (T _ eq_refl).
Qed.

(** A comment at the end of the text is never left. *)
Lemma comment_hangs : forall fuel s, lc_abort C = false -> pending s = [] -> comment C fuel s = None.
Proof.
  induction fuel as [|fuel IH]; intros s AB P; cbn [comment]; destruct (lexchar C s) as [c s1] eqn:E1;
    destruct (read _ _ _ E1) as (_ & _ & _ & [P1|(-> & _ & P1)] & _); try congruence; rewrite AB; [reflexivity | apply IH; assumption].
Qed.
End P.
