(** Proofs about the lexer: words, numbers, strings. *)
From Coq Require Import ZArith Bool List Ascii String Lia.
From Verif Require Import Base LexModel LexSpec LexProofs.
Import ListNotations.
Local Open Scope Z_scope.

(** ** Character classes, checked for all 256 bytes *)
Definition bytes : list Z := map Z.of_nat (seq 0 256).
Lemma in_bytes : forall c, 0 <= c < 256 -> In c bytes.
Proof. intros c H. unfold bytes. apply in_map_iff. exists (Z.to_nat c). split; [lia|]. apply in_seq. lia. Qed.
Lemma byte_check : forall (f g : Z -> bool), forallb (fun c => Bool.eqb (f c) (g c)) bytes = true ->
  forall c, 0 <= c < 256 -> f c = g c.
Proof.
  intros f g H c Hc. rewrite forallb_forall in H. specialize (H c (in_bytes c Hc)). apply eqb_prop in H. exact H.
Qed.
Definition digitb (c : Z) : bool := (48 <=? c) && (c <=? 57).
Definition letterb (c : Z) : bool :=
  ((65 <=? c) && (c <=? 90)) || ((97 <=? c) && (c <=? 122)) || (c =? 95) || ((128 <=? c) && (c <? 256)).
Definition nameb (c : Z) : bool := letterb c || digitb c || (c =? 46).
Ltac bspec := rewrite ?orb_true_iff, ?andb_true_iff, ?Z.leb_le, ?Z.ltb_lt, ?Z.eqb_eq.
Lemma digitb_spec : forall c, digitb c = true <-> digit c.
Proof. intros; unfold digitb, digit. bspec. lia. Qed.
Lemma letterb_spec : forall c, letterb c = true <-> letter c.
Proof. intros; unfold letterb, letter. bspec. lia. Qed.
Lemma nameb_spec : forall c, nameb c = true <-> name_char c.
Proof. intros; unfold nameb, name_char. bspec. rewrite letterb_spec, digitb_spec. tauto. Qed.
Lemma is_name_first : forall c, 0 <= c < 256 -> is_name c true = letterb c.
Proof. apply byte_check. vm_compute. reflexivity. Qed.
Lemma is_name_next : forall c, 0 <= c < 256 -> is_name c false = nameb c.
Proof. apply byte_check. vm_compute. reflexivity. Qed.
Lemma not_name : forall c, 0 <= c < 256 -> ~ name_char c -> is_name c false = false.
Proof. intros c H N. rewrite is_name_next by exact H. destruct (nameb c) eqn:E; [|reflexivity]. elim N. apply nameb_spec. exact E. Qed.
Lemma next_text : forall r, is_text r -> 0 <= next r < 256.
Proof. intros [|c r] H; cbn; [unfold SNEK_EOF; lia|]. inversion H; lia. Qed.
Lemma not_name_next : forall r, is_text r -> not_next name_char r -> is_name (next r) false = false.
Proof.
  intros [|c r] T N; [reflexivity|]. apply not_name; [apply (next_text _ T) |]. apply (N c r eq_refl).
Qed.
Lemma text_eqb_spec : forall a b, text_eqb a b = true <-> a = b.
Proof.
  induction a as [|x a IH]; destruct b as [|y b]; cbn; split; intros H; try congruence.
  - apply andb_true_iff in H. destruct H as [H1 H2]. apply Z.eqb_eq in H1. apply IH in H2. congruence.
  - injection H as -> ->. rewrite Z.eqb_refl. apply IH. reflexivity.
Qed.
Lemma text_app : forall a b, is_text (a ++ b) <-> is_text a /\ is_text b.
Proof. intros. apply Forall_app. Qed.
Lemma spaces_text : forall n, is_text (spaces n).
Proof. intros. apply Forall_forall. intros x Hx. apply repeat_spec in Hx. subst x. cbn. lia. Qed.

Section P.
Variable C : lexcfg.

(** ** Words *)
Definition first_of (r : list Z) : list Z := match r with [] => [] | c :: _ => [c] end.
Lemma name_loop_runs : forall w r fuel s, Forall name_char w -> not_next name_char r -> is_text (w ++ r) ->
  ahead s (w ++ r) -> (length w <= fuel)%nat -> (length (lx_text s) + length w < 255)%nat ->
  exists s', name_loop C fuel s = Some (next r, s') /\ ahead s' (tl r) /\ kept s s' /\
    lx_text s' = lx_text s ++ w ++ first_of r.
Proof.
  induction w as [|c w IH]; intros r fuel s Hw Hr T A Hf Hl.
  - destruct (lextoken_next C s r T A) as (s' & E & A' & K & X); [cbn in Hl; lia|].
    exists s'. split; [| split; [exact A'|]; split; [exact K|]; rewrite X; destruct r; [rewrite !app_nil_r|]; reflexivity].
    destruct fuel; cbn [name_loop]; rewrite E; rewrite (not_name_next r T Hr); reflexivity.
  - destruct (lextoken_next C s ((c :: w) ++ r) T A) as (s' & E & A' & K & X); [cbn in Hl; lia|].
    inversion Hw as [|? ? Hc Hw']; subst. inversion T as [|? ? Tc Tw]; subst. cbn [app next tl] in *.
    destruct fuel as [|fuel]; [cbn in Hf; lia|]. cbn [name_loop]. rewrite E.
    rewrite is_name_next by lia. rewrite (proj2 (nameb_spec c) Hc).
    destruct (IH r fuel s' Hw' Hr Tw A') as (s2 & E2 & A2 & K2 & X2); [cbn in Hf; lia | rewrite X, app_length; cbn in *; lia|].
    exists s2. split; [exact E2|]. split; [exact A2|]. split; [exact (kept_trans _ _ _ K K2)|].
    rewrite X2, X, <- app_assoc. reflexivity.
Qed.

(** The word is read and the character after it pushed back. *)
Lemma word_runs : forall c w r fuel s, Forall name_char w -> not_next name_char r -> r <> [] -> is_text (w ++ r) ->
  ahead s (w ++ r) -> lx_text s = [c] -> (length w <= fuel)%nat -> (length w < 254)%nat ->
  exists s', ahead s' r /\ kept s s' /\ lx_text s' = c :: w /\
    word C fuel s =
      if is_keyword (c :: w) then
        if text_eqb (c :: w) (chars "is") then trailing C fuel (chars "not") (TCmpop OpIs) (TCmpop OpIsNot) s'
        else if text_eqb (c :: w) (chars "not") then trailing C fuel (chars "in") (TNot OpNot) (TCmpop OpNotIn) s'
        else if text_eqb (c :: w) (chars "in") then Some (TIn OpIn, s')
        else Some (TKeyword (c :: w), s')
      else Some (TName (c :: w), s').
Proof.
  intros c w r fuel s Hw Hr Hr0 T A X Hf Hl.
  destruct (name_loop_runs w r fuel s Hw Hr T A Hf) as (s1 & E1 & A1 & K1 & X1); [rewrite X; cbn; lia|].
  destruct (unlextoken_next C s1 r A1) as [A2 K2].
  assert (X2 : lx_text (unlextoken C (next r) s1) = c :: w).
  { cbn. rewrite X1, X. destruct r as [|d r]; [congruence|]. cbn [first_of app].
    change (c :: w ++ [d]) with ((c :: w) ++ [d]). apply removelast_last. }
  exists (unlextoken C (next r) s1). split; [exact A2|]. split; [exact (kept_trans _ _ _ K1 K2)|]. split; [exact X2|].
  unfold word. rewrite E1. rewrite X2. reflexivity.
Qed.

Lemma skip_spaces_runs : forall n r fuel s sp, is_text r -> not_next is_space r -> ahead s (spaces n ++ r) -> (n <= fuel)%nat ->
  exists s', skip_spaces C fuel sp s = Some (next r, sp || negb (Nat.eqb n 0), s') /\ ahead s' (tl r) /\ kept s s' /\
    lx_text s' = lx_text s.
Proof.
  induction n as [|n IH]; intros r fuel s sp T N A Hf.
  - destruct (lexchar_next C s r A) as (s' & E & A' & K & X). exists s'. split; [|auto].
    assert (Hn : next r =? ch " " = false).
    { apply Z.eqb_neq. destruct r as [|c r]; [discriminate|]. apply (N c r eq_refl). }
    destruct fuel; cbn [skip_spaces]; rewrite E, Hn, orb_false_r; reflexivity.
  - destruct (lexchar_next C s _ A) as (s' & E & A' & K & X). change (next (spaces (S n) ++ r)) with 32 in E.
    change (tl (spaces (S n) ++ r)) with (spaces n ++ r) in A'. destruct fuel as [|fuel]; [lia|]. cbn [skip_spaces]. rewrite E.
    change (32 =? ch " ") with true. cbv iota.
    destruct (IH r fuel s' true T N A') as (s2 & E2 & A2 & K2 & X2); [lia|].
    exists s2. rewrite E2. cbn [Nat.eqb negb orb]. rewrite orb_true_r. split; [reflexivity|].
    split; [exact A2|]. split; [exact (kept_trans _ _ _ K K2) | congruence].
Qed.

Lemma add_token_ahead : forall s c t, ahead s t -> ahead (snd (add_token c s)) t /\ kept s (snd (add_token c s)) /\
  (length (lx_text (snd (add_token c s))) <= S (length (lx_text s)))%nat.
Proof.
  intros s c t A. unfold add_token. destruct (_ =? _); cbn; [split; [exact A|]; split; [apply kept_refl | lia]|].
  split; [exact A|]. split; [apply kept_text|]. rewrite app_length. cbn. lia.
Qed.

Lemma unlex_all_ahead : forall done s t, ahead s t -> ahead (unlex_all C done s) (rev done ++ t) /\ kept s (unlex_all C done s).
Proof.
  induction done as [|c done IH]; intros s t A; cbn [unlex_all rev app]; [split; [exact A | apply kept_refl]|].
  destruct (unlextoken_ahead C s c t A) as [A1 K1]. destruct (IH _ _ A1) as [A2 K2].
  rewrite <- app_assoc. split; [exact A2 | exact (kept_trans _ _ _ K1 K2)].
Qed.

Definition space_if (b : bool) : list Z := if b then [32] else [].
Lemma match_word_runs : forall todo done r sp c s without with_, is_text todo -> is_text (c :: r) \/ (c = 0 /\ r = []) ->
  (length (lx_text s) + length todo < 255)%nat ->
  ahead s r -> todo <> [] ->
  let t := match c with 0 => [] | _ => c :: r end in
  (exists s', match_word C done todo sp c without with_ s = (without, s') /\ ~ starts todo t /\
     ahead s' (space_if sp ++ rev done ++ t) /\ kept s s') \/
  (exists r' s', match_word C done todo sp c without with_ s = (with_, s') /\ t = todo ++ r' /\
     ahead s' r' /\ kept s s').
Proof.
  induction todo as [|n todo IH]; intros done r sp c s without with_ T Hc L A Hne; [congruence|]. cbv zeta.
  inversion T as [|? ? Tn Tt]; subst. cbn [match_word].
  set (t := match c with 0 => [] | _ => c :: r end).
  assert (Et : (c = 0 /\ t = [] /\ r = []) \/ (c <> 0 /\ t = c :: r)).
  { destruct Hc as [Hc|[-> ->]]; [right | left; auto]. inversion Hc; subst. split; [lia|]. unfold t. destruct c; [lia| |]; reflexivity. }
  destruct (Z.eqb_spec c n) as [->|Hn]; cbn [negb].
  - destruct Et as [(-> & _)|[_ Et]]; [lia|]. rewrite Et.
    destruct todo as [|n2 todo].
    + right. exists r, s. split; [reflexivity|]. split; [reflexivity|]. split; [exact A | apply kept_refl].
    + assert (Tr : is_text r). { destruct Hc as [Hc|[-> ->]]; [inversion Hc; assumption | constructor]. }
      destruct (lextoken_next C s r Tr A) as (s1 & E1 & A1 & K1 & X1); [cbn in L; lia|].
      rewrite E1.
      destruct (IH (n :: done) (tl r) sp (next r) s1 without with_ Tt) as [H|H]; auto.
      { destruct r as [|d r]; [right; auto | left; exact Tr]. }
      { rewrite X1. destruct r; rewrite ?app_length; cbn in *; lia. }
      { discriminate. }
      * left. destruct H as (s' & E & Hs & A' & K'). exists s'.
        assert (Er : (match next r with 0 => [] | _ => next r :: tl r end) = r).
        { destruct r as [|d r]; [reflexivity|]. inversion Tr; subst. cbn. destruct d; [lia| |]; reflexivity. }
        rewrite Er in *. split; [exact E|]. split.
        { intros [x Hx]. apply Hs. exists x. cbn in Hx. injection Hx as Hx. exact Hx. }
        split; [|exact (kept_trans _ _ _ K1 K')]. cbn [rev] in A'. rewrite <- app_assoc in A'. exact A'.
      * right. destruct H as (r' & s' & E & Hs & A' & K'). exists r', s'.
        assert (Er : (match next r with 0 => [] | _ => next r :: tl r end) = r).
        { destruct r as [|d r]; [reflexivity|]. inversion Tr; subst. cbn. destruct d; [lia| |]; reflexivity. }
        rewrite Er in *. split; [exact E|]. split; [rewrite Hs; reflexivity|]. split; [exact A' | exact (kept_trans _ _ _ K1 K')].
  - left. assert (A1 : ahead (unlextoken C c s) t).
    { destruct Et as [(-> & -> & ->)|[_ ->]]; [exact (proj1 (unlextoken_next C s [] A)) | exact (proj1 (unlextoken_ahead C s c r A))]. }
    destruct (unlex_all_ahead done _ t A1) as [A2 K2'].
    assert (K0 : kept s (unlextoken C c s)) by repeat split.
    pose proof (kept_trans _ _ _ K0 K2') as K2.
    eexists. split; [reflexivity|]. split.
    { intros [x Hx]. destruct Et as [(-> & Et & ->)|[_ Et]]; rewrite Et in Hx; [discriminate|]. injection Hx as Hx _. congruence. }
    destruct sp; cbn [space_if app].
    + destruct (unlextoken_ahead C _ 32 _ A2) as [A3 K3]. split; [exact A3|]. exact (kept_trans _ _ _ K2 K3).
    + split; [exact A2 | exact K2].
Qed.

Lemma trailing_runs : forall n r fuel next_ without with_ s, is_text r -> is_text next_ -> not_next is_space r ->
  ahead s (spaces n ++ r) -> (n <= fuel)%nat -> (length (lx_text s) + length next_ < 253)%nat -> next_ <> [] ->
  (exists s', trailing C fuel next_ without with_ s = Some (without, s') /\ ~ starts next_ r /\
     ahead s' (spaces (min n 1) ++ r) /\ kept s s') \/
  (exists r' s', trailing C fuel next_ without with_ s = Some (with_, s') /\ r = next_ ++ r' /\ ahead s' r' /\ kept s s').
Proof.
  intros n r fuel next_ without with_ s T Tn N A Hf L Hne.
  destruct (skip_spaces_runs n r fuel s false T N A Hf) as (s1 & E1 & A1 & K1 & X1).
  unfold trailing. rewrite E1. cbn [orb].
  set (sp := negb (Nat.eqb n 0)).
  set (s2 := if sp then snd (add_token (ch " ") s1) else s1).
  assert (H2 : ahead s2 (tl r) /\ kept s1 s2 /\ (length (lx_text s2) <= S (length (lx_text s1)))%nat).
  { unfold s2. destruct sp; [apply add_token_ahead; exact A1 | split; [exact A1|]; split; [apply kept_refl | lia]]. }
  destruct H2 as (A2 & K2 & L2). destruct (add_token_ahead s2 (next r) _ A2) as (A3 & K3 & L3).
  set (s3 := snd (add_token (next r) s2)) in *.
  assert (Er : (match next r with 0 => [] | _ => next r :: tl r end) = r).
  { destruct r as [|d r]; [reflexivity|]. inversion T; subst. cbn. destruct d; [lia| |]; reflexivity. }
  destruct (match_word_runs next_ [] (tl r) sp (next r) s3 without with_ Tn) as [H|H]; auto.
  { destruct r as [|d r]; [right; auto | left; exact T]. }
  { rewrite <- X1 in L. lia. }
  - left. destruct H as (s' & E & Hs & A' & K'). rewrite Er in *. exists s'. rewrite E. split; [reflexivity|]. split; [exact Hs|].
    split; [| eauto 6 using kept_trans]. unfold sp in A'. destruct n as [|n]; [exact A' |]. replace (min (S n) 1) with 1%nat by lia. exact A'.
  - right. destruct H as (r' & s' & E & Hs & A' & K'). rewrite Er in *. exists r', s'. rewrite E. split; [reflexivity|].
    split; [exact Hs|]. split; [exact A' | eauto 6 using kept_trans].
Qed.

(** *** The theorems about words *)
Lemma first_not_switch : forall c fuel s, letter c -> lex_switch C fuel c s = Some (AFall, s).
Proof.
  intros c fuel s H. unfold lex_switch, letter in *.
  repeat match goal with |- context [c =? ?x] => let v := eval vm_compute in x in
    rewrite (proj2 (Z.eqb_neq c x)) by (change x with v; lia) end.
  reflexivity.
Qed.
Lemma letter_rest : forall c fuel s, letter c -> lex_rest C fuel c s = word C fuel s.
Proof.
  intros c fuel s H. unfold lex_rest. rewrite is_name_first by (unfold letter in H; lia). rewrite (proj2 (letterb_spec c) H).
  replace (between (ch "0") c (ch "9") || (c =? ch ".")) with false; [reflexivity|]. symmetry. apply orb_false_iff.
  split; [unfold between; change (ch "0") with 48; change (ch "9") with 57; unfold letter in H; apply andb_false_iff; rewrite !Z.leb_gt; lia|].
  apply Z.eqb_neq. change (ch ".") with 46. unfold letter in H. lia.
Qed.

Lemma mid_kept : forall s s', kept s s' -> mid s -> mid s'.
Proof. intros s s' [(_ & _ & A & B) _] [M1 M2]. split; congruence. Qed.

(** Up to the end of the word, for all words. *)
Lemma word_start : forall n c w r fuel s, is_text (c :: w ++ r) -> ahead s (spaces n ++ c :: w ++ r) -> mid s ->
  letter c -> Forall name_char w -> not_next name_char r -> r <> [] -> (length w < 254)%nat ->
  (n + length w <= fuel)%nat ->
  exists fuel' s', (length w <= fuel')%nat /\ (fuel' + n = fuel)%nat /\ ahead s' r /\ kept s s' /\ lx_text s' = c :: w /\
    snek_lex C fuel s =
      if is_keyword (c :: w) then
        if text_eqb (c :: w) (chars "is") then trailing C fuel' (chars "not") (TCmpop OpIs) (TCmpop OpIsNot) s'
        else if text_eqb (c :: w) (chars "not") then trailing C fuel' (chars "in") (TNot OpNot) (TCmpop OpNotIn) s'
        else if text_eqb (c :: w) (chars "in") then Some (TIn OpIn, s')
        else Some (TKeyword (c :: w), s')
      else Some (TName (c :: w), s').
Proof.
  intros n c w r fuel s T A M Hc Hw Hr Hr0 Hl Hf.
  destruct (skip_token_spaces C n (fuel - n) s _ T A M) as (s0 & A0 & K0 & E0).
  replace (n + (fuel - n))%nat with fuel in E0 by lia.
  destruct (lex_step C (fuel - n) s0 _ T A0 (mid_kept _ _ K0 M)) as (s1 & A1 & K1 & X1 & E1).
  cbn [next tl] in *. rewrite (first_not_switch c _ _ Hc), (letter_rest c _ _ Hc) in E1.
  inversion T as [|? ? _ Tw]; subst.
  destruct (word_runs c w r (fuel - n) s1 Hw Hr Hr0 Tw A1 X1) as (s2 & A2 & K2 & X2 & E2); [lia | lia|].
  exists (fuel - n)%nat, s2. split; [lia|]. split; [lia|]. split; [exact A2|]. split; [eauto using kept_trans|]. split; [exact X2|].
  rewrite E0, E1. exact E2.
Qed.

Lemma words : forall n w r fuel s, is_text (w ++ r) -> ahead s (spaces n ++ w ++ r) -> mid s ->
  is_word w -> w <> chars "is" -> w <> chars "not" -> not_next name_char r -> r <> [] -> (length w < 255)%nat ->
  (n + length w <= fuel)%nat ->
  exists s', snek_lex C fuel s = Some (word_token w, s') /\ ahead s' r /\ same_block s s'.
Proof.
  intros n w r fuel s T A M (c & w' & -> & Hc & Hw) N1 N2 Hr Hr0 Hl Hf. cbn [app length] in *.
  destruct (word_start n c w' r fuel s T A M Hc Hw Hr Hr0) as (f' & s' & _ & _ & A' & K' & X' & E); [lia | lia|].
  exists s'. split; [|split; [exact A' | apply K']]. rewrite E. unfold word_token.
  destruct (is_keyword (c :: w')); [|reflexivity].
  destruct (text_eqb (c :: w') (chars "is")) eqn:Q; [elim N1; apply text_eqb_spec; exact Q|].
  destruct (text_eqb (c :: w') (chars "not")) eqn:Q2; [elim N2; apply text_eqb_spec; exact Q2|].
  destruct (text_eqb (c :: w') (chars "in")); reflexivity.
Qed.

(** [is] and [not]: [k] spaces and then [r] follow. *)
Lemma two_words : forall n k first second alone both r fuel s,
  (first = chars "is" /\ second = chars "not" /\ alone = TCmpop OpIs /\ both = TCmpop OpIsNot) \/
  (first = chars "not" /\ second = chars "in" /\ alone = TNot OpNot /\ both = TCmpop OpNotIn) ->
  is_text r -> ahead s (spaces n ++ first ++ spaces k ++ r) -> mid s ->
  not_next is_space r -> (k = O -> not_next name_char r) -> r <> [] -> (n + k + 3 <= fuel)%nat ->
  exists s' t tok_, snek_lex C fuel s = Some (tok_, s') /\ ahead s' t /\ same_block s s' /\
    ((~ starts second r /\ tok_ = alone /\ t = spaces (min k 1) ++ r) \/ (r = second ++ t /\ tok_ = both)).
Proof.
  intros n k first second alone both r fuel s HF T A M Hsp Hr Hr0 Hf.
  assert (Tk : is_text (spaces k ++ r)) by (apply text_app; split; [apply spaces_text | exact T]).
  assert (Nk : not_next name_char (spaces k ++ r)).
  { intros c x Hx. destruct k as [|k]; [exact (Hr eq_refl c x Hx)|]. cbn in Hx. injection Hx as <- _. unfold name_char, letter, digit. lia. }
  assert (N0 : spaces k ++ r <> []) by (destruct k; [exact Hr0 | discriminate]).
  assert (Hfin : forall f' s', ahead s' (spaces k ++ r) -> (k <= f')%nat -> (length (lx_text s') = length first)%nat -> kept s s' ->
    snek_lex C fuel s = trailing C f' second alone both s' ->
    exists s'' t tok_, snek_lex C fuel s = Some (tok_, s'') /\ ahead s'' t /\ same_block s s'' /\
    ((~ starts second r /\ tok_ = alone /\ t = spaces (min k 1) ++ r) \/ (r = second ++ t /\ tok_ = both))).
  { intros f' s' A' Hk X' K' E'.
    assert (Ts : is_text second) by (destruct HF as [(_ & -> & _)|(_ & -> & _)]; repeat constructor).
    destruct (trailing_runs k r f' second alone both s' T Ts Hsp A' Hk) as [H|H].
    { rewrite X'. destruct HF as [(-> & -> & _)|(-> & -> & _)]; cbn; lia. }
    { destruct HF as [(_ & -> & _)|(_ & -> & _)]; discriminate. }
    - destruct H as (s2 & E2 & Hs & A2 & K2). exists s2, (spaces (min k 1) ++ r), alone. split; [rewrite E'; exact E2|].
      split; [exact A2|]. split; [apply (kept_trans _ _ _ K' K2)|]. left; auto.
    - destruct H as (r' & s2 & E2 & Hs & A2 & K2). exists s2, r', both. split; [rewrite E'; exact E2|].
      split; [exact A2|]. split; [apply (kept_trans _ _ _ K' K2)|]. right; auto. }
  destruct HF as [(-> & -> & -> & ->)|(-> & -> & -> & ->)].
  - destruct (word_start n 105 [115] (spaces k ++ r) fuel s) as (f' & s' & Hf' & Hff & A' & K' & X' & E'); auto; cbn [length app]; try lia.
    { repeat (constructor; [lia|]). exact Tk. }
    { unfold letter; lia. } { repeat constructor; unfold name_char, letter; lia. }
    apply (Hfin f' s' A'); [lia | rewrite X'; reflexivity | exact K' | rewrite E'; reflexivity].
  - destruct (word_start n 110 [111; 116] (spaces k ++ r) fuel s) as (f' & s' & Hf' & Hff & A' & K' & X' & E'); auto; cbn [length app]; try lia.
    { repeat (constructor; [lia|]). exact Tk. }
    { unfold letter; lia. } { repeat constructor; unfold name_char, letter; lia. }
    apply (Hfin f' s' A'); [lia | rewrite X'; reflexivity | exact K' | rewrite E'; reflexivity].
Qed.
End P.
