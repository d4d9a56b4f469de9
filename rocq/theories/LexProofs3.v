(** Proofs about the lexer: numbers and strings. *)
From Coq Require Import ZArith Bool List Ascii String Lia.
From Verif Require Import Base LexModel LexSpec LexProofs LexProofs2.
Import ListNotations.
Local Open Scope Z_scope.

(** ** The automaton for numbers *)
Fixpoint path (n : nstate) (w : list Z) : option nstate :=
  match w with
  | [] => Some n
  | c :: w' => match nstep n (cclass c) with Some n' => path n' w' | None => None end
  end.
Lemma path_app : forall w n w', path n (w ++ w') = match path n w with Some n' => path n' w' | None => None end.
Proof. induction w as [|c w IH]; intros; cbn; [reflexivity|]. destruct (nstep n (cclass c)); [apply IH | reflexivity]. Qed.

Lemma cclass_digit : forall c, digit c -> cclass c = CDigit.
Proof.
  intros c H. unfold cclass, between. change (ch "0") with 48. change (ch "9") with 57. unfold digit in H.
  rewrite (proj2 (Z.leb_le 48 c)), (proj2 (Z.leb_le c 57)) by lia. reflexivity.
Qed.
Definition class_code (k : nclass) : Z :=
  match k with CDigit => 0 | CDot => 1 | CE => 2 | CSign => 3 | COther => 4 | CUnderscore => 5 end.
Lemma class_code_inj : forall a b, class_code a = class_code b -> a = b.
Proof. intros [] []; cbn; congruence. Qed.
Definition cclass' (c : Z) : nclass :=
  if digitb c then CDigit else if c =? 46 then CDot else if (c =? 69) || (c =? 101) then CE
  else if (c =? 43) || (c =? 45) then CSign else if c =? 95 then CUnderscore else COther.
Lemma cclass_eq : forall c, 0 <= c < 256 -> cclass c = cclass' c.
Proof.
  intros c H. apply class_code_inj. apply Z.eqb_eq.
  apply (byte_check (fun c => class_code (cclass c) =? class_code (cclass' c)) (fun _ => true)); [vm_compute; reflexivity | exact H].
Qed.

Section P.
Variable C : lexcfg.

Definition keep (t : nclass) (c : Z) : list Z := match t with CUnderscore => [] | _ => [c] end.
Lemma filter_keep : forall c w, 0 <= c < 256 -> no_underscores (c :: w) = keep (cclass c) c ++ no_underscores w.
Proof.
  intros c w H. unfold no_underscores at 1. cbn [filter]. fold (no_underscores w). rewrite (cclass_eq c H).
  unfold cclass'. destruct (Z.eqb_spec c 95) as [->|N]; [reflexivity|]. cbn [negb].
  destruct (digitb c); [reflexivity|]. destruct (c =? 46); [reflexivity|]. destruct (_ || _); [reflexivity|].
  destruct (_ || _); reflexivity.
Qed.

Definition keep_token (t : nclass) (c : Z) (s : lex) : bool * lex := match t with CUnderscore => (true, s) | _ => add_token c s end.
Lemma keep_token_runs : forall t c s x, ahead s x -> (length (lx_text s) + length (keep t c) <= 255)%nat ->
  exists s', keep_token t c s = (true, s') /\ ahead s' x /\ kept s s' /\ lx_text s' = lx_text s ++ keep t c.
Proof.
  intros t c s x A L.
  assert (H : (length (lx_text s) + 1 <= 255)%nat ->
    exists s', add_token c s = (true, s') /\ ahead s' x /\ kept s s' /\ lx_text s' = lx_text s ++ [c]).
  { intros L'. unfold add_token, SNEK_MAX_TOKEN. rewrite (proj2 (Z.eqb_neq _ _)) by lia.
    eexists. split; [reflexivity|]. split; [exact A|]. split; [apply kept_text | reflexivity]. }
  destruct t; try (apply H; exact L). exists s. cbn. rewrite app_nil_r. split; [reflexivity|]. split; [exact A|].
  split; [apply kept_refl | reflexivity].
Qed.

Lemma keep_token_inv : forall t c s s1 u, ahead s u -> keep_token t c s = (true, s1) ->
  ahead s1 u /\ kept s s1 /\ lx_text s1 = lx_text s ++ keep t c.
Proof.
  intros t c s s1 u A E. unfold keep_token, add_token in E.
  destruct t; try (destruct (_ =? _); [discriminate|]; injection E as <-; split; [exact A | split; [apply kept_text | reflexivity]]).
  injection E as <-. cbn. rewrite app_nil_r. split; [exact A|]. split; [apply kept_refl | reflexivity].
Qed.

Lemma number_loop_eq : forall fuel n t c s, number_loop C fuel n t c s =
  let '(ok, s) := keep_token t c s in
  if negb ok then Some (TInvalid, s)
  else
    let '(c, s) := lexchar C s in
    match nstep n (cclass c) with
    | Some n => match fuel with O => None | S fuel' => number_loop C fuel' n (cclass c) c s end
    | None => let s := unlexchar C c s in Some (TNumber (lx_text s), s)
    end.
Proof. intros [|fuel] n t c s; cbn [number_loop]; unfold keep_token; destruct t; reflexivity. Qed.

Lemma number_loop_runs : forall w r fuel n n' t c s, is_text (w ++ r) -> ahead s (w ++ r) -> path n w = Some n' ->
  nstep n' (cclass (next r)) = None -> (length w <= fuel)%nat ->
  (length (lx_text s) + length (keep t c) + length (no_underscores w) <= 255)%nat ->
  exists s', number_loop C fuel n t c s = Some (TNumber (lx_text s ++ keep t c ++ no_underscores w), s') /\
    ahead s' r /\ kept s s'.
Proof.
  induction w as [|d w IH]; intros r fuel n n' t c s T A P Hs Hf L.
  - destruct (keep_token_runs t c s _ A) as (s1 & E1 & A1 & K1 & X1); [cbn in L; lia|].
    destruct (lexchar_next C s1 r A1) as (s2 & E2 & A2 & K2 & X2).
    injection P as <-. rewrite number_loop_eq, E1. cbn [negb]. rewrite E2, Hs. cbv zeta. cbn [unlexchar lx_text].
    rewrite X2, X1. cbn [no_underscores filter]. rewrite app_nil_r.
    eexists. split; [reflexivity|]. split; [exact (unlexchar_next C s2 r A2)|].
    eapply kept_trans; [exact K1|]. eapply kept_trans; [exact K2|]. apply unlexchar_kept.
  - inversion T as [|? ? Td Tw]; subst. rewrite filter_keep in L by lia. rewrite app_length in L.
    destruct (keep_token_runs t c s _ A) as (s1 & E1 & A1 & K1 & X1); [lia|].
    destruct (lexchar_next C s1 _ A1) as (s2 & E2 & A2 & K2 & X2). cbn [app next tl] in *.
    cbn [path] in P. destruct (nstep n (cclass d)) as [n1|] eqn:En; [|discriminate].
    destruct fuel as [|fuel]; [cbn in Hf; lia|]. cbn [length] in Hf.
    rewrite number_loop_eq, E1. cbn [negb]. rewrite E2, En.
    destruct (IH r fuel n1 n' (cclass d) d s2 Tw A2 P Hs) as (s3 & E3 & A3 & K3); [lia | rewrite X2, X1, app_length; lia |].
    exists s3. rewrite E3, X2, X1. rewrite filter_keep by lia. rewrite <- !app_assoc.
    split; [reflexivity|]. split; [exact A3|]. eauto using kept_trans.
Qed.

(** Whatever number token is returned comes from a path of the automaton. *)
Lemma number_loop_only : forall fuel n t c s u x s', is_text u -> ahead s u ->
  number_loop C fuel n t c s = Some (TNumber x, s') ->
  exists w r n', u = w ++ r /\ path n w = Some n' /\ x = lx_text s ++ keep t c ++ no_underscores w /\ ahead s' r /\ kept s s'.
Proof.
  induction fuel as [|fuel IH]; intros n t c s u x s' T A E; rewrite number_loop_eq in E.
  all: destruct (keep_token t c s) as [ok s1] eqn:E1; destruct ok; [|discriminate]; cbn [negb] in E.
  all: pose proof (keep_token_inv t c s s1 u A E1) as H1.
  all: destruct H1 as (A1 & K1 & X1); destruct (lexchar_next C s1 u A1) as (s2 & E2 & A2 & K2 & X2); rewrite E2 in E.
  all: destruct (nstep n (cclass (next u))) as [n1|] eqn:En.
  - discriminate.
  - injection E as <- <-. exists [], u, n. cbn [unlexchar lx_text]. rewrite X2, X1. cbn [no_underscores filter]. rewrite app_nil_r.
    split; [reflexivity|]. split; [reflexivity|]. split; [reflexivity|]. split; [exact (unlexchar_next C s2 u A2)|].
    eapply kept_trans; [exact K1|]. eapply kept_trans; [exact K2|]. apply unlexchar_kept.
  - destruct u as [|d u]; [destruct n; discriminate En|]. inversion T as [|? ? Td Tu]; subst. cbn [next tl] in *.
    destruct (IH n1 (cclass d) d s2 u x s' Tu A2 E) as (w & r & n' & -> & P & -> & A3 & K3).
    exists (d :: w), r, n'. split; [reflexivity|]. cbn [path]. rewrite En. split; [exact P|].
    rewrite filter_keep by lia. rewrite X2, X1, <- !app_assoc. split; [reflexivity|]. split; [exact A3 | eauto using kept_trans].
  - injection E as <- <-. exists [], u, n. cbn [unlexchar lx_text]. rewrite X2, X1. cbn [no_underscores filter]. rewrite app_nil_r.
    split; [reflexivity|]. split; [reflexivity|]. split; [reflexivity|]. split; [exact (unlexchar_next C s2 u A2)|].
    eapply kept_trans; [exact K1|]. eapply kept_trans; [exact K2|]. apply unlexchar_kept.
Qed.

(** Paths and numerals. *)
Lemma path_int : forall w, Forall (fun c => digit c \/ c = 95) w -> path NInt w = Some NInt.
Proof.
  induction 1 as [|c w Hc _ IH]; [reflexivity|]. cbn [path]. destruct Hc as [Hc| ->]; [rewrite (cclass_digit c Hc)|]; exact IH.
Qed.
Lemma path_digits : forall n w, n = NFrac \/ n = NExp -> Forall digit w -> path n w = Some n.
Proof.
  intros n w Hn. induction 1 as [|c w Hc _ IH]; [reflexivity|]. cbn [path]. rewrite (cclass_digit c Hc). destruct Hn; subst n; exact IH.
Qed.
Lemma path_exp : forall n e sg ds, n = NInt \/ n = NFrac -> exp_mark e -> sign sg -> ds <> [] -> Forall digit ds ->
  path n (e :: sg ++ ds) = Some NExp.
Proof.
  intros n e sg ds Hn He Hsg Hd Hds. cbn [path].
  assert (H : nstep n (cclass e) = Some NExpsign). { destruct He as [->| ->]; destruct Hn; subst n; reflexivity. }
  rewrite H. destruct Hsg as [->|[->| ->]].
  - destruct ds as [|d ds]; [congruence|]. inversion Hds as [|? ? Hd' Hds']; subst. cbn [app path]. rewrite (cclass_digit d Hd'). cbn [nstep].
    apply path_digits; auto.
  - cbn [app path]. change (nstep NExpsign (cclass 43)) with (Some NExp). apply path_digits; auto.
  - cbn [app path]. change (nstep NExpsign (cclass 45)) with (Some NExp). apply path_digits; auto.
Qed.

Lemma number_start : forall n c t fuel s, is_text (c :: t) -> ahead s (spaces n ++ c :: t) -> mid s -> digit c -> (n <= fuel)%nat ->
  exists s', ahead s' t /\ kept s s' /\ lx_text s' = [] /\ snek_lex C fuel s = number_loop C (fuel - n) NInt CDigit c s'.
Proof.
  intros n c t fuel s T A M Hc Hf.
  destruct (skip_token_spaces C n (fuel - n) s _ T A M) as (s0 & A0 & K0 & E0).
  replace (n + (fuel - n))%nat with fuel in E0 by lia.
  destruct (lex_step C (fuel - n) s0 _ T A0 (mid_kept _ _ K0 M)) as (s1 & A1 & K1 & X1 & E1). cbn [next tl] in *.
  exists (start_token s1). split; [exact A1|]. split; [eauto using kept_trans, kept_text|]. split; [reflexivity|].
  rewrite E0, E1. assert (Hs : lex_switch C (fuel - n) c s1 = Some (AFall, s1)).
  { unfold lex_switch. unfold digit in Hc.
    repeat match goal with |- context [c =? ?x] => let v := eval vm_compute in x in
      rewrite (proj2 (Z.eqb_neq c x)) by (change x with v; lia) end. reflexivity. }
  rewrite Hs. unfold lex_rest, between. change (ch "0") with 48. change (ch "9") with 57. unfold digit in Hc.
  rewrite (proj2 (Z.leb_le 48 c)), (proj2 (Z.leb_le c 57)) by lia. reflexivity.
Qed.

Ltac nocase := repeat match goal with |- context [if ?b then _ else _] => destruct b end; reflexivity.
Lemma numbers : forall n ip fp ep r fuel s, is_text (ip ++ fp ++ ep ++ r) -> ahead s (spaces n ++ ip ++ fp ++ ep ++ r) -> mid s ->
  numeral ip fp ep -> numeral_stops fp ep r -> (length (ip ++ fp ++ ep) <= 255)%nat -> (n + length (ip ++ fp ++ ep) <= fuel)%nat ->
  exists s', snek_lex C fuel s = Some (TNumber (no_underscores (ip ++ fp ++ ep)), s') /\ ahead s' r /\ same_block s s'.
Proof.
  intros n ip fp ep r fuel s T A M ((c & ip' & -> & Hc & Hip) & Hfp & Hep) (S1 & S2 & S3) HL Hf.
  cbn [app length] in *.
  destruct (number_start n c (ip' ++ fp ++ ep ++ r) fuel s T A M Hc) as (s1 & A1 & K1 & X1 & E1); [lia|].
  inversion T as [|? ? Tc Tw]; subst.
  assert (Hn : exists n', path NInt (ip' ++ fp ++ ep) = Some n' /\ nstep n' (cclass (next r)) = None).
  { rewrite path_app, (path_int ip' Hip).
    assert (Hr : 0 <= next r < 256) by (apply next_text; rewrite !text_app in Tw; tauto).
    assert (D : digitb (next r) = false).
    { destruct r as [|d r]; [reflexivity|]. destruct (digitb d) eqn:Q; [|exact Q]. apply digitb_spec in Q. elim (S1 d r eq_refl Q). }
    assert (Ee : ep = [] -> (next r =? 69) || (next r =? 101) = false).
    { intros ->. destruct r as [|d r]; [reflexivity|]. specialize (S2 eq_refl d r eq_refl). unfold exp_mark in S2. cbn [next].
      apply orb_false_iff. rewrite !Z.eqb_neq. tauto. }
    destruct Hfp as [->|(f & -> & Hf')].
    - cbn [app]. destruct Hep as [->|(e & sg & ds & -> & He & Hsg & Hne & Hds)].
      + exists NInt. split; [reflexivity|]. rewrite cclass_eq by exact Hr. unfold cclass'. rewrite D, (Ee eq_refl).
        assert (Eu : (next r =? 46) = false /\ (next r =? 95) = false).
        { destruct r as [|d r]; [split; reflexivity|]. specialize (S3 eq_refl eq_refl d r eq_refl). cbn beta in S3. cbn [next]. rewrite !Z.eqb_neq. tauto. }
        rewrite (proj1 Eu), (proj2 Eu). nocase.
      + exists NExp. split; [apply path_exp; auto|]. rewrite cclass_eq by exact Hr. unfold cclass'. rewrite D.
        nocase.
    - cbn [app path]. change (nstep NInt (cclass 46)) with (Some NFrac). cbv iota. rewrite path_app, (path_digits NFrac f) by auto.
      destruct Hep as [->|(e & sg & ds & -> & He & Hsg & Hne & Hds)].
      + exists NFrac. split; [reflexivity|]. rewrite cclass_eq by exact Hr. unfold cclass'. rewrite D, (Ee eq_refl).
        nocase.
      + exists NExp. split; [apply path_exp; auto|]. rewrite cclass_eq by exact Hr. unfold cclass'. rewrite D.
        nocase. }
  destruct Hn as (n' & P & St).
  assert (LF : forall w, (length (no_underscores w) <= length w)%nat).
  { induction w as [|d w IH]; cbn; [lia|]. unfold no_underscores in *. destruct (negb (d =? 95)); cbn; lia. }
  destruct (number_loop_runs (ip' ++ fp ++ ep) r (fuel - n) NInt n' CDigit c s1) as (s2 & E2 & A2 & K2); auto.
  { rewrite <- !app_assoc. exact Tw. } { rewrite <- !app_assoc. exact A1. } { lia. }
  { rewrite X1. specialize (LF (ip' ++ fp ++ ep)). cbn [keep length]. lia. }
  exists s2. rewrite E1, E2, X1. split; [|split; [exact A2 | apply (kept_trans _ _ _ K1 K2)]].
  rewrite filter_keep by (unfold digit in Hc; lia). rewrite (cclass_digit c Hc). reflexivity.
Qed.

(** Converse: the shape of whatever is accepted after a first digit. *)
Lemma path_digits_inv : forall w n n', n = NFrac \/ n = NExp -> is_text w -> path n w = Some n' ->
  (n' = n /\ Forall digit w) \/ (n = NFrac /\ exists ds e w', w = ds ++ e :: w' /\ Forall digit ds /\ exp_mark e /\ path NExpsign w' = Some n').
Proof.
  induction w as [|c w IH]; intros n n' Hn T P; [injection P as <-; left; auto|].
  inversion T as [|? ? Tc Tw]; subst. cbn [path] in P. rewrite (cclass_eq c ltac:(lia)) in P. unfold cclass' in P.
  destruct (digitb c) eqn:D.
  - apply digitb_spec in D. assert (P' : path n w = Some n') by (destruct Hn; subst n; exact P).
    destruct (IH n n' Hn Tw P') as [[-> H]|(-> & ds & e & w' & -> & H1 & H2 & H3)]; [left; auto|].
    right. split; [reflexivity|]. exists (c :: ds), e, w'. split; [reflexivity|]. auto.
  - destruct Hn; subst n; destruct (c =? 46); try discriminate; destruct ((c =? 69) || (c =? 101)) eqn:Q; try discriminate.
    2, 3: destruct ((c =? 43) || (c =? 45)); [discriminate|]; destruct (c =? 95); discriminate.
    right. split; [reflexivity|]. exists [], c, w. split; [reflexivity|]. split; [constructor|].
    split; [apply orb_true_iff in Q; rewrite !Z.eqb_eq in Q; exact Q | exact P].
Qed.
Lemma path_expsign_inv : forall w n', is_text w -> path NExpsign w = Some n' -> exists sg ds, w = sg ++ ds /\ sign sg /\ Forall digit ds.
Proof.
  intros [|c w] n' T P; [exists [], []; split; [reflexivity|]; split; [left; reflexivity | constructor]|].
  inversion T as [|? ? Tc Tw]; subst. cbn [path] in P. rewrite (cclass_eq c ltac:(lia)) in P. unfold cclass' in P.
  destruct (digitb c) eqn:D.
  - cbn [nstep] in P. destruct (path_digits_inv w NExp n' (or_intror eq_refl) Tw P) as [[_ H]|(H & _)]; [|discriminate].
    exists [], (c :: w). split; [reflexivity|]. split; [left; reflexivity|]. constructor; [apply digitb_spec; exact D | exact H].
  - destruct (c =? 46); [discriminate|]. destruct ((c =? 69) || (c =? 101)); [discriminate|]. destruct ((c =? 43) || (c =? 45)) eqn:Q; [|destruct (c =? 95); discriminate].
    cbn [nstep] in P. destruct (path_digits_inv w NExp n' (or_intror eq_refl) Tw P) as [[_ H]|(H & _)]; [|discriminate].
    exists [c], w. split; [reflexivity|]. split; [|exact H]. right. apply orb_true_iff in Q. rewrite !Z.eqb_eq in Q. destruct Q as [->| ->]; auto.
Qed.
Lemma path_inv : forall w n', is_text w -> path NInt w = Some n' ->
  exists ip fp ep, w = ip ++ fp ++ ep /\ Forall (fun c => digit c \/ c = 95) ip /\ frac_part fp /\ loose_exp ep.
Proof.
  induction w as [|c w IH]; intros n' T P.
  - exists [], [], []. split; [reflexivity|]. split; [constructor|]. split; left; reflexivity.
  - inversion T as [|? ? Tc Tw]; subst. cbn [path] in P. rewrite (cclass_eq c ltac:(lia)) in P. unfold cclass' in P.
    assert (HE : forall w', is_text w' -> path NExpsign w' = Some n' -> forall e, exp_mark e -> loose_exp (e :: w')).
    { intros w' T' P' e He. destruct (path_expsign_inv w' n' T' P') as (sg & ds & -> & H1 & H2). right. exists e, sg, ds. auto. }
    destruct (digitb c) eqn:D.
    + destruct (IH n' Tw P) as (ip & fp & ep & -> & H1 & H2 & H3). exists (c :: ip), fp, ep.
      split; [reflexivity|]. split; [constructor; [left; apply digitb_spec; exact D | exact H1] | auto].
    + destruct (Z.eqb_spec c 46) as [->|N46].
      * cbn [nstep] in P. destruct (path_digits_inv w NFrac n' (or_introl eq_refl) Tw P) as [[_ H]|(_ & ds & e & w' & -> & H1 & H2 & H3)].
        -- exists [], (46 :: w), []. rewrite app_nil_r. split; [reflexivity|]. split; [constructor|].
           split; [right; exists w; auto | left; reflexivity].
        -- exists [], (46 :: ds), (e :: w'). split; [reflexivity|]. split; [constructor|].
           split; [right; exists ds; auto|]. apply HE; auto. apply text_app in Tw. destruct Tw as [_ Tw]. inversion Tw; assumption.
      * destruct ((c =? 69) || (c =? 101)) eqn:Q.
        -- exists [], [], (c :: w). split; [reflexivity|]. split; [constructor|]. split; [left; reflexivity|].
           apply HE; auto. apply orb_true_iff in Q. rewrite !Z.eqb_eq in Q. exact Q.
        -- destruct ((c =? 43) || (c =? 45)); [discriminate|]. destruct (Z.eqb_spec c 95) as [->|N95]; [|discriminate].
           destruct (IH n' Tw P) as (ip & fp & ep & -> & H1 & H2 & H3). exists (95 :: ip), fp, ep.
           split; [reflexivity|]. split; [constructor; auto | auto].
Qed.

Lemma numbers_only : forall n c t fuel s x s', is_text (c :: t) -> ahead s (spaces n ++ c :: t) -> mid s -> digit c -> (n <= fuel)%nat ->
  snek_lex C fuel s = Some (TNumber x, s') ->
  exists ip fp ep r, c :: t = ip ++ fp ++ ep ++ r /\ int_part ip /\ frac_part fp /\ loose_exp ep /\
    x = no_underscores (ip ++ fp ++ ep) /\ ahead s' r.
Proof.
  intros n c t fuel s x s' T A M Hc Hf E.
  destruct (number_start n c t fuel s T A M Hc Hf) as (s1 & A1 & K1 & X1 & E1). rewrite E1 in E.
  inversion T as [|? ? Tc Tt]; subst.
  destruct (number_loop_only _ _ _ _ _ t x s' Tt A1 E) as (w & r & n' & -> & P & -> & A' & _).
  apply text_app in Tt. destruct (path_inv w n' (proj1 Tt) P) as (ip & fp & ep & -> & H1 & H2 & H3).
  exists (c :: ip), fp, ep, r. split; [cbn; rewrite <- !app_assoc; reflexivity|].
  split; [exists c, ip; auto|]. split; [exact H2|]. split; [exact H3|]. split; [|exact A'].
  change ((c :: ip) ++ fp ++ ep) with (c :: ip ++ fp ++ ep). rewrite filter_keep by lia. rewrite (cclass_digit c Hc), X1. reflexivity.
Qed.

(** ** Strings *)
Lemma hex_spec : forall c v, hex_digit c v -> hex c = v /\ 0 <= v < 16.
Proof.
  intros c v H. assert (Hc : 48 <= c <= 102) by (unfold hex_digit in H; lia).
  assert (V : v = if c <=? 57 then c - 48 else if c <=? 70 then c - 55 else c - 87).
  { unfold hex_digit in H. destruct (Z.leb_spec c 57); [lia|]. destruct (Z.leb_spec c 70); lia. }
  split; [| unfold hex_digit in H; lia].
  assert (B : forallb (fun c => if digitb c || ((65 <=? c) && (c <=? 70)) || ((97 <=? c) && (c <=? 102))
     then hex c =? (if c <=? 57 then c - 48 else if c <=? 70 then c - 55 else c - 87) else true) bytes = true) by (vm_compute; reflexivity).
  rewrite forallb_forall in B. specialize (B c (in_bytes c ltac:(lia))).
  assert (G : digitb c || ((65 <=? c) && (c <=? 70)) || ((97 <=? c) && (c <=? 102)) = true)
    by (rewrite !orb_true_iff, !andb_true_iff, !Z.leb_le, digitb_spec; unfold digit; unfold hex_digit in H; lia).
  rewrite G in B.
  apply Z.eqb_eq in B. rewrite B. symmetry. exact V.
Qed.
Lemma hex_pair_spec : forall a a' c d, hex_digit a c -> hex_digit a' d -> 16 * c + d < 128 -> hex_pair a a' = 16 * c + d.
Proof.
  intros a a' c d Ha Ha' L. destruct (hex_spec a c Ha) as [E1 B1]. destruct (hex_spec a' d Ha') as [E2 B2].
  unfold hex_pair. rewrite E1, E2.
  assert (Hb : forallb (fun c => forallb (fun d => if 16 * c + d <? 128 then s8 (Z.lor (s8 (c * 16)) d) =? 16 * c + d else true)
     (map Z.of_nat (seq 0 16))) (map Z.of_nat (seq 0 16)) = true) by (vm_compute; reflexivity).
  assert (In16 : forall z, 0 <= z < 16 -> In z (map Z.of_nat (seq 0 16))).
  { intros z Hz. apply in_map_iff. exists (Z.to_nat z). split; [lia|]. apply in_seq. lia. }
  rewrite forallb_forall in Hb. specialize (Hb c (In16 c B1)). cbv beta in Hb. rewrite forallb_forall in Hb. specialize (Hb d (In16 d B2)).
  cbv beta in Hb. rewrite (proj2 (Z.ltb_lt _ _) L) in Hb. apply Z.eqb_eq in Hb. exact Hb.
Qed.

Lemma c_string_text : forall v, is_text v -> c_string v = v.
Proof. induction 1 as [|c v Hc _ IH]; [reflexivity|]. cbn. rewrite (proj2 (Z.eqb_neq c 0)) by lia. congruence. Qed.

Lemma add_token_ok : forall c s t, ahead s t -> (length (lx_text s) < 255)%nat ->
  exists s', add_token c s = (true, s') /\ ahead s' t /\ kept s s' /\ lx_text s' = lx_text s ++ [c].
Proof. intros c s t A L. destruct (keep_token_runs CDigit c s t A) as (s' & H); [cbn; lia|]. exists s'. exact H. Qed.

(** One character of the literal: what is read ([e]) and what it stands for. *)
Definition escaped (s : lex) : option Z * lex :=
  let '(c, s) := lexchar C s in
  if c =? ch "n" then (Some 10, s)
  else if c =? ch "r" then (Some 13, s)
  else if c =? ch "t" then (Some 9, s)
  else if c =? ch "x" then
    let '(a, s) := lexchar C s in
    let '(b, s) := lexchar C s in
    let t := hex_pair a b in
    (if t <? 0 then None else Some t, s)
  else (Some c, s).
Lemma string_loop_eq : forall fuel q s, string_loop C fuel q s =
  let '(c, s) := lexchar C s in
  if c =? q then Some (if lc_alloc C then TString (c_string (lx_text s)) else TInvalid, s)
  else if c =? NL then Some (TInvalid, unlexchar C c s)
  else
    let '(c, s) := if c =? ch "\" then escaped s else (Some c, s) in
    match c with
    | None => Some (TInvalid, s)
    | Some c =>
        let '(ok, s) := add_token c s in
        if negb ok then Some (TInvalid, s)
        else match fuel with O => None | S fuel' => string_loop C fuel' q s end
    end.
Proof. intros [|fuel] q s; reflexivity. Qed.

Lemma string_loop_runs : forall q b v r, q = 34 \/ q = 39 -> body q b v -> forall fuel s,
  ahead s (b ++ q :: r) -> lc_alloc C = true -> is_text (lx_text s ++ v) ->
  (length (lx_text s) + length v <= 255)%nat -> (length v <= fuel)%nat ->
  exists s', string_loop C fuel q s = Some (TString (lx_text s ++ v), s') /\ ahead s' r /\ kept s s'.
Proof.
  intros q b v r Hq B.
  assert (Step : forall e c b' v' fuel s,
    (forall s t, ahead s (92 :: e ++ t) -> exists s1 s2, lexchar C s = (92, s1) /\ escaped s1 = (Some c, s2) /\ ahead s2 t /\ kept s s2 /\ lx_text s2 = lx_text s) ->
    (forall fuel s, ahead s (b' ++ q :: r) -> lc_alloc C = true -> is_text (lx_text s ++ v') ->
       (length (lx_text s) + length v' <= 255)%nat -> (length v' <= fuel)%nat ->
       exists s', string_loop C fuel q s = Some (TString (lx_text s ++ v'), s') /\ ahead s' r /\ kept s s') ->
    ahead s ((92 :: e ++ b') ++ q :: r) -> lc_alloc C = true -> is_text (lx_text s ++ c :: v') ->
    (length (lx_text s) + length (c :: v') <= 255)%nat -> (length (c :: v') <= fuel)%nat ->
    exists s', string_loop C fuel q s = Some (TString (lx_text s ++ c :: v'), s') /\ ahead s' r /\ kept s s').
  { intros e c b' v' fuel s He IH A Al T L Hf. cbn [app length] in *. rewrite <- app_assoc in A.
    destruct (He s _ A) as (s1 & s2 & E1 & E2 & A2 & K2 & X2).
    destruct (add_token_ok c s2 _ A2) as (s3 & E3 & A3 & K3 & X3); [rewrite X2; lia|].
    destruct fuel as [|fuel]; [lia|].
    destruct (IH fuel s3 A3 Al) as (s4 & E4 & A4 & K4).
    { rewrite X3, X2, <- app_assoc. exact T. } { rewrite X3, X2, app_length. cbn. lia. } { lia. }
    exists s4. split; [|split; [exact A4 | eauto using kept_trans]].
    rewrite string_loop_eq, E1. rewrite (proj2 (Z.eqb_neq 92 q)) by lia. change (92 =? NL) with false. change (92 =? ch "\") with true. cbv iota.
    rewrite E2, E3. cbn [negb]. rewrite E4, X3, X2, <- app_assoc. reflexivity. }
  induction B as [|c b v N1 N2 N3 B IH|b v B IH|b v B IH|b v B IH|a a' c d b v H1 H2 H3 B IH|c b v N B IH]; intros fuel s A Al T L Hf.
  - destruct (lexchar_next C s _ A) as (s1 & E1 & A1 & K1 & X1). cbn [app next tl] in *.
    exists s1. split; [|auto]. rewrite string_loop_eq, E1, Z.eqb_refl, Al, X1. rewrite app_nil_r in *. rewrite c_string_text by exact T. reflexivity.
  - destruct (lexchar_next C s _ A) as (s1 & E1 & A1 & K1 & X1). cbn [app next tl length] in *.
    destruct (add_token_ok c s1 _ A1) as (s3 & E3 & A3 & K3 & X3); [rewrite X1; lia|].
    destruct fuel as [|fuel]; [lia|].
    destruct (IH fuel s3 A3 Al) as (s4 & E4 & A4 & K4).
    { rewrite X3, X1, <- app_assoc. exact T. } { rewrite X3, X1, app_length. cbn. lia. } { lia. }
    exists s4. split; [|split; [exact A4 | eauto using kept_trans]].
    rewrite string_loop_eq, E1. rewrite (proj2 (Z.eqb_neq c q)) by lia. rewrite (proj2 (Z.eqb_neq c NL)) by exact N3.
    rewrite (proj2 (Z.eqb_neq c (ch "\"))) by exact N2. rewrite E3. cbn [negb]. rewrite E4, X3, X1, <- app_assoc. reflexivity.
  - apply (Step [ch "n"] 10 b v fuel s); auto. intros s0 t A0. destruct (lexchar_next C s0 _ A0) as (s1 & E1 & A1 & K1 & X1).
    destruct (lexchar_next C s1 _ A1) as (s2 & E2 & A2 & K2 & X2). exists s1, s2. split; [exact E1|].
    unfold escaped. rewrite E2. split; [reflexivity|]. split; [exact A2|]. split; [eauto using kept_trans | congruence].
  - apply (Step [ch "r"] 13 b v fuel s); auto. intros s0 t A0. destruct (lexchar_next C s0 _ A0) as (s1 & E1 & A1 & K1 & X1).
    destruct (lexchar_next C s1 _ A1) as (s2 & E2 & A2 & K2 & X2). exists s1, s2. split; [exact E1|].
    unfold escaped. rewrite E2. split; [reflexivity|]. split; [exact A2|]. split; [eauto using kept_trans | congruence].
  - apply (Step [ch "t"] 9 b v fuel s); auto. intros s0 t A0. destruct (lexchar_next C s0 _ A0) as (s1 & E1 & A1 & K1 & X1).
    destruct (lexchar_next C s1 _ A1) as (s2 & E2 & A2 & K2 & X2). exists s1, s2. split; [exact E1|].
    unfold escaped. rewrite E2. split; [reflexivity|]. split; [exact A2|]. split; [eauto using kept_trans | congruence].
  - apply (Step [ch "x"; a; a'] (16 * c + d) b v fuel s); auto. intros s0 t A0. destruct (lexchar_next C s0 _ A0) as (s1 & E1 & A1 & K1 & X1).
    destruct (lexchar_next C s1 _ A1) as (s2 & E2 & A2 & K2 & X2). destruct (lexchar_next C s2 _ A2) as (s3 & E3 & A3 & K3 & X3).
    destruct (lexchar_next C s3 _ A3) as (s4 & E4 & A4 & K4 & X4). exists s1, s4. split; [exact E1|]. cbn [app next tl] in *.
    unfold escaped. rewrite E2. change (ch "x" =? ch "n") with false. change (ch "x" =? ch "r") with false.
    change (ch "x" =? ch "t") with false. rewrite Z.eqb_refl. cbv iota. rewrite E3, E4, (hex_pair_spec a a' c d H1 H2 H3).
    destruct (hex_spec a c H1) as [_ B1]. destruct (hex_spec a' d H2) as [_ B2].
    cbv zeta. rewrite (proj2 (Z.ltb_ge _ _)) by lia.
    split; [reflexivity|]. split; [exact A4|]. split; [eauto 6 using kept_trans | congruence].
  - apply (Step [c] c b v fuel s); auto. intros s0 t A0. destruct (lexchar_next C s0 _ A0) as (s1 & E1 & A1 & K1 & X1).
    destruct (lexchar_next C s1 _ A1) as (s2 & E2 & A2 & K2 & X2). exists s1, s2. split; [exact E1|]. cbn [app next tl] in *.
    unfold escaped. rewrite E2.
    rewrite (proj2 (Z.eqb_neq c (ch "n"))) by (intros ->; apply N; cbn; auto).
    rewrite (proj2 (Z.eqb_neq c (ch "r"))) by (intros ->; apply N; cbn; auto).
    rewrite (proj2 (Z.eqb_neq c (ch "t"))) by (intros ->; apply N; cbn; auto).
    rewrite (proj2 (Z.eqb_neq c (ch "x"))) by (intros ->; apply N; cbn; auto).
    split; [reflexivity|]. split; [exact A2|]. split; [eauto using kept_trans | congruence].
Qed.

Lemma strings : forall n q b v r fuel s, q = 34 \/ q = 39 -> is_text (b ++ q :: r) -> ahead s (spaces n ++ q :: b ++ q :: r) -> mid s ->
  body q b v -> is_text v -> (length v <= 255)%nat -> lc_alloc C = true -> (n + length v <= fuel)%nat ->
  exists s', snek_lex C fuel s = Some (TString v, s') /\ ahead s' r /\ same_block s s'.
Proof.
  intros n q b v r fuel s Hq T A M B Tv L Al Hf.
  assert (T' : is_text (q :: b ++ q :: r)) by (constructor; [lia | exact T]).
  destruct (skip_token_spaces C n (fuel - n) s _ T' A M) as (s0 & A0 & K0 & E0).
  replace (n + (fuel - n))%nat with fuel in E0 by lia.
  destruct (lex_step C (fuel - n) s0 _ T' A0 (mid_kept _ _ K0 M)) as (s1 & A1 & K1 & X1 & E1). cbn [next tl] in *.
  destruct (string_loop_runs q b v r Hq B (fuel - n) (start_token s1) A1 Al) as (s2 & E2 & A2 & K2); cbn [start_token set_text lx_text app length]; auto; try lia.
  exists s2. split; [|split; [exact A2|]; apply (kept_trans _ s1); [exact (kept_trans _ _ _ K0 K1) | exact (kept_trans _ _ _ (kept_text s1 []) K2)]].
  rewrite E0, E1. assert (Hs : lex_switch C (fuel - n) q s1 = Some (AToken (TString v), s2)).
  { unfold lex_switch, string_. destruct Hq as [->| ->]; cbn -[string_loop]; rewrite E2; reflexivity. }
  rewrite Hs. reflexivity.
Qed.

(** Every string can be written. *)
Lemma writable : forall q v, q = 34 \/ q = 39 -> is_text v -> exists b, body q b v /\ is_text b.
Proof.
  intros q v Hq. induction 1 as [|c v Hc _ (b & B & Tb)]; [exists []; split; constructor|].
  destruct (Z.eq_dec c 10) as [->|N10].
  { exists (92 :: ch "n" :: b). split; [constructor; exact B|]. repeat (constructor; [cbn; lia|]). exact Tb. }
  destruct (Z.eq_dec c 92) as [->|N92].
  { exists (92 :: 92 :: b). split; [apply body_char; [cbn; intros H; decompose [or] H; try discriminate; contradiction | exact B]|]. repeat (constructor; [cbn; lia|]). exact Tb. }
  destruct (Z.eq_dec c q) as [->|Nq].
  { exists (92 :: q :: b). split; [apply body_char; [cbn; intros H; decompose [or] H; try lia; contradiction | exact B]|]. repeat (constructor; [lia|]). exact Tb. }
  exists (c :: b). split; [constructor; auto | constructor; auto].
Qed.
End P.
