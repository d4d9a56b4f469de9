(** Skipping the rest of a line. *)
From Coq Require Import ZArith Bool List Ascii String Lia.
From Verif Require Import Base LexModel LexSpec LexProofs LexProofs2 LexProofs4 LexProofs5 LexProofs6 RecModel.
Import ListNotations.
Local Open Scope Z_scope.
Notation length := List.length (only parsing).

(** A piece of a line without comment; after a backslash come three characters
    at least. *)
Definition plain (p : list Z) : Prop :=
  Forall (fun c => 0 < c < 256 /\ c <> NL /\ c <> ch "#") p /\ forall a b, p = a ++ 92 :: b -> (3 <= length b)%nat.
Definition suffix (p' p : list Z) : Prop := exists x, p = x ++ p'.
Lemma suffix_refl p : suffix p p.
Proof. exists []. reflexivity. Qed.
Lemma suffix_cons c p' p : suffix p' p -> suffix p' (c :: p).
Proof. intros [x ->]. exists (c :: x). reflexivity. Qed.
Lemma suffix_trans a b c : suffix a b -> suffix b c -> suffix a c.
Proof. intros [x ->] [y ->]. exists (y ++ x). rewrite app_assoc. reflexivity. Qed.
Lemma suffix_tail c a b : suffix (c :: a) b -> suffix a b.
Proof. intros [x ->]. exists (x ++ [c]). rewrite <- app_assoc. reflexivity. Qed.
Lemma suffix_length a b : suffix a b -> (length a <= length b)%nat.
Proof. intros [x ->]. rewrite app_length. lia. Qed.
Lemma plain_suffix p' p : suffix p' p -> plain p -> plain p'.
Proof.
  intros [x ->] [A B]. apply Forall_app in A. split; [apply A|]. intros a b ->. apply (B (x ++ a)). rewrite app_assoc. reflexivity.
Qed.

Section P.
Variable C : lexcfg.
Variable rest : list Z.
(** What ends the piece: the end of the line, or the start of a comment. *)
Variable e : Z.
Hypothesis He : e = NL \/ e = ch "#".

Definition here (p : list Z) (s : lex) : Prop := lx_unget s ++ lx_input s = p ++ e :: rest /\ (length (lx_unget s) <= Datatypes.S (length p))%nat.
Definition past (s : lex) : Prop := lx_unget s = [] /\ lx_input s = rest.
Definition stops (p : list Z) : Prop := e = NL \/ Forall (fun c => c <> 34 /\ c <> 39) p.

Lemma read_here c p s : here (c :: p) s -> exists s1, lexchar C s = (c, s1) /\ here p s1 /\ kept s s1 /\ lx_text s1 = lx_text s.
Proof.
  intros [H L]. unfold lexchar. destruct (lx_unget s) as [|d u] eqn:Eu.
  - cbn in H. rewrite H. cbn [app]. eexists. split; [reflexivity|]. split; [split; [reflexivity|cbn; lia]|]. repeat split.
  - cbn in H. injection H as -> H. eexists. split; [reflexivity|]. split; [split; [exact H|cbn in L |- *; lia]|]. repeat split.
Qed.
Lemma read_end s : here [] s -> exists s1, lexchar C s = (e, s1) /\ past s1 /\ kept s s1 /\ lx_text s1 = lx_text s.
Proof.
  intros [H L]. unfold lexchar. destruct (lx_unget s) as [|d u] eqn:Eu.
  - cbn in H. rewrite H. eexists. split; [reflexivity|]. split; [split; reflexivity|]. repeat split.
  - cbn in H, L. injection H as -> H. destruct u; [|cbn in L; lia]. eexists. split; [reflexivity|]. split; [split; [reflexivity|exact H]|]. repeat split.
Qed.
Lemma back_here c p s : here p s -> here (c :: p) (unlexchar C c s).
Proof. intros [H L]. split; [cbn; f_equal; exact H|cbn; lia]. Qed.
Lemma back_end s : past s -> here [] (unlexchar C e s).
Proof. intros [A B]. split; [cbn; rewrite A, B; reflexivity|cbn; rewrite A; cbn; lia]. Qed.
Lemma here_text p s t : here p s -> here p (set_text t s).
Proof. intros H. exact H. Qed.

(** One character, of the piece or the one that ends it. *)
Definition at_char (p : list Z) (c : Z) (s1 : lex) : Prop :=
  (exists p', p = c :: p' /\ here p' s1) \/ (p = [] /\ c = e /\ past s1).
Lemma read_any p s : here p s -> exists c s1, lexchar C s = (c, s1) /\ at_char p c s1 /\ kept s s1 /\ lx_text s1 = lx_text s.
Proof.
  intros H. destruct p as [|c p].
  - destruct (read_end _ H) as (s1 & A & B & D). exists e, s1. split; [exact A|]. split; [right; auto|exact D].
  - destruct (read_here _ _ _ H) as (s1 & A & B & D). exists c, s1. split; [exact A|]. split; [left; eauto|exact D].
Qed.
Lemma back_any p c s1 : at_char p c s1 -> here p (unlexchar C c s1).
Proof. intros [(p' & -> & H)|(-> & -> & H)]; [apply back_here|apply back_end]; exact H. Qed.
Lemma at_text p c s t : at_char p c s -> at_char p c (set_text t s).
Proof. intros H. exact H. Qed.
Lemma e_nz : e <> 0 /\ 0 < e < 256.
Proof. destruct He as [-> | ->]; cbv; intuition congruence. Qed.
Lemma char_nz p c s : plain p -> at_char p c s -> 0 < c < 256.
Proof. intros [A _] [(p' & -> & _)|(_ & -> & _)]; [inversion A; tauto|apply e_nz]. Qed.

Lemma token_any p s : plain p -> here p s -> (length (lx_text s) < 255)%nat ->
  exists c s1, lextoken C s = (c, s1) /\ at_char p c s1 /\ kept s s1 /\ lx_text s1 = lx_text s ++ [c].
Proof.
  intros Pl H L. destruct (read_any _ _ H) as (c & s1 & A & B & D & T). exists c, (set_text (lx_text s ++ [c]) s1).
  unfold lextoken. rewrite A. pose proof (char_nz _ _ _ Pl B). destruct (Z.eqb_spec c SNEK_EOF); [unfold SNEK_EOF in *; lia|].
  unfold add_token, SNEK_MAX_TOKEN. rewrite T. destruct (Z.eqb_spec (Z.of_nat (length (lx_text s))) 255); [lia|].
  split; [reflexivity|]. split; [apply at_text; exact B|]. split; [|reflexivity]. eapply kept_trans; [exact D|apply kept_text].
Qed.
Lemma back_token p c s1 : at_char p c s1 -> here p (unlextoken C c s1) /\ kept s1 (unlextoken C c s1) /\ lx_text (unlextoken C c s1) = removelast (lx_text s1).
Proof. intros H. split; [exact (back_any _ _ _ H)|]. split; [repeat split|reflexivity]. Qed.

(** [s'] is further on in the piece than [s]. *)
Definition on (p : list Z) (s s' : lex) : Prop := exists p', suffix p' p /\ here p' s' /\ kept s s'.
Lemma on_kept p s s' : here p s' -> kept s s' -> on p s s'.
Proof. intros H K. exists p. split; [apply suffix_refl|]. auto. Qed.
Lemma on_more p s s' : (exists c p', p = c :: p' /\ here p' s') -> kept s s' -> on p s s'.
Proof. intros (c & p' & -> & H) K. exists p'. split; [apply suffix_cons, suffix_refl|]. auto. Qed.

(** ** Names *)
Lemma e_name : is_name e false = false.
Proof. destruct He as [-> | ->]; reflexivity. Qed.
Lemma name_on : forall p fuel s, plain p -> here p s -> (length (lx_text s) + length p < 255)%nat -> (length p <= fuel)%nat ->
  exists c s1 p', name_loop C fuel s = Some (c, s1) /\ suffix p' p /\ at_char p' c s1 /\ kept s s1 /\ (length (lx_text s1) <= length (lx_text s) + length p - length p' + 1)%nat.
Proof.
  induction p as [|c p IH]; intros fuel s Pl H L F; destruct (token_any _ _ Pl H ltac:(cbn in L; lia)) as (d & s1 & A & B & K & T).
  - destruct B as [(p' & B & _)|(_ & -> & B)]; [discriminate|]. exists e, s1, []. split; [destruct fuel; cbn [name_loop]; rewrite A, e_name; reflexivity|].
    split; [apply suffix_refl|]. split; [right; auto|]. split; [exact K|]. rewrite T, app_length. cbn. lia.
  - destruct B as [(p' & [= <- <-] & B)|(B & _)]; [|discriminate]. cbn [length] in *. destruct fuel as [|fuel]; [lia|]. cbn [name_loop]. rewrite A.
    destruct (is_name c false).
    + destruct (IH fuel s1 (plain_suffix _ _ (suffix_cons _ _ _ (suffix_refl p)) Pl) B) as (d & s2 & p' & E & S & D & K2 & T2).
      { rewrite T, app_length. cbn. lia. } { lia. }
      exists d, s2, p'. split; [exact E|]. split; [apply suffix_cons; exact S|]. split; [exact D|]. split; [eapply kept_trans; eauto|].
      rewrite T, app_length in T2. cbn in T2. pose proof (suffix_length _ _ S). lia.
    + exists c, s1, (c :: p). split; [reflexivity|]. split; [apply suffix_refl|]. split; [left; eauto|]. split; [exact K|]. rewrite T, app_length. cbn. lia.
Qed.
Lemma spaces_on : forall p fuel b s, plain p -> here p s -> (length p <= fuel)%nat ->
  exists c b' s1 p', skip_spaces C fuel b s = Some (c, b', s1) /\ at_char p' c s1 /\ kept s s1 /\ lx_text s1 = lx_text s /\
    ((b' = b /\ p' = p) \/ (b' = true /\ exists x, p = x ++ ch " " :: p')).
Proof.
  induction p as [|c p IH]; intros fuel b s Pl H F; destruct (read_any _ _ H) as (d & s1 & A & B & K & T).
  - destruct B as [(p' & B & _)|(_ & -> & B)]; [discriminate|]. exists e, b, s1, []. split.
    { destruct fuel; cbn [skip_spaces]; rewrite A; destruct He as [-> | ->]; reflexivity. }
    split; [right; auto|]. auto.
  - destruct B as [(p' & [= <- <-] & B)|(B & _)]; [|discriminate]. cbn [length] in *. destruct fuel as [|fuel]; [lia|]. cbn [skip_spaces]. rewrite A.
    destruct (Z.eqb_spec c (ch " ")) as [->|N].
    + destruct (IH fuel true s1 (plain_suffix _ _ (suffix_cons _ _ _ (suffix_refl p)) Pl) B ltac:(lia)) as (d & b' & s2 & p' & E & D & K2 & T2 & X).
      exists d, b', s2, p'. split; [exact E|]. split; [exact D|]. split; [eapply kept_trans; eauto|].
      split; [congruence|]. right. destruct X as [[-> ->]|[-> [x ->]]]; [split; [reflexivity|exists []; reflexivity]|].
      split; [reflexivity|]. exists (ch " " :: x). reflexivity.
    + exists c, b, s1, (c :: p). split; [reflexivity|]. split; [left; eauto|]. auto.
Qed.

Lemma unlex_all_here : forall done p s, here p s -> here (rev done ++ p) (unlex_all C done s) /\ kept s (unlex_all C done s).
Proof.
  induction done as [|c done IH]; intros p s H; cbn [unlex_all rev app]; [split; [exact H|apply kept_refl]|].
  rewrite <- app_assoc. cbn [app]. destruct (IH (c :: p) (unlextoken C c s)) as [A B]; [exact (back_here c p s H)|].
  split; [exact A|]. eapply kept_trans; [|exact B]. repeat split.
Qed.

Lemma suffix_drop a b c P : suffix (a ++ b ++ c) P -> suffix c P.
Proof. intros [x ->]. exists (x ++ a ++ b). rewrite <- !app_assoc. reflexivity. Qed.
Lemma match_on : forall todo done sp c p P s a b, todo <> [] -> Forall (fun n => n <> e) todo -> plain p -> at_char p c s ->
  suffix ((if sp : bool then [ch " "] else []) ++ rev done ++ p) P -> (length (lx_text s) + length p <= 255)%nat ->
  on P s (snd (match_word C done todo sp c a b s)).
Proof.
  induction todo as [|n todo IH]; intros done sp c p P s a b Hnil Hw Pl B S L; cbn [match_word]; [contradiction|].
  inversion Hw as [|? ? Hn Hw']; subst. destruct (Z.eqb_spec c n) as [->|N]; cbn [negb].
  + destruct B as [(p' & -> & H)|(-> & -> & H)]; [|contradiction].
    pose proof (suffix_tail _ _ _ (suffix_drop _ _ _ _ S)) as Sp.
    destruct todo as [|m todo]; [cbn [snd]; exists p'; split; [exact Sp|]; split; [exact H|apply kept_refl]|].
    pose proof (plain_suffix _ _ (suffix_cons n _ _ (suffix_refl p')) Pl) as Pl'. cbn [length] in L.
    destruct (token_any _ _ Pl' H ltac:(lia)) as (d & s1 & A & B & K & T). rewrite A.
    destruct (IH (n :: done) sp d p' P s1 a b ltac:(discriminate) Hw' Pl' B) as (q & Q1 & Q2 & Q3).
    { cbn [rev]. rewrite <- app_assoc. exact S. } { rewrite T, app_length. cbn. lia. }
    exists q. split; [exact Q1|]. split; [exact Q2|]. eapply kept_trans; eauto.
  + cbn [snd]. destruct (back_token _ _ _ B) as (H & K & _). destruct (unlex_all_here done p _ H) as [H2 K2].
    eexists. split; [exact S|]. destruct sp.
    * split; [exact (back_here (ch " ") _ _ H2)|]. eapply kept_trans; [exact K|]. eapply kept_trans; [exact K2|]. repeat split.
    * split; [exact H2|]. eapply kept_trans; eauto.
Qed.

Lemma added c s : kept s (snd (add_token c s)) /\ (forall p, here p s -> here p (snd (add_token c s))) /\
  (forall p d, at_char p d s -> at_char p d (snd (add_token c s))) /\ (length (lx_text (snd (add_token c s))) <= Datatypes.S (length (lx_text s)))%nat.
Proof.
  unfold add_token. destruct (_ =? _); cbn [snd].
  - split; [apply kept_refl|]. split; [auto|]. split; [auto|lia].
  - split; [apply kept_text|]. split; [auto|]. split; [auto|]. cbn. rewrite app_length. cbn. lia.
Qed.
Lemma trailing_on w p fuel s a b : plain p -> here p s -> w <> [] -> Forall (fun n => n <> e) w ->
  (length (lx_text s) + length p < 254)%nat -> (length p <= fuel)%nat ->
  exists k s', trailing C fuel w a b s = Some (k, s') /\ on p s s'.
Proof.
  intros Pl H Hn Hw L F. destruct (spaces_on p fuel false s Pl H F) as (c & sp & s1 & p' & A & B & K & T & X). unfold trailing. rewrite A.
  set (s2 := if sp then snd (add_token (ch " ") s1) else s1).
  assert (S2 : kept s1 s2 /\ at_char p' c s2 /\ (length (lx_text s2) <= length (lx_text s) + (if sp then 1 else 0))%nat).
  { subst s2. destruct sp; [|split; [apply kept_refl|]; split; [exact B|rewrite T; lia]].
    destruct (added (ch " ") s1) as (Q1 & _ & Q3 & Q4). split; [exact Q1|]. split; [auto|]. rewrite <- T. lia. }
  destruct S2 as (K2 & B2 & L2). destruct (added c s2) as (K3 & _ & B3 & L3). specialize (B3 _ _ B2).
  destruct (match_word C [] w sp c a b (snd (add_token c s2))) as [k s'] eqn:E. exists k, s'. split; [reflexivity|].
  assert (Ss : suffix ((if sp then [ch " "] else []) ++ rev [] ++ p') p /\ (length p' + (if sp then 1 else 0) <= length p)%nat).
  { destruct X as [[-> ->]|[-> [x ->]]]; cbn [rev app]; [split; [apply suffix_refl|lia]|]. split; [exists x; reflexivity|]. rewrite app_length. cbn. lia. }
  destruct Ss as [Ss Ls].
  assert (Pl' : plain p') by exact (plain_suffix _ _ (suffix_drop _ _ _ _ Ss) Pl).
  pose proof (match_on w [] sp c p' p _ a b Hn Hw Pl' B3 Ss ltac:(lia)) as (q & Q1 & Q2 & Q3). rewrite E in Q2, Q3. cbn [snd] in *.
  exists q. split; [exact Q1|]. split; [exact Q2|]. eapply kept_trans; [exact K|]. eapply kept_trans; [exact K2|]. eapply kept_trans; [exact K3|exact Q3].
Qed.

Lemma word_on p fuel s : plain p -> here p s -> (length (lx_text s) + length p < 254)%nat -> (length p <= fuel)%nat ->
  exists k s', word C fuel s = Some (k, s') /\ on p s s'.
Proof.
  intros Pl H L F. destruct (name_on p fuel s Pl H ltac:(lia) F) as (c & s1 & p' & A & S & B & K & T). unfold word. rewrite A. cbv zeta.
  destruct (back_token _ _ _ B) as (H2 & K2 & T2). set (s2 := unlextoken C c s1) in *.
  assert (K' : kept s s2) by (eapply kept_trans; eauto). pose proof (plain_suffix _ _ S Pl) as Pl'. pose proof (suffix_length _ _ S).
  assert (L2 : (length (lx_text s2) + length p' < 254)%nat).
  { rewrite T2. destruct (lx_text s1) as [|x t] eqn:Et; [cbn; lia|]. pose proof (app_removelast_last 0 (l := x :: t) ltac:(discriminate)) as E.
    apply (f_equal (@List.length Z)) in E. rewrite app_length in E. cbn [List.length] in E, T. lia. }
  assert (On : forall (k : token) (s' : lex), (exists q, suffix q p' /\ here q s' /\ kept s2 s') -> exists k0 s0, Some (k, s') = Some (k0, s0) /\ on p s s0).
  { intros k s' (q & Q1 & Q2 & Q3). exists k, s'. split; [reflexivity|]. exists q. split; [eapply suffix_trans; eauto|]. split; [exact Q2|]. eapply kept_trans; eauto. }
  assert (Stay : exists q, suffix q p' /\ here q s2 /\ kept s2 s2) by (exists p'; split; [apply suffix_refl|]; split; [exact H2|apply kept_refl]).
  assert (Tr : forall w a b, w <> [] -> Forall (fun n => n <> e) w -> exists k0 s0, trailing C fuel w a b s2 = Some (k0, s0) /\ on p s s0).
  { intros w a b Hn Hw. destruct (trailing_on w p' fuel s2 a b Pl' H2 Hn Hw L2 ltac:(lia)) as (k & s' & E & O). rewrite E. apply On. exact O. }
  destruct (is_keyword _); [|apply On, Stay].
  destruct (text_eqb _ _); [apply Tr; [discriminate|destruct He as [-> | ->]; repeat constructor; discriminate]|].
  destruct (text_eqb _ _); [apply Tr; [discriminate|destruct He as [-> | ->]; repeat constructor; discriminate]|].
  destruct (text_eqb _ _); apply On, Stay.
Qed.

(** ** Numbers *)
Lemma e_num n : nstep n (cclass e) = None.
Proof. destruct He as [-> | ->]; destruct n; reflexivity. Qed.
Lemma number_on : forall p fuel n t c s, plain p -> here p s -> (length p <= fuel)%nat -> exists k s', number_loop C fuel n t c s = Some (k, s') /\ on p s s'.
Proof.
  induction p as [|d p IH]; intros fuel n t c s Pl H F.
  all: assert (X : exists ok s1, match t with CUnderscore => (true, s) | _ => add_token c s end = (ok, s1) /\ kept s s1 /\ forall q, here q s -> here q s1).
  1, 3: destruct (add_token c s) as [ok s1] eqn:Ea; destruct (added c s) as (Q1 & Q2 & _); rewrite Ea in Q1, Q2; cbn [snd] in *;
    destruct t; eexists _, _; (split; [reflexivity|]); auto using kept_refl.
  all: destruct X as (ok & s1 & E1 & K1 & H1); specialize (H1 _ H).
  - destruct (read_end _ H1) as (s2 & A & B & K & T). assert (G : number_loop C fuel n t c s = if negb ok then Some (TInvalid, s1) else Some (TNumber (lx_text (unlexchar C e s2)), unlexchar C e s2)).
    { destruct fuel; cbn [number_loop]; rewrite E1; destruct ok; cbn [negb]; rewrite ?A, ?e_num; reflexivity. }
    rewrite G. destruct ok; cbn [negb]; eexists _, _; (split; [reflexivity|]); [|apply on_kept; assumption].
    apply on_kept; [apply back_end; exact B|]. eapply kept_trans; [exact K1|]. eapply kept_trans; [exact K|]. apply unlexchar_kept.
  - cbn [length] in F. destruct fuel as [|fuel]; [lia|]. cbn [number_loop]. rewrite E1. destruct ok; cbn [negb]; [|eexists _, _; split; [reflexivity|]; apply on_kept; assumption].
    destruct (read_here _ _ _ H1) as (s2 & A & B & K & T). rewrite A. destruct (nstep n (cclass d)) as [n'|].
    + destruct (IH fuel n' (cclass d) d s2 (plain_suffix _ _ (suffix_cons _ _ _ (suffix_refl p)) Pl) B ltac:(lia)) as (k & s' & E & q & Q1 & Q2 & Q3).
      exists k, s'. split; [exact E|]. exists q. split; [apply suffix_cons; exact Q1|]. split; [exact Q2|]. eapply kept_trans; [exact K1|]. eapply kept_trans; eauto.
    + eexists _, _. split; [reflexivity|]. apply on_kept; [apply back_here; exact B|]. eapply kept_trans; [exact K1|]. eapply kept_trans; [exact K|]. apply unlexchar_kept.
Qed.

(** ** Strings *)
Lemma escape_on p s : plain (92 :: p) -> here p s -> exists r s', escape C s = (r, s') /\ on p s s'.
Proof.
  intros Pl H. pose proof (proj2 Pl [] p eq_refl) as L. destruct p as [|a [|b [|c p]]]; cbn [length] in L; try lia.
  unfold escape. destruct (read_here _ _ _ H) as (s1 & A1 & B1 & K1 & _). rewrite A1.
  assert (O1 : on (a :: b :: c :: p) s s1) by (exists (b :: c :: p); split; [apply suffix_cons, suffix_refl|]; auto).
  destruct (_ =? _); [eauto|]. destruct (_ =? _); [eauto|]. destruct (_ =? _); [eauto|]. destruct (_ =? _); [|eauto].
  destruct (read_here _ _ _ B1) as (s2 & A2 & B2 & K2 & _). rewrite A2. destruct (read_here _ _ _ B2) as (s3 & A3 & B3 & K3 & _). rewrite A3. cbv zeta.
  eexists _, s3. split; [reflexivity|]. exists p. split; [do 3 apply suffix_cons; apply suffix_refl|]. split; [exact B3|].
  eapply kept_trans; [exact K1|]. eapply kept_trans; eauto.
Qed.
Lemma string_on : e = NL -> forall fuel p q s, plain p -> q <> NL -> here p s -> (length p <= fuel)%nat -> exists k s', string_loop C fuel q s = Some (k, s') /\ on p s s'.
Proof.
  intros Ee. induction fuel as [|fuel IH]; intros p q s Pl Nq H F; rewrite string_loop_step.
  - destruct p; [|cbn in F; lia]. destruct (read_end _ H) as (s1 & A & B & K & _). rewrite A, Ee.
    destruct (Z.eqb_spec NL q); [congruence|]. rewrite Z.eqb_refl. eexists _, _. split; [reflexivity|]. rewrite <- Ee.
    apply on_kept; [apply back_end; exact B|]. eapply kept_trans; [exact K|]. apply unlexchar_kept.
  - destruct p as [|c p].
    { destruct (read_end _ H) as (s1 & A & B & K & _). rewrite A, Ee.
      destruct (Z.eqb_spec NL q); [congruence|]. rewrite Z.eqb_refl. eexists _, _. split; [reflexivity|]. rewrite <- Ee.
      apply on_kept; [apply back_end; exact B|]. eapply kept_trans; [exact K|]. apply unlexchar_kept. }
    destruct (read_here _ _ _ H) as (s1 & A & B & K & _). rewrite A. pose proof (plain_suffix _ _ (suffix_cons c _ _ (suffix_refl p)) Pl) as Pl'.
    assert (O1 : on (c :: p) s s1) by (exists p; split; [apply suffix_cons, suffix_refl|]; auto).
    destruct (_ =? _); [eauto|]. destruct Pl as [Pf Pb]. inversion Pf as [|? ? (_ & Nn & _) _]; subst. destruct (Z.eqb_spec c NL); [contradiction|].
    assert (X : exists r s2, (if c =? ch "\" then escape C s1 else (Some c, s1)) = (r, s2) /\ on p s1 s2).
    { destruct (Z.eqb_spec c (ch "\")) as [->|]; [apply escape_on; [split; assumption|exact B]|]. eexists _, _. split; [reflexivity|]. apply on_kept; [exact B|apply kept_refl]. }
    destruct X as (r & s2 & E2 & p2 & S2 & H2 & K2). rewrite E2.
    assert (O2 : on (c :: p) s s2) by (exists p2; split; [apply suffix_cons; exact S2|]; split; [exact H2|eapply kept_trans; eauto]).
    destruct r as [d|]; [|eauto]. destruct (add_token d s2) as [ok s3] eqn:E3. destruct (added d s2) as (Q1 & Q2 & _). rewrite E3 in Q1, Q2. cbn [snd] in *.
    destruct ok; cbn [negb].
    + pose proof (suffix_length _ _ S2). cbn [length] in F. destruct (IH p2 q s3 (plain_suffix _ _ S2 Pl') Nq (Q2 _ H2) ltac:(lia)) as (k & s' & E & p4 & S4 & H4 & K4).
      exists k, s'. split; [exact E|]. exists p4. split; [apply suffix_cons; eapply suffix_trans; eauto|]. split; [exact H4|].
      eapply kept_trans; [exact K|]. eapply kept_trans; [exact K2|]. eapply kept_trans; eauto.
    + eexists _, _. split; [reflexivity|]. exists p2. split; [apply suffix_cons; exact S2|]. split; [auto|]. eapply kept_trans; [exact K|]. eapply kept_trans; eauto.
Qed.
End P.
