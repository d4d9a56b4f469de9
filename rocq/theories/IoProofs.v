From Coq Require Import ZArith Lia Bool List.
From Verif Require Import Base IoModel IoSpec.
Import ListNotations.
Local Open Scope Z_scope.

Section WithCfg.
Variable C : iocfg.
Hypothesis HL : 1 <= ic_linebuf C <= 255.
Notation L := (ic_linebuf C).
Notation room := (Z.to_nat (L - 1)).

(** The buffer holds [line], nothing of it read. *)
Record holds (s : io) (line : list Z) : Prop := {
  h_size : Z.of_nat (length (io_buf s)) = L;
  h_avail : io_avail s = Z.of_nat (length line);
  h_line : firstn (length line) (io_buf s) = line;
  h_used : io_used s = 0;
  h_unget : io_unget s = 0;
}.

Lemma wrapu8 n : 0 <= n < 256 -> wrapu 8 n = n.
Proof. intros H. apply Z.mod_small. exact H. Qed.

Lemma firstn_set {A} (b : list A) n c : (n < length b)%nat ->
  firstn (S n) (firstn n b ++ c :: skipn (S n) b) = firstn n b ++ [c].
Proof.
  intros H. rewrite firstn_app. rewrite firstn_length_le by lia.
  replace (S n - n)%nat with 1%nat by lia. rewrite firstn_all2 by (rewrite firstn_length_le by lia; lia).
  reflexivity.
Qed.
Lemma length_set {A} (b : list A) n c : (n < length b)%nat ->
  length (firstn n b ++ c :: skipn (S n) b) = length b.
Proof. intros H. rewrite app_length, firstn_length_le by lia. cbn [length]. rewrite skipn_length. lia. Qed.

Lemma addc_holds s line c : holds s line -> (length line < Z.to_nat L)%nat ->
  exists s', addc C c s = Ok s' /\ holds s' (line ++ [c]).
Proof.
  intros [Hs Ha Hl Hu Hg] Hr. unfold addc, buf_set. rewrite Ha.
  destruct (Z.leb_spec 0 (Z.of_nat (length line))); [|lia].
  destruct (Z.ltb_spec (Z.of_nat (length line)) L); [|lia].
  destruct (Z.ltb_spec (Z.of_nat (length line)) (Z.of_nat (length (io_buf s)))); [|lia]. cbn [andb obind].
  eexists. split; [reflexivity|]. rewrite Nat2Z.id.
  assert (B : (length line < length (io_buf s))%nat) by lia.
  constructor; cbn [set_avail io_buf io_avail io_used io_unget].
  - rewrite length_set by exact B. exact Hs.
  - rewrite wrapu8 by lia. rewrite app_length. cbn [length]. lia.
  - rewrite app_length. cbn [length]. rewrite Nat.add_1_r, firstn_set, Hl by exact B. reflexivity.
  - exact Hu.
  - exact Hg.
Qed.

Lemma removelast_length {A} (l : list A) : length (removelast l) = pred (length l).
Proof. induction l as [|a [|b l] IH]; auto. cbn [removelast length] in *. rewrite IH. reflexivity. Qed.
Lemma removelast_firstn' {A} (l : list A) : removelast l = firstn (pred (length l)) l.
Proof. induction l as [|a [|b l] IH]; auto. cbn [removelast length pred firstn] in *. rewrite IH. reflexivity. Qed.

Lemma type_key_length c line : (length line <= room)%nat -> (length (type_key room line c) <= room)%nat.
Proof.
  intros H. unfold type_key. destruct (erase_key c); [rewrite removelast_length; lia|].
  destruct (kill_key c); [cbn; lia|]. destruct (typed c); [|exact H].
  destruct (Nat.ltb_spec (length line) room); [|exact H]. rewrite app_length. cbn [length]. lia.
Qed.

Lemma holds_set_avail s line n : holds s line -> (n <= length line)%nat ->
  holds (set_avail (Z.of_nat n) s) (firstn n line) \/ 256 <= Z.of_nat n.
Proof.
  intros [Hs Ha Hl Hu Hg] H. destruct (Z_lt_ge_dec (Z.of_nat n) 256); [left|right; lia].
  constructor; cbn [set_avail io_buf io_avail io_used io_unget]; auto.
  - rewrite wrapu8 by lia. rewrite firstn_length_le by lia. reflexivity.
  - rewrite firstn_length_le by lia. rewrite <- Hl, firstn_firstn. f_equal. lia.
Qed.

Lemma key_holds s line c : plain_key c -> holds s line -> (length line <= room)%nat ->
  exists s', key C c s = Ok (Again, s') /\ holds s' (type_key room line c).
Proof.
  intros (Hc & He & Hi) H Hr. unfold end_key, interrupt_key in *. unfold key, NL, CTRL_N, CTRL_O, CTRL_C, CTRL_H, DEL, CTRL_U, TAB, SP.
  rewrite He. unfold type_key, erase_key, kill_key, typed.
  destruct (Z.eqb_spec c 14) as [->|N14]; [eexists; split; [reflexivity|]; destruct H; constructor; assumption|].
  destruct (Z.eqb_spec c 15) as [->|N15]; [eexists; split; [reflexivity|]; destruct H; constructor; assumption|].
  rewrite Hi. destruct ((c =? 8) || (c =? 127)) eqn:E.
  - eexists. split; [reflexivity|]. rewrite (h_avail _ _ H).
    destruct (Z.eqb_spec (Z.of_nat (length line)) 0) as [Z0|NZ].
    + destruct line; [exact H|cbn [length] in Z0; lia].
    + rewrite removelast_firstn'. unfold backspace. rewrite (h_avail _ _ H).
      replace (Z.of_nat (length line) - 1) with (Z.of_nat (pred (length line))) by lia.
      destruct (holds_set_avail s line (pred (length line)) H) as [K|K]; [lia|exact K|lia].
  - destruct (Z.eqb_spec c 21) as [->|N21].
    + eexists. split; [reflexivity|]. 
      destruct (holds_set_avail s line 0 H) as [K|K]; [lia|exact K|lia].
    + apply orb_false_iff in E as [E8 E127]. destruct (Z.eqb_spec c 9) as [->|N9].
      * cbn [Z.leb Z.compare Pos.compare Pos.compare_cont]. rewrite (h_avail _ _ H).
        destruct (Z.ltb_spec (Z.of_nat (length line)) (L - 1)) as [B|B];
          destruct (Nat.ltb_spec (length line) room) as [B'|B']; try lia.
        -- destruct (addc_holds s line 32 H) as (s' & A & A'); [lia|]. rewrite A. cbn [obind]. eauto.
        -- eauto.
      * destruct (Z.leb_spec 32 c); [|eauto]. rewrite E127. rewrite (h_avail _ _ H).
        destruct (Z.ltb_spec (Z.of_nat (length line)) (L - 1)) as [B|B];
          destruct (Nat.ltb_spec (length line) room) as [B'|B']; try lia.
        -- destruct (addc_holds s line c H) as (s' & A & A'); [lia|]. rewrite A. cbn [obind]. eauto.
        -- eauto.
Qed.

Lemma loop_holds ks : forall rest s line, Forall plain_key ks -> holds s line -> (length line <= room)%nat ->
  exists s', line_loop C (ks ++ rest) s = line_loop C rest s' /\
    holds s' (fold_left (type_key room) ks line) /\
    (length (fold_left (type_key room) ks line) <= room)%nat.
Proof.
  induction ks as [|c ks IH]; intros rest s line F H Hr.
  - exists s. auto.
  - inversion F; subst. destruct (key_holds s line c) as (s' & E & H'); try assumption.
    cbn [app line_loop fold_left]. rewrite E. apply IH; try assumption. apply type_key_length. exact Hr.
Qed.

(** Ready for a new line. *)
Record ready (s : io) : Prop := {
  r_size : Z.of_nat (length (io_buf s)) = L;
  r_empty : io_used s = io_avail s;
  r_unget : io_unget s = 0;
}.

Lemma ready_holds s : ready s -> holds (set_unget 0 (set_used 0 (set_avail 0 s))) [].
Proof. intros [Hs He Hg]. constructor; auto. Qed.

(** Reading what is left of the line. *)
Lemma read_rest s line : forall todo done keys,
  Z.of_nat (length (io_buf s)) = L -> firstn (length line) (io_buf s) = line ->
  line = done ++ todo -> io_avail s = Z.of_nat (length line) -> io_used s = Z.of_nat (length done) ->
  io_unget s = 0 -> (length line <= Z.to_nat L)%nat ->
  exists s', getcs C (length todo) keys s = Ok (map (char_int C) todo, s', keys) /\ ready s'.
Proof.
  intros todo. revert s. induction todo as [|c todo IH]; intros s done keys Hs Hl E Ha Hu Hg Hb.
  - exists s. split; [reflexivity|]. constructor; auto. rewrite Hu, Ha, E, app_nil_r. reflexivity.
  - cbn [length getcs]. unfold getc.
    assert (Len : length line = (length done + S (length todo))%nat) by (rewrite E, app_length; reflexivity).
    destruct (Z.eqb_spec (io_used s) (io_avail s)); [lia|].
    unfold buf_get. rewrite Hu.
    destruct (Z.leb_spec 0 (Z.of_nat (length done))); [|lia].
    destruct (Z.ltb_spec (Z.of_nat (length done)) L); [|lia]. cbn [andb].
    rewrite Nat2Z.id.
    assert (N : nth_error (io_buf s) (length done) = Some c).
    { rewrite <- (firstn_skipn (length line) (io_buf s)), Hl. rewrite nth_error_app1 by lia.
      rewrite E, nth_error_app2 by lia. rewrite Nat.sub_diag. reflexivity. }
    rewrite N. cbn [obind].
    destruct (IH (set_used (Z.of_nat (length done) + 1) s) (done ++ [c]) keys) as (s' & R & R'); auto.
    + rewrite E, <- app_assoc. reflexivity.
    + cbn [set_used io_used]. rewrite wrapu8 by lia. rewrite app_length. cbn [length]. lia.
    + exists s'. rewrite R. split; [reflexivity|exact R'].
Qed.

Lemma line_delivered ks rest s : ready s -> Forall plain_key ks ->
  exists s', getcs C (length (edited room ks ++ [NL])) (ks ++ NL :: rest) s
             = Ok (map (char_int C) (edited room ks ++ [NL]), s', rest) /\ ready s'.
Proof.
  intros Hr F. pose proof (ready_holds s Hr) as H0.
  destruct (loop_holds ks (NL :: rest) _ [] F H0) as (s1 & E1 & H1 & B1); [cbn; lia|].
  fold (edited room ks) in H1, B1.
  destruct (addc_holds s1 (edited room ks) NL H1) as (s2 & E2 & H2); [lia|].
  set (line := edited room ks ++ [NL]) in *.
  assert (Loop : line_loop C (ks ++ NL :: rest) (set_unget 0 (set_used 0 (set_avail 0 s))) = Ok (Some (LineDone, s2, rest), s2)).
  { rewrite E1. cbn [line_loop]. unfold key. cbn [Z.eqb]. rewrite Z.eqb_refl. rewrite E2. reflexivity. }
  destruct line as [|c line'] eqn:El; [destruct (edited room ks); discriminate El|].
  cbn [length getcs]. unfold getc. rewrite (r_empty s Hr), Z.eqb_refl. 
  cbn [set_avail set_used io_unget]. rewrite (r_unget s Hr). cbn [Z.eqb].
  change (wrapu 8 0) with 0.
  change {| io_raw := io_raw s; io_buf := io_buf s; io_used := 0; io_avail := 0; io_unget := 0 |} with
    (set_unget 0 (set_used 0 (set_avail 0 s))) in *.
  match goal with |- context [line_loop C ?k ?x] =>
    replace (line_loop C k x) with (Ok (Some (LineDone, s2, rest), s2)) end.
  cbn beta iota.
  assert (Lb : length (c :: line') = S (length (edited room ks))).
  { rewrite <- El. unfold line. rewrite app_length. cbn [length]. lia. }
  destruct H2 as [Hs2 Ha2 Hl2 Hu2 Hg2].
  unfold buf_get. rewrite Hu2. cbn [Z.leb Z.compare]. destruct (Z.ltb_spec 0 L); [|lia]. cbn [andb Z.to_nat].
  assert (N : nth_error (io_buf s2) 0 = Some c).
  { rewrite <- (firstn_skipn (length (c :: line')) (io_buf s2)), Hl2. reflexivity. }
  rewrite N. cbn [obind].
  destruct (read_rest (set_used 1 s2) (c :: line') line' [c] rest) as (s' & R & R'); auto; try lia.
  change (0 + 1) with 1. rewrite R. cbn [obind map]. eauto.
Qed.

(** After an interrupt. *)
Lemma interrupted ks rest s : ready s -> Forall plain_key ks -> ic_input C = false ->
  exists s', getc C (ks ++ CTRL_C :: rest) s = Ok (Got EOF s' rest) /\ holds s' (edited room ks) /\
    (length (edited room ks) <= room)%nat.
Proof.
  intros Hr F Hin. pose proof (ready_holds s Hr) as H0.
  destruct (loop_holds ks (CTRL_C :: rest) _ [] F H0) as (s1 & E1 & H1 & B1); [cbn; lia|].
  fold (edited room ks) in H1, B1.
  exists s1. split; [|auto]. unfold getc. rewrite (r_empty s Hr), Z.eqb_refl.
  cbn [set_avail set_used io_unget]. rewrite (r_unget s Hr). cbn [Z.eqb].
  match goal with |- context [line_loop C ?k ?x] =>
    change x with (set_unget 0 (set_used 0 (set_avail 0 s))) end.
  rewrite E1. cbn [line_loop]. unfold key, CTRL_C, NL, CTRL_N, CTRL_O. cbn [Z.eqb Pos.eqb]. rewrite Hin. reflexivity.
Qed.

Lemma interrupted_later ks rest s : ready s -> Forall plain_key ks -> ic_input C = false ->
  exists s', getcs C (S (length (edited room ks))) (ks ++ CTRL_C :: rest) s
             = Ok (EOF :: map (char_int C) (edited room ks), s', rest) /\ ready s'.
Proof.
  intros Hr F Hin. destruct (interrupted ks rest s Hr F Hin) as (s1 & E & H & B).
  cbn [getcs]. rewrite E. 
  destruct (read_rest s1 (edited room ks) (edited room ks) [] rest) as (s' & R & R'); try apply H; auto; try lia.
  rewrite R. cbn [obind]. eauto.
Qed.

Lemma edited_plain ks : Forall plain_key ks -> Forall (fun c => 32 <= c < 256) (edited room ks) /\
  (forall b, 128 <= b -> Forall (fun c => c < b) ks -> Forall (fun c => c < b) (edited room ks)).
Proof.
  intros F. unfold edited.
  assert (G : forall ks line, Forall plain_key ks -> Forall (fun c => 32 <= c < 256) line ->
    Forall (fun c => 32 <= c < 256) (fold_left (type_key room) ks line)).
  { clear. induction ks as [|c ks IH]; intros line F H; [exact H|]. inversion F as [|? ? Hc F']; subst. cbn [fold_left].
    apply IH; [assumption|]. unfold type_key. destruct (erase_key c).
    { rewrite removelast_firstn'. apply Forall_forall. intros x Hx. rewrite Forall_forall in H. apply H.
      rewrite <- (firstn_skipn (pred (length line)) line). apply in_or_app. left. exact Hx. }
    destruct (kill_key c); [constructor|]. destruct (typed c) as [d|] eqn:T; [|exact H].
    destruct (length line <? room)%nat; [|exact H]. apply Forall_app. split; [exact H|]. constructor; [|constructor].
    unfold typed in T. destruct Hc as (Hc & _ & _). destruct (Z.eqb_spec c 9); [injection T as <-; lia|].
    destruct (Z.leb_spec 32 c); [|discriminate]. destruct (c =? 127); [discriminate|]. injection T as <-. lia. }
  assert (G2 : forall b, 128 <= b -> forall ks line, Forall (fun c => c < b) ks -> Forall (fun c => c < b) line ->
    Forall (fun c => c < b) (fold_left (type_key room) ks line)).
  { clear. intros b Hb. induction ks as [|c ks IH]; intros line F H; [exact H|]. inversion F as [|? ? Hc F']; subst. cbn [fold_left].
    apply IH; [assumption|]. unfold type_key. destruct (erase_key c).
    { rewrite removelast_firstn'. apply Forall_forall. intros x Hx. rewrite Forall_forall in H. apply H.
      rewrite <- (firstn_skipn (pred (length line)) line). apply in_or_app. left. exact Hx. }
    destruct (kill_key c); [constructor|]. destruct (typed c) as [d|] eqn:T; [|exact H].
    destruct (length line <? room)%nat; [|exact H]. apply Forall_app. split; [exact H|]. constructor; [|constructor].
    unfold typed in T. destruct (Z.eqb_spec c 9); [injection T as <-; lia|].
    destruct (Z.leb_spec 32 c); [|discriminate]. destruct (c =? 127); [discriminate|]. injection T as <-. lia. }
  split; [apply G; [exact F|constructor]|]. intros b Hb Fb. apply G2; [exact Hb|exact Fb|constructor].
Qed.

Lemma char_int_same l : ic_signed C = false \/ Forall (fun c => c < 128) l -> map (char_int C) l = l.
Proof.
  intros H. induction l as [|c l IH]; [reflexivity|]. cbn [map]. rewrite IH.
  - f_equal. unfold char_int. destruct H as [H|H].
    + rewrite H. reflexivity.
    + inversion H; subst. destruct (Z.leb_spec 128 c); [lia|]. rewrite andb_false_r. reflexivity.
  - destruct H as [H|H]; [left; exact H|right]. inversion H; assumption.
Qed.

Lemma line_exact ks rest s : ready s -> Forall plain_key ks ->
  ic_signed C = false \/ Forall (fun c => c < 128) ks ->
  exists s', getcs C (length (edited room ks ++ [10])) (ks ++ 10 :: rest) s
             = Ok (edited room ks ++ [10], s', rest) /\ ready s' /\ (length (edited room ks) <= room)%nat.
Proof.
  intros Hr F Hc. destruct (line_delivered ks rest s Hr F) as (s' & E & R). exists s'.
  unfold NL in E. rewrite E. split; [|split; [exact R|]].
  - f_equal. f_equal. f_equal. apply char_int_same. destruct Hc as [Hc|Hc]; [left; exact Hc|right].
    apply Forall_app. split; [|repeat constructor; lia]. apply (proj2 (edited_plain ks F)); [lia|exact Hc].
  - pose proof (ready_holds s Hr) as H0.
    destruct (loop_holds ks [] _ [] F H0) as (s1 & _ & _ & B1); [cbn; lia|]. exact B1.
Qed.

(** Many lines. *)
Lemma getcs_app n : forall m keys s l s' keys' r,
  getcs C n keys s = Ok (l, s', keys') -> getcs C m keys' s' = Ok r ->
  getcs C (n + m) keys s = Ok (l ++ fst (fst r), snd (fst r), snd r).
Proof.
  induction n as [|n IH]; intros m keys s l s' keys' r H1 H2; cbn [getcs Nat.add] in *.
  - injection H1 as <- <- <-. rewrite H2. destruct r as [[a b] c]. reflexivity.
  - destruct (getc C keys s) as [[c s1 k1|s1]| |]; try discriminate.
    destruct (getcs C n k1 s1) as [[[l1 s2] k2]| |] eqn:E; try discriminate. cbn [obind] in H1. injection H1 as <- <- <-.
    rewrite (IH m k1 s1 l1 s2 k2 r E H2). destruct r as [[a b] c']. reflexivity.
Qed.

Lemma lines_exact lines : forall rest s, ready s ->
  Forall (fun ks => Forall plain_key ks /\ (ic_signed C = false \/ Forall (fun c => c < 128) ks)) lines ->
  let text := concat (map (fun ks => edited room ks ++ [10]) lines) in
  exists s', getcs C (length text) (concat (map (fun ks => ks ++ [10]) lines) ++ rest) s = Ok (text, s', rest) /\ ready s'.
Proof.
  induction lines as [|ks lines IH]; intros rest s Hr F text.
  - exists s. split; [reflexivity|exact Hr].
  - inversion F as [|? ? [F1 F2] F']; subst. unfold text. cbn [map concat].
    destruct (line_exact ks (concat (map (fun ks => ks ++ [10]) lines) ++ rest) s Hr F1 F2) as (s1 & E1 & R1 & _).
    destruct (IH rest s1 R1 F') as (s2 & E2 & R2).
    exists s2. split; [|exact R2]. rewrite app_length.
    replace (((ks ++ [10]) ++ concat (map (fun ks0 => ks0 ++ [10]) lines)) ++ rest) with
      (ks ++ 10 :: concat (map (fun ks0 => ks0 ++ [10]) lines) ++ rest)
      by (rewrite <- !app_assoc; reflexivity).
    rewrite (getcs_app _ _ _ _ _ _ _ _ E1 E2). reflexivity.
Qed.
End WithCfg.

Lemma edited_bounded C ks : 1 <= ic_linebuf C <= 255 -> Forall plain_key ks ->
  (length (edited (Z.to_nat (ic_linebuf C - 1)) ks) < Z.to_nat (ic_linebuf C))%nat /\
  Forall (fun c => 32 <= c < 256) (edited (Z.to_nat (ic_linebuf C - 1)) ks).
Proof.
  intros HL F. split; [|exact (proj1 (edited_plain C ks F))].
  assert (G : forall ks line, (length line <= Z.to_nat (ic_linebuf C - 1))%nat ->
    (length (fold_left (type_key (Z.to_nat (ic_linebuf C - 1))) ks line) <= Z.to_nat (ic_linebuf C - 1))%nat).
  { clear - HL. induction ks as [|c ks IH]; intros line H; [exact H|]. cbn [fold_left]. apply IH. apply type_key_length; assumption. }
  specialize (G ks [] (Nat.le_0_l _)). unfold edited. lia.
Qed.

Lemma byte_is_eof C ks rest s : 1 <= ic_linebuf C <= 255 -> ready C s -> ic_signed C = true ->
  Forall plain_key ks -> In 255 (edited (Z.to_nat (ic_linebuf C - 1)) ks) ->
  exists l s', getcs C (length (edited (Z.to_nat (ic_linebuf C - 1)) ks ++ [10])) (ks ++ 10 :: rest) s = Ok (l, s', rest) /\
    In EOF l.
Proof.
  intros HL Hr Hs F I. destruct (line_delivered C HL ks rest s Hr F) as (s' & E & _).
  exists (map (char_int C) (edited (Z.to_nat (ic_linebuf C - 1)) ks ++ [NL])), s'. split; [exact E|].
  apply in_map_iff. exists 255. split; [unfold char_int; rewrite Hs; reflexivity|]. apply in_or_app. left. exact I.
Qed.

Lemma interrupt_empty C ks rest s : 1 <= ic_linebuf C <= 255 -> ready C s -> ic_input C = false ->
  Forall plain_key ks -> edited (Z.to_nat (ic_linebuf C - 1)) ks = [] ->
  exists s', getc C (ks ++ 3 :: rest) s = Ok (Got EOF s' rest) /\ ready C s'.
Proof.
  intros HL Hr Hi F E. destruct (interrupted C HL ks rest s Hr F Hi) as (s' & G & H & _).
  exists s'. split; [exact G|]. rewrite E in H. destruct H as [A B _ D U]. constructor; auto. rewrite B, D. reflexivity.
Qed.

Lemma interrupt_delivers C ks rest s : 1 <= ic_linebuf C <= 255 -> ready C s -> ic_input C = false ->
  Forall plain_key ks -> ic_signed C = false \/ Forall (fun c => c < 128) ks ->
  let line := edited (Z.to_nat (ic_linebuf C - 1)) ks in
  exists s', getcs C (S (length line)) (ks ++ 3 :: rest) s = Ok (EOF :: line, s', rest) /\ ready C s'.
Proof.
  intros HL Hr Hi F Hc line. destruct (interrupted_later C HL ks rest s Hr F Hi) as (s' & E & R).
  exists s'. split; [|exact R]. fold line in E. unfold CTRL_C in E. rewrite E.
  rewrite char_int_same; [reflexivity|]. destruct Hc as [Hc|Hc]; [left; exact Hc|right].
  apply (proj2 (edited_plain C ks F)); [lia|exact Hc].
Qed.
