(** Skipping the rest of a line, and of a block. *)
From Coq Require Import ZArith Bool List Ascii String Lia.
From Verif Require Import Base LexModel LexSpec LexProofs LexProofs2 LexProofs4 LexProofs5 LexProofs6 LexProofs9 RecModel RecSpec RecProofs RecProofs2 RecProofs3.
Import ListNotations.
Local Open Scope Z_scope.
Notation length := List.length (only parsing).

Lemma plain_of p : plain_piece p -> plain p /\ (length p <= 250)%nat.
Proof. intros (A & B & L). split; [|exact L]. split; [apply Forall_forall; exact A|exact B]. Qed.
Lemma line_of k p : plain_line k p -> line_ok (k, p).
Proof. intros (A & B & D). destruct (plain_of _ A). repeat split; cbn [fst snd]; auto; try apply H; try lia. destruct p; [exact I|exact D]. Qed.
Lemma no_newlines p : Forall (fun c => 0 < c < 256 /\ c <> NL /\ c <> ch "#") p -> newlines p = 0.
Proof.
  induction p as [|c p IH]; intros H; [reflexivity|]. inversion H as [|? ? (_ & N & _) H']; subst. rewrite newlines_cons, IH by assumption.
  destruct (Z.eqb_spec c NL); [contradiction|reflexivity].
Qed.
Lemma newlines_app a b : newlines (a ++ b) = newlines a + newlines b.
Proof. induction a as [|c a IH]; [reflexivity|]. cbn [app]. rewrite !newlines_cons, IH. lia. Qed.
Lemma newlines_spaces k : newlines (spaces k) = 0.
Proof. induction k as [|k IH]; [reflexivity|]. cbn [spaces repeat]. rewrite newlines_cons. exact IH. Qed.
Lemma newlines_lines : forall ls, Forall (fun l => plain_line (fst l) (snd l)) ls -> newlines (lines ls) = Z.of_nat (length ls).
Proof.
  induction ls as [|[k p] ls IH]; intros H; [reflexivity|]. inversion H as [|? ? (A & _) H']; subst. cbn [lines flat_map]. fold (lines ls).
  unfold a_line. cbn [fst snd] in *. rewrite !newlines_app, newlines_spaces, no_newlines, IH by (try assumption; apply (plain_of _ A)).
  change (newlines [NL]) with 1. cbn [List.length]. lia.
Qed.

Section P.
Variable C : lexcfg.
Hypothesis Hab : lc_abort C = true.
Hypothesis Hin : lc_interactive C = true.

Lemma u_of_eq w a b c : u_of w (a + c) = u_of w (b + c) -> u_of w a = u_of w b.
Proof.
  intros H. replace a with (a + c + - c) by lia. replace b with (b + c + - c) by lia.
  rewrite <- (u_of_add w (a + c)), H, u_of_add. reflexivity.
Qed.
Lemma goes_on_of s n t : inv s -> (length (lx_unget s) <= 4)%nat -> lx_over s = false -> newlines (pending s) = n + newlines t ->
  (exists N s', line_at t s' /\ lx_current s' = 0 /\ forall f, (N <= f)%nat -> recover C f s = Some (true, s')) -> goes_on C s n t.
Proof.
  intros Iv U O Nl (N & s' & (A & B & _) & _ & D). destruct (recover_sound C _ _ _ _ Iv (D N ltac:(lia))) as [[Sf Ln] _].
  destruct (Sf (conj (Nat.eq_le_incl _ _ eq_refl) O)) as [_ O'] || destruct (Sf ltac:(split; [lia|exact O])) as [_ O'].
  exists N, s'. split; [exact D|]. split; [unfold lex_reset, lex_start; rewrite A, B, O'; reflexivity|].
  unfold lineval in Ln. unfold pending in Ln at 1. rewrite A, B in Ln. cbn [app] in Ln. rewrite Nl in Ln. apply (u_of_eq _ _ _ (newlines t)). rewrite Ln. f_equal. lia.
Qed.

Lemma inside_inv s p t : inside s p t -> inv s.
Proof. intros [M X I _ _ _]. split; [congruence|exact I]. Qed.
Lemma inside_ready s p e t : inside s p (e :: t) -> ready t e p s.
Proof. intros [M X I O [_ B] A]. split; [split; [exact A|lia]|]. split; [exact M|congruence]. Qed.
Lemma at_end_inv s t : at_end s t -> inv s.
Proof. intros [M X I _ _ _]. split; [congruence|exact I]. Qed.

Theorem line_goes_on s p rest : plain_piece p -> inside s p (NL :: rest) -> lx_current s = 0 -> goes_on C s 1 rest.
Proof.
  intros Hp Hi Cu. destruct (plain_of _ Hp) as [Pl Lp].
  apply goes_on_of; [exact (inside_inv _ _ _ Hi)|apply Hi|apply Hi| |].
  - rewrite (in_ahead _ _ _ Hi), newlines_app, newlines_cons, no_newlines by apply Pl. rewrite Z.eqb_refl. lia.
  - destruct (rec_here C Hab rest NL (length p) p s (or_introl eq_refl) ltac:(lia) Pl (or_introl eq_refl) Lp (inside_ready _ _ _ _ Hi) Cu) as (N & s' & A & B & D).
    exists N, s'. auto.
Qed.
Theorem comment_goes_on s p c rest : plain_piece p -> Forall (fun c => c <> 34 /\ c <> 39) p -> c <> NL -> inside s p (ch "#" :: c :: rest) -> lx_current s = 0 -> goes_on C s 0 rest.
Proof.
  intros Hp Hq Nc Hi Cu. destruct (plain_of _ Hp) as [Pl Lp].
  apply goes_on_of; [exact (inside_inv _ _ _ Hi)|apply Hi|apply Hi| |].
  - rewrite (in_ahead _ _ _ Hi), newlines_app, !newlines_cons, no_newlines by apply Pl. rewrite (proj2 (Z.eqb_neq c NL) Nc). change (ch "#" =? NL) with false. cbv iota. lia.
  - destruct (rec_here C Hab (c :: rest) (ch "#") (length p) p s (or_intror eq_refl) ltac:(lia) Pl (or_intror Hq) Lp (inside_ready _ _ _ _ Hi) Cu) as (N & s' & A & B & D).
    exists N, s'. auto.
Qed.
Lemma lines_same ls : lines ls = flat_map line_text ls.
Proof. unfold lines. apply flat_map_ext. reflexivity. Qed.
Theorem block_goes_on s p ls q rest : plain_piece p -> Forall (fun l => plain_line (fst l) (snd l) /\ (0 < fst l)%nat) ls -> plain_line 0 q ->
  inside s p (NL :: lines ls ++ a_line 0 q ++ rest) -> lx_current s <> 0 -> goes_on C s (2 + Z.of_nat (length ls)) rest.
Proof.
  intros Hp Hl Hq Hi Cu. destruct (plain_of _ Hp) as [Pl Lp].
  assert (Hl1 : Forall (fun l => plain_line (fst l) (snd l)) ls) by (eapply Forall_impl; [|exact Hl]; cbn; tauto).
  apply goes_on_of; [exact (inside_inv _ _ _ Hi)|apply Hi|apply Hi| |].
  - rewrite (in_ahead _ _ _ Hi), newlines_app, newlines_cons, newlines_app, newlines_lines, no_newlines by (assumption || apply Pl). unfold a_line.
    rewrite !newlines_app, newlines_spaces, (no_newlines q) by (destruct Hq as [Hq _]; apply (plain_of _ Hq)). rewrite Z.eqb_refl. change (newlines [NL]) with 1. lia.
  - apply inside_ready in Hi. assert (E : a_line 0 q ++ rest = q ++ NL :: rest) by (unfold a_line; cbn [spaces repeat app]; rewrite <- app_assoc; reflexivity).
    rewrite E, lines_same in Hi. destruct (rec_block C Hab Hin p ls q rest s Pl Lp Hi Cu) as (N & s' & A & B & D); [|apply line_of; exact Hq|exists N, s'; auto].
    eapply Forall_impl; [|exact Hl]. intros [k x] [H1 H2]. split; [apply line_of; exact H1|cbn in *; lia].
Qed.
Theorem end_goes_on s ls q rest : Forall (fun l => plain_line (fst l) (snd l) /\ (0 < fst l)%nat) ls -> plain_line 0 q ->
  at_end s (lines ls ++ a_line 0 q ++ rest) -> goes_on C s (1 + Z.of_nat (length ls)) rest.
Proof.
  intros Hl Hq Hi.
  assert (Hl1 : Forall (fun l => plain_line (fst l) (snd l)) ls) by (eapply Forall_impl; [|exact Hl]; cbn; tauto).
  pose proof (ae_back _ _ Hi) as U. pose proof (ae_ahead _ _ Hi) as A0.
  apply goes_on_of; [exact (at_end_inv _ _ Hi)|rewrite U; cbn; lia|apply Hi| |].
  - unfold pending. rewrite U, A0. cbn [app]. rewrite newlines_app, newlines_lines by assumption. unfold a_line.
    rewrite !newlines_app, newlines_spaces, (no_newlines q) by (destruct Hq as [Hq _]; apply (plain_of _ Hq)). change (newlines [NL]) with 1. lia.
  - assert (E : a_line 0 q ++ rest = q ++ NL :: rest) by (unfold a_line; cbn [spaces repeat app]; rewrite <- app_assoc; reflexivity).
    assert (L : line_at (flat_map line_text ls ++ q ++ NL :: rest) s). { rewrite E, lines_same in A0. destruct Hi. repeat split; assumption. }
    apply (rec_lines C Hab Hin ls q rest s); [|apply line_of; exact Hq|exact L].
    eapply Forall_impl; [|exact Hl]. intros [k x] [H1 H2]. split; [apply line_of; exact H1|cbn in *; lia].
Qed.
End P.
