(** Printing the value of a command at the prompt. *)
From Coq Require Import String.
From Verif Require Import Tac Base FloatModel MathModel PolyModel ValueModel MachModel ListModel StrModel MachSpec ListSpec StrSpec
  MathSpec MathProofs MathProofs2 MathProofs4 MachProofs FrameProofs ListProofs ListProofs2 StrProofs StrProofs2 FormatProofs InterpProofs SliceProofs BuiltModel BuiltSpec BuiltFloat BuiltRuns.
Local Open Scope Z_scope.
Open Scope mach_scope.

Lemma repr_total E T v : exists t, text_of E T 114 v t.
Proof.
  induction v as [f|s|k vs IH|u|u] using value_ind2.
  - eexists. apply to_repr; cbv; intuition discriminate.
  - eexists. apply to_quoted; discriminate.
  - assert (exists ts, Forall2 (text_of E T 114) vs ts) as [ts H].
    { induction IH as [|v vs [t Ht] _ [ts Hts]]; [exists []; constructor|]. exists (t :: ts). constructor; assumption. }
    eexists. apply to_seq. exact H.
  - eexists. apply (to_func E T 114 u 0%nat).
  - destruct (Z.eq_dec u SNEK_NULL_U) as [->|N]; eexists; [apply to_none|apply to_builtin; exact N].
Qed.
Lemma repr_runs E T m p v : wf_env E -> texts_ok T -> wf E m -> wf_strs E (m_heap m) -> room E (nesting v + 2) m -> tree (m_heap m) p v ->
  runs (let* t := poly_print E T [] p 114 in put_out t ;; put_out [10]) m
    (fun _ m' => still E m m' /\ exists t, text_of E T 114 v t /\ printed (t ++ [10]) m m').
Proof.
  intros We Tok W Ws R Ht. apply runs_bind.
  assert (H : runs (poly_print E T [] p 114) m (fun t m' => text_of E T 114 v t /\ wf E m' /\ wf_strs E (m_heap m') /\ frame None m m' /\ quiet m m')).
  { unfold poly_print. rewrite nesting_depth in R. destruct (text_bounded E T v 114 Tok) as [n Hn].
    eapply runs_eq; [reflexivity|].
    eapply runs_weaken; [apply (format_ok E T (list Z) file_put (fun _ b t => b = t) True n) with (v := v) (t0 := [])|]; auto.
    - intros m0 b t s x W0 Ws0 R0 -> Hs Hx Hlen. unfold file_put. apply runs_bind. exists x, m0. split.
      { destruct s as [[l ep]|t']; cbn [read_src].
        - destruct Hs as [-> Hs]. unfold deref_str, deref, bind. cbn [fst snd]. rewrite Nat.eqb_refl. unfold str_at in Hs. rewrite Hs. reflexivity.
        - cbn in Hs. subst. reflexivity. }
      apply runs_ret. split; [exact W0|]. split; [exact Ws0|]. split; [apply frame_refl|]. split; [split; reflexivity|]. auto.
    - pose proof (tree_depth _ _ _ Ht). unfold fmt_fuel. lia.
    - apply repr_total.
    - intros b m' (t & H1 & (W' & Ws' & F & Q & Ep & ->)). auto. }
  destruct H as (t & m1 & Hp & H1 & W1 & Ws1 & F1 & Q1). destruct (c_print E T [] p 114 m t m1 Hp) as (C1 & C2 & C3).
  exists t, m1. split; [exact Hp|]. apply runs_bind. eapply runs_mono; [apply (put_runs E); assumption|].
  intros _ m2 (S2 & P2). pose proof S2 as (W2 & Ws2 & _). eapply runs_mono; [apply (put_runs E); assumption|]. intros _ m3 (S3 & P3).
  assert (S1 : still E m m1) by (split; [exact W1|]; split; [exact Ws1|]; auto). split.
  - exact (still_trans _ _ _ _ (still_trans _ _ _ _ S1 S2) S3).
  - exists t. split; [exact H1|]. eapply printed_trans; [|exact P3]. change t with ([] ++ t). eapply printed_trans; [|exact P2]. apply printed_nil. exact C3.
Qed.
