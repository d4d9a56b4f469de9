(** str *)
From Coq Require Import String.
From Verif Require Import Tac Base FloatModel MathModel PolyModel ValueModel MachModel ListModel StrModel MachSpec ListSpec StrSpec
  MachProofs FrameProofs ListProofs ListProofs2 StrProofs StrProofs2 FormatProofs InterpProofs BuiltModel BuiltSpec BuiltRuns.
Local Open Scope Z_scope.
Open Scope mach_scope.
Notation length := List.length.

(** Input and output stay. *)
Lemma i_buf_put E b s : keeps io_same (buf_put E b s).
Proof. unfold buf_put, read_src, push_src, pop_src. destruct s; kp. Qed.
#[local] Hint Resolve i_buf_put : keeps.
#[local] Opaque buf_put.
Lemma i_put_chars E cs : forall b, keeps io_same (put_chars (option ptr) (buf_put E) b cs).
Proof. induction cs as [|c cs IH]; intros; cbn [put_chars]; kp. Qed.
#[local] Hint Resolve i_put_chars : keeps.
Lemma i_func_text E T (b : option ptr) l : keeps io_same (fun m => buf_put E b (SText (tx_func T l (m_epoch m))) m).
Proof. intros m a m' H. eapply i_buf_put; exact H. Qed.
Lemma i_nth_data o i : keeps io_same (nth_data o i).
Proof. intros m a m' H. apply c_nth_data in H. apply H. Qed.
#[local] Hint Resolve i_func_text i_nth_data : keeps.
Lemma i_format E T n : forall b p c, keeps io_same (poly_format E T (option ptr) (buf_put E) n b p c).
Proof.
  induction n as [|n IH]; intros; [apply k_undef|]. cbn [poly_format].
  assert (G : forall type size format k o b, keeps io_same
    ((fix elts (k : nat) (o : Z) (b : option ptr) : M (option ptr) :=
                 match k with
                 | O => ret b
                 | S k' =>
                     let* l0 := pop_list in
                     push_list E l0;;
                     let* lo := deref_list l0 in
                     let* x := nth_data lo o in
                     let* b := poly_format E T (option ptr) (buf_put E) n b x format in
                     let* b := put_chars (option ptr) (buf_put E) b (list_sep type size o) in
                     elts k' (o + 1) b
                 end) k o b)).
  { intros type size format k. induction k as [|k IHk]; intros; kp. }
  kp; intros mm aa mm' H; inversion H; subst; apply io_refl.
Qed.
Lemma i_buf_format E T b p c : keeps io_same (buf_format E T b p c).
Proof. intros m a m' H. unfold buf_format in H. eapply i_format; exact H. Qed.
#[local] Hint Resolve i_buf_format : keeps.
Lemma i_str E T p : keeps io_same (built_str E T p).
Proof. unfold built_str, str_to_poly. kp. Qed.

#[local] Transparent buf_put.

Section Str.
Variable E : env.
Variable T : texts.
Variable N : nat.
Variable m0 : mach.
Hypothesis We : wf_env E.
Hypothesis Tok : texts_ok T.
Hypothesis Hen : enough E N.
Let steady : Prop := forall n, e_move E n = false.

(** What has been written so far is in a new string. *)
Definition made (m : mach) (b : option ptr) (t : list Z) : Prop :=
  match b with
  | None => t = []
  | Some p => (length (m_heap m0) <= fst p)%nat /\ snd p = m_epoch m /\ str_at (m_heap m) (fst p) t
  end.
Lemma made_opt m b t : made m b t -> opt_str_at m b t.
Proof. destruct b as [[l ep]|]; cbn; [intros (_ & A & B); auto|auto]. Qed.
Lemma grown m : frame None m0 m -> (length (m_heap m0) <= length (m_heap m))%nat.
Proof. intros [[A _] _ _ _ _ _]. exact A. Qed.

Definition made_in (m : mach) (b : option ptr) (t : list Z) : Prop := made m b t /\ (length (m_heap m0) <= length (m_heap m))%nat.
Lemma put_made m b t s x : wf E m -> wf_strs E (m_heap m) -> room E 2 m -> made_in m b t -> src_at m s x ->
  Forall (fun c => 0 < c < 256) x -> (length (t ++ x) <= N)%nat ->
  runs (buf_put E b s) m (fun b' m' => b' <> None /\ post E (option ptr) made_in steady m (t ++ x) b' m').
Proof.
  intros W Ws R (I & G) Hs Hx Hl. eapply runs_weaken; [apply (buf_put_runs E m b t s x); auto; [apply made_opt; exact I|]|].
  - destruct Hen as (A & B & C). split; [exact A|]. unfold fits_str in *. split; lia.
  - intros b' m' (Nb & W' & Ws' & F & H). split; [exact Nb|]. destruct b' as [p|]; [|congruence]. destruct H as (Q & -> & Hp & L & Ep).
    split; [exact W'|]. split; [exact Ws'|]. split; [exact F|]. split; [exact Q|]. split; [exact Ep|].
    split; [cbn; auto|lia].
Qed.

Lemma str_runs p v : wf E m0 -> wf_strs E (m_heap m0) -> room E (nesting v + 2) m0 -> tree (m_heap m0) p v ->
  steady \/ unquoted str_fmt v -> (forall t, text_of E T str_fmt v t -> (length t <= N)%nat) ->
  runs (built_str E T p) m0 (fun r m' => untouched E m0 m' /\
    exists l t, r = PStr l /\ (length (m_heap m0) <= l)%nat /\ str_at (m_heap m') l t /\ text_of E T str_fmt v t).
Proof.
  intros W Ws R Ht Hst Hb. unfold built_str.
  assert (K : runs (buf_format E T None p ch_s) m0 (fun b m' => b <> None /\ exists t, text_of E T str_fmt v t /\ post E (option ptr) made_in steady m0 t b m')).
  { assert (R2 : room E 2 m0) by (unfold room in *; lia).
    assert (One : forall s x, src_at m0 s x -> Forall (fun c => 0 < c < 256) x -> text_of E T str_fmt v x ->
      runs (buf_put E None s) m0 (fun b m' => b <> None /\ exists t, text_of E T str_fmt v t /\ post E (option ptr) made_in steady m0 t b m')).
    { intros s x Hs Hx Hv. eapply runs_weaken; [apply (put_made m0 None [] s x); auto; split; [reflexivity|lia]|].
      intros b m' (A & B). split; [exact A|]. exists x. auto. }
    unfold buf_format. apply runs_eq with (c' := poly_format E T (option ptr) (buf_put E) (fmt_fuel m0) None p ch_s); [reflexivity|].
    destruct v as [f|s|k vs|u|u].
    - cbn in Ht. subst p. eapply runs_eq; [|apply One with (s := SText (tx_repr T f)) (x := tx_repr T f)]; [reflexivity|reflexivity|apply Tok|].
      apply to_repr; cbv; intuition discriminate.
    - destruct Ht as (l & -> & Hl). eapply runs_eq; [|apply One with (s := SPool (l, m_epoch m0)) (x := s)]; [reflexivity|split; [reflexivity|exact Hl]|apply (Ws _ _ Hl)|apply to_str].
    - eapply runs_weaken; [apply (format_ok E T (option ptr) (buf_put E) made_in steady N) with (v := VSeq k vs) (t0 := [])|]; auto.
      + intros m m' b t (I & G) Hh Hep. split; [|rewrite Hh; exact G]. destruct b as [[l ep]|]; cbn in *; [|exact I]. rewrite Hep. unfold str_at. rewrite Hh. exact I.
      + intros m b t s x Wm Wsm Rm I Hs Hx Hl. eapply runs_weaken; [apply put_made; eauto|]. intros b' m' [_ H]. exact H.
      + pose proof (tree_depth _ _ _ Ht). unfold fmt_fuel. lia.
      + split; [reflexivity|lia].
      + apply text_total.
      + intros b m' (t & Hv & P). cbn [app] in P. split; [|eauto]. intros ->. destruct P as (_ & _ & _ & _ & _ & I & _). cbn in I. subst t.
        inversion Hv; subst. revert H3. rewrite bracketed_flat. destruct k; discriminate.
    - destruct Ht as (l & -> & ->). assert (Hv : text_of E T str_fmt (VFunc (Z.of_nat l)) (tx_func T l (m_epoch m0))).
      { pose proof (to_func E T str_fmt (Z.of_nat l) (m_epoch m0)) as H. rewrite Nat2Z.id in H. exact H. }
      eapply runs_eq; [|apply One with (s := SText (tx_func T l (m_epoch m0))) (x := tx_func T l (m_epoch m0))]; [reflexivity|reflexivity|apply Tok|exact Hv].
    - cbn in Ht. subst p. destruct (Z.eq_dec u SNEK_NULL_U) as [->|Nn].
      + eapply runs_eq; [|apply One with (s := SText none_text) (x := none_text)]; [reflexivity|reflexivity|repeat constructor|apply to_none].
      + eapply runs_eq; [|apply One with (s := SText (tx_builtin T u)) (x := tx_builtin T u)];
          [|reflexivity|apply Tok|apply to_builtin; exact Nn].
        assert (Hn : (u =? SNEK_NULL_U) = false) by lia. cbn. rewrite Hn. reflexivity. }
  eapply runs_step; [exact K|]. intros b m' (Nb & t & Hv & W' & Ws' & F & Q & _ & I & _). destruct b as [[l ep]|]; [|congruence].
  cbn [made fst snd] in I. destruct I as (G & -> & Hs). eexists (PStr l), m'. split; [unfold str_to_poly; cbn [fst snd]; rewrite Nat.eqb_refl; reflexivity|].
  split; [split; [exact W'|split; [exact Ws'|split; [destruct F; split; assumption|split; [apply kept_others; apply F|exact Q]]]]|]. eauto 8.
Qed.
End Str.

Theorem str_ok : forall P N m p v, wf_port P -> wf (pt_env P) m -> wf_strs (pt_env P) (m_heap m) ->
  room (pt_env P) (nesting v + 2) m -> tree (m_heap m) p v -> enough (pt_env P) N ->
  (forall t, text_of (pt_env P) (pt_texts P) str_fmt v t -> (length t <= N)%nat) ->
  (forall n, e_move (pt_env P) n = false) \/ unquoted str_fmt v ->
  runs (applied P "str" [p] []) m (fun r m' => untouched (pt_env P) m m' /\ m_io m' = m_io m /\
    exists l t, r = PStr l /\ (length (m_heap m) <= l)%nat /\ str_at (m_heap m') l t /\ text_of (pt_env P) (pt_texts P) str_fmt v t).
Proof.
  intros P N m p v (We & Tok & _) W Ws R Ht Hen Hb Hst.
  destruct (str_runs (pt_env P) (pt_texts P) N m We Tok Hen p v W Ws R Ht Hst Hb) as (r & m' & H & A & B).
  exists r, m'. split; [exact H|]. split; [exact A|]. split; [exact (i_str _ _ _ _ _ _ H)|exact B].
Qed.
