(** Running the commands of a file does what the evaluator says. *)
From Coq Require Import ZArith Bool List Lia.
From Verif Require Import Base FloatModel PolyModel ValueModel MathModel MachModel ListModel StrModel BinModel VarSpec FrameModel FuncProofs CodeModel CompModel ExecModel LayoutSpec LayoutProofs LayoutEqs GenProofs GenProofs2 EvalSpec EvalMono TameSpec TameProofs TameProofs2 EvalTame StepProofs SimProofs EvalProofs GramModel ProgModel ProgSpec.
Import ListNotations.
Local Open Scope Z_scope.
Open Scope st_scope.
Open Scope eval_scope.
Notation length := List.length (only parsing).

Section P.
Variable K : conf.
Variable i8 : float -> Z.
Notation E := (cf_env K).
Notation w := (e_width E).
Hypothesis Hi8 : forall f, -128 <= i8 f < 128.
Hypothesis Hb : tame_builtins E (cf_builtins K).

(** ** Fuel *)
Lemma run_more F f1 f2 v r : run K F f1 v = Some r -> (f1 <= f2)%nat -> run K F f2 v = Some r.
Proof.
  revert f2 v. induction f1 as [|f1 IH]; intros f2 v H L; [discriminate|]. destruct f2 as [|f2]; [lia|]. cbn [run] in *.
  destruct (step K F v) as [[]|]; auto. apply IH; [exact H|lia].
Qed.
Lemma exec_more F f1 f2 code s r : exec K F f1 code s = Some r -> (f1 <= f2)%nat -> exec K F f2 code s = Some r.
Proof.
  unfold exec. intros H L. destruct (run K F f1 _) as [x|] eqn:R; [|discriminate]. rewrite (run_more F f1 f2 _ _ R L). exact H.
Qed.
Lemma command_more f1 f2 c s r : run_command K i8 f1 c s = Some r -> (f1 <= f2)%nat -> run_command K i8 f2 c s = Some r.
Proof.
  intros H L. destruct c as [t|id f|]; cbn [run_command] in *; auto.
  destruct (gen_stmt w i8 0 t (code_reset (ss_buf s))) as [b| |]; auto. destruct (code_finish K (c_buf b) (ss_st s)) as [[code st1]|]; auto.
  match goal with H : match exec K ?F f1 ?c ?s with _ => _ end = _ |- _ => destruct (exec K F f1 c s) as [[v st2]|] eqn:X; [|discriminate]; rewrite (exec_more F f1 f2 c s _ X L) end.
  exact H.
Qed.
Lemma commands_more f1 f2 cs : forall s r, run_commands K i8 f1 cs s = Some r -> (f1 <= f2)%nat -> run_commands K i8 f2 cs s = Some r.
Proof.
  induction cs as [|c cs IH]; intros s r H L; cbn [run_commands] in *; auto.
  destruct (run_command K i8 f1 c s) as [[b s1]|] eqn:R; [|discriminate]. rewrite (command_more f1 f2 c s _ R L). destruct b; auto.
Qed.

(** ** Functions *)
Definition sound_def (f : fundef) : Prop :=
  okfd w f /\ proper K i8 f /\ (length (fd_formals f) <= SNEK_MAX_FORMALS)%nat /\ defaults_last (formals_of f).
Definition linked (f : func fundef) (g : func (list Z)) : Prop :=
  okfd w (fn_code f) /\ proper K i8 (fn_code f) /\
  exists c code, gen_def w i8 (fn_code f) c = Ok code /\ g = {| fn_nrequired := fn_nrequired f; fn_formals := fn_formals f; fn_code := code |}.
Lemma linked_at defs funs : Forall2 linked defs funs -> forall l,
  match nth_error defs l with Some f => exists g, nth_error funs l = Some g /\ linked f g | None => nth_error funs l = None end.
Proof. induction 1 as [|f g defs funs L R IH]; intros [|l]; cbn [nth_error]; eauto. apply IH. Qed.
Lemma linked_program defs funs : Forall2 linked defs funs -> program K i8 (nth_error defs) (nth_error funs).
Proof.
  intros H. split; [exact Hi8|exact Hb| |].
  - intros l f Q. pose proof (linked_at _ _ H l) as L. rewrite Q in L. destruct L as (g & _ & L1 & L2 & _). auto.
  - intros l. pose proof (linked_at _ _ H l) as L. destruct (nth_error defs l) as [f|]; [|exact L].
    destruct L as (g & Q & _ & _ & c & code & G & ->). eauto.
Qed.
Lemma gen_def_code f c : gen_def w i8 f c = obind (def_code K i8 f (code_reset c)) (fun c => Ok (c_buf c)).
Proof.
  unfold gen_def, def_code. destruct (gen_formals w i8 (fd_formals f) (code_reset c)) as [c1| |]; cbn [obind]; auto.
  destruct (gen_stmt w i8 0 (fd_body f) c1) as [c2| |]; cbn [obind]; auto. destruct (nth_error (c_buf c2) (c_prev c2)); reflexivity.
Qed.
Lemma formal_ids_length id d p p' : parse_formal id d p = Ok p' -> length (pf_ids p') = length (pf_ids p).
Proof.
  unfold parse_formal. destruct (Nat.ltb _ _); [|discriminate]. cbv zeta. cbn [pf_nnamed pf_ids pf_nformal].
  destruct d; [|destruct (pf_nnamed p =? 0); [|discriminate]]; intros Q; injection Q as <-; cbn [pf_ids]; apply upd_length.
Qed.
Lemma formals_ids_length fs : forall p p', parse_formals fs p = Ok p' -> length (pf_ids p') = length (pf_ids p).
Proof.
  induction fs as [|[id d] fs IH]; intros p p' H; cbn [parse_formals] in H; [injection H as <-; reflexivity|].
  destruct (parse_formal id d p) as [p1| |] eqn:Q; try discriminate. cbn [obind] in H. rewrite (IH _ _ H). exact (formal_ids_length _ _ _ _ Q).
Qed.
Lemma required_of fs : nrequired (map (fun p : Z * oexpr => (fst p, has_default (snd p))) fs) = Z.of_nat (length (filter required fs)).
Proof.
  unfold nrequired. f_equal. induction fs as [|[id o] fs IH]; [reflexivity|]. cbn [map filter fst snd]. destruct o; cbn [has_default negb required snd length]; rewrite ?IH; auto.
Qed.

(** ** The bytes taken *)
Definition code_bytes (c : command) : Z :=
  sizeof_code w + Z.of_nat (length (match c with
    | CStat t => match gen_command w i8 t {| c_buf := []; c_prev := 0; c_pprev := 0 |} with Ok code => code | _ => [] end
    | CDef _ f => match gen_def w i8 f {| c_buf := []; c_prev := 0; c_pprev := 0 |} with Ok code => code | _ => [] end
    | CImport => []
    end)).
Definition func_bytes (f : fundef) : Z := sizeof_func w + Z.of_nat (length (fd_formals f)) * sizeof_id w.

Lemma alloc_mach z m r m' : alloc E z m = Some (r, m') -> m_abort m = false ->
  match r with Some _ => m_abort m' = false /\ m_sp m' = m_sp m /\ length (m_stack m') = length (m_stack m) /\ m_log m' = m_log m | None => m_abort m' = true end.
Proof.
  unfold alloc. cbv zeta. set (n := m_nalloc m). set (m1 := set_nalloc (Datatypes.S n) (if e_move E n then moved m else m)).
  assert (Q : m_abort m1 = m_abort m /\ m_sp m1 = m_sp m /\ length (m_stack m1) = length (m_stack m) /\ m_log m1 = m_log m).
  { unfold m1. destruct (e_move E n); cbn; repeat split; auto. unfold junk_above. rewrite app_length, map_length, firstn_length, skipn_length. lia. }
  destruct (e_fail E n || (e_pool E <? _)).
  - unfold error. destruct Q as (Q & _). intros H A. rewrite Q, A in H. cbn in H. injection H as <- <-. reflexivity.
  - intros H A. injection H as <- <-. destruct Q as (Q1 & Q2 & Q3 & Q4). repeat split; congruence.
Qed.
Lemma reserve_memory z s : good K s ->
  match memory K z s with
  | Val _ s' => reserve K z s = Some (true, s') /\ good K s'
  | Stop s' => reserve K z s = Some (false, s') /\ aborted s' = true
  | Full | Fuel => False
  | Undefined => True
  end.
Proof.
  intros [G1 [G2 G3]]. unfold memory, prim, reserve, sbind, lm. destruct (alloc E z (s_m s)) as [[r m']|] eqn:A; [|exact Logic.I].
  pose proof (alloc_mach _ _ _ _ A G1) as Q. destruct r as [b|].
  - destruct Q as (Q1 & Q2 & Q3 & Q4). destruct (z <=? b); [|exact Logic.I]. unfold sret, aborted. cbn [s_m set_m]. rewrite Q1. split; [reflexivity|].
    split; [exact Q1|]. split; cbn; congruence.
  - unfold sret, aborted. cbn [s_m set_m]. rewrite Q. auto.
Qed.
Lemma finish_memory code s : good K s -> code <> [] ->
  match memory K (sizeof_code w + Z.of_nat (length code)) s with
  | Val _ s' => code_finish K code s = Some (Some code, s') /\ good K s'
  | Stop s' => code_finish K code s = Some (None, s') /\ aborted s' = true
  | Full | Fuel => False
  | Undefined => True
  end.
Proof.
  intros G N. pose proof (reserve_memory (sizeof_code w + Z.of_nat (length code)) s G) as H. unfold code_finish. destruct code as [|x code]; [now elim N|].
  destruct (memory K _ s) as [u s'|s'| | |]; auto; destruct H as [H1 H2]; unfold sbind; rewrite H1; auto.
Qed.

(** ** Commands *)
(** [s] is what is left of [st'] after an error *)
Definition left_by (st' s : st) : Prop :=
  s_globals s = s_globals st' /\ m_heap (s_m s) = m_heap (s_m st') /\ m_log (s_m s) = m_log (s_m st') /\ m_io (s_m s) = m_io (s_m st') /\
  m_abort (s_m s) = m_abort (s_m st').
Definition fit (c : command) : Prop :=
  match c with
  | CStat s => s = SSkip \/ (lined s = true /\ oks w s /\ Forall (in_range w) (cstmt w i8 0 0 None None s))
  | CDef id f => sound_def f
  | CImport => True
  end.
Lemma after_settle st st' : m_sp (s_m st') = m_sp (s_m st) -> after st st' = set_a PNull (set_frames [] st').
Proof. intros H. unfold after. rewrite <- H. destruct st' as [m a g f]. cbn. unfold set_a, set_frames, set_m, set_stack. cbn. destruct m; reflexivity. Qed.
Lemma exec_nothing F st : exec K F 1 [] st = Some (s_a st, after st st).
Proof. reflexivity. Qed.
Lemma good_settle st : good K st -> good K (set_a PNull (set_frames [] st)).
Proof. intros G. exact G. Qed.
Lemma encs_some i l : encs w (i :: l) <> [].
Proof. discriminate. Qed.
Lemma lined_line s : lined s = true -> forall d b k c, exists i r, cstmt w i8 d b k c s = i :: r /\ is_return i = false.
Proof.
  induction s; intros H d0 b0 k0 c0; try discriminate H.
  - cbn [lined] in H. destruct (IHs1 H d0 b0 k0 c0) as (i & r & Q & N). autorewrite with lay. cbv zeta. rewrite Q. cbn [app]. eauto.
  - autorewrite with lay. eauto.
Qed.
Lemma command_some s c code : lined s = true -> oks w s -> gen_command w i8 s c = Ok code -> code <> [].
Proof.
  intros H O Q. rewrite gen_command_layout in Q by assumption. injection Q as <-. destruct (lined_line s H 0 0%nat None None) as (i & r & -> & _). apply encs_some.
Qed.
Lemma def_some f c code : okfd w f -> gen_def w i8 f c = Ok code -> code <> [].
Proof.
  intros O Q. rewrite gen_def_layout in Q by assumption. injection Q as <-. destruct O as (_ & _ & _ & L). unfold cdef.
  destruct (rev (cbody w i8 f)) as [|i l] eqn:R; [apply encs_some|].
  assert (B : cbody w i8 f = rev l ++ [i]) by (rewrite <- (rev_involutive (cbody w i8 f)), R; reflexivity).
  destruct (is_return i) eqn:Ri.
  - destruct (rev l) as [|j l'] eqn:Rl; [|apply encs_some]. exfalso. unfold cbody in B. cbv zeta in B.
    destruct (lined_line (fd_body f) L 0 (size w (cformals w i8 0 (fd_formals f))) None None) as (i' & r & Q & N). rewrite Q in B.
    destruct (cformals w i8 0 (fd_formals f)) as [|x cf]; cbn [app] in B; [injection B as -> _; congruence|].
    destruct cf; discriminate B.
  - rewrite B. destruct (rev l); apply encs_some.
Qed.
Lemma command_bytes s c code : lined s = true -> oks w s -> gen_command w i8 s c = Ok code -> code_bytes (CStat s) = sizeof_code w + Z.of_nat (length code).
Proof. intros H O Q. unfold code_bytes. rewrite gen_command_layout in Q |- * by assumption. injection Q as <-. reflexivity. Qed.
Lemma def_bytes id f c code : okfd w f -> gen_def w i8 f c = Ok code -> code_bytes (CDef id f) = sizeof_code w + Z.of_nat (length code).
Proof. intros O Q. unfold code_bytes. rewrite gen_def_layout in Q |- * by assumption. injection Q as <-. reflexivity. Qed.

Notation evs := (evs K code_bytes func_bytes).
Record follows (defs : list (func fundef)) (s : sess) : Prop := {
  fo_funs : Forall2 linked defs (ss_funs s); fo_ids : length (ss_ids s) = SNEK_MAX_FORMALS }.
Lemma Forall2_len {A B} (P : A -> B -> Prop) l l' : Forall2 P l l' -> length l = length l'.
Proof. induction 1; cbn; congruence. Qed.
Theorem commands_run n cs : forall defs s, Forall fit cs -> follows defs s -> good K (ss_st s) ->
  match evs n cs defs (ss_st s) with
  | Val defs' st' => exists fuel s', run_commands K i8 fuel cs s = Some (true, s') /\ ss_st s' = st' /\ follows defs' s' /\ good K st'
  | Stop st' => exists fuel s', run_commands K i8 fuel cs s = Some (false, s') /\ left_by st' (ss_st s') /\ aborted st' = true
  | _ => True
  end.
Proof.
  induction cs as [|c cs IH]; intros defs s HF Fo G.
  - cbn. exists 0%nat, s. auto.
  - inversion HF as [|? ? Hc HF']; subst. destruct c as [t|id f|].
    + assert (Step : match (match t with SSkip => xret tt | _ => memory K (code_bytes (CStat t)) &; do x <- exs K (nth_error defs) n 0 false t; xret tt end &; settle) (ss_st s) with
        | Val _ st' => exists fuel s', run_command K i8 fuel (CStat t) s = Some (true, s') /\ ss_st s' = st' /\ follows defs s' /\ good K st'
        | Stop st' => exists fuel s', run_command K i8 fuel (CStat t) s = Some (false, s') /\ left_by st' (ss_st s') /\ aborted st' = true
        | _ => True end).
      { destruct Hc as [-> |(Hl & Ho & Hr)].
        - cbn [xbind xret settle]. unfold settle. exists 1%nat. cbn [run_command]. rewrite gen_stmt_SSkip_eq. cbn [code_reset set_buf c_buf code_finish sret].
          rewrite exec_nothing. eexists. split; [|split; [|split; [|exact (good_settle _ G)]]].
          + change (m_abort (s_m (after (ss_st s) (ss_st s)))) with (aborted (ss_st s)). rewrite (proj1 G). reflexivity.
          + cbn [ss_st]. apply after_settle. reflexivity.
          + destruct Fo. split; assumption.
        - pose proof (gen_command_layout w i8 t (ss_buf s) Hl Ho) as Gc. pose proof (command_some _ _ _ Hl Ho Gc) as Ne. pose proof (command_bytes _ _ _ Hl Ho Gc) as By.
          pose proof (finish_memory _ _ G Ne) as Fm. rewrite <- By in Fm.
          assert (Gb : exists b, gen_stmt w i8 0 t (code_reset (ss_buf s)) = Ok b /\ c_buf b = encs w (cstmt w i8 0 0 None None t)).
          { unfold gen_command in Gc. destruct (gen_stmt w i8 0 t (code_reset (ss_buf s))) as [b| |]; try discriminate Gc. injection Gc as Gc. eauto. }
          destruct Gb as (b & Gb & Cb).
          assert (Gen : match (memory K (code_bytes (CStat t)) &; do x <- exs K (nth_error defs) n 0 false t; xret tt) (ss_st s) with
            | Val _ st' => exists fuel s', run_command K i8 fuel (CStat t) s = Some (true, s') /\ ss_st s' = set_a PNull (set_frames [] st') /\ follows defs s' /\ good K st'
            | Stop st' => exists fuel s', run_command K i8 fuel (CStat t) s = Some (false, s') /\ left_by st' (ss_st s') /\ aborted st' = true
            | _ => True end).
          { unfold xbind. destruct (memory K (code_bytes (CStat t)) (ss_st s)) as [u st1|st1| | |]; auto.
            - destruct Fm as [Ff G1]. destruct (command_runs K i8 _ _ (linked_program _ _ (fo_funs _ _ Fo)) n t (ss_buf s) st1 Hl Ho Hr G1) as (code & Gc' & R).
              rewrite Gc in Gc'. injection Gc' as <-. destruct (exs K (nth_error defs) n 0 false t st1) as [x st2|st2| | |] eqn:Ex; auto.
              + destruct R as (Qt & _ & _ & _ & fuel & X). cbn [xret]. exists fuel. cbn [run_command]. rewrite Gb, Cb, Ff, X. destruct Qt as (Q1 & Q2 & Q3 & Q4).
                eexists. split; [|split; [|split]].
                * change (m_abort (s_m (after st1 st2))) with (aborted st2). rewrite Q1. reflexivity.
                * cbn [ss_st]. apply after_settle. exact Q3.
                * destruct Fo. split; assumption.
                * split; [exact Q1|]. destruct G1 as [G1a [S1 S2]].
                  destruct (eval_tame K (nth_error defs) Hb n) as (_ & _ & _ & _ & _ & _ & _ & T8 & _). specialize (T8 0%nat 0 false t st1 G1a). rewrite Ex in T8. apply T8. split; assumption.
              + destruct R as ((Q1 & _) & fuel & X). exists fuel. cbn [run_command]. rewrite Gb, Cb, Ff, X. eexists. split; [|split; [|exact Q1]].
                * change (m_abort (s_m (after st1 st2))) with (aborted st2). rewrite Q1. reflexivity.
                * repeat split.
            - destruct Fm as [Ff A]. exists 1%nat. cbn [run_command]. rewrite Gb, Cb, Ff, exec_nothing. eexists. split; [|split; [|exact A]].
              + change (m_abort (s_m (after st1 st1))) with (aborted st1). rewrite A. reflexivity.
              + repeat split. }
          destruct t; try discriminate Hl.
          all: unfold xbind in Gen |- *; destruct (memory K _ (ss_st s)) as [u st1|st1| | |]; auto;
            destruct (exs K (nth_error defs) n 0 false _ st1) as [x st2|st2| | |]; auto. }
      cbn [ProgSpec.evs]. unfold xbind in Step |- *.
      destruct ((match t with SSkip => xret tt | _ => _ end) (ss_st s)) as [u st1|st1| | |] eqn:Q; auto.
      * unfold settle in Step |- *. destruct Step as (f1 & s1 & R1 & <- & Fo1 & G1). specialize (IH defs s1 HF' Fo1 G1).
        destruct (evs n cs defs (ss_st s1)) as [defs' st'|st'| | |]; auto; destruct IH as (f2 & s2 & R2 & Rest); exists (f1 + f2)%nat, s2; cbn [run_commands];
          rewrite (command_more f1 _ _ _ _ R1) by lia; (split; [apply (commands_more f2); [exact R2|lia]|exact Rest]).
      * destruct Step as (f1 & s1 & R1 & Rest). exists f1, s1. cbn [run_commands]. rewrite R1. split; [reflexivity|exact Rest].
    + destruct Hc as (Ok1 & Pr & Len & Dl). cbn [ProgSpec.evs].
      assert (L10 : (length (formals_of f) <= 10)%nat) by (unfold formals_of; rewrite map_length; exact Len).
      destruct (parse_formals_ok (formals_of f) (formals_start (ss_ids s))) as (p & Pf & Pn & Pi & Pm); cbn [formals_start pf_ids pf_nformal pf_nnamed] in *;
        [exact (fo_ids _ _ Fo)|exact L10|lia|lia|left; split; [reflexivity|exact Dl]|].
      pose proof (formals_ids_length _ _ _ Pf) as Pl. cbn [formals_start pf_ids] in Pl. rewrite (fo_ids _ _ Fo) in Pl.
      assert (Pn' : pf_nformal p = length (fd_formals f)) by (rewrite Pn; unfold formals_of; rewrite map_length; reflexivity).
      pose proof (gen_def_layout w i8 f (ss_buf s) Ok1) as Gd. pose proof (def_some _ _ _ Ok1 Gd) as Ne. pose proof (def_bytes id _ _ _ Ok1 Gd) as By.
      assert (Gb : exists b, def_code K i8 f (code_reset (ss_buf s)) = Ok b /\ c_buf b = encs w (cdef w i8 f)).
      { rewrite gen_def_code in Gd. destruct (def_code K i8 f (code_reset (ss_buf s))) as [b| |]; try discriminate Gd. injection Gd as Gd. eauto. }
      destruct Gb as (b & Gb & Cb). pose proof (finish_memory _ _ G Ne) as Fm. rewrite <- By in Fm.
      unfold xbind at 1. destruct (memory K (code_bytes (CDef id f)) (ss_st s)) as [u st1|st1| | |]; auto.
      2: { destruct Fm as [Ff A]. eexists 0%nat, _. cbn [run_commands run_command]. rewrite Pf, Gb. cbv zeta. unfold sbind at 1. rewrite Cb, Ff. cbn [sret].
           change (m_abort (s_m st1)) with (aborted st1). rewrite A. cbn [negb]. split; [reflexivity|]. split; [repeat split|first [exact A|reflexivity]]. }
      destruct Fm as [Ff G1]. pose proof (reserve_memory (func_bytes f) st1 G1) as Rm. unfold xbind at 1.
      destruct (memory K (func_bytes f) st1) as [u' st2|st2| | |]; auto.
      2: { destruct Rm as [Rf A]. eexists 0%nat, _. cbn [run_commands run_command]. rewrite Pf, Gb. cbv zeta. unfold sbind at 1. rewrite Cb, Ff. unfold sbind at 1. rewrite Pn'.
           change (sizeof_func w + Z.of_nat (length (fd_formals f)) * sizeof_id w) with (func_bytes f). rewrite Rf. cbn [sret].
           change (m_abort (s_m st2)) with (aborted st2). rewrite A. cbn [negb]. split; [reflexivity|]. split; [repeat split|first [exact A|reflexivity]]. }
      destruct Rm as [Rf G2]. unfold xbind at 1.
      pose proof (x_prim _ 0%nat 0%nat _ (ts_id_store E 0 id (PFunc (length defs))) st2 (proj1 G2)) as Tp.
      assert (Run : forall fuel r st3, id_store E id (PFunc (length defs)) st2 = Some (r, st3) ->
        run_command K i8 fuel (CDef id f) s = Some (negb (aborted st3), {| ss_st := st3; ss_funs := ss_funs s ++ [func_of p (encs w (cdef w i8 f))]; ss_ids := pf_ids p; ss_buf := code_reset b |})).
      { intros fuel r st3 Q. cbn [run_command]. rewrite Pf, Gb. cbv zeta. unfold sbind at 1. rewrite Cb, Ff. unfold sbind at 1. rewrite Pn'.
        change (sizeof_func w + Z.of_nat (length (fd_formals f)) * sizeof_id w) with (func_bytes f). rewrite Rf. unfold sbind at 1.
        rewrite <- (Forall2_len _ _ _ (fo_funs _ _ Fo)), Q. reflexivity. }
      unfold prim in Tp |- *. destruct (id_store E id (PFunc (length defs)) st2) as [[r st3]|] eqn:Q; [|exact Logic.I].
      destruct (aborted st3) eqn:A.
      * eexists 0%nat, _. cbn [run_commands]. rewrite (Run 0%nat _ _ eq_refl), A. cbn [negb]. split; [reflexivity|]. split; [repeat split|first [exact A|reflexivity]].
      * destruct Tp as (_ & _ & _ & Sn).
        set (s1 := {| ss_st := st3; ss_funs := ss_funs s ++ [func_of p (encs w (cdef w i8 f))]; ss_ids := pf_ids p; ss_buf := code_reset b |}) in *.
        assert (Fo1 : follows (defs ++ [def_of f]) s1).
        { split; [|exact Pl]. cbn [ss_funs s1]. apply Forall2_app; [exact (fo_funs _ _ Fo)|]. constructor; [|constructor].
          split; [exact Ok1|]. split; [exact Pr|]. exists (ss_buf s), (encs w (cdef w i8 f)). split; [exact Gd|].
          unfold func_of, def_of. cbn [fn_nrequired fn_formals fn_code]. f_equal.
          - rewrite <- required_of. fold (formals_of f). pose proof (nrequired_range (formals_of f)). rewrite Pm, Pn. cbn [Nat.add]. rewrite Z.mod_small; lia.
          - rewrite Pi. cbn [firstn app]. unfold formals_of. rewrite map_map. apply map_ext. reflexivity. }
        specialize (IH (defs ++ [def_of f]) s1 HF' Fo1 (conj A (Sn (proj2 G2)))). cbn [ss_st s1] in IH.
        destruct (evs n cs (defs ++ [def_of f]) st3) as [defs' st'|st'| | |]; auto; destruct IH as (f2 & s2 & R2 & Rest); exists f2, s2; cbn [run_commands];
          rewrite (Run f2 _ _ eq_refl), A; cbn [negb]; (split; [exact R2|exact Rest]).
    + cbn [ProgSpec.evs]. specialize (IH defs s HF' Fo G).
      destruct (evs n cs defs (ss_st s)) as [defs' st'|st'| | |]; auto.
Qed.
End P.
