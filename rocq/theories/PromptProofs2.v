(** What a command at the prompt does. *)
From Coq Require Import ZArith Bool List Lia.
From Verif Require Import Base FloatModel PolyModel ValueModel MathModel MachModel ListModel StrModel MachSpec StrSpec FrameProofs ListProofs BuiltModel BuiltSpec BuiltRuns PromptProofs.
From Verif Require Import BinModel VarSpec FrameModel VarProofs FuncProofs CodeModel CompModel ExecModel LayoutSpec LayoutProofs LayoutEqs GenProofs GenProofs2 EvalSpec TameSpec TameProofs TameProofs2 EvalTame StepProofs SimProofs EvalProofs GramModel ProgModel ProgSpec ProgProofs PromptModel PromptSpec.
Import ListNotations.
Local Open Scope Z_scope.
Open Scope st_scope.
Notation length := List.length (only parsing).
Notation upd := MachModel.upd.

Section P.
Variable K : conf.
Variable under : Z.
Notation E := (cf_env K).
Notation w := (e_width E).

(** ** Keeping the value *)
(** the machine after the value has been pushed and popped again *)
Definition traced (p : poly) (m : mach) : mach := set_stack (upd (m_sp m) p (m_stack m)) (m_sp m) m.
Lemma traced_still p m : wf E m -> wf_strs E (m_heap m) -> room E 1 m -> wf_poly (m_heap m) p -> forall k, still E m (traced p (set_nalloc k m)).
Proof.
  intros W Ws R Hp k. assert (Hsp : (m_sp m < length (m_stack m))%nat) by (destruct W as [_ W2 _ _ _]; unfold room in R; lia).
  assert (Fr : frame None m (traced p (set_nalloc k m))).
  { pose proof (frame_refl None (FrameProofs.pushed p m)) as F0. pose proof (frame_popped None p m (FrameProofs.pushed p m) Hsp F0) as [A B C D G H]. split; assumption. }
  split; [|split; [exact Ws|split; [exact Fr|repeat split]]].
  assert (T : firstn (m_sp m) (upd (m_sp m) p (m_stack m)) = firstn (m_sp m) (m_stack m)) by (apply (fr_stack _ _ _ Fr)).
  destruct W as [W1 W2 W3 W4 W5]. split; cbn [traced set_stack set_nalloc m_heap m_stack m_sp m_empty]; auto.
  - rewrite MachProofs.upd_length. exact W2.
  - rewrite T. exact W4.
Qed.
Lemma lookup_top (s : st) i : s_frames s = [] -> variable_lookup E false i true s = Some (None, s).
Proof. intros H. unfold variable_lookup, sbind, get. cbn [pick_frame]. rewrite H. reflexivity. Qed.

Definition stored (p : poly) (s : st) : Prop := lookup under (s_globals s) = Some p.
Definition others (s s' : st) : Prop := forall j, j <> under -> lookup j (s_globals s') = lookup j (s_globals s).
Lemma push_push p m : room E 1 m -> push E p m = Some (tt, FrameProofs.pushed p m).
Proof. apply push_eq. Qed.
Lemma pop_traced p m k : (m_sp m < length (m_stack m))%nat -> pop (set_nalloc k (FrameProofs.pushed p m)) = Some (p, traced p (set_nalloc k m)).
Proof.
  intros H. unfold pop, FrameProofs.pushed. cbn [set_nalloc set_stack m_sp m_stack]. rewrite MachProofs.nth_upd_same by exact H. reflexivity.
Qed.
Lemma nalloc_id m : set_nalloc (m_nalloc m) m = m.
Proof. destruct m. reflexivity. Qed.
Lemma size_fits n : fits_vars E n -> sizeof_frame E + Z.of_nat n * sizeof_var E + 3 <= e_pool E ->
  let size := sizeof_frame E + Z.of_nat n * sizeof_var E in
  (e_pool E <? size_round w (u_of w size)) = false /\ (size <=? size_round w (u_of w size)) = true.
Proof.
  intros F Hp size. unfold fits_vars in F. fold size in F, Hp.
  assert (H0 : 0 <= size) by (unfold size, sizeof_frame, sizeof_var; destruct w; lia).
  rewrite (u_of_small _ size) by lia. unfold size_round. rewrite (u_of_small _ (size + 3)) by lia. rewrite u_of_small by lia. split; [apply Z.ltb_ge|apply Z.leb_le]; lia.
Qed.
Lemma store_top p s : s_frames s = [] -> (m_sp (s_m s) < length (m_stack (s_m s)))%nat -> room E 1 (s_m s) -> at_hand E under s ->
  exists k vs, id_store E under p s = Some (true, set_globals vs (set_m (traced p (set_nalloc k (s_m s))) s)) /\
    lookup under vs = Some p /\ forall j, j <> under -> lookup j vs = lookup j (s_globals s).
Proof.
  intros Hf Hsp R A. unfold id_store. unfold sbind at 1, lm at 1. rewrite push_eq by exact R. cbn iota beta.
  set (s1 := set_m (FrameProofs.pushed p (s_m s)) s). unfold id_ref. unfold sbind at 1. unfold sbind at 1. rewrite lookup_top by exact Hf. cbn iota beta.
  unfold variable_lookup. unfold sbind at 1, get. cbn [pick_frame]. change (s_globals s1) with (s_globals s).
  pose proof (index_lookup under (s_globals s)) as L. destruct (index_of under (s_globals s)) as [n|] eqn:Ei.
  - destruct L as (v & Hn & Hl). cbn [sret]. unfold sbind at 1, lm. rewrite <- (nalloc_id (s_m s1)). change (m_nalloc (s_m s1)) with (m_nalloc (s_m s)).
    change (s_m s1) with (FrameProofs.pushed p (s_m s)). rewrite pop_traced by exact Hsp. cbn iota beta. unfold sbind, write. cbn [vr_global vr_index pick_frame s1 set_m s_globals].
    rewrite Hn. exists (m_nalloc (s_m s)), (upd n (under, p) (s_globals s)). split; [reflexivity|]. split.
    + rewrite (lookup_upd _ _ _ _ _ Ei), Z.eqb_refl. reflexivity.
    + intros j Hj. rewrite (lookup_upd _ _ _ _ _ Ei). destruct (Z.eqb_spec j under); [contradiction|reflexivity].
  - destruct A as [A|A]; [now elim A|]. cbv zeta in A. destruct A as (F & P & Mv & Fl).
    destruct (size_fits _ F P) as [Z1 Z2]. unfold sbind at 1. unfold sbind at 1. unfold variable_insert. unfold sbind at 1, get. cbn [pick_frame]. change (s_globals s1) with (s_globals s).
    unfold sbind at 1. unfold new_frame. unfold sbind at 1, lm. rewrite Nat.add_1_r. unfold alloc. change (m_nalloc (s_m s1)) with (m_nalloc (s_m s)).
    rewrite Mv, Fl, Z1. cbn [orb]. rewrite Z2. cbn [sret].
    assert (Sk : skipn (length (s_globals s)) (repeat (0, PZero) (Datatypes.S (length (s_globals s)))) = [(0, PZero) : var]).
    { clear. induction (length (s_globals s)) as [|k IH]; [reflexivity|]. exact IH. }
    match goal with |- context [s_globals s ++ ?t] => replace t with [(0, PZero) : var] by (symmetry; exact Sk) end.
    unfold sbind at 1. unfold set_id. cbn [pick_frame put_frame set_globals s_globals]. rewrite nth_last, upd_last.
    unfold sbind at 1. cbn [sret s_m set_globals set_m]. unfold sret at 1. cbn [s_m set_globals set_m]. change (s_m s1) with (FrameProofs.pushed p (s_m s)). rewrite pop_traced by exact Hsp.
    unfold sbind, write. cbn [vr_global vr_index pick_frame set_m set_globals s_globals]. rewrite nth_last, upd_last. cbn [sret put_frame].
    eexists _, (s_globals s ++ [(under, p)]). split; [reflexivity|]. split.
    + rewrite lookup_snoc by exact L. rewrite Z.eqb_refl. reflexivity.
    + intros j Hj. rewrite lookup_snoc by exact L. destruct (Z.eqb_spec j under); [contradiction|reflexivity].
Qed.

(** ** Printing it *)
Theorem echo_shows p v s : wf_env E -> texts_ok (cf_texts K) -> s_frames s = [] -> wf E (s_m s) -> wf_strs E (m_heap (s_m s)) ->
  room E (nesting v + 2) (s_m s) -> tree (m_heap (s_m s)) p v -> wf_poly (m_heap (s_m s)) p -> at_hand E under s ->
  exists s' t, echo K under p s = Some (tt, s') /\ text_of E (cf_texts K) 114 v t /\ printed (t ++ [10]) (s_m s) (s_m s') /\ still E (s_m s) (s_m s') /\
    stored p s' /\ others s s' /\ s_frames s' = [] /\ s_a s' = s_a s.
Proof.
  intros We Tok Hf W Ws R Ht Hp A.
  assert (R1 : room E 1 (s_m s)) by (unfold room in *; lia).
  assert (Hsp : (m_sp (s_m s) < length (m_stack (s_m s)))%nat) by (pose proof (wf_stack_len _ _ W); unfold room in R1; lia).
  destruct (store_top p s Hf Hsp R1 A) as (k & vs & Q & L1 & L2).
  pose proof (traced_still p (s_m s) W Ws R1 Hp k) as S1. set (m1 := traced p (set_nalloc k (s_m s))) in *.
  pose proof S1 as (W1 & Ws1 & _).
  destruct (repr_runs E (cf_texts K) m1 p v We Tok W1 Ws1 (room_still _ _ _ _ S1 R) (tree_still _ _ _ _ _ S1 Ht)) as (u & m2 & Q2 & S2 & t & Tx & Pr).
  eexists _, t. split; [|split; [exact Tx|]].
  - unfold echo, sbind at 1, lm at 1, hold. cbn iota beta. rewrite set_m_id. unfold sbind at 1. rewrite Q. cbn iota beta. unfold sbind, lm, use. cbn [fst snd s_m set_globals set_m].
    change (m_epoch m1) with (m_epoch (s_m s)). rewrite Nat.eqb_refl, orb_true_r. cbn [s_m set_m]. rewrite Q2. destruct u. reflexivity.
  - cbn [s_m set_m set_globals s_globals s_frames s_a]. split; [|split; [exact (still_trans _ _ _ _ S1 S2)|auto]].
    change (t ++ [10]) with ([] ++ (t ++ [10])). eapply printed_trans; [|exact Pr]. apply printed_nil. reflexivity.
Qed.

(** The pool is compacted when the name is stored for the first time: the value
    is then printed through a pointer that is no longer valid. *)
Theorem echo_stale p s : s_frames s = [] -> room E 1 (s_m s) -> lookup under (s_globals s) = None ->
  e_move E (m_nalloc (s_m s)) = true -> is_ref p = true -> echo K under p s = None.
Proof.
  intros Hf R L Mv Rf. unfold echo, sbind at 1, lm at 1, hold. cbn iota beta. rewrite set_m_id. unfold sbind at 1.
  assert (H : forall r s', id_store E under p s = Some (r, s') -> m_epoch (s_m s') = Datatypes.S (m_epoch (s_m s))).
  { intros r s'. unfold id_store. unfold sbind at 1, lm at 1. rewrite push_eq by exact R. cbn iota beta.
    set (s1 := set_m (FrameProofs.pushed p (s_m s)) s). unfold id_ref. unfold sbind at 1. unfold sbind at 1. rewrite lookup_top by exact Hf. cbn iota beta.
    unfold variable_lookup. unfold sbind at 1, get. cbn [pick_frame]. change (s_globals s1) with (s_globals s).
    pose proof (index_lookup under (s_globals s)) as I. destruct (index_of under (s_globals s)) as [n|]; [destruct I as (v & _ & I); congruence|].
    unfold sbind at 1. unfold variable_insert. unfold sbind at 1, get. cbn [pick_frame]. change (s_globals s1) with (s_globals s).
    unfold sbind at 1. unfold new_frame. unfold sbind at 1, lm. unfold alloc. change (m_nalloc (s_m s1)) with (m_nalloc (s_m s)). rewrite Mv.
    destruct (e_fail E (m_nalloc (s_m s)) || _).
    - unfold error. destruct (m_abort _); cbn [sret]; unfold sbind, pop; cbn [s_m set_m set_err set_nalloc moved m_sp m_stack s1 FrameProofs.pushed set_stack];
        destruct (nth_error _ _); try discriminate; cbn [sret]; intros Q; injection Q as _ <-; reflexivity.
    - destruct (_ <=? _); [|discriminate]. cbn [sret]. unfold sbind at 1. unfold set_id. cbn [pick_frame put_frame set_globals s_globals].
      destruct (nth_error (s_globals s ++ _) _) as [[i0 v0]|]; [|discriminate]. unfold sret at 1. unfold sbind at 1, pop. cbn [s_m set_m set_globals set_nalloc moved m_sp m_stack s1 FrameProofs.pushed set_stack].
      match goal with |- context [@nth_error ?T ?a ?b] => destruct (@nth_error T a b) end; [|discriminate]. unfold sbind, write. cbn [vr_global vr_index pick_frame set_m set_globals s_globals].
      match goal with |- context [@nth_error ?T ?a ?b] => destruct (@nth_error T a b) as [[i1 v1]|] end; cbn iota beta; [|intros Q; discriminate Q]. unfold sret. intros Q; injection Q as _ <-. reflexivity. }
  destruct (id_store E under p s) as [[r s']|]; [|reflexivity]. specialize (H _ _ eq_refl). cbn iota beta.
  unfold sbind, lm, use. cbn [fst snd]. rewrite Rf, H. cbn [negb orb]. replace (Nat.eqb (m_epoch (s_m s)) (Datatypes.S (m_epoch (s_m s)))) with false by (symmetry; apply Nat.eqb_neq; lia). reflexivity.
Qed.

(** ** Commands *)
Variable i8 : float -> Z.
Hypothesis Hi8 : forall f, -128 <= i8 f < 128.
Hypothesis Hb : tame_builtins E (cf_builtins K).
Open Scope eval_scope.

Definition settled (s : st) : st := set_a PNull (set_frames [] s).
Theorem prompt_runs n t defs s : lined t = true -> oks w t -> Forall (in_range w) (cstmt w i8 0 0 None None t) ->
  follows K i8 defs s -> good K (ss_st s) ->
  match (memory K (code_bytes K i8 (CStat t)) &; exs K (nth_error defs) n 0 false t) (ss_st s) with
  | Val x st' => aborted st' = false /\ exists N b, forall fuel, (N <= fuel)%nat -> run_prompt K i8 under fuel (CStat t) s =
      match (if shows t && negb (is_null (s_a st')) then echo K under (s_a st') else sret tt) (settled st') with
      | None => None
      | Some (_, st2) => Some (negb (aborted st2), {| ss_st := st2; ss_funs := ss_funs s; ss_ids := ss_ids s; ss_buf := b |})
      end
  | Stop st' => exists N s', (forall fuel, (N <= fuel)%nat -> run_prompt K i8 under fuel (CStat t) s = Some (false, s')) /\ left_by st' (ss_st s') /\ aborted st' = true
  | _ => True
  end.
Proof.
  intros Hl Ho Hr Fo G.
  pose proof (gen_command_layout w i8 t (ss_buf s) Hl Ho) as Gc. pose proof (command_some K i8 _ _ _ Hl Ho Gc) as Ne. pose proof (command_bytes K i8 _ _ _ Hl Ho Gc) as By.
  pose proof (finish_memory K _ _ G Ne) as Fm. rewrite <- By in Fm.
  assert (Gb : exists b, gen_stmt w i8 0 t (code_reset (ss_buf s)) = Ok b /\ c_buf b = encs w (cstmt w i8 0 0 None None t)).
  { unfold gen_command in Gc. destruct (gen_stmt w i8 0 t (code_reset (ss_buf s))) as [b| |]; try discriminate Gc. injection Gc as Gc. eauto. }
  destruct Gb as (b & Gb & Cb). unfold xbind. destruct (memory K (code_bytes K i8 (CStat t)) (ss_st s)) as [u st1|st1| | |]; auto.
  - destruct Fm as [Ff G1]. destruct (command_runs K i8 _ _ (linked_program K i8 Hi8 Hb _ _ (fo_funs _ _ _ _ Fo)) n t (ss_buf s) st1 Hl Ho Hr G1) as (code & Gc' & R).
    rewrite Gc in Gc'. injection Gc' as <-. destruct (exs K (nth_error defs) n 0 false t st1) as [x st2|st2| | |]; auto.
    + destruct R as (Qt & _ & _ & _ & N & X). destruct Qt as (Q1 & Q2 & Q3 & Q4). split; [exact Q1|]. exists N, (code_reset b). intros fuel Hf. cbn [run_prompt]. rewrite Gb, Cb, Ff.
      rewrite (exec_more K _ N fuel _ _ _ X Hf). change (m_abort (s_m (after st1 st2))) with (aborted st2). rewrite Q1. cbn [negb andb].
      rewrite (after_settle _ _ Q3). reflexivity.
    + destruct R as ((Q1 & _) & N & X). eexists N, _. split; [|split; [|exact Q1]].
      * intros fuel Hf. cbn [run_prompt]. rewrite Gb, Cb, Ff. rewrite (exec_more K _ N fuel _ _ _ X Hf). change (m_abort (s_m (after st1 st2))) with (aborted st2). rewrite Q1. cbn [negb andb sret].
        change (m_abort (s_m (after st1 st2))) with (aborted st2). rewrite Q1. reflexivity.
      * repeat split.
  - destruct Fm as [Ff A]. eexists 1%nat, _. split; [|split; [|exact A]].
    + intros fuel Hf. cbn [run_prompt]. rewrite Gb, Cb, Ff. rewrite (exec_more K _ 1 fuel _ _ _ (exec_nothing K _ st1) Hf).
      change (m_abort (s_m (after st1 st1))) with (aborted st1). rewrite A. cbn [negb andb sret]. change (m_abort (s_m (after st1 st1))) with (aborted st1). rewrite A. reflexivity.
    + repeat split.
Qed.

Lemma silent_shows t : silent t <-> shows t = false.
Proof.
  split; [induction 1; cbn [shows]; rewrite ?IHsilent, ?andb_false_r; reflexivity|].
  induction t; cbn [shows]; intros H; try discriminate; try (constructor; fail).
  apply andb_false_iff in H as [H|H]; [apply si_first|apply si_then]; auto.
Qed.

(** What is printed is the value that the command leaves. *)
Theorem prompt_shows n t defs s x st' v : lined t = true -> oks w t -> Forall (in_range w) (cstmt w i8 0 0 None None t) ->
  follows K i8 defs s -> good K (ss_st s) ->
  (memory K (code_bytes K i8 (CStat t)) &; exs K (nth_error defs) n 0 false t) (ss_st s) = Val x st' ->
  ~ silent t -> is_null (s_a st') = false -> wf_env E -> texts_ok (cf_texts K) -> wf E (s_m st') -> wf_strs E (m_heap (s_m st')) ->
  room E (nesting v + 2) (s_m st') -> tree (m_heap (s_m st')) (s_a st') v -> wf_poly (m_heap (s_m st')) (s_a st') -> at_hand E under st' ->
  exists N s' text, (forall fuel, (N <= fuel)%nat -> run_prompt K i8 under fuel (CStat t) s = Some (true, s')) /\
    text_of E (cf_texts K) 114 v text /\ printed (text ++ [10]) (s_m st') (s_m (ss_st s')) /\ untouched E (s_m st') (s_m (ss_st s')) /\
    stored (s_a st') (ss_st s') /\ others st' (ss_st s').
Proof.
  intros Hl Ho Hr Fo G X Sh Nn We Tok W Ws R Ht Hp A. pose proof (prompt_runs n t defs s Hl Ho Hr Fo G) as Q. rewrite X in Q. destruct Q as (Ab & N & b & Q).
  destruct (shows t) eqn:Es; [|elim Sh; now apply silent_shows]. rewrite Nn in Q. cbn [negb andb] in Q.
  destruct (echo_shows (s_a st') v (settled st') We Tok eq_refl W Ws R Ht Hp A) as (s' & text & Q2 & Tx & Pr & St & Sd & Ot & _).
  exists N. eexists _, text. split; [|split; [exact Tx|]].
  - intros fuel Hf. rewrite (Q fuel Hf), Q2. destruct St as (_ & _ & _ & [Qa _] & _). unfold aborted in *. rewrite Qa. change (m_abort (s_m (settled st'))) with (m_abort (s_m st')). rewrite Ab. reflexivity.
  - cbn [ss_st]. split; [exact Pr|]. split; [apply still_untouched; exact St|auto].
Qed.

(** ** Expressions *)
Lemma value_left defs funs n p e code b st v st' : Forall2 (linked K i8) defs funs -> hosts w code b (comp w i8 p b e) -> good K st ->
  ev K (nth_error defs) n e st = Val v st' -> s_a st' = v /\ good K st'.
Proof.
  intros L H G X. pose proof (expr_runs K i8 _ _ (linked_program K i8 Hi8 Hb _ _ L) n e p code b st [] H G) as Q. rewrite X in Q. destruct Q as (Q1 & Q2 & _). auto.
Qed.
Lemma memory_good z s u st1 : good K s -> memory K z s = Val u st1 -> good K st1.
Proof. intros G X. pose proof (reserve_memory K z s G) as Q. rewrite X in Q. apply Q. Qed.

Lemma exs_seq FT n d l s t st : exs K FT (Datatypes.S n) d l (SSeq s t) st =
  match exs K FT n d l s st with Val Normal st' => exs K FT n d l t st' | r => r end.
Proof. change (exs K FT (Datatypes.S n) d l (SSeq s t)) with (do x <- exs K FT n d l s; match x with Normal => exs K FT n d l t | _ => xret x end). unfold xbind. destruct (exs K FT n d l s st) as [[]| | | |]; reflexivity. Qed.
Lemma exs_line FT n d l k st : exs K FT (Datatypes.S n) d l (SLine k) st = Val Normal st.
Proof. reflexivity. Qed.
Lemma exs_expr FT n d l e st v st' : ev K FT n e st = Val v st' -> exs K FT (Datatypes.S n) d l (SExpr e) st = Val Normal st'.
Proof. intros H. change (exs K FT (Datatypes.S n) d l (SExpr e)) with (ev K FT n e &; xret Normal). unfold xbind. rewrite H. reflexivity. Qed.
Theorem prompt_value n line e defs s st1 p st' v : let t := value_of_line line e in
  oks w t -> Forall (in_range w) (cstmt w i8 0 0 None None t) -> follows K i8 defs s -> good K (ss_st s) ->
  memory K (code_bytes K i8 (CStat t)) (ss_st s) = Val tt st1 -> ev K (nth_error defs) n e st1 = Val p st' ->
  is_null p = false -> wf_env E -> texts_ok (cf_texts K) -> wf E (s_m st') -> wf_strs E (m_heap (s_m st')) ->
  room E (nesting v + 2) (s_m st') -> tree (m_heap (s_m st')) p v -> wf_poly (m_heap (s_m st')) p -> at_hand E under st' ->
  exists N s' text, (forall fuel, (N <= fuel)%nat -> run_prompt K i8 under fuel (CStat t) s = Some (true, s')) /\
    text_of E (cf_texts K) 114 v text /\ printed (text ++ [10]) (s_m st') (s_m (ss_st s')) /\ untouched E (s_m st') (s_m (ss_st s')) /\
    stored p (ss_st s') /\ others st' (ss_st s').
Proof.
  intros t Ho Hr Fo G M X Nn We Tok W Ws R Ht Hp A.
  assert (Sa : s_a st' = p).
  { pose proof (hosts_all K _ Hr) as H. unfold t, value_of_line in H. autorewrite with lay in H. cbv zeta in H. apply hosts_app in H as [_ H]. apply hosts_app in H as [H _].
    eapply value_left; [exact (fo_funs _ _ _ _ Fo)|exact H|exact (memory_good _ _ _ _ G M)|exact X]. }
  subst p.
  apply (prompt_shows (Datatypes.S (Datatypes.S (Datatypes.S n))) t defs s Normal st' v); auto.
  - unfold xbind. rewrite M. unfold t, value_of_line.
    rewrite exs_seq, exs_line, exs_seq, (exs_expr _ _ _ _ _ _ _ _ X). reflexivity.
  - intros H. apply silent_shows in H. discriminate H.
Qed.
Theorem prompt_two n line a b defs s st1 q st2 p st' v : let t := values_of_line line a b in
  oks w t -> Forall (in_range w) (cstmt w i8 0 0 None None t) -> follows K i8 defs s -> good K (ss_st s) ->
  memory K (code_bytes K i8 (CStat t)) (ss_st s) = Val tt st1 -> ev K (nth_error defs) (Datatypes.S n) a st1 = Val q st2 -> ev K (nth_error defs) n b st2 = Val p st' ->
  is_null p = false -> wf_env E -> texts_ok (cf_texts K) -> wf E (s_m st') -> wf_strs E (m_heap (s_m st')) ->
  room E (nesting v + 2) (s_m st') -> tree (m_heap (s_m st')) p v -> wf_poly (m_heap (s_m st')) p -> at_hand E under st' ->
  exists N s' text, (forall fuel, (N <= fuel)%nat -> run_prompt K i8 under fuel (CStat t) s = Some (true, s')) /\
    text_of E (cf_texts K) 114 v text /\ printed (text ++ [10]) (s_m st') (s_m (ss_st s')).
Proof.
  intros t Ho Hr Fo G M X Y Nn We Tok W Ws R Ht Hp A.
  pose proof (hosts_all K _ Hr) as H. unfold t, values_of_line in H. autorewrite with lay in H. cbv zeta in H. apply hosts_app in H as [_ H]. apply hosts_app in H as [H1 H]. apply hosts_app in H as [H2 _].
  assert (G2 : good K st2) by (eapply value_left; [exact (fo_funs _ _ _ _ Fo)|exact H1|exact (memory_good _ _ _ _ G M)|exact X]).
  assert (Sa : s_a st' = p) by (eapply value_left; [exact (fo_funs _ _ _ _ Fo)|exact H2|exact G2|exact Y]).
  subst p.
  destruct (prompt_shows (Datatypes.S (Datatypes.S (Datatypes.S (Datatypes.S n)))) t defs s Normal st' v) as (N & s' & text & Q1 & Q2 & Q3 & _); auto.
  - unfold xbind. rewrite M. unfold t, values_of_line.
    rewrite exs_seq, exs_line, exs_seq, (exs_expr _ _ _ _ _ _ _ _ X), exs_seq, (exs_expr _ _ _ _ _ _ _ _ Y). reflexivity.
  - intros H. apply silent_shows in H. discriminate H.
  - eauto 8.
Qed.

(** Nothing is printed. *)
Theorem prompt_silent n t defs s x st' : lined t = true -> oks w t -> Forall (in_range w) (cstmt w i8 0 0 None None t) ->
  follows K i8 defs s -> good K (ss_st s) ->
  (memory K (code_bytes K i8 (CStat t)) &; exs K (nth_error defs) n 0 false t) (ss_st s) = Val x st' ->
  silent t \/ is_null (s_a st') = true ->
  exists N s', (forall fuel, (N <= fuel)%nat -> run_prompt K i8 under fuel (CStat t) s = Some (true, s')) /\ ss_st s' = settled st'.
Proof.
  intros Hl Ho Hr Fo G X C. pose proof (prompt_runs n t defs s Hl Ho Hr Fo G) as Q. rewrite X in Q. destruct Q as (Ab & N & b & Q).
  replace (shows t && negb (is_null (s_a st'))) with false in Q.
  - exists N. eexists. split; [intros fuel Hf; rewrite (Q fuel Hf); unfold sret, aborted in *; cbn [s_m settled set_a set_frames]; rewrite Ab; reflexivity|reflexivity].
  - symmetry. destruct C as [C|C]; [apply silent_shows in C; rewrite C; reflexivity|rewrite C; apply andb_false_r].
Qed.
(** An error: nothing is printed either. *)
Theorem prompt_error n t defs s st' : lined t = true -> oks w t -> Forall (in_range w) (cstmt w i8 0 0 None None t) ->
  follows K i8 defs s -> good K (ss_st s) ->
  (memory K (code_bytes K i8 (CStat t)) &; exs K (nth_error defs) n 0 false t) (ss_st s) = Stop st' ->
  exists N s', (forall fuel, (N <= fuel)%nat -> run_prompt K i8 under fuel (CStat t) s = Some (false, s')) /\ left_by st' (ss_st s') /\ aborted st' = true.
Proof. intros Hl Ho Hr Fo G X. pose proof (prompt_runs n t defs s Hl Ho Hr Fo G) as Q. rewrite X in Q. exact Q. Qed.
(** The value is printed through a stale pointer. *)
Theorem prompt_stale n t defs s x st' : lined t = true -> oks w t -> Forall (in_range w) (cstmt w i8 0 0 None None t) ->
  follows K i8 defs s -> good K (ss_st s) ->
  (memory K (code_bytes K i8 (CStat t)) &; exs K (nth_error defs) n 0 false t) (ss_st s) = Val x st' ->
  ~ silent t -> is_ref (s_a st') = true -> room E 1 (s_m st') -> lookup under (s_globals st') = None -> e_move E (m_nalloc (s_m st')) = true ->
  exists N, forall fuel, (N <= fuel)%nat -> run_prompt K i8 under fuel (CStat t) s = None.
Proof.
  intros Hl Ho Hr Fo G X Sh Rf R L Mv. pose proof (prompt_runs n t defs s Hl Ho Hr Fo G) as Q. rewrite X in Q. destruct Q as (Ab & N & b & Q).
  destruct (shows t) eqn:Es; [|elim Sh; now apply silent_shows].
  replace (is_null (s_a st')) with false in Q by (destruct (s_a st'); try discriminate Rf; reflexivity). cbn [negb andb] in Q.
  exists N. intros fuel Hf. rewrite (Q fuel Hf). rewrite (echo_stale (s_a st') (settled st')); auto.
Qed.
End P.
