(** Whole commands and functions: from the simulation to what is observed. *)
From Coq Require Import ZArith Bool List Lia.
From Verif Require Import Base FloatModel PolyModel ValueModel MathModel MachModel ListModel StrModel BinModel FrameModel CodeModel CompModel ExecModel LayoutSpec LayoutProofs LayoutEqs GenProofs GenProofs2 EvalSpec EvalMono TameSpec TameProofs TameProofs2 EvalTame StepProofs SimProofs.
Import ListNotations.
Local Open Scope Z_scope.
Open Scope eval_scope.
Open Scope st_scope.

(** ** The table of functions enters through its values only *)
Section Ext.
Variable K : conf.
Variables F G : loc -> option (func (list Z)).
Hypothesis HFG : forall l, F l = G l.
Notation E := (cf_env K).
Lemma call_op_ext b o s : call_op E b F o s = call_op E b G o s.
Proof.
  unfold call_op, sbind. destruct (lm (pick _) s) as [[a s1]|]; [|reflexivity]. destruct (put_a a s1) as [[[] s2]|]; [|reflexivity].
  destruct a; try reflexivity. rewrite HFG. reflexivity.
Qed.
Lemma ins_ext o x p n z s : ins K F o x p n z s = ins K G o x p n z s.
Proof.
  destruct o; try reflexivity. destruct x; try reflexivity. cbn [ins]. cbv zeta. unfold sbind. rewrite call_op_ext. reflexivity.
Qed.
Lemma step_ext v : step K F v = step K G v.
Proof.
  unfold step. destruct (Nat.ltb _ _); [|reflexivity]. destruct (nth_error _ _) as [b|]; [|reflexivity].
  destruct (op_of (byte_op b)) as [o|]; [|reflexivity]. destruct (read_arg _ _ _ _) as [[x next]|]; [|reflexivity].
  rewrite ins_ext. reflexivity.
Qed.
Lemma run_ext fuel v : run K F fuel v = run K G fuel v.
Proof. revert v. induction fuel as [|fuel IH]; intro v; [reflexivity|]. cbn [run]. rewrite step_ext. destruct (step K G v) as [[]|]; auto. Qed.
Lemma exec_ext fuel code s : exec K F fuel code s = exec K G fuel code s.
Proof. unfold exec. rewrite run_ext. reflexivity. Qed.
Lemma reach_ext v v' : reach K G v v' -> reach K F v v'.
Proof. induction 1; [apply reach_refl|]. eapply reach_step; [rewrite step_ext|]; eauto. Qed.
Lemma stops_ext v s : stops K G v s -> stops K F v s.
Proof. intros (v' & H1 & H2). exists v'. split; [apply reach_ext, H1|rewrite step_ext; exact H2]. Qed.
End Ext.

Lemma reach_run K F v v' fuel r : reach K F v v' -> run K F fuel v' = Some r -> exists fuel', run K F fuel' v = Some r.
Proof.
  induction 1 as [v|v1 v2 v3 H1 H2 IH]; intro H; [eauto|]. destruct (IH H) as [fuel' H']. exists (Sn fuel'). cbn [run]. rewrite H1. exact H'.
Qed.

(** ** A program: the functions with their compiled code *)
(** [F] has the code that the compiler makes of the definitions [FT] *)
Definition compiled (w : width) (i8 : float -> Z) (FT : loc -> option (func fundef)) (F : loc -> option (func (list Z))) : Prop :=
  forall l, match FT l with
            | None => F l = None
            | Some f => exists c code, gen_def w i8 (fn_code f) c = Ok code /\
                F l = Some {| fn_nrequired := fn_nrequired f; fn_formals := fn_formals f; fn_code := code |}
            end.
(** [i8]: the conversion to int8_t (of a float out of its range: any value);
    the builtins leave the stack to the caller; the functions can be compiled,
    their operands fit, and they do not end with a return that may be jumped
    over (C29) *)
Record program (K : conf) (i8 : float -> Z) (FT : loc -> option (func fundef)) (F : loc -> option (func (list Z))) : Prop := {
  p_i8 : forall f, -128 <= i8 f < 128;
  p_builtins : tame_builtins (cf_env K) (cf_builtins K);
  p_ok : forall l f, FT l = Some f -> okfd (e_width (cf_env K)) (fn_code f) /\ proper K i8 (fn_code f);
  p_code : compiled (e_width (cf_env K)) i8 FT F }.

(** what snek_exec leaves: the stack at its earlier depth, no frame *)
Definition after (s0 s : st) : st :=
  set_a PNull (set_frames [] (set_m (set_stack (m_stack (s_m s)) (m_sp (s_m s0)) (s_m s)) s)).
(** nothing was reported; the values on the operand stack are as before *)
Definition quietly (s s' : st) : Prop :=
  aborted s' = false /\ m_log (s_m s') = m_log (s_m s) /\
  m_sp (s_m s') = m_sp (s_m s) /\ firstn (m_sp (s_m s)) (m_stack (s_m s')) = firstn (m_sp (s_m s)) (m_stack (s_m s)).
(** one error was reported *)
Definition failed (s s' : st) : Prop := aborted s' = true /\ exists e, m_log (s_m s') = e :: m_log (s_m s).

Section Prog.
Variable K : conf.
Variable i8 : float -> Z.
Variable FT : loc -> option (func fundef).
Variable F : loc -> option (func (list Z)).
Notation w := (e_width (cf_env K)).
Notation F0 := (fun l => option_map (map_func (fun fd => encs w (cdef w i8 fd))) (FT l)).
Hypothesis HP : program K i8 FT F.

Lemma program_F l : F l = F0 l.
Proof.
  pose proof (p_code _ _ _ _ HP l) as H. pose proof (p_ok _ _ _ _ HP l) as O. cbv beta. destruct (FT l) as [f|]; [|exact H].
  destruct H as (c & code & H1 & ->). destruct (O f eq_refl) as [Ho _]. rewrite gen_def_layout in H1 by exact Ho. injection H1 as <-. reflexivity.
Qed.
Lemma program_sim n : all_sim K i8 FT n.
Proof.
  apply simulation; [apply HP|apply HP|]. intros l f H. apply (p_ok _ _ _ _ HP l f H).
Qed.
Lemma quiet_level s s' : aborted s' = false -> m_log (s_m s') = m_log (s_m s) -> level 0 0 (s_m s) (s_m s') -> quietly s s'.
Proof. intros H1 H2 L. destruct (L (m_sp (s_m s)) ltac:(lia)) as [H3 H4]. rewrite Nat.add_0_r in H3. repeat split; auto. Qed.

(** *** An expression anywhere in a program *)
Theorem expr_runs n e p code b st links :
  hosts w code b (comp w i8 p b e) -> good K st ->
  match ev K FT n e st with
  | Val v st' => good K st' /\ s_a st' = v /\ quietly st st' /\
      forall st'', pushes K p st' st'' ->
        reach K F (V st code b links) (V st'' code (b + size w (comp w i8 p b e)) links)
  | Stop st' => failed st st' /\ stops K F (V st code b links) st'
  | _ => True
  end.
Proof.
  intros Hh Hg. destruct (program_sim n) as (I1 & _). specialize (I1 e p code b Hh st links Hg Logic.I).
  destruct (eval_tame K FT (p_builtins _ _ _ _ HP) n) as (T1 & _). specialize (T1 0%nat e st (proj1 Hg)).
  destruct (ev K FT n e st) as [v st'|st'| | |]; auto.
  - destruct I1 as (G & A & R). destruct T1 as (Q & L & V & _). split; [auto|]. split; [auto|]. split; [apply quiet_level; auto|].
    intros st'' Hp. apply (reach_ext _ _ _ program_F). apply R. exact Hp.
  - split; [exact T1|]. apply (stops_ext _ _ _ program_F). exact I1.
Qed.

(** *** A command *)
Lemma hosts_all l : Forall (in_range w) l -> hosts w (encs w l) 0 l.
Proof. intro H. exists [], []. rewrite app_nil_r. cbn [app]. split; [reflexivity|]. split; [exact H|auto]. Qed.

Theorem command_runs n s c st :
  lined s = true -> oks w s -> Forall (in_range w) (cstmt w i8 0 0 None None s) -> good K st ->
  exists code, gen_command w i8 s c = Ok code /\
  match exs K FT n 0 false s st with
  | Val x st' => quietly st st' /\ x <> Break /\ x <> Continue /\ (forall v, x = Return v -> s_a st' = v) /\
      exists fuel, exec K F fuel code st = Some (s_a st', after st st')
  | Stop st' => failed st st' /\ exists fuel, exec K F fuel code st = Some (s_a st', after st st')
  | _ => True
  end.
Proof.
  intros Hl Ho Hr Hg. rewrite gen_command_layout by assumption. eexists. split; [reflexivity|].
  destruct (program_sim n) as (_ & _ & _ & _ & _ & _ & _ & I8 & _).
  specialize (I8 s 0 false None None _ 0%nat (conj eq_refl eq_refl) (hosts_all _ Hr) st [] Hg Logic.I).
  destruct (eval_tame K FT (p_builtins _ _ _ _ HP) n) as (_ & _ & _ & _ & _ & _ & _ & T8 & _).
  specialize (T8 0%nat 0 false s st (proj1 Hg)).
  assert (Hd : forall st' ip, (length (encs w (cstmt w i8 0 0 None None s)) <= ip)%nat ->
    reach K F0 (V st (encs w (cstmt w i8 0 0 None None s)) 0 []) (V st' (encs w (cstmt w i8 0 0 None None s)) ip []) ->
    exists fuel, exec K F fuel (encs w (cstmt w i8 0 0 None None s)) st = Some (s_a st', after st st')).
  { intros st' ip Hip R. destruct (reach_run _ _ _ _ 1 (Done st') R) as [fuel Hf].
    { cbn [run]. unfold step, V. cbn [v_s v_code v_ip v_links].
      replace (Nat.ltb ip (length (encs w (cstmt w i8 0 0 None None s)))) with false by (symmetry; apply Nat.ltb_ge; exact Hip). reflexivity. }
    exists fuel. rewrite (exec_ext _ _ _ program_F). unfold exec. unfold V in Hf. rewrite Hf. reflexivity. }
  destruct (exs K FT n 0 false s st) as [x st'|st'| | |]; auto.
  - destruct T8 as (Q & L & Lv & _). split; [apply quiet_level; auto|].
    destruct x as [| | |v].
    + destruct I8 as (_ & R). do 2 (split; [discriminate|]). split; [discriminate|]. eapply Hd; [|exact R]. apply Nat.le_refl.
    + destruct I8 as (_ & t & Ht & _). discriminate Ht.
    + destruct I8 as (_ & t & Ht & _). discriminate Ht.
    + destruct I8 as (_ & Ha & ip & Hip & R). do 2 (split; [discriminate|]). split; [intros u Hu; injection Hu as <-; exact Ha|].
      apply (Hd st' ip Hip R).
  - split; [exact T8|]. destruct I8 as (v' & R & H). destruct (reach_run _ _ _ _ 1 (Aborted st') R) as [fuel Hf].
    { cbn [run]. rewrite H. reflexivity. }
    exists fuel. rewrite (exec_ext _ _ _ program_F). unfold exec. unfold V in Hf. rewrite Hf. reflexivity.
Qed.

(** *** Short circuit *)
Lemma truth_val v s b m : good K s -> truth v (s_m s) = Some (b, m) -> prim (lm (truth v)) s = Val b s.
Proof. intros Hg H. rewrite (prim_truth K) by exact Hg. rewrite H. reflexivity. Qed.

Theorem short_circuit n k x y p code b st links v st1 (is_and t : bool) m :
  hosts w code b (comp w i8 p b (if is_and then EAnd x y else EOr x y)) -> good K st ->
  ev K FT n x st = Val v st1 -> truth v (s_m st1) = Some (t, m) ->
  let b' := (b + size w (comp w i8 p b (if is_and then EAnd x y else EOr x y)))%nat in
  if Bool.eqb t is_and then
    forall r st2, ev K FT k y st1 = Val r st2 ->
      s_a st2 = r /\ forall st3, pushes K p st2 st3 -> reach K F (V st code b links) (V st3 code b' links)
  else s_a st1 = v /\ forall st3, pushes K p st1 st3 -> reach K F (V st code b links) (V st3 code b' links).
Proof.
  intros Hh Hg Hx Ht b'. assert (Hg1 : good K st1 /\ s_a st1 = v).
  { destruct (program_sim n) as (I1 & _).
    assert (H1 : hosts w code b (comp w i8 false b x)).
    { destruct is_and; autorewrite with lay in Hh; cbv zeta in Hh; apply hosts_app in Hh; apply Hh. }
    specialize (I1 x false code b H1 st links Hg Logic.I). rewrite Hx in I1. destruct I1 as (G & A & _). auto. }
  destruct Hg1 as [Hg1 Ha1]. pose proof (truth_val _ _ _ _ Hg1 Ht) as Hb.
  assert (M : forall j, (n <= j)%nat -> ev K FT j x st = Val v st1).
  { intros j Hj. destruct (mono_le K FT n j Hj) as (J & _). destruct (J x st) as [J1|J1]; congruence. }
  destruct (Bool.eqb t is_and) eqn:et.
  - intros r st2 Hy. apply Bool.eqb_prop in et. subst t.
    assert (N : ev K FT (Sn (n + k)) (if is_and then EAnd x y else EOr x y) st = Val r st2).
    { assert (Hy' : ev K FT (n + k) y st1 = Val r st2).
      { destruct (mono_le K FT k (n + k) ltac:(lia)) as (J & _). destruct (J y st1) as [J1|J1]; congruence. }
      destruct is_and; rewrite ev_S; unfold xbind; rewrite M by lia; rewrite Hb; exact Hy'. }
    pose proof (expr_runs (Sn (n + k)) _ p code b st links Hh Hg) as H. rewrite N in H. destruct H as (_ & A & _ & R). auto.
  - assert (N : ev K FT (Sn n) (if is_and then EAnd x y else EOr x y) st = Val v st1).
    { destruct is_and, t; try discriminate et; rewrite ev_S; unfold xbind; rewrite Hx, Hb; reflexivity. }
    pose proof (expr_runs (Sn n) _ p code b st links Hh Hg) as H. rewrite N in H. destruct H as (_ & A & _ & R). auto.
Qed.
End Prog.
