(** Chains of comparisons, and functions. *)
From Coq Require Import ZArith Bool List Lia.
From Verif Require Import Base FloatModel PolyModel ValueModel MathModel MachModel ListModel StrModel BinModel FrameModel CodeModel CompModel ExecModel LayoutSpec LayoutProofs LayoutEqs GenProofs GenProofs2 EvalSpec EvalMono TameSpec TameProofs TameProofs2 EvalTame StepProofs SimProofs EvalProofs.
Import ListNotations.
Local Open Scope Z_scope.
Open Scope eval_scope.
Open Scope st_scope.

(** ** A chain is the conjunction of its links *)
(** the operands in the middle are numbers *)
Fixpoint middle (l : links) : Prop :=
  match l with LLast _ _ => True | LMore b y l => (exists c, b = BCmp c) /\ (exists f, y = ENum f) /\ middle l end.
(** x op1 y and y op2 z and ... *)
Fixpoint conj_of (x : expr) (l : links) : expr :=
  match l with
  | LLast b y => ECmp x (LLast b y)
  | LMore b y l => EAnd (ECmp x (LLast b y)) (conj_of y l)
  end.

Section Chain.
Variable K : conf.
Variable FT : loc -> option (func fundef).
Notation E := (cf_env K).
Notation T := (cf_texts K).
Notation powf := (cf_pow K).
Notation ev := (EvalSpec.ev K FT).
Lemma bind_val {A B} (x : X A) (f : A -> X B) s b s' : xbind x f s = Val b s' -> exists a s1, x s = Val a s1 /\ f a s1 = Val b s'.
Proof. unfold xbind. destruct (x s) as [a s1| | | |]; try discriminate. eauto. Qed.
Lemma prim_val {A} (x : S A) s a s' : prim x s = Val a s' -> x s = Some (a, s') /\ aborted s' = false.
Proof. unfold prim. destruct (x s) as [[b s1]|]; [|discriminate]. destruct (aborted s1) eqn:e; [discriminate|]. intro H. injection H as <- <-. auto. Qed.
Lemma give_val v s r s' : give v s = Val r s' -> r = v /\ s' = set_a v s /\ aborted s = false.
Proof.
  unfold give. intro H. apply bind_val in H as ([] & s1 & H1 & H2). apply prim_val in H1 as [H1 Hq]. injection H1 as <-. injection H2 as <- <-.
  repeat split. exact Hq.
Qed.
Lemma ev_mono n m e s v s' : (n <= m)%nat -> ev n e s = Val v s' -> ev m e s = Val v s'.
Proof. intros H Hv. destruct (mono_le K FT n m H) as (J & _). destruct (J e s) as [J1|J1]; congruence. Qed.
Lemma num_mono f m s : ev (Sn m) (ENum f) s = if neg_zero f then Undefined else give (PNum f) s.
Proof. rewrite ev_S. destruct (neg_zero f); reflexivity. Qed.

Theorem chain_conj : forall l, middle l -> forall n vx s r s', ev_links K FT n vx l s = Val r s' ->
  forall m ex s00 s0, ev m ex s00 = Val vx s0 -> wait K vx s0 = Val tt s -> exists k, ev k (conj_of ex l) s00 = Val r s'.
Proof.
  induction l as [b y|b y l IH]; intros Hm n vx s r s' H m ex s00 s0 Hx Hw.
  - exists (Sn (m + n)). cbn [conj_of]. rewrite ev_S. unfold xbind. rewrite (ev_mono m (m + n) _ _ _ _ ltac:(lia) Hx), Hw.
    destruct (mono_le K FT n (m + n) ltac:(lia)) as (_ & _ & _ & _ & J & _). destruct (J vx (LLast b y) s) as [J1|J1]; congruence.
  - destruct Hm as ((c & ->) & (f & ->) & Hm). destruct n as [|n]; [discriminate|]. rewrite ev_links_S in H.
    apply bind_val in H as (vy & s1 & Hy & H). apply bind_val in H as ([] & s1' & Hu & H). injection Hu as <-.
    destruct n as [|n]; [discriminate|]. rewrite num_mono in Hy. destruct (neg_zero f) eqn:ez; [discriminate|].
    apply give_val in Hy as (-> & -> & Hq).
    apply bind_val in H as ((t & q) & s2 & Hp & H). apply prim_val in Hp as [Hp Hq2].
    unfold sbind in Hp at 1. destruct (lm (binary E T powf vx (BCmp c) (PNum f) false) (set_a (PNum f) s)) as [[q' s3]|] eqn:e3; [|discriminate].
    pose proof (lm_a _ _ _ _ e3) as A3. cbn in A3.
    unfold sbind in Hp at 1. destruct (lm (drop 1) s3) as [[[] s4]|] eqn:e4; [|discriminate]. pose proof (lm_a _ _ _ _ e4) as A4.
    unfold sbind in Hp at 1. destruct (lm (truth q') s4) as [[t' s5]|] eqn:e5; [|discriminate].
    assert (E5 : s5 = s4 /\ exists mm, truth q' (s_m s4) = Some (t', mm)).
    { unfold lm in e5. destruct (truth q' (s_m s4)) as [[t1 mm]|] eqn:et; [|discriminate]. injection e5 as <- <-. apply truth_same in et as Em. subst mm.
      split; [destruct s4; reflexivity|eauto]. }
    destruct E5 as (-> & mm & Et).
    assert (Hc : forall k, ev (Sn (Sn (Sn (m + k)))) (ECmp ex (LLast (BCmp c) (ENum f))) s00 = Val q' (set_a q' s4)).
    { intro k. rewrite ev_S. unfold xbind at 1. rewrite (ev_mono m (Sn (Sn (m + k))) _ _ _ _ ltac:(lia) Hx). unfold xbind at 1. rewrite Hw.
      rewrite ev_links_S. unfold xbind. rewrite num_mono, ez. unfold give, xbind, prim, put_a. 
      assert (Hq' : aborted (set_a (PNum f) s) = false) by exact Hq. rewrite Hq'. unfold xret at 1. unfold apply, prim, sbind. rewrite e3. unfold put_a.
      assert (e4' : lm (drop 1) (set_a q' s3) = Some (tt, set_a q' s4)).
      { unfold lm in *. cbn [s_m set_a]. destruct (drop 1 (s_m s3)) as [[u m4]|]; [|discriminate]. injection e4 as <- <-. reflexivity. }
      rewrite e4'. unfold sret. replace (aborted (set_a q' s4)) with false; [reflexivity|].
      destruct t'; injection Hp as _ _ <-; symmetry; exact Hq2. }
    assert (Htr : forall s, s_m s = s_m s4 -> aborted s = false -> prim (lm (truth q')) s = Val t' s).
    { intros s6 H6 Ha. unfold prim, lm. rewrite H6, Et. pose proof (truth_same _ _ _ _ Et) as ->. unfold set_m. rewrite <- H6.
      replace {| s_m := s_m s6; s_a := s_a s6; s_globals := s_globals s6; s_frames := s_frames s6 |} with s6 by (destruct s6; reflexivity).
      rewrite Ha. reflexivity. }
    destruct t'.
    + injection Hp as <- <- <-. apply bind_val in H as ([] & s6 & Hw6 & H).
      assert (Hv : ev 1 (ENum f) (set_a q' s4) = Val (PNum f) s4).
      { rewrite num_mono, ez. unfold give, xbind, prim, put_a. cbn [set_a]. change (set_a (PNum f) (set_a q' s4)) with (set_a (PNum f) s4).
        assert (Hs4 : set_a (PNum f) s4 = s4) by (rewrite A3 in A4; rewrite <- A4; clear; destruct s4; reflexivity).
        rewrite Hs4, Hq2. reflexivity. }
      destruct (IH Hm _ _ _ _ _ H _ _ _ _ Hv Hw6) as (k & Hk). exists (Sn (Sn (Sn (Sn (m + k))))). cbn [conj_of]. rewrite ev_S.
      unfold xbind. rewrite Hc, Htr by (auto; exact Hq2). apply (ev_mono k); [lia|exact Hk].
    + injection Hp as <- <- <-. injection H as <- <-. exists (Sn (Sn (Sn (Sn (m + 0))))). cbn [conj_of]. rewrite ev_S. unfold xbind.
      rewrite Hc, Htr by (auto; exact Hq2). reflexivity.
Qed.
End Chain.

(** ** Functions *)
Section Func.
Variable K : conf.
Variable i8 : float -> Z.
Variable FT : loc -> option (func fundef).
Variable F : loc -> option (func (list Z)).
Notation w := (e_width (cf_env K)).
Hypothesis HP : program K i8 FT F.
Notation F0 := (fun l => option_map (map_func (fun fd => encs w (cdef w i8 fd))) (FT l)).

(** the body runs to its end, and the call gets [v] *)
Definition returns_value (code : list Z) (st : st) (v : poly) : Prop :=
  forall links, exists st' ip, reach K F (V st code 0 links) (V st' code ip links) /\ (length code <= ip)%nat /\
    aborted st' = false /\ s_a st' = v.

Theorem function_runs n fd c st st1 x st2 : okfd w fd -> proper K i8 fd -> good K st ->
  defaults K FT n (fd_formals fd) st = Val tt st1 -> exs K FT n 0 false (fd_body fd) st1 = Val x st2 ->
  exists code, gen_def w i8 fd c = Ok code /\
    returns_value code st (match x with Return v => v | _ => PNull end).
Proof.
  intros Ho Hp Hg Hd Hx. rewrite gen_def_layout by exact Ho. eexists. split; [reflexivity|]. intro links.
  destruct (program_sim K i8 FT F HP (Sn n)) as (_ & _ & _ & _ & _ & I6 & _). specialize (I6 fd st links Hp Hg). cbv zeta in I6.
  assert (Hb : exists st3, body K FT (Sn n) fd st = Val (match x with Return v => v | _ => PNull end) st3).
  { rewrite body_S. unfold xbind. rewrite Hd, Hx.
    destruct (eval_tame K FT (p_builtins _ _ _ _ HP) n) as (_ & _ & _ & _ & _ & _ & T7 & T8 & _).
    specialize (T7 0%nat (fd_formals fd) st (proj1 Hg)). rewrite Hd in T7. destruct T7 as (Q1 & _).
    specialize (T8 0%nat 0 false (fd_body fd) st1 Q1). rewrite Hx in T8. destruct T8 as (Q2 & _). unfold aborted in Q2.
    destruct x; unfold give, xbind, prim, put_a, frame_pop, xret, aborted; cbn; rewrite ?Q2; cbn; rewrite ?Q2; eauto. }
  destruct Hb as (st3 & Hb). rewrite Hb in I6. destruct I6 as (G & A & s1 & ip & R & L & Pop).
  exists s1, ip. split; [apply (reach_ext _ _ _ (program_F _ _ _ _ HP)); exact R|]. split; [exact L|].
  unfold frame_pop in Pop. injection Pop as <-. split; [exact (proj1 G)|exact A].
Qed.

(** A function that ends with [if e: return r]: the return is taken away, and
    when [e] is false the call gets its value. *)
Definition ends_if (ln : Z) (e r : expr) : fundef :=
  {| fd_formals := []; fd_body := SSeq (SLine ln) (SIf e (SReturn (OSome r)) RNone) |}.
Theorem ends_if_value n ln e r c st v st' m : ok w e -> ok w r -> Forall (in_range w) (cbody w i8 (ends_if ln e r)) -> good K st ->
  ev K FT n e st = Val v st' -> truth v (s_m st') = Some (false, m) ->
  exs K FT (Sn (Sn n)) 0 false (fd_body (ends_if ln e r)) st = Val Normal st' /\
  exists code, gen_def w i8 (ends_if ln e r) c = Ok code /\ returns_value code st v.
Proof.
  intros He Hr Hin Hg Hv Ht.
  set (code := encs w (cdef w i8 (ends_if ln e r))).
  assert (Hb : exists L, cbody w i8 (ends_if ln e r) = L ++ [i0 KReturn false]).
  { unfold cbody. cbn [ends_if fd_formals fd_body cformals]. cbv zeta. autorewrite with lay. cbv zeta. autorewrite with lay. cbv zeta. autorewrite with lay.
    rewrite app_nil_r. cbn [app].
    assert (Hl : forall (a b z : instr) A R, exists L, a :: A ++ b :: R ++ [z] = L ++ [z]).
    { intros a b z A R. exists (a :: A ++ b :: R). cbn [app]. rewrite <- app_assoc. reflexivity. }
    apply Hl. }
  destruct Hb as (L & HL).
  assert (Hc : cdef w i8 (ends_if ln e r) = L).
  { unfold cdef. rewrite HL, rev_unit. cbn. apply rev_involutive. }
  assert (Hh : hosts w code 0 (cbody w i8 (ends_if ln e r))).
  { exists [], []. rewrite app_nil_r. cbn [app]. split; [reflexivity|]. split; [exact Hin|]. right. exists L. split; [exact HL|].
    unfold code. rewrite Hc. reflexivity. }
  assert (Hev : hosts w code (0 + osize w) (comp w i8 false (0 + osize w) e)).
  { pose proof Hh as H. unfold cbody in H. cbn [ends_if fd_formals fd_body cformals] in H. cbv zeta in H. autorewrite with lay in H. cbv zeta in H. cbn [app] in H.
    apply hosts_cons in H as [_ H]. rewrite size_io in H. autorewrite with lay in H. cbv zeta in H. rewrite size_one, size_io in H. cbn [size encs map concat length Nat.add] in H.
    apply hosts_app in H as [H _]. exact H. }
  assert (Hg' : good K st' /\ s_a st' = v).
  { destruct (eval_tame K FT (p_builtins _ _ _ _ HP) n) as (T1 & _). specialize (T1 0%nat e st (proj1 Hg)). rewrite Hv in T1.
    destruct (program_sim K i8 FT F HP n) as (I1 & _). specialize (I1 e false code _ Hev st [] Hg Logic.I). rewrite Hv in I1.
    destruct I1 as (G & A & _). auto. }
  destruct Hg' as [Hg' Ha].
  assert (Hx : exs K FT (Sn (Sn n)) 0 false (fd_body (ends_if ln e r)) st = Val Normal st').
  { cbn [ends_if fd_body]. rewrite exs_S. unfold xbind. rewrite exs_S. unfold xret at 1. rewrite exs_S. unfold xbind. rewrite Hv.
    rewrite (truth_val K _ _ _ _ Hg' Ht). destruct n; [discriminate Hv|]. reflexivity. }
  split; [exact Hx|].
  rewrite gen_def_layout. 2: { split; [constructor|]. split; [reflexivity|]. cbn. auto. }
  fold code. exists code. split; [reflexivity|]. intro links.
  destruct (program_sim K i8 FT F HP (Sn (Sn n))) as (_ & _ & _ & _ & _ & _ & _ & I8 & _).
  specialize (I8 (fd_body (ends_if ln e r)) 0 false None None code 0%nat (conj eq_refl eq_refl) Hh st links Hg Logic.I). rewrite Hx in I8.
  destruct I8 as (_ & R). eexists st', _. split; [apply (reach_ext _ _ _ (program_F _ _ _ _ HP)); exact R|].
  split; [|split; [exact (proj1 Hg')|exact Ha]].
  unfold code. rewrite Hc. assert (Hs : size w (cbody w i8 (ends_if ln e r)) = (size w L + 1)%nat).
  { rewrite HL, size_app, size_one, size_i0. reflexivity. }
  unfold cbody in Hs. cbn [ends_if fd_formals fd_body cformals app] in Hs. change (size w []) with 0%nat in Hs.
  cbn [ends_if fd_body]. rewrite Hs. unfold size. lia.
Qed.
End Func.
