(** The evaluator keeps the operand stack level and reports at most one error. *)
From Coq Require Import ZArith Bool List Lia.
From Verif Require Import Base FloatModel PolyModel ValueModel MathModel MachModel ListModel StrModel BinModel FrameModel CodeModel CompModel ExecModel LayoutSpec EvalSpec TameSpec TameProofs TameProofs2.
Import ListNotations.
Local Open Scope Z_scope.
Open Scope eval_scope.
Open Scope st_scope.

Notation Sn := Datatypes.S.

Definition xtame (E : env) {A} (n n' : nat) (x : X A) : Prop :=
  forall s, aborted s = false ->
    match x s with
    | Val a s' => aborted s' = false /\ m_log (s_m s') = m_log (s_m s) /\ level n n' (s_m s) (s_m s') /\
                  (sane E (s_m s) -> sane E (s_m s'))
    | Stop s' => aborted s' = true /\ exists e, m_log (s_m s') = e :: m_log (s_m s)
    | _ => True
    end.

Section Gen.
Variable E : env.
Lemma x_bind {A B} n n1 n' (x : X A) (f : A -> X B) :
  xtame E n n1 x -> (forall a, xtame E n1 n' (f a)) -> xtame E n n' (xbind x f).
Proof.
  intros Hx Hf s Hs. specialize (Hx s Hs). unfold xbind. destruct (x s) as [a s1|s1| | |]; auto.
  destruct Hx as (Q1 & L1 & V1 & G1). specialize (Hf a s1 Q1).
  destruct (f a s1) as [b s2|s2| | |]; auto.
  - destruct Hf as (Q2 & L2 & V2 & G2). split; [auto|]. split; [congruence|]. split; [eapply level_trans; eauto|auto].
  - destruct Hf as (Q2 & e & L2). split; [auto|]. exists e. congruence.
Qed.
Lemma x_ret {A} n (a : A) : xtame E n n (xret a).
Proof. intros s Hs. cbn. split; [auto|]. split; [auto|]. split; [apply level_refl|auto]. Qed.
Lemma x_undef {A} n n' : xtame E n n' (@xundef A).
Proof. intros s Hs. exact Logic.I. Qed.
Lemma x_fuel {A} n n' : xtame E n n' (@xfuel A).
Proof. intros s Hs. exact Logic.I. Qed.
Lemma x_prim {A} n n' (x : S A) : stame E n n' x -> xtame E n n' (prim x).
Proof.
  intros Hx s Hs. unfold prim. destruct (x s) as [[a s']|] eqn:e; [|exact Logic.I].
  destruct (Hx _ _ _ e) as (O & L & Kp). unfold at_most_one in O. unfold aborted in *. rewrite Hs in O.
  destruct (m_abort (s_m s')) eqn:ea; destruct O as [[O1 O2]|[O1 O2]]; try discriminate.
  - split; auto.
  - destruct (Kp eq_refl). auto.
Qed.
End Gen.
#[export] Hint Resolve x_ret x_undef x_fuel : tame.

Ltac xt_step :=
  match goal with
  | |- xtame _ _ _ (xbind _ _) => eapply x_bind; [|intro]
  | |- xtame _ _ _ (match ?x with _ => _ end) => destruct x eqn:?
  | |- xtame _ _ _ (let '_ := ?x in _) => destruct x
  | |- xtame _ _ _ ((fun _ => _) _) => cbv beta
  | |- xtame _ _ _ (prim _) => apply x_prim; ts_step
  | |- stame _ _ _ _ => ts_step
  | |- mtame _ _ _ _ => tm_step
  | |- xtame _ _ _ _ => solve [eauto with tame nocore]
  end.
Ltac xt := repeat xt_step.

Section Eval.
Variable K : conf.
Variable FT : loc -> option (func fundef).
Notation E := (cf_env K).
Notation xtm := (xtame E).
Hypothesis Hb : tame_builtins E (cf_builtins K).

Lemma x_wait n v : xtm n (Sn n) (wait K v).
Proof.
  intros s Hs. unfold wait. pose proof (x_prim E n (Sn n) (lm (push E v)) (ts_lm E _ _ _ (t_push E n v)) s Hs) as H.
  unfold prim in H. destruct (lm (push E v) s) as [[a s']|]; [|auto]. destruct (aborted s'); auto. 
Qed.
Lemma x_give n v : xtm n n (give v).
Proof. unfold give. xt. Qed.
Lemma x_apply n x o y : xtm (Sn n) n (apply K x o y).
Proof. unfold apply. xt. Qed.
Lemma x_name n i : xtm n n (name K i).
Proof. unfold name. xt. Qed.
Lemma x_unary n u v : xtm n n (unary u v).
Proof. unfold unary. destruct u; xt. Qed.
Hint Resolve x_wait x_give x_apply x_name x_unary : tame.
Lemma x_strings ls : forall n v, xtm n n (strings K v ls).
Proof. induction ls as [|l ls IH]; intros; cbn [strings]; xt. Qed.
Hint Resolve x_strings : tame.

(** how many values the arguments put on the stack *)
Fixpoint slots_of (a : args) : nat :=
  match a with ANil => 0 | APos _ r => Sn (slots_of r) | ANamed _ _ r => Sn (Sn (slots_of r)) end.
Fixpoint dslots (d : dents) : nat := match d with DNil => 0 | DCons _ _ r => Sn (Sn (dslots r)) end.
Definition oslots (o : oexpr) : nat := match o with ONone => 0 | OSome _ => 1 end.
Lemma counts a : 0 <= npos a /\ 0 <= nnamed a /\ nargs a = npos a + 256 * nnamed a /\
  slots_of a = Z.to_nat (npos a + 2 * nnamed a).
Proof. induction a; cbn [npos nnamed nargs slots_of]; lia. Qed.
Lemma positional_slots a : positional a = true -> Z.to_nat (nargs a) = slots_of a /\ 0 <= nargs a.
Proof.
  induction a as [|e r IH|]; cbn [positional nargs slots_of]; intro H; [split; reflexivity||lia| |discriminate].
  destruct (IH H). split; lia.
Qed.
Lemma dents_slots d : Z.to_nat (ndents d) = dslots d /\ 0 <= ndents d.
Proof. induction d; cbn [ndents dslots]; lia. Qed.

Lemma x_make n k z : xtm (Z.to_nat z + n) n (make K z k).
Proof. unfold make. eapply x_prim, ts_bind; [apply ts_lm, t_list_imm|]. intro. ts. Qed.

Lemma x_slice n a b c :
  xtm (oslots c + (oslots b + (oslots a + Sn n))) n
      (prim (slice_op K (obit a * 1 + obit b * 2 + obit c * 4) ^; get_a)).
Proof.
  apply x_prim. eapply ts_bind; [|intro; ts].
  pose proof (ts_slice_op K n (obit a * 1 + obit b * 2 + obit c * 4)) as H.
  destruct a, b, c; exact H.
Qed.

Lemma x_call n a : 256 <=? npos a + nnamed a = false ->
  xtm (slots_of a + Sn n) n (prim (call_op E (cf_builtins K) FT (nargs a))).
Proof.
  intro H. apply Z.leb_gt in H. destruct (counts a) as (Hp & Hn & -> & ->). apply x_prim.
  assert (Hm : (npos a + 256 * nnamed a) mod 256 = npos a).
  { replace (npos a + 256 * nnamed a) with (npos a + nnamed a * 256) by lia. rewrite Z.mod_add, Z.mod_small; lia. }
  assert (Hd : (npos a + 256 * nnamed a) / 256 = nnamed a).
  { replace (npos a + 256 * nnamed a) with (npos a + nnamed a * 256) by lia. rewrite Z.div_add, Z.div_small; lia. }
  pose proof (call_op_level E (cf_builtins K) Hb FT (npos a + 256 * nnamed a) n ltac:(lia)) as L.
  rewrite Hm, Hd in L. replace (Z.to_nat (npos a + 2 * nnamed a) + Sn n)%nat with (Z.to_nat (npos a + 2 * nnamed a) + 1 + n)%nat by lia.
  apply L. lia.
Qed.

Definition all_tame (n : nat) : Prop :=
  (forall k e, xtm k k (ev K FT n e)) /\
  (forall k a, xtm k (slots_of a + k) (ev_args K FT n a)) /\
  (forall k d, xtm k (dslots d + k) (ev_dents K FT n d)) /\
  (forall k o, xtm k (oslots o + k) (ev_opt K FT n o)) /\
  (forall k x l, xtm (Sn k) k (ev_links K FT n x l)) /\
  (forall k f, xtm k k (body K FT n f)) /\
  (forall k fs, xtm k k (defaults K FT n fs)) /\
  (forall k d i s, xtm k k (exs K FT n d i s)) /\
  (forall k d i r, xtm k k (ex_rest K FT n d i r)) /\
  (forall k d i e s t, xtm k k (while K FT n d i e s t)) /\
  (forall k d i x s t, (forall k, stame E k k x) -> xtm k k (loop K FT n d i x s t)).

Lemma eval_tame n : all_tame n.
Proof.
  induction n as [|n (I1 & I2 & I3 & I4 & I5 & I6 & I7 & I8 & I9 & I10 & I11)].
  { unfold all_tame. repeat split; intros; cbn; apply x_fuel. }
  unfold all_tame.
  assert (J11r : forall k d i id s t, xtm k k (loop K FT n d i (range_step K d id) s t)).
  { intros. apply I11. intro. ts. }
  assert (J11i : forall k d i id s t, xtm k k (loop K FT n d i (in_step K d id) s t)).
  { intros. apply I11. intro. ts. }
  repeat split; intros; autorewrite with eval;
    try solve [xt].
  - destruct e; try solve [xt].
    + destruct (positional a) eqn:e; [|xt]. eapply x_bind; [apply I2|]. intro. destruct (positional_slots a e) as [<- _]. apply x_make.
    + destruct (positional a) eqn:e; [|xt]. eapply x_bind; [apply I2|]. intro. destruct (positional_slots a e) as [<- _]. apply x_make.
    + eapply x_bind; [apply I3|]. intro. destruct (dents_slots d) as [<- _]. apply x_make.
    + eapply x_bind; [xt|]. intro. eapply x_bind; [xt|]. intro. eapply x_bind; [apply I4|]. intro.
      eapply x_bind; [apply I4|]. intro. eapply x_bind; [apply I4|]. intro. apply x_slice.
    + destruct (_ <=? _) eqn:e1; [xt|]. eapply x_bind; [xt|]. intro. eapply x_bind; [xt|]. intro.
      eapply x_bind; [apply I2|]. intro. eapply x_bind; [apply x_call; auto|]. intro. xt.
  - destruct a as [|e r|id e r]; cbn [slots_of plus]; [xt| |].
    + eapply x_bind; [xt|]. intro. eapply x_bind; [xt|]. intro. replace (Sn (slots_of r + k)) with (slots_of r + Sn k)%nat by lia. apply I2.
    + eapply x_bind; [xt|]. intro. eapply x_bind; [xt|]. intro. eapply x_bind; [xt|]. intro. eapply x_bind; [xt|]. intro.
      replace (Sn (Sn (slots_of r + k))) with (slots_of r + Sn (Sn k))%nat by lia. apply I2.
  - destruct d as [|kk v r]; cbn [dslots plus]; [xt|].
    eapply x_bind; [xt|]. intro. eapply x_bind; [xt|]. intro. eapply x_bind; [xt|]. intro. eapply x_bind; [xt|]. intro.
    replace (Sn (Sn (dslots r + k))) with (dslots r + Sn (Sn k))%nat by lia. apply I3.
  - destruct s; try solve [xt]. destruct (positional a) eqn:e; [|xt].
    eapply x_bind; [apply I2|]. intro. destruct (positional_slots a e) as [<- Hn].
    eapply x_bind; [apply x_prim, ts_range_start, Hn|]. intro. apply J11r.
Qed.
End Eval.
