(** What print, input and the functions that make tuples do to the machine. *)
From Coq Require Import String.
From Verif Require Import Tac Base FloatModel MathModel PolyModel ValueModel MachModel ListModel StrModel MachSpec ListSpec StrSpec
  MathSpec MathProofs MathProofs2 MathProofs4 MachProofs FrameProofs ListProofs ListProofs2 StrProofs StrProofs2 FormatProofs InterpProofs SliceProofs BuiltModel BuiltSpec BuiltFloat.
Local Open Scope Z_scope.
Open Scope mach_scope.

(** ** What is never touched *)
Section Keeps.
Variable R : mach -> mach -> Prop.
Hypothesis Rrefl : forall m, R m m.
Hypothesis Rtrans : forall a b c, R a b -> R b c -> R a c.
Definition keeps {A} (x : M A) : Prop := forall m a m', x m = Some (a, m') -> R m m'.
Lemma k_ret {A} (a : A) : keeps (ret a).
Proof. intros m b m' [= _ <-]. apply Rrefl. Qed.
Lemma k_undef {A} : keeps (@undef A).
Proof. intros m b m' H. discriminate H. Qed.
Lemma k_bind {A B} (c : M A) (f : A -> M B) : keeps c -> (forall a, keeps (f a)) -> keeps (bind c f).
Proof.
  intros Hc Hf m b m' H. unfold bind in H. destruct (c m) as [[a m1]|] eqn:e; [|discriminate H].
  eapply Rtrans; [eapply Hc; eauto|eapply Hf; eauto].
Qed.
Lemma k_pure {A} (f : mach -> option A) : keeps (fun m => match f m with Some a => Some (a, m) | None => None end).
Proof. intros m b m' H. destruct (f m); inversion H; subst. apply Rrefl. Qed.
Lemma k_here l : keeps (here l).
Proof. intros m b m' [= _ <-]. apply Rrefl. Qed.
Lemma k_hold p : keeps (hold p).
Proof. intros m b m' [= _ <-]. apply Rrefl. Qed.
Lemma k_use p : keeps (use p).
Proof. intros m b m' H. unfold use in H. destruct (_ || _) in H; inversion H; subst. apply Rrefl. Qed.
Lemma k_deref p : keeps (deref p).
Proof. intros m b m' H. unfold deref in H. destruct (Nat.eqb _ _) in H; [|discriminate H]. destruct (nth_error _ _) in H; inversion H; subst. apply Rrefl. Qed.
Lemma k_str_to_poly p : keeps (str_to_poly p).
Proof. destruct p as [p|]; [|apply k_ret]. intros m b m' H. unfold str_to_poly in H. destruct (Nat.eqb _ _) in H; inversion H; subst. apply Rrefl. Qed.
Lemma k_list_to_poly p : keeps (list_to_poly p).
Proof. destruct p as [p|]; [|apply k_ret]. intros m b m' H. unfold list_to_poly in H. destruct (Nat.eqb _ _) in H; inversion H; subst. apply Rrefl. Qed.
Lemma k_poly_to_list p : keeps (poly_to_list p).
Proof. destruct p; try apply k_undef. apply k_here. Qed.
Lemma k_poly_to_str p : keeps (poly_to_str p).
Proof. destruct p; try apply k_undef. apply k_here. Qed.
Lemma k_lift {A} (o : option A) : keeps (lift o).
Proof. destruct o; [apply k_ret|apply k_undef]. Qed.
Lemma k_deref_list p : keeps (deref_list p).
Proof. apply k_bind; [apply k_deref|]. intros []; try apply k_undef. apply k_ret. Qed.
Lemma k_deref_str p : keeps (deref_str p).
Proof. apply k_bind; [apply k_deref|]. intros []; try apply k_undef. apply k_ret. Qed.
End Keeps.
Create HintDb keeps.
Hint Resolve k_ret k_undef k_here k_hold k_use k_deref k_str_to_poly k_list_to_poly k_poly_to_list k_poly_to_str k_lift k_deref_list k_deref_str : keeps.
Ltac kp := intros; repeat first
  [ progress cbv beta iota zeta
  | solve [eauto 4 with keeps]
  | apply k_bind; [solve [eauto 4 with keeps]| |intros]
  | match goal with |- keeps _ (if ?b then _ else _) => destruct b end
  | match goal with |- keeps _ (match ?x with _ => _ end) => destruct x end ].

Lemma runs_keep {A} (R : mach -> mach -> Prop) (c : M A) m Q : keeps R c -> runs c m Q -> runs c m (fun a m' => Q a m' /\ R m m').
Proof. intros K (a & m' & H & HQ). exists a, m'. split; [exact H|]. split; [exact HQ|eapply K; exact H]. Qed.

(** Printing: objects, their places, input and output stay. *)
Definition calm (m m' : mach) : Prop := m_heap m' = m_heap m /\ m_epoch m' = m_epoch m /\ m_io m' = m_io m.
Lemma calm_refl m : calm m m.
Proof. repeat split. Qed.
Lemma calm_trans a b c : calm a b -> calm b c -> calm a c.
Proof. unfold calm. intuition congruence. Qed.
Hint Resolve calm_refl calm_trans : keeps.
Lemma c_error e : keeps calm (error e).
Proof. intros m b m' [= _ <-]. destruct (m_abort m); repeat split. Qed.
Lemma c_push E p : keeps calm (push E p).
Proof. intros m b m' H. unfold push in H. destruct (Nat.eqb _ _) in H; [eapply c_error; exact H|]. inversion H; subst. repeat split. Qed.
Lemma c_pop : keeps calm pop.
Proof. intros m b m' H. unfold pop in H. destruct (m_sp m); [discriminate H|]. destruct (nth_error _ _) in H; inversion H; subst. repeat split. Qed.
Hint Resolve c_error c_push c_pop : keeps.
Lemma c_push_list E p : keeps calm (push_list E p).
Proof. unfold push_list. kp. Qed.
Lemma c_pop_list : keeps calm pop_list.
Proof. unfold pop_list. kp. Qed.
Lemma c_nth_data o i : keeps calm (nth_data o i).
Proof. unfold nth_data. kp. Qed.
Hint Resolve c_push_list c_pop_list c_nth_data : keeps.
Lemma c_file_put b s : keeps calm (file_put b s).
Proof. unfold file_put, read_src. kp. Qed.
Hint Resolve c_file_put : keeps.
Lemma c_put_chars cs : forall b, keeps calm (put_chars (list Z) file_put b cs).
Proof. induction cs as [|c cs IH]; intros; cbn [put_chars]; kp. Qed.
Hint Resolve c_put_chars : keeps.
Lemma c_func_text T (b : list Z) l : keeps calm (fun m => file_put b (SText (tx_func T l (m_epoch m))) m).
Proof. intros m a m' H. eapply c_file_put; exact H. Qed.
Hint Resolve c_func_text : keeps.
Lemma c_format E T n : forall b p c, keeps calm (poly_format E T (list Z) file_put n b p c).
Proof.
  induction n as [|n IH]; intros; [apply k_undef|]. cbn [poly_format].
  assert (G : forall type size format k o b, keeps calm
    ((fix elts (k : nat) (o : Z) (b : list Z) : M (list Z) :=
                 match k with
                 | O => ret b
                 | S k' =>
                     let* l0 := pop_list in
                     push_list E l0;;
                     let* lo := deref_list l0 in
                     let* x := nth_data lo o in
                     let* b := poly_format E T (list Z) file_put n b x format in
                     let* b := put_chars (list Z) file_put b (list_sep type size o) in
                     elts k' (o + 1) b
                 end) k o b)).
  { intros type size format k. induction k as [|k IHk]; intros; kp. }
  kp; intros m a0 m' H; inversion H; subst; apply calm_refl.
Qed.
Lemma c_print E T b p c : keeps calm (poly_print E T b p c).
Proof. intros m a m' H. unfold poly_print in H. eapply c_format; exact H. Qed.

(** Everything but the stream functions: input and output stay. *)
Definition io_same (m m' : mach) : Prop := m_io m' = m_io m.
Lemma io_refl m : io_same m m.
Proof. reflexivity. Qed.
Lemma io_trans a b c : io_same a b -> io_same b c -> io_same a c.
Proof. unfold io_same. congruence. Qed.
Hint Resolve io_refl io_trans : keeps.
Lemma i_error e : keeps io_same (error e).
Proof. intros m b m' H. apply c_error in H. apply H. Qed.
Lemma i_push E p : keeps io_same (push E p).
Proof. intros m b m' H. apply c_push in H. apply H. Qed.
Lemma i_pop : keeps io_same pop.
Proof. intros m b m' H. apply c_pop in H. apply H. Qed.
Lemma i_alloc E n : keeps io_same (alloc E n).
Proof.
  intros m b m' H. unfold alloc in H. destruct (_ || _) in H.
  - unfold error in H. inversion H; subst. unfold io_same. destruct (m_abort _), (e_move _ _); reflexivity.
  - inversion H; subst. unfold io_same. destruct (e_move _ _); reflexivity.
Qed.
Lemma i_new_obj o : keeps io_same (new_obj o).
Proof. intros m b m' [= _ <-]. reflexivity. Qed.
Lemma i_assign_list p o : keeps io_same (assign_list p o).
Proof. intros m b m' H. unfold assign_list, assign_obj in H. destruct (_ && _) in H; inversion H; subst. reflexivity. Qed.
Hint Resolve i_error i_push i_pop i_alloc i_new_obj i_assign_list : keeps.
Lemma i_push_str E p : keeps io_same (push_str E p).
Proof. unfold push_str. kp. Qed.
Lemma i_pop_str p : keeps io_same (pop_str p).
Proof. unfold pop_str. kp. Qed.
Lemma i_push_list E p : keeps io_same (push_list E p).
Proof. unfold push_list. kp. Qed.
Lemma i_pop_list : keeps io_same pop_list.
Proof. unfold pop_list. kp. Qed.
Lemma i_new_str n s : keeps io_same (new_str n s).
Proof. unfold new_str. kp. Qed.
Lemma i_read_opt p : keeps io_same (read_opt p).
Proof. unfold read_opt. kp. Qed.
Hint Resolve i_push_str i_pop_str i_push_list i_pop_list i_new_str i_read_opt : keeps.
Lemma i_cat_text E a b : keeps io_same (string_cat_text E a b).
Proof. unfold string_cat_text. kp. Qed.
Lemma i_resize E p n : keeps io_same (list_resize E p n).
Proof. unfold list_resize. kp. Qed.
Hint Resolve i_cat_text i_resize : keeps.
Lemma i_make E n k : keeps io_same (list_make E n k).
Proof.
  unfold list_make. destruct (_ && _).
  - intros m a m' H. destruct (m_empty m); [inversion H; subst; reflexivity|]. revert m a m' H.
    change (keeps io_same (let* p := head_alloc E k in (fun m => Some (p, set_empty (match p with Some p => Some (fst p) | None => None end) m)))).
    apply k_bind; eauto with keeps; [unfold head_alloc; kp|]. intros p m a m' [= _ <-]. reflexivity.
  - unfold head_alloc. kp.
Qed.
Hint Resolve i_make : keeps.
Lemma i_tuple E a b : keeps io_same (make_tuple E a b).
Proof. unfold make_tuple. kp. Qed.

(** No string appears. *)
Definition strs_old (m m' : mach) : Prop := forall l s, str_at (m_heap m') l s -> str_at (m_heap m) l s.
Lemma so_refl m : strs_old m m.
Proof. intros l s H. exact H. Qed.
Lemma so_trans a b c : strs_old a b -> strs_old b c -> strs_old a c.
Proof. unfold strs_old. auto. Qed.
Hint Resolve so_refl so_trans : keeps.
Lemma so_calm {A} (x : M A) : keeps calm x -> keeps strs_old x.
Proof. intros K m a m' H l s. apply K in H. destruct H as (-> & _). auto. Qed.
Lemma so_alloc E n : keeps strs_old (alloc E n).
Proof.
  intros m b m' H l s. unfold alloc in H.
  assert (A : m_heap m' = m_heap m \/ m_heap m' = map moved_obj (m_heap m)).
  { destruct (_ || _) in H; [unfold error in H; inversion H; subst; destruct (m_abort _)|inversion H; subst]; destruct (e_move _ _); auto. }
  unfold str_at. destruct A as [A|A]; rewrite A; [auto|]. rewrite nth_error_map. destruct (nth_error (m_heap m) l) as [o|]; [|discriminate]. cbn [option_map]. destruct o; cbn [moved_obj]; intros G; try discriminate G; exact G.
Qed.
Lemma so_new_list o : keeps strs_old (new_obj (OList o)).
Proof.
  intros m b m' [= _ <-] l s. unfold str_at. cbn [set_heap m_heap]. intros H. destruct (Nat.lt_ge_cases l (length (m_heap m))) as [L|L].
  - rewrite nth_error_app1 in H by exact L. exact H.
  - rewrite nth_error_app2 in H by exact L. destruct (l - length (m_heap m))%nat as [|[]]; discriminate H.
Qed.
Lemma so_assign p o : keeps strs_old (assign_list p o).
Proof.
  intros m b m' H l s. unfold assign_list, assign_obj in H. destruct (Nat.eqb (snd p) (m_epoch m) && Nat.ltb (fst p) (length (m_heap m))) eqn:e; [|discriminate H].
  apply andb_prop in e. destruct e as [_ e]. apply Nat.ltb_lt in e. injection H as _ <-. unfold str_at. cbn [set_heap m_heap].
  destruct (Nat.eq_dec l (fst p)) as [->|N]; [rewrite nth_upd_same by exact e; discriminate|]. rewrite nth_upd_other by congruence. auto.
Qed.
Hint Resolve so_alloc so_new_list so_assign : keeps.
Lemma so_push_list E p : keeps strs_old (push_list E p).
Proof. apply so_calm, c_push_list. Qed.
Lemma so_pop_list : keeps strs_old pop_list.
Proof. apply so_calm, c_pop_list. Qed.
Lemma so_push E p : keeps strs_old (push E p).
Proof. apply so_calm, c_push. Qed.
Hint Resolve so_push_list so_pop_list so_push : keeps.
Lemma so_resize E p n : keeps strs_old (list_resize E p n).
Proof. unfold list_resize. kp. Qed.
Hint Resolve so_resize : keeps.
Lemma so_make E n k : keeps strs_old (list_make E n k).
Proof.
  unfold list_make. destruct (_ && _).
  - intros m a m' H. destruct (m_empty m); [inversion H; subst; apply so_refl|]. revert m a m' H.
    change (keeps strs_old (let* p := head_alloc E k in (fun m => Some (p, set_empty (match p with Some p => Some (fst p) | None => None end) m)))).
    apply k_bind; eauto with keeps; [unfold head_alloc; kp|]. intros p m a m' [= _ <-] l s G. exact G.
  - unfold head_alloc. kp.
Qed.
Hint Resolve so_make : keeps.
Lemma so_tuple E a b : keeps strs_old (make_tuple E a b).
Proof. unfold make_tuple. kp. Qed.

(** ** Printing *)
Lemma text_total E T v : exists t, text_of E T str_fmt v t.
Proof.
  assert (A : forall v, exists t, text_of E T 97 v t).
  { clear v. intros v. induction v as [f|s|k vs IH|u|u] using value_ind2.
    - eexists. apply to_repr; cbv; intuition discriminate.
    - eexists. apply to_quoted; discriminate.
    - assert (exists ts, Forall2 (text_of E T 97) vs ts) as [ts H].
      { induction IH as [|v vs [t Ht] _ [ts Hts]]; [exists []; constructor|]. exists (t :: ts). constructor; assumption. }
      eexists. apply to_seq. exact H.
    - eexists. apply (to_func E T 97 u 0%nat).
    - destruct (Z.eq_dec u SNEK_NULL_U) as [->|N]; eexists; [apply to_none|apply to_builtin; exact N]. }
  destruct v as [f|s|k vs|u|u].
  - eexists. apply to_repr; cbv; intuition discriminate.
  - eexists. apply to_str.
  - assert (exists ts, Forall2 (text_of E T 97) vs ts) as [ts H].
    { induction vs as [|v vs [ts Hts]]; [exists []; constructor|]. destruct (A v) as [t Ht]. exists (t :: ts). constructor; assumption. }
    eexists. apply to_seq. exact H.
  - eexists. apply (to_func E T str_fmt u 0%nat).
  - destruct (Z.eq_dec u SNEK_NULL_U) as [->|N]; eexists; [apply to_none|apply to_builtin; exact N].
Qed.

(** What is left alone by printing; stronger than [untouched]. *)
Definition still (E : env) (m m' : mach) : Prop :=
  wf E m' /\ wf_strs E (m_heap m') /\ frame None m m' /\ quiet m m' /\ m_heap m' = m_heap m /\ m_epoch m' = m_epoch m.
Lemma still_trans E a b c : still E a b -> still E b c -> still E a c.
Proof.
  intros (A1 & A2 & A3 & [A4 A5] & A6 & A7) (B1 & B2 & B3 & [B4 B5] & B6 & B7). split; [exact B1|]. split; [exact B2|].
  split; [eapply frame_trans_none; eauto|]. split; [split; congruence|]. split; congruence.
Qed.
Lemma still_untouched E m m' : still E m m' -> untouched E m m'.
Proof.
  intros (A1 & A2 & A3 & A4 & _). split; [exact A1|]. split; [exact A2|]. split; [destruct A3; split; assumption|].
  split; [apply kept_others; apply A3|exact A4].
Qed.
Lemma frame_io x m m' : frame None m m' -> frame None m (set_io x m').
Proof. intros [A B C D F G]. split; assumption. Qed.
Lemma wf_io E x m : wf E m -> wf E (set_io x m).
Proof. intros [A B C D F]. split; assumption. Qed.
Lemma printed_trans a b x y z : printed a x y -> printed b y z -> printed (a ++ b) x z.
Proof. unfold printed. intros A B. rewrite B, A. cbn [io_out io_in io_rnd]. rewrite app_assoc. reflexivity. Qed.
Lemma printed_nil m m' : m_io m' = m_io m -> printed [] m m'.
Proof. intros A. unfold printed. rewrite A, app_nil_r. destruct (m_io m). reflexivity. Qed.

Lemma put_runs E t m : wf E m -> wf_strs E (m_heap m) -> runs (put_out t) m (fun _ m' => still E m m' /\ printed t m m').
Proof.
  intros W Ws. eexists tt, _. split; [reflexivity|]. split; [|reflexivity].
  split; [apply wf_io; exact W|]. split; [exact Ws|]. split; [apply frame_io, frame_refl|]. repeat split.
Qed.
Lemma show_runs E T m p v : wf_env E -> texts_ok T -> wf E m -> wf_strs E (m_heap m) -> room E (nesting v + 2) m -> tree (m_heap m) p v ->
  runs (show E T p) m (fun _ m' => still E m m' /\ exists t, text_of E T str_fmt v t /\ printed t m m').
Proof.
  intros We Tok W Ws R Ht. unfold show. apply runs_bind.
  assert (H : runs (poly_print E T [] p ch_s) m (fun t m' => text_of E T str_fmt v t /\ wf E m' /\ wf_strs E (m_heap m') /\ frame None m m' /\ quiet m m')).
  { unfold poly_print. rewrite nesting_depth in R. destruct (text_bounded E T v str_fmt Tok) as [n Hn].
    eapply runs_eq; [reflexivity|].
    eapply runs_weaken; [apply (format_ok E T (list Z) file_put (fun _ b t => b = t) True n) with (v := v) (t0 := [])|]; auto.
    - intros m0 b t s x W0 Ws0 R0 -> Hs Hx Hlen. unfold file_put. apply runs_bind. exists x, m0. split.
      { destruct s as [[l ep]|t']; cbn [read_src].
        - destruct Hs as [-> Hs]. unfold deref_str, deref, bind. cbn [fst snd]. rewrite Nat.eqb_refl. unfold str_at in Hs. rewrite Hs. reflexivity.
        - cbn in Hs. subst. reflexivity. }
      apply runs_ret. split; [exact W0|]. split; [exact Ws0|]. split; [apply frame_refl|]. split; [split; reflexivity|]. auto.
    - pose proof (tree_depth _ _ _ Ht). unfold fmt_fuel. lia.
    - apply text_total.
    - intros b m' (t & H1 & (W' & Ws' & F & Q & Ep & ->)). auto. }
  destruct H as (t & m1 & Hp & H1 & W1 & Ws1 & F1 & Q1). destruct (c_print E T [] p ch_s m t m1 Hp) as (C1 & C2 & C3).
  exists t, m1. split; [exact Hp|]. eapply runs_mono; [apply (put_runs E); assumption|].
  intros _ m2 (S2 & P2). split.
  - eapply still_trans; [|exact S2]. split; [exact W1|]. split; [exact Ws1|]. auto.
  - exists t. split; [exact H1|]. change t with ([] ++ t). eapply printed_trans; [|exact P2]. apply printed_nil. exact C3.
Qed.

Lemma room_still E n m m' : still E m m' -> room E n m -> room E n m'.
Proof. intros (_ & _ & F & _) R. unfold room in *. rewrite (fr_sp _ _ _ F). exact R. Qed.
Lemma tree_still E m m' p v : still E m m' -> tree (m_heap m) p v -> tree (m_heap m') p v.
Proof. intros (_ & _ & _ & _ & H & _) T. rewrite H. exact T. Qed.
Lemma all_still E m m' ps vs : still E m m' -> Forall2 (fun p v => tree (m_heap m) p v /\ room E (nesting v + 2) m) ps vs ->
  Forall2 (fun p v => tree (m_heap m') p v /\ room E (nesting v + 2) m') ps vs.
Proof.
  intros S H. induction H as [|p v ps vs [A B] H IH]; constructor; [|exact IH]. split; [eapply tree_still; eauto|eapply room_still; eauto].
Qed.

Lemma print_args_runs E T : wf_env E -> texts_ok T -> forall ps vs rest m, wf E m -> wf_strs E (m_heap m) ->
  Forall2 (fun p v => tree (m_heap m) p v /\ room E (nesting v + 2) m) ps vs ->
  runs (print_args E T (List.length ps) (ps ++ rest)) m (fun r m' => r = rest /\ still E m m' /\
    exists ts, Forall2 (text_of E T str_fmt) vs ts /\ printed (spaced ts) m m').
Proof.
  intros We Tok ps. induction ps as [|p ps IH]; intros vs rest m W Ws H; inversion H as [|p' v ps' vs' [Ht R] Hr]; subst.
  - apply runs_ret. split; [reflexivity|]. split; [split; [exact W|]; split; [exact Ws|]; split; [apply frame_refl|]; repeat split|].
    exists []. split; [constructor|]. apply printed_nil. reflexivity.
  - cbn [List.length print_args app]. eapply runs_step; [apply show_runs with (v := v); eauto|].
    intros _ m1 (S1 & t & Ht1 & P1). pose proof S1 as (W1 & Ws1 & _).
    destruct ps as [|p2 ps].
    + inversion Hr; subst. cbn [List.length Nat.eqb]. apply runs_bind. apply runs_ret. cbn [print_args app]. apply runs_ret.
      split; [reflexivity|]. split; [exact S1|]. exists [t]. split; [constructor; [exact Ht1|constructor]|]. cbn [spaced]. rewrite app_nil_r. exact P1.
    + cbn [List.length Nat.eqb]. eapply runs_step; [apply (put_runs E); assumption|]. intros _ m2 (S2 & P2). pose proof S2 as (W2 & Ws2 & _).
      pose proof (still_trans _ _ _ _ S1 S2) as S12.
      eapply runs_mono; [apply IH; [exact W2|exact Ws2|eapply all_still; eauto]|].
      intros r m3 (-> & S3 & ts & Hts & P3). split; [reflexivity|]. split; [eapply still_trans; eauto|].
      exists (t :: ts). split; [constructor; assumption|].
      assert (ts <> []) by (intros ->; inversion Hts; subst; inversion Hr).
      cbn [spaced]. destruct ts as [|u ts]; [contradiction|]. eapply printed_trans; [exact P1|].
      change (32 :: spaced (u :: ts)) with ([32] ++ spaced (u :: ts)). eapply printed_trans; eauto.
Qed.

Lemma id_read P i : is_id P i -> 0 < pt_id_bits P -> f_to_uint (pt_id_bits P) (f_of_Z i) = Ok i.
Proof. intros (A & B) C. apply to_uint_int; [|lia]. apply small_int. apply Z.leb_le. lia. Qed.

Lemma print_named_runs P m : 0 < pt_id_bits P -> forall named e, Forall (is_id P) (map fst named) ->
  print_named (pt_id_bits P) (pt_end P) (List.length named) (flatten named) e m =
  Some (match given (pt_end P) named with Some v => v | None => e end, m).
Proof.
  intros Hb named. induction named as [|[i v] named IH]; intros e H; [reflexivity|].
  cbn [map fst] in H. inversion H as [|? ? Hi Hr]; subst. cbn [List.length flatten List.map List.concat app fst snd print_named].
  unfold bind. cbn [to_float]. rewrite id_read by assumption. cbn [of_outcome ret]. fold (flatten named). rewrite IH by exact Hr.
  cbn [given]. destruct (given (pt_end P) named); [reflexivity|]. destruct (i =? pt_end P); reflexivity.
Qed.

Lemma null_none h p v : tree h p v -> is_null p = true <-> v = VNone.
Proof.
  destruct v as [f|s|k vs|u|u]; cbn [tree].
  - intros ->. split; discriminate.
  - intros (l & -> & _). split; discriminate.
  - intros (l & o & -> & _). split; discriminate.
  - intros (l & -> & _). split; discriminate.
  - intros ->. cbn [is_null]. rewrite Z.eqb_eq. unfold VNone. split; congruence.
Qed.
Lemma given_tree {A B} (R : A -> B -> Prop) i : forall l l', Forall2 (fun x y => fst x = fst y /\ R (snd x) (snd y)) l l' ->
  match given i l, given i l' with Some a, Some b => R a b | None, None => True | _, _ => False end.
Proof.
  intros l l' H. induction H as [|[i1 a] [i2 b] l l' [E1 E2] H IH]; [exact Logic.I|]. cbn [fst snd] in E1, E2. subst i2. cbn [given].
  destruct (given i l), (given i l'); try contradiction; try exact IH. destruct (i1 =? i); [exact E2|exact Logic.I].
Qed.

Lemma print_ok P m ps vs named nvals : wf_port P -> wf (pt_env P) m -> wf_strs (pt_env P) (m_heap m) ->
  Forall2 (fun p v => tree (m_heap m) p v /\ room (pt_env P) (nesting v + 2) m) ps vs ->
  Forall2 (fun x y => fst x = fst y /\ tree (m_heap m) (snd x) (snd y) /\ room (pt_env P) (nesting (snd y) + 2) m) named nvals ->
  Forall (is_id P) (map fst named) ->
  runs (applied P "print" ps named) m (fun r m' => r = PNull /\ untouched (pt_env P) m m' /\
    exists ts t, Forall2 (text_of (pt_env P) (pt_texts P) str_fmt) vs ts /\
                 ended (pt_env P) (pt_texts P) (given (pt_end P) nvals) t /\ printed (spaced ts ++ t) m m').
Proof.
  intros (We & Tok & Hb & _) W Ws H N I. change (applied P "print" ps named) with
    (built_print (pt_env P) (pt_texts P) (pt_id_bits P) (pt_end P) (Z.of_nat (List.length ps)) (Z.of_nat (List.length named)) (ps ++ flatten named)).
  unfold built_print. rewrite !Nat2Z.id.
  eapply runs_step; [apply print_args_runs with (vs := vs); eauto|]. intros r m1 (-> & S1 & ts & Hts & P1). pose proof S1 as (W1 & Ws1 & _).
  apply runs_bind. eexists _, m1. split; [apply print_named_runs; assumption|].
  pose proof (given_tree (fun p v => tree (m_heap m) p v /\ room (pt_env P) (nesting v + 2) m) (pt_end P) named nvals) as G.
  cbv beta in G. specialize (G N).
  assert (D : forall t m2, still (pt_env P) m1 m2 -> printed t m1 m2 -> untouched (pt_env P) m m2 /\ printed (spaced ts ++ t) m m2).
  { intros t m2 S2 P2. split; [apply still_untouched; eapply still_trans; eauto|eapply printed_trans; eauto]. }
  destruct (given (pt_end P) named) as [e|], (given (pt_end P) nvals) as [v|]; try contradiction.
  - destruct G as [Gt Gr]. destruct (is_null e) eqn:Hn; cbn [negb].
    + eapply runs_step; [apply (put_runs (pt_env P)); assumption|]. intros _ m2 (S2 & P2). apply runs_ret.
      destruct (D _ _ S2 P2) as [D1 D2]. split; [reflexivity|]. split; [exact D1|]. exists ts, [10]. split; [exact Hts|]. split; [|exact D2].
      left. split; [|reflexivity]. eapply null_none; eauto.
    + eapply runs_step; [apply show_runs with (v := v); eauto; [eapply room_still; eauto|eapply tree_still; eauto]|].
      intros _ m2 (S2 & t & Ht & P2). apply runs_ret.
      destruct (D _ _ S2 P2) as [D1 D2]. split; [reflexivity|]. split; [exact D1|]. exists ts, t. split; [exact Hts|]. split; [|exact D2].
      right. split; [|exact Ht]. intros Hv. eapply null_none in Hv; [|exact Gt]. congruence.
  - change (is_null PNull) with true. cbn [negb].
    eapply runs_step; [apply (put_runs (pt_env P)); assumption|]. intros _ m2 (S2 & P2). apply runs_ret.
    destruct (D _ _ S2 P2) as [D1 D2]. split; [reflexivity|]. split; [exact D1|]. exists ts, [10]. split; [exact Hts|]. split; [reflexivity|exact D2].
Qed.

(** ** Reading a line *)
Definition sees (a : list Z) (m m' : mach) : Prop := m_io m' = {| io_out := io_out (m_io m); io_in := a; io_rnd := io_rnd (m_io m) |}.

Lemma cat_text_runs E m l s b : wf_env E -> wf E m -> wf_strs E (m_heap m) -> room E 1 m -> str_at (m_heap m) l s ->
  Forall (fun c => 0 < c < 256) b -> enough E (List.length (s ++ b)) -> strlen E b = Z.of_nat (List.length b) ->
  runs (string_cat_text E (PStr l) b) m (fun r m' => exists l', r = PStr l' /\ str_at (m_heap m') l' (s ++ b) /\ (length (m_heap m) <= l')%nat /\
    wf E m' /\ wf_strs E (m_heap m') /\ frame None m m' /\ quiet m m').
Proof.
  intros We W Ws R Hs Hc (Nf & Hp & Hf) Lb. assert (Hst : length (m_stack m) = e_stack E) by apply W. unfold room in R.
  rewrite app_length, Nat2Z.inj_add in Hp, Hf.
  unfold string_cat_text. apply runs_bind. exists (l, m_epoch m), m. split; [reflexivity|].
  eapply runs_deref_str; [reflexivity|exact Hs|]. rewrite (strlen_eq _ _ _ _ We Ws Hs), Lb.
  apply runs_push_str; [unfold room; lia | reflexivity|]. set (ma := pushed (PStr l) m).
  eapply runs_step; [apply alloc_runs'; cbn [ma pushed set_stack m_sp m_stack]; rewrite !upd_length; lia|].
  intros r m1 (F & L & Em & Ep & Hr).
  eapply runs_pop_str; [|exact F|]. { lia. }
  intros F1. set (m2 := popped m1) in *.
  pose proof (str_bytes (e_width E) (Z.of_nat (length s) + Z.of_nat (length b)) ltac:(lia) Hf) as Hby.
  destruct r as [bytes|].
  2: { exfalso. destruct Hr as (_ & [[k Hk]|Hk]); [rewrite Nf in Hk; discriminate|]. lia. }
  destruct Hr as (-> & Hbp & Hq).
  cbn [read_opt]. eapply runs_deref_str; [reflexivity | eapply str_at_frame; [exact F1 | exact Hs]|].
  rewrite !Nat2Z.id. eapply runs_lift_bind; [unfold MachModel.take; rewrite Nat.leb_refl, firstn_all; reflexivity|].
  eapply runs_lift_bind; [unfold MachModel.take; rewrite Nat.leb_refl, firstn_all; reflexivity|].
  assert (Ls : Z.of_nat (length (s ++ b)) = Z.of_nat (length s) + Z.of_nat (length b)) by (rewrite app_length; lia).
  apply runs_new_str; [rewrite Ls; lia|].
  pose proof (new_str_done E m m2 (s ++ b) _ W Ws F1 L Hq Ep ltac:(rewrite Ls; split; [|exact Hbp]; lia) ltac:(apply Forall_app; split; [apply (Ws _ _ Hs)|exact Hc])) as (W' & Ws' & F' & Q' & Hl & Hs' & _).
  apply runs_str_to_poly; [reflexivity|]. exists (length (m_heap m)). change (length (m_heap m2)) with (length (m_heap m1)). rewrite L. split; [reflexivity|].
  split; [exact Hs'|]. split; [lia|]. auto.
Qed.

Lemma strlen_short E s : wf_env E -> enough E (List.length s) -> strlen E s = Z.of_nat (List.length s).
Proof. intros We (_ & _ & H). unfold strlen. apply u_of_small. unfold fits_str in H. lia. Qed.
Lemma enough_less E a b : enough E b -> (a <= b)%nat -> enough E a.
Proof. intros (A & B & C) H. split; [exact A|]. unfold fits_str in *. split; lia. Qed.

Lemma input_loop_runs E rest : wf_env E -> (rest = [] \/ exists r, rest = 10 :: r) -> forall line k m l s,
  wf E m -> wf_strs E (m_heap m) -> room E 1 m -> str_at (m_heap m) l s -> (length line <= k)%nat ->
  io_in (m_io m) = line ++ rest -> Forall (fun c => 0 <= c < 256 /\ c <> 10) line -> enough E (length s + length line) ->
  runs (input_loop E k (PStr l)) m (fun r m' => exists l', r = PStr l' /\ str_at (m_heap m') l' (s ++ nonzero line) /\ (l <= l')%nat /\
    wf E m' /\ wf_strs E (m_heap m') /\ frame None m m' /\ quiet m m' /\ sees (tl rest) m m').
Proof.
  intros We Hrest line. induction line as [|c line IH]; intros k m l s W Ws R Hs Hk Hin Hc He.
  - assert (K : runs (let* c := getchar in match c with None => ret (PStr l) | Some c => if c =? 10 then ret (PStr l) else
       match k with O => undef | S k => let* s := string_cat_text E (PStr l) (cstring [c]) in input_loop E k s end end) m
      (fun r m' => exists l', r = PStr l' /\ str_at (m_heap m') l' (s ++ nonzero []) /\ (l <= l')%nat /\
        wf E m' /\ wf_strs E (m_heap m') /\ frame None m m' /\ quiet m m' /\ sees (tl rest) m m')).
    { cbn [app] in Hin. cbn [nonzero filter]. rewrite app_nil_r. apply runs_bind. unfold getchar. destruct Hrest as [->|[r ->]].
      - exists None, m. rewrite Hin. split; [reflexivity|]. apply runs_ret. exists l. split; [reflexivity|]. split; [exact Hs|]. split; [lia|].
        split; [exact W|]. split; [exact Ws|]. split; [apply frame_refl|]. split; [split; reflexivity|]. unfold sees. cbn [tl]. clear - Hin. destruct (m_io m); cbn in *; subst; reflexivity.
      - eexists (Some 10), _. rewrite Hin. split; [reflexivity|]. cbn [Z.eqb Pos.eqb]. apply runs_ret. exists l. split; [reflexivity|]. split; [exact Hs|]. split; [lia|].
        split; [apply wf_io; exact W|]. split; [exact Ws|]. split; [apply frame_io, frame_refl|]. split; [split; reflexivity|]. reflexivity. }
    destruct k; exact K.
  - destruct k as [|k]; [cbn in Hk; lia|]. cbn [input_loop]. inversion Hc as [|? ? [Hc1 Hc2] Hcs]; subst. cbn [app] in Hin.
    apply runs_bind. eexists (Some c), _. split; [unfold getchar; rewrite Hin; reflexivity|].
    destruct (Z.eqb_spec c 10); [contradiction|]. set (m1 := set_io _ m).
    assert (Lc : (length (cstring [c]) <= 1)%nat) by (cbn; destruct (c =? 0); cbn; lia).
    assert (En : enough E (length (s ++ cstring [c]))) by (eapply enough_less; [exact He|]; rewrite app_length; cbn [length]; lia).
    eapply runs_step.
    { apply runs_keep; [apply i_cat_text|]. apply cat_text_runs with (s := s); [exact We|apply wf_io; exact W|exact Ws|exact R|exact Hs| |exact En|].
      - cbn. destruct (Z.eqb_spec c 0); constructor; [lia|constructor].
      - apply strlen_short; [exact We|]. eapply enough_less; [exact En|]. rewrite app_length. lia. }
    intros r m2 ((l2 & -> & Hs2 & Hl2 & W2 & Ws2 & F2 & Q2) & I2).
    assert (Io2 : m_io m2 = {| io_out := io_out (m_io m); io_in := line ++ rest; io_rnd := io_rnd (m_io m) |}).
    { exact I2. }
    eapply runs_mono; [apply (IH k m2 l2 (s ++ cstring [c])); auto|].
    + unfold room in *. rewrite (fr_sp _ _ _ F2). exact R.
    + cbn [length] in Hk. lia.
    + rewrite Io2. reflexivity.
    + eapply enough_less; [exact He|]. rewrite app_length. cbn [length]. lia.
    + intros r m3 (l3 & -> & H3 & L3 & W3 & Ws3 & F3 & [Q3 Q3'] & S3). exists l3. split; [reflexivity|].
      split; [|split; [|split; [exact W3|split; [exact Ws3|split; [|split]]]]].
      * rewrite <- app_assoc in H3. cbn [nonzero filter]. cbn [cstring app] in H3. destruct (c =? 0); exact H3.
      * pose proof (nth_error_lt _ _ _ _ Hs). cbn in Hl2. lia.
      * assert (F1 : frame None m m1) by (apply frame_io, frame_refl). eapply frame_trans_none; [exact F1|]. eapply frame_trans_none; [exact F2|exact F3].
      * destruct Q2 as [Q2 Q2']. cbn in Q2, Q2'. split; congruence.
      * unfold sees in *. rewrite S3, Io2. reflexivity.
Qed.

Lemma first_string E m : wf_env E -> wf E m -> wf_strs E (m_heap m) -> enough E 0 ->
  runs (let* n := alloc E 1 in
        match n with None => ret PNull | Some bytes => let* p := new_str bytes [] in str_to_poly (Some p) end) m
    (fun r m' => exists l, r = PStr l /\ str_at (m_heap m') l [] /\ (length (m_heap m) <= l)%nat /\
      wf E m' /\ wf_strs E (m_heap m') /\ frame None m m' /\ quiet m m').
Proof.
  intros We W Ws (Nf & Hp & Hf). assert (Hst : length (m_stack m) = e_stack E) by apply W.
  pose proof (str_bytes (e_width E) 0 ltac:(lia) Hf) as Hby.
  eapply runs_step; [apply alloc_runs'; pose proof (wf_sp _ _ W); lia|].
  intros r m1 (F & L & Em & Ep & Hr). destruct r as [bytes|].
  2: { exfalso. destruct Hr as (_ & [[k Hk]|Hk]); [rewrite Nf in Hk; discriminate|]. change (0 + 1) with 1 in Hby. lia. }
  destruct Hr as (-> & Hbp & Hq). change (0 + 1) with 1 in Hby. apply runs_new_str; [cbn [length]; lia|].
  pose proof (new_str_done E m m1 [] _ W Ws F L Hq Ep ltac:(cbn [length]; split; [|exact Hbp]; lia) ltac:(constructor)) as (W' & Ws' & F' & Q' & Hl & Hs' & _).
  apply runs_str_to_poly; [reflexivity|]. exists (length (m_heap m)). rewrite L. split; [reflexivity|].
  split; [exact Hs'|]. split; [lia|]. auto.
Qed.

Lemma quiet_trans a b c : quiet a b -> quiet b c -> quiet a c.
Proof. intros [A B] [C D]. split; congruence. Qed.
Lemma frame_untouched E m m' : wf E m' -> wf_strs E (m_heap m') -> frame None m m' -> quiet m m' -> untouched E m m'.
Proof. intros A B F Q. split; [exact A|]. split; [exact B|]. split; [destruct F; split; assumption|]. split; [apply kept_others; apply F|exact Q]. Qed.

(** One string, then the prompt, then the line. *)
Lemma input_split E T np nn args : forall m Q,
  runs (let* s := (let* n := alloc E 1 in
        match n with None => ret PNull | Some bytes => let* p := new_str bytes [] in str_to_poly (Some p) end) in
    let* s := hold s in
  if 1 <? np then error (EArgs 1 np);; ret PNull
  else
    (if np =? 0 then ret tt else match args with a :: _ => show E T a | [] => undef end);;
    let* s := use s in
    fun m => input_loop E (List.length (io_in (m_io m))) s m) m Q -> runs (built_input E T np nn args) m Q.
Proof.
  intros m Q H. unfold built_input. eapply runs_eq; [|exact H]. symmetry. apply bind_assoc.
Qed.

Lemma input_ok P m ps line rest : wf_port P -> wf (pt_env P) m -> wf_strs (pt_env P) (m_heap m) -> room (pt_env P) 1 m ->
  (length ps <= 1)%nat -> (forall p, In p ps -> exists v, tree (m_heap m) p v /\ room (pt_env P) (nesting v + 2) m) ->
  io_in (m_io m) = line ++ rest -> (rest = [] \/ exists r, rest = 10 :: r) -> Forall (fun c => 0 <= c < 256 /\ c <> 10) line ->
  enough (pt_env P) (length line) ->
  runs (applied P "input" ps []) m (fun r m' => line_result (pt_env P) m line r m' /\
    exists t, (match ps with [] => t = [] | p :: _ => exists v, tree (m_heap m) p v /\ text_of (pt_env P) (pt_texts P) str_fmt v t end) /\
    m_io m' = {| io_out := io_out (m_io m) ++ t; io_in := tl rest; io_rnd := io_rnd (m_io m) |}).
Proof.
  intros (We & Tok & _) W Ws R Lp Hps Hin Hr Hc He. set (E := pt_env P) in *. set (T := pt_texts P) in *.
  change (applied P "input" ps []) with (built_input E T (Z.of_nat (List.length ps)) 0 (ps ++ [])). rewrite app_nil_r.
  apply input_split. eapply runs_step; [apply (runs_keep io_same)|].
  { apply k_bind; eauto with keeps. intros. kp. }
  { apply first_string; auto. eapply enough_less; [exact He|lia]. }
  intros s m1 ((l & -> & Hl & Ll & W1 & Ws1 & F1 & Q1) & I1). unfold io_same in I1.
  apply runs_bind. exists (PStr l, m_epoch m1), m1. split; [reflexivity|].
  destruct (Z.ltb_spec 1 (Z.of_nat (length ps))); [lia|].
  assert (Pr : runs (if Z.of_nat (length ps) =? 0 then ret tt else match ps with a :: _ => show E T a | [] => undef end) m1
    (fun _ m2 => still E m1 m2 /\ exists t, (match ps with [] => t = [] | p :: _ => exists v, tree (m_heap m) p v /\ text_of E T str_fmt v t end) /\ printed t m1 m2)).
  { destruct ps as [|p ps].
    - apply runs_ret. split; [split; [exact W1|]; split; [exact Ws1|]; split; [apply frame_refl|]; repeat split|]. exists []. split; [reflexivity|]. apply printed_nil. reflexivity.
    - destruct (Z.eqb_spec (Z.of_nat (length (p :: ps))) 0); [discriminate|]. destruct (Hps p) as (v & Hv & Rv); [left; reflexivity|].
      eapply runs_mono; [apply show_runs with (v := v); auto|].
      + unfold room in *. rewrite (fr_sp _ _ _ F1). exact Rv.
      + eapply tree_kept; [apply F1|exact Hv].
      + cbv beta. intros _ m2 (S & t & Ht & Hp). split; [exact S|]. exists t. split; [|exact Hp]. exists v. auto. }
  eapply runs_step; [exact Pr|]. cbv beta. intros _ m2 (S2 & t & Ht & P2). pose proof S2 as (W2 & Ws2 & F2 & Q2 & H2 & E2).
  apply runs_bind. exists (PStr l), m2. split. { unfold use. cbn [fst snd]. rewrite E2, Nat.eqb_refl, orb_true_r. reflexivity. }
  unfold printed in P2. rewrite I1 in P2.
  assert (L : runs (input_loop E (length (io_in (m_io m2))) (PStr l)) m2 (fun r m' => exists l', r = PStr l' /\ str_at (m_heap m') l' ([] ++ nonzero line) /\ (l <= l')%nat /\
    wf E m' /\ wf_strs E (m_heap m') /\ frame None m2 m' /\ quiet m2 m' /\ sees (tl rest) m2 m')).
  { apply input_loop_runs; auto.
    - unfold room in *. rewrite (fr_sp _ _ _ F2), (fr_sp _ _ _ F1). exact R.
    - rewrite H2. exact Hl.
    - rewrite P2. cbn [io_in]. rewrite Hin, app_length. lia.
    - rewrite P2. exact Hin. }
  destruct L as (r & m3 & Hrun & l3 & -> & Hs3 & L3 & W3 & Ws3 & F3 & Q3 & S3). exists (PStr l3), m3. split; [exact Hrun|]. cbn [app] in Hs3.
  split; [split; [|exists l3; split; [reflexivity|split; [lia|exact Hs3]]]|].
  - apply frame_untouched; auto; [|eapply quiet_trans; [exact Q1|eapply quiet_trans; eauto]].
    eapply frame_trans_none; [exact F1|]. eapply frame_trans_none; eauto.
  - exists t. split; [exact Ht|]. unfold sees in S3. rewrite S3, P2. reflexivity.
Qed.

(** Without memory for the first string, the first character is undefined. *)
Lemma input_undefined P m c r : e_fail (pt_env P) (m_nalloc m) = true -> io_in (m_io m) = c :: r -> c <> 10 -> applied P "input" [] [] m = None.
Proof.
  intros F I N. change (applied P "input" [] []) with (built_input (pt_env P) (pt_texts P) 0 0 []).
  unfold built_input, bind. unfold alloc at 1. rewrite F. cbn [orb error].
  set (m1 := if m_abort _ then _ else _). assert (I1 : m_io m1 = m_io m).
  { unfold m1. destruct (m_abort _), (e_move _ _); reflexivity. }
  cbn [Z.ltb Z.compare Z.eqb ret]. unfold hold, use. cbn [fst snd]. change (is_ref PNull) with false. cbn [negb orb]. rewrite I1, I. cbn [length input_loop].
  unfold bind, getchar. rewrite I1, I. destruct (Z.eqb_spec c 10); [contradiction|]. reflexivity.
Qed.

(** ** Pairs *)
Definition pair_core (E : env) (m : mach) (x y : float) (r : poly) (m' : mach) : Prop :=
  wf E m' /\ frame None m m' /\
  ((exists l, r = PList l /\ (List.length (m_heap m) <= l)%nat /\ seq_at (m_heap m') l KTuple [PNum x; PNum y] /\ quiet m m') \/
   (r = PNull /\ oom E 2 m m')).
Lemma pair_runs E m x y : wf_env E -> wf E m -> wf_strs E (m_heap m) -> room E 1 m ->
  runs (make_tuple E x y) m (pair_result E m x y).
Proof.
  intros We W Ws R. assert (Hf : fits (e_width E) 2) by (unfold fits; destruct (e_width E); cbn; lia).
  apply runs_mono with (P := fun r m' => (pair_core E m x y r m' /\ strs_old m m') /\ io_same m m');
    [apply (runs_keep io_same); [apply i_tuple|apply (runs_keep strs_old); [apply so_tuple|]]|].
  - unfold make_tuple. eapply runs_step; [apply make_runs; auto; lia|]. intros r m1 (F & H). destruct r as [p|].
    + destruct H as (Q & l & o & -> & Ho & Sh & Hk & Hs & Hn). destruct Hn as [(Hl & Hlen)|(Hz & _)]; [|discriminate Hz]. subst l.
      apply runs_bind. exists o, m1. split. { unfold deref_list, deref, bind. cbn [fst snd]. rewrite Nat.eqb_refl, Ho. reflexivity. }
      destruct Sh as [Sh1 Sh2 Sh3]. assert (Ld : (2 <= length (lo_data o))%nat) by lia.
      eapply runs_lift_bind. { unfold blit. cbn [length plus]. destruct (Nat.leb_spec 2 (length (lo_data o))); [reflexivity|lia]. }
      cbn [firstn app]. set (d := from_float x :: _). apply runs_bind.
      eexists tt, _. split. { unfold assign_list, assign_obj. cbn [fst snd]. rewrite Nat.eqb_refl. cbn [andb]. rewrite Hlen. destruct (Nat.ltb_spec (length (m_heap m)) (S (length (m_heap m)))); [reflexivity|lia]. }
      pose proof (fill_post E m m1 (length (m_heap m)) o KTuple [from_float x; from_float y] d We W F Q ltac:(discriminate) Ho (Build_shape _ _ Sh1 Sh2 Sh3) Hk Hs (or_introl (conj eq_refl Hlen))) as (W2 & F2 & Q2 & _ & S2 & G2).
      { unfold d. cbn [length]. rewrite skipn_length. lia. }
      { reflexivity. }
      { repeat constructor. }
      match goal with |- runs _ ?mm _ => exists (PList (length (m_heap m))), mm end. split. { unfold list_to_poly. cbn [fst snd set_heap m_epoch]. rewrite Nat.eqb_refl. reflexivity. }
      split; [exact W2|]. split; [exact F2|]. left. exists (length (m_heap m)). split; [reflexivity|]. split; [lia|]. split; [exact S2|exact Q2].
    + destruct H as (O & Fr). apply runs_ret. split; [eapply wf_fresh; eauto|]. split; [exact F|]. right. auto.
  - cbv beta. intros r m2 (((W2 & F2 & Rs) & So) & I). split; [exact W2|]. split; [|split; [destruct F2; split; assumption|split; [apply kept_others; apply F2|split; [exact I|exact Rs]]]].
    intros l s H. apply So in H. apply (Ws _ _ H).
Qed.
