(** The virtual machine, running the code of the layout, does what the
    evaluator says. *)
From Coq Require Import ZArith Bool List Lia.
From Verif Require Import Base FloatModel PolyModel ValueModel MathModel MachModel ListModel StrModel BinModel FrameModel CodeModel CompModel ExecModel LayoutSpec LayoutProofs LayoutEqs GenProofs GenProofs2 EvalSpec TameSpec TameProofs TameProofs2 EvalTame LiteralProofs StepProofs.
Import ListNotations.
Local Open Scope Z_scope.
Open Scope eval_scope.
Open Scope st_scope.

(** ** Functions: only their formals matter for a call *)
Definition map_func {C D} (h : C -> D) (f : func C) : func D :=
  {| fn_nrequired := fn_nrequired f; fn_formals := fn_formals f; fn_code := h (fn_code f) |}.
Lemma bind_actuals_map {C D} (h : C -> D) E f np : forall pos s,
  bind_actuals E (map_func h f) np pos s = bind_actuals E f np pos s.
Proof.
  induction pos as [|pos IH]; intro s; [reflexivity|]. cbn [bind_actuals]. unfold sbind.
  destruct (lm pop s) as [[v s1]|]; [|reflexivity].
  change (check_formal ?i (map_func h f)) with (check_formal i f). change (fn_formals (map_func h f)) with (fn_formals f).
  match goal with |- match ?x with _ => _ end = match ?y with _ => _ end => change y with x; destruct x as [[[id ok] s2]|] end; [|reflexivity].
  destruct ok; [|reflexivity]. destruct (func_actual id v pos s2) as [[ok s3]|]; [|reflexivity]. destruct ok; [apply IH|reflexivity].
Qed.
Lemma check_required_map {C D} (h : C -> D) f : forall k pos s,
  check_required (map_func h f) k pos s = check_required f k pos s.
Proof.
  induction k as [|k IH]; intros pos s; [reflexivity|]. cbn [check_required]. unfold sbind.
  destruct (get s) as [[s0 s1]|]; [|reflexivity]. destruct (s_frames s0); [reflexivity|].
  change (fn_formals (map_func h f)) with (fn_formals f).
  destruct (nth_error l pos) as [[id v]|]; [|reflexivity]. destruct (nth_error (fn_formals f) pos); [|reflexivity].
  destruct (id =? 0); [reflexivity|apply IH].
Qed.
Lemma func_push_map {C D} (h : C -> D) E f np nn s : func_push E (map_func h f) np nn s = func_push E f np nn s.
Proof.
  unfold func_push, sbind. change (fn_nformal (map_func h f)) with (fn_nformal f).
  destruct (frame_push E _ s) as [[[] s1]|]; [|reflexivity|reflexivity]. cbn [negb].
  destruct (fn_nformal f <? np); [reflexivity|]. destruct (get s1) as [[s2 s3]|]; [|reflexivity].
  rewrite bind_actuals_map. destruct (bind_actuals E f _ _ s3) as [[[bad|] s4]|]; [reflexivity| |reflexivity].
  change (fn_nrequired (map_func h f)) with (fn_nrequired f). rewrite check_required_map. reflexivity.
Qed.
Definition map_res {A B} (h : A -> B) (r : option (A * st)) : option (B * st) :=
  match r with Some (a, s) => Some (h a, s) | None => None end.
Lemma call_op_map {C D} (h : C -> D) E builtins FT o s :
  call_op E builtins (fun l => option_map (map_func h) (FT l)) o s =
  map_res (option_map (map_func h)) (call_op E builtins FT o s).
Proof.
  unfold call_op, sbind. destruct (lm (pick _) s) as [[a s1]|]; [|reflexivity]. destruct (put_a a s1) as [[[] s2]|]; [|reflexivity].
  assert (Hf : forall s, match lm (drop (Z.to_nat (o mod 256 + 2 * (o / 256)) + 1)) s with
    | Some (_, s') => sret (@None (func D)) s' | None => None end =
    map_res (option_map (map_func h)) match lm (drop (Z.to_nat (o mod 256 + 2 * (o / 256)) + 1)) s with
    | Some (_, s') => sret (@None (func C)) s' | None => None end).
  { intro s0. destruct (lm _ s0) as [[? ?]|]; reflexivity. }
  destruct a; try (destruct (lm (error _) s2) as [[? ?]|]; [apply Hf|reflexivity]).
  - destruct (FT l) as [f|]; cbn [option_map]; [|reflexivity]. rewrite func_push_map.
    destruct (func_push E f _ _ s2) as [[[] s3]|]; [|apply Hf|reflexivity].
    destruct (lm pop s3) as [[a s4]|]; [|reflexivity]. reflexivity.
  - destruct (call_builtin E builtins u _ _ s2) as [[? ?]|]; [apply Hf|reflexivity].
  - reflexivity.
Qed.

(** ** Functions that do not fall off their end *)
Fixpoint noends (s : stmt) : bool :=
  match s with
  | SReturn _ => true
  | SSeq s t => noends s || noends t
  | SIf _ s r => noends s && noends_rest r
  | _ => false
  end
with noends_rest (r : rest) : bool :=
  match r with
  | RNone => false
  | RElse s => noends s
  | RElif _ _ s r => noends s && noends_rest r
  end.

Section Sim.
Variable K : conf.
Variable i8 : float -> Z.
Variable FT : loc -> option (func fundef).
Notation E := (cf_env K).
Notation w := (e_width E).
Notation T := (cf_texts K).
Notation powf := (cf_pow K).
Notation size := (LayoutSpec.size w).
Notation enc := (LayoutSpec.enc w).
Notation osize := (LayoutSpec.osize w).
Notation inum := (LayoutSpec.inum i8).
Notation comp := (LayoutSpec.comp w i8).
Notation cargs := (LayoutSpec.cargs w i8).
Notation cdents := (LayoutSpec.cdents w i8).
Notation copt := (LayoutSpec.copt w i8).
Notation clinks := (LayoutSpec.clinks w i8).
Notation cstmt := (LayoutSpec.cstmt w i8).
Notation crest := (LayoutSpec.crest w i8).
Notation cformals := (LayoutSpec.cformals w i8).
Notation cbody := (LayoutSpec.cbody w i8).
Notation cdef := (LayoutSpec.cdef w i8).
Notation hosts := (StepProofs.hosts w).
Notation F := (fun l => option_map (map_func (fun fd => encs w (cdef fd))) (FT l)).
Notation sim := (StepProofs.sim K F).
Notation reach := (StepProofs.reach K F).
Notation stops := (StepProofs.stops K F).
Notation good := (StepProofs.good K).
Notation ev := (EvalSpec.ev K FT).
Notation ev_args := (EvalSpec.ev_args K FT).
Notation ev_dents := (EvalSpec.ev_dents K FT).
Notation ev_opt := (EvalSpec.ev_opt K FT).
Notation ev_links := (EvalSpec.ev_links K FT).
Notation body := (EvalSpec.body K FT).
Notation defaults := (EvalSpec.defaults K FT).
Notation exs := (EvalSpec.exs K FT).
Notation ex_rest := (EvalSpec.ex_rest K FT).
Notation while := (EvalSpec.while K FT).
Notation loop := (EvalSpec.loop K FT).

(** the function's last instruction is not a return, or the end of its body is
    never reached (see C29 for what happens otherwise) *)
Definition proper (fd : fundef) : Prop :=
  Forall (in_range w) (cbody fd) /\
  (noends (fd_body fd) = true \/ match rev (cbody fd) with i :: _ => is_return i = false | [] => True end).
Hypothesis Hi8 : forall f, -128 <= i8 f < 128.
Hypothesis Hb : tame_builtins E (cf_builtins K).
Hypothesis HF : forall l f, FT l = Some f -> proper (fn_code f).

(** ** Single instructions *)
Lemma sim_ext {A} code P (x x' : X A) p R b b' : (forall s, x s = x' s) -> sim code P x' p R b b' -> sim code P x p R b b'.
Proof. intros H Hs s links G HP. rewrite H. apply Hs; auto. Qed.
Lemma sim_pos {A} code P (x : X A) p R b1 b1' b2 b2' : sim code P x p R b1 b2 -> b1 = b1' -> b2 = b2' -> sim code P x p R b1' b2'.
Proof. intros H -> ->. exact H. Qed.
Lemma lm_a {A} (x : M A) s a s' : lm x s = Some (a, s') -> s_a s' = s_a s.
Proof. unfold lm. destruct (x (s_m s)) as [[? ?]|]; [|discriminate]. intro H. injection H as _ <-. reflexivity. Qed.

Lemma sim_give code P v b i : hosts code b [i] -> i <> i0 KReturn false -> arg_kind (i_op i) = kind_of (i_arg i) ->
  (forall next len s, ins K F (i_op i) (i_arg i) (i_push i) next len s = Some (Go next (i_push i), set_a v s)) ->
  sim code P (give v) (i_push i) is_a b (b + length (enc i)).
Proof.
  intros Hh Hn Hk Hi. apply sim_ext with (x' := prim (put_a v ^; sret v)).
  { intro s. unfold give, xbind, prim, put_a, sbind, sret, xret. cbn. destruct (aborted (set_a v s)); reflexivity. }
  apply sim_ins with (n := 0%nat) (n' := 0%nat); [auto|auto|auto|ts| |].
  - intros s _ _. apply Hi.
  - intros s a s' _ _ H. injection H as <- <-. reflexivity.
Qed.
Lemma wraps_mod z : -128 <= z < 128 -> wraps 8 (z mod 256) = z.
Proof. intros H. unfold wraps. change (2 ^ 8) with 256. change (2 ^ (8 - 1)) with 128. 
  destruct (Z_lt_le_dec z 0).
  - replace (z mod 256) with (z + 256); [|apply (Z.mod_unique _ _ (-1)); lia].
    destruct (Z.ltb_spec ((z + 256) mod 256) 128); rewrite Z.mod_small in * by lia; lia.
  - rewrite (Z.mod_small z) by lia. rewrite Z.mod_small by lia. destruct (Z.ltb_spec z 128); lia.
Qed.
Lemma sim_num code P p f b : hosts code b [inum p f] -> neg_zero f = false ->
  sim code P (give (PNum f)) p is_a b (b + length (enc (inum p f))).
Proof.
  intros Hh Hz. assert (Hp : i_push (inum p f) = p) by (unfold LayoutSpec.inum; destruct (feq _ _); reflexivity).
  pose proof (sim_give code P (PNum f) b (inum p f)) as G. rewrite Hp in G. apply G; [auto| | |];
    unfold LayoutSpec.inum in *; destruct (feq (f_of_Z (i8 f)) f) eqn:e; try discriminate; try reflexivity.
  intros next len s. cbn. unfold sbind, put_a, sret. rewrite wraps_mod by auto.
  rewrite <- (literal _ _ (Hi8 f) e Hz). reflexivity.
Qed.

Lemma top_pick v s : top v s -> lm (pick 0) s = Some (v, s).
Proof.
  intros [H0 H]. unfold lm, pick. replace (Nat.ltb 0 (m_sp (s_m s))) with true by (symmetry; apply Nat.ltb_lt; lia).
  replace (m_sp (s_m s) - 0 - 1)%nat with (m_sp (s_m s) - 1)%nat by lia. rewrite H. destruct s; reflexivity.
Qed.
Lemma sim_bin code x o y p b : hosts code b [i0 (KBin o) p] ->
  sim code (fun s => is_a y s /\ top x s) (apply K x o y) p is_a b (b + 1).
Proof.
  intros Hh. unfold apply. change p with (i_push (i0 (KBin o) p)).
  eapply sim_pos; [|reflexivity|rewrite <- (size_i0 w (KBin o) p); reflexivity].
  apply sim_ins with (n := 1%nat) (n' := 0%nat); [auto|discriminate|reflexivity| | |].
  - ts.
  - intros s _ [Ha Ht]. cbn [i0 i_op i_arg i_push ins]. unfold bin_ins, sbind. rewrite (top_pick _ _ Ht). unfold get_a. rewrite Ha.
    destruct (lm (binary E T powf x o y false) s) as [[r s1]|]; [|reflexivity].
    destruct (put_a r s1) as [[? s2]|]; [|reflexivity]. destruct (lm (drop 1) s2) as [[? s3]|]; reflexivity.
  - intros s a s' _ _. unfold sbind. destruct (lm _ s) as [[r s1]|]; [|discriminate]. unfold put_a.
    destruct (lm (drop 1) (set_a r s1)) as [[? s3]|] eqn:e; [|discriminate]. intro H. injection H as <- <-.
    unfold is_a. rewrite (lm_a _ _ _ _ e). reflexivity.
Qed.


(** ** Expressions *)
Definition sim_ev n := forall e p code b, hosts code b (comp p b e) ->
  sim code yes (ev n e) p is_a b (b + size (comp p b e)).
Definition sim_args n := forall a code b, hosts code b (cargs b a) ->
  sim code yes (ev_args n a) false (fun _ => yes) b (b + size (cargs b a)).
Definition sim_dents n := forall d code b, hosts code b (cdents b d) ->
  sim code yes (ev_dents n d) false (fun _ => yes) b (b + size (cdents b d)).
Definition sim_opt n := forall o code b, hosts code b (copt b o) ->
  sim code yes (ev_opt n o) false (fun _ => yes) b (b + size (copt b o)).
Definition sim_links n := forall l x t code b, hosts code b (clinks (Some t) b l) ->
  (b + size (clinks (Some t) b l))%nat = t -> sim code (top x) (ev_links n x l) false is_a b t.
Definition sim_body n := forall fd s links, proper fd -> good s ->
  let code := encs w (cdef fd) in
  match body n fd s with
  | Val v s' => good s' /\ s_a s' = v /\
      exists s1 ip, reach (V s code 0 links) (V s1 code ip links) /\ (length code <= ip)%nat /\ frame_pop s1 = Some (tt, s')
  | Stop s' => stops (V s code 0 links) s'
  | _ => True
  end.

Lemma tame_ev n k e : xtame E k k (ev n e).
Proof. apply (eval_tame K FT Hb n). Qed.
Lemma tame_args n k a : xtame E k (slots_of a + k) (ev_args n a).
Proof. apply (eval_tame K FT Hb n). Qed.

(** the value of [e], the value [v0] waiting *)
Lemma sim_ev_top n e code b v0 : sim_ev n -> hosts code b (comp false b e) ->
  sim code (top v0) (ev n e) false (fun v s => is_a v s /\ top v0 s) b (b + size (comp false b e)).
Proof.
  intros IH Hh. eapply sim_weaken; [eapply sim_frame; [apply tame_ev|apply IH; exact Hh]| |].
  - intros s H. split; [exact Logic.I|exact H].
  - auto.
Qed.
Lemma yes_any (P : st -> Prop) : forall s, P s -> yes s.
Proof. intros. exact Logic.I. Qed.
Lemma sim_pre {A} code (P P' : st -> Prop) (x : X A) p R b b' : (forall s, P' s -> P s) -> sim code P x p R b b' -> sim code P' x p R b b'.
Proof. intros H Hx. eapply sim_weaken; [exact Hx|exact H|auto]. Qed.

Lemma size_one i : size [i] = length (enc i).
Proof. rewrite size_cons, size_nil. lia. Qed.

Ltac pos := autorewrite with sz; rewrite ?size_cons, ?size_nil, ?size_io, ?size_i0, ?size_step; try (cbn [length LayoutSpec.enc arg_bytes]; lia).
Ltac split_hosts H :=
  match type of H with
  | StepProofs.hosts _ _ _ (_ ++ _) =>
      let H1 := fresh "Hh" in let H2 := fresh "Hh" in
      apply hosts_app in H as [H1 H2]; split_hosts H1; split_hosts H2
  | StepProofs.hosts _ _ _ (_ :: _ :: _) =>
      let H1 := fresh "Hh" in let H2 := fresh "Hh" in
      apply hosts_cons in H as [H1 H2]; split_hosts H1; split_hosts H2
  | _ => idtac
  end.

Lemma sim_strings ls : forall code P (x : X poly) p b b1,
  sim code P x (p || match ls with [] => false | _ => true end) is_a b b1 -> hosts code b1 (cstrs p ls) ->
  sim code P (do v <- x; strings K v ls) p is_a b (b1 + size (cstrs p ls)).
Proof.
  induction ls as [|l ls IH]; intros code P x p b b1 Hx Hh.
  - cbn [strings cstrs]. rewrite orb_false_r in Hx. rewrite size_nil, Nat.add_0_r.
    intros s links G HP. specialize (Hx s links G HP). unfold xbind, xret. destruct (x s); auto.
  - cbn [strings cstrs] in *. rewrite orb_true_r in Hx. apply hosts_cons in Hh as [Hh1 Hh]. apply hosts_cons in Hh as [Hh2 Hh3].
    eapply sim_wait; [exact Hx|]. intro v.
    eapply sim_bind with (R1 := fun y s => is_a y s /\ top v s).
    + eapply sim_weaken; [eapply sim_frame with (v0 := v) (P := yes); [apply x_give|]| |].
      * change false with (i_push (io KString false (Z.of_nat l))). apply sim_give; [exact Hh1|discriminate|reflexivity|].
        intros. cbn. unfold sbind, put_a, sret. rewrite Nat2Z.id. reflexivity.
      * intros s H. split; [exact Logic.I|exact H].
      * auto.
    + intro y. eapply sim_pos; [eapply IH; [|]| |]; [apply sim_bin; exact Hh2|..]; rewrite ?size_i0 in Hh3; [exact Hh3|reflexivity|].
      rewrite !size_cons, size_i0. lia.
Qed.

Lemma error_aborts e s u s' : lm (error e) s = Some (u, s') -> aborted s' = true.
Proof. unfold lm, error. unfold aborted. destruct (m_abort (s_m s)) eqn:ea; intro H; injection H as _ <-; cbn; auto. Qed.

Lemma sim_name code id p b : hosts code b [io KId p id] -> sim code yes (name K id) p is_a b (b + osize).
Proof.
  intros Hh. unfold name. change p with (i_push (io KId p id)). rewrite <- (size_io w KId p id).
  apply sim_ins with (n := 0%nat) (n' := 0%nat); [auto|discriminate|reflexivity|ts| |].
  - intros s _ _. cbn [io i_op i_arg i_push ins]. unfold sbind. destruct (id_ref E id false s) as [[r s1]|]; [|reflexivity].
    destruct r as [r|].
    + destruct (read r s1) as [[v s2]|]; reflexivity.
    + destruct (cf_names K id) as [v|]; [reflexivity|]. destruct (lm (error _) s1) as [[? s2]|]; reflexivity.
  - intros s a s' _ Ha. unfold sbind. destruct (id_ref E id false s) as [[r s1]|]; [|discriminate].
    destruct r as [r|].
    + destruct (read r s1) as [[v s2]|]; [|discriminate]. intro H. injection H as <- <-. reflexivity.
    + destruct (cf_names K id) as [v|]; [intro H; injection H as <- <-; reflexivity|].
      destruct (lm (error _) s1) as [[? s2]|] eqn:e; [|discriminate]. intro H. injection H as <- <-.
      rewrite (error_aborts _ _ _ _ e) in Ha. discriminate.
Qed.
Lemma sim_unary code u v p b : u <> UPlus -> hosts code b [i0 (unop_code u) p] ->
  sim code (is_a v) (unary u v) p is_a b (b + 1).
Proof.
  intros Hu Hh. unfold unary. change p with (i_push (i0 (unop_code u) p)).
  eapply sim_pos; [|reflexivity|rewrite <- (size_i0 w (unop_code u) p); reflexivity].
  apply sim_ins with (n := 0%nat) (n' := 0%nat); [auto|destruct u; try discriminate; congruence|destruct u; try reflexivity; congruence|destruct u; ts| |].
  - intros s _ Ha. unfold is_a in Ha. destruct u; try congruence; cbn [unop_code i0 i_op i_arg i_push ins]; unfold sbind, get_a; rewrite Ha.
    + destruct (lm (truth v) s) as [[r s1]|]; reflexivity.
    + destruct (lm (get_float v) s) as [[r s1]|]; reflexivity.
    + destruct (lm (lnot_op v) s) as [[r s1]|]; reflexivity.
  - intros s a s' _ _. unfold sbind. match goal with |- match ?x with _ => _ end = _ -> _ => destruct x as [[r s1]|]; [|discriminate] end.
    intro H. injection H as <- <-. reflexivity.
Qed.
Lemma sim_make code n k p b m : hosts code b [io (KMake k) p n] -> m = Z.to_nat n ->
  sim code yes (make K n k) p is_a b (b + osize).
Proof.
  intros Hh Hm. unfold make. change p with (i_push (io (KMake k) p n)). rewrite <- (size_io w (KMake k) p n).
  apply sim_ins with (n := (m + 0)%nat) (n' := 0%nat); [auto|discriminate|reflexivity| | |].
  - subst m. eapply ts_bind; [apply ts_lm, t_list_imm|]. intro. ts.
  - intros s _ _. cbn [io i_op i_arg i_push ins]. unfold sbind. destruct (lm _ s) as [[r s1]|]; reflexivity.
  - intros s a s' _ _. unfold sbind. destruct (lm _ s) as [[r s1]|]; [|discriminate].
    intro H. injection H as <- <-. reflexivity.
Qed.
Lemma sim_slice code a c d p b : hosts code b [I KSlice p (AByte (obit a * 1 + obit c * 2 + obit d * 4))] ->
  sim code yes (prim (slice_op K (obit a * 1 + obit c * 2 + obit d * 4) ^; get_a)) p is_a b (b + 2).
Proof.
  intros Hh. set (bits := obit a * 1 + obit c * 2 + obit d * 4) in *. change p with (i_push (I KSlice p (AByte bits))).
  eapply sim_pos; [|reflexivity|change 2%nat with (length (enc (I KSlice p (AByte bits)))); reflexivity].
  apply sim_ins with (n := (oslots d + (oslots c + (oslots a + 1)))%nat) (n' := 0%nat); [auto|discriminate|reflexivity| | |].
  - eapply ts_bind; [|intro; ts]. pose proof (ts_slice_op K 0 bits) as H. subst bits. destruct a, c, d; exact H.
  - intros s _ _. cbn [i_op i_arg i_push ins]. unfold sbind. destruct (slice_op K bits s) as [[r s1]|]; reflexivity.
  - intros s v s' _ _. unfold sbind. destruct (slice_op K bits s) as [[r s1]|]; [|discriminate].
    intro H. injection H as <- <-. reflexivity.
Qed.

Lemma wait_not_stop v s s' : wait K v s <> Stop s'.
Proof. unfold wait. destruct (lm (push E v) s) as [[? ?]|]; [|discriminate]. destruct (aborted _); discriminate. Qed.

(** one link of a chain *)
Lemma sim_chain code x y cmp t b (g : X poly) :
  hosts code b [io (KChain cmp) true (Z.of_nat t)] ->
  sim code (top y) g false is_a (b + osize) t ->
  sim code (fun s => is_a y s /\ top x s)
    (do (q, r) <- prim (let^ r := lm (binary E T powf x (BCmp cmp) y false) in
                        lm (drop 1) ^;
                        let^ q := lm (truth r) in
                        (if q then sret tt else put_a r) ^; sret (q, r));
     if (q : bool) then wait K y &; g else xret r) false is_a b t.
Proof.
  intros Hh Hg s links G [Ha Ht].
  pose proof (step_at K F code b _ links s Hh ltac:(discriminate) eq_refl) as St.
  rewrite size_io in St.
  match goal with |- match xbind (prim ?y0) _ _ with _ => _ end => assert (Hx : xtame E 1 0 (prim y0)) by (apply x_prim; ts) end.
  specialize (Hx s (proj1 G)). unfold xbind at 1. unfold prim in *.
  cbn [io i_op i_arg i_push ins] in St. unfold sbind in St at 1. rewrite (top_pick _ _ Ht) in St.
  unfold sbind in St at 1. unfold get_a in St at 1. unfold is_a in Ha. rewrite Ha in St.
  unfold sbind in *.
  destruct (lm (binary E T powf x (BCmp cmp) y false) s) as [[r s1]|] eqn:e1; [|exact Logic.I].
  destruct (lm (drop 1) s1) as [[u s2]|] eqn:e2; [|exact Logic.I].
  destruct (lm (truth r) s2) as [[q s3]|] eqn:e3; [|exact Logic.I].
  assert (Ha3 : s_a s3 = y) by (rewrite (lm_a _ _ _ _ e3), (lm_a _ _ _ _ e2), (lm_a _ _ _ _ e1); exact Ha).
  destruct q.
  - unfold sret in *. destruct (aborted s3) eqn:ea.
    + exists (V s code b links). split; [apply reach_refl|]. rewrite St. unfold outcome_of. rewrite ea. reflexivity.
    + destruct Hx as (_ & _ & _ & Hs). assert (G3 : good s3) by (split; [exact ea|apply Hs, G]). unfold outcome_of in St. rewrite ea in St.
      unfold xbind. destruct (wait K y s3) as [[] s4|s4| | |] eqn:ew; auto.
      2: { exfalso. eapply wait_not_stop; eauto. }
      destruct (wait_top K y s3 s4 G3 ew) as (G4 & T4 & _).
      assert (P4 : pushes K true s3 s4) by (cbn; rewrite Ha3; exact ew).
      rewrite (pushes_eq K true s3 s4 P4) in St.
      specialize (Hg s4 links G4 T4). destruct (g s4) as [v s5|s5| | |]; auto.
      * destruct Hg as (G5 & H5 & T5). split; [auto|]. split; [auto|]. intros s'' Hp. eapply reach_step; [exact St|]. apply T5. exact Hp.
      * eapply reach_stops; [|exact Hg]. eapply reach_step; [exact St|apply reach_refl].
  - unfold sret, put_a in *. destruct (aborted (set_a r s3)) eqn:ea.
    + exists (V s code b links). split; [apply reach_refl|]. rewrite St. unfold outcome_of. rewrite ea. reflexivity.
    + destruct Hx as (_ & _ & _ & Hs). cbn [xret]. unfold xret. split; [split; [exact ea|apply Hs, G]|]. split; [reflexivity|].
      intros s'' ->. unfold outcome_of in St. rewrite ea in St. cbn in St. rewrite Nat2Z.id in St. eapply reach_step; [exact St|apply reach_refl].
Qed.

(** a call *)
Lemma call_op_from C E' builtins (FT' : loc -> option (func C)) o s f s' : call_op E' builtins FT' o s = Some (Some f, s') -> exists l, FT' l = Some f.
Proof.
  unfold call_op, sbind. destruct (lm (pick _) s) as [[a s1]|]; [|discriminate]. destruct (put_a a s1) as [[[] s2]|]; [|discriminate].
  assert (Hf : forall s s', match lm (drop (Z.to_nat (o mod 256 + 2 * (o / 256)) + 1)) s with
    | Some (_, s') => sret (@None (func C)) s' | None => None end <> Some (Some f, s')).
  { intros s0 s0'. destruct (lm _ s0) as [[? ?]|]; discriminate. }
  destruct a; try (destruct (lm (error _) s2) as [[? ?]|]; [intro H; exfalso; eapply Hf; eauto|discriminate]).
  - destruct (FT' l) as [g|] eqn:el; [|discriminate].
    destruct (func_push E' g _ _ s2) as [[[] s3]|]; [|intro H; exfalso; eapply Hf; eauto|discriminate].
    destruct (lm pop s3) as [[a s4]|]; [|discriminate]. intro H. injection H as <- _. eauto.
  - destruct (call_builtin E' builtins u _ _ s2) as [[? ?]|]; [intro H; exfalso; eapply Hf; eauto|discriminate].
  - discriminate.
Qed.
Lemma sim_call n a code b p : sim_body n -> hosts code b [io KCall p (nargs a)] -> 256 <=? npos a + nnamed a = false ->
  sim code yes (do r <- prim (call_op E (cf_builtins K) FT (nargs a));
                match r with None => prim get_a | Some f => body n (fn_code f) end) p is_a b (b + osize).
Proof.
  intros IH Hh Hn s links G _.
  pose proof (step_at K F code b _ links s Hh ltac:(discriminate) eq_refl) as St. rewrite size_io in St.
  cbn [io i_op i_arg i_push ins] in St. unfold sbind in St at 1. rewrite call_op_map in St.
  pose proof (x_call K FT Hb 0 a Hn s (proj1 G)) as Hx. unfold xbind. unfold prim in Hx at 1. unfold prim at 1.
  destruct (call_op E (cf_builtins K) FT (nargs a) s) as [[r s1]|] eqn:ec; [|exact Logic.I]. cbn [map_res] in St.
  destruct (aborted s1) eqn:ea.
  { exists (V s code b links). split; [apply reach_refl|]. rewrite St. unfold outcome_of. destruct r; cbn; rewrite ea; reflexivity. }
  destruct Hx as (_ & _ & _ & Hs). assert (G1 : good s1) by (split; [exact ea|apply Hs, G]).
  destruct r as [f|]; cbn [option_map] in St.
  - destruct (call_op_from _ _ _ _ _ _ _ _ ec) as [l Hl]. unfold sret, outcome_of in St. rewrite ea in St. cbn [fn_code map_func] in St.
    specialize (IH (fn_code f) s1 ((code, b) :: links) (HF _ _ Hl) G1). cbv zeta in IH.
    destruct (body n (fn_code f) s1) as [v s2|s2| | |]; auto.
    + destruct IH as (G2 & Hv & s3 & ip & R3 & Hip & Hp). split; [auto|]. split; [exact Hv|]. intros s'' Hps.
      eapply reach_step; [exact St|]. eapply reach_trans; [exact R3|].
      eapply reach_step; [|apply reach_refl]. rewrite <- (size_io w KCall p (nargs a)).
      eapply step_return; [exact Hip|exact Hh|discriminate|discriminate|rewrite size_io; unfold LayoutSpec.osize; lia|exact Hp|exact Hps].
    + eapply reach_stops; [|exact IH]. eapply reach_step; [exact St|apply reach_refl].
  - unfold prim, get_a. rewrite ea. split; [exact G1|]. split; [reflexivity|]. intros s'' Hps.
    unfold sret, outcome_of in St. rewrite ea, (pushes_eq K _ _ _ Hps) in St. eapply reach_step; [exact St|apply reach_refl].
Qed.

(** all of expressions *)
Lemma clinks_size l : forall t t' b, size (clinks (Some t) b l) = size (clinks t' b l).
Proof.
  induction l as [k y|k y l IH]; intros t t' b; autorewrite with lay; cbv zeta; [reflexivity|].
  rewrite !size_app. f_equal. f_equal; [|apply IH]. rewrite !size_one. destruct t'; rewrite !size_io; reflexivity.
Qed.
Lemma links_step n : sim_ev n -> sim_links n -> sim_links (Sn n).
Proof.
  intros I1 I5 l x t code b Hh Ht. autorewrite with eval. destruct l as [k y|k y l].
  - autorewrite with lay in Hh, Ht. cbv zeta in Hh, Ht. apply hosts_app in Hh as [H1 H2].
    eapply sim_bind; [apply sim_ev_top; [exact I1|exact H1]|]. intro v. eapply sim_pos; [apply sim_bin; exact H2|reflexivity|].
    rewrite <- Ht. rewrite size_app, size_one, size_i0. lia.
  - autorewrite with lay in Hh, Ht. cbv zeta in Hh, Ht. apply hosts_app in Hh as [H1 H2]. apply hosts_app in H2 as [H2 H3].
    eapply sim_bind; [apply sim_ev_top; [exact I1|exact H1]|]. intro v.
    destruct k as [c| | | | | | ]; try (intros s links G HP; exact Logic.I).
    eapply sim_bind with (R1 := fun _ s => is_a v s /\ top x s); [apply sim_ret; intros s H; exact H|]. intros [].
    apply sim_chain; [exact H2|]. rewrite size_one, size_io in H3. apply I5; [exact H3|].
    rewrite !size_app, size_one, size_io in Ht. lia.
Qed.

Lemma args_step n : sim_ev n -> sim_args n -> sim_args (Sn n).
Proof.
  intros I1 I2 a code b Hh. autorewrite with eval. destruct a as [|e r|id e r]; autorewrite with lay in *; cbv zeta in *.
  - rewrite size_nil, Nat.add_0_r. apply sim_ret. intros. exact Logic.I.
  - apply hosts_app in Hh as [H1 H2]. eapply sim_wait; [apply I1; exact H1|]. intro v.
    eapply sim_pre; [apply yes_any|]. eapply sim_pos; [apply I2; exact H2|reflexivity|]. rewrite size_app. lia.
  - apply hosts_app in Hh as [H1 H2]. apply hosts_app in H2 as [H2 H3]. rewrite size_one in *.
    eapply sim_wait; [apply sim_num; [exact H1|apply of_Z_not_neg_zero]|]. intro v.
    eapply sim_wait; [eapply sim_pre; [apply yes_any|]; apply I1; exact H2|]. intro v2.
    eapply sim_pre; [apply yes_any|]. eapply sim_pos; [apply I2; exact H3|reflexivity|]. rewrite !size_app, size_one. lia.
Qed.
Lemma dents_step n : sim_ev n -> sim_dents n -> sim_dents (Sn n).
Proof.
  intros I1 I2 a code b Hh. autorewrite with eval. destruct a as [|e1 e2 r]; autorewrite with lay in *; cbv zeta in *.
  - rewrite size_nil, Nat.add_0_r. apply sim_ret. intros. exact Logic.I.
  - apply hosts_app in Hh as [H1 H2]. apply hosts_app in H2 as [H2 H3].
    eapply sim_wait; [apply I1; exact H1|]. intro v.
    eapply sim_wait; [eapply sim_pre; [apply yes_any|]; apply I1; exact H2|]. intro v2.
    eapply sim_pre; [apply yes_any|]. eapply sim_pos; [apply I2; exact H3|reflexivity|]. rewrite !size_app. lia.
Qed.
Lemma opt_step n : sim_ev n -> sim_opt (Sn n).
Proof.
  intros I1 o code b Hh. autorewrite with eval. destruct o as [|e]; autorewrite with lay in *; cbv zeta in *.
  - rewrite size_nil, Nat.add_0_r. apply sim_ret. intros. exact Logic.I.
  - apply sim_wait_last. apply I1. exact Hh.
Qed.

Lemma ev_step n : sim_ev n -> sim_args n -> sim_dents n -> sim_opt n -> sim_links n -> sim_body n -> sim_ev (Sn n).
Proof.
  intros I1 I2 I3 I4 I5 I6 e p code b Hh. autorewrite with eval. destruct e as [f|l ls|id|a|a|d|o x y|u x|x i|x a0 b0 c0|f a|x y|x y|x l].
  - autorewrite with lay in *. rewrite size_one. destruct (neg_zero f) eqn:ez; [apply sim_undef|]. apply sim_num; auto.
  - autorewrite with lay in *. apply hosts_cons in Hh as [H1 H2]. eapply sim_pos; [eapply sim_strings; [|exact H2]|reflexivity|].
    + match type of H1 with StepProofs.hosts _ _ _ [?i] => match goal with |- StepProofs.sim _ _ _ _ _ ?q _ _ _ => change q with (i_push i) end end.
      apply sim_give; [exact H1|discriminate|reflexivity|]. intros. cbn. unfold sbind, put_a, sret. rewrite Nat2Z.id. reflexivity.
    + rewrite size_cons. lia.
  - autorewrite with lay in *. rewrite size_one, size_io. apply sim_name. exact Hh.
  - autorewrite with lay in *. destruct (positional a); [|apply sim_undef]. apply hosts_app in Hh as [H1 H2].
    eapply sim_bind; [apply I2; exact H1|]. intros []. cbv beta. eapply sim_pos; [eapply sim_make; [exact H2|reflexivity]|reflexivity|].
    rewrite size_app, size_one, size_io. lia.
  - autorewrite with lay in *. destruct (positional a); [|apply sim_undef]. apply hosts_app in Hh as [H1 H2].
    eapply sim_bind; [apply I2; exact H1|]. intros []. cbv beta. eapply sim_pos; [eapply sim_make; [exact H2|reflexivity]|reflexivity|].
    rewrite size_app, size_one, size_io. lia.
  - autorewrite with lay in *. apply hosts_app in Hh as [H1 H2].
    eapply sim_bind; [apply I3; exact H1|]. intros []. cbv beta. eapply sim_pos; [eapply sim_make; [exact H2|reflexivity]|reflexivity|].
    rewrite size_app, size_one, size_io. lia.
  - autorewrite with lay in *. cbv zeta in *. apply hosts_app in Hh as [H1 H2]. apply hosts_app in H2 as [H2 H3].
    eapply sim_wait; [apply I1; exact H1|]. intro v.
    eapply sim_bind; [apply sim_ev_top; [exact I1|exact H2]|]. intro v2.
    eapply sim_pos; [apply sim_bin; exact H3|reflexivity|]. rewrite !size_app, size_one, size_i0. lia.
  - assert (Hu : u = UPlus \/ u <> UPlus) by (destruct u; auto; right; discriminate). destruct Hu as [->|Hu].
    + autorewrite with lay in *. apply I1. exact Hh.
    + assert (Hc : comp p b (EUn u x) = comp false b x ++ [i0 (unop_code u) p]) by (destruct u; try congruence; reflexivity).
      rewrite Hc in *. apply hosts_app in Hh as [H1 H2].
      assert (Hx : sim code yes (do x <- ev n x; unary u x) p is_a b (b + size (comp false b x ++ [i0 (unop_code u) p]))).
      { eapply sim_bind; [apply I1; exact H1|]. intro v. eapply sim_pos; [apply sim_unary; [exact Hu|exact H2]|reflexivity|].
        rewrite size_app, size_one, size_i0. lia. }
      destruct u; try exact Hx. congruence.
  - autorewrite with lay in *. cbv zeta in *. apply hosts_app in Hh as [H1 H2]. apply hosts_app in H2 as [H2 H3].
    eapply sim_wait; [apply I1; exact H1|]. intro v.
    eapply sim_bind; [apply sim_ev_top; [exact I1|exact H2]|]. intro v2.
    eapply sim_pos; [apply sim_bin; exact H3|reflexivity|]. rewrite !size_app, size_one, size_i0. lia.
  - autorewrite with lay in *. cbv zeta in *. apply hosts_app in Hh as [H1 H2]. apply hosts_app in H2 as [H2 H3].
    apply hosts_app in H3 as [H3 H4]. apply hosts_app in H4 as [H4 H5].
    eapply sim_wait; [apply I1; exact H1|]. intro v. eapply sim_pre; [apply yes_any|].
    eapply sim_bind; [apply I4; exact H2|]. intros []. cbv beta.
    eapply sim_bind; [apply I4; exact H3|]. intros []. cbv beta.
    eapply sim_bind; [apply I4; exact H4|]. intros []. cbv beta.
    eapply sim_pos; [apply sim_slice; exact H5|reflexivity|]. rewrite !size_app, size_one. cbn [LayoutSpec.enc arg_bytes i_arg length]. lia.
  - autorewrite with lay in *. cbv zeta in *. destruct (256 <=? npos a + nnamed a) eqn:en; [apply sim_undef|].
    apply hosts_app in Hh as [H1 H2]. apply hosts_app in H2 as [H2 H3].
    eapply sim_wait; [apply I1; exact H1|]. intro v. eapply sim_pre; [apply yes_any|].
    eapply sim_bind; [apply I2; exact H2|]. intros []. cbv beta.
    eapply sim_pos; [apply sim_call; [exact I6|exact H3|exact en]|reflexivity|]. rewrite !size_app, size_one, size_io. lia.
  - autorewrite with lay in *. cbv zeta in *. apply hosts_app in Hh as [H1 H2]. apply hosts_app in H2 as [H2 H3]. apply hosts_app in H3 as [H3 H4].
    rewrite size_one, size_io in *. eapply sim_bind; [apply I1; exact H1|]. intro v.
    apply sim_pre with (P := fun s => s_a s = v /\ yes s); [intros s H; split; [exact H|exact Logic.I]|].
    eapply sim_branch with (when := false); [exact H2| |].
    + eapply sim_pos; [eapply sim_nop; [exact H4|apply sim_ret; intros s [H _]; exact H]|reflexivity|].
      rewrite !size_app, !size_one, size_io, size_i0. lia.
    + cbn [negb]. eapply sim_pos; [eapply sim_nop; [exact H4|eapply sim_pre; [apply yes_any|]; apply I1; exact H3]|reflexivity|].
      rewrite !size_app, !size_one, size_io, size_i0. lia.
  - autorewrite with lay in *. cbv zeta in *. apply hosts_app in Hh as [H1 H2]. apply hosts_app in H2 as [H2 H3]. apply hosts_app in H3 as [H3 H4].
    rewrite size_one, size_io in *. eapply sim_bind; [apply I1; exact H1|]. intro v.
    apply sim_pre with (P := fun s => s_a s = v /\ yes s); [intros s H; split; [exact H|exact Logic.I]|].
    eapply sim_branch with (when := true); [exact H2| |].
    + eapply sim_pos; [eapply sim_nop; [exact H4|apply sim_ret; intros s [H _]; exact H]|reflexivity|].
      rewrite !size_app, !size_one, size_io, size_i0. lia.
    + cbn [negb]. eapply sim_pos; [eapply sim_nop; [exact H4|eapply sim_pre; [apply yes_any|]; apply I1; exact H3]|reflexivity|].
      rewrite !size_app, !size_one, size_io, size_i0. lia.
  - autorewrite with lay in *. cbv zeta in *. apply hosts_app in Hh as [H1 H2]. apply hosts_app in H2 as [H2 H3].
    rewrite (clinks_size l _ None) in H3.
    eapply sim_wait; [apply I1; exact H1|]. intro v.
    eapply sim_pos; [eapply sim_nop; [exact H3|apply I5; [exact H2|rewrite (clinks_size l _ None); reflexivity]]|reflexivity|].
    rewrite !size_app, !size_one, size_i0. rewrite (clinks_size l _ None). lia.
Qed.

(** ** Statements *)
Definition sim_stmt (code : list Z) (P : st -> Prop) (x : X ending) (b b' : nat) (k c : option nat) : Prop :=
  forall s links, good s -> P s ->
    match x s with
    | Val Normal s' => good s' /\ reach (V s code b links) (V s' code b' links)
    | Val Break s' => good s' /\ exists t, k = Some t /\ reach (V s code b links) (V s' code t links)
    | Val Continue s' => good s' /\ exists t, c = Some t /\ reach (V s code b links) (V s' code t links)
    | Val (Return v) s' => good s' /\ s_a s' = v /\
        exists ip, (length code <= ip)%nat /\ reach (V s code b links) (V s' code ip links)
    | Stop s' => stops (V s code b links) s'
    | _ => True
    end.

Lemma ss_undef code P b b' k c : sim_stmt code P xundef b b' k c.
Proof. intros s links _ _. exact Logic.I. Qed.
Lemma ss_fuel code P b b' k c : sim_stmt code P xfuel b b' k c.
Proof. intros s links _ _. exact Logic.I. Qed.
Lemma ss_pre code (P P' : st -> Prop) x b b' k c : (forall s, P' s -> P s) -> sim_stmt code P x b b' k c -> sim_stmt code P' x b b' k c.
Proof. intros H Hx s links G HP. apply Hx; auto. Qed.
Lemma ss_pos code P x b1 b1' b2 b2' k c : sim_stmt code P x b1 b2 k c -> b1 = b1' -> b2 = b2' -> sim_stmt code P x b1' b2' k c.
Proof. intros H -> ->. exact H. Qed.
(** having come from [b0] to [b] *)
Lemma ss_from code (P P0 : st -> Prop) (x : X ending) b b' k c s0 s links b0 :
  sim_stmt code P x b b' k c -> good s -> P s -> reach (V s0 code b0 links) (V s code b links) ->
    match x s with
    | Val Normal s' => good s' /\ reach (V s0 code b0 links) (V s' code b' links)
    | Val Break s' => good s' /\ exists t, k = Some t /\ reach (V s0 code b0 links) (V s' code t links)
    | Val Continue s' => good s' /\ exists t, c = Some t /\ reach (V s0 code b0 links) (V s' code t links)
    | Val (Return v) s' => good s' /\ s_a s' = v /\
        exists ip, (length code <= ip)%nat /\ reach (V s0 code b0 links) (V s' code ip links)
    | Stop s' => stops (V s0 code b0 links) s'
    | _ => True
    end.
Proof.
  intros Hx G HP R. specialize (Hx s links G HP). destruct (x s) as [[| | |v] s'|s'| | |]; auto.
  - destruct Hx as (G' & R'). split; [auto|]. eapply reach_trans; eauto.
  - destruct Hx as (G' & t & Ht & R'). split; [auto|]. exists t. split; [auto|]. eapply reach_trans; eauto.
  - destruct Hx as (G' & t & Ht & R'). split; [auto|]. exists t. split; [auto|]. eapply reach_trans; eauto.
  - destruct Hx as (G' & Hv & t & Ht & R'). split; [auto|]. split; [auto|]. exists t. split; [auto|]. eapply reach_trans; eauto.
  - eapply reach_stops; eauto.
Qed.
Lemma ss_bind {A} code P (x : X A) R1 (f : A -> X ending) b b1 b' k c :
  sim code P x false R1 b b1 -> (forall a, sim_stmt code (R1 a) (f a) b1 b' k c) -> sim_stmt code P (xbind x f) b b' k c.
Proof.
  intros Hx Hf s links G HP. specialize (Hx s links G HP). unfold xbind. destruct (x s) as [a s1|s1| | |]; auto.
  destruct Hx as (G1 & H1 & T1). eapply ss_from; [exact yes|apply Hf|exact G1|exact H1|]. apply T1. reflexivity.
Qed.
Lemma ss_wait code P (x : X poly) (f : poly -> X ending) b b1 b' k c :
  sim code P x true is_a b b1 -> (forall v, sim_stmt code (top v) (f v) b1 b' k c) ->
  sim_stmt code P (do v <- x; wait K v &; f v) b b' k c.
Proof.
  intros Hx Hf s links G HP. specialize (Hx s links G HP). unfold xbind at 1.
  destruct (x s) as [v s1|s1| | |]; auto. destruct Hx as (G1 & H1 & T1). unfold is_a in H1. subst v.
  unfold xbind. destruct (wait K (s_a s1) s1) as [[] s2|s2| | |] eqn:ew; auto.
  2: { exfalso. eapply wait_not_stop; eauto. }
  destruct (wait_top _ _ _ _ G1 ew) as (G2 & Tp & _).
  eapply ss_from; [exact yes|apply Hf|exact G2|exact Tp|]. apply T1. exact ew.
Qed.
Lemma ss_normal code P b k c : sim_stmt code P (xret Normal) b b k c.
Proof. intros s links G HP. split; [auto|apply reach_refl]. Qed.
Lemma ss_done {A} code P (x : X A) R b b' k c : sim code P x false R b b' -> sim_stmt code P (x &; xret Normal) b b' k c.
Proof. intro Hx. eapply ss_bind; [exact Hx|]. intro a. apply ss_normal. Qed.
Lemma ss_then code P x b b1 b' k c : sim_stmt code P x b b1 k c ->
  (forall s links, good s -> reach (V s code b1 links) (V s code b' links)) -> sim_stmt code P x b b' k c.
Proof.
  intros Hx Hr s links G HP. specialize (Hx s links G HP). destruct (x s) as [[| | |v] s'|s'| | |]; auto.
  destruct Hx as (G' & R'). split; [auto|]. eapply reach_trans; eauto.
Qed.
Lemma ss_seq code P x y b b1 b' k c : sim_stmt code P x b b1 k c -> sim_stmt code yes y b1 b' k c ->
  sim_stmt code P (do r <- x; match r with Normal => y | _ => xret r end) b b' k c.
Proof.
  intros Hx Hy s links G HP. specialize (Hx s links G HP). unfold xbind. destruct (x s) as [[| | |v] s1|s1| | |]; auto.
  destruct Hx as (G1 & R1). eapply ss_from; [exact yes|exact Hy|exact G1|exact Logic.I|exact R1].
Qed.
Lemma ss_branch code (P : st -> Prop) v t (f : bool -> X ending) b b' k c :
  hosts code b [io KBranchFalse false (Z.of_nat t)] ->
  sim_stmt code P (f false) t b' k c ->
  sim_stmt code P (f true) (b + osize) b' k c ->
  sim_stmt code (fun s => s_a s = v /\ P s) (do q <- prim (lm (truth v)); f q) b b' k c.
Proof.
  intros Hh Ht Hf s links G [Ha HP]. unfold xbind. rewrite (prim_truth K) by auto.
  pose proof (branch_step K F code b links s v false t G Ha Hh) as St.
  destruct (truth v (s_m s)) as [[q m]|]; [|exact Logic.I]. destruct q.
  - eapply ss_from; [exact yes|exact Hf|exact G|exact HP|]. eapply reach_step; [exact St|apply reach_refl].
  - eapply ss_from; [exact yes|exact Ht|exact G|exact HP|]. eapply reach_step; [exact St|apply reach_refl].
Qed.
Lemma jump_reach code b t : hosts code b [io KBranch false (Z.of_nat t)] ->
  forall s links, good s -> reach (V s code b links) (V s code t links).
Proof.
  intros Hh s links G. pose proof (step_at K F code b _ links s Hh ltac:(discriminate) eq_refl) as St.
  cbn [io i_op i_arg i_push ins] in St. unfold sret, outcome_of in St. rewrite (proj1 G), Nat2Z.id in St. cbn in St.
  eapply reach_step; [exact St|apply reach_refl].
Qed.
Lemma line_reach code b n : hosts code b [io KLine false n] ->
  forall s links, good s -> reach (V s code b links) (V s code (b + osize) links).
Proof.
  intros Hh s links G. pose proof (step_at K F code b _ links s Hh ltac:(discriminate) eq_refl) as St.
  rewrite size_io in St. cbn [io i_op i_arg i_push ins] in St. unfold sret, outcome_of in St. rewrite (proj1 G) in St. cbn in St.
  eapply reach_step; [exact St|apply reach_refl].
Qed.
(** a round of a loop: [again] starts at [b0], the end of the loop is [b'] *)
Lemma ss_round code (P : st -> Prop) (x again : X ending) b1 e1 b0 b' k c :
  sim_stmt code P x b1 e1 (Some b') (Some b0) -> hosts code e1 [io KBranch false (Z.of_nat b0)] ->
  sim_stmt code yes again b0 b' k c ->
  sim_stmt code P (do r <- x; match r with Normal | Continue => again | Break => xret Normal | Return v => xret (Return v) end) b1 b' k c.
Proof.
  intros Hx Hh Hy s links G HP. specialize (Hx s links G HP). unfold xbind. destruct (x s) as [[| | |v] s1|s1| | |]; auto.
  - destruct Hx as (G1 & R1). eapply ss_from; [exact yes|exact Hy|exact G1|exact Logic.I|].
    eapply reach_trans; [exact R1|]. apply (jump_reach _ _ _ Hh); auto.
  - destruct Hx as (G1 & t & Ht & R1). injection Ht as <-. split; auto.
  - destruct Hx as (G1 & t & Ht & R1). injection Ht as <-. eapply ss_from; [exact yes|exact Hy|exact G1|exact Logic.I|exact R1].
Qed.
(** the operation of a loop *)
Lemma ss_next code (next : S bool) i t b b' (f : bool -> X ending) k c :
  hosts code b [i] -> i <> i0 KReturn false -> arg_kind (i_op i) = kind_of (i_arg i) -> stame E 0 0 next ->
  (forall nx len s, ins K F (i_op i) (i_arg i) (i_push i) nx len s =
     match next s with Some (q, s') => Some (Go (if q then nx else t) false, s') | None => None end) ->
  sim_stmt code yes (f true) (b + length (enc i)) b' k c -> sim_stmt code yes (f false) t b' k c ->
  sim_stmt code yes (do q <- prim next; f q) b b' k c.
Proof.
  intros Hh Hn Hk Hs Hi Ht Hf s links G _. pose proof (step_at K F code b i links s Hh Hn Hk) as St. rewrite Hi in St.
  pose proof (x_prim E 0 0 next Hs s (proj1 G)) as Hx. unfold xbind. unfold prim in *.
  destruct (next s) as [[q s1]|]; [|exact Logic.I]. unfold outcome_of in St. destruct (aborted s1) eqn:ea.
  - exists (V s code b links). split; [apply reach_refl|exact St].
  - destruct Hx as (_ & _ & _ & Hsn). assert (G1 : good s1) by (split; [exact ea|apply Hsn, G]). cbn in St.
    destruct q; (eapply ss_from; [exact yes|first [exact Ht|exact Hf]|exact G1|exact Logic.I|eapply reach_step; [exact St|apply reach_refl]]).
Qed.
(** a return *)
Lemma return_reach code b s links : hosts code b [i0 KReturn false] -> good s ->
  exists ip, (length code <= ip)%nat /\ reach (V s code b links) (V s code ip links).
Proof.
  intros Hh G. destruct (Nat.ltb_spec b (length code)) as [Hlt|Hge]; [|exists b; split; [auto|apply reach_refl]].
  exists (length code). split; [auto|].
  destruct Hh as (pre & post & <- & Hr & Hc).
  assert (Hc2 : exists post', code = encs w pre ++ enc (i0 KReturn false) ++ post').
  { destruct Hc as [->|(L & HL & ->)].
    - exists (encs w post). rewrite !encs_app, encs_one. reflexivity.
    - destruct (app_last_inv _ _ _ _ _ HL) as [(_ & _ & ->)|(post' & -> & ->)].
      + unfold LayoutSpec.size in Hlt. lia.
      + exists (encs w post'). rewrite !encs_app, encs_one. reflexivity. }
  destruct Hc2 as (post' & ->). eapply reach_step; [|apply reach_refl].
  unfold step, V. cbn [v_s v_code v_ip v_links]. apply Nat.ltb_lt in Hlt. rewrite Hlt.
  unfold LayoutSpec.enc. cbn [i0 i_op i_push i_arg arg_bytes]. rewrite <- app_comm_cons. unfold LayoutSpec.size. rewrite nth_mid, byte_op_byte, op_of_code, byte_push_byte.
  cbn. unfold sret. rewrite (proj1 G). reflexivity.
Qed.
(** break and continue outside of a loop *)
Lemma forward_stops code b v s links : hosts code b [io KForward false v] -> good s ->
  match lm (error ENotInLoop) s with
  | Some (_, s') => aborted s' = true /\ step K F (V s code b links) = Some (Aborted s')
  | None => True
  end.
Proof.
  intros Hh G. destruct (hosts_one _ _ _ _ Hh ltac:(discriminate)) as (_ & pre & post & <- & ->).
  destruct (lm (error ENotInLoop) s) as [[u s']|] eqn:e; [|exact Logic.I].
  pose proof (error_aborts _ _ _ _ e) as Ha. split; [exact Ha|].
  unfold step, V. cbn [v_s v_code v_ip v_links].
  replace (Nat.ltb (length pre) _) with true by (symmetry; apply Nat.ltb_lt; rewrite !app_length, size_io; unfold LayoutSpec.osize; lia).
  unfold LayoutSpec.enc. cbn [io i_op i_push i_arg]. rewrite <- app_comm_cons, nth_mid, byte_op_byte, op_of_code, byte_push_byte.
  cbn [arg_kind read_arg ins]. unfold sbind. rewrite e. unfold sret. rewrite Ha. reflexivity.
Qed.
Lemma ss_forward code b b' v k c : hosts code b [io KForward false v] ->
  sim_stmt code yes (prim (lm (error ENotInLoop)) &; xret Normal) b b' k c.
Proof.
  intros Hh s links G _. pose proof (forward_stops code b v s links Hh G) as H. unfold xbind, prim.
  destruct (lm (error ENotInLoop) s) as [[u s']|]; [|exact Logic.I]. destruct H as [Ha St]. rewrite Ha.
  exists (V s code b links). split; [apply reach_refl|exact St].
Qed.

Definition around (inl : bool) (k c : option nat) : Prop :=
  if inl then exists t u, k = Some t /\ c = Some u else k = None /\ c = None.
Definition sim_exs n := forall s d inl k c code b, around inl k c -> hosts code b (cstmt d b k c s) ->
  sim_stmt code yes (exs n d inl s) b (b + size (cstmt d b k c s)) k c.
Definition sim_rest n := forall r d inl k c fin code b, around inl k c -> hosts code b (crest d b k c (Some fin) r) ->
  (b + size (crest d b k c (Some fin) r))%nat = fin ->
  sim_stmt code yes (ex_rest n d inl r) (b + relse w r) fin k c.
Definition sim_while n := forall e s els d inl k c code b, around inl k c -> hosts code b (cstmt d b k c (SWhile e s els)) ->
  sim_stmt code yes (while n d inl e s els) b (b + size (cstmt d b k c (SWhile e s els))) k c.
Definition loop_op o next d id : Prop :=
  (o = KRangeStep /\ next = range_step K d id) \/ (o = KInStep /\ next = in_step K d id).
Definition sim_loop n := forall o next d id inl s els k c code b0 b1 b2 b',
  loop_op o next d id -> around inl k c ->
  b1 = (b0 + length (enc (I o false (AStep (Z.of_nat b2) d id))))%nat ->
  b2 = (b1 + size (cstmt (d + 1) b1 None None s) + osize)%nat ->
  b' = (b2 + size (cstmt d b2 k c els))%nat ->
  hosts code b0 ([I o false (AStep (Z.of_nat b2) d id)] ++ cstmt (d + 1) b1 (Some b') (Some b0) s ++
                 [io KBranch false (Z.of_nat b0)] ++ cstmt d b2 k c els) ->
  sim_stmt code yes (loop n d inl next s els) b0 b' k c.
Definition sim_defaults n := forall fs code b, hosts code b (cformals b fs) ->
  sim code yes (defaults n fs) false (fun _ => yes) b (b + size (cformals b fs)).

Lemma ss_if n e (s : X ending) (r : X ending) code b t b' k c : sim_ev n ->
  hosts code b (comp false b e) -> hosts code (b + size (comp false b e)) [io KBranchFalse false (Z.of_nat t)] ->
  sim_stmt code yes s (b + size (comp false b e) + osize) b' k c -> sim_stmt code yes r t b' k c ->
  sim_stmt code yes (do v <- ev n e; do q <- prim (lm (truth v)); if (q : bool) then s else r) b b' k c.
Proof.
  intros I1 H1 H2 Hs Hr. eapply ss_bind; [apply I1; exact H1|]. intro v.
  apply ss_pre with (P := fun s => s_a s = v /\ yes s); [intros s0 H; split; [exact H|exact Logic.I]|].
  eapply ss_branch; [exact H2|exact Hr|exact Hs].
Qed.
Lemma rest_reach r d k c fin code b : hosts code b (crest d b k c (Some fin) r) ->
  (b + size (crest d b k c (Some fin) r))%nat = fin ->
  forall s links, good s -> reach (V s code b links) (V s code fin links).
Proof.
  intros Hh Hf s links G. destruct r as [|s0|line e s0 r]; autorewrite with lay in *; cbv zeta in *.
  - rewrite size_nil in Hf. replace fin with b by lia. apply reach_refl.
  - apply hosts_app in Hh as [H1 _]. apply (jump_reach _ _ _ H1). exact G.
  - apply hosts_app in Hh as [H1 _]. apply hosts_cons in H1 as [H1 H2]. rewrite size_io in H2.
    eapply reach_trans; [apply (line_reach _ _ _ H1); exact G|apply (jump_reach _ _ _ H2); exact G].
Qed.
Lemma rest_step n : sim_ev n -> sim_exs n -> sim_rest n -> sim_rest (Sn n).
Proof.
  intros I1 I8 I9 r d inl k c fin code b Hk Hh Hf. autorewrite with eval. destruct r as [|s0|line e s0 r]; autorewrite with lay in *; cbv zeta in *; cbn [relse] in *.
  - rewrite size_nil in Hf. replace fin with b by lia. rewrite Nat.add_0_r. apply ss_normal.
  - apply hosts_app in Hh as [H1 H2]. rewrite size_app, size_one, size_jump in *.
    eapply ss_pos; [apply I8; [exact Hk|exact H2]|reflexivity|lia].
  - apply hosts_app in Hh as [H1 H2]. rewrite !size_app, size_cons, !size_one, !size_io, size_jump in *.
    apply hosts_app in H2 as [H2 H3]. apply hosts_app in H3 as [H3 H4]. apply hosts_app in H4 as [H4 H5]. rewrite size_one, size_io in *.
    rewrite (Nat.add_assoc b osize osize) in *.
    eapply ss_if; [exact I1|exact H2|exact H3| |].
    + eapply ss_then; [apply I8; [exact Hk|exact H4]|]. apply (rest_reach _ _ _ _ _ _ _ H5). lia.
    + eapply I9; [exact Hk|exact H5|lia].
Qed.
Lemma while_step n : sim_ev n -> sim_exs n -> sim_while n -> sim_while (Sn n).
Proof.
  intros I1 I8 I10 e s els d inl k c code b Hk Hh. autorewrite with eval. pose proof Hh as Hh0.
  autorewrite with lay in Hh. cbv zeta in Hh. 
  apply hosts_app in Hh as [H1 H2]. apply hosts_app in H2 as [H2 H3]. apply hosts_app in H3 as [H3 H4]. apply hosts_app in H4 as [H4 H5].
  rewrite !size_one, !size_io in *.
  set (b1 := (b + size (comp false b e) + osize)%nat) in *.
  set (b2 := (b1 + size (cstmt d b1 None None s) + osize)%nat) in *.
  set (b' := (b2 + size (cstmt d b2 k c els))%nat) in *.
  assert (Hb' : (b + size (cstmt d b k c (SWhile e s els)))%nat = b').
  { autorewrite with lay. cbv zeta. fold b1 b2 b'. rewrite !size_app, !size_one, !size_io, (size_stmt _ _ s). lia. }
  rewrite Hb'. rewrite (size_stmt w i8 s d b1 (Some b')) in H4, H5.
  eapply ss_if; [exact I1|exact H1|exact H2| |].
  - fold b1. eapply ss_round; [apply I8; [|exact H3]| |].
    + exists b', b. auto.
    + rewrite size_stmt. exact H4.
    + rewrite <- Hb'. apply I10; auto.
  - apply I8; [exact Hk|exact H5].
Qed.
Lemma loop_step n : sim_exs n -> sim_loop n -> sim_loop (Sn n).
Proof.
  intros I8 I11 o next d id inl s els k c code b0 b1 b2 b' Ho Hk E1 E2 E3 Hh. autorewrite with eval. pose proof Hh as Hh0.
  apply hosts_app in Hh as [H1 H2]. apply hosts_app in H2 as [H2 H3]. apply hosts_app in H3 as [H3 H4].
  rewrite !size_one, !size_io in *. rewrite <- E1 in *. rewrite (size_stmt w i8 s (d + 1) b1 (Some b')), <- E2 in H4.
  eapply ss_next with (t := b2); [exact H1|discriminate| | | |rewrite <- E1|].
  - destruct Ho as [[-> _]|[-> _]]; reflexivity.
  - destruct Ho as [[_ ->]|[_ ->]]; ts.
  - intros nx len s0. destruct Ho as [[-> ->]|[-> ->]]; cbn [i_op i_arg i_push ins]; unfold sbind; rewrite Nat2Z.id;
      match goal with |- match ?x with _ => _ end = _ => destruct x as [[[] ?]|] end; reflexivity.
  - eapply ss_round; [apply I8; [|exact H2]|exact H3|].
    + exists b', b0. auto.
    + eapply I11; eauto.
  - rewrite E3. apply I8; [exact Hk|exact H4].
Qed.

Lemma for_tmp_pos d i : 0 <= d < 256 -> 0 <= i < 2 -> for_tmp w d i =? 0 = false.
Proof.
  intros Hd Hi. unfold for_tmp. rewrite (Z.mod_small d) by lia. apply Z.eqb_neq. unfold u_of, wrapu.
  assert (H : 65536 <= 2 ^ wbits w) by (destruct w; cbv; discriminate). revert H. generalize (2 ^ wbits w). intros z H.
  rewrite Z.mod_small; lia.
Qed.
Lemma hosts_in code b i : hosts code b [i] -> in_range w i.
Proof. intros (pre & post & _ & Hr & _). apply Forall_app in Hr as [_ Hr]. apply Forall_app in Hr as [Hr _]. inversion Hr; auto. Qed.

(** an instruction that ends a statement *)
Lemma sim_last {A} code (P : st -> Prop) (y : S A) b o a n n' len :
  hosts code b [I o false a] -> arg_kind o = kind_of a -> length (enc (I o false a)) = len -> I o false a <> i0 KReturn false ->
  stame E n n' y ->
  (forall s next len, P s -> ins K F o a false next len s = match y s with Some (_, s') => Some (Go next false, s') | None => None end) ->
  sim code P (prim y) false (fun _ => yes) b (b + len).
Proof.
  intros Hh Hk <- Hn Hs Hi. change false with (i_push (I o false a)). eapply sim_ins with (n := n) (n' := n'); [exact Hh|exact Hn|exact Hk|exact Hs| |].
  - intros s _ HP. apply Hi. exact HP.
  - intros. exact Logic.I.
Qed.
Lemma sim_assign code a id b : hosts code b [io (assign_op a) false id] -> id =? 0 = false ->
  sim code yes (prim (match a with None => assign_id E id | Some o => augment_id E T powf o id end)) false (fun _ => yes) b (b + osize).
Proof.
  intros Hh Hid. eapply sim_last with (n := 0%nat) (n' := 0%nat);
    [exact Hh|destruct a; reflexivity|apply size_io|destruct a; discriminate|destruct a; ts|].
  intros s next len _. destruct a as [o|]; cbn [assign_op ins]; unfold assign, sbind; rewrite Hid.
  - destruct (augment_id E T powf o id s) as [[? ?]|]; reflexivity.
  - destruct (assign_id E id s) as [[? ?]|]; reflexivity.
Qed.

Lemma exs_step n : sim_ev n -> sim_args n -> sim_exs n -> sim_rest n -> sim_while n -> sim_loop n -> sim_exs (Sn n).
Proof.
  intros I1 I2 I8 I9 I10 I11 s d inl k c code b Hk Hh. autorewrite with eval.
  destruct s as [|s t|m|e|a t e|t|o| | |id|e|e s r|e s els|id a s els|id e s els].
  - autorewrite with lay. rewrite size_nil, Nat.add_0_r. apply ss_normal.
  - autorewrite with lay in *. cbv zeta in *. apply hosts_app in Hh as [H1 H2].
    eapply ss_pos; [eapply ss_seq; [apply I8; [exact Hk|exact H1]|apply I8; [exact Hk|exact H2]]|reflexivity|].
    rewrite size_app. lia.
  - autorewrite with lay in *. rewrite size_one, size_io. eapply ss_then; [apply ss_normal|]. apply (line_reach _ _ _ Hh).
  - autorewrite with lay in *. eapply ss_done. apply I1. exact Hh.
  - destruct t as [id|l i]; autorewrite with lay in *; cbv zeta in *.
    + destruct (id =? 0) eqn:eid; [apply ss_undef|]. apply hosts_app in Hh as [H1 H2]. rewrite size_app, size_one, size_io.
      eapply ss_bind; [apply I1; exact H1|]. intro v. eapply ss_pos; [eapply ss_done; eapply sim_pre; [apply yes_any|apply sim_assign; [exact H2|exact eid]]|reflexivity|lia].
    + apply hosts_app in Hh as [H1 H2]. apply hosts_app in H2 as [H2 H3]. apply hosts_app in H3 as [H3 H4].
      rewrite !size_app, size_one, size_io.
      eapply ss_wait; [apply I1; exact H1|]. intro v1. eapply ss_pre; [apply yes_any|].
      eapply ss_wait; [apply I1; exact H2|]. intro v2. eapply ss_pre; [apply yes_any|].
      eapply ss_bind; [apply I1; exact H3|]. intro v.
      eapply ss_pos; [eapply ss_done; eapply sim_last with (n := 2%nat) (n' := 0%nat);
        [exact H4|destruct a; reflexivity|apply size_io|destruct a; discriminate|destruct a; ts|]|reflexivity|lia].
      intros s next len Ha. unfold is_a in Ha. destruct a as [o|]; cbn [assign_op ins]; unfold assign, sbind, get_a; cbn [Z.eqb]; rewrite Ha;
        match goal with |- match match ?x with _ => _ end with _ => _ end = _ => destruct x as [[? ?]|]; reflexivity end.
  - destruct t as [id|l i]; autorewrite with lay in *; cbv zeta in *.
    + destruct (id =? 0) eqn:eid; [apply ss_undef|]. rewrite size_one, size_io.
      eapply ss_done; eapply sim_last with (n := 0%nat) (n' := 0%nat); [exact Hh|reflexivity|apply size_io|discriminate|ts|].
      intros s next len _. cbn [ins]. unfold sbind. rewrite eid. destruct (id_del E id s) as [[? ?]|]; reflexivity.
    + apply hosts_app in Hh as [H1 H2]. apply hosts_app in H2 as [H2 H3]. rewrite !size_app, size_one, size_io.
      eapply ss_wait; [apply I1; exact H1|]. intro v1.
      eapply ss_bind; [apply sim_ev_top; [exact I1|exact H2]|]. intro v2.
      eapply ss_pos; [eapply ss_done; eapply sim_last with (n := 1%nat) (n' := 0%nat);
        [exact H3|reflexivity|apply size_io|discriminate|ts|]|reflexivity|lia].
      intros s next len [Ha Ht]. unfold is_a in Ha. cbn [ins Z.eqb]. unfold sbind.
      assert (Hp : lm pop s = match lm (drop 1) s with Some (_, s') => Some (v1, s') | None => None end).
      { destruct Ht as [H0 Hn]. unfold lm, pop, drop. replace (Nat.leb 1 (m_sp (s_m s))) with true by (symmetry; apply Nat.leb_le; lia).
        destruct (m_sp (s_m s)) as [|sp] eqn:esp; [lia|]. replace (Sn sp - 1)%nat with sp in * by lia. rewrite Hn. reflexivity. }
      rewrite Hp. destruct (lm (drop 1) s) as [[u s1]|] eqn:ed; [|reflexivity]. unfold get_a. rewrite (lm_a _ _ _ _ ed), Ha.
      destruct (lm (elem_del E v1 v2) s1) as [[u2 s2]|]; [|reflexivity]. destruct v1; reflexivity.
  - destruct o as [|e]; autorewrite with lay in *; cbv zeta in *.
    + apply hosts_cons in Hh as [H1 H2]. rewrite size_i0 in H2. rewrite size_cons, size_one, !size_i0.
      eapply ss_bind with (R1 := is_a) (b1 := (b + 1)%nat).
      * eapply sim_pos; [change false with (i_push (i0 KNull false)); apply sim_give; [exact H1|discriminate|reflexivity|reflexivity]|reflexivity|].
        rewrite size_i0. reflexivity.
      * intros v s links G Ha. destruct (return_reach _ _ s links H2 G) as (ip & Hip & R). split; [auto|]. split; [exact Ha|]. eauto.
    + apply hosts_app in Hh as [H1 H2]. eapply ss_bind; [apply I1; exact H1|].
      intros v s links G Ha. destruct (return_reach _ _ s links H2 G) as (ip & Hip & R). split; [auto|]. split; [exact Ha|]. eauto.
  - autorewrite with lay in *. destruct inl; cbn in Hk.
    + destruct Hk as (t & u & -> & ->). intros s links G _. split; [auto|]. exists t. split; [auto|]. apply (jump_reach _ _ _ Hh). exact G.
    + destruct Hk as [-> ->]. eapply ss_forward. exact Hh.
  - autorewrite with lay in *. destruct inl; cbn in Hk.
    + destruct Hk as (t & u & -> & ->). intros s links G _. split; [auto|]. exists u. split; [auto|]. apply (jump_reach _ _ _ Hh). exact G.
    + destruct Hk as [-> ->]. eapply ss_forward. exact Hh.
  - autorewrite with lay in *. rewrite size_one, size_io.
    eapply ss_done; eapply sim_last with (n := 0%nat) (n' := 0%nat); [exact Hh|reflexivity|apply size_io|discriminate|ts|].
    intros s next len _. cbn [ins]. unfold sbind. destruct (mark_global E id s) as [[? ?]|]; reflexivity.
  - autorewrite with lay in *. apply hosts_app in Hh as [H1 H2]. rewrite size_app, size_one, size_i0.
    eapply ss_bind; [apply I1; exact H1|]. intro v.
    eapply ss_pos; [eapply ss_done; eapply sim_last with (n := 0%nat) (n' := 0%nat); [exact H2|reflexivity|apply size_i0|discriminate|ts|]|reflexivity|lia].
    intros s next len Ha. unfold is_a in Ha. cbn [ins]. unfold sbind, get_a. rewrite Ha.
    destruct (lm (truth v) s) as [[[] s1]|]; [reflexivity| |reflexivity]. destruct (lm (error EAssertion) s1) as [[? ?]|]; reflexivity.
  - autorewrite with lay in *. cbv zeta in *. apply hosts_app in Hh as [H1 H2]. apply hosts_app in H2 as [H2 H3]. apply hosts_app in H3 as [H3 H4].
    rewrite size_one, size_io in *. rewrite !size_app, size_one, size_io.
    set (b1 := (b + size (comp false b e) + osize)%nat) in *. set (b2 := (b1 + size (cstmt d b1 k c s))%nat) in *.
    set (fin := (b2 + size (crest d b2 k c None r))%nat) in *.
    assert (Hf : (b2 + size (crest d b2 k c (Some fin) r))%nat = fin).
    { unfold fin at 2. rewrite (size_rest _ _ r d b2 k c (Some fin)), (size_rest _ _ r d b2 k c None). reflexivity. }
    eapply ss_pos with (b2 := fin); [|reflexivity|lia].
    eapply ss_if; [exact I1|exact H1|exact H2| |].
    + eapply ss_then; [apply I8; [exact Hk|exact H3]|]. apply (rest_reach _ _ _ _ _ _ _ H4). exact Hf.
    + eapply I9; [exact Hk|exact H4|exact Hf].
  - apply I10; auto.
  - autorewrite with lay in *. cbv zeta in *. destruct (positional a) eqn:epos; [|apply ss_undef].
    apply hosts_app in Hh as [H1 H2]. apply hosts_app in H2 as [H2 H3]. rewrite !size_one in *.
    eapply ss_bind; [apply I2; exact H1|]. intros []. cbv beta.
    eapply ss_bind with (R1 := fun _ => yes).
    + eapply sim_last with (n := (Z.to_nat (nargs a) + 0)%nat) (n' := 0%nat); [exact H2|reflexivity|reflexivity|discriminate| |].
      * apply ts_range_start; apply (positional_slots a epos).
      * intros s0 next len _. cbn [ins]. unfold sbind. destruct (range_start K (nargs a) d id s0) as [[? ?]|]; reflexivity.
    + intros []. eapply ss_pos; [eapply I11 with (o := KRangeStep) (id := id); [left; auto|exact Hk| | |reflexivity|]| |].
      3: exact H3. all: rewrite ?size_step; try reflexivity.
      rewrite !size_app, !size_one, !size_step, size_io, (size_stmt w i8 s _ _ (Some _)). lia.
  - autorewrite with lay in *. cbv zeta in *. apply hosts_app in Hh as [H1 H2]. apply hosts_app in H1 as [H0 H1].
    apply hosts_cons in H1 as [H11 H1]. apply hosts_cons in H1 as [H12 H13]. rewrite size_io in *.
    assert (Hd : 0 <= d < 256).
    { apply hosts_app in H2 as [H2 _]. apply hosts_in in H2. apply H2. }
    eapply ss_bind; [apply I1; exact H0|]. intro v.
    eapply ss_bind; [eapply sim_pre; [apply yes_any|apply (sim_assign code None _ _ H11); apply for_tmp_pos; lia]|]. intro u.
    eapply ss_bind; [eapply sim_pre; [apply yes_any|apply (sim_num code yes false f_zero _ H12); reflexivity]|]. intro v0.
    eapply ss_bind; [eapply sim_pre; [apply yes_any|apply (sim_assign code None _ _ H13); apply for_tmp_pos; lia]|]. intro u1.
    rewrite !size_app, !size_cons, !size_nil, !size_io, !size_step in *.
    eapply ss_pos; [eapply I11 with (o := KInStep) (id := id); [right; auto|exact Hk| | |reflexivity|]| |].
    3: exact H2. all: rewrite ?size_step, ?Nat.add_0_r; try reflexivity; try lia.
    rewrite (size_stmt w i8 s _ _ (Some _)). lia.
Qed.

Lemma defaults_step n : sim_ev n -> sim_defaults n -> sim_defaults (Sn n).
Proof.
  intros I1 I7 fs code b Hh. autorewrite with eval. destruct fs as [|[id [|e]] fs]; cbn [LayoutSpec.cformals] in *.
  - rewrite size_nil, Nat.add_0_r. apply sim_ret. intros. exact Logic.I.
  - apply I7. exact Hh.
  - cbv zeta in *. apply hosts_app in Hh as [H1 H2]. apply hosts_app in H1 as [H0 H1].
    eapply sim_bind; [apply I1; exact H0|]. intro v.
    eapply sim_bind with (R1 := fun _ => yes); [eapply sim_last with (n := 0%nat) (n' := 0%nat); [exact H1|reflexivity|apply size_io|discriminate|ts|]|].
    + intros s0 next len _. cbn [ins]. unfold assign, sbind. destruct (assign_named E id s0) as [[? ?]|]; reflexivity.
    + intro u. eapply sim_pos; [apply I7; exact H2| |]; rewrite !size_app, size_one, size_io; lia.
Qed.

Lemma noends_normal n : (forall s d inl st st', noends s = true -> exs n d inl s st <> Val Normal st') /\
  (forall r d inl st st', noends_rest r = true -> ex_rest n d inl r st <> Val Normal st').
Proof.
  induction n as [|n [IHs IHr]]; [split; intros; discriminate|]. split.
  - intros s d inl st st' Hn. autorewrite with eval. destruct s; try discriminate Hn; cbn [noends] in Hn.
    + unfold xbind. destruct (exs n d inl s1 st) as [[| | |v] s'|s'| | |] eqn:e; try discriminate.
      apply orb_true_iff in Hn as [Hn|Hn]; [exfalso; eapply IHs; eauto|apply IHs; auto].
    + match goal with o : oexpr |- _ => destruct o end; unfold xbind; match goal with |- match ?x with _ => _ end <> _ => destruct x; discriminate end.
    + apply andb_true_iff in Hn as [H1 H2]. unfold xbind. match goal with |- context [ev n ?e0 st] => destruct (ev n e0 st) as [v s1|s1| | |] end; try discriminate.
      destruct (prim (lm (truth v)) s1) as [[] s2|s2| | |]; try discriminate; [apply IHs|apply IHr]; auto.
  - intros r d inl st st' Hn. autorewrite with eval. destruct r; try discriminate Hn; cbn [noends_rest] in Hn.
    + apply IHs. exact Hn.
    + apply andb_true_iff in Hn as [H1 H2]. unfold xbind. match goal with |- context [ev n ?e0 st] => destruct (ev n e0 st) as [v s1|s1| | |] end; try discriminate.
      destruct (prim (lm (truth v)) s1) as [[] s2|s2| | |]; try discriminate; [apply IHs|apply IHr]; auto.
Qed.

Definition ret_ok (i : instr) : Prop := i_op i = KReturn -> i_arg i = ExecModel.ANone.
Lemma inum_ret p f : ret_ok (inum p f).
Proof. unfold LayoutSpec.inum. destruct (feq _ _); intro H; discriminate H. Qed.
Lemma cstrs_ret ls : forall p, Forall ret_ok (cstrs p ls).
Proof. induction ls as [|l ls IH]; intro p; cbn [cstrs]; [constructor|]. constructor; [intro H; discriminate H|]. constructor; [intro H; reflexivity|apply IH]. Qed.
Ltac rets := repeat (apply Forall_app; split); repeat apply Forall_cons; try apply Forall_nil; auto using inum_ret, cstrs_ret;
  try (intro; first [reflexivity|discriminate]).
Lemma comp_ret :
  (forall e p b, Forall ret_ok (comp p b e)) /\ (forall a b, Forall ret_ok (cargs b a)) /\
  (forall d b, Forall ret_ok (cdents b d)) /\ (forall o b, Forall ret_ok (copt b o)) /\
  (forall l t b, Forall ret_ok (clinks t b l)).
Proof.
  apply expr_mut; intros; try match goal with u : unop |- _ => destruct u end; autorewrite with lay; cbv zeta; rets.
  destruct t; [destruct b|]; intro; discriminate.
Qed.
Lemma jump_ret t f : ret_ok (jump t f).
Proof. destruct t; intro H; discriminate H. Qed.
Lemma stmt_ret :
  (forall s d b k c, Forall ret_ok (cstmt d b k c s)) /\ (forall r d b k c f, Forall ret_ok (crest d b k c f r)).
Proof.
  pose proof (proj1 comp_ret). pose proof (proj1 (proj2 comp_ret)).
  apply stmt_mut; intros; try match goal with t : target |- _ => destruct t end; try match goal with o : oexpr |- _ => destruct o end; autorewrite with lay; cbv zeta; rets; try apply jump_ret.
  all: match goal with a : option numop |- _ => destruct a; intro; discriminate end.
Qed.
Lemma formals_ret fs : forall b, Forall ret_ok (cformals b fs).
Proof.
  pose proof (proj1 comp_ret). induction fs as [|[id [|e]] fs IH]; intro b; cbn [LayoutSpec.cformals]; cbv zeta; rets.
Qed.
Lemma body_ret fd : Forall ret_ok (cbody fd).
Proof. unfold LayoutSpec.cbody. apply Forall_app. split; [apply formals_ret|apply stmt_ret]. Qed.

Lemma body_step n : sim_defaults n -> sim_exs n -> sim_body (Sn n).
Proof.
  intros I7 I8 fd s links [Hr Hp] G code. autorewrite with eval.
  assert (Hc : (exists L, cbody fd = L ++ [i0 KReturn false] /\ cdef fd = L /\ noends (fd_body fd) = true) \/ cdef fd = cbody fd ++ [i0 KNull false]).
  { unfold LayoutSpec.cdef in *. destruct (rev (cbody fd)) as [|i l] eqn:er.
    - right. apply (f_equal (@rev _)) in er. rewrite rev_involutive in er. rewrite er. reflexivity.
    - destruct (is_return i) eqn:ei; [|right; reflexivity]. left. exists (rev l).
      apply (f_equal (@rev _)) in er. rewrite rev_involutive in er. cbn [rev] in er.
      assert (Hi : i = i0 KReturn false).
      { pose proof (body_ret fd) as Hb0. rewrite er in Hb0. apply Forall_app in Hb0 as [_ Hb0]. inversion Hb0 as [|? ? Hi _]; subst.
        destruct i as [o q a]. unfold is_return in ei. cbn in *. destruct o; try discriminate ei. destruct q; try discriminate ei.
        unfold ret_ok in Hi. cbn in Hi. rewrite Hi by reflexivity. reflexivity. }
      rewrite er, Hi. split; [reflexivity|]. split; [reflexivity|]. destruct Hp as [Hp|Hp]; [exact Hp|congruence]. }
  assert (Hh : hosts code 0 (cbody fd) /\ (noends (fd_body fd) = true \/ (hosts code (size (cbody fd)) [i0 KNull false] /\ length code = size (cbody fd) + 1)%nat)).
  { unfold code. destruct Hc as [(L & H1 & H2 & H3)|H].
    - split; [|left; exact H3]. exists [], []. rewrite app_nil_r. cbn [app]. split; [reflexivity|]. split; [exact Hr|].
      right. exists L. rewrite H2. auto.
    - assert (H0 : hosts (encs w (cdef fd)) 0 (cbody fd ++ [i0 KNull false])).
      { exists [], []. rewrite app_nil_r. cbn [app]. split; [reflexivity|]. split; [|left; rewrite H; reflexivity].
        apply Forall_app. split; [exact Hr|]. constructor; [exact Logic.I|constructor]. }
      apply hosts_app in H0 as [H0 H1]. split; [exact H0|]. right. split; [exact H1|]. rewrite H. fold (size (cbody fd ++ [i0 KNull false])).
      rewrite size_app, size_one, size_i0. reflexivity. }
  destruct Hh as [Hh Hend]. unfold LayoutSpec.cbody in Hh. cbv zeta in Hh. apply hosts_app in Hh as [H1 H2]. cbn [Nat.add] in H2.
  specialize (I7 _ _ _ H1 s links G Logic.I). unfold xbind at 1.
  destruct (defaults n (fd_formals fd) s) as [[] s1|s1| | |]; auto.
  destruct I7 as (G1 & _ & T1). specialize (T1 s1 eq_refl). cbn [Nat.add] in *.
  specialize (I8 (fd_body fd) 0 false None None code _ (conj eq_refl eq_refl) H2 s1 links G1 Logic.I).
  pose proof (noends_normal n) as [Hno _]. specialize (Hno (fd_body fd) 0 false s1).
  unfold xbind at 1. destruct (exs n 0 false (fd_body fd) s1) as [[| | |v] s2|s2| | |]; auto.
  - destruct I8 as (G2 & R2). destruct Hend as [Hend|[Hend Hlen]]; [exfalso; eapply Hno; eauto|].
    unfold LayoutSpec.cbody in Hend, Hlen. cbv zeta in Hend, Hlen. rewrite size_app in Hend, Hlen.
    pose proof (sim_give code yes PNull _ (i0 KNull false) Hend ltac:(discriminate) eq_refl (fun _ _ _ => eq_refl) s2 links G2 Logic.I) as H.
    rewrite size_i0 in H. unfold xbind at 1. destruct (give PNull s2) as [v s3|s3| | |]; auto.
    + destruct H as (G3 & Ha & T3). specialize (T3 s3 eq_refl). unfold is_a in Ha.
      pose proof (x_prim E 0 0 frame_pop (ltac:(ts)) s3 (proj1 G3)) as Hx. unfold xbind, prim in *.
      destruct (frame_pop s3) as [[[] s4]|] eqn:ep; [|exact Logic.I].
      assert (Hs : s_a s4 = s_a s3 /\ s_m s4 = s_m s3).
      { unfold frame_pop in ep. injection ep as <-. auto. }
      destruct (aborted s4) eqn:ea; [exfalso; destruct Hs as [_ Hs]; unfold aborted in ea; rewrite Hs in ea; destruct G3 as [G3 _]; unfold aborted in G3; congruence|].
      unfold xret. destruct Hx as (_ & _ & _ & Hsn). split; [split; [exact ea|apply Hsn, G3]|]. split; [destruct Hs; congruence|].
      exists s3, (length code). split; [|split; [lia|exact ep]].
      eapply reach_trans; [exact T1|]. eapply reach_trans; [exact R2|]. rewrite Hlen. exact T3.
    + eapply reach_stops; [|exact H]. eapply reach_trans; [exact T1|]. exact R2.
  - destruct I8 as (_ & t & Ht & _). discriminate Ht.
  - destruct I8 as (_ & t & Ht & _). discriminate Ht.
  - destruct I8 as (G2 & Ha & ip & Hip & R2). unfold xbind at 1. unfold xret at 1.
    pose proof (x_prim E 0 0 frame_pop (ltac:(ts)) s2 (proj1 G2)) as Hx. unfold xbind, prim in *.
    destruct (frame_pop s2) as [[[] s4]|] eqn:ep; [|exact Logic.I].
    assert (Hs : s_a s4 = s_a s2 /\ s_m s4 = s_m s2).
    { unfold frame_pop in ep. injection ep as <-. auto. }
    destruct (aborted s4) eqn:ea; [exfalso; destruct Hs as [_ Hs]; unfold aborted in ea; rewrite Hs in ea; destruct G2 as [G2 _]; unfold aborted in G2; congruence|].
    unfold xret. destruct Hx as (_ & _ & _ & Hsn). split; [split; [exact ea|apply Hsn, G2]|]. split; [destruct Hs; congruence|].
    exists s2, ip. split; [|split; [exact Hip|exact ep]]. eapply reach_trans; [exact T1|exact R2].
  - eapply reach_stops; [exact T1|exact I8].
Qed.

Definition all_sim (n : nat) : Prop :=
  sim_ev n /\ sim_args n /\ sim_dents n /\ sim_opt n /\ sim_links n /\ sim_body n /\ sim_defaults n /\
  sim_exs n /\ sim_rest n /\ sim_while n /\ sim_loop n.
Theorem simulation n : all_sim n.
Proof.
  induction n as [|n (I1 & I2 & I3 & I4 & I5 & I6 & I7 & I8 & I9 & I10 & I11)].
  - unfold all_sim. refine (conj _ (conj _ (conj _ (conj _ (conj _ (conj _ (conj _ (conj _ (conj _ (conj _ _))))))))));
      red; intros; try (intros s0 links0 _ _; exact Logic.I). exact Logic.I.
  - unfold all_sim. refine (conj _ (conj _ (conj _ (conj _ (conj _ (conj _ (conj _ (conj _ (conj _ (conj _ _)))))))))).
    + apply ev_step; auto.
    + apply args_step; auto.
    + apply dents_step; auto.
    + apply opt_step; auto.
    + apply links_step; auto.
    + apply body_step; auto.
    + apply defaults_step; auto.
    + apply exs_step; auto.
    + apply rest_step; auto.
    + apply while_step; auto.
    + apply loop_step; auto.
Qed.
End Sim.
