(** One step of the virtual machine at an instruction of the layout, and
    simulations of computations by stretches of code. *)
From Coq Require Import ZArith Bool List Lia.
From Verif Require Import Base FloatModel PolyModel ValueModel MathModel MachModel ListModel StrModel BinModel FrameModel CodeModel CompModel ExecModel LayoutSpec LayoutProofs EvalSpec TameSpec TameProofs TameProofs2 EvalTame PolyProofs.
Import ListNotations.
Local Open Scope Z_scope.
Open Scope eval_scope.
Open Scope st_scope.

(** ** Decoding *)
Definition in_range (w : width) (i : instr) : Prop :=
  match i_arg i with
  | ExecModel.ANone | ANum _ => True
  | AByte b => 0 <= b < 256
  | AOff v => 0 <= v < 2 ^ wbits w
  | AStep v d id => 0 <= v < 2 ^ wbits w /\ 0 <= d < 256 /\ 0 <= id < 2 ^ wbits w
  end.
Definition kind_of (a : arg) : akind :=
  match a with ExecModel.ANone => GNone | AByte _ => GByte | AOff _ => GOff | ANum _ => GNum | AStep _ _ _ => GStep end.

(** the bytes of [l] stand at [b] in the code; of the last instruction of a
    function, if it is a return, there may be nothing left *)
Definition hosts (w : width) (code : list Z) (b : nat) (l : list instr) : Prop :=
  exists pre post, size w pre = b /\ Forall (in_range w) (pre ++ l ++ post) /\
    (code = encs w (pre ++ l ++ post) \/
     exists L, pre ++ l ++ post = L ++ [i0 KReturn false] /\ code = encs w L).

Section Decode.
Variable w : width.
Lemma hosts_app code b l1 l2 : hosts w code b (l1 ++ l2) -> hosts w code b l1 /\ hosts w code (b + size w l1) l2.
Proof.
  intros (pre & post & Hb & Hr & Hc). split.
  - exists pre, (l2 ++ post). rewrite app_assoc_reverse in *. auto.
  - exists (pre ++ l1), post. rewrite size_app, <- !app_assoc in *. auto.
Qed.
Lemma hosts_cons code b i l : hosts w code b (i :: l) -> hosts w code b [i] /\ hosts w code (b + length (enc w i)) l.
Proof. intro H. destruct (hosts_app code b [i] l H) as [H1 H2]. rewrite size_cons, size_nil, Nat.add_0_r in H2. auto. Qed.

Lemma app_last_inv {A} (pre : list A) i post L x :
  pre ++ [i] ++ post = L ++ [x] -> (post = [] /\ i = x /\ pre = L) \/ exists post', post = post' ++ [x] /\ L = pre ++ [i] ++ post'.
Proof.
  intro H. destruct post as [|y post0] using rev_ind.
  - left. rewrite app_nil_r in H. apply app_inj_tail in H. destruct H; auto.
  - clear IHpost0. right. exists post0. rewrite !app_assoc in H. apply app_inj_tail in H. destruct H as [H ->].
    split; [reflexivity|]. rewrite <- H, <- app_assoc. reflexivity.
Qed.
Lemma hosts_one code b i : hosts w code b [i] -> i <> i0 KReturn false ->
  in_range w i /\ exists pre post, length pre = b /\ code = pre ++ enc w i ++ post.
Proof.
  intros (pre & post & Hb & Hr & Hc) Hi. split.
  - apply Forall_app in Hr. destruct Hr as [_ Hr]. apply Forall_app in Hr. destruct Hr as [Hr _]. inversion Hr; auto.
  - destruct Hc as [->|(L & HL & ->)].
    + exists (encs w pre), (encs w post). split; [exact Hb|]. rewrite !encs_app, encs_one. reflexivity.
    + destruct (app_last_inv _ _ _ _ _ HL) as [(_ & He & _)|(post' & -> & ->)]; [congruence|].
      exists (encs w pre), (encs w post'). split; [exact Hb|]. rewrite !encs_app, encs_one. reflexivity.
Qed.

Lemma pow_bytes : 256 ^ Z.of_nat (obytes w) = 2 ^ wbits w.
Proof. destruct w; reflexivity. Qed.

Lemma get_mid' : forall n p bs q k, length bs = n -> length p = k -> get_at n k (p ++ bs ++ q) = Some (le_val bs).
Proof. intros n p bs q k H <-. apply get_mid. exact H. Qed.
End Decode.

Section Step.
Variable K : conf.
Variable F : loc -> option (func (list Z)).
Notation E := (cf_env K).
Notation w := (e_width E).

Lemma read_arg_enc pre i post : in_range w i -> arg_kind (i_op i) = kind_of (i_arg i) ->
  read_arg K (arg_kind (i_op i)) (Sn (length pre)) (pre ++ enc w i ++ post) =
  Some (i_arg i, (length pre + length (enc w i))%nat).
Proof.
  intros Hr ->. unfold enc. destruct (i_arg i) as [|b|v|f|v d id] eqn:e; unfold in_range in Hr; rewrite e in Hr; cbn [kind_of read_arg arg_bytes].
  - cbn. do 2 f_equal. lia.
  - change (op_byte (i_op i) (i_push i) :: [b mod 256]) with ([op_byte (i_op i) (i_push i)] ++ [b mod 256]).
    rewrite <- app_assoc, app_assoc. rewrite get_mid' by (rewrite ?app_length; cbn; lia). cbn [le_val app length].
    rewrite Z.mod_small by lia. f_equal. f_equal; [f_equal|]; lia.
  - rewrite <- app_comm_cons. change (op_byte (i_op i) (i_push i) :: le_bytes (obytes w) v ++ post) with ([op_byte (i_op i) (i_push i)] ++ le_bytes (obytes w) v ++ post).
    rewrite app_assoc. rewrite get_mid' by (rewrite ?app_length, ?le_bytes_length; cbn; lia).
    rewrite le_val_bytes by (rewrite pow_bytes; lia). do 2 f_equal. cbn. rewrite le_bytes_length. lia.
  - rewrite <- app_comm_cons. change (op_byte (i_op i) (i_push i) :: le_bytes 4 (bits_of_f f) ++ post) with ([op_byte (i_op i) (i_push i)] ++ le_bytes 4 (bits_of_f f) ++ post).
    rewrite app_assoc. rewrite get_mid' by (rewrite ?app_length, ?le_bytes_length; cbn; lia).
    rewrite le_val_bytes by (pose proof (bits_range f); cbn; lia). rewrite of_bits_of_f. do 2 f_equal.
    cbn. lia.
  - destruct Hr as (Hv & Hd & Hi).
    rewrite <- app_comm_cons, <- !app_assoc.
    change (op_byte (i_op i) (i_push i) :: le_bytes (obytes w) v ++ [d mod 256] ++ le_bytes (obytes w) id ++ post)
      with ([op_byte (i_op i) (i_push i)] ++ le_bytes (obytes w) v ++ [d mod 256] ++ le_bytes (obytes w) id ++ post).
    rewrite app_assoc. rewrite get_mid' by (rewrite ?app_length, ?le_bytes_length; cbn; lia).
    rewrite (app_assoc (pre ++ _)). rewrite get_mid' by (rewrite ?app_length, ?le_bytes_length; cbn; lia).
    rewrite (app_assoc _ [d mod 256]). rewrite get_mid' by (rewrite ?app_length, ?le_bytes_length; cbn; lia).
    rewrite !le_val_bytes by (rewrite pow_bytes; lia). cbn [le_val]. rewrite (Z.mod_small d) by lia.
    f_equal. f_equal; [f_equal; lia|]. cbn [length]. rewrite !app_length. cbn [length]. rewrite !le_bytes_length. lia.
Qed.

(** ** Steps *)
Definition V (s : st) (code : list Z) (ip : nat) (links : returns) : vm :=
  {| v_s := s; v_code := code; v_ip := ip; v_links := links |}.
Inductive reach : vm -> vm -> Prop :=
| reach_refl v : reach v v
| reach_step v1 v2 v3 : step K F v1 = Some (Next v2) -> reach v2 v3 -> reach v1 v3.
Lemma reach_trans v1 v2 v3 : reach v1 v2 -> reach v2 v3 -> reach v1 v3.
Proof. induction 1; auto. intro. eapply reach_step; eauto. Qed.
Definition stops (v : vm) (s : st) : Prop := exists v', reach v v' /\ step K F v' = Some (Aborted s).
Lemma reach_stops v1 v2 s : reach v1 v2 -> stops v2 s -> stops v1 s.
Proof. intros H (v' & H1 & H2). exists v'. split; [eapply reach_trans; eauto|auto]. Qed.

Definition pushes (p : bool) (s s' : st) : Prop := if p then wait K (s_a s) s = Val tt s' else s' = s.
Lemma pushes_eq p s s' : pushes p s s' ->
  (if p then lm (push E (s_a s)) else sret tt) s = Some (tt, s').
Proof.
  destruct p; cbn.
  - unfold wait. destruct (lm (push E (s_a s)) s) as [[[] s1]|]; [|discriminate]. destruct (aborted s1); [discriminate|].
    intro H. injection H as ->. reflexivity.
  - intros ->. reflexivity.
Qed.

Definition outcome_of (code : list Z) (b : nat) (links : returns) (r : option (flow * st)) : option vres :=
  match r with
  | None => None
  | Some (fl, s) =>
      if aborted s then Some (Aborted s)
      else match fl with
           | Call code' => Some (Next (V s code' 0 ((code, b) :: links)))
           | Go ip push =>
               match (if push then lm (MachModel.push E (s_a s)) else sret tt) s with
               | None => None
               | Some (_, s) => Some (Next (V s code ip links))
               end
           end
  end.
Lemma step_at code b i links s : hosts w code b [i] -> i <> i0 KReturn false ->
  arg_kind (i_op i) = kind_of (i_arg i) ->
  step K F (V s code b links) =
  outcome_of code b links (ins K F (i_op i) (i_arg i) (i_push i) (b + length (enc w i)) (length code) s).
Proof.
  intros Hh Hn Hk. destruct (hosts_one _ _ _ _ Hh Hn) as (Hr & pre & post & <- & ->).
  unfold step, V. cbn [v_s v_code v_ip v_links].
  replace (Nat.ltb (length pre) (length (pre ++ enc w i ++ post))) with true
    by (symmetry; apply Nat.ltb_lt; rewrite !app_length; pose proof (enc_pos w i); lia).
  assert (Hb : nth_error (pre ++ enc w i ++ post) (length pre) = Some (op_byte (i_op i) (i_push i))).
  { unfold enc. rewrite <- app_comm_cons. apply nth_mid. }
  rewrite Hb, byte_op_byte, op_of_code, byte_push_byte, read_arg_enc by assumption. reflexivity.
Qed.
Lemma step_return code ip code' b i links s s1 s' :
  (length code <= ip)%nat -> hosts w code' b [i] -> i <> i0 KReturn false -> i_arg i <> ExecModel.ANone -> length (enc w i) = (obytes w + 1)%nat ->
  frame_pop s = Some (tt, s1) -> pushes (i_push i) s1 s' ->
  step K F (V s code ip ((code', b) :: links)) = Some (Next (V s' code' (b + length (enc w i)) links)).
Proof.
  intros Hip Hh Hn Ha Hl Hp Hs. destruct (hosts_one _ _ _ _ Hh Hn) as (Hr & pre & post & <- & ->).
  unfold step, V. cbn [v_s v_code v_ip v_links].
  replace (Nat.ltb ip (length code)) with false by (symmetry; apply Nat.ltb_ge; lia).
  assert (Hb : nth_error (pre ++ enc w i ++ post) (length pre) = Some (op_byte (i_op i) (i_push i))).
  { unfold enc. rewrite <- app_comm_cons. apply nth_mid. }
  rewrite Hb, Hp, byte_push_byte, (pushes_eq _ _ _ Hs), Hl.
  replace (length pre + obytes w + 1)%nat with (length pre + (obytes w + 1))%nat by lia. reflexivity.
Qed.

(** ** Simulation *)
Definition good (s : st) : Prop := aborted s = false /\ sane E (s_m s).

(** From a state in which [P] holds, the code from [b] to [b'] does what [x]
    does; afterwards, pushed or not, [R] holds. *)
Definition sim {A} (code : list Z) (P : st -> Prop) (x : X A) (p : bool) (R : A -> st -> Prop) (b b' : nat) : Prop :=
  forall s links, good s -> P s ->
    match x s with
    | Val a s' => good s' /\ R a s' /\
                  forall s'', pushes p s' s'' -> reach (V s code b links) (V s'' code b' links)
    | Stop s' => stops (V s code b links) s'
    | _ => True
    end.
Definition yes : st -> Prop := fun _ => True.
Definition is_a (v : poly) (s : st) : Prop := s_a s = v.
Definition top (v : poly) (s : st) : Prop :=
  (0 < m_sp (s_m s))%nat /\ nth_error (m_stack (s_m s)) (m_sp (s_m s) - 1) = Some v.

Lemma sim_bind {A B} code P (x : X A) R1 (f : A -> X B) p R b b1 b' :
  sim code P x false R1 b b1 -> (forall a, sim code (R1 a) (f a) p R b1 b') -> sim code P (xbind x f) p R b b'.
Proof.
  intros Hx Hf s links Hs HP. specialize (Hx s links Hs HP). unfold xbind.
  destruct (x s) as [a s1|s1| | |]; auto. destruct Hx as (G1 & H1 & T1). specialize (T1 s1 eq_refl).
  specialize (Hf a s1 links G1 H1). destruct (f a s1) as [c s2|s2| | |]; auto.
  - destruct Hf as (G2 & H2 & T2). split; [auto|]. split; [auto|]. intros s'' Hp.
    eapply reach_trans; [exact T1|]. apply T2. exact Hp.
  - eapply reach_stops; eauto.
Qed.
Lemma sim_weaken {A} code (P P' : st -> Prop) (x : X A) p (R R' : A -> st -> Prop) b b' :
  sim code P x p R b b' -> (forall s, P' s -> P s) -> (forall a s, R a s -> R' a s) -> sim code P' x p R' b b'.
Proof.
  intros Hx HP HR s links Hs H. specialize (Hx s links Hs (HP _ H)). destruct (x s); auto.
  destruct Hx as (? & ? & ?). auto.
Qed.

Lemma nth_firstn {A} (l l' : list A) n k : (k < n)%nat -> firstn n l = firstn n l' -> nth_error l k = nth_error l' k.
Proof.
  intros Hk H. assert (G : forall (l : list A), nth_error (firstn n l) k = nth_error l k).
  { clear -Hk. revert k Hk. induction n as [|n IH]; intros k Hk l; [lia|]. destruct l as [|x l]; [destruct k; reflexivity|].
    destruct k as [|k]; [reflexivity|]. cbn. apply IH. lia. }
  rewrite <- (G l), <- (G l'), H. reflexivity.
Qed.
Lemma top_level v s s' : level 0 0 (s_m s) (s_m s') -> top v s -> top v s'.
Proof.
  intros L (H0 & Hn). destruct (L (m_sp (s_m s)) ltac:(lia)) as [H1 H2]. unfold top.
  rewrite H1, Nat.add_0_r. split; [auto|]. rewrite <- Hn. apply nth_firstn with (n := m_sp (s_m s)); [lia|auto].
Qed.
Lemma sim_frame {A} code P (x : X A) p R b b' v0 : xtame E 0 0 x ->
  sim code P x p R b b' -> sim code (fun s => P s /\ top v0 s) x p (fun a s => R a s /\ top v0 s) b b'.
Proof.
  intros Ht Hx s links Hs [H1 H2]. specialize (Hx s links Hs H1). specialize (Ht s (proj1 Hs)).
  destruct (x s) as [a s'| | | |]; auto. destruct Hx as (G & H & T). destruct Ht as (_ & _ & L & _).
  split; [auto|]. split; [|auto]. split; [auto|]. eapply top_level; eauto.
Qed.

Lemma wait_top v s s' : good s -> wait K v s = Val tt s' -> good s' /\ top v s' /\ s_a s' = s_a s.
Proof.
  intros Hs H. pose proof (x_wait K 0 v s (proj1 Hs)) as T. rewrite H in T. destruct T as (Q & _ & L & G).
  split; [split; [auto|apply G, Hs]|]. unfold wait, lm, push in H.
  destruct (Nat.eqb_spec (m_sp (s_m s)) (e_stack E)) as [He|He].
  - unfold error in H. unfold aborted in H at 1. cbn in H. destruct (m_abort (s_m s)) eqn:e1.
    + destruct Hs as [Hs _]. unfold aborted in Hs. congruence.
    + discriminate H.
  - unfold aborted in H. cbn in H. destruct (m_abort (s_m s)); [discriminate|]. injection H as <-. cbn. split; [|reflexivity].
    split; cbn; [lia|]. rewrite Nat.sub_0_r.
    destruct Hs as [_ [Hl Hsp]]. clear -Hl Hsp He.
    assert (Hlt : (m_sp (s_m s) < length (m_stack (s_m s)))%nat) by lia. clear He Hsp Hl. revert Hlt. generalize (m_sp (s_m s)) as n.
    induction (m_stack (s_m s)) as [|y l IH]; intros [|n] H; cbn in *; try lia; [reflexivity|]. apply IH. lia.
Qed.
Lemma wait_keeps v s s' : wait K v s = Val tt s' -> s_a s' = s_a s.
Proof.
  unfold wait, lm. destruct (push E v (s_m s)) as [[a m]|]; [|discriminate]. destruct (aborted _); [discriminate|].
  intro H. injection H as <-. reflexivity.
Qed.

(** a value that is pushed *)
Lemma sim_wait {B} code P (x : X poly) (f : poly -> X B) p R b b1 b' :
  sim code P x true is_a b b1 -> (forall v, sim code (top v) (f v) p R b1 b') ->
  sim code P (do v <- x; wait K v &; f v) p R b b'.
Proof.
  intros Hx Hf s links Hs HP. specialize (Hx s links Hs HP). unfold xbind at 1.
  destruct (x s) as [v s1|s1| | |]; auto. destruct Hx as (G1 & H1 & T1). unfold is_a in H1. subst v.
  unfold xbind. destruct (wait K (s_a s1) s1) as [[] s2|s2| | |] eqn:ew; auto.
  2: { unfold wait in ew. destruct (lm _ s1) as [[? ?]|]; [|discriminate]. destruct (aborted _); discriminate. }
  specialize (T1 s2 ew). destruct (wait_top _ _ _ G1 ew) as (G2 & Tp & _).
  specialize (Hf (s_a s1) s2 links G2 Tp). destruct (f (s_a s1) s2) as [c s3|s3| | |]; auto.
  - destruct Hf as (G3 & H3 & T3). split; [auto|]. split; [auto|]. intros s'' Hp.
    eapply reach_trans; [exact T1|]. apply T3. exact Hp.
  - eapply reach_stops; eauto.
Qed.
Lemma sim_wait_last code P (x : X poly) b b1 :
  sim code P x true is_a b b1 -> sim code P (do v <- x; wait K v) false (fun _ => yes) b b1.
Proof.
  intros Hx s links Hs HP. specialize (Hx s links Hs HP). unfold xbind at 1.
  destruct (x s) as [v s1|s1| | |]; auto. destruct Hx as (G1 & H1 & T1). unfold is_a in H1. subst v.
  destruct (wait K (s_a s1) s1) as [[] s2|s2| | |] eqn:ew; auto.
  2: { unfold wait in ew. destruct (lm _ s1) as [[? ?]|]; [|discriminate]. destruct (aborted _); discriminate. }
  specialize (T1 s2 ew). destruct (wait_top _ _ _ G1 ew) as (G2 & Tp & _).
  split; [auto|]. split; [exact Logic.I|]. intros s'' ->. exact T1.
Qed.

(** one instruction *)
Lemma sim_ins {A} code (P : st -> Prop) (y : S A) (R : A -> st -> Prop) b i n n' :
  hosts w code b [i] -> i <> i0 KReturn false -> arg_kind (i_op i) = kind_of (i_arg i) ->
  stame E n n' y ->
  (forall s, good s -> P s ->
     ins K F (i_op i) (i_arg i) (i_push i) (b + length (enc w i)) (length code) s =
     match y s with Some (_, s') => Some (Go (b + length (enc w i)) (i_push i), s') | None => None end) ->
  (forall s a s', P s -> aborted s' = false -> y s = Some (a, s') -> R a s') ->
  sim code P (prim y) (i_push i) R b (b + length (enc w i)).
Proof.
  intros Hh Hn Hk Ht Hi HR s links Hs HP. pose proof (x_prim E n n' y Ht s (proj1 Hs)) as Hx. unfold prim in *.
  pose proof (step_at code b i links s Hh Hn Hk) as St. rewrite (Hi s Hs HP) in St.
  destruct (y s) as [[a s']|] eqn:e; [|auto]. unfold outcome_of in St. destruct (aborted s') eqn:ea.
  - exists (V s code b links). split; [apply reach_refl|exact St].
  - destruct Hx as (_ & _ & _ & G). split; [split; [auto|apply G, Hs]|]. split; [eapply HR; eauto|].
    intros s'' Hp. rewrite (pushes_eq _ _ _ Hp) in St. eapply reach_step; [exact St|]. apply reach_refl.
Qed.

Lemma sim_nop {A} code (P : st -> Prop) (x : X A) R b b1 p :
  hosts w code b1 [i0 KNop p] -> sim code P x false R b b1 -> sim code P x p R b (b1 + 1).
Proof.
  intros Hh Hx s links Hs HP. specialize (Hx s links Hs HP). destruct (x s) as [a s1| | | |]; auto.
  destruct Hx as (G & H & T). split; [auto|]. split; [auto|]. intros s'' Hp. specialize (T s1 eq_refl).
  eapply reach_trans; [exact T|].
  pose proof (step_at code b1 (i0 KNop p) links s1 Hh ltac:(discriminate) eq_refl) as St. cbn [i_op i_push i_arg i0 ins enc arg_bytes length] in St.
  unfold sret in St at 1. unfold outcome_of in St. rewrite (proj1 G), (pushes_eq _ _ _ Hp) in St.
  eapply reach_step; [exact St|]. apply reach_refl.
Qed.
Lemma sim_ret {A} code (P : st -> Prop) (a : A) (R : A -> st -> Prop) b :
  (forall s, P s -> R a s) -> sim code P (xret a) false R b b.
Proof. intros HR s links Hs HP. cbn. split; [auto|]. split; [auto|]. intros s'' ->. apply reach_refl. Qed.
Lemma sim_undef {A} code P p R b b' : sim code P (@xundef A) p R b b'.
Proof. intros s links _ _. exact Logic.I. Qed.
Lemma sim_fuel {A} code P p R b b' : sim code P (@xfuel A) p R b b'.
Proof. intros s links _ _. exact Logic.I. Qed.

(** a conditional branch *)
Lemma bind_inv {A B} (x : M A) (f : A -> M B) m b m' : bind x f m = Some (b, m') ->
  exists a m1, x m = Some (a, m1) /\ f a m1 = Some (b, m').
Proof. unfold bind. destruct (x m) as [[a m1]|]; [|discriminate]. eauto. Qed.
Lemma ret_inv {A} (a : A) m b m' : ret a m = Some (b, m') -> a = b /\ m = m'.
Proof. unfold ret. intro H. injection H. auto. Qed.
Lemma deref_same r m o m' : deref r m = Some (o, m') -> m' = m.
Proof. unfold deref. destruct r as [l e]. destruct (_ =? _)%nat; [|discriminate]. destruct (nth_error _ _); [|discriminate]. intro H. injection H. auto. Qed.
Lemma truth_same v m b m' : truth v m = Some (b, m') -> m' = m.
Proof.
  unfold truth. destruct v; try discriminate; try (intro H; apply ret_inv in H; destruct H; congruence).
  - intro H. apply bind_inv in H as (p & m1 & H1 & H). apply bind_inv in H as (o & m2 & H2 & H). apply ret_inv in H as [_ <-].
    unfold poly_to_str, here in H1. injection H1 as _ <-. unfold deref_str in H2. apply bind_inv in H2 as (o' & m3 & H2 & H3).
    apply deref_same in H2. subst m3. destruct o'; try discriminate H3. apply ret_inv in H3 as [_ <-]. reflexivity.
  - intro H. apply bind_inv in H as (p & m1 & H1 & H). apply bind_inv in H as (o & m2 & H2 & H). apply ret_inv in H as [_ <-].
    unfold poly_to_list, here in H1. injection H1 as _ <-. unfold deref_list in H2. apply bind_inv in H2 as (o' & m3 & H2 & H3).
    apply deref_same in H2. subst m3. destruct o'; try discriminate H3. apply ret_inv in H3 as [_ <-]. reflexivity.
Qed.
Lemma prim_truth v s : good s -> prim (lm (truth v)) s =
  match truth v (s_m s) with Some (b, _) => Val b s | None => Undefined end.
Proof.
  intros Hs. unfold prim, lm. destruct (truth v (s_m s)) as [[b m]|] eqn:e; [|reflexivity].
  rewrite (truth_same _ _ _ _ e). unfold set_m.
  destruct s. unfold aborted in *. cbn in *. destruct Hs as [Hs _]. unfold aborted in Hs. cbn in Hs. rewrite Hs. reflexivity.
Qed.
Lemma branch_step code b links s v (when : bool) t :
  good s -> s_a s = v -> hosts w code b [io (if when then KBranchTrue else KBranchFalse) false (Z.of_nat t)] ->
  match truth v (s_m s) with
  | Some (c, _) => step K F (V s code b links) =
      Some (Next (V s code (if Bool.eqb c when then t else b + osize w)%nat links))
  | None => True
  end.
Proof.
  intros Hs Ha Hh. destruct (truth v (s_m s)) as [[c m]|] eqn:e; [|auto].
  pose proof (step_at code b _ links s Hh) as St.
  rewrite St; [| destruct when; discriminate | destruct when; reflexivity].
  assert (Hi : ins K F (if when then KBranchTrue else KBranchFalse) (AOff (Z.of_nat t)) false
             (b + length (enc w (io (if when then KBranchTrue else KBranchFalse) false (Z.of_nat t)))) (length code) s =
             Some (Go (if Bool.eqb c when then t else b + osize w) false, s)).
  { assert (Hb : forall next, branch_ins when t next false s = Some (Go (if Bool.eqb c when then t else next) false, s)).
    { intro next. unfold branch_ins, sbind, get_a. rewrite Ha. unfold lm. rewrite e, (truth_same _ _ _ _ e). unfold sret. destruct s; reflexivity. }
    destruct when; cbn [ins]; rewrite Nat2Z.id, Hb, size_io; reflexivity. }
  unfold io at 1 2 3. cbn [i_op i_arg i_push]. fold (io (if when then KBranchTrue else KBranchFalse) false (Z.of_nat t)).
  rewrite Hi. unfold outcome_of. rewrite (proj1 Hs). reflexivity.
Qed.
Lemma sim_branch {A} code (P : st -> Prop) v (when : bool) t (f : bool -> X A) p R b b' :
  hosts w code b [io (if when then KBranchTrue else KBranchFalse) false (Z.of_nat t)] ->
  sim code (fun s => s_a s = v /\ P s) (f when) p R t b' ->
  sim code (fun s => s_a s = v /\ P s) (f (negb when)) p R (b + osize w) b' ->
  sim code (fun s => s_a s = v /\ P s) (do c <- prim (lm (truth v)); f c) p R b b'.
Proof.
  intros Hh Ht Hf s links Hs HP. unfold xbind. rewrite prim_truth by auto.
  pose proof (branch_step code b links s v when t Hs (proj1 HP) Hh) as St.
  destruct (truth v (s_m s)) as [[c m]|]; [|auto].
  assert (Hc : c = when \/ c = negb when) by (destruct c, when; auto).
  destruct Hc as [-> | ->].
  - rewrite Bool.eqb_reflx in St. specialize (Ht s links Hs HP). destruct (f when s) as [a s1|s1| | |]; auto.
    + destruct Ht as (G & H & T). split; [auto|]. split; [auto|]. intros s'' Hp. eapply reach_step; [exact St|]. auto.
    + destruct Ht as (v' & H1 & H2). exists v'. split; [|auto]. eapply reach_step; [exact St|]. auto.
  - replace (Bool.eqb (negb when) when) with false in St by (destruct when; reflexivity).
    specialize (Hf s links Hs HP). destruct (f (negb when) s) as [a s1|s1| | |]; auto.
    + destruct Hf as (G & H & T). split; [auto|]. split; [auto|]. intros s'' Hp. eapply reach_step; [exact St|]. auto.
    + destruct Hf as (v' & H1 & H2). exists v'. split; [|auto]. eapply reach_step; [exact St|]. auto.
Qed.
End Step.
