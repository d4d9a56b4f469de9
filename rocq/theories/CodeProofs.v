(** Walking compiled code, number literals, and chains the compiler does not
    see as chains. *)
From Coq Require Import ZArith Bool List Lia.
From Verif Require Import Base FloatModel PolyModel ValueModel MathModel MachModel BinModel CodeModel CompModel FrameModel ExecModel LayoutSpec LayoutProofs LayoutEqs GenProofs GenProofs2 EvalSpec MathSpec MathProofs LiteralProofs PolyProofs StepProofs SimProofs EvalProofs.
Import ListNotations.
Local Open Scope Z_scope.
Open Scope eval_scope.

(** ** The walk *)
Section Walk.
Variable w : width.
Variable i8 : float -> Z.
Notation enc := (enc w).
Notation encs := (encs w).
Notation size := (size w).
Notation starts := (starts w).

Definition no_dict (i : instr) : Prop := forall p n, i <> io (KMake KDict) p n.
Lemma walkable_plain i : walkable w i -> no_dict i -> plain w i.
Proof. intros [H|(n & H & Ha & _)] N; [exact H|]. destruct i as [o p a]. cbn in H, Ha. subst. destruct (N p n eq_refl). Qed.
Lemma encs_long l : (length l <= size l)%nat.
Proof. induction l as [|i l IH]; [cbn; lia|]. rewrite size_cons. pose proof (enc_pos w i). cbn [length]. lia. Qed.
Lemma walk_all l : Forall (plain w) l -> walk w (Sn (size l)) 0 (encs l) = starts 0 l.
Proof. intro H. pose proof (encs_long l). apply (walk_encs w l [] (Sn (size l)) H). lia. Qed.
Lemma walk_command s c code : lined s = true -> oks w s -> gen_command w i8 s c = Ok code ->
  Forall no_dict (cstmt w i8 0 0 None None s) ->
  code = encs (cstmt w i8 0 0 None None s) /\
  walk w (Sn (length code)) 0 code = starts 0 (cstmt w i8 0 0 None None s).
Proof.
  intros Hl Ho H Hn. rewrite gen_command_layout in H by assumption. injection H as <-. split; [reflexivity|].
  apply walk_all. pose proof (proj1 (stmt_waiting w i8) s Ho 0 0%nat None None) as W.
  rewrite Forall_forall in *. intros i Hi. apply walkable_plain; [apply W, Hi|apply Hn, Hi].
Qed.

Lemma walk_prefix l1 l2 fuel pre : Forall (plain w) l1 -> (length l1 <= fuel)%nat ->
  walk w fuel (length pre) (pre ++ encs (l1 ++ l2)) =
  starts (length pre) l1 ++ walk w (fuel - length l1) (length pre + size l1) (pre ++ encs (l1 ++ l2)).
Proof.
  revert fuel pre. induction l1 as [|i l1 IH]; intros fuel pre H Hf.
  - rewrite size_nil, Nat.sub_0_r, Nat.add_0_r. reflexivity.
  - inversion H as [|? ? P Hl]; subst. cbn [length] in Hf. destruct fuel as [|fuel]; [lia|]. cbn [walk LayoutSpec.starts app].
    rewrite encs_cons. cbn [LayoutSpec.enc app]. rewrite nth_mid, byte_op_byte. f_equal.
    replace (Sn (length pre) + operand_size w (op_code (i_op i)))%nat with (length (pre ++ enc i))
      by (rewrite <- P, app_length; cbn [LayoutSpec.enc length]; lia).
    replace (pre ++ op_byte (i_op i) (i_push i) :: arg_bytes w (i_arg i) ++ encs (l1 ++ l2))
      with ((pre ++ enc i) ++ encs (l1 ++ l2)) by (rewrite <- app_assoc; reflexivity).
    rewrite IH by (auto; lia). rewrite size_cons. cbn [Nat.sub length].
    replace (length (pre ++ enc i)) with (length pre + length (enc i))%nat by (rewrite app_length; reflexivity).
    replace (length pre + (length (enc i) + size l1))%nat with (length pre + length (enc i) + size l1)%nat by lia. reflexivity.
Qed.
Lemma starts_range l : forall b k, In k (starts b l) -> (b <= k)%nat.
Proof.
  induction l as [|i l IH]; intros b k H; [contradiction|]. destruct H as [<-|H]; [lia|]. apply IH in H. lia.
Qed.
Lemma starts_app l1 l2 : forall b, starts b (l1 ++ l2) = starts b l1 ++ starts (b + size l1) l2.
Proof.
  induction l1 as [|i l1 IH]; intro b; cbn [app LayoutSpec.starts]; [rewrite size_nil, Nat.add_0_r; reflexivity|].
  rewrite IH, size_cons. rewrite Nat.add_assoc. reflexivity.
Qed.
Lemma starts_below l : forall b k, In k (starts b l) -> (k < b + size l)%nat.
Proof.
  induction l as [|i l IH]; intros b k H; [contradiction|]. rewrite size_cons. pose proof (enc_pos w i).
  destruct H as [<-|H]; [lia|]. apply IH in H. lia.
Qed.

(** After a dict instruction, the walk takes its operand for instructions. *)
Theorem walk_dict l1 p n l2 : Forall (plain w) l1 ->
  let l := l1 ++ io (KMake KDict) p n :: l2 in
  In (size l1 + 1)%nat (walk w (Sn (size l)) 0 (encs l)) /\ ~ In (size l1 + 1)%nat (starts 0 l).
Proof.
  intros H l. assert (Hs : size l = (size l1 + (1 + obytes w) + size l2)%nat).
  { unfold l. rewrite size_app, size_cons, size_io. unfold osize. lia. }
  assert (Ho : (2 <= obytes w)%nat) by (destruct w; cbn; lia).
  split.
  - pose proof (encs_long l1). pose proof (walk_prefix l1 (io (KMake KDict) p n :: l2) (Sn (size l)) [] H ltac:(lia)) as Q.
    cbn [length app] in Q. fold l in Q. rewrite Q. apply in_or_app. right. cbn [Nat.add].
    assert (Hb : forall k, (size l1 + k < size l1 + (1 + obytes w))%nat -> nth_error (encs l) (size l1 + k) = nth_error (enc (io (KMake KDict) p n)) k).
    { intros k Hk. unfold l. rewrite encs_app, encs_cons. rewrite nth_error_app2 by (unfold LayoutSpec.size; lia).
      unfold LayoutSpec.size at 1. rewrite Nat.add_comm, Nat.add_sub. apply nth_error_app1. rewrite size_io. unfold osize. lia. }
    remember (Sn (size l) - length l1)%nat as fuel. destruct fuel as [|[|fuel]]; [lia|lia|].
    pose proof (Hb 0%nat ltac:(lia)) as HZ. rewrite Nat.add_0_r in HZ. cbn [nth_error LayoutSpec.enc] in HZ.
    assert (H1 : exists v, nth_error (encs l) (size l1 + 1) = Some v).
    { rewrite Hb by lia. unfold io, LayoutSpec.enc. cbn [i_arg arg_bytes nth_error]. destruct w; cbn; eauto. }
    destruct H1 as (v & H1). cbn [walk]. rewrite HZ. right. cbn [io i_op]. rewrite byte_op_byte.
    replace (Sn (size l1) + operand_size w (op_code (KMake KDict)))%nat with (size l1 + 1)%nat by (change (operand_size w (op_code (KMake KDict))) with 0%nat; lia).
    cbn [walk]. rewrite H1. left. reflexivity.
  - unfold l. rewrite starts_app. intros Hi. apply in_app_or in Hi as [Hi|Hi].
    + apply starts_below in Hi. lia.
    + cbn [LayoutSpec.starts] in Hi. destruct Hi as [Hi|Hi]; [lia|]. apply starts_range in Hi. rewrite size_io in Hi. unfold osize in Hi. lia.
Qed.

(** so: a command is walked right exactly if it has no dict display *)
Theorem walk_command_iff s c code : lined s = true -> oks w s -> gen_command w i8 s c = Ok code ->
  code = encs (cstmt w i8 0 0 None None s) /\
  (walk w (Sn (length code)) 0 code = starts 0 (cstmt w i8 0 0 None None s) <-> Forall no_dict (cstmt w i8 0 0 None None s)).
Proof.
  intros Hl Ho H. pose proof H as H'. rewrite gen_command_layout in H' by assumption. injection H' as <-. split; [reflexivity|].
  split; [|intro Hn; exact (proj2 (walk_command s c _ Hl Ho H Hn))].
  pose proof (proj1 (stmt_waiting w i8) s Ho 0 0%nat None None) as W. set (l := cstmt w i8 0 0 None None s) in *. intro Hw.
  assert (D : Forall no_dict l \/ exists l1 p n l2, l = l1 ++ io (KMake KDict) p n :: l2 /\ Forall (plain w) l1).
  { clear Hw H. clearbody l. induction l as [|i l IH]; [left; constructor|]. inversion W as [|? ? Wi Wl]; subst.
    assert (Dec : no_dict i \/ exists p n, i = io (KMake KDict) p n).
    { destruct i as [o p a]. destruct o; try (left; intros p' n'; discriminate).
      destruct k; try (left; intros p' n'; discriminate). destruct a; try (left; intros p' n'; discriminate). right. eexists _, _. reflexivity. }
    destruct Dec as [Dec|(p & n & ->)]; [|right; exists [], p, n, l; auto].
    destruct (IH Wl) as [Hn|(l1 & p & n & l2 & -> & P)]; [left; constructor; assumption|].
    right. exists (i :: l1), p, n, l2. split; [reflexivity|]. constructor; [apply walkable_plain; [apply Wi|assumption]|exact P]. }
  destruct D as [D|(l1 & p & n & l2 & El & P)]; [exact D|]. exfalso.
  destruct (walk_dict l1 p n l2 P) as [A B]. cbv zeta in A, B. rewrite <- El in A, B. apply B. rewrite <- Hw. exact A.
Qed.

(** snek_code_line takes the operand of a pushed instruction for
    instructions: with a default value that starts with 66 (the code of the
    line instruction) it reads the line from the wrong place. *)
Theorem line_pushed l : (4 <= size l)%nat ->
  code_line w (encs (I KInt true (AByte 66) :: l)) = get_at (obytes w) 0 (encs l).
Proof.
  intro H. unfold code_line. rewrite encs_cons. cbn [app LayoutSpec.enc i_op i_push i_arg arg_bytes op_byte op_code].
  change (66 mod 256) with 66. cbn [length code_line_ nth_error]. change (44 + 128 =? op_code KLine) with false. cbn iota.
  change (operand_size w (44 + 128)) with 0%nat. cbn [Nat.add code_line_ nth_error]. change (66 =? op_code KLine) with true. cbn iota.
  reflexivity.
Qed.

(** ** Chains *)
(** The first operand at the start of the code, one instruction long: the
    comparison is not a chain. *)
Theorem gen_default_chain c f c1 g c2 h : c_buf c = [] ->
  exists c', gen w i8 (ECmp (ENum f) (LMore (BCmp c1) (ENum g) (LLast (BCmp c2) (ENum h)))) c = Ok c' /\
    c_buf c' = encs [inum i8 true f; inum i8 false g; i0 (KBin (BCmp c1)) true; inum i8 false h; i0 (KBin (BCmp c2)) false; i0 KNop false].
Proof.
  intros Hc. autorewrite with gen. cbn [obind].
  assert (R : rep w ([] ++ [inum i8 false f]) (add_number i8 f c)) by (apply rep_number; exact Hc).
  assert (P0 : c_prev (add_number i8 f c) = 0%nat).
  { destruct R as [_ [R|R]]; [discriminate|]. exact R. }
  autorewrite with gen. unfold chain_start at 1. cbn [Nat.eqb obind]. rewrite P0.
  assert (Pl : forall f l, push_last (l ++ [inum i8 false f]) (l ++ [inum i8 true f])).
  { clear. intros f l. unfold inum. destruct (feq _ _); [exists l, KInt, false, (AByte (i8 f mod 256))|exists l, KNum, false, (ANum f)]; auto. }
  destruct (rep_push _ _ _ _ R (Pl f [])) as (c3 & E3 & R3). rewrite E3. cbn [obind]. autorewrite with gen. cbn [obind]. autorewrite with gen.
  assert (R4 := rep_number w i8 _ _ g (rep_buf _ _ _ R3)).
  assert (R5 := rep_op w _ _ (KBin (BCmp c1)) (rep_buf _ _ _ R4)).
  unfold chain_start. cbn [Nat.eqb obind].
  assert (Po : push_last ((([] ++ [inum i8 true f]) ++ [inum i8 false g]) ++ [i0 (KBin (BCmp c1)) false])
                 ((([] ++ [inum i8 true f]) ++ [inum i8 false g]) ++ [i0 (KBin (BCmp c1)) true])).
  { do 4 eexists. split; reflexivity. }
  destruct (rep_push _ _ _ _ R5 Po) as (c6 & E6 & R6). rewrite E6. cbn [obind]. autorewrite with gen. cbn [obind].
  assert (R7 := rep_number w i8 _ _ h (rep_buf _ _ _ R6)).
  assert (R8 := rep_op w _ _ (KBin (BCmp c2)) (rep_buf _ _ _ R7)).
  assert (P5 : c_prev (add_op (KBin (BCmp c1)) (add_number i8 g c3)) = size [inum i8 true f; inum i8 false g]).
  { destruct R5 as [_ [R5|R5]]; [discriminate|]. rewrite R5. reflexivity. }
  rewrite P5. rewrite (proj2 (Nat.eqb_neq _ 0)) by (rewrite size_cons; pose proof (enc_pos w (inum i8 true f)); lia).
  match goal with |- context [patch_forward w _ (c_size ?x) _ _ _] => set (b := x) in * end.
  assert (Hs : c_size b = (size [inum i8 true f; inum i8 false g] + size [i0 (KBin (BCmp c1)) true; inum i8 false h; i0 (KBin (BCmp c2)) false])%nat).
  { rewrite (rep_size _ _ _ R8). rewrite <- size_app. reflexivity. }
  assert (Sn1 : forall p f, settled w (inum i8 p f)).
  { intros p f0. unfold inum. destruct (feq _ _); (split; [left; reflexivity|discriminate]). }
  assert (So : forall p c0, settled w (i0 (KBin (BCmp c0)) p)).
  { intros p c0. split; [|discriminate]. left. destruct c0; reflexivity. }
  assert (St : Forall (settled w) [i0 (KBin (BCmp c1)) true; inum i8 false h; i0 (KBin (BCmp c2)) false]) by (constructor; [apply So|constructor; [apply Sn1|constructor; [apply So|constructor]]]).
  destruct (patch_forward_at w [inum i8 true f; inum i8 false g] [i0 (KBin (BCmp c1)) true; inum i8 false h; i0 (KBin (BCmp c2)) false] [] b FCmp
    (Z.of_nat (c_size b))) as (c9 & E9 & B9 & _).
  { rewrite (rep_buf _ _ _ R8). reflexivity. }
  { apply settled_walkable, St. }
  { apply (settled_pending w), St. }
  rewrite <- Hs in E9. rewrite E9. cbn [obind]. eexists. split; [reflexivity|]. rewrite (settled_patch w) in B9 by exact St.
  cbn [add_op add_byte c_buf]. rewrite B9. cbn [app].
  rewrite !encs_cons. change (encs []) with (@nil Z). rewrite ?app_nil_r. rewrite <- !app_assoc. reflexivity.
Qed.

(** what chain_eq - eq takes the other comparisons to *)
Definition wrong_link (k : bop) : option numop :=
  match k with BIs => Some Nminus | BIsNot => Some Ntimes | BIn => Some Ndivide | BNotIn => Some Ndiv | _ => None end.
(** A chain that goes on after is, is not, in or not in: the link becomes an
    arithmetic instruction, with an operand that the virtual machine does not
    skip. *)
Theorem gen_other_chain l c a k n b k2 d : rep w l c -> l <> [] -> wrong_link k = Some n ->
  exists c', gen w i8 (ECmp (EId a) (LMore k (EId b) (LLast k2 (EId d)))) c = Ok c' /\
    let t := Z.of_nat (size l + 3 * osize w + osize w + 1) in
    c_buf c' = encs (l ++ [io KId true a; io KId false b; I (KBin (BNum n)) true (AOff t); io KId false d; i0 (KBin k2) false; i0 KNop false]).
Proof.
  intros R Hne Hk. autorewrite with gen. cbn [obind]. cbv zeta.
  assert (R1 := rep_off w _ _ KId a (rep_buf _ _ _ R)).
  assert (P1 : c_prev (add_off w KId a c) = size l).
  { destruct R1 as [_ [R1|R1]]; [destruct l; discriminate R1|]. rewrite R1, removelast_last. reflexivity. }
  autorewrite with gen. unfold chain_start at 1. cbn [Nat.eqb obind]. rewrite P1.
  assert (Pl : forall id l, push_last (l ++ [io KId false id]) (l ++ [io KId true id])) by (intros; do 4 eexists; split; reflexivity).
  destruct (rep_push _ _ _ _ R1 (Pl a l)) as (c2 & E2 & R2). rewrite E2. cbn [obind]. autorewrite with gen. cbn [obind]. autorewrite with gen.
  assert (R3 := rep_off w _ _ KId b (rep_buf _ _ _ R2)).
  assert (Ho : size l <> 0%nat) by (intro e; apply Hne, (size_zero w), e).
  destruct (chain_start_more w (l ++ [io KId true a]) _ k (size l) [io KId false b] Ho R3) as (c4 & c5 & E4 & E5 & R5).
  { destruct l; discriminate. }
  rewrite E4. cbn [obind]. rewrite E5. cbn [obind]. autorewrite with gen. cbn [obind].
  assert (R6 := rep_off w _ _ KId d (rep_buf _ _ _ R5)).
  assert (R7 := rep_op w _ _ (KBin k2) (rep_buf _ _ _ R6)).
  rewrite (proj2 (Nat.eqb_neq _ 0)) by exact Ho.
  match goal with |- context [patch_forward w _ (c_size ?x) _ _ _] => set (x0 := x) in * end.
  set (l2 := [io KId true a; io KId false b; io KForward true (fwd_code FCmp + 256 * (op_code (KBin k) + 6)); io KId false d; i0 (KBin k2) false]).
  assert (Hb : c_buf x0 = encs (l ++ l2 ++ [])).
  { rewrite (rep_buf _ _ _ R7), app_nil_r. unfold l2. rewrite <- !app_assoc. reflexivity. }
  assert (Hs : c_size x0 = (size l + size l2)%nat).
  { unfold c_size. rewrite Hb, app_nil_r, encs_app, app_length. reflexivity. }
  assert (H6 : op_code (KBin k) + 6 = op_code (KBin (BNum n))) by (destruct k; try discriminate Hk; injection Hk as <-; reflexivity).
  assert (Hw : Forall (walkable w) l2).
  { unfold l2. repeat apply Forall_cons; try apply Forall_nil; left; unfold io, i0; cbn [i_arg i_op arg_bytes]; rewrite ?le_bytes_length; try reflexivity.
    destruct k2 as [[]| | | | | |[]]; reflexivity. }
  assert (Hp : Forall pending_ok l2).
  { unfold l2. rewrite H6. repeat apply Forall_cons; try apply Forall_nil; intro e; try discriminate e. exists FCmp, (KBin (BNum n)). reflexivity. }
  destruct (patch_forward_at w l l2 [] x0 FCmp (Z.of_nat (c_size x0)) Hb Hw Hp) as (c9 & E9 & B9 & _).
  rewrite <- Hs in E9. rewrite E9. cbn [obind]. eexists. split; [reflexivity|].
  assert (Hm : map (patch1 FCmp (Z.of_nat (c_size x0))) l2 =
    [io KId true a; io KId false b; I (KBin (BNum n)) true (AOff (Z.of_nat (c_size x0))); io KId false d; i0 (KBin k2) false]).
  { unfold l2. rewrite H6. cbn [map]. unfold patch1 at 3. cbn [io i_op i_arg i_push].
    rewrite pending_mod, pending_div, op_of_code, Z.eqb_refl. reflexivity. }
  cbn [add_op add_byte c_buf]. rewrite B9, Hm, app_nil_r.
  replace (c_size x0) with (size l + 3 * osize w + osize w + 1)%nat
    by (rewrite Hs; unfold l2; rewrite !size_cons, !size_io, size_i0, size_nil; lia).
  rewrite !encs_app, !encs_cons. change (encs []) with (@nil Z). rewrite ?app_nil_r, <- !app_assoc. reflexivity.
Qed.
End Walk.

(** ** Number literals *)
Section Num.
Variable K : conf.
Variable F : loc -> option (func (list Z)).
Variable i8 : float -> Z.
Hypothesis Hi8 : forall f, -128 <= i8 f < 128.
Notation w := (e_width (cf_env K)).

(** the literal [f] gives the number [g]: the same one (there is no literal
    that is the negative zero) *)
Definition gives (f g : float) : Prop := if neg_zero f then g = f_zero \/ g = f else g = f.
Theorem literal_step code b p f links s : hosts w code b [inum i8 p f] -> aborted s = false ->
  exists g, gives f g /\
    forall s', pushes K p (set_a (PNum g) s) s' ->
      step K F (V s code b links) = Some (Next (V s' code (b + length (enc w (inum i8 p f))) links)).
Proof.
  intros Hh Ha. pose proof (step_at K F code b (inum i8 p f) links s Hh) as St. unfold inum in *.
  destruct (feq (f_of_Z (i8 f)) f) eqn:e.
  - specialize (St ltac:(discriminate) eq_refl). exists (f_of_Z (i8 f)). split.
    { unfold gives. destruct (neg_zero f) eqn:ez; [|symmetry; apply literal; auto].
      assert (Hr : representable (i8 f)) by (apply small_representable; unfold small; specialize (Hi8 f); lia).
      destruct (of_Z_int _ Hr) as [Hfin _]. destruct (feq_same _ _ Hfin e) as [H|[(s0 & H1) _]]; [right; symmetry; exact H|].
      left. pose proof (of_Z_not_neg_zero (i8 f)) as Q. rewrite H1 in *. destruct s0; [discriminate Q|reflexivity]. }
    intros s' Hp. rewrite St. cbn [i_op i_arg i_push ins]. unfold sbind, put_a, sret, outcome_of.
    rewrite wraps_mod by auto. unfold aborted in *. cbn [set_a s_m]. rewrite Ha, (pushes_eq _ _ _ _ Hp). reflexivity.
  - specialize (St ltac:(discriminate) eq_refl). exists f. split.
    + unfold gives. destruct (neg_zero f); auto.
    + intros s' Hp. rewrite St. cbn [i_op i_arg i_push ins]. unfold sbind, put_a, sret, outcome_of.
      unfold aborted in *. cbn [set_a s_m]. rewrite Ha, (pushes_eq _ _ _ _ Hp). reflexivity.
Qed.
End Num.

(** ** What the code of gen_default_chain computes *)
Section Chain.
Variable K : conf.
Variable i8 : float -> Z.
Variable FT : loc -> option (func fundef).
Variable F : loc -> option (func (list Z)).
Hypothesis HP : program K i8 FT F.
Notation w := (e_width (cf_env K)).
Notation F0 := (fun l => option_map (map_func (fun fd => encs w (cdef w i8 fd))) (FT l)).

Definition default_code (f : float) (c1 : cmpop) (g : float) (c2 : cmpop) (h : float) : list instr :=
  [inum i8 true f; inum i8 false g; i0 (KBin (BCmp c1)) true; inum i8 false h; i0 (KBin (BCmp c2)) false; i0 KNop false].
(** the comparison in parentheses *)
Definition nested (f : float) (c1 : cmpop) (g : float) (c2 : cmpop) (h : float) : expr :=
  ECmp (ECmp (ENum f) (LLast (BCmp c1) (ENum g))) (LLast (BCmp c2) (ENum h)).
Theorem default_chain_runs n f c1 g c2 h code b st links v st' :
  hosts w code b (default_code f c1 g c2 h) -> good K st ->
  ev K FT n (nested f c1 g c2 h) st = Val v st' ->
  s_a st' = v /\ reach K F (V st code b links) (V st' code (b + size w (default_code f c1 g c2 h)) links).
Proof.
  intros Hh Hg Hv. unfold default_code in *. unfold nested in Hv.
  apply hosts_cons in Hh as [H1 Hh]. apply hosts_cons in Hh as [H2 Hh]. apply hosts_cons in Hh as [H3 Hh].
  apply hosts_cons in Hh as [H4 Hh]. apply hosts_cons in Hh as [H5 H6].
  assert (Sm : sim K F0 code yes (ev K FT n (nested f c1 g c2 h)) false is_a b (b + size w (default_code f c1 g c2 h))).
  { unfold nested, default_code. destruct n as [|n]; [intros ? ? ? ?; exact Logic.I|]. rewrite ev_S.
    eapply sim_pos; [eapply sim_nop; [exact H6|]|reflexivity|rewrite !size_cons, size_nil, !size_i0; lia].
    eapply sim_wait.
    - destruct n as [|n]; [intros ? ? ? ?; exact Logic.I|]. rewrite ev_S.
      eapply sim_wait; [pose proof (program_sim K i8 FT F HP n) as (I1 & _); specialize (I1 (ENum f) true code b); autorewrite with lay in I1; apply I1; exact H1|].
      intro x. destruct n as [|n]; [intros ? ? ? ?; exact Logic.I|]. rewrite ev_links_S.
      eapply sim_bind; [pose proof (program_sim K i8 FT F HP n) as (I1 & _); eapply sim_ev_top; [exact (p_builtins _ _ _ _ HP)|exact I1|]; autorewrite with lay; rewrite size_one; exact H2|].
      intro y. cbv beta. apply sim_bin. autorewrite with lay. rewrite !size_one. exact H3.
    - intro x. destruct n as [|n]; [intros ? ? ? ?; exact Logic.I|]. rewrite ev_links_S.
      eapply sim_bind; [pose proof (program_sim K i8 FT F HP n) as (I1 & _); eapply sim_ev_top; [exact (p_builtins _ _ _ _ HP)|exact I1|]; autorewrite with lay; rewrite ?size_one; exact H4|].
      intro y. cbv beta. autorewrite with lay. rewrite !size_one. eapply sim_pos; [apply sim_bin; exact H5|reflexivity|]. rewrite ?size_one, ?size_i0. lia. }
  specialize (Sm st links Hg Logic.I). unfold nested in Sm. rewrite Hv in Sm. destruct Sm as (_ & A & R). split; [exact A|].
  apply (reach_ext _ _ _ (program_F _ _ _ _ HP)). apply R. reflexivity.
Qed.
End Chain.
