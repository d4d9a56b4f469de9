(** Every operation on the machine is tame (TameSpec.v). *)
From Coq Require Import ZArith Bool List Lia.
From Verif Require Import Base FloatModel PolyModel ValueModel SliceModel MathModel MachModel ListModel StrModel BinModel FrameModel TameSpec.
Import ListNotations.
Local Open Scope Z_scope.
Open Scope mach_scope.

Notation Sn := Datatypes.S.

Section Gen.
Variable E : env.
Context {T A B : Type}.
Variable pr : T -> mach.

Lemma amo_refl m : at_most_one m m.
Proof. unfold at_most_one. destruct (m_abort m) eqn:e; auto. Qed.
Lemma amo_trans m1 m2 m3 : at_most_one m1 m2 -> at_most_one m2 m3 -> at_most_one m1 m3.
Proof.
  unfold at_most_one. destruct (m_abort m1).
  - intros [-> ->]. auto.
  - intros [[-> ->]|(-> & e & ->)]; auto. intros [H ->]; eauto.
Qed.
Lemma amo_quiet m1 m2 : at_most_one m1 m2 -> m_abort m2 = false -> m_abort m1 = false.
Proof. unfold at_most_one. destruct (m_abort m1); auto. intros [-> _]. auto. Qed.

Lemma level_refl n m : level n n m m.
Proof. intros base H. auto. Qed.
Lemma level_trans n1 n2 n3 m1 m2 m3 : level n1 n2 m1 m2 -> level n2 n3 m2 m3 -> level n1 n3 m1 m3.
Proof. intros H1 H2 base Hb. destruct (H1 base Hb) as [Ha He]. destruct (H2 base Ha) as [-> ->]. auto. Qed.
Lemma level_weaken k n n' m m' : level n n' m m' -> level (n + k) (n' + k) m m'.
Proof.
  intros H base Hb. destruct (H (base + k)%nat ltac:(lia)) as [Ha He]. split; [lia|].
  replace base with (Nat.min base (base + k)) by lia. rewrite <- !firstn_firstn, He. reflexivity.
Qed.

Definition gbind (x : T -> option (A * T)) (f : A -> T -> option (B * T)) : T -> option (B * T) :=
  fun s => match x s with Some (a, s') => f a s' | None => None end.

Lemma tame_gbind n n1 n' (x : T -> option (A * T)) f :
  tame E pr n n1 x -> (forall a, tame E pr n1 n' (f a)) -> tame E pr n n' (gbind x f).
Proof.
  intros Hx Hf s b s' H. unfold gbind in H. destruct (x s) as [[a s1]|] eqn:e1; [|discriminate].
  destruct (Hx _ _ _ e1) as (O1 & L1 & K1). destruct (Hf _ _ _ _ H) as (O2 & L2 & K2).
  split; [eapply amo_trans; eauto|]. split; [congruence|]. intro Hq.
  destruct (K2 Hq) as [V2 G2]. destruct (K1 (amo_quiet _ _ O2 Hq)) as [V1 G1].
  split; [eapply level_trans; eauto|auto].
Qed.

Lemma tame_weaken k n n' (x : T -> option (A * T)) : tame E pr n n' x -> tame E pr (n + k) (n' + k) x.
Proof.
  intros Hx s a s' H. destruct (Hx _ _ _ H) as (O & L & K). split; [auto|]. split; [auto|].
  intro Hq. destruct (K Hq). split; [apply level_weaken|]; auto.
Qed.

(** the machine is the same as far as errors and the stack go *)
Definition same (m m' : mach) : Prop :=
  m_abort m' = m_abort m /\ m_log m' = m_log m /\ m_sp m' = m_sp m /\ m_stack m' = m_stack m.
Lemma tame_same n (x : T -> option (A * T)) :
  (forall s a s', x s = Some (a, s') -> same (pr s) (pr s')) -> tame E pr n n x.
Proof.
  intros Hx s a s' H. destruct (Hx _ _ _ H) as (Ha & Hl & Hp & Hs).
  split; [|split].
  - unfold at_most_one. rewrite Ha, Hl. destruct (m_abort (pr s)) eqn:e; auto.
  - rewrite Hs. reflexivity.
  - intros _. split; [|unfold sane; rewrite Hs, Hp; auto].
    intros base Hb. rewrite Hp, Hs. auto.
Qed.
Lemma same_refl m : same m m.
Proof. repeat split. Qed.
End Gen.

Section Prim.
Variable E : env.

Lemma t_ret {A} n (a : A) : mtame E n n (ret a).
Proof. apply tame_same. intros s a' s' H. injection H as <- <-. apply same_refl. Qed.
Lemma t_undef {A} n n' : mtame E n n' (@undef A).
Proof. intros s a s' H. discriminate. Qed.
Lemma t_bind {A B} n n1 n' (x : M A) (f : A -> M B) :
  mtame E n n1 x -> (forall a, mtame E n1 n' (f a)) -> mtame E n n' (bind x f).
Proof. apply tame_gbind. Qed.
Lemma t_error n n' e : mtame E n n' (error e).
Proof.
  intros s a s' H. unfold error in H. injection H as _ <-.
  destruct (m_abort s) eqn:e1; split; unfold at_most_one; rewrite ?e1; cbn; eauto; split; auto; discriminate || congruence.
Qed.
Lemma upd_length {A} n (x : A) l : length (upd n x l) = length l.
Proof. revert n. induction l as [|y l IH]; intros [|n]; cbn; auto. Qed.
Lemma upd_firstn {A} n (x : A) l : firstn n (upd n x l) = firstn n l.
Proof. revert n. induction l as [|y l IH]; intros [|n]; cbn; auto. f_equal. auto. Qed.
Lemma firstn_le {A} k n (l l' : list A) : (k <= n)%nat -> firstn n l = firstn n l' -> firstn k l = firstn k l'.
Proof. intros H He. replace k with (Nat.min k n) by lia. rewrite <- !firstn_firstn, He. reflexivity. Qed.
Lemma t_push n p : mtame E n (Sn n) (push E p).
Proof.
  intros s a s' H. unfold push in H. destruct (Nat.eqb_spec (m_sp s) (e_stack E)) as [He|He].
  - destruct (t_error n (Sn n) _ _ _ _ H) as (O & L & K). auto.
  - injection H as _ <-. cbn. split; [|split].
    + unfold at_most_one. cbn. destruct (m_abort s) eqn:e1; auto.
    + apply upd_length.
    + intros _. split.
      * intros base Hb. cbn. split; [lia|].
        apply (firstn_le _ (m_sp s)); [lia|]. apply upd_firstn.
      * unfold sane. cbn. rewrite upd_length. intros [? ?]. split; [auto|]. lia.
Qed.
Lemma t_pop n : mtame E (Sn n) n pop.
Proof.
  intros s a s' H. unfold pop in H. destruct (m_sp s) as [|k] eqn:e; [discriminate|].
  destruct (nth_error (m_stack s) k); [|discriminate]. injection H as _ <-. cbn. split; [|split; [reflexivity|]].
  - unfold at_most_one. cbn. destruct (m_abort s) eqn:e1; auto.
  - intros _. split; [intros base Hb; cbn; split; [lia|auto]|]. unfold sane. cbn. intros [? ?]. split; [auto|]. lia.
Qed.
Lemma t_drop k n : mtame E (k + n) n (drop k).
Proof.
  intros s a s' H. unfold drop in H. destruct (Nat.leb k (m_sp s)) eqn:e; [|discriminate].
  injection H as _ <-. cbn. split; [|split; [reflexivity|]].
  - unfold at_most_one. cbn. destruct (m_abort s) eqn:e1; auto.
  - intros _. split; [intros base Hb; cbn; split; [lia|auto]|]. unfold sane. cbn. intros [? ?]. split; [auto|]. lia.
Qed.
Lemma t_drop1 n : mtame E (Sn n) n (drop 1).
Proof. exact (t_drop 1 n). Qed.

Lemma junk_above_firstn n k l : (k <= n)%nat -> firstn k (junk_above n l) = firstn k l.
Proof.
  intro H. unfold junk_above. destruct (Nat.le_gt_cases n (length l)) as [Hn|Hn].
  - rewrite firstn_app, firstn_length, firstn_firstn.
    replace (k - Nat.min n (length l))%nat with O by lia. rewrite firstn_O, app_nil_r.
    f_equal. lia.
  - rewrite (skipn_all2 l), (firstn_all2 (n := n) l) by lia. cbn. rewrite app_nil_r. reflexivity.
Qed.
Lemma junk_above_length n l : length (junk_above n l) = length l.
Proof. unfold junk_above. rewrite app_length, map_length, <- app_length, firstn_skipn. reflexivity. Qed.
Lemma moved_facts m : m_abort (moved m) = m_abort m /\ m_log (moved m) = m_log m /\ m_sp (moved m) = m_sp m /\
  length (m_stack (moved m)) = length (m_stack m) /\
  forall k, (k <= m_sp m)%nat -> firstn k (m_stack (moved m)) = firstn k (m_stack m).
Proof. cbn. repeat split; [apply junk_above_length|]. intros. apply junk_above_firstn. auto. Qed.

Lemma t_alloc n z : mtame E n n (alloc E z).
Proof.
  intros s a s' H. unfold alloc in H. cbv zeta in H.
  set (m1 := set_nalloc _ _) in H.
  assert (F : m_abort m1 = m_abort s /\ m_log m1 = m_log s /\ m_sp m1 = m_sp s /\
    length (m_stack m1) = length (m_stack s) /\
    forall k, (k <= m_sp s)%nat -> firstn k (m_stack m1) = firstn k (m_stack s)).
  { subst m1. destruct (e_move E (m_nalloc s)); [apply moved_facts|repeat split]. }
  destruct F as (Fa & Fl & Fs & Fn & Fk). clearbody m1.
  assert (O : at_most_one s m1).
  { unfold at_most_one. rewrite Fa, Fl. destruct (m_abort s) eqn:e1; auto. }
  destruct (_ || _).
  - destruct (error EMemory m1) as [[u m2]|] eqn:e2; [|discriminate]. injection H as <- <-.
    destruct (t_error n n _ _ _ _ e2) as (O2 & L2 & K2).
    split; [eapply amo_trans; eauto|]. split; [congruence|]. intro Hq.
    exfalso. unfold error in e2. injection e2 as _ <-. destruct (m_abort m1) eqn:e3; [congruence|discriminate].
  - injection H as _ <-. split; [auto|]. split; [auto|]. intros _. split.
    + intros base Hb. split; [lia|]. apply Fk. lia.
    + unfold sane. rewrite Fn, Fs. auto.
Qed.
End Prim.

(** ** Walking over a definition *)
Create HintDb tame.
Ltac same_prim := intros; apply tame_same; intros ? ? ? H_;
  repeat match type of H_ with
  | match ?x with _ => _ end = _ => destruct x; try discriminate H_
  end; injection H_; intros; subst; repeat split.
#[export] Hint Resolve t_ret t_undef t_error t_push t_pop t_drop1 t_alloc : tame.

Ltac tm_step :=
  match goal with
  | |- mtame _ _ _ (bind _ _) => eapply t_bind; [|intro]
  | |- mtame _ _ _ (match ?x with _ => _ end) => destruct x eqn:?
  | |- mtame _ _ _ (let '_ := ?x in _) => destruct x
  | |- mtame _ _ _ ((fun _ => _) _) => cbv beta
  | |- mtame _ _ _ _ => solve [eauto with tame nocore]
  end.
Ltac tm := repeat tm_step.

Section Mach.
Variable E : env.
Notation mt := (mtame E).

Lemma t_pick n k : mt n n (pick k).
Proof. unfold pick. same_prim. Qed.
Lemma t_here n l : mt n n (here l).
Proof. unfold here. same_prim. Qed.
Lemma t_deref n p : mt n n (deref p).
Proof. unfold deref. same_prim. Qed.
Lemma t_assign_obj n p o : mt n n (assign_obj p o).
Proof. unfold assign_obj. same_prim. Qed.
Lemma t_new_obj n o : mt n n (new_obj o).
Proof. unfold new_obj. same_prim. Qed.
Lemma t_hold n o : mt n n (hold o).
Proof. unfold hold. same_prim. Qed.
Lemma t_use n o : mt n n (use o).
Proof. unfold use. same_prim. Qed.
Hint Resolve t_pick t_here t_deref t_assign_obj t_new_obj t_hold t_use : tame.
Lemma t_deref_list n p : mt n n (deref_list p).
Proof. unfold deref_list. tm. Qed.
Lemma t_assign_list n p o : mt n n (assign_list p o).
Proof. unfold assign_list. tm. Qed.
Lemma t_deref_str n p : mt n n (deref_str p).
Proof. unfold deref_str. tm. Qed.
Lemma t_list_to_poly n p : mt n n (list_to_poly p).
Proof. unfold list_to_poly. destruct p; [same_prim|tm]. Qed.
Lemma t_str_to_poly n p : mt n n (str_to_poly p).
Proof. unfold str_to_poly. destruct p; [same_prim|tm]. Qed.
Lemma t_poly_to_list n p : mt n n (poly_to_list p).
Proof. unfold poly_to_list. tm. Qed.
Lemma t_poly_to_str n p : mt n n (poly_to_str p).
Proof. unfold poly_to_str. tm. Qed.
Lemma t_lift {A} n (o : option A) : mt n n (lift o).
Proof. unfold lift. tm. Qed.
Hint Resolve t_deref_list t_assign_list t_deref_str t_list_to_poly t_str_to_poly t_poly_to_list t_poly_to_str t_lift : tame.

(** ListModel.v *)
Lemma t_push_list n p : mt n (Sn n) (push_list E p).
Proof. unfold push_list. tm. Qed.
Lemma t_pop_list n : mt (Sn n) n pop_list.
Proof. unfold pop_list. tm. Qed.
Hint Resolve t_push_list t_pop_list : tame.
Lemma t_list_resize n p z : mt n n (list_resize E p z).
Proof. unfold list_resize. tm. Qed.
Lemma t_head_alloc n k : mt n n (head_alloc E k).
Proof. unfold head_alloc. tm. Qed.
Hint Resolve t_list_resize t_head_alloc : tame.
Lemma t_list_make n z k : mt n n (list_make E z k).
Proof.
  unfold list_make. destruct (_ && _); [|tm].
  intros s a s' H. destruct (m_empty s).
  - injection H as <- <-. apply (t_ret E n tt s tt s). reflexivity.
  - revert s a s' H. apply t_bind with (n1 := n); [tm|]. intro a. same_prim.
Qed.
Hint Resolve t_list_make : tame.
Lemma t_list_append n a b : mt n n (list_append E a b).
Proof. unfold list_append. destruct (ptr_eqb b a); tm. Qed.
Lemma t_list_plus n a b : mt n n (list_plus E a b).
Proof. unfold list_plus. tm. Qed.
Lemma t_times_loop c : forall n d s p, mt n n (times_loop c d s p).
Proof. induction c as [|c IH]; intros; cbn [times_loop]; tm. Qed.
Hint Resolve t_list_append t_list_plus t_times_loop : tame.
Lemma t_list_times n a c : mt n n (list_times E a c).
Proof. unfold list_times. tm. Qed.
Lemma t_mutable n p : mt n n (mutable p).
Proof. unfold mutable. same_prim. Qed.
Lemma t_cmp n a b i : mt n n (cmp a b i).
Proof. unfold cmp. same_prim. Qed.
Lemma t_get_float n p : mt n n (get_float p).
Proof. unfold get_float. tm. Qed.
Hint Resolve t_list_times t_mutable t_cmp t_get_float : tame.
Lemma t_get_soffset n p : mt n n (get_soffset E p).
Proof. unfold get_soffset. tm. Qed.
Lemma t_nth_data n o i : mt n n (nth_data o i).
Proof. unfold nth_data. tm. Qed.
Hint Resolve t_get_soffset t_nth_data : tame.
Lemma t_dict_search f : forall n o p l r, mt n n (dict_search E f o p l r).
Proof. induction f as [|f IH]; intros; cbn [dict_search]; tm. Qed.
Lemma t_load n r : mt n n (load r).
Proof. unfold load. tm. Qed.
Lemma t_store n r v : mt n n (store r v).
Proof. unfold store. tm. Qed.
Lemma t_fail_ref n r p : mt n n (fail_ref r p).
Proof. unfold fail_ref. tm. Qed.
Lemma t_open_gap n l o p : mt n n (open_gap l o p).
Proof. unfold open_gap. tm. Qed.
Hint Resolve t_dict_search t_load t_store t_fail_ref t_open_gap : tame.
Lemma t_list_ref_ n l p r a : mt n n (list_ref_ E l p r a).
Proof. unfold list_ref_. tm. Qed.
Hint Resolve t_list_ref_ : tame.
Lemma t_list_ref n l p r : mt n n (list_ref E l p r).
Proof. unfold list_ref. tm. Qed.
Lemma t_list_get n l p r : mt n n (list_get E l p r).
Proof. unfold list_get. tm. Qed.
Hint Resolve t_list_ref t_list_get : tame.
Lemma t_list_del n l p : mt n n (list_del E l p).
Proof. unfold list_del. tm. Qed.
Hint Resolve t_list_del : tame.
Lemma t_elem_assign n l p v : mt n n (elem_assign E l p v).
Proof. unfold elem_assign. tm. Qed.
Lemma t_elem_del n l p : mt n n (elem_del E l p).
Proof. unfold elem_del. tm. Qed.
Lemma t_dict_fill : forall s n l, mt n n (dict_fill E s l).
Proof.
  fix IH 1. intros s n l. destruct s as [|[|s]]; cbn [dict_fill]; tm.
Qed.
Lemma t_list_fill s : forall n l, mt (s + n) n (list_fill s l).
Proof. induction s as [|s IH]; intros; cbn [list_fill plus]; tm. Qed.
Hint Resolve t_elem_assign t_elem_del t_dict_fill t_list_fill : tame.
Lemma t_list_imm s n k : mt (s + n) n (list_imm E s k).
Proof. unfold list_imm. pose proof (t_drop E s). tm. Qed.
Lemma t_list_slice n l s : mt n n (list_slice E l s).
Proof. unfold list_slice. tm. Qed.
Lemma t_in_scan f : forall n a b o s, mt n n (in_scan E f a b o s).
Proof. induction f as [|f IH]; intros; cbn [in_scan]; tm. Qed.
Hint Resolve t_list_imm t_list_slice t_in_scan : tame.
Lemma t_list_in n a b : mt n n (list_in E a b).
Proof. unfold list_in. tm. Qed.
Lemma t_poly_len n a : mt n n (poly_len a).
Proof. unfold poly_len. tm. Qed.
Hint Resolve t_list_in t_poly_len : tame.

(** StrModel.v *)
Lemma t_new_str n b s : mt n n (new_str b s).
Proof. unfold new_str. tm. Qed.
Hint Resolve t_new_str : tame.
Definition pushed (p : option ptr) : nat := match p with None => 0 | Some _ => 1 end.
Definition pushed_src (s : src) : nat := match s with SText _ => 0 | SPool _ => 1 end.
Lemma t_push_str n p : mt n (pushed p + n) (push_str E p).
Proof. unfold push_str. destruct p; cbn [pushed pushed_src plus]; tm. Qed.
Lemma t_pop_str n p : mt (pushed p + n) n (pop_str p).
Proof. unfold pop_str. destruct p; cbn [pushed pushed_src plus]; tm. Qed.
Lemma t_push_src n p : mt n (pushed_src p + n) (push_src E p).
Proof. unfold push_src. destruct p; cbn [pushed pushed_src plus]; [unfold push_str|]; tm. Qed.
Lemma t_pop_src n p : mt (pushed_src p + n) n (pop_src p).
Proof. unfold pop_src. destruct p; cbn [pushed pushed_src plus]; tm. Qed.
Lemma t_push_str1 n p : mt n (Sn n) (push_str E (Some p)).
Proof. exact (t_push_str n (Some p)). Qed.
Lemma t_pop_str1 n p : mt (Sn n) n (pop_str (Some p)).
Proof. exact (t_pop_str n (Some p)). Qed.
Lemma t_read_src n p : mt n n (read_src p).
Proof. unfold read_src. tm. Qed.
Lemma t_read_opt n p : mt n n (read_opt p).
Proof. unfold read_opt. tm. Qed.
Hint Resolve t_push_str t_pop_str t_push_src t_pop_src t_push_str1 t_pop_str1 t_read_src t_read_opt : tame.
Lemma t_string_make n c : mt n n (string_make E c).
Proof. unfold string_make. tm. Qed.
Hint Resolve t_string_make : tame.
Lemma t_string_get n s p r : mt n n (string_get E s p r).
Proof. unfold string_get. tm. Qed.
Lemma t_string_catn n a o l b o' l' : mt n n (string_catn E a o l b o' l').
Proof. unfold string_catn. tm. Qed.
Hint Resolve t_string_get t_string_catn : tame.
Lemma t_string_cat n a b : mt n n (string_cat E a b).
Proof. unfold string_cat. tm. Qed.
Lemma t_string_slice n a s : mt n n (string_slice E a s).
Proof. unfold string_slice. destruct (sl_identity s); [tm|]. tm. Qed.
Lemma t_string_times n a b : mt n n (string_times E a b).
Proof. unfold string_times. tm. Qed.
Lemma t_buf_put n p s : mt n n (buf_put E p s).
Proof. unfold buf_put. tm. Qed.
Hint Resolve t_string_cat t_string_slice t_string_times t_buf_put : tame.

Section Format.
Variable T : texts.
Variable B : Type.
Variable put : B -> src -> M B.
Hypothesis Hput : forall n b s, mt n n (put b s).
Lemma t_put_chars cs : forall n b, mt n n (put_chars B put b cs).
Proof. induction cs as [|c cs IH]; intros; cbn [put_chars]; tm. Qed.
Lemma t_poly_format f : forall n b a c, mt n n (poly_format E T B put f b a c).
Proof.
  induction f as [|f IH]; intros; cbn [poly_format]; [tm|]. pose proof t_put_chars.
  repeat (tm_step ||
    match goal with
    | |- mtame _ ?n ?n' (?g ?k ?o ?b) =>
        is_fix g; unify n n'; generalize k as k_; generalize o as o_; generalize b as b_; intros b_ o_ k_; revert b_ o_;
        induction k_; intros
    | |- mtame _ ?n _ (fun m : mach => _) => intros ? ? ? H_; exact (Hput n _ _ _ _ _ H_)
    end).
Qed.
End Format.

Section Interpolate.
Variable T : texts.
Lemma t_buf_format n r a c : mt n n (buf_format E T r a c).
Proof.
  intros s x s' H. unfold buf_format in H.
  refine (t_poly_format T _ (buf_put E) _ _ n r a c s x s' H). intros. tm.
Qed.
Hint Resolve t_buf_format : tame.
Lemma t_interp_loop f : forall n a arg il z p o r, mt n n (interp_loop E T f a arg il z p o r).
Proof. induction f as [|f IH]; intros; cbn [interp_loop]; tm. Qed.
Hint Resolve t_interp_loop : tame.
Lemma t_string_interpolate n a arg : mt n n (string_interpolate E T a arg).
Proof. unfold string_interpolate. tm. Qed.
End Interpolate.
Hint Resolve t_string_interpolate : tame.
Lemma t_poly_print T n out a c : mt n n (poly_print E T out a c).
Proof.
  intros s x s' H. unfold poly_print in H.
  refine (t_poly_format T _ file_put _ _ n out a c s x s' H). intros. unfold file_put. tm.
Qed.
Lemma t_builtin_ord n sgn a : mt n n (builtin_ord sgn a).
Proof. unfold builtin_ord. tm. Qed.
Lemma t_builtin_chr n a : mt n n (builtin_chr E a).
Proof. unfold builtin_chr. tm. Qed.

(** BinModel.v *)
Section Bin.
Variable T : texts.
Variable powf : float -> float -> outcome float.
Lemma t_num_op n o a b : mt n n (num_op powf o a b).
Proof. unfold num_op. tm. Qed.
Lemma t_in_op n a b p : mt n n (in_op E a b p).
Proof. unfold in_op. tm. Qed.
Lemma t_plus_op n a b p : mt n n (plus_op E a b p).
Proof. unfold plus_op. tm. Qed.
Lemma t_times_op n a b : mt n n (times_op E a b).
Proof. unfold times_op. tm. Qed.
Hint Resolve t_num_op t_in_op t_plus_op t_times_op : tame.
Lemma t_other_op n a o b p : mt n n (other_op E T a o b p).
Proof. unfold other_op. tm. Qed.
Lemma t_array_op n a b : mt n n (array_op E a b).
Proof. unfold array_op. tm. Qed.
Hint Resolve t_other_op t_array_op : tame.
Lemma t_binary n a o b p : mt n n (binary E T powf a o b p).
Proof. unfold binary. destruct o; try solve [tm]. Qed.
Lemma t_elem_ref n : mt (Sn (Sn n)) n (elem_ref E).
Proof. unfold elem_ref. tm. Qed.
Hint Resolve t_binary t_elem_ref : tame.
Lemma t_assign_elem n a : mt (Sn (Sn n)) n (assign_elem E a).
Proof. unfold assign_elem. tm. Qed.
Hint Resolve t_assign_elem : tame.
Lemma t_augment_elem n o a : mt (Sn (Sn n)) n (augment_elem E T powf o a).
Proof.
  unfold augment_elem. intros s x s' H. unfold bind in H at 1.
  destruct (elem_ref E s) as [[r s1]|] eqn:e1; [|discriminate].
  destruct r as [r|]; [|revert H; injection 1 as <- <-; refine (t_bind E _ _ n (elem_ref E) (fun _ => ret a) (t_elem_ref n) _ s a s1 _);
    [intro; tm|unfold bind; rewrite e1; reflexivity]].
  unfold bind in H at 1. unfold unpop2 in H at 1.
  set (s2 := set_stack _ _ _) in H.
  assert (Hr : mt (Sn (Sn n)) n (let* v := load r in let* a := binary E T powf v (BNum o) a true in assign_elem E a)) by tm.
  destruct (t_elem_ref n _ _ _ e1) as (O1 & L1 & K1).
  destruct (Hr _ _ _ H) as (O2 & L2 & K2).
  assert (Q12 : at_most_one s1 s2) by (unfold at_most_one; cbn; destruct (m_abort s1); auto).
  split; [eapply amo_trans; [exact O1|eapply amo_trans; eauto]|].
  split; [rewrite L2; cbn; congruence|]. intro Hq. destruct (K2 Hq) as [V2 G2].
  pose proof (amo_quiet _ _ O2 Hq) as Hq2. cbn in Hq2.
  destruct (K1 Hq2) as [V1 G1]. split.
  - intros base Hb. destruct (V1 base ltac:(lia)) as [Ha Hs].
    destruct (V2 base ltac:(cbn; lia)) as [-> ->]. cbn. auto.
  - intros [Hl Hp]. apply G2. split; cbn; [congruence|].
    destruct (Nat.le_gt_cases (Sn (Sn n)) (m_sp s)) as [Hle|Hgt].
    + destruct (V1 (m_sp s - Sn (Sn n))%nat ltac:(lia)) as [Ha _]. lia.
    + (* elem_ref pops twice *)
      destruct (t_elem_ref O _ _ _ e1) as (_ & _ & K). destruct (K Hq2) as [V _].
      assert (2 <= m_sp s)%nat.
      { unfold elem_ref, bind, pop in e1. destruct (m_sp s) as [|[|k]]; [discriminate| |lia].
        destruct (nth_error (m_stack s) 0); discriminate. }
      destruct (V (m_sp s - 2)%nat ltac:(lia)) as [Ha _]. lia.
Qed.
End Bin.
End Mach.

#[export] Hint Resolve t_pick t_here t_deref t_assign_obj t_new_obj t_hold t_use t_deref_list t_assign_list t_deref_str t_list_to_poly t_str_to_poly t_poly_to_list t_poly_to_str t_lift t_push_list t_pop_list t_list_resize t_head_alloc t_list_make t_list_append t_list_plus t_times_loop t_list_times t_mutable t_cmp t_get_float t_get_soffset t_nth_data t_dict_search t_load t_store t_fail_ref t_open_gap t_list_ref_ t_list_ref t_list_get t_list_del t_elem_assign t_elem_del t_dict_fill t_list_fill t_list_imm t_list_slice t_in_scan t_list_in t_poly_len t_new_str t_push_str t_pop_str t_push_src t_pop_src t_push_str1 t_pop_str1 t_read_src t_read_opt t_string_make t_string_get t_string_catn t_string_cat t_string_slice t_string_times t_buf_put t_buf_format t_interp_loop t_string_interpolate t_poly_print t_builtin_ord t_builtin_chr t_num_op t_in_op t_plus_op t_times_op t_other_op t_array_op t_binary t_elem_ref t_assign_elem t_augment_elem : tame.
