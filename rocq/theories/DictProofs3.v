(** Dictionaries behave as finite maps. *)
From Coq Require Import Sorted.
From Verif Require Import Tac Base FloatModel PolyModel ValueModel OrderSpec OrderProofs OrderProofs2 SliceModel SliceSpec SliceProofs MachModel ListModel MachSpec ListSpec DictSpec MachProofs FrameProofs ListProofs ListProofs2 ListProofs3 DictProofs DictProofs2.
Local Open Scope Z_scope.
Open Scope mach_scope.

Lemma firstn_In : forall A (l : list A) n x, In x (firstn n l) -> In x l.
Proof. intros A l n x H. rewrite <- (firstn_skipn n l). apply in_app_iff. left. exact H. Qed.
Lemma skipn_In : forall A (l : list A) n x, In x (skipn n l) -> In x l.
Proof. intros A l n x H. rewrite <- (firstn_skipn n l). apply in_app_iff. right. exact H. Qed.

Lemma Forall2_length : forall A B (R : A -> B -> Prop) l l', Forall2 R l l' -> length l = length l'.
Proof. induction 1; cbn; auto. Qed.
Arguments Forall2_length {A B R l l'}.

(** * Sorted association lists *)
Definition alist := list (value * poly).
Definition vlt (a b : value * poly) : Prop := value_lt (fst a) (fst b).

Definition holds (al : alist) (k : value) (r : option poly) : Prop :=
  match r with
  | Some v => exists k', In (k', v) al /\ value_eq k' k
  | None => forall k' v, In (k', v) al -> ~ value_eq k' k
  end.

Section Keys.
Variable K : value -> Prop.
Hypothesis PF : prefix_free K.

Lemma k_lt : forall a b, K a -> K b -> (poly_cmp a b < 0 <-> value_lt a b).
Proof. intros a b Ha Hb. destruct (PF a b Ha Hb) as (C & _ & N). destruct (PF b b Hb Hb) as (C' & _). apply poly_cmp_lt; auto. Qed.
Lemma k_swap : forall a b, K a -> K b -> Z.sgn (poly_cmp b a) = - Z.sgn (poly_cmp a b).
Proof. intros a b Ha Hb. destruct (PF a b Ha Hb) as (C & _ & N). destruct (PF b b Hb Hb) as (C' & _). apply poly_cmp_lt; auto. Qed.
Lemma k_eq : forall a b, K a -> K b -> (poly_cmp a b = 0 <-> value_eq a b).
Proof. intros a b Ha Hb. destruct (PF a b Ha Hb) as (C & _ & N). destruct (PF b b Hb Hb) as (C' & _). apply poly_cmp_eq; auto. Qed.
Lemma k_gt : forall a b, K a -> K b -> (0 < poly_cmp a b <-> value_lt b a).
Proof. intros a b Ha Hb. rewrite <- (k_lt b a Hb Ha). pose proof (k_swap a b Ha Hb). lia. Qed.
Lemma k_lt_neq : forall a b, K a -> K b -> value_lt a b -> ~ value_eq a b.
Proof. intros a b Ha Hb H E. apply (k_lt a b Ha Hb) in H. apply (k_eq a b Ha Hb) in E. lia. Qed.
Lemma k_gt_neq : forall a b, K a -> K b -> value_lt b a -> ~ value_eq a b.
Proof. intros a b Ha Hb H E. apply (k_gt a b Ha Hb) in H. apply (k_eq a b Ha Hb) in E. lia. Qed.

(** The keys before [c] are smaller than [k], those after [c] bigger; the one
    at [c] is [k] or bigger. *)
Definition placed (al : alist) (k : value) (c : nat) : Prop :=
  (c <= length al)%nat /\ Forall (fun a => value_lt (fst a) k) (firstn c al) /\
  match skipn c al with
  | [] => True
  | a :: _ => value_eq (fst a) k \/ value_lt k (fst a)
  end.

Lemma sorted_app : forall (a b : alist), StronglySorted vlt (a ++ b) <->
  StronglySorted vlt a /\ StronglySorted vlt b /\ Forall (fun x => Forall (vlt x) b) a.
Proof.
  induction a as [|x a IH]; intros b; cbn [app].
  - split; [intros H; split; [constructor | split; [exact H | constructor]] | intros (_ & H & _); exact H].
  - split.
    + intros H. inversion H as [|? ? H1 H2]; subst. apply IH in H1. destruct H1 as (A & B & C).
      apply Forall_app in H2. destruct H2 as [D F]. split; [constructor; auto|]. split; [exact B|]. constructor; auto.
    + intros (H & B & C). inversion H as [|? ? H1 H2]; subst. inversion C; subst. constructor; [apply IH; auto | apply Forall_app; auto].
Qed.

Definition sorted_keys (al : alist) : Prop := StronglySorted vlt al /\ Forall (fun a => K (fst a)) al.

Lemma placed_rest : forall al k c, sorted_keys al -> K k -> placed al k c ->
  Forall (fun a => value_lt k (fst a)) (skipn (S c) al) /\
  (forall a, nth_error al c = Some a -> ~ value_eq (fst a) k -> Forall (fun a => value_lt k (fst a)) (skipn c al)).
Proof.
  intros al k c [S0 KA] Hk (Hc & Hpre & Hat).
  assert (Hs : StronglySorted vlt (skipn c al)).
  { rewrite <- (firstn_skipn c al) in S0. apply sorted_app in S0. apply S0. }
  replace (skipn (S c) al) with (skipn 1 (skipn c al)) by (rewrite skipn_skipn'; f_equal; lia).
  destruct (skipn c al) as [|a r] eqn:E.
  - split; [constructor|]. intros. constructor.
  - inversion Hs as [|? ? H1 H2]; subst. cbn [skipn].
    assert (Hr : Forall (fun a => value_lt k (fst a)) r).
    { eapply Forall_impl; [| exact H2]. intros b Hb. unfold vlt in Hb. destruct Hat as [Hat|Hat].
      - eapply value_lt_eq_l; [apply value_eq_sym; exact Hat | exact Hb].
      - eapply value_lt_trans; eauto. }
    split; [exact Hr|]. intros a' Ha' Hn.
    assert (a' = a). { rewrite <- (firstn_skipn c al), nth_error_app2, firstn_length_le, Nat.sub_diag, E in Ha' by (rewrite ?firstn_length; lia). cbn in Ha'. congruence. }
    subst a'. constructor; [| exact Hr]. destruct Hat; [contradiction | assumption].
Qed.

Definition arepl (al : alist) c kv := firstn c al ++ kv :: skipn (S c) al : alist.
Definition ains (al : alist) c kv := firstn c al ++ kv :: skipn c al : alist.
Definition arem (al : alist) c := firstn c al ++ skipn (S c) al : alist.

Lemma nth_split' : forall A (l : list A) c x, nth_error l c = Some x -> l = firstn c l ++ x :: skipn (S c) l.
Proof. induction l as [|y l IH]; intros [|c] x H; try discriminate; cbn in *; [congruence|]. f_equal. apply IH. exact H. Qed.

Lemma skipn_S : forall A (l : list A) c x, nth_error l c = Some x -> skipn c l = x :: skipn (S c) l.
Proof. induction l as [|y l IH]; intros [|c] x H; try discriminate; cbn in *; [congruence|]. apply IH. exact H. Qed.

Lemma repl_sorted : forall al c a v, sorted_keys al -> nth_error al c = Some a -> sorted_keys (arepl al c (fst a, v)).
Proof.
  intros al c a v [S0 KA] Ha. unfold arepl. rewrite (nth_split' _ _ _ _ Ha) in S0, KA. apply sorted_app in S0.
  apply Forall_app in KA. destruct S0 as (A & B & C), KA as [KA KB]. inversion B as [|? ? B1 B2]; subst. inversion KB; subst.
  split.
  - apply sorted_app. split; [exact A|]. split; [constructor; [exact B1 | exact B2]|].
    eapply Forall_impl; [| exact C]. intros x Hx. inversion Hx; subst. constructor; assumption.
  - apply Forall_app. split; [exact KA|]. constructor; assumption.
Qed.
Lemma rem_sorted : forall al c, sorted_keys al -> sorted_keys (arem al c).
Proof.
  intros al c [S0 KA]. unfold arem. destruct (nth_error al c) as [a|] eqn:Ha.
  - rewrite (nth_split' _ _ _ _ Ha) in S0, KA. apply sorted_app in S0.
    apply Forall_app in KA. destruct S0 as (A & B & C), KA as [KA KB]. inversion B as [|? ? B1 B2]; subst. inversion KB; subst.
    split.
    + apply sorted_app. split; [exact A|]. split; [exact B1|].
      eapply Forall_impl; [| exact C]. intros x Hx. inversion Hx; subst. assumption.
    + apply Forall_app. split; assumption.
  - apply nth_error_None in Ha. rewrite firstn_all2, skipn_all2, app_nil_r by lia. split; assumption.
Qed.
Lemma ins_sorted : forall al c k v, sorted_keys al -> K k -> placed al k c ->
  (forall a, nth_error al c = Some a -> ~ value_eq (fst a) k) -> sorted_keys (ains al c (k, v)).
Proof.
  intros al c k v S0 Hk P Hn. destruct (placed_rest al k c S0 Hk P) as [_ Hr]. destruct P as (Hc & Hpre & Hat).
  destruct S0 as [S0 KA].
  assert (Hr' : Forall (fun a => value_lt k (fst a)) (skipn c al)).
  { destruct (nth_error al c) as [a|] eqn:Ha; [eauto|]. apply nth_error_None in Ha. rewrite skipn_all2 by lia. constructor. }
  unfold ains. rewrite <- (firstn_skipn c al) in S0, KA. apply sorted_app in S0. apply Forall_app in KA.
  destruct S0 as (A & B & C), KA as [KA KB]. split.
  - apply sorted_app. split; [exact A|]. split; [constructor; [exact B | exact Hr']|].
    rewrite Forall_forall in *. intros x Hx. constructor; [apply Hpre; exact Hx | apply C; exact Hx].
  - apply Forall_app. split; [exact KA|]. constructor; [exact Hk | exact KB].
Qed.

(** What the updates do to the map. *)
Lemma holds_iff : forall al k r, holds al k r -> forall al',
  (forall k' v, value_eq k' k -> (In (k', v) al <-> In (k', v) al')) -> holds al' k r.
Proof.
  intros al k [v|] H al' Hi.
  - destruct H as (k' & Hin & He). exists k'. split; [apply Hi; auto | exact He].
  - intros k' v Hin He. apply (H k' v); [apply Hi; auto | exact He].
Qed.

Lemma in_middle : forall A (x y : A) a b, In x (a ++ y :: b) <-> x = y \/ In x (a ++ b).
Proof. intros. rewrite !in_app_iff. cbn [In]. intuition auto. Qed.

Lemma repl_same : forall al c (a : value * poly) v k, value_eq (fst a) k -> holds (arepl al c (fst a, v)) k (Some v).
Proof. intros al c a v k He. exists (fst a). split; [unfold arepl; apply in_middle; left; reflexivity | exact He]. Qed.
Lemma repl_other : forall al c a v k r, nth_error al c = Some a -> ~ value_eq (fst a) k ->
  holds al k r -> holds (arepl al c (fst a, v)) k r.
Proof.
  intros al c a v k r Ha Hn H. eapply holds_iff; [exact H|]. intros k' v' He.
  rewrite (nth_split' _ _ _ _ Ha) at 1. unfold arepl. rewrite !in_middle.
  split; intros [E|E]; auto; exfalso; apply Hn; [subst a; exact He | injection E as -> _; exact He].
Qed.
Lemma ins_same : forall al c k k' v, value_eq k k' -> holds (ains al c (k, v)) k' (Some v).
Proof. intros al c k k' v He. exists k. split; [unfold ains; apply in_middle; left; reflexivity | exact He]. Qed.
Lemma ins_other : forall al c k k' v r, ~ value_eq k k' -> holds al k' r -> holds (ains al c (k, v)) k' r.
Proof.
  intros al c k k' v r Hn H. eapply holds_iff; [exact H|]. intros k2 v' He. unfold ains. rewrite in_middle, firstn_skipn.
  split; [auto|]. intros [E|E]; [| exact E]. exfalso. apply Hn. injection E as -> _. exact He.
Qed.
Lemma rem_same : forall al c (a : value * poly) k k', sorted_keys al -> K k -> placed al k c -> nth_error al c = Some a -> value_eq k k' -> K k' ->
  holds (arem al c) k' None.
Proof.
  intros al c a k k' S0 Hk P Ha He Hk' k2 v Hin. destruct (placed_rest al k c S0 Hk P) as [Hr _]. destruct P as (Hc & Hpre & Hat).
  destruct S0 as [_ KA]. rewrite Forall_forall in *. unfold arem in Hin. apply in_app_iff in Hin. destruct Hin as [Hin|Hin].
  - specialize (Hpre _ Hin). cbn in Hpre. intros E. apply (k_lt_neq k2 k); auto.
    + apply (KA (k2, v)). eapply firstn_In; eauto.
    + eapply value_eq_trans; [exact E | apply value_eq_sym; exact He].
  - specialize (Hr _ Hin). cbn in Hr. intros E. apply (k_gt_neq k2 k); auto.
    + apply (KA (k2, v)). eapply skipn_In; eauto.
    + eapply value_eq_trans; [exact E | apply value_eq_sym; exact He].
Qed.
Lemma rem_other : forall al c a k r, nth_error al c = Some a -> ~ value_eq (fst a) k -> holds al k r -> holds (arem al c) k r.
Proof.
  intros al c a k r Ha Hn H. eapply holds_iff; [exact H|]. intros k' v' He.
  rewrite (nth_split' _ _ _ _ Ha) at 1. unfold arem. rewrite in_middle.
  split; [| auto]. intros [E|E]; [| exact E]. exfalso. apply Hn. subst a. exact He.
Qed.

(** * The dictionary of the machine and its association list *)
Definition shows_al (h : list obj) (kvs : list (poly * poly)) (al : alist) : Prop :=
  Forall2 (fun kv a => tree h (fst kv) (fst a) /\ snd kv = snd a) kvs al.

Lemma shows_nth : forall h kvs al c kv, shows_al h kvs al -> nth_error kvs c = Some kv ->
  exists a, nth_error al c = Some a /\ tree h (fst kv) (fst a) /\ snd kv = snd a.
Proof.
  intros h kvs al c kv H. revert c. induction H as [|x a kvs al Hx _ IH]; intros [|c] E; try discriminate.
  - cbn in E. injection E as <-. exists a. split; [reflexivity | exact Hx].
  - apply IH. exact E.
Qed.
Lemma shows_none : forall h kvs al c, shows_al h kvs al -> nth_error kvs c = None -> nth_error al c = None.
Proof. intros h kvs al c H E. apply nth_error_None in E. apply nth_error_None. rewrite <- (Forall2_length H). exact E. Qed.

Lemma rank_placed : forall h kvs al p k c, shows_al h kvs al -> sorted_keys al -> tree h p k -> K k ->
  rank h kvs p 0 (length kvs) c -> placed al k c.
Proof.
  intros h kvs al p k c Sh S0 Ht Hk (Hc & Hl & Hr). assert (Hlen := Forall2_length Sh).
  assert (KA : forall a, In a al -> K (fst a)) by (destruct S0 as [_ KA]; rewrite Forall_forall in KA; exact KA).
  split; [lia|]. split.
  - destruct c as [|c']; [constructor|]. destruct Hl as (kv & d & Hkv & Hd & Hlt); [lia|].
    replace (S c' - 1)%nat with c' in Hkv by lia.
    destruct (shows_nth _ _ _ _ _ Sh Hkv) as (a & Ha & Hta & _).
    pose proof (cz_fun _ _ _ _ _ Hd (cz_tree _ _ _ _ _ Hta Ht)) as ->.
    assert (Hka : K (fst a)) by (eapply KA, nth_error_In; eauto).
    apply (k_lt _ _ Hka Hk) in Hlt. destruct S0 as [S0 _].
    assert (E : firstn (S c') al = firstn c' al ++ [a]).
    { clear -Ha. revert al Ha. induction c' as [|c IH]; intros [|x al] H; try discriminate; cbn in *; [congruence|].
      f_equal. apply (IH al). exact H. }
    rewrite <- (firstn_skipn (S c') al), E in S0. apply sorted_app in S0. destruct S0 as (S0 & _ & _).
    apply sorted_app in S0. destruct S0 as (_ & _ & S0). rewrite E. apply Forall_app. split.
    + eapply Forall_impl; [| exact S0]. intros x Hx. inversion Hx; subst. eapply value_lt_trans; [eassumption | exact Hlt].
    + constructor; [exact Hlt | constructor].
  - destruct (skipn c al) as [|a r] eqn:E; [exact I|].
    assert (Ha : nth_error al c = Some a).
    { rewrite <- (firstn_skipn c al), E, nth_error_app2; rewrite firstn_length_le by lia; [| lia]. rewrite Nat.sub_diag. reflexivity. }
    assert (Hlt := nth_error_lt _ _ _ _ Ha). destruct Hr as (kv & d & Hkv & Hd & Hge); [lia|].
    destruct (shows_nth _ _ _ _ _ Sh Hkv) as (a' & Ha' & Hta & _). assert (a' = a) by congruence. subst a'.
    pose proof (cz_fun _ _ _ _ _ Hd (cz_tree _ _ _ _ _ Hta Ht)) as ->.
    assert (Hka : K (fst a)) by (eapply KA, nth_error_In; eauto).
    destruct (Z.eq_dec (poly_cmp (fst a) k) 0) as [Hz|Hz]; [left; apply (k_eq _ _ Hka Hk); exact Hz|].
    right. apply (k_gt _ _ Hka Hk). lia.
Qed.

Lemma hit_eq : forall h kvs al p k c kv, shows_al h kvs al -> sorted_keys al -> tree h p k -> K k ->
  hit h kvs p c kv -> exists a, nth_error al c = Some a /\ tree h (fst kv) (fst a) /\ snd kv = snd a /\ value_eq (fst a) k.
Proof.
  intros h kvs al p k c kv Sh [_ KA] Ht Hk (Hkv & Hd). destruct (shows_nth _ _ _ _ _ Sh Hkv) as (a & Ha & Hta & Hv).
  exists a. repeat split; auto. rewrite Forall_forall in KA. apply value_eq_sym.
  apply k_eq; [exact Hk | apply KA; eapply nth_error_In; eauto|]. symmetry.
  exact (cz_fun _ _ _ _ _ Hd (cz_tree _ _ _ _ _ Ht Hta)).
Qed.
Lemma miss_neq : forall h kvs al p k c, shows_al h kvs al -> sorted_keys al -> tree h p k -> K k ->
  miss h kvs p c -> forall a, nth_error al c = Some a -> ~ value_eq (fst a) k.
Proof.
  intros h kvs al p k c Sh [_ KA] Ht Hk Hm a Ha He. destruct Hm as [->|(kv & d & Hkv & Hd & Nd)].
  - apply nth_error_lt in Ha. rewrite <- (Forall2_length Sh) in Ha. lia.
  - destruct (shows_nth _ _ _ _ _ Sh Hkv) as (a' & Ha' & Hta & Hv). assert (a' = a) by congruence. subst a'.
    apply Nd. rewrite (cz_fun _ _ _ _ _ Hd (cz_tree _ _ _ _ _ Ht Hta)). rewrite Forall_forall in KA.
    apply k_eq; [exact Hk | apply KA; eapply nth_error_In; eauto | apply value_eq_sym; exact He].
Qed.
Lemma miss_holds : forall h kvs al p k c, shows_al h kvs al -> sorted_keys al -> tree h p k -> K k ->
  placed al k c -> miss h kvs p c -> holds al k None.
Proof.
  intros h kvs al p k c Sh S0 Ht Hk P Hm k' v Hin He.
  assert (Hn := miss_neq _ _ _ _ _ _ Sh S0 Ht Hk Hm). destruct (placed_rest al k c S0 Hk P) as [_ Hr].
  destruct P as (Hc & Hpre & _). destruct S0 as [_ KA].
  assert (Hr' : Forall (fun a => value_lt k (fst a)) (skipn c al)).
  { destruct (nth_error al c) as [a|] eqn:Ha; [eauto|]. apply nth_error_None in Ha. rewrite skipn_all2 by lia. constructor. }
  rewrite Forall_forall in *. assert (Hk' : K k') by (apply (KA (k', v)); exact Hin).
  rewrite <- (firstn_skipn c al) in Hin. apply in_app_iff in Hin. destruct Hin as [Hin|Hin].
  - apply (k_lt_neq k' k Hk' Hk); [apply (Hpre _ Hin) | exact He].
  - apply (k_gt_neq k' k Hk' Hk); [apply (Hr' _ Hin) | exact He].
Qed.

(** A map has one value for a key. *)
Lemma holds_fun : forall al k r r', sorted_keys al -> K k -> holds al k r -> holds al k r' -> r = r'.
Proof.
  intros al k r r' [S0 KA] Hk. assert (U : forall a b, In a al -> In b al -> value_eq (fst a) (fst b) -> a = b).
  { intros a b Ha Hb He. apply In_nth_error in Ha, Hb. destruct Ha as (i & Ha), Hb as (j & Hb).
    assert (G : forall i j a b, (i < j)%nat -> nth_error al i = Some a -> nth_error al j = Some b -> value_lt (fst a) (fst b)).
    { clear -S0. induction S0 as [|x al _ IH F]; intros i j a b L Ha Hb; [destruct i; discriminate|].
      destruct j as [|j]; [lia|]. destruct i as [|i].
      - cbn in Ha. injection Ha as ->. rewrite Forall_forall in F. apply F. eapply nth_error_In; eauto.
      - eapply (IH i j); eauto. lia. }
    rewrite Forall_forall in KA. assert (Ka := KA a (nth_error_In _ _ Ha)). assert (Kb := KA b (nth_error_In _ _ Hb)).
    destruct (Nat.lt_trichotomy i j) as [L|[->|L]]; [| congruence |].
    - exfalso. apply (k_lt_neq _ _ Ka Kb); [eapply G; eauto | exact He].
    - exfalso. apply (k_lt_neq _ _ Kb Ka); [eapply G; eauto | apply value_eq_sym; exact He]. }
  destruct r as [v|], r' as [v'|]; intros H H'; [| | |reflexivity].
  - destruct H as (k1 & H1 & E1), H' as (k2 & H2 & E2).
    assert (E : (k1, v) = (k2, v')) by (apply U; auto; cbn; eapply value_eq_trans; [exact E1 | apply value_eq_sym; exact E2]). congruence.
  - destruct H as (k1 & H1 & E1). exfalso. exact (H' k1 v H1 E1).
  - destruct H' as (k1 & H1 & E1). exfalso. exact (H k1 v' H1 E1).
Qed.
End Keys.
