(** Proofs about names. *)
From Coq Require Import ZArith Bool List Lia.
From Verif Require Import Base FloatModel PolyModel ValueModel MachModel MachSpec MachProofs FrameProofs NameModel NameSpec.
Import ListNotations.
Local Open Scope Z_scope.
Open Scope mach_scope.

Lemma str_eqb_eq : forall a b, str_eqb a b = true <-> a = b.
Proof.
  induction a as [|x a IH]; intros [|y b]; cbn; split; intro H; try discriminate; auto.
  - apply andb_true_iff in H. destruct H as [H1 H2]. apply Z.eqb_eq in H1. apply IH in H2. congruence.
  - inversion H; subst. rewrite Z.eqb_refl. cbn. apply IH. reflexivity.
Qed.
Lemma str_eqb_neq : forall a b, a <> b -> str_eqb a b = false.
Proof. intros a b H. destruct (str_eqb a b) eqn:E; auto. apply str_eqb_eq in E. congruence. Qed.

Lemma cstr_app : forall s r, ~ In 0 s -> cstr (s ++ 0 :: r) = Some s.
Proof.
  induction s as [|c s IH]; intros r H; [reflexivity|]. cbn.
  destruct (Z.eqb_spec c 0) as [->|N]; [elim H; left; reflexivity|].
  rewrite IH; [reflexivity|]. intro I. apply H. right. exact I.
Qed.
Lemma cstr_at_app : forall pre s r, ~ In 0 s -> cstr_at (pre ++ s ++ 0 :: r) (length pre) = Some s.
Proof.
  intros pre s r H. unfold cstr_at. rewrite skipn_app, skipn_all, Nat.sub_diag. apply cstr_app. exact H.
Qed.

Section Table.
Variable ns : list (list Z).
Variable kws : list (Z * list Z).
Hypothesis Hok : table_ok ns kws.
Notation tab := (table ns kws).
Notation END := (first_id ns).

Definition names_bytes (l : list (list Z)) : list Z := concat (map (fun s => s ++ [0]) l).
Definition kws_bytes (l : list (Z * list Z)) : list Z := concat (map (fun k => fst k :: snd k ++ [0]) l).

Lemma names_bytes_cons : forall s l, names_bytes (s :: l) = s ++ 0 :: names_bytes l.
Proof. intros s l. unfold names_bytes. cbn [map concat]. rewrite <- app_assoc. reflexivity. Qed.
Lemma kws_bytes_cons : forall t s l, kws_bytes ((t, s) :: l) = t :: s ++ 0 :: kws_bytes l.
Proof. intros t s l. unfold kws_bytes. cbn [map concat fst snd app]. rewrite <- app_assoc. reflexivity. Qed.
Lemma names_bytes_app : forall a b, names_bytes (a ++ b) = names_bytes a ++ names_bytes b.
Proof. intros a b. unfold names_bytes. rewrite map_app, concat_app. reflexivity. Qed.
Lemma names_bytes_length : forall l, (length l <= length (names_bytes l))%nat.
Proof. induction l as [|s l IH]; [cbn; lia|]. rewrite names_bytes_cons, app_length. cbn [length]. lia. Qed.
Lemma kws_bytes_length : forall l, (length l <= length (kws_bytes l))%nat.
Proof. induction l as [|[t s] l IH]; [cbn; lia|]. rewrite kws_bytes_cons. cbn [length]. rewrite app_length. cbn [length]. lia. Qed.

(** the table read as a keyword list *)
Fixpoint kw_of (l : list (Z * list Z)) (name : list Z) : option (Z * bool) :=
  match l with [] => None | (t, s) :: l' => if str_eqb name s then Some (t, true) else kw_of l' name end.
Fixpoint name_of (l : list (list Z)) (name : list Z) (id : Z) : option (Z * bool) :=
  match l with [] => kw_of kws name | s :: l' => if str_eqb name s then Some (id, false) else name_of l' name (id + 1) end.

Lemma name_zero : forall s, In s (ns ++ map snd kws) -> ~ In 0 s /\ s <> [].
Proof.
  intros s H. destruct Hok as (_ & F & _). rewrite Forall_forall in F. destruct (F s H). auto.
Qed.

Lemma kw_walk : forall l fuel pre id name,
  tab = pre ++ kws_bytes l -> Forall (fun k => ~ In 0 (snd k)) l -> (length l <= fuel)%nat -> END <= id ->
  name_id_builtin tab END fuel name (length pre) 1 id = Some (kw_of l name).
Proof.
  induction l as [|[t s] l IH]; intros fuel pre id name Ht Hz Hf Hid.
  - cbn in Ht. rewrite app_nil_r in Ht. destruct fuel; cbn [name_id_builtin]; rewrite Ht, Nat.leb_refl; reflexivity.
  - destruct fuel as [|fuel]; [cbn in Hf; lia|]. cbn [name_id_builtin].
    inversion Hz as [|? ? Hz1 Hz2]; subst. cbn [snd] in Hz1.
    rewrite kws_bytes_cons in Ht.
    assert (Hlt : (length tab <=? length pre)%nat = false).
    { apply Nat.leb_gt. rewrite Ht, app_length. cbn [length]. lia. }
    rewrite Hlt.
    assert (Hc : cstr_at tab (length pre + 1) = Some s).
    { rewrite Ht. replace (pre ++ t :: s ++ 0 :: kws_bytes l) with ((pre ++ [t]) ++ s ++ 0 :: kws_bytes l) by (rewrite <- app_assoc; reflexivity).
      replace (length pre + 1)%nat with (length (pre ++ [t])) by (rewrite app_length; reflexivity).
      apply cstr_at_app. exact Hz1. }
    rewrite Hc. cbn [kw_of]. destruct (str_eqb name s).
    + replace (END <=? id) with true by (symmetry; apply Z.leb_le; exact Hid).
      rewrite Ht, nth_error_app2, Nat.sub_diag by lia. reflexivity.
    + replace (if id + 1 =? END then 1%nat else 1%nat) with 1%nat by (destruct (_ =? _); reflexivity).
      rewrite Hc.
      replace (length pre + length s + 1 + 1)%nat with (length (pre ++ t :: s ++ [0])) by (rewrite app_length; cbn [length]; rewrite app_length; cbn [length]; lia).
      apply IH; [| exact Hz2 | cbn in Hf; lia | lia].
      rewrite Ht, <- !app_assoc. cbn [app]. rewrite <- app_assoc. reflexivity.
Qed.

Lemma name_walk : forall l fuel done name,
  ns = done ++ l -> l <> [] -> (length l + length kws <= fuel)%nat ->
  name_id_builtin tab END fuel name (length (names_bytes done)) 0 (1 + Z.of_nat (length done)) =
  Some (name_of l name (1 + Z.of_nat (length done))).
Proof.
  induction l as [|s l IH]; intros fuel done name Hns Hne Hf; [congruence|].
  destruct fuel as [|fuel]; [cbn in Hf; lia|]. cbn [name_id_builtin].
  assert (Ht : tab = names_bytes done ++ s ++ 0 :: names_bytes l ++ kws_bytes kws).
  { unfold table. fold (names_bytes ns) (kws_bytes kws). rewrite Hns, names_bytes_app, names_bytes_cons, <- !app_assoc. reflexivity. }
  destruct (name_zero s) as [Hz Hs]. { rewrite Hns. apply in_or_app. left. apply in_or_app. right. left. reflexivity. }
  assert (Hlt : (length tab <=? length (names_bytes done))%nat = false).
  { apply Nat.leb_gt. rewrite Ht, !app_length. cbn [length]. lia. }
  rewrite Hlt, Nat.add_0_r.
  assert (Hc : cstr_at tab (length (names_bytes done)) = Some s) by (rewrite Ht; apply cstr_at_app; exact Hz).
  rewrite Hc. cbn [name_of].
  assert (Hend : END = 1 + Z.of_nat (length done) + Z.of_nat (length (s :: l))).
  { unfold first_id. rewrite Hns, app_length. lia. }
  destruct (str_eqb name s).
  - replace (END <=? 1 + Z.of_nat (length done)) with false; [reflexivity|]. symmetry. apply Z.leb_gt. cbn [length] in Hend. lia.
  - destruct l as [|s2 l].
    + (* the last builtin: the step already skips the token *)
      replace (1 + Z.of_nat (length done) + 1 =? END) with true by (symmetry; apply Z.eqb_eq; cbn [length] in Hend; lia).
      destruct s as [|c s]; [congruence|].
      assert (Hc1 : cstr_at tab (length (names_bytes done) + 1) = Some s).
      { rewrite Ht. cbn [app names_bytes map concat].
        replace (names_bytes done ++ c :: s ++ 0 :: kws_bytes kws) with ((names_bytes done ++ [c]) ++ s ++ 0 :: kws_bytes kws) by (rewrite <- app_assoc; reflexivity).
        replace (length (names_bytes done) + 1)%nat with (length (names_bytes done ++ [c])) by (rewrite app_length; reflexivity).
        apply cstr_at_app. intro I. apply Hz. right. exact I. }
      rewrite Hc1. cbn [name_of].
      replace (length (names_bytes done) + length s + 1 + 1)%nat with (length (names_bytes done ++ c :: s ++ [0]))
        by (rewrite app_length; cbn [length]; rewrite app_length; cbn [length]; lia).
      apply kw_walk.
      * rewrite Ht. cbn [app names_bytes map concat]. rewrite <- !app_assoc. cbn [app]. rewrite <- app_assoc. reflexivity.
      * apply Forall_forall. intros k Hk. apply name_zero. apply in_or_app. right. apply in_map. exact Hk.
      * cbn in Hf. lia.
      * cbn [length] in Hend. lia.
    + replace (1 + Z.of_nat (length done) + 1 =? END) with false
        by (symmetry; apply Z.eqb_neq; cbn [length] in Hend; lia).
      rewrite Nat.add_0_r, Hc.
      assert (L1 : (length (names_bytes done) + length s + 1 + 0)%nat = length (names_bytes (done ++ [s]))).
      { rewrite names_bytes_app, names_bytes_cons, !app_length. cbn. lia. }
      assert (L2 : 1 + Z.of_nat (length done) + 1 = 1 + Z.of_nat (length (done ++ [s]))) by (rewrite app_length; cbn [length]; lia).
      rewrite L1, L2. apply IH; [rewrite <- app_assoc; exact Hns | discriminate | cbn [length] in Hf |- *; lia].
Qed.

Lemma name_id_builtin_eq : forall name, name_id_builtin tab END (S (length tab)) name 0 0 1 = Some (name_of ns name 1).
Proof.
  intro name. apply (name_walk ns (S (length tab)) [] name); [reflexivity | apply Hok|].
  unfold table. fold (names_bytes ns) (kws_bytes kws). rewrite app_length.
  pose proof (names_bytes_length ns). pose proof (kws_bytes_length kws). lia.
Qed.

(** what the lookup in the table finds *)
Lemma kw_of_spec : forall l name, NoDup (map snd l) ->
  match kw_of l name with
  | Some (t, b) => b = true /\ In (t, name) l
  | None => ~ In name (map snd l)
  end.
Proof.
  induction l as [|[t s] l IH]; intros name Hd; cbn; [auto|].
  cbn in Hd. inversion Hd; subst.
  destruct (str_eqb name s) eqn:E.
  - apply str_eqb_eq in E. subst. auto.
  - specialize (IH name H2). destruct (kw_of l name) as [[t' b]|].
    + destruct IH. auto.
    + intros [I|I]; [subst; rewrite (proj2 (str_eqb_eq _ _) eq_refl) in E; discriminate | auto].
Qed.

Lemma name_of_spec : forall l name id, NoDup (l ++ map snd kws) ->
  match name_of l name id with
  | Some (i, false) => exists j, nth_error l j = Some name /\ i = id + Z.of_nat j
  | Some (t, true) => ~ In name l /\ In (t, name) kws
  | None => ~ In name (l ++ map snd kws)
  end.
Proof.
  induction l as [|s l IH]; intros name id Hd; cbn [name_of].
  - cbn in Hd |- *. pose proof (kw_of_spec kws name Hd) as H. destruct (kw_of kws name) as [[t []]|]; [| destruct H; discriminate | exact H].
    split; [auto | apply H].
  - cbn in Hd. inversion Hd; subst. destruct (str_eqb name s) eqn:E.
    + apply str_eqb_eq in E. subst. exists 0%nat. split; [reflexivity | lia].
    + assert (N : s <> name) by (intro X; subst; rewrite (proj2 (str_eqb_eq _ _) eq_refl) in E; discriminate).
      specialize (IH name (id + 1) H2). destruct (name_of l name (id + 1)) as [[t []]|].
      * destruct IH as [A B]. split; [intros [X|X]; auto | exact B].
      * destruct IH as (j & A & B). exists (S j). split; [exact A | lia].
      * cbn. intros [X|X]; auto.
Qed.

Lemma name_string_walk : forall j name done l, ns = done ++ l -> nth_error l j = Some name ->
  name_string_builtin tab j (length (names_bytes done)) = Some name.
Proof.
  induction j as [|j IH]; intros name done l Hns Hj; destruct l as [|s l]; try discriminate; cbn [nth_error] in Hj.
  all: assert (Ht : tab = names_bytes done ++ s ++ 0 :: names_bytes l ++ kws_bytes kws)
    by (unfold table; fold (names_bytes ns) (kws_bytes kws); rewrite Hns, names_bytes_app, names_bytes_cons, <- !app_assoc; reflexivity).
  all: assert (Hc : cstr_at tab (length (names_bytes done)) = Some s)
    by (rewrite Ht; apply cstr_at_app; apply name_zero; rewrite Hns; apply in_or_app; left; apply in_or_app; right; left; reflexivity).
  - cbn. rewrite Hc. exact Hj.
  - cbn [name_string_builtin]. rewrite Hc.
    replace (length (names_bytes done) + length s + 1)%nat with (length (names_bytes (done ++ [s])))
      by (rewrite names_bytes_app, names_bytes_cons, !app_length; cbn; lia).
    apply (IH name (done ++ [s]) l); [rewrite <- app_assoc; exact Hns | exact Hj].
Qed.

Lemma name_string_low : forall j name st, nth_error ns j = Some name ->
  name_string tab END st (1 + Z.of_nat j) = Some (Some name).
Proof.
  intros j name st H. unfold name_string.
  assert (L : (j < length ns)%nat) by (apply nth_error_Some; congruence).
  replace (1 + Z.of_nat j <? END) with true by (symmetry; apply Z.ltb_lt; unfold first_id; lia).
  replace (1 + Z.of_nat j <? 1) with false by (symmetry; apply Z.ltb_ge; lia).
  replace (Z.to_nat (1 + Z.of_nat j - 1)) with j by lia.
  change 0%nat with (length (names_bytes [])). rewrite (name_string_walk j name [] ns eq_refl H). reflexivity.
Qed.

(** * The names of the program *)
Record names_ok (st : names) : Prop := {
  no_dup : NoDup (n_names st);
  no_new : forall a, In a (n_names st) -> ~ In a (ns ++ map snd kws);
  no_id : n_id st = END + Z.of_nat (length (n_names st)) }.

Lemma find_name_spec : forall l name id, NoDup l ->
  match find_name name l id with
  | Some i => exists k, nth_error l k = Some name /\ i = id - Z.of_nat k
  | None => ~ In name l
  end.
Proof.
  induction l as [|n l IH]; intros name id Hd; cbn; [auto|]. inversion Hd; subst.
  destruct (str_eqb n name) eqn:E.
  - apply str_eqb_eq in E. subst. exists 0%nat. split; [reflexivity | lia].
  - specialize (IH name (id - 1) H2). destruct (find_name name l (id - 1)).
    + destruct IH as (k & A & B). exists (S k). split; [exact A | lia].
    + intros [I|I]; [subst; rewrite (proj2 (str_eqb_eq _ _) eq_refl) in E; discriminate | auto].
Qed.
Lemma find_id_spec : forall l k name id, nth_error l k = Some name -> find_id (id - Z.of_nat k) l id = Some name.
Proof.
  induction l as [|n l IH]; intros [|k] name id H; cbn in H |- *; try discriminate.
  - rewrite Z.sub_0_r, Z.eqb_refl. exact H.
  - replace (id =? id - Z.pos (Pos.of_succ_nat k)) with false by (symmetry; apply Z.eqb_neq; lia).
    replace (id - Z.pos (Pos.of_succ_nat k)) with (id - 1 - Z.of_nat k) by lia. apply IH. exact H.
Qed.
Lemma find_id_inv : forall l name i id, find_id i l id = Some name -> exists k, nth_error l k = Some name /\ i = id - Z.of_nat k.
Proof.
  induction l as [|n l IH]; intros name i id H; cbn in H; [discriminate|].
  destruct (Z.eqb_spec id i) as [Q|N].
  - exists 0%nat. split; [exact H | lia].
  - destruct (IH _ _ _ H) as (k & A & B). exists (S k). split; [exact A | lia].
Qed.

(** [a] is a name of the program with id [i] *)
Definition prog_id (st : names) (i : Z) (a : list Z) : Prop := END < i /\ name_string tab END st i = Some (Some a).

Lemma prog_id_at : forall st i a, names_ok st -> (prog_id st i a <-> exists k, nth_error (n_names st) k = Some a /\ i = n_id st - Z.of_nat k).
Proof.
  intros st i a Ok. unfold prog_id, name_string. split.
  - intros [H1 H2]. replace (i <? END) with false in H2 by (symmetry; apply Z.ltb_ge; lia).
    apply find_id_inv. congruence.
  - intros (k & H & ->). assert (k < length (n_names st))%nat by (apply nth_error_Some; congruence).
    pose proof (no_id _ Ok). split; [lia|]. replace (n_id st - Z.of_nat k <? END) with false by (symmetry; apply Z.ltb_ge; lia).
    rewrite (find_id_spec _ _ _ _ H). reflexivity.
Qed.

Lemma prog_id_inj : forall st i j a, names_ok st -> prog_id st i a -> prog_id st j a -> i = j.
Proof.
  intros st i j a Ok Hi Hj. apply prog_id_at in Hi; [|exact Ok]. apply prog_id_at in Hj; [|exact Ok].
  destruct Hi as (k & A & ->), Hj as (k' & B & ->).
  enough (k = k') by congruence.
  eapply (proj1 (NoDup_nth_error (n_names st)) (no_dup _ Ok)); [apply nth_error_Some; congruence | congruence].
Qed.

(** later states only know more names *)
Definition extends (st st' : names) : Prop := forall i a, prog_id st i a -> prog_id st' i a.

Lemma name_id_runs : forall E st a m, names_ok st -> name_text a -> n_id st + 1 < 2 ^ wbits (e_width E) ->
  (m_sp m <= length (m_stack m))%nat ->
  runs (name_id E tab END st a) m (fun r m' =>
    let '(id, kw, st') := r in
    frame None m m' /\ names_ok st' /\ extends st st' /\ n_id st' <= n_id st + 1 /\
    match name_of ns a 1 with
    | Some r => (id, kw) = r /\ st' = st /\ m' = m
    | None => kw = false /\ (prog_id st' id a /\ quiet m m' \/ id = 0 /\ st' = st /\ reported EMemory m m')
    end).
Proof.
  intros E st a m Ok Ha Hw Hsp. unfold name_id.
  rewrite name_id_builtin_eq. unfold lift, bind at 1. unfold ret at 1. cbv iota beta.
  pose proof (name_of_spec ns a 1) as Hspec. destruct Hok as (Hne & _ & Hd). specialize (Hspec Hd).
  destruct (name_of ns a 1) as [[id kw]|] eqn:En.
  - exists (id, kw, st), m. split; [reflexivity|]. split; [apply frame_refl|]. split; [exact Ok|].
    split; [intros i x H; exact H|]. split; [lia|]. auto.
  - pose proof (find_name_spec (n_names st) a (n_id st) (no_dup _ Ok)) as Hf.
    destruct (find_name a (n_names st) (n_id st)) as [id|].
    + exists (id, false, st), m. split; [reflexivity|]. split; [split; auto; apply kept_refl|].
      split; [exact Ok|]. split; [intros i x H; exact H|]. split; [lia|].
      split; [reflexivity|]. left. split; [apply prog_id_at; auto | split; reflexivity].
    + eapply runs_step; [apply alloc_runs; exact Hsp|]. intros [b|] m1 (F & _ & _ & H).
      * destruct H as (_ & _ & Q). eexists _, m1. split; [reflexivity|]. cbv beta iota.
        assert (Hid : u_of (e_width E) (n_id st + 1) = n_id st + 1).
        { unfold u_of, wrapu. apply Z.mod_small. pose proof (no_id _ Ok). unfold first_id in *. lia. }
        rewrite Hid. set (st' := {| n_names := a :: n_names st; n_id := n_id st + 1 |}).
        assert (Ok' : names_ok st').
        { split; cbn [n_names n_id st'].
          - constructor; [exact Hf | apply Ok].
          - intros x [<-|I]; [exact Hspec | apply Ok; exact I].
          - rewrite (no_id _ Ok). cbn [length]. lia. }
        split; [exact F|]. split; [exact Ok'|]. split; [| split; [cbn; lia|]].
        -- intros i x H. apply prog_id_at; [exact Ok'|]. apply prog_id_at in H; [|exact Ok].
           destruct H as (k & A & ->). exists (S k). split; [exact A|]. cbn [n_id st']. lia.
        -- split; [reflexivity|]. left. split; [| exact Q]. apply prog_id_at; [exact Ok'|].
           exists 0%nat. split; [reflexivity|]. cbn [n_id st']. lia.
      * destruct H as [Rp _]. eexists _, m1. split; [reflexivity|]. cbv beta iota.
        split; [exact F|]. split; [exact Ok|]. split; [intros i x H; exact H|]. split; [lia|].
        split; [reflexivity|]. right. auto.
Qed.

Lemma start_ok : names_ok (start_names ns).
Proof. split; cbn; [constructor | intros a [] | lia]. Qed.

(** what one answer means in state [st] *)
Definition answer (st : names) (m' : mach) (a : list Z) (r : Z * bool) : Prop :=
  match r with
  | (t, true) => ~ In a ns /\ In (t, a) kws
  | (id, false) =>
      (exists j, nth_error ns j = Some a /\ id = 1 + Z.of_nat j) \/
      ~ In a (ns ++ map snd kws) /\ (prog_id st id a \/ id = 0 /\ m_abort m' = true)
  end.

Lemma abort_kept : forall e m m', reported e m m' \/ quiet m m' -> m_abort m = true -> m_abort m' = true.
Proof. intros e m m' [[A _]|[A _]] H; congruence. Qed.

Lemma name_ids_runs : forall E hs st m, names_ok st -> Forall name_text hs ->
  n_id st + Z.of_nat (length hs) < 2 ^ wbits (e_width E) -> (m_sp m <= length (m_stack m))%nat ->
  runs (name_ids E tab END st hs) m (fun r m' =>
    let '(rs, st') := r in
    names_ok st' /\ extends st st' /\ (m_abort m = true -> m_abort m' = true) /\ Forall2 (answer st' m') hs rs).
Proof.
  intros E. induction hs as [|h hs IH]; intros st m Ok Ht Hw Hsp; cbn [name_ids].
  - exists ([], st), m. split; [reflexivity|]. split; [exact Ok|]. split; [intros i x H; exact H|]. split; [auto | constructor].
  - inversion Ht as [|? ? Ht1 Ht2]; subst.
    eapply runs_step; [apply (name_id_runs E st h m Ok Ht1); [cbn [length] in Hw; lia | exact Hsp]|].
    intros [[id kw] st1] m1 (F & Ok1 & X1 & N1 & H1). cbv beta iota.
    assert (A1 : m_abort m = true -> m_abort m1 = true).
    { destruct (name_of ns h 1); [destruct H1 as (_ & _ & ->); auto|].
      destruct H1 as [_ [[_ Q]|(_ & _ & R)]]; intro Ha; apply (abort_kept EMemory m m1); auto. }
    eapply runs_step.
    { apply (IH st1 m1 Ok1 Ht2); [cbn [length] in Hw; lia|].
      rewrite (fr_sp _ _ _ F), (fr_slen _ _ _ F). exact Hsp. }
    intros [rs st2] m2 (Ok2 & X2 & A2 & H2). cbv beta iota.
    eexists _, m2. split; [reflexivity|]. cbv beta iota.
    split; [exact Ok2|]. split; [intros i x H; apply X2, X1, H|]. split; [auto|].
    constructor; [| exact H2]. unfold answer.
    pose proof (name_of_spec ns h 1 (proj2 (proj2 Hok))) as Hspec.
    destruct (name_of ns h 1) as [r|].
    + destruct H1 as (E1 & -> & ->). destruct r as [i b]. inversion E1; subst. destruct b; [exact Hspec | left; exact Hspec].
    + destruct H1 as [-> [[P Q]|(-> & -> & R)]]; right; (split; [exact Hspec|]).
      * left. apply X2. exact P.
      * right. split; [reflexivity|]. apply A2. apply R.
Qed.

Lemma answers_ok : forall st m' a b i j, names_ok st -> answer st m' a (i, false) -> answer st m' b (j, false) ->
  i <> 0 -> j <> 0 -> (i = j <-> a = b).
Proof.
  intros st m' a b i j Ok Ha Hb Ni Nj. unfold answer in Ha, Hb. destruct Hok as (_ & _ & Hd).
  assert (Hdn : NoDup ns) by (clear -Hd; induction ns as [|x l IH]; [constructor|]; cbn in Hd; inversion Hd; subst; constructor; [intro I; apply H1; apply in_or_app; auto | auto]).
  assert (Low : forall k x, nth_error ns k = Some x -> 1 + Z.of_nat k < END).
  { intros k x H. assert (k < length ns)%nat by (apply nth_error_Some; congruence). unfold first_id. lia. }
  destruct Ha as [(k & A & ->)|[Na [Pa|[? _]]]], Hb as [(l & B & ->)|[Nb [Pb|[? _]]]]; try congruence.
  - split; [intro X; assert (k = l) by lia; congruence|]. intros ->.
    assert (k = l) by (eapply (proj1 (NoDup_nth_error ns) Hdn); [apply nth_error_Some; congruence | congruence]). congruence.
  - split.
    + intros <-. destruct Pb as [H _]. specialize (Low _ _ A). lia.
    + intros ->. elim Nb. apply in_or_app. left. eapply nth_error_In; eauto.
  - split.
    + intros ->. destruct Pa as [H _]. specialize (Low _ _ B). lia.
    + intros ->. elim Na. apply in_or_app. left. eapply nth_error_In; eauto.
  - split; [intros ->|intros ->; eapply prog_id_inj; eauto]. destruct Pa as [_ Pa], Pb as [_ Pb]. congruence.
Qed.

Lemma answer_string : forall st m' a i, answer st m' a (i, false) -> i <> 0 -> name_string tab END st i = Some (Some a).
Proof.
  intros st m' a i [(k & A & ->)|[_ [P|[? _]]]] N; [apply name_string_low; exact A | apply P | congruence].
Qed.
End Table.

(** The whole history *)
Lemma interned : forall ns kws, table_ok ns kws -> forall E hs m, Forall name_text hs ->
  first_id ns + Z.of_nat (length hs) < 2 ^ wbits (e_width E) -> (m_sp m <= length (m_stack m))%nat ->
  runs (name_ids E (table ns kws) (first_id ns) (start_names ns) hs) m (fun r m' =>
    let '(rs, st) := r in
    length rs = length hs /\
    (forall n a r, nth_error hs n = Some a -> nth_error rs n = Some r ->
       (forall j, nth_error ns j = Some a -> r = (1 + Z.of_nat j, false)) /\
       (forall t, In (t, a) kws -> r = (t, true)) /\
       (snd r = true -> In (fst r, a) kws) /\
       (snd r = false -> fst r <> 0 -> name_string (table ns kws) (first_id ns) st (fst r) = Some (Some a)) /\
       (r = (0, false) -> m_abort m' = true)) /\
    (forall n1 n2 a b i j, nth_error hs n1 = Some a -> nth_error hs n2 = Some b ->
       nth_error rs n1 = Some (i, false) -> nth_error rs n2 = Some (j, false) -> i <> 0 -> j <> 0 ->
       (i = j <-> a = b))).
Proof.
  intros ns kws Hok E hs m Ht Hw Hsp.
  destruct (name_ids_runs ns kws Hok E hs (start_names ns) m (start_ok ns kws) Ht Hw Hsp)
    as ([rs st] & m' & Hr & Ok & _ & _ & H).
  exists (rs, st), m'. split; [exact Hr|]. cbv beta iota.
  assert (Len : length rs = length hs) by (clear -H; induction H; cbn; congruence).
  split; [exact Len|].
  assert (At : forall n a r, nth_error hs n = Some a -> nth_error rs n = Some r -> answer ns kws st m' a r).
  { clear -H. induction H; intros [|n] a r H1 H2; cbn in H1, H2; try discriminate; [congruence | eauto]. }
  destruct (Hok) as (_ & _ & Hd).
  assert (Hdk : NoDup (map snd kws)) by (clear -Hd; induction ns as [|x l IH]; [exact Hd | cbn in Hd; inversion Hd; auto]).
  assert (Hdn : NoDup ns) by (clear -Hd; induction ns as [|x l IH]; [constructor|]; cbn in Hd; inversion Hd; subst; constructor; [intro I; apply H1; apply in_or_app; auto | auto]).
  assert (Kin : forall t a, In (t, a) kws -> ~ In a ns).
  { intros t a I J. clear -Hd I J. induction ns as [|x l IH]; [exact J|]. cbn in Hd. inversion Hd; subst. destruct J as [->|J]; [| auto].
    apply H1. apply in_or_app. right. apply in_map_iff. exists (t, a). auto. }
  split.
  - intros n a r Hn Hrn. pose proof (At _ _ _ Hn Hrn) as A. destruct r as [i b]. cbn [fst snd]. destruct b.
    + destruct A as [A B]. split; [intros j Hj; elim A; eapply nth_error_In; eauto|].
      split; [| split; [auto | split; [discriminate | discriminate]]].
      intros t It. f_equal.
      assert (forall l, NoDup (map snd l) -> In (i, a) l -> In (t, a) l -> i = t) as U.
      { clear. induction l as [|[u y] l IH]; intros D I1 I2; [elim I1|]. cbn in D. inversion D; subst.
        destruct I1 as [I1|I1], I2 as [I2|I2].
        - congruence.
        - inversion I1; subst. elim H1. apply in_map_iff. exists (t, a). auto.
        - inversion I2; subst. elim H1. apply in_map_iff. exists (i, a). auto.
        - auto. }
      apply (U kws); auto.
    + split; [| split; [| split; [discriminate | split]]].
      * intros j Hj. destruct A as [(k & A & ->)|[Na _]]; [| elim Na; apply in_or_app; left; eapply nth_error_In; eauto].
        assert (k = j) by (eapply (proj1 (NoDup_nth_error ns) Hdn); [apply nth_error_Some; congruence | congruence]). congruence.
      * intros t It. destruct A as [(k & A & ->)|[Na _]].
        -- elim (Kin _ _ It). eapply nth_error_In; eauto.
        -- elim Na. apply in_or_app. right. apply in_map_iff. exists (t, a). auto.
      * intros _ N. eapply answer_string; eauto.
      * intro X. inversion X; subst. destruct A as [(k & A & ?)|[Na [[P _]|[_ Q]]]]; [lia | unfold first_id in P; lia | exact Q].
  - intros n1 n2 a b i j H1 H2 H3 H4 Ni Nj. eapply (answers_ok ns kws); eauto.
Qed.
