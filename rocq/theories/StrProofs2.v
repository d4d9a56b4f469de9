(** Strings: repetition, slices, ord and chr, growing a buffer. *)
From Verif Require Import Tac Base FloatModel PolyModel ValueModel OrderSpec OrderProofs SliceModel SliceSpec SliceProofs MathModel MathSpec
  MathProofs MathProofs2 MachModel ListModel StrModel BinModel MachSpec ListSpec StrSpec MachProofs FrameProofs ListProofs ListProofs2 StrProofs.
Local Open Scope Z_scope.
Open Scope mach_scope.

Lemma Forall_repeat_concat : forall A (P : A -> Prop) xs n, Forall P xs -> Forall P (concat (repeat xs n)).
Proof. exact Forall_concat_repeat. Qed.

Lemma alloc_still : forall E size m, (m_sp m <= length (m_stack m))%nat -> e_move E (m_nalloc m) = false ->
  runs (alloc E size) m (fun r m' =>
    frame None m m' /\ m_heap m' = m_heap m /\ m_epoch m' = m_epoch m /\
    match r with
    | Some b => b = size_round (e_width E) (u_of (e_width E) size) /\ b <= e_pool E /\ quiet m m'
    | None => reported EMemory m m' /\
        ((exists n, e_fail E n = true) \/ e_pool E < size_round (e_width E) (u_of (e_width E) size))
    end).
Proof.
  intros E size m H N. destruct (alloc_runs E size m H) as (r & m' & Hr & A & B & C & D).
  exists r, m'. split; [exact Hr|]. split; [exact A|]. split; [| split; [| exact D]].
  - unfold alloc in Hr. rewrite N in Hr. destruct (e_fail E (m_nalloc m) || _).
    + unfold error in Hr. destruct (m_abort _); inversion Hr; reflexivity.
    + inversion Hr; reflexivity.
  - unfold alloc in Hr. rewrite N in Hr. destruct (e_fail E (m_nalloc m) || _).
    + unfold error in Hr. destruct (m_abort _); inversion Hr; reflexivity.
    + inversion Hr; reflexivity.
Qed.

Lemma wf_sp_len : forall E m, wf E m -> (m_sp m <= length (m_stack m))%nat.
Proof. intros E m W. rewrite (wf_stack_len _ _ W). apply W. Qed.

(** Without memory. *)
Lemma no_str_post : forall E m m1 s, wf E m -> wf_strs E (m_heap m) -> frame None m m1 -> length (m_heap m1) = length (m_heap m) ->
  soom E (Z.of_nat (length s)) m m1 -> new_str_post E m s None m1.
Proof.
  intros E m m1 s W Ws F L H. split; [eapply wf_fresh; [exact W | exact F | left; exact L]|].
  split; [eapply wf_strs_same; eauto|]. split; [exact F|]. auto.
Qed.

Lemma times_str_runs : forall E m l s n,
  wf_env E -> wf E m -> wf_strs E (m_heap m) -> str_at (m_heap m) l s -> 0 <= n ->
  fits_str (e_width E) (Z.of_nat (length s) * n) -> e_move E (m_nalloc m) = false ->
  runs (string_times E (l, m_epoch m) n) m (string_result E m (concat (repeat s (Z.to_nat n)))).
Proof.
  intros E m l s n We W Ws Hs Hn Hfit Hmv. unfold string_times.
  eapply runs_deref_str; [reflexivity | exact Hs|]. rewrite (strlen_eq _ _ _ _ We Ws Hs).
  assert (Lz : Z.of_nat (length (concat (repeat s (Z.to_nat n)))) = Z.of_nat (length s) * n).
  { rewrite concat_repeat_length. lia. }
  assert (Hc : Forall (fun c => 0 < c < 256) (concat (repeat s (Z.to_nat n)))).
  { apply Forall_concat_repeat. apply (Ws _ _ Hs). }
  eapply runs_step; [apply alloc_still; [eapply wf_sp_len; eauto | exact Hmv]|].
  intros r m1 (F & Hh & Hep & Hr). destruct r as [bytes|].
  - destruct Hr as (-> & Hbp & Hq). assert (H0 : 0 <= Z.of_nat (length s) * n) by nia. pose proof (str_bytes _ _ H0 Hfit) as Hby.
    eapply runs_step with (P := fun x m2 => m2 = m1 /\ concat (repeat x (Z.to_nat n)) = concat (repeat s (Z.to_nat n))).
    { destruct (Z.eqb_spec n 0) as [->|Nn]; [apply runs_ret; auto|].
      eapply runs_deref_str; [congruence | unfold str_at; rewrite Hh; exact Hs|].
      exists s, m1. split; [| auto]. unfold lift. rewrite take_some by lia. rewrite Nat2Z.id, firstn_all. reflexivity. }
    intros x m2 [-> Hx]. rewrite Hx. apply runs_new_str; [lia|].
    apply (post_result E m _ (Some (length (m_heap m1), m_epoch m1))).
    eapply new_str_done with (bytes := size_round (e_width E) (u_of (e_width E) (Z.of_nat (length s) * n + 1)));
      [exact W | exact Ws | exact F | congruence | exact Hq | intros _; exact Hep | lia | exact Hc].
  - assert (P : new_str_post E m (concat (repeat s (Z.to_nat n))) None m1).
    { apply no_str_post; auto; [congruence|]. rewrite Lz. destruct Hr as [Hr1 Hr2].
      apply soom_from; [exact Hfit | nia | exact Hr1 | exact Hr2]. }
    exact (post_result _ _ _ _ _ P).
Qed.

(** snek_string_times after a collection that moved things: undefined. *)
Lemma times_str_moved : forall E m l s n,
  wf_env E -> wf_strs E (m_heap m) -> str_at (m_heap m) l s -> 0 < n ->
  e_move E (m_nalloc m) = true -> e_fail E (m_nalloc m) = false ->
  size_round (e_width E) (u_of (e_width E) (Z.of_nat (length s) * n + 1)) <= e_pool E ->
  string_times E (l, m_epoch m) n m = None.
Proof.
  intros E m l s n We Ws Hs Hn Hmv Hf Hp. unfold string_times, bind, deref_str, deref, bind. cbn [fst snd].
  rewrite Nat.eqb_refl. unfold str_at in Hs. rewrite Hs. cbn [ret].
  change (strlen E s) with (strlen E s). unfold ret at 1.
  rewrite (strlen_eq _ _ _ _ We Ws Hs). unfold alloc. rewrite Hmv, Hf.
  destruct (Z.ltb_spec (e_pool E) (size_round (e_width E) (u_of (e_width E) (Z.of_nat (length s) * n + 1)))); [lia|]. cbn [orb].
  destruct (Z.eqb_spec n 0); [lia|]. cbn [moved set_nalloc m_epoch].
  replace (Nat.eqb (m_epoch m) (S (m_epoch m))) with false by (symmetry; apply Nat.eqb_neq; lia). reflexivity.
Qed.

(** snek_string_slice *)
Lemma slice_str_runs : forall E m l s sl r,
  wf_env E -> wf E m -> wf_strs E (m_heap m) -> room E 1 m -> str_at (m_heap m) l s ->
  0 <= sl_count sl -> fits_str (e_width E) (sl_count sl) ->
  slice_copy (e_width E) (Z.to_nat (sl_count sl)) (sl_pos sl) (sl_stride sl) s = Ok r ->
  runs (string_slice E (l, m_epoch m) sl) m (fun p m' =>
    if sl_identity sl then p = Some (l, m_epoch m) /\ m' = m else new_str_post E m r p m').
Proof.
  intros E m l s sl r We W Ws Hroom Hs Hc0 Hfit Hcopy. unfold string_slice, room in *.
  destruct (sl_identity sl); [apply runs_ret; auto|].
  assert (Hst : length (m_stack m) = e_stack E) by apply W.
  apply runs_push_str; [unfold room; lia | reflexivity|]. set (ma := pushed (PStr l) m).
  eapply runs_step; [apply alloc_runs'; cbn [ma pushed set_stack m_sp m_stack]; rewrite !upd_length; lia|].
  intros q m1 (F & L & Em & Ep & Hr).
  eapply runs_pop_str; [| exact F|]. { lia. }
  intros F2. set (m3 := popped m1) in *.
  assert (Hlr : length r = Z.to_nat (sl_count sl)) by (eapply slice_copy_length; eauto).
  assert (Hcr : Forall (fun c => 0 < c < 256) r).
  { rewrite Forall_forall. intros x Hx. destruct (Ws _ _ Hs) as [_ A]. rewrite Forall_forall in A. apply A.
    eapply slice_copy_in; eauto. }
  destruct q as [bytes|].
  - destruct Hr as (-> & Hbp & Hq). pose proof (str_bytes _ _ Hc0 Hfit) as Hby.
    cbn [read_opt]. eapply runs_deref_str; [reflexivity | eapply str_at_frame; [exact F2 | exact Hs]|].
    rewrite Hcopy. apply runs_new_str; [lia|]. apply runs_ret.
    eapply new_str_done; [exact W | exact Ws | exact F2 | exact L | exact Hq | exact Ep | split; [| exact Hbp]; lia | exact Hcr].
  - apply runs_ret. destruct Hr as [Hr1 Hr2]. apply no_str_post; auto.
    replace (Z.of_nat (length r)) with (sl_count sl) by lia. apply soom_from; auto.
Qed.

(** ord (chr (c)) *)
Lemma to_sint_n : forall n f z, 0 < n -> is_int f z -> - 2 ^ (n - 1) <= z < 2 ^ (n - 1) -> f_to_sint n f = Ok z.
Proof.
  intros n f z Hn H R. unfold f_to_sint. destruct H as [F V]. rewrite F. rewrite (trunc_int f z) by (split; assumption).
  unfold sint, in_sint.
  destruct (Z.leb_spec (- 2 ^ (n - 1)) z); [|lia]. destruct (Z.ltb_spec z (2 ^ (n - 1))); [|lia]. reflexivity.
Qed.

Lemma ord_chr_runs : forall E m f c (sgn : bool),
  wf_env E -> wf E m -> wf_strs E (m_heap m) -> is_int f c -> 0 <= c < (if sgn then 128 else 256) ->
  runs (let* s := builtin_chr E (PNum f) in builtin_ord sgn s) m (fun r m' =>
    (exists g, r = PNum g /\ is_int g c /\ quiet m m') \/ (r = PNull /\ m_abort m' = true)).
Proof.
  intros E m f c sgn We W Ws Hf Hc.
  assert (Hf' : float_index (e_width E) f = Ok c).
  { unfold float_index. apply to_sint_n; [destruct (e_width E); cbn; lia | exact Hf|].
    destruct (e_width E); cbn [wbits]; destruct sgn; lia. }
  assert (Hch : runs (builtin_chr E (PNum f)) m (string_result E m (cstring [wrapu 8 c]))).
  { unfold builtin_chr. eapply runs_eq; [| apply make_str_runs; eassumption].
    unfold get_soffset, get_float, bind, ret. rewrite Hf'. reflexivity. }
  eapply runs_step; [exact Hch|]. intros r m' (W' & Ws' & Hst & Hk & H).
  destruct H as [(l & -> & Hl & Hs & Hq)|(-> & Ho & _)].
  - unfold builtin_ord, poly_to_str. apply runs_bind. exists (l, m_epoch m'), m'. split; [reflexivity|].
    eapply runs_deref_str; [reflexivity | exact Hs|]. apply runs_ret. left. eexists. split; [reflexivity|]. split; [| exact Hq].
    assert (Hw : wrapu 8 c = c). { unfold wrapu. change (2 ^ 8) with 256. apply Z.mod_small. destruct sgn; lia. }
    rewrite Hw. cbn [cstring].
    assert (Hh : hd 0 (if c =? 0 then [] else [c]) = c) by (destruct (Z.eqb_spec c 0); cbn; congruence).
    rewrite Hh. replace (if sgn then wraps 8 c else c) with c.
    + apply of_Z_int. exists c, 0. rewrite Z.pow_0_r. destruct sgn; repeat split; lia.
    + destruct sgn; [| reflexivity]. unfold wraps, wrapu. change (2 ^ 8) with 256. change (2 ^ (8 - 1)) with 128.
      rewrite Z.mod_small by lia. destruct (c <? 128) eqn:E1; lia.
  - unfold builtin_ord. apply runs_error. apply runs_ret. right. split; [reflexivity|].
    unfold errored. destruct Ho as [Ha _]. rewrite Ha. exact Ha.
Qed.

(** ... with a signed char, above 127 *)
Lemma ord_chr_signed : forall E m f c,
  wf_env E -> wf E m -> wf_strs E (m_heap m) -> is_int f c -> 128 <= c < 256 ->
  runs (let* s := builtin_chr E (PNum f) in builtin_ord true s) m (fun r m' =>
    (exists g, r = PNum g /\ is_int g (c - 256) /\ quiet m m') \/ (r = PNull /\ m_abort m' = true)).
Proof.
  intros E m f c We W Ws Hf Hc.
  assert (Hf' : float_index (e_width E) f = Ok c).
  { unfold float_index. apply to_sint_n; [destruct (e_width E); cbn; lia | exact Hf|]. destruct (e_width E); cbn [wbits]; lia. }
  assert (Hch : runs (builtin_chr E (PNum f)) m (string_result E m (cstring [wrapu 8 c]))).
  { unfold builtin_chr. eapply runs_eq; [| apply make_str_runs; eassumption].
    unfold get_soffset, get_float, bind, ret. rewrite Hf'. reflexivity. }
  eapply runs_step; [exact Hch|]. intros r m' (W' & Ws' & Hst & Hk & H).
  destruct H as [(l & -> & Hl & Hs & Hq)|(-> & Ho & _)].
  - unfold builtin_ord, poly_to_str. apply runs_bind. exists (l, m_epoch m'), m'. split; [reflexivity|].
    eapply runs_deref_str; [reflexivity | exact Hs|]. apply runs_ret. left. eexists. split; [reflexivity|]. split; [| exact Hq].
    assert (Hw : wrapu 8 c = c). { unfold wrapu. change (2 ^ 8) with 256. apply Z.mod_small. lia. }
    rewrite Hw. cbn [cstring].
    assert (Hh : hd 0 (if c =? 0 then [] else [c]) = c) by (destruct (Z.eqb_spec c 0); cbn; congruence).
    rewrite Hh. replace (wraps 8 c) with (c - 256).
    + apply of_Z_int. exists (c - 256), 0. rewrite Z.pow_0_r. repeat split; lia.
    + unfold wraps, wrapu. change (2 ^ 8) with 256. change (2 ^ (8 - 1)) with 128.
      rewrite Z.mod_small by lia. destruct (c <? 128) eqn:E1; lia.
  - unfold builtin_ord. apply runs_error. apply runs_ret. right. split; [reflexivity|].
    unfold errored. destruct Ho as [Ha _]. rewrite Ha. exact Ha.
Qed.

(** What a source of characters reads as. *)
Definition src_at (m : mach) (s : src) (t : list Z) : Prop :=
  match s with SText t' => t' = t | SPool (l, ep) => ep = m_epoch m /\ str_at (m_heap m) l t end.

(** snek_buf_sprints / snek_buf_sprintc with memory *)
Lemma buf_put_runs : forall E m b t s x,
  wf_env E -> wf E m -> wf_strs E (m_heap m) -> room E 2 m -> opt_str_at m b t -> src_at m s x ->
  Forall (fun c => 0 < c < 256) x -> enough E (length (t ++ x)) ->
  runs (buf_put E b s) m (fun r m' => r <> None /\ new_str_post E m (t ++ x) r m').
Proof.
  intros E m b t s x We W Ws Hroom Hb Hs Hx (En & Ef & Hfit).
  assert (Hst : length (m_stack m) = e_stack E) by apply W. unfold room in Hroom.
  rewrite app_length, Nat2Z.inj_add in Hfit, Ef.
  assert (Hlt : strlen E t = Z.of_nat (length t)).
  { destruct b as [[l ep]|]; [apply (strlen_eq E m l); [exact We | exact Ws | apply Hb]|].
    cbn in Hb. subst t. unfold strlen. apply u_of_small. pose proof (pow_wbits (e_width E)). cbn. lia. }
  assert (Htc : Forall (fun c => 0 < c < 256) t).
  { destruct b as [[l ep]|]; [destruct Hb as [_ Hb]; apply (Ws _ _ Hb) | cbn in Hb; subst; constructor]. }
  assert (Hc : Forall (fun c => 0 < c < 256) (t ++ x)) by (apply Forall_app; auto).
  pose proof (str_bytes _ (Z.of_nat (length t) + Z.of_nat (length x)) ltac:(lia) Hfit) as Hby.
  assert (Tt : take (Z.to_nat (Z.of_nat (length t))) t = Some t).
  { rewrite take_some by lia. rewrite Nat2Z.id, firstn_all. reflexivity. }
  unfold buf_put.
  (* the source, then the buffer, on the stack *)
  assert (Step : forall ma, (exists p, s = SPool p /\ ma = pushed (PStr (fst p)) m) \/ ((exists t', s = SText t') /\ ma = m) ->
    runs (let* o := read_opt b in
          let len := strlen E o in
          push_str E b;;
          let* n := alloc E (len + Z.of_nat (length x) + 1) in
          let* old := pop_str b in
          let* s := pop_src s in
          match n with
          | None => ret b
          | Some bytes =>
              let* o := read_opt old in
              let* y := lift (take (Z.to_nat len) o) in
              let* z := read_src s in
              let* p := new_str bytes (y ++ z) in
              ret (Some p)
          end) ma (fun r m' => r <> None /\ new_str_post E m (t ++ x) r m')).
  { intros ma Hma.
    assert (Rma : (m_sp ma <= S (m_sp m))%nat /\ length (m_stack ma) = e_stack E /\ m_heap ma = m_heap m /\ m_epoch ma = m_epoch m).
    { destruct Hma as [(p & -> & ->)|[_ ->]]; cbn [pushed set_stack m_sp m_stack m_heap m_epoch]; rewrite ?upd_length; auto. }
    destruct Rma as (R1 & R2 & R3 & R4).
    (* what happens after the buffer has been popped *)
    assert (Fin : forall old (m1 : mach),
      frame None ma m1 -> length (m_heap m1) = length (m_heap m) -> quiet m m1 ->
      ((forall n, e_move E n = false) -> m_epoch m1 = m_epoch m) ->
      match b with Some (l, _) => old = Some (l, m_epoch m1) | None => old = None end ->
      size_round (e_width E) (u_of (e_width E) (Z.of_nat (length t) + Z.of_nat (length x) + 1)) <= e_pool E ->
      runs (let* s := pop_src s in
            let* o := read_opt old in
            let* y := lift (take (Z.to_nat (Z.of_nat (length t))) o) in
            let* z := read_src s in
            let* p := new_str (size_round (e_width E) (u_of (e_width E) (Z.of_nat (length t) + Z.of_nat (length x) + 1))) (y ++ z) in
            ret (Some p)) m1 (fun r m' => r <> None /\ new_str_post E m (t ++ x) r m')).
    { intros old m1 F1 L1 Q1 E1 Hold Hbp.
      assert (Fin2 : forall m2 s2, frame None m m2 -> m_heap m2 = m_heap m1 -> m_epoch m2 = m_epoch m1 -> quiet m m2 ->
        match s with SPool (l, _) => s2 = SPool (l, m_epoch m2) | SText _ => s2 = s end ->
        runs (let* o := read_opt old in
            let* y := lift (take (Z.to_nat (Z.of_nat (length t))) o) in
            let* z := read_src s2 in
            let* p := new_str (size_round (e_width E) (u_of (e_width E) (Z.of_nat (length t) + Z.of_nat (length x) + 1))) (y ++ z) in
            ret (Some p)) m2 (fun r m' => r <> None /\ new_str_post E m (t ++ x) r m')).
      { intros m2 s2 F2 H2 E2 Q2 Hs2.
        apply runs_bind. exists t, m2. split.
        { destruct b as [[l ep]|]; subst old; cbn [read_opt].
          - destruct Hb as [_ Hb]. unfold deref_str, deref, bind. cbn [fst snd]. rewrite <- E2, Nat.eqb_refl.
            assert (Hb2 := str_at_frame _ _ _ _ F2 Hb). unfold str_at in Hb2. rewrite Hb2. reflexivity.
          - cbn in Hb. subst t. reflexivity. }
        eapply runs_lift_bind; [exact Tt|].
        apply runs_bind. exists x, m2. split.
        { destruct s as [[l ep]|t']; subst s2; cbn [read_src].
          - destruct Hs as [_ Hs]. unfold deref_str, deref, bind. cbn [fst snd]. rewrite Nat.eqb_refl.
            assert (Hb2 := str_at_frame _ _ _ _ F2 Hs). unfold str_at in Hb2. rewrite Hb2. reflexivity.
          - cbn in Hs. subst. reflexivity. }
        apply runs_new_str; [rewrite app_length; lia|]. apply runs_ret. split; [discriminate|].
        eapply new_str_done; [exact W | exact Ws | exact F2 | rewrite H2; exact L1 | exact Q2 |
          intros N; rewrite E2; exact (E1 N) | rewrite app_length; split; [| exact Hbp]; lia | exact Hc]. }
      destruct Hma as [(p & -> & ->)|[[t' ->] ->]].
      - destruct p as [ls es]. cbn [pop_src fst]. 
        destruct (pop_pushed _ _ _ _ (ltac:(lia) : (m_sp m < length (m_stack m))%nat) F1) as [Ep F2].
        eapply runs_eq with (c' := let* s2 := (fun m => Some (SPool (ls, m_epoch m1), popped m1)) in
            let* o := read_opt old in
            let* y := lift (take (Z.to_nat (Z.of_nat (length t))) o) in
            let* z := read_src s2 in
            let* p := new_str (size_round (e_width E) (u_of (e_width E) (Z.of_nat (length t) + Z.of_nat (length x) + 1))) (y ++ z) in
            ret (Some p)).
        { unfold bind at 1 2. rewrite Ep. reflexivity. }
        apply runs_bind. eexists _, _. split; [reflexivity|].
        apply Fin2; auto.
      - cbn [pop_src]. apply runs_bind. eexists _, _. split; [reflexivity|]. apply Fin2; auto. }
    apply runs_bind. exists t, ma. split.
    { destruct b as [[l ep]|]; cbn [read_opt].
      - destruct Hb as [-> Hb]. unfold deref_str, deref, bind. cbn [fst snd]. rewrite R4, Nat.eqb_refl.
        unfold str_at in Hb. rewrite R3, Hb. reflexivity.
      - cbn in Hb. subst t. reflexivity. }
    cbv zeta. rewrite Hlt.
    destruct b as [[l ep]|].
    - destruct Hb as [-> Hb]. apply runs_push_str; [unfold room; lia | congruence|].
      set (mb := pushed (PStr l) ma).
      eapply runs_step; [apply alloc_runs'; cbn [mb pushed set_stack m_sp m_stack]; rewrite !upd_length; lia|].
      intros r m1 (F & L & Em & Ep & Hr).
      eapply runs_pop_str; [| exact F|]. { lia. }
      intros F1. destruct r as [bytes|].
      + destruct Hr as (-> & Hbp & Hq). apply Fin; auto.
        * cbn [popped set_stack m_heap]. rewrite L. cbn [mb pushed set_stack m_heap]. congruence.
        * destruct Hq as [Q1 Q2]. cbn [popped set_stack] in *. split; cbn [m_abort m_log set_stack];
          destruct Hma as [(p & -> & ->)|[_ ->]]; assumption.
        * intros N. cbn [popped set_stack m_epoch]. rewrite (Ep N). exact R4.
      + exfalso. destruct Hr as [_ [[k Hk]|Hk]]; [rewrite En in Hk; discriminate | lia].
    - cbn in Hb. apply runs_bind. exists tt, ma. split; [reflexivity|].
      eapply runs_step; [apply alloc_runs'; lia|].
      intros r m1 (F & L & Em & Ep & Hr).
      apply runs_bind. exists None, m1. split; [reflexivity|]. destruct r as [bytes|].
      + destruct Hr as (-> & Hbp & Hq). apply Fin; auto.
        * congruence.
        * destruct Hq as [Q1 Q2]. split; destruct Hma as [(p & -> & ->)|[_ ->]]; assumption.
        * intros N. rewrite (Ep N). exact R4.
      + exfalso. destruct Hr as [_ [[k Hk]|Hk]]; [rewrite En in Hk; discriminate | lia]. }
  apply runs_bind. exists x, m. split.
  { destruct s as [[l ep]|t']; cbn [read_src].
    - destruct Hs as [-> Hs]. unfold deref_str, deref, bind. cbn [fst snd]. rewrite Nat.eqb_refl. unfold str_at in Hs. rewrite Hs. reflexivity.
    - cbn in Hs. subst. reflexivity. }
  destruct s as [[l ep]|t'].
  - destruct Hs as [-> Hs]. cbn [push_src]. apply runs_push_str; [unfold room; lia | reflexivity|].
    apply Step. left. exists (l, m_epoch m). auto.
  - cbn [push_src]. apply runs_bind. exists tt, m. split; [reflexivity|]. apply Step. right. split; [eauto | reflexivity].
Qed.
