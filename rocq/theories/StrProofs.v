(** Strings: allocation, concatenation, repetition, indexing. *)
From Verif Require Import Tac Base FloatModel PolyModel ValueModel OrderSpec OrderProofs SliceModel SliceSpec SliceProofs MathModel
  MachModel ListModel StrModel BinModel MachSpec ListSpec StrSpec MachProofs FrameProofs ListProofs ListProofs2.
Local Open Scope Z_scope.
Open Scope mach_scope.

Lemma str_at_kept : forall X h h' l s, kept X h h' -> Some l <> X -> str_at h l s -> str_at h' l s.
Proof.
  intros X h h' l s [_ K] N H. destruct (K _ _ H N) as ([|t|] & H' & R); cbn in R; try contradiction. subst. exact H'.
Qed.
Lemma str_at_frame : forall m m' l s, frame None m m' -> str_at (m_heap m) l s -> str_at (m_heap m') l s.
Proof. intros m m' l s F H. eapply str_at_kept; [apply F | discriminate | exact H]. Qed.

Lemma tree_kept : forall h h' v p, kept None h h' -> tree h p v -> tree h' p v.
Proof.
  intros h h' v p K. revert p. induction v as [f|s|k vs IH|u|u] using value_ind2; intros p H; try exact H.
  - destruct H as (l & -> & H). exists l. split; [reflexivity|]. eapply str_at_kept; eauto. discriminate.
  - apply tree_seq in H. apply tree_seq. destruct H as (l & o & -> & Ho & Hk & Hvs). destruct K as [KL K].
    destruct (K _ _ Ho ltac:(discriminate)) as ([o'| |] & H' & R); cbn in R; try contradiction.
    destruct R as (R1 & _ & _ & _ & R5). exists l, o'. split; [reflexivity|]. split; [exact H'|]. split; [congruence|].
    rewrite <- R5. clear -IH Hvs. induction Hvs as [|p v ps vs Hpv _ IHH]; constructor; inversion IH; subst; auto.
Qed.

(** Bytes given for a string of [n] characters. *)
Lemma str_bytes : forall w n, 0 <= n -> fits_str w n ->
  n + 1 <= size_round w (u_of w (n + 1)) <= n + 4.
Proof.
  intros w n H0 H. unfold fits_str in H. rewrite (u_of_small w (n + 1)) by lia. unfold size_round.
  rewrite (u_of_small w (n + 1 + 3)) by lia. pose proof (Z.mod_pos_bound (n + 1 + 3) 4 ltac:(lia)).
  rewrite u_of_small by lia. lia.
Qed.

Definition appended (o : obj) (m : mach) : mach := set_heap (m_heap m ++ [o]) m.

Lemma frame_appended : forall o m, frame None m (appended o m).
Proof. intros. split; cbn; auto. apply kept_app. Qed.

Lemma wf_appended_str : forall E s m, wf E m -> wf E (appended (OStr s) m).
Proof.
  intros E s m W. eapply wf_fresh; [exact W | apply frame_appended|]. right. cbn. rewrite app_length. cbn.
  split; [lia|]. intros o H. rewrite nth_error_last in H. discriminate.
Qed.

Lemma wf_strs_appended : forall E s m, wf_strs E (m_heap m) -> Z.of_nat (length s) + 1 <= e_pool E ->
  Forall (fun c => 0 < c < 256) s -> wf_strs E (m_heap (appended (OStr s) m)).
Proof.
  intros E s m W HL HF l t H. unfold str_at in H. cbn in H.
  destruct (le_lt_dec (length (m_heap m)) l) as [Hl|Hl].
  - assert (l < length (m_heap m ++ [OStr s]))%nat by (eapply nth_error_lt; eauto). rewrite app_length in H0. cbn in H0.
    assert (l = length (m_heap m)) by lia. subst l. rewrite nth_error_last in H. injection H as <-. auto.
  - rewrite nth_error_app1 in H by exact Hl. apply (W l t H).
Qed.

(** Nothing but the stack pointer, the epoch and unreachable words differ. *)
Lemma wf_strs_same : forall E m m', wf_strs E (m_heap m) -> frame None m m' -> length (m_heap m') = length (m_heap m) ->
  wf_strs E (m_heap m').
Proof.
  intros E m m' W F L l s H.
  destruct (nth_error (m_heap m) l) as [o|] eqn:Ho.
  - destruct (fr_kept _ _ _ F) as [_ K]. destruct (K _ _ Ho ltac:(discriminate)) as (o' & Ho' & R).
    unfold str_at in H. rewrite Ho' in H. injection H as ->. destruct o; cbn in R; try contradiction. subst. apply (W l s Ho).
  - apply nth_error_None in Ho. assert (l < length (m_heap m'))%nat by (eapply nth_error_lt; exact H). lia.
Qed.

Lemma runs_deref_str : forall B l ep s (f : list Z -> M B) m Q,
  ep = m_epoch m -> str_at (m_heap m) l s -> runs (f s) m Q -> runs (bind (deref_str (l, ep)) f) m Q.
Proof.
  intros B l ep s f m Q -> H R. apply runs_bind. exists s, m. split; [| exact R].
  unfold deref_str, deref, bind. cbn [fst snd]. rewrite Nat.eqb_refl. unfold str_at in H. rewrite H. reflexivity.
Qed.

Lemma runs_push_str : forall E B l ep (f : unit -> M B) m Q,
  room E 1 m -> ep = m_epoch m -> runs (f tt) (pushed (PStr l) m) Q -> runs (bind (push_str E (Some (l, ep))) f) m Q.
Proof.
  intros E B l ep f m Q R -> H. apply runs_bind. exists tt, (pushed (PStr l) m). split; [| exact H].
  unfold push_str, bind, str_to_poly. cbn [fst snd]. rewrite Nat.eqb_refl. apply push_eq. exact R.
Qed.

Lemma runs_pop_str : forall X B l p (f : option ptr -> M B) m m2 Q,
  (m_sp m < length (m_stack m))%nat -> frame X (pushed (PStr l) m) m2 ->
  (frame X m (popped m2) -> runs (f (Some (l, m_epoch m2))) (popped m2) Q) -> runs (bind (pop_str (Some p)) f) m2 Q.
Proof.
  intros X B l p f m m2 Q Hsp F H. destruct (pop_pushed _ _ _ _ Hsp F) as [E F'].
  apply runs_bind. exists (Some (l, m_epoch m2)), (popped m2). split; [| auto].
  unfold pop_str, bind. rewrite E. reflexivity.
Qed.

Lemma runs_new_str : forall B bytes s (f : ptr -> M B) m Q,
  Z.of_nat (length s) + 1 <= bytes ->
  runs (f (length (m_heap m), m_epoch m)) (appended (OStr s) m) Q -> runs (bind (new_str bytes s) f) m Q.
Proof.
  intros B bytes s f m Q H R. apply runs_bind. eexists _, _. split; [| exact R].
  unfold new_str. destruct (Z.leb_spec (Z.of_nat (length s) + 1) bytes); [reflexivity | lia].
Qed.

Lemma runs_str_to_poly : forall l ep m (Q : poly -> mach -> Prop), ep = m_epoch m -> Q (PStr l) m -> runs (str_to_poly (Some (l, ep))) m Q.
Proof. intros l ep m Q -> H. exists (PStr l), m. split; [| exact H]. unfold str_to_poly. cbn [fst snd]. rewrite Nat.eqb_refl. reflexivity. Qed.

(** What an operation that makes a string ends with. *)
Definition new_str_post (E : env) (m : mach) (s : list Z) (r : option ptr) (m' : mach) : Prop :=
  wf E m' /\ wf_strs E (m_heap m') /\ frame None m m' /\
  match r with
  | None => soom E (Z.of_nat (length s)) m m' /\ length (m_heap m') = length (m_heap m)
  | Some p => quiet m m' /\ p = (length (m_heap m), m_epoch m') /\ str_at (m_heap m') (length (m_heap m)) s /\
              length (m_heap m') = S (length (m_heap m)) /\
              ((forall n, e_move E n = false) -> m_epoch m' = m_epoch m)
  end.

Lemma alloc_epoch : forall E size m r m', alloc E size m = Some (r, m') -> (forall n, e_move E n = false) -> m_epoch m' = m_epoch m.
Proof.
  intros E size m r m' H N. unfold alloc in H. rewrite N in H.
  destruct (e_fail E (m_nalloc m) || _).
  - unfold error in H. destruct (m_abort _); inversion H; reflexivity.
  - inversion H; reflexivity.
Qed.

Lemma alloc_runs' : forall E size m, (m_sp m <= length (m_stack m))%nat ->
  runs (alloc E size) m (fun r m' =>
    frame None m m' /\ length (m_heap m') = length (m_heap m) /\ m_empty m' = m_empty m /\
    ((forall n, e_move E n = false) -> m_epoch m' = m_epoch m) /\
    match r with
    | Some b => b = size_round (e_width E) (u_of (e_width E) size) /\ b <= e_pool E /\ quiet m m'
    | None => reported EMemory m m' /\
        ((exists n, e_fail E n = true) \/ e_pool E < size_round (e_width E) (u_of (e_width E) size))
    end).
Proof.
  intros E size m H. destruct (alloc_runs E size m H) as (r & m' & Hr & A & B & C & D).
  exists r, m'. split; [exact Hr|]. split; [exact A|]. split; [exact B|]. split; [exact C|]. split; [| exact D].
  apply (alloc_epoch _ _ _ _ _ Hr).
Qed.

Lemma quiet_appended : forall o m m', quiet m m' -> quiet m (appended o m').
Proof. intros o m m' [A B]. split; assumption. Qed.

(** The last step: allocation done in [m1] (a frame of [m]), string written. *)
Lemma new_str_done : forall E m m1 s bytes,
  wf E m -> wf_strs E (m_heap m) -> frame None m m1 -> length (m_heap m1) = length (m_heap m) -> quiet m m1 ->
  ((forall n, e_move E n = false) -> m_epoch m1 = m_epoch m) ->
  Z.of_nat (length s) + 1 <= bytes <= e_pool E -> Forall (fun c => 0 < c < 256) s ->
  new_str_post E m s (Some (length (m_heap m1), m_epoch m1)) (appended (OStr s) m1).
Proof.
  intros E m m1 s bytes W Ws F L Q Ep Hb Hc.
  assert (W1 : wf E m1) by (eapply wf_fresh; [exact W | exact F | left; exact L]).
  assert (Ws1 : wf_strs E (m_heap m1)) by (eapply wf_strs_same; eauto).
  split; [apply wf_appended_str; exact W1|]. split; [apply wf_strs_appended; [exact Ws1 | lia | exact Hc]|].
  split; [eapply frame_trans_none; [exact F | apply frame_appended]|].
  split; [apply quiet_appended; exact Q|]. split; [rewrite L; reflexivity|]. split; [| split].
  - unfold str_at. cbn. rewrite <- L. apply nth_error_last.
  - cbn. rewrite app_length. cbn. lia.
  - exact Ep.
Qed.

Lemma soom_from : forall E n m m', fits_str (e_width E) n -> 0 <= n -> reported EMemory m m' ->
  ((exists k, e_fail E k = true) \/ e_pool E < size_round (e_width E) (u_of (e_width E) (n + 1))) -> soom E n m m'.
Proof.
  intros E n m m' Hf H0 R [H|H]; split; auto. right. pose proof (str_bytes _ _ H0 Hf). lia.
Qed.

Lemma strlen_eq : forall E m l s, wf_env E -> wf_strs E (m_heap m) -> str_at (m_heap m) l s -> strlen E s = Z.of_nat (length s).
Proof.
  intros E m l s (P0 & P & _) W H. unfold strlen. apply u_of_small. destruct (W _ _ H) as [A _]. destruct (e_width E); cbn [wbits]; lia.
Qed.

Lemma take_skipn_some : forall A n off (l : list A), (off + n <= length l)%nat -> take n (skipn off l) = Some (firstn n (skipn off l)).
Proof. intros. apply take_some. rewrite skipn_length. lia. Qed.

(** What a possibly NULL pointer to a string reads as. *)
Definition opt_str_at (m : mach) (p : option ptr) (s : list Z) : Prop :=
  match p with None => s = [] | Some (l, ep) => ep = m_epoch m /\ str_at (m_heap m) l s end.

Lemma Forall_sub : forall A (P : A -> Prop) l off n, Forall P l -> Forall P (firstn n (skipn off l)).
Proof. intros. apply Forall_firstn, Forall_skipn. assumption. Qed.

(** snek_string_catn, both strings in the pool. *)
Lemma catn_runs : forall E m a sa lb sb aoff alen boff blen,
  wf_env E -> wf E m -> wf_strs E (m_heap m) -> room E 2 m ->
  opt_str_at m a sa -> str_at (m_heap m) lb sb ->
  0 <= aoff -> 0 <= alen -> 0 <= boff -> 0 <= blen ->
  aoff + alen <= Z.of_nat (length sa) -> boff + blen <= Z.of_nat (length sb) -> fits_str (e_width E) (alen + blen) ->
  runs (string_catn E a aoff alen (Some (lb, m_epoch m)) boff blen) m
    (new_str_post E m (firstn (Z.to_nat alen) (skipn (Z.to_nat aoff) sa) ++ firstn (Z.to_nat blen) (skipn (Z.to_nat boff) sb))).
Proof.
  intros E m a sa lb sb aoff alen boff blen We W Ws Hroom Ha Hb A0 A1 B0 B1 AL BL Hfit.
  assert (Hst : length (m_stack m) = e_stack E) by apply W. unfold room in Hroom.
  set (xa := firstn (Z.to_nat alen) _). set (xb := firstn (Z.to_nat blen) _).
  assert (Lx : Z.of_nat (length (xa ++ xb)) = alen + blen).
  { unfold xa, xb. rewrite app_length, !firstn_length, !skipn_length. lia. }
  assert (Hc : Forall (fun c => 0 < c < 256) (xa ++ xb)).
  { apply Forall_app. split; apply Forall_sub; [| apply (Ws _ _ Hb)].
    destruct a as [[la ep]|]; cbn in Ha; [| subst; constructor]. destruct Ha as [_ Ha]. apply (Ws _ _ Ha). }
  assert (Tb : take (Z.to_nat blen) (skipn (Z.to_nat boff) sb) = Some xb) by (apply take_skipn_some; lia).
  assert (Ta : take (Z.to_nat alen) (skipn (Z.to_nat aoff) sa) = Some xa) by (apply take_skipn_some; lia).
  unfold string_catn. destruct a as [[la ep]|].
  - destruct Ha as [-> Ha].
    apply runs_push_str; [unfold room; lia | reflexivity|]. set (ma := pushed (PStr la) m).
    apply runs_push_str; [unfold room; cbn [ma pushed set_stack m_sp]; lia | reflexivity|]. set (mb := pushed (PStr lb) ma).
    eapply runs_step; [apply alloc_runs'; cbn [mb ma pushed set_stack m_sp m_stack]; rewrite !upd_length; lia|].
    intros r m1 (F & L & Em & Ep & Hr).
    eapply runs_pop_str; [| exact F|]. { cbn [ma pushed set_stack m_sp m_stack]. rewrite upd_length. lia. }
    intros F1. eapply runs_pop_str; [| exact F1|]. { lia. }
    intros F2. set (m2 := popped m1) in *. set (m3 := popped m2) in *.
    destruct r as [bytes|].
    + destruct Hr as (-> & Hbp & Hq). pose proof (str_bytes _ (alen + blen) ltac:(lia) Hfit) as Hby.
      cbn [read_opt]. eapply runs_deref_str; [reflexivity | eapply str_at_frame; [exact F2 | exact Ha]|].
      eapply runs_lift_bind; [exact Ta|].
      eapply runs_deref_str; [reflexivity | eapply str_at_frame; [exact F2 | exact Hb]|].
      eapply runs_lift_bind; [exact Tb|].
      apply runs_new_str; [lia|]. apply runs_ret.
      eapply new_str_done; [exact W | exact Ws | exact F2 | exact L | exact Hq | exact Ep | split; [| exact Hbp]; lia | exact Hc].
    + apply runs_ret. destruct Hr as [Hr1 Hr2].
      assert (W3 : wf E m3) by (eapply wf_fresh; [exact W | exact F2 | left; exact L]).
      split; [exact W3|]. split; [eapply wf_strs_same; eauto|]. split; [exact F2|].
      split; [| exact L]. rewrite Lx. apply soom_from; [exact Hfit | lia | exact Hr1 | exact Hr2].
  - cbn in Ha. subst sa. cbn [push_str].
    apply runs_bind. exists tt, m. split; [reflexivity|].
    apply runs_push_str; [unfold room; lia | reflexivity|]. set (mb := pushed (PStr lb) m).
    eapply runs_step; [apply alloc_runs'; cbn [mb pushed set_stack m_sp m_stack]; rewrite !upd_length; lia|].
    intros r m1 (F & L & Em & Ep & Hr).
    eapply runs_pop_str; [| exact F|]. { lia. }
    intros F2. set (m3 := popped m1) in *.
    cbn [pop_str]. apply runs_bind. exists None, m3. split; [reflexivity|].
    destruct r as [bytes|].
    + destruct Hr as (-> & Hbp & Hq). pose proof (str_bytes _ (alen + blen) ltac:(lia) Hfit) as Hby.
      cbn [read_opt]. apply runs_bind. exists [], m3. split; [reflexivity|].
      eapply runs_lift_bind; [exact Ta|].
      eapply runs_deref_str; [reflexivity | eapply str_at_frame; [exact F2 | exact Hb]|].
      eapply runs_lift_bind; [exact Tb|].
      apply runs_new_str; [lia|]. apply runs_ret.
      eapply new_str_done; [exact W | exact Ws | exact F2 | exact L | exact Hq | exact Ep | split; [| exact Hbp]; lia | exact Hc].
    + apply runs_ret. destruct Hr as [Hr1 Hr2].
      assert (W3 : wf E m3) by (eapply wf_fresh; [exact W | exact F2 | left; exact L]).
      split; [exact W3|]. split; [eapply wf_strs_same; eauto|]. split; [exact F2|].
      split; [| exact L]. rewrite Lx. apply soom_from; [exact Hfit | lia | exact Hr1 | exact Hr2].
Qed.

Lemma post_result : forall E m s r m', new_str_post E m s r m' ->
  runs (str_to_poly r) m' (string_result E m s).
Proof.
  intros E m s r m' (W & Ws & F & H). destruct r as [[l ep]|].
  - destruct H as (Q & [= -> ->] & Hs & L & _). apply runs_str_to_poly; [reflexivity|].
    split; [exact W|]. split; [exact Ws|]. split; [destruct F; split; assumption|].
    split; [apply kept_others; apply F|]. left. exists (length (m_heap m)). auto.
  - destruct H as [H L]. exists PNull, m'. split; [reflexivity|].
    split; [exact W|]. split; [exact Ws|]. split; [destruct F; split; assumption|].
    split; [apply kept_others; apply F|]. right. auto.
Qed.

Lemma cat_runs : forall E m la lb sa sb,
  wf_env E -> wf E m -> wf_strs E (m_heap m) -> room E 2 m ->
  str_at (m_heap m) la sa -> str_at (m_heap m) lb sb -> fits_str (e_width E) (Z.of_nat (length (sa ++ sb))) ->
  runs (string_cat E (la, m_epoch m) (lb, m_epoch m)) m (string_result E m (sa ++ sb)).
Proof.
  intros E m la lb sa sb We W Ws Hroom Ha Hb Hfit. unfold string_cat.
  eapply runs_deref_str; [reflexivity | exact Ha|]. eapply runs_deref_str; [reflexivity | exact Hb|].
  rewrite (strlen_eq _ _ _ _ We Ws Ha), (strlen_eq _ _ _ _ We Ws Hb).
  rewrite app_length, Nat2Z.inj_add in Hfit.
  eapply runs_step.
  - eapply (catn_runs E m (Some (la, m_epoch m)) sa); eauto; try lia. split; [reflexivity | exact Ha].
  - cbn [Z.to_nat skipn]. rewrite !Nat2Z.id, !firstn_all. apply post_result.
Qed.

Lemma roomy_str_fits : forall E m la lb sa sb, wf_env E -> roomy_str E -> wf_strs E (m_heap m) ->
  str_at (m_heap m) la sa -> str_at (m_heap m) lb sb -> fits_str (e_width E) (Z.of_nat (length (sa ++ sb))).
Proof.
  intros E m la lb sa sb (P0 & P & _) R Ws Ha Hb. destruct (Ws _ _ Ha) as [A _], (Ws _ _ Hb) as [B _].
  rewrite app_length. unfold fits_str. destruct R as [R|R].
  - rewrite R in *. cbn [wbits]. lia.
  - pose proof (pow_wbits (e_width E)). lia.
Qed.

(** snek_string_make *)
Lemma make_str_runs : forall E m c, wf_env E -> wf E m -> wf_strs E (m_heap m) ->
  runs (string_make E c) m (string_result E m (cstring [wrapu 8 c])).
Proof.
  intros E m c We W Ws. unfold string_make.
  assert (Hsp : (m_sp m <= length (m_stack m))%nat). { rewrite (wf_stack_len _ _ W). apply W. }
  set (s := cstring [wrapu 8 c]).
  assert (Hs : (length s <= 1)%nat /\ Forall (fun c => 0 < c < 256) s).
  { unfold s. cbn. pose proof (Z.mod_pos_bound c 256 ltac:(lia)). unfold wrapu. change (2 ^ 8) with 256.
    destruct (Z.eqb_spec (c mod 256) 0); cbn; [split; [lia | constructor]|]. split; [lia|]. constructor; [lia | constructor]. }
  destruct Hs as [Hs1 Hs2].
  assert (Hb : size_round (e_width E) (u_of (e_width E) 2) = 4) by (destruct (e_width E); reflexivity).
  eapply runs_step; [apply alloc_runs'; exact Hsp|]. rewrite Hb. intros r m1 (F & L & Em & Ep & Hr).
  destruct r as [bytes|].
  - destruct Hr as (-> & Hbp & Hq). apply runs_new_str; [lia|].
    apply (post_result E m s (Some (length (m_heap m1), m_epoch m1))).
    apply new_str_done with 4; auto. lia.
  - assert (P : new_str_post E m s None m1).
    { split; [eapply wf_fresh; [exact W | exact F | left; exact L]|]. split; [eapply wf_strs_same; eauto|]. split; [exact F|].
      split; [| exact L]. destruct Hr as [Hr1 [Hr2|Hr2]]; split; auto. right. lia. }
    exact (post_result _ _ _ _ _ P).
Qed.

(** s[i] *)
Lemma get_str_runs : forall E m l s f i,
  wf_env E -> wbits (e_width E) <= e_int E -> wf E m -> wf_strs E (m_heap m) -> str_at (m_heap m) l s ->
  denotes E f i ->
  runs (string_get E (l, m_epoch m) (PNum f) true) m (fun r m' =>
    match py_index s i with
    | Some c => string_result E m [c] r m'
    | None => r = PNull /\ reported (EValue (PNum f)) m m' /\ m_heap m' = m_heap m /\ stack_kept m m'
    end).
Proof.
  intros E m l s f i We Hi W Ws Hs [Hd Hr]. unfold string_get.
  apply runs_eq with (c' := let* s := deref_str (l, m_epoch m) in
     match string_index (e_width E) (e_int E) (u_of (e_width E) (Z.of_nat (length s))) i with
     | Ok None => error (EValue (PNum f));; ret PNull
     | Ok (Some o) => let* c := lift (nth_error s (Z.to_nat o)) in string_make E c
     | _ => undef
     end).
  { unfold get_soffset, get_float, bind, ret. rewrite Hd. reflexivity. }
  eapply runs_deref_str; [reflexivity | exact Hs|].
  destruct (Ws _ _ Hs) as [HL Hc]. assert (HW : Z.of_nat (length s) < 2 ^ wbits (e_width E)).
  { destruct We as (_ & P & _). destruct (e_width E); cbn [wbits]; lia. }
  rewrite u_of_small by lia.
  rewrite <- string_index_list by lia.
  rewrite list_index_pos by assumption. rewrite (py_pos_index _ s i).
  destruct (py_pos (length s) i) as [z|] eqn:Ez; cbn [option_map].
  - rewrite Nat2Z.id. assert (Hz := py_pos_lt _ _ _ Ez).
    destruct (nth_error s z) as [c|] eqn:Hn; [| apply nth_error_None in Hn; lia].
    eapply runs_lift_bind; [reflexivity|].
    assert (Hcc : 0 < c < 256) by (rewrite Forall_forall in Hc; apply Hc; eapply nth_error_In; eauto).
    assert (Hone : cstring [wrapu 8 c] = [c]).
    { unfold wrapu. change (2 ^ 8) with 256. rewrite Z.mod_small by lia. cbn. destruct (Z.eqb_spec c 0); [lia | reflexivity]. }
    rewrite <- Hone. apply make_str_runs; assumption.
  - apply runs_error. apply runs_ret. split; [reflexivity|]. split; [apply errored_reported|].
    split; [apply errored_heap|]. split; unfold errored; destruct (m_abort m); reflexivity.
Qed.
