(** C31 and C32: for loops. *)
From Coq Require Import ZArith Bool List Lia.
From Verif Require Import Base FloatModel PolyModel ValueModel MathModel MachModel MachSpec ListModel StrModel BinModel FrameModel VarSpec CodeModel CompModel ExecModel LayoutSpec EvalSpec EvalMono LoopSpec MathSpec MathProofs TameSpec TameProofs2 VarProofs FrameProofs LoopProofs LoopProofs2 ListProps StrProps CodeProps EvalProps.
Import ListNotations.
Local Open Scope Z_scope.
Open Scope eval_scope.

(** ** The list that a range is *)
Theorem C31_range_list : forall a b s x, s <> 0 ->
  In x (range_list a b s) <-> exists k, 0 <= k /\ x = a + k * s /\ within b s x = true.
Proof. exact range_in. Qed.
Print Assumptions C31_range_list.
Example C31_range_list_applies : range_list 1 10 3 = [1; 4; 7] /\ range_list 5 0 (-2) = [5; 3; 1] /\ range_list 3 3 1 = [].
Proof. repeat split; reflexivity. Qed.

(** ** C31 *)
(** If the statement ends, its arguments have been evaluated; and if they are
    the integers [a], [b] and [s] (0 and 1 when left out), and the body leaves
    the loop variable and the two hidden names alone, then the body has run for
    [a], [a + s], ... in order, until one run broke out or returned, or all had
    been visited and the else part ran.  Integers up to 2^24. *)
Theorem C31_count_partial : forall K FT, tame_builtins (cf_env K) (cf_builtins K) ->
  forall d inl id args body els a b s n st r st', let w := e_width (cf_env K) in
  own_names K d id -> sane (cf_env K) (s_m st) -> aborted st = false ->
  s <> 0 -> small a -> Z.abs b + Z.abs s <= 2 ^ 24 -> small (a - s) ->
  keeps [id; for_tmp w d 0; for_tmp w d 1] (body_runs K FT d body) ->
  exs K FT n d inl (SRange id args body els) st = Val r st' ->
  exists m s1, ev_args K FT m args st = Val tt s1 /\
    (asks (tops (Z.to_nat (nargs args)) s1) a b s -> fits_vars (cf_env K) (nvars s1 + 3) ->
     exists s2, visits (shows_int id) (only [id]) (body_runs K FT d body) (else_runs K FT d inl els) (range_list a b s) s2 r st' /\
      mstill (set_stack (m_stack (s_m s1)) (m_sp (s_m s1) - Z.to_nat (nargs args)) (s_m s1)) (s_m s2) /\
      (forall j, ~ In j [id; for_tmp w d 0; for_tmp w d 1] -> visible s2 j = visible s1 j)).
Proof. intros K FT Hb d inl id args body els a b s n st r st' w. exact (range_statement K FT Hb d inl id args body els a b s n st r st'). Qed.
Print Assumptions C31_count_partial.
(** s = 0
    for i in range(1, 10, 3): s += i *)
Definition args3 (a b c : Z) : args := APos (k a) (APos (k b) (APos (k c) ANil)).
Lemma skip_runs K FT d s1 e s2 : body_runs K FT d SSkip s1 e s2 -> e = Normal /\ s2 = s1.
Proof. intros (n & H). destruct n as [|n]; [discriminate|]. autorewrite with eval in H. injection H as <- <-. auto. Qed.
Example C31_count_applies :
  own_names demo_conf 0 x_ /\ keeps [x_; for_tmp W32 0 0; for_tmp W32 0 1] (body_runs demo_conf nofun 0 SSkip) /\
  match ev_args demo_conf nofun 9 (args3 1 10 3) demo_st with
  | Val tt s => match tops 3 s with [PNum f; PNum g; PNum h] => feq f (f_of_Z 1) && feq g (f_of_Z 10) && feq h (f_of_Z 3) | _ => false end
  | _ => false
  end = true /\
  match exs demo_conf nofun 20 0 false (SSeq (SAssign None (TId 301) (k 0)) (SRange x_ (args3 1 10 3) (SAssign (Some Nplus) (TId 301) (EId x_)) SSkip)) demo_st with
  | Val Normal s => global_is 301 12 s | _ => false end = true.
Proof.
  split; [repeat split; vm_compute; discriminate|]. split; [|split; vm_compute; reflexivity].
  intros s1 e s2 H _ j _. apply skip_runs in H as [_ ->]. reflexivity.
Qed.
(** Beyond 2^24 the loop stays where it is, for ever. *)
Theorem C31_stuck_refuted : forall K FT d inl id els b st, own_names K d id -> 2 ^ 24 < b -> counting K d id (2 ^ 24) b 1 st ->
  forall n r st', loop K FT n d inl (range_step K d id) SSkip els st <> Val r st'.
Proof. exact range_stuck. Qed.
Print Assumptions C31_stuck_refuted.
Example C31_stuck_refuted_applies :
  let st := set_globals [(x_, PNum (f_of_Z (2 ^ 24))); (for_tmp W32 0 0, PNum (f_of_Z (2 ^ 25))); (for_tmp W32 0 1, PNum (f_of_Z 1))] demo_st in
  own_names demo_conf 0 x_ /\ 2 ^ 24 < 2 ^ 25 /\ counting demo_conf 0 x_ (2 ^ 24) (2 ^ 25) 1 st.
Proof.
  cbv zeta. split; [repeat split; vm_compute; discriminate|]. split; [lia|].
  assert (H : forall z, representable z -> is_int (f_of_Z z) z) by exact of_Z_int.
  split; eexists; (split; [reflexivity|]); apply H; [exists 1, 24|exists 1, 25|exists 1, 0]; lia.
Qed.
(** range(1, b, 2^25): the first round is for 0 instead of 1. *)
Theorem C31_first_refuted : forall K FT d inl id body els b n st s1 r st',
  own_names K d id -> 1 < b -> fits_vars (cf_env K) (nvars st + 3) -> sane (cf_env K) (s_m st) -> aborted st = false ->
  asks (tops 3 st) 1 b (2 ^ 25) -> prim (range_start K 3 d id) st = Val tt s1 ->
  loop K FT n d inl (range_step K d id) body els s1 = Val r st' ->
  exists s2 e s3, shows_int id 0 s2 /\ body_runs K FT d body s2 e s3.
Proof. exact range_first_wrong. Qed.
Print Assumptions C31_first_refuted.
Example C31_first_refuted_applies :
  let m := set_stack [PNum (f_of_Z 1); PNum (f_of_Z 10); PNum (f_of_Z (2 ^ 25)); PZero; PZero; PZero; PZero; PZero] 3 text_demo in
  asks (tops 3 (set_m m demo_st)) 1 10 (2 ^ 25) /\
  match prim (range_start demo_conf 3 0 x_) (set_m m demo_st) with
  | Val tt s1 => match loop demo_conf nofun 20 0 false (range_step demo_conf 0 x_) SSkip SSkip s1 with Val Normal _ => true | _ => false end
  | _ => false
  end = true.
Proof.
  cbv zeta. split; [|vm_compute; reflexivity].
  assert (H : forall z, representable z -> is_int (f_of_Z z) z) by exact of_Z_int.
  apply asks_3; apply H; [exists 1, 0|exists 10, 0|exists 1, 25]; lia.
Qed.

(** ** C32 *)
(** If the value is a list, a tuple or a dictionary, with any elements, and
    the body leaves it and the two hidden names alone, then the body has run
    for its elements (its keys) in order, up to the first None. *)
Theorem C32_list_partial : forall K FT, tame_builtins (cf_env K) (cf_builtins K) ->
  forall d inl id e body els n st r st', let w := e_width (cf_env K) in
  own_names K d id -> sane (cf_env K) (s_m st) -> aborted st = false ->
  exs K FT n d inl (SFor id e body els) st = Val r st' ->
  exists m v s1, ev K FT m e st = Val v s1 /\
    forall l kd xs, s_a s1 = PList l -> listed l kd xs s1 -> countable (cf_env K) (length xs) -> fits_vars (cf_env K) (nvars s1 + 3) ->
    spares K d l kd xs (body_runs K FT d body) ->
    exists s2, visits (shows_value id) (moved [id; for_tmp w d 1]) (body_runs K FT d body) (else_runs K FT d inl els) (before_none (items kd xs)) s2 r st' /\
      mstill (s_m s1) (s_m s2) /\ (forall j, ~ In j [for_tmp w d 0; for_tmp w d 1] -> visible s2 j = visible s1 j).
Proof. intros K FT Hb d inl id e body els n st r st' w. exact (for_statement K FT Hb d inl id e body els n st r st'). Qed.
Print Assumptions C32_list_partial.
Lemma none_absent : forall xs, Forall (fun v => is_null v = false) xs -> before_none xs = xs.
Proof. intros xs H. induction H as [|x r Hx Hr IH]; [reflexivity|]. cbn. rewrite Hx, IH. reflexivity. Qed.
Lemma none_present : forall xs v ys, is_null v = true -> Forall (fun v => is_null v = false) xs -> before_none (xs ++ v :: ys) = xs.
Proof. intros xs v ys Hv H. induction H as [|x r Hx Hr IH]; cbn; [rewrite Hv; reflexivity|]. rewrite Hx, IH. reflexivity. Qed.
(** without None among them, that is all of them *)
Theorem C32_all_elements_partial : forall K FT, tame_builtins (cf_env K) (cf_builtins K) ->
  forall d inl id e body els n st r st', let w := e_width (cf_env K) in
  own_names K d id -> sane (cf_env K) (s_m st) -> aborted st = false ->
  exs K FT n d inl (SFor id e body els) st = Val r st' ->
  exists m v s1, ev K FT m e st = Val v s1 /\
    forall l kd xs, s_a s1 = PList l -> listed l kd xs s1 -> Forall (fun u => is_null u = false) (items kd xs) ->
    countable (cf_env K) (length xs) -> fits_vars (cf_env K) (nvars s1 + 3) ->
    spares K d l kd xs (body_runs K FT d body) ->
    exists s2, visits (shows_value id) (moved [id; for_tmp w d 1]) (body_runs K FT d body) (else_runs K FT d inl els) (items kd xs) s2 r st' /\
      mstill (s_m s1) (s_m s2).
Proof.
  intros K FT Hb d inl id e body els n st r st' w Ho Hs Ha H.
  destruct (for_statement K FT Hb d inl id e body els n st r st' Ho Hs Ha H) as (m & v & s1 & He & Hall).
  exists m, v, s1. split; [exact He|]. intros l kd xs Hl HL Hn Hc Hf Hsp. destruct (Hall l kd xs Hl HL Hc Hf Hsp) as (s2 & Hv & Hm & _).
  exists s2. rewrite none_absent in Hv by exact Hn. auto.
Qed.
Print Assumptions C32_all_elements_partial.
(** s = 0
    for i in [3, 4, 5]: s += i *)
Definition sum3 (e : expr) : stmt := SSeq (SAssign None (TId 301) (k 0)) (SFor x_ e (SAssign (Some Nplus) (TId 301) (EId x_)) SSkip).
Example C32_list_applies :
  listed 5 KList [n2] demo_st /\ countable still_env 1 /\ fits_vars still_env (nvars demo_st + 3) /\
  (forall s1 e s2, body_runs big_conf nofun 0 SSkip s1 e s2 -> s2 = s1) /\
  match exs big_conf nofun 20 0 false (sum3 (EList (args3 3 4 5))) big_st with Val Normal s => global_is 301 12 s | _ => false end = true /\
  match exs big_conf nofun 20 0 false (sum3 (EDict (DCons (k 3) (k 30) (DCons (k 1) (k 10) DNil)))) big_st with Val Normal s => global_is 301 4 s | _ => false end = true.
Proof.
  split; [split; [constructor; [reflexivity|constructor]|]; eexists; split; [reflexivity|]; repeat split|].
  split; [unfold countable; cbn; lia|]. split; [vm_compute; auto|].
  split; [intros s1 e s2 H; apply skip_runs in H as [_ ->]; reflexivity|]. split; vm_compute; reflexivity.
Qed.
(** The claim is false as soon as a None is among the elements: it and those
    after it are never visited, and the else part runs as if all had been. *)
Theorem C32_none_refuted : forall K FT, tame_builtins (cf_env K) (cf_builtins K) ->
  forall d inl id e body els n st r st', let w := e_width (cf_env K) in
  own_names K d id -> sane (cf_env K) (s_m st) -> aborted st = false ->
  exs K FT n d inl (SFor id e body els) st = Val r st' ->
  exists m v s1, ev K FT m e st = Val v s1 /\
    forall l kd xs pre u post, s_a s1 = PList l -> listed l kd xs s1 -> items kd xs = pre ++ u :: post -> is_null u = true -> Forall (fun u => is_null u = false) pre ->
    countable (cf_env K) (length xs) -> fits_vars (cf_env K) (nvars s1 + 3) ->
    spares K d l kd xs (body_runs K FT d body) ->
    exists s2, visits (shows_value id) (moved [id; for_tmp w d 1]) (body_runs K FT d body) (else_runs K FT d inl els) pre s2 r st' /\
      mstill (s_m s1) (s_m s2).
Proof.
  intros K FT Hb d inl id e body els n st r st' w Ho Hs Ha H.
  destruct (for_statement K FT Hb d inl id e body els n st r st' Ho Hs Ha H) as (m & v & s1 & He & Hall).
  exists m, v, s1. split; [exact He|]. intros l kd xs pre u post Hl HL Hi Hu Hp Hc Hf Hsp. destruct (Hall l kd xs Hl HL Hc Hf Hsp) as (s2 & Hv & Hm & _).
  exists s2. rewrite Hi, none_present in Hv by assumption. auto.
Qed.
Print Assumptions C32_none_refuted.
(** x is None; for i in [3, x, 5] *)
Example C32_none_refuted_applies :
  match exs big_conf nofun 20 0 false (sum3 (EList (APos (k 3) (APos (EId 302) (APos (k 5) ANil))))) (set_globals [(302, PNull)] big_st) with
  | Val Normal s => global_is 301 3 s | _ => false end = true.
Proof. vm_compute. reflexivity. Qed.

(** Strings: every character, in order. *)
Theorem C32_string : forall K FT, tame_builtins (cf_env K) (cf_builtins K) ->
  forall d inl id e body els n st r st', let w := e_width (cf_env K) in
  own_names K d id -> sane (cf_env K) (s_m st) -> aborted st = false ->
  exs K FT n d inl (SFor id e body els) st = Val r st' ->
  exists m v s1, ev K FT m e st = Val v s1 /\
    forall l t, s_a s1 = PStr l -> spelled l t s1 -> countable (cf_env K) (length t) -> fits_vars (cf_env K) (nvars s1 + 3) ->
    spares_string K d l t (body_runs K FT d body) ->
    exists s2, visits (shows_char id) (grown [id; for_tmp w d 1]) (body_runs K FT d body) (else_runs K FT d inl els) t s2 r st' /\
      mstill (s_m s1) (s_m s2) /\ (forall j, ~ In j [for_tmp w d 0; for_tmp w d 1] -> visible s2 j = visible s1 j).
Proof. intros K FT Hb d inl id e body els n st r st' w. exact (for_string K FT Hb d inl id e body els n st r st'). Qed.
Print Assumptions C32_string.
(** s = ""; for c in "ab": s = c + s *)
Example C32_string_applies :
  spelled 0 [97; 98] demo_st /\
  match exs big_conf nofun 20 0 false (SSeq (SAssign None (TId 301) (EStr 2 [])) (SFor x_ (EStr 0 []) (SAssign None (TId 301) (EBin Nplus (EId x_) (EId 301))) SSkip)) big_st with
  | Val Normal s => match VarSpec.lookup 301 (s_globals s) with Some (PStr l) => nth_error (m_heap (s_m s)) l | _ => None end
  | _ => None
  end = Some (OStr [98; 97]).
Proof. split; [split; [repeat constructor; lia|reflexivity]|vm_compute; reflexivity]. Qed.

(** ** C59 *)
(** The hidden variables of loops at different depths are different, and none
    of them is a name: a name is the address of an object in the pool. *)
Theorem C59_hidden : forall w d d' i i', 0 <= d < 256 -> 0 <= d' < 256 -> 0 <= i <= 1 -> 0 <= i' <= 1 ->
  for_tmp w d i = for_tmp w d' i' -> d = d' /\ i = i'.
Proof. exact hidden_apart. Qed.
Print Assumptions C59_hidden.
Theorem C59_names : forall K d id, 0 <= d < 256 -> 0 <= id <= 2 ^ wbits (e_width (cf_env K)) - 517 -> own_names K d id.
Proof. exact names_own. Qed.
Print Assumptions C59_names.
(** for i in range(3):
        for j in range(2): s += 1 *)
Definition nested : stmt :=
  SSeq (SAssign None (TId 301) (k 0))
       (SRange x_ (APos (k 3) ANil) (SRange 302 (APos (k 2) ANil) (SAssign (Some Nplus) (TId 301) (k 1)) SSkip) SSkip).
Example C59_applies : own_names demo_conf 0 x_ /\ own_names demo_conf 1 302 /\
  match exs demo_conf nofun 30 0 false nested demo_st with Val Normal s => global_is 301 6 s | _ => false end = true.
Proof. split; [|split]; [repeat split; vm_compute; discriminate|repeat split; vm_compute; discriminate|vm_compute; reflexivity]. Qed.
(** The depth is a byte: 256 loops inside, the names come again. *)
Theorem C59_deep_refuted : forall w d i, 0 <= d -> for_tmp w (d + 256) i = for_tmp w d i.
Proof. exact hidden_again. Qed.
Print Assumptions C59_deep_refuted.
Example C59_deep_refuted_applies : for_tmp W16 256 0 = 65531 /\ for_tmp W16 0 0 = 65531.
Proof. split; reflexivity. Qed.
