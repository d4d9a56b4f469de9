(** C88 and C89: math.fsum and str on the values of the machine. *)
From Coq Require Import ZArith Bool List String Reals Lia Lra.
From Flocq Require Import IEEE754.BinarySingleNaN IEEE754.Binary IEEE754.Bits Core.
From Verif Require SumInt.
From Verif Require Import Base FloatModel MathModel PolyModel ValueModel MachModel ListModel StrModel FrameModel MachSpec StrSpec SumModel
  MathProofs MachProofs StrProofs2 ListProps StrProps SumProps BuiltModel BuiltSpec BuiltRuns BuiltSum BuiltStr BuiltProps.
Import ListNotations.
Local Open Scope Z_scope.
Open Scope mach_scope.
Notation length := List.length (only parsing).

(** ** C88 *)
(** math.fsum of a list, a tuple or a dictionary gives what the summation of C68
    to C70 gives on its elements, those that are not numbers counting as they do
    elsewhere; or memory runs out, that is reported and the result is None.
    Nothing that existed looks different, whatever moves meanwhile. *)
Theorem C88_fsum : forall P m l k ps, wf_env (pt_env P) -> wf (pt_env P) m -> wf_strs (pt_env P) (m_heap m) ->
  room (pt_env P) 2 m -> seq_at (m_heap m) l k ps -> fits (e_width (pt_env P)) (Z.of_nat (length ps) + 4) ->
  exists s, fsum (fun _ => true) (lkind_eqb k KDict) (map to_float ps) = Ok s /\
    runs (applied P "math.fsum" [PList l] []) m (sum_result (pt_env P) m (length ps + 4) s).
Proof. exact fsum_machine. Qed.
Print Assumptions C88_fsum.
(** So the result for a list or tuple of finite numbers that are not too large
    is their sum, rounded once. *)
Theorem C88_sum : forall P m l k fs, wf_env (pt_env P) -> wf (pt_env P) m -> wf_strs (pt_env P) (m_heap m) ->
  room (pt_env P) 2 m -> seq_at (m_heap m) l k (map PNum fs) -> k <> KDict -> fits (e_width (pt_env P)) (Z.of_nat (length fs) + 4) ->
  finites fs -> (2 * rsize fs <= largest)%R ->
  exists s, f_is_finite s = true /\ real s = rnd32 (rsum fs) /\
    runs (applied P "math.fsum" [PList l] []) m (sum_result (pt_env P) m (length fs + 4) s).
Proof.
  intros P m l k fs We W Ws R Hs Hk Hf Fin Small.
  destruct (fsum_machine P m l k (map PNum fs) We W Ws R Hs) as (s & Es & H); [rewrite map_length; exact Hf|].
  rewrite map_map in Es. cbn [to_float] in Es. rewrite map_id in Es.
  replace (lkind_eqb k KDict) with false in Es by (destruct k; [reflexivity|reflexivity|congruence]).
  destruct (C68_total fs Fin Small) as (r & Er & F & V). rewrite Er in Es. injection Es as <-.
  rewrite map_length in H. exists r. auto.
Qed.
Print Assumptions C88_sum.
(** The argument is not checked: None gives None and no error is reported, and
    with a number, a string or a function the code reads a list where there is
    none. *)
Theorem C88_argument_refuted : forall P m p, (forall l, p <> PList l) ->
  applied P "math.fsum" [p] [] m = (if is_null p then Some (PNull, m) else None).
Proof.
  intros P m p H. change (applied P "math.fsum" [p] [] m) with (built_fsum (pt_env P) p m). unfold built_fsum.
  destruct (is_null p); [reflexivity|]. destruct p; try reflexivity. destruct (H l eq_refl).
Qed.
Print Assumptions C88_argument_refuted.
Example C88_applies : wf still_env text_demo /\ wf_strs still_env (m_heap text_demo) /\ room still_env 2 text_demo /\
  seq_at (m_heap text_demo) 5 KList (map PNum [f_of_bits 0x40000000]) /\ fits W32 (Z.of_nat 1 + 4) /\ finites [f_of_bits 0x40000000] /\
  (2 * rsize [f_of_bits 0x40000000] <= largest)%R.
Proof.
  split; [apply text_wf; reflexivity|]. split; [apply text_wf_strs; reflexivity|]. split; [unfold room; cbn; lia|].
  split; [eexists; repeat split; try reflexivity; cbn; lia|]. split; [unfold fits; cbn; lia|]. split; [repeat constructor|].
  rewrite rsize_V, largest_V, <- Rmult_assoc, <- mult_IZR.
  apply Rmult_le_compat_r; [left; apply SumInt.unit_pos|]. apply IZR_le, Z.leb_le. vm_compute. reflexivity.
Qed.

(** ** C89 *)
(** str gives a new string holding the text print writes for the value; nothing
    else changes.  Memory must suffice, and either nothing moves or no string is
    written in quotes: without that the claim is false, see below. *)
Theorem C89_str_partial : forall P N m p v, wf_port P -> wf (pt_env P) m -> wf_strs (pt_env P) (m_heap m) ->
  room (pt_env P) (nesting v + 2) m -> tree (m_heap m) p v -> enough (pt_env P) N ->
  (forall t, text_of (pt_env P) (pt_texts P) str_fmt v t -> (length t <= N)%nat) ->
  (forall n, e_move (pt_env P) n = false) \/ unquoted str_fmt v ->
  runs (applied P "str" [p] []) m (fun r m' => untouched (pt_env P) m m' /\ m_io m' = m_io m /\
    exists l t, r = PStr l /\ (length (m_heap m) <= l)%nat /\ str_at (m_heap m') l t /\ text_of (pt_env P) (pt_texts P) str_fmt v t).
Proof. exact str_ok. Qed.
Print Assumptions C89_str_partial.
(** str of a string is a copy of it, whatever moves. *)
Theorem C89_copy : forall P m l s, wf_port P -> wf (pt_env P) m -> wf_strs (pt_env P) (m_heap m) ->
  room (pt_env P) 2 m -> str_at (m_heap m) l s -> enough (pt_env P) (length s) ->
  runs (applied P "str" [PStr l] []) m (fun r m' => untouched (pt_env P) m m' /\ m_io m' = m_io m /\
    exists l', r = PStr l' /\ (length (m_heap m) <= l')%nat /\ str_at (m_heap m') l' s).
Proof.
  intros P m l s Wp W Ws R Hl Hen.
  assert (U : forall t, text_of (pt_env P) (pt_texts P) str_fmt (VStr s) t -> t = s).
  { intros t H. inversion H; subst; congruence. }
  eapply runs_mono; [apply (str_ok P (length s) m (PStr l) (VStr s)); auto|].
  - exists l. auto.
  - intros t H. rewrite (U _ H). lia.
  - right. right. split; [left; reflexivity|]. eauto.
  - intros r m' (A & B & l' & t & C & D & F & G). split; [exact A|]. split; [exact B|]. exists l'. rewrite <- (U _ G). auto.
Qed.
Print Assumptions C89_copy.
(** With a memory that moves at each allocation, str of (1, "ab") uses the old
    place of "ab". *)
Definition moving_port : port :=
  {| pt_env := demo_env; pt_texts := demo_texts; pt_signed := true; pt_id_bits := 16; pt_end := 70; pt_rel_tol := 71; pt_abs_tol := 72;
     pt_strtof := fun _ => f_zero; pt_libm1 := fun _ f => f; pt_libm2 := fun _ f _ => f; pt_minus_inf := -1 |}.
Theorem C89_moved_refuted : wf_port moving_port /\ wf demo_env text_demo /\ wf_strs demo_env (m_heap text_demo) /\
  tree (m_heap text_demo) (PList 3) (VSeq KTuple [VNum (f_of_bits 0x3f800000); VStr [97; 98]]) /\
  applied moving_port "str" [PList 3] [] text_demo = None.
Proof.
  split; [split; [exact demo_wf_env|]; split; [exact demo_texts_ok|]; cbn; unfold is_id; cbn; lia|].
  split; [apply text_wf; reflexivity|]. split; [apply text_wf_strs; reflexivity|]. split; [|vm_compute; reflexivity].
  cbn. do 2 eexists. repeat split; try reflexivity. exists 0%nat. split; reflexivity.
Qed.
Print Assumptions C89_moved_refuted.
Example C89_applies : enough still_env 100 /\ room still_env 3 text_demo /\
  exists l m', applied demo_port "str" [PList 3] [] text_demo = Some (PStr l, m') /\ str_at (m_heap m') l [40; 49; 44; 32; 39; 97; 98; 39; 41].
Proof.
  split; [unfold enough, fits_str; cbn; split; [reflexivity|lia]|]. split; [unfold room; cbn; lia|]. eexists _, _. split; [vm_compute; reflexivity|reflexivity].
Qed.
