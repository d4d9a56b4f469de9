(** The call instruction on builtins, and the functions that only compute. *)
From Coq Require Import String Reals Lra.
From Flocq Require Import IEEE754.BinarySingleNaN IEEE754.Binary IEEE754.Bits Core.
From Verif Require Import Tac Base FloatModel MathModel PolyModel ValueModel MachModel ListModel StrModel FrameModel MachSpec StrSpec
  OrderSpec OrderProofs MathSpec MathProofs MathProofs2 MathProofs4 MachProofs FrameProofs ListProofs StrProofs TameSpec TameProofs2 BinProofs
  BuiltModel BuiltSpec BuiltProofs BuiltFloat BuiltClose BuiltRuns.
Local Open Scope Z_scope.
Open Scope mach_scope.
Notation length := List.length (only parsing).

Lemma tame_of P tbl : incl tbl (map snd (functions_of P)) -> tame_builtins (pt_env P) tbl.
Proof.
  intros H k fn np nn args n Hin. eapply (table_tame (pt_env P) (pt_texts P) (pt_signed P) (pt_id_bits P) (pt_end P) (pt_rel_tol P) (pt_abs_tol P) (pt_minus_inf P)
    (pt_strtof P) (pt_libm1 P) (pt_libm2 P)). apply (H (k, fn)). exact Hin.
Qed.

Lemma call_arity E tbl u n f np nn s : builtin E tbl u = Some (n, f) -> 0 <= n -> np <> n \/ nn <> 0 ->
  exists m', call_builtin E tbl u np nn s = Some (tt, set_m m' s) /\ reported (EArgs n np) (s_m s) m' /\
             m_heap m' = m_heap (s_m s) /\ m_stack m' = m_stack (s_m s) /\ m_sp m' = m_sp (s_m s) /\ m_io m' = m_io (s_m s).
Proof.
  intros H N B. unfold call_builtin. rewrite H. unfold sbind, get, lm. destruct (Z.ltb_spec n 0); [lia|].
  assert (negb (np =? n) || negb (nn =? 0) = true) as -> by (destruct (Z.eqb_spec np n), (Z.eqb_spec nn 0); try reflexivity; lia).
  unfold error. eexists. split; [reflexivity|]. unfold reported. destruct (m_abort (s_m s)) eqn:e; repeat split; exact e.
Qed.

Lemma call_applies P tbl u name n f s args named below : builtin (pt_env P) tbl u = Some (n, f) -> find name (functions_of P) = Some (n, f) ->
  (n < 0 \/ n = Z.of_nat (length args) /\ named = []) ->
  (m_sp (s_m s) <= length (m_stack (s_m s)))%nat -> firstn (m_sp (s_m s)) (m_stack (s_m s)) = below ++ args ++ flatten named ->
  call_builtin (pt_env P) tbl u (Z.of_nat (length args)) (Z.of_nat (length named)) s =
  match applied P name args named (s_m s) with Some (r, m') => Some (tt, set_a r (set_m m' s)) | None => None end.
Proof.
  intros Hu Hf Hn L Hs. unfold call_builtin, applied. rewrite Hu, Hf.
  assert (Lf : length (flatten named) = (2 * length named)%nat) by (clear; induction named as [|[i v] r IH]; [reflexivity|]; unfold flatten in *; cbn [List.map List.concat app length]; lia).
  assert (Ls : m_sp (s_m s) = (length below + length args + 2 * length named)%nat).
  { apply (f_equal (@length poly)) in Hs. rewrite firstn_length, !app_length, Lf in Hs. lia. }
  assert (A : firstn (Z.to_nat (Z.of_nat (length args) + 2 * Z.of_nat (length named)))
     (skipn (m_sp (s_m s) - Z.to_nat (Z.of_nat (length args) + 2 * Z.of_nat (length named))) (m_stack (s_m s))) = args ++ flatten named).
  { replace (Z.to_nat (Z.of_nat (length args) + 2 * Z.of_nat (length named))) with (length args + 2 * length named)%nat by lia.
    replace (m_sp (s_m s) - (length args + 2 * length named))%nat with (length below) by lia.
    transitivity (skipn (length below) (firstn (m_sp (s_m s)) (m_stack (s_m s)))).
    - rewrite skipn_firstn_comm. f_equal. lia.
    - rewrite Hs, skipn_app, skipn_all, Nat.sub_diag. reflexivity. }
  unfold sbind, get, lm, put_a. rewrite A. destruct (Z.ltb_spec n 0) as [N|N].
  - destruct (f _ _ _ (s_m s)) as [[r m']|]; reflexivity.
  - destruct Hn as [Hn|(-> & ->)]; [lia|]. rewrite Z.eqb_refl. cbn [List.length Z.of_nat Z.eqb negb orb].
    destruct (f _ _ _ (s_m s)) as [[r m']|]; reflexivity.
Qed.

(** ** Rounding *)
Lemma floor_ok f : f_is_finite f = true -> is_int (ffloor f) (Zfloor (val f)).
Proof. intros F. apply (nearby_val mode_DN f F). Qed.
Lemma ceil_ok f : f_is_finite f = true -> is_int (fceil f) (Zceil (val f)).
Proof. intros F. apply (nearby_val mode_UP f F). Qed.
Lemma trunc_ok f : f_is_finite f = true -> is_int (ftrunc f) (Ztrunc (val f)).
Proof. intros F. apply (nearby_val mode_ZR f F). Qed.

(** ** Length *)
Lemma int_small z : 0 <= z <= 2 ^ 24 -> is_int (f_of_Z z) z.
Proof. intros H. apply small_int. apply Z.leb_le. lia. Qed.
Lemma len_ok P m p v : wf_env (pt_env P) -> wf (pt_env P) m -> wf_strs (pt_env P) (m_heap m) -> tree (m_heap m) p v ->
  exists r, applied P "len" [p] [] m = Some (PNum r, m) /\ is_int r (size_of v).
Proof.
  intros (P0 & Pw & _) W Ws H. assert (Pm : e_pool (pt_env P) <= 2 ^ 24) by (destruct (e_width (pt_env P)); lia).
  exists (f_of_Z (size_of v)). change (applied P "len" [p] []) with (built_len p). unfold built_len.
  assert (Z : poly_len p m = Some (size_of v, m) /\ 0 <= size_of v <= 2 ^ 24).
  { destruct v as [f|s|k vs|u|u].
    - cbn in H. subst. split; [reflexivity|cbn; lia].
    - destruct H as (l & -> & H). destruct (Ws l s H) as [Hl _]. cbn [poly_len size_of]. unfold bind, poly_to_str, here, deref_str, bind, deref. cbn [fst snd].
      rewrite Nat.eqb_refl, H. split; [reflexivity|]. lia.
    - apply tree_seq in H. destruct H as (l & o & -> & Ho & Hk & He). cbn [poly_len]. unfold bind, poly_to_list, here, deref_list, bind, deref. cbn [fst snd].
      rewrite Nat.eqb_refl, Ho. pose proof (wf_heap _ _ W _ _ Ho) as [S1 S2 S3 _ _ _].
      assert (Hlen : length (elems o) = length vs) by (clear - He; induction He; cbn; congruence).
      assert (Hsz : lo_size o = Z.of_nat (length vs)) by (rewrite <- Hlen; unfold elems; rewrite firstn_length; lia).
      unfold ret. rewrite Hk, Hsz. destruct k; cbn [lkind_eqb size_of]; (split; [reflexivity|]); lia.
    - destruct H as (l & -> & _). split; [reflexivity|cbn; lia].
    - cbn in H. subst. split; [reflexivity|cbn; lia]. }
  destruct Z as (Z1 & Z2). split; [unfold bind; rewrite Z1; reflexivity|]. apply int_small. exact Z2.
Qed.

(** ** isclose *)
Lemma close_named_runs P m : 0 < pt_id_bits P -> pt_rel_tol P <> pt_abs_tol P -> forall named r t, Forall (is_id P) (map fst named) ->
  close_named (pt_id_bits P) (pt_rel_tol P) (pt_abs_tol P) (length named) (flatten named) r t m =
  Some ((match given (pt_rel_tol P) named with Some v => to_float v | None => r end,
         match given (pt_abs_tol P) named with Some v => to_float v | None => t end), m).
Proof.
  intros Hb Hd named. induction named as [|[i v] named IH]; intros r t H; [reflexivity|].
  cbn [map fst] in H. inversion H as [|? ? Hi Hr]; subst. cbn [List.length flatten List.map List.concat app fst snd close_named].
  unfold bind. cbn [BuiltModel.to_float]. rewrite id_read by assumption. cbn [of_outcome ret]. fold (flatten named). rewrite IH by exact Hr.
  cbn [given]. destruct (given (pt_rel_tol P) named), (given (pt_abs_tol P) named); try reflexivity;
    destruct (i =? pt_rel_tol P), (i =? pt_abs_tol P); reflexivity.
Qed.
Lemma isclose_ok P m a b named : wf_port P -> Forall (is_id P) (map fst named) ->
  applied P "math.isclose" [PNum a; PNum b] named m =
  Some (PNum (f_bool (is_close a b (fst (tolerances P named)) (snd (tolerances P named)))), m).
Proof.
  intros (_ & _ & Hb & _ & _ & _ & Hd) H.
  change (applied P "math.isclose" [PNum a; PNum b] named) with
    (built_isclose (pt_id_bits P) (pt_rel_tol P) (pt_abs_tol P) 2 (Z.of_nat (length named)) (PNum a :: PNum b :: flatten named)).
  unfold built_isclose. cbn [Z.eqb Pos.eqb negb]. unfold bind. rewrite Nat2Z.id, close_named_runs by assumption. cbn [ret].
  unfold tolerances. cbn [fst snd BuiltModel.to_float]. destruct (is_close _ _ _ _); reflexivity.
Qed.

(** The default is the number nearest to 1e-6. *)
Lemma default_tolerances P named :
  (given (pt_rel_tol P) named = None -> f_is_finite (fst (tolerances P named)) = true /\
     (Rabs (B2R 24 128 (fst (tolerances P named)) - / 1000000) <= / 1000000 * / 16777216)%R) /\
  (given (pt_abs_tol P) named = None -> f_is_finite (snd (tolerances P named)) = true /\ B2R 24 128 (snd (tolerances P named)) = 0%R).
Proof.
  unfold tolerances. split; intros ->; cbn [fst snd].
  - split; [reflexivity|]. replace (B2R 24 128 default_rel_tol) with (F2R (Float radix2 8796093 (-43))) by reflexivity.
    unfold F2R. cbn [Fnum Fexp cond_Zopp bpow]. replace (Z.pow_pos radix2 43) with 8796093022208 by reflexivity.
    apply Rabs_le. lra.
  - split; reflexivity.
Qed.
