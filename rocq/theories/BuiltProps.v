(** C80 to C87: the builtin functions. *)
From Coq Require Import ZArith Bool List String Reals Lia Lra.
From Flocq Require Import IEEE754.BinarySingleNaN IEEE754.Binary IEEE754.Bits Core.
From Verif Require Import Base FloatModel MathModel PolyModel ValueModel MachModel ListModel StrModel FrameModel MachSpec StrSpec MathSpec
  MathProofs MathProofs4 MachProofs StrProofs2 TameSpec TameProofs TameProofs2 ListProps StrProps CompModel ExecModel EvalSpec EvalTame StepProofs SimProofs EvalProofs CodeProps EvalProps
  ProgModel ProgSpec ProgProofs ProgProps BuiltModel BuiltSpec BuiltFloat BuiltClose BuiltRuns BuiltLast.
Import ListNotations.
Local Open Scope Z_scope.
Open Scope mach_scope.
Notation length := List.length (only parsing).
Notation val f := (B2R 24 128 f).
Notation nearest_number x := (round radix2 (FLT_exp (-149) 24) ZnearestE x).
Notation negative f := (Binary.Bsign 24 128 f).

(** A port for the examples. *)
Definition demo_port : port :=
  {| pt_env := still_env; pt_texts := demo_texts; pt_signed := true; pt_id_bits := 16; pt_end := 70; pt_rel_tol := 71; pt_abs_tol := 72;
     pt_strtof := fun _ => f_zero; pt_libm1 := fun _ f => f; pt_libm2 := fun _ f _ => f; pt_minus_inf := -1 |}.
Lemma demo_port_wf : wf_port demo_port.
Proof. split; [exact still_wf_env|]. split; [exact demo_texts_ok|]. cbn. unfold is_id. cbn. lia. Qed.

(** ** C80 *)
(** Every builtin function, called with any arguments in any state, reports at
    most one error, leaves the stack at its height and the interpreter's state
    sound: what C78 and C79 assume of the table of builtins holds for every
    table made of these functions. *)
Theorem C80_tame : forall P tbl, incl tbl (map snd (functions_of P)) -> tame_builtins (pt_env P) tbl.
Proof. exact tame_of. Qed.
Print Assumptions C80_tame.
(** So C78 holds for programs that call them. *)
Theorem C80_program_partial : forall P K i8, cf_env K = pt_env P -> incl (cf_builtins K) (map snd (functions_of P)) -> (forall f, -128 <= i8 f < 128) ->
  forall n cs defs s, Forall (fit K i8) cs -> follows K i8 defs s -> good K (ss_st s) ->
  match evs K (code_bytes K i8) (func_bytes K) n cs defs (ss_st s) with
  | Val defs' st' => exists fuel s', run_commands K i8 fuel cs s = Some (true, s') /\ ss_st s' = st' /\ follows K i8 defs' s' /\ good K st'
  | Stop st' => exists fuel s', run_commands K i8 fuel cs s = Some (false, s') /\ left_by st' (ss_st s') /\ aborted st' = true
  | _ => True
  end.
Proof. intros P K i8 He Hi H8. apply C78_program_partial; [exact H8|]. rewrite He. apply C80_tame. exact Hi. Qed.
Print Assumptions C80_program_partial.
(** A function of [n] parameters called with another number of arguments, or
    with named ones, reports that and does nothing else. *)
Theorem C80_arguments : forall E tbl u n f np nn s, builtin E tbl u = Some (n, f) -> 0 <= n -> np <> n \/ nn <> 0 ->
  exists m', call_builtin E tbl u np nn s = Some (tt, set_m m' s) /\ reported (EArgs n np) (s_m s) m' /\
             m_heap m' = m_heap (s_m s) /\ m_stack m' = m_stack (s_m s) /\ m_sp m' = m_sp (s_m s) /\ m_io m' = m_io (s_m s).
Proof. exact call_arity. Qed.
Print Assumptions C80_arguments.
(** Otherwise the call instruction passes the arguments in order and leaves the
    result in the accumulator. *)
Theorem C80_call : forall P tbl u name n f s args named below, builtin (pt_env P) tbl u = Some (n, f) -> find name (functions_of P) = Some (n, f) ->
  (n < 0 \/ n = Z.of_nat (length args) /\ named = []) ->
  (m_sp (s_m s) <= length (m_stack (s_m s)))%nat -> firstn (m_sp (s_m s)) (m_stack (s_m s)) = below ++ args ++ flatten named ->
  call_builtin (pt_env P) tbl u (Z.of_nat (length args)) (Z.of_nat (length named)) s =
  match applied P name args named (s_m s) with Some (r, m') => Some (tt, set_a r (set_m m' s)) | None => None end.
Proof. exact call_applies. Qed.
Print Assumptions C80_call.
Definition two_builtins : list entry :=
  match find "print" (functions_of demo_port), find "abs" (functions_of demo_port) with Some a, Some b => [a; b] | _, _ => [] end.
Example C80_applies : incl two_builtins (map snd (functions_of demo_port)) /\ length two_builtins = 2%nat /\
  exists f u, builtin still_env two_builtins u = Some (1, f) /\ find "abs" (functions_of demo_port) = Some (1, f).
Proof.
  split; [|split; [reflexivity|]].
  - intros e [<-|[<-|[]]]; unfold functions_of, functions; cbn [map snd]; repeat (first [left; reflexivity|right]).
  - eexists _, 8. split; reflexivity.
Qed.

(** ** C81 *)
(** print writes the texts of its arguments with a space between any two, then
    the value given last for [end], or a newline if there is none or it is None;
    it returns None and changes nothing else.  Values may nest as deep as the
    stack has room for. *)
Theorem C81_print : forall P m ps vs named nvals, wf_port P -> wf (pt_env P) m -> wf_strs (pt_env P) (m_heap m) ->
  Forall2 (fun p v => tree (m_heap m) p v /\ room (pt_env P) (nesting v + 2) m) ps vs ->
  Forall2 (fun x y => fst x = fst y /\ tree (m_heap m) (snd x) (snd y) /\ room (pt_env P) (nesting (snd y) + 2) m) named nvals ->
  Forall (is_id P) (map fst named) ->
  runs (applied P "print" ps named) m (fun r m' => r = PNull /\ untouched (pt_env P) m m' /\
    exists ts t, Forall2 (text_of (pt_env P) (pt_texts P) str_fmt) vs ts /\
                 ended (pt_env P) (pt_texts P) (given (pt_end P) nvals) t /\ printed (spaced ts ++ t) m m').
Proof. exact print_ok. Qed.
Print Assumptions C81_print.
(** print("ab", ("cd"...)), end="cd") *)
Example C81_applies : wf still_env text_demo /\ wf_strs still_env (m_heap text_demo) /\
  exists m', applied demo_port "print" [PStr 0; PList 3; n1] [(70, PStr 1)] text_demo = Some (PNull, m') /\
    io_out (m_io m') = [97; 98; 32] ++ [40; 49; 44; 32; 39; 97; 98; 39; 41] ++ [32; 49] ++ [99; 100].
Proof.
  split; [apply text_wf; reflexivity|]. split; [apply text_wf_strs; reflexivity|]. eexists. split; [vm_compute; reflexivity|vm_compute; reflexivity].
Qed.

(** ** C82 *)
(** math.floor, math.ceil, math.trunc and int of a finite number are exact. *)
Theorem C82_floor : forall P m f, f_is_finite f = true ->
  exists r, applied P "math.floor" [PNum f] [] m = Some (PNum r, m) /\ is_int r (Zfloor (val f)).
Proof. intros P m f F. exists (ffloor f). split; [reflexivity|apply floor_ok; exact F]. Qed.
Print Assumptions C82_floor.
Theorem C82_ceil : forall P m f, f_is_finite f = true ->
  exists r, applied P "math.ceil" [PNum f] [] m = Some (PNum r, m) /\ is_int r (Zceil (val f)).
Proof. intros P m f F. exists (fceil f). split; [reflexivity|apply ceil_ok; exact F]. Qed.
Print Assumptions C82_ceil.
Theorem C82_trunc : forall P m f name, In name ["math.trunc"%string; "int"%string] -> f_is_finite f = true ->
  exists r, applied P name [PNum f] [] m = Some (PNum r, m) /\ is_int r (Ztrunc (val f)).
Proof. intros P m f name [<-|[<-|[]]] F; exists (ftrunc f); (split; [reflexivity|apply trunc_ok; exact F]). Qed.
Print Assumptions C82_trunc.
(** round gives a nearest integer; of two, the one further from zero. *)
Theorem C82_round : forall P m f, f_is_finite f = true ->
  exists r z, applied P "round" [PNum f] [] m = Some (PNum r, m) /\ is_int r z /\
    (Rabs (IZR z - val f) <= / 2)%R /\ (Rabs (IZR z - val f) = / 2 -> Rabs (val f) < Rabs (IZR z))%R.
Proof. intros P m f F. destruct (round_away f F) as (z & A & _ & B). exists (fround f), z. split; [reflexivity|]. split; [exact A|exact B]. Qed.
Print Assumptions C82_round.
(** Python's round gives the even one: for 0.5, 2.5, 4.5, ... that is not what
    Snek's gives. *)
Theorem C82_round_half_even_refuted : forall P m f n, f_is_finite f = true -> 0 <= n -> Z.even n = true -> (val f = IZR n + / 2)%R ->
  exists r, applied P "round" [PNum f] [] m = Some (PNum r, m) /\ is_int r (n + 1) /\ ~ is_int r n.
Proof.
  intros P m f n F N _ H. exists (fround f). split; [reflexivity|]. pose proof (round_up_half f n F N H) as A. split; [exact A|].
  intros [_ B]. destruct A as [_ A]. rewrite A in B. apply eq_IZR in B. lia.
Qed.
Print Assumptions C82_round_half_even_refuted.
Definition two_half : float := Binary.B754_finite 24 128 false 10485760 (-22) eq_refl.
Lemma two_half_val : val two_half = (IZR 2 + / 2)%R.
Proof. unfold two_half. cbn [B2R]. unfold F2R. cbn [Fnum Fexp cond_Zopp bpow]. replace (Z.pow_pos radix2 22) with 4194304 by reflexivity. lra. Qed.
Example C82_applies : f_is_finite two_half = true /\ (val two_half = IZR 2 + / 2)%R /\
  match applied demo_port "round" [PNum two_half] [] text_demo with Some (PNum r, _) => feq r (f_of_Z 3) | _ => false end = true.
Proof. split; [reflexivity|]. split; [exact two_half_val|vm_compute; reflexivity]. Qed.

(** ** C83 *)
(** math.sqrt of a number that is not negative is the root rounded once; of a
    negative one it is NaN, and no error. *)
Theorem C83_sqrt : forall P m f, f_is_nan f = false ->
  exists r, applied P "math.sqrt" [PNum f] [] m = Some (PNum r, m) /\
    (f_is_finite f = true -> (0 <= val f)%R -> is_real r (nearest_number (sqrt (val f)))) /\
    (((val f < 0)%R \/ f = Binary.B754_infinity 24 128 true) -> f_is_nan r = true).
Proof. intros P m f N. exists (fsqrt f). split; [reflexivity|]. split; [intros F H; apply sqrt_val; assumption|apply sqrt_neg; exact N]. Qed.
Print Assumptions C83_sqrt.
(** abs is exact. *)
Theorem C83_abs : forall P m f name, In name ["abs"%string; "math.fabs"%string] -> f_is_finite f = true ->
  exists r, applied P name [PNum f] [] m = Some (PNum r, m) /\ is_real r (Rabs (val f)) /\ negative r = false.
Proof. intros P m f name [<-|[<-|[]]] F; exists (f_abs f); (split; [reflexivity|apply abs_val; exact F]). Qed.
Print Assumptions C83_abs.
(** Both report values that are not numbers. *)
Theorem C83_type : forall P m p name, In name ["abs"%string; "math.sqrt"%string] -> (forall f, p <> PNum f) ->
  runs (applied P name [p] []) m (fun r m' => reported (EType1 p) m m' /\ m_heap m' = m_heap m /\ m_io m' = m_io m).
Proof.
  intros P m p name N H. assert (K : forall g : float -> float, runs (let* f := get_float p in ret (from_float (g f))) m (fun r m' => reported (EType1 p) m m' /\ m_heap m' = m_heap m /\ m_io m' = m_io m)).
  { intros g. destruct p; try (exfalso; eapply H; reflexivity); eexists _, _; (split; [reflexivity|]); unfold reported, error; destruct (m_abort m) eqn:e; repeat split; exact e. }
  destruct N as [<-|[<-|[]]]; apply K.
Qed.
Print Assumptions C83_type.
(** len is the number of characters, elements or keys; what has no length has
    length 0, and no error is reported. *)
Theorem C83_len : forall P m p v, wf_env (pt_env P) -> wf (pt_env P) m -> wf_strs (pt_env P) (m_heap m) -> tree (m_heap m) p v ->
  exists r, applied P "len" [p] [] m = Some (PNum r, m) /\ is_int r (size_of v).
Proof. exact len_ok. Qed.
Print Assumptions C83_len.
Example C83_applies : f_is_finite two_half = true /\ (0 <= val two_half)%R /\ tree (m_heap text_demo) (PList 3) (VSeq KTuple [VNum (f_of_bits 0x3f800000); VStr [97; 98]]) /\
  (forall f, PStr 0 <> PNum f).
Proof. split; [reflexivity|]. split; [rewrite two_half_val; lra|]. split; [|discriminate]. cbn. do 2 eexists. repeat split; try reflexivity. exists 0%nat. split; reflexivity. Qed.

(** ** C84 *)
(** input prints the value it is given, if any, reads the characters up to the
    next newline (or the end), takes the newline and leaves the rest; the result
    is a new string of those characters, NULs left out, and nothing that existed
    looks different.  Memory must suffice. *)
Theorem C84_input : forall P m ps line rest, wf_port P -> wf (pt_env P) m -> wf_strs (pt_env P) (m_heap m) -> room (pt_env P) 1 m ->
  (length ps <= 1)%nat -> (forall p, In p ps -> exists v, tree (m_heap m) p v /\ room (pt_env P) (nesting v + 2) m) ->
  io_in (m_io m) = line ++ rest -> (rest = [] \/ exists r, rest = 10 :: r) -> Forall (fun c => 0 <= c < 256 /\ c <> 10) line ->
  enough (pt_env P) (length line) ->
  runs (applied P "input" ps []) m (fun r m' => line_result (pt_env P) m line r m' /\
    exists t, (match ps with [] => t = [] | p :: _ => exists v, tree (m_heap m) p v /\ text_of (pt_env P) (pt_texts P) str_fmt v t end) /\
    m_io m' = {| io_out := io_out (m_io m) ++ t; io_in := tl rest; io_rnd := io_rnd (m_io m) |}).
Proof. exact input_ok. Qed.
Print Assumptions C84_input.
(** When memory does not suffice, no error comes back: the length of NULL is
    taken. *)
Theorem C84_input_memory_refuted : forall P m c r, e_fail (pt_env P) (m_nalloc m) = true -> io_in (m_io m) = c :: r -> c <> 10 ->
  applied P "input" [] [] m = None.
Proof. exact input_undefined. Qed.
Print Assumptions C84_input_memory_refuted.
Definition typed (t : list Z) : mach := set_io {| io_out := []; io_in := t; io_rnd := io_rnd io_start |} text_demo.
Example C84_applies : wf still_env (typed [104; 105; 10; 120]) /\ wf_strs still_env (m_heap (typed [104; 105; 10; 120])) /\ enough still_env 2 /\
  exists m', applied demo_port "input" [PStr 0] [] (typed [104; 105; 10; 120]) = Some (PStr 12, m') /\
    str_at (m_heap m') 12 [104; 105] /\ io_in (m_io m') = [120] /\ io_out (m_io m') = [97; 98].
Proof.
  split; [apply wf_io, text_wf; reflexivity|]. split; [apply text_wf_strs; reflexivity|]. split; [split; [reflexivity|split; [cbn; lia|reflexivity]]|].
  eexists. split; [vm_compute; reflexivity|]. split; [reflexivity|]. split; reflexivity.
Qed.

(** ** C85 *)
(** math.frexp splits a number into a fraction and a power of two, exactly. *)
Theorem C85_frexp : forall P m f, wf_env (pt_env P) -> wf (pt_env P) m -> wf_strs (pt_env P) (m_heap m) -> room (pt_env P) 1 m ->
  f_is_finite f = true -> (val f <> 0)%R ->
  runs (applied P "math.frexp" [PNum f] []) m (fun r m' => exists x e k, pair_result (pt_env P) m x e r m' /\
    is_int e k /\ f_is_finite x = true /\ (/ 2 <= Rabs (val x) < 1)%R /\ (val f = val x * bpow radix2 k)%R).
Proof.
  intros P m f We W Ws R F N. pose proof (frexp_val f F N) as H.
  change (applied P "math.frexp" [PNum f] []) with (let (x, e) := ffrexp f in make_tuple (pt_env P) x (f_of_Z e)).
  destruct (ffrexp f) as [x e]. destruct H as (A & B & C & _ & D). eapply runs_mono; [apply pair_runs; assumption|].
  intros r m' H. exists x, (f_of_Z e), e. split; [exact H|]. split; [|auto]. apply small_int. apply Z.leb_le. lia.
Qed.
Print Assumptions C85_frexp.
(** math.ldexp multiplies by a power of two and rounds once; too great a result
    is an infinity. *)
Theorem C85_ldexp : forall P m f e k, wf_env (pt_env P) -> f_is_finite f = true -> is_int e k -> - 2 ^ (e_int (pt_env P) - 1) <= k < 2 ^ (e_int (pt_env P) - 1) ->
  exists r, applied P "math.ldexp" [PNum f; PNum e] [] m = Some (PNum r, m) /\ negative r = negative f /\
    ((Rabs (nearest_number (val f * bpow radix2 k)) < bpow radix2 128)%R -> is_real r (nearest_number (val f * bpow radix2 k))) /\
    ((bpow radix2 128 <= Rabs (nearest_number (val f * bpow radix2 k)))%R -> r = Binary.B754_infinity 24 128 (negative f)).
Proof.
  intros P m f e k (_ & _ & We) F I R. exists (fldexp f k). split; [|split; [|split]].
  - change (applied P "math.ldexp" [PNum f; PNum e] []) with (m2o (ldexp2 (pt_env P)) (PNum f) (PNum e)). unfold m2o, ldexp2. cbn [BuiltModel.to_float].
    rewrite (to_sint_n _ e k) by (auto; lia). reflexivity.
  - destruct (Rlt_le_dec (Rabs (nearest_number (val f * bpow radix2 k))) (bpow radix2 128)) as [L|L]; [apply ldexp_val; assumption|].
    rewrite (ldexp_over f k F L). reflexivity.
  - intros L. apply ldexp_val; assumption.
  - intros L. apply ldexp_over; assumption.
Qed.
Print Assumptions C85_ldexp.
(** So math.ldexp undoes math.frexp. *)
Theorem C85_round_trip : forall P m f, wf_env (pt_env P) -> wf (pt_env P) m -> wf_strs (pt_env P) (m_heap m) -> room (pt_env P) 1 m ->
  f_is_finite f = true -> (val f <> 0)%R ->
  runs (applied P "math.frexp" [PNum f] []) m (fun r m' => exists x e, pair_result (pt_env P) m x e r m' /\
    forall m2, applied P "math.ldexp" [PNum x; PNum e] [] m2 = Some (PNum f, m2)).
Proof.
  intros P m f We W Ws R F N. pose proof (frexp_val f F N) as H. pose proof (frexp_ldexp f F N) as G.
  change (applied P "math.frexp" [PNum f] []) with (let (x, e) := ffrexp f in make_tuple (pt_env P) x (f_of_Z e)).
  destruct (ffrexp f) as [x e]. destruct H as (A & B & C & _ & D). eapply runs_mono; [apply pair_runs; assumption|].
  intros r m' H. exists x, (f_of_Z e). split; [exact H|]. intros m2.
  change (applied P "math.ldexp" [PNum x; PNum (f_of_Z e)] []) with (m2o (ldexp2 (pt_env P)) (PNum x) (PNum (f_of_Z e))). unfold m2o, ldexp2. cbn [BuiltModel.to_float].
  destruct We as (_ & _ & We).
  rewrite (to_sint_n _ _ e); [unfold of_outcome, bind, ret; rewrite G; reflexivity|lia|apply small_int; apply Z.leb_le; lia|].
  destruct We as [-> | ->]; cbn; lia.
Qed.
Print Assumptions C85_round_trip.
(** math.modf splits a number into fraction and integer, exactly, both with its
    sign. *)
Theorem C85_modf : forall P m f, wf_env (pt_env P) -> wf (pt_env P) m -> wf_strs (pt_env P) (m_heap m) -> room (pt_env P) 1 m -> f_is_finite f = true ->
  runs (applied P "math.modf" [PNum f] []) m (fun r m' => exists x i, pair_result (pt_env P) m x i r m' /\
    is_int i (Ztrunc (val f)) /\ f_is_finite x = true /\ (val x + val i = val f)%R /\ (Rabs (val x) < 1)%R /\
    negative x = negative f /\ negative i = negative f).
Proof.
  intros P m f We W Ws R F. pose proof (modf_val f F) as H.
  change (applied P "math.modf" [PNum f] []) with (let (x, i) := fmodf_parts f in make_tuple (pt_env P) x i).
  destruct (fmodf_parts f) as [x i]. eapply runs_mono; [apply pair_runs; assumption|]. intros r m' G. exists x, i. split; [exact G|exact H].
Qed.
Print Assumptions C85_modf.
Example C85_applies : wf still_env text_demo /\ wf_strs still_env (m_heap text_demo) /\ room still_env 1 text_demo /\ f_is_finite two_half = true /\ (val two_half <> 0)%R.
Proof. split; [apply text_wf; reflexivity|]. split; [apply text_wf_strs; reflexivity|]. split; [unfold room; cbn; lia|]. split; [reflexivity|rewrite two_half_val; lra]. Qed.

(** ** C86 *)
(** math.isclose of finite numbers compares their distance with the greater of
    the relative tolerance times the greater magnitude and the absolute
    tolerance, each rounded once; a name given twice has its last value. *)
Theorem C86_isclose : forall P m a b named, wf_port P -> Forall (is_id P) (map fst named) ->
  f_is_finite a = true -> f_is_finite b = true ->
  let r := fst (tolerances P named) in let t := snd (tolerances P named) in
  f_is_finite r = true -> f_is_finite t = true -> negative r = false ->
  (Rabs (nearest_number (val a - val b)) < bpow radix2 128)%R ->
  exists c, applied P "math.isclose" [PNum a; PNum b] named m = Some (PNum (f_bool c), m) /\
    (c = true <-> (Rabs (nearest_number (val a - val b)) <=
                   Rmax (nearest_number (val r * Rmax (Rabs (val a)) (Rabs (val b)))) (val t))%R).
Proof.
  intros P m a b named Wp Hn Fa Fb r t Fr Ft Sr Hd. eexists. split; [apply isclose_ok; assumption|]. apply close_val; assumption.
Qed.
Print Assumptions C86_isclose.
(** Tolerances that are not given are 1e-6 (not 1e-9 as in Python), as near as a number comes to it, and
    0. *)
Theorem C86_defaults : forall P named,
  (given (pt_rel_tol P) named = None -> f_is_finite (fst (tolerances P named)) = true /\
     (Rabs (val (fst (tolerances P named)) - / 1000000) <= / 1000000 * / 16777216)%R) /\
  (given (pt_abs_tol P) named = None -> f_is_finite (snd (tolerances P named)) = true /\ val (snd (tolerances P named)) = 0%R).
Proof. exact default_tolerances. Qed.
Print Assumptions C86_defaults.
(** It is symmetric for all numbers, *)
Theorem C86_symmetric : forall P m a b named, wf_port P -> Forall (is_id P) (map fst named) ->
  applied P "math.isclose" [PNum a; PNum b] named m = applied P "math.isclose" [PNum b; PNum a] named m.
Proof. intros P m a b named Wp Hn. rewrite !isclose_ok by assumption. rewrite close_sym. reflexivity. Qed.
Print Assumptions C86_symmetric.
(** and a finite number is close to itself, *)
Theorem C86_reflexive : forall P m a named, wf_port P -> Forall (is_id P) (map fst named) -> f_is_finite a = true ->
  f_is_finite (fst (tolerances P named)) = true -> f_is_finite (snd (tolerances P named)) = true -> negative (fst (tolerances P named)) = false ->
  applied P "math.isclose" [PNum a; PNum a] named m = Some (POne, m).
Proof. intros P m a named Wp Hn A R T S. rewrite isclose_ok by assumption. rewrite close_refl by assumption. reflexivity. Qed.
Print Assumptions C86_reflexive.
(** but an infinity is not, unlike Python's. *)
Theorem C86_infinity_refuted : forall P m s named, wf_port P -> Forall (is_id P) (map fst named) ->
  applied P "math.isclose" [PNum (Binary.B754_infinity 24 128 s); PNum (Binary.B754_infinity 24 128 s)] named m = Some (PZero, m).
Proof. intros P m s named Wp Hn. rewrite isclose_ok by assumption. rewrite close_inf. reflexivity. Qed.
Print Assumptions C86_infinity_refuted.
Example C86_applies : wf_port demo_port /\ Forall (is_id demo_port) (map fst [(72, n1); (71, n2); (72, n3)]) /\
  tolerances demo_port [(72, n1); (71, n2); (72, n3)] = (f_of_bits 0x40000000, f_of_bits 0x40400000) /\
  f_is_finite (fst (tolerances demo_port [])) = true /\ f_is_finite (snd (tolerances demo_port [])) = true /\ negative (fst (tolerances demo_port [])) = false.
Proof. split; [exact demo_port_wf|]. split; [repeat constructor|]. repeat split. Qed.

(** ** C87 *)
(** Refuted: a math function given a value that is not a number reports a type
    error.  None of these does, whatever the value. *)
Definition of_one : list string :=
  ["math.acos"; "math.acosh"; "math.asin"; "math.asinh"; "math.atan"; "math.atanh"; "math.ceil"; "math.cos"; "math.cosh"; "math.degrees";
   "math.erf"; "math.erfc"; "math.exp"; "math.exp2"; "math.expm1"; "math.fabs"; "math.floor"; "math.gamma"; "math.isfinite"; "math.isinf"; "math.isnan";
   "math.lgamma"; "math.log"; "math.log10"; "math.log1p"; "math.log2"; "math.radians"; "math.sin"; "math.sinh"; "math.tan"; "math.tanh"; "math.trunc"; "round"]%string.
Definition of_two : list string :=
  ["math.atan2"; "math.copysign"; "math.fmod"; "math.hypot"; "math.pow"; "math.remainder"; "pow"]%string.
Theorem C87_type_refuted : forall P m name p, In name of_one -> (forall f, p <> PNum f) ->
  exists f, applied P name [p] [] m = Some (PNum f, m).
Proof. intros P m name p H _. repeat (destruct H as [<-|H]; [eexists; reflexivity|]). destruct H. Qed.
Print Assumptions C87_type_refuted.
Theorem C87_type2_refuted : forall P m name p q, In name of_two -> (forall f, p <> PNum f) \/ (forall f, q <> PNum f) ->
  exists f, applied P name [p; q] [] m = Some (PNum f, m).
Proof. intros P m name p q H _. repeat (destruct H as [<-|H]; [eexists; reflexivity|]). destruct H. Qed.
Print Assumptions C87_type2_refuted.
(** float and int of a string never report an error either: what is not a number
    is what strtof makes of it. *)
Theorem C87_float_refuted : forall P m l s, str_at (m_heap m) l s ->
  applied P "float" [PStr l] [] m = Some (PNum (pt_strtof P s), m) /\ applied P "int" [PStr l] [] m = Some (PNum (ftrunc (pt_strtof P s)), m).
Proof.
  intros P m l s H. assert (A : built_float (pt_strtof P) (PStr l) m = Some (PNum (pt_strtof P s), m)).
  { unfold built_float, poly_to_str, here, deref_str, bind, deref. cbn [fst snd]. rewrite Nat.eqb_refl. unfold str_at in H. rewrite H. reflexivity. }
  split; [exact A|]. change (applied P "int" [PStr l] []) with (built_int (pt_strtof P) (PStr l)). unfold built_int, bind. rewrite A. reflexivity.
Qed.
Print Assumptions C87_float_refuted.
Example C87_applies : In "math.sin"%string of_one /\ In "pow"%string of_two /\ (forall f, PStr 0 <> PNum f) /\ str_at (m_heap text_demo) 0 [97; 98].
Proof. split; [cbn; tauto|]. split; [cbn; tauto|]. split; [discriminate|reflexivity]. Qed.
