(** Every builtin function is tame. *)
From Coq Require Import ZArith Bool List String Lia.
From Verif Require Import Base FloatModel MathModel PolyModel ValueModel SliceModel MachModel ListModel StrModel BuiltModel FrameModel TameSpec TameProofs TameProofs2.
Import ListNotations.
Local Open Scope Z_scope.
Open Scope mach_scope.

Section Tame.
Variable E : env.
Variable T : texts.
Notation mt := (mtame E).
Lemma t_put_out n t : mt n n (put_out t).
Proof. unfold put_out. same_prim. Qed.
Lemma t_getchar n : mt n n getchar.
Proof. unfold getchar. same_prim. Qed.
Lemma t_get_rnd n : mt n n get_rnd.
Proof. unfold get_rnd. same_prim. Qed.
Lemma t_set_rnd n r : mt n n (set_rnd r).
Proof. unfold set_rnd. same_prim. Qed.
Lemma t_of_outcome {A} n (o : outcome A) : mt n n (of_outcome o).
Proof. unfold of_outcome. tm. Qed.
Hint Resolve t_put_out t_getchar t_get_rnd t_set_rnd t_of_outcome t_poly_print t_builtin_ord t_builtin_chr : tame.
Lemma t_show n a : mt n n (show E T a).
Proof. unfold show. tm. Qed.
Hint Resolve t_show : tame.
Lemma t_print_args k : forall n args, mt n n (print_args E T k args).
Proof. induction k as [|k IH]; intros; cbn [print_args]; tm. Qed.
Lemma t_print_named b i k : forall n args e, mt n n (print_named b i k args e).
Proof. induction k as [|k IH]; intros; cbn [print_named]; tm. Qed.
Hint Resolve t_print_args t_print_named : tame.
Lemma t_print n b i np nn args : mt n n (built_print E T b i np nn args).
Proof. unfold built_print. tm. Qed.
Lemma t_cat_text n a b : mt n n (string_cat_text E a b).
Proof. unfold string_cat_text. tm. Qed.
Hint Resolve t_cat_text : tame.
Lemma t_input_loop k : forall n s, mt n n (input_loop E k s).
Proof. induction k as [|k IH]; intros; cbn [input_loop]; tm. Qed.
Lemma t_input_rest n s : mt n n (fun m => input_loop E (List.length (io_in (m_io m))) s m).
Proof. intros m a m' H. exact (t_input_loop _ n s m a m' H). Qed.
Hint Resolve t_input_rest : tame.
Lemma t_input n np nn args : mt n n (built_input E T np nn args).
Proof. unfold built_input. tm. Qed.
Lemma t_float n f a : mt n n (built_float f a).
Proof. unfold built_float. tm. Qed.
Hint Resolve t_float : tame.
Lemma t_int n f a : mt n n (built_int f a).
Proof. unfold built_int. tm. Qed.
Lemma t_str n a : mt n n (built_str E T a).
Proof. unfold built_str. pose proof t_buf_format. tm. Qed.
Lemma t_make_tuple n a b : mt n n (make_tuple E a b).
Proof. unfold make_tuple. tm. Qed.
Hint Resolve t_make_tuple : tame.
Lemma t_close_named b i j k : forall n args x y, mt n n (close_named b i j k args x y).
Proof. induction k as [|k IH]; intros; cbn [close_named]; tm. Qed.
Hint Resolve t_close_named : tame.
Lemma t_isclose n b i j np nn args : mt n n (built_isclose b i j np nn args).
Proof. unfold built_isclose. tm. Qed.
Lemma t_list_getf n p o : mt n n (list_getf p o).
Proof. unfold list_getf. tm. Qed.
Lemma t_list_putf n p o v : mt n n (list_putf p o v).
Proof. unfold list_putf. tm. Qed.
Hint Resolve t_list_getf t_list_putf : tame.
Lemma t_fsum_parts k : forall n j i x p, mt n n (fsum_parts k j i x p).
Proof. induction k as [|k IH]; intros; cbn [fsum_parts]; tm. Qed.
Hint Resolve t_fsum_parts : tame.
Lemma t_fsum_loop k : forall n o s c m l p, mt n n (fsum_loop E k o s c m l p).
Proof. induction k as [|k IH]; intros; cbn [fsum_loop]; tm. Qed.
Lemma t_fsum_top k : forall n hi lo p, mt n n (fsum_top k hi lo p).
Proof. induction k as [|k IH]; intros; cbn [fsum_top]; tm. Qed.
Hint Resolve t_fsum_loop t_fsum_top : tame.
Lemma t_fsum_end n k p : mt n n (fsum_end k p).
Proof. unfold fsum_end. tm. Qed.
Hint Resolve t_fsum_end : tame.
Lemma t_fsum n a : mt n n (built_fsum E a).
Proof. unfold built_fsum. tm. Qed.

Variable sgn : bool.
Variables id_bits id_end id_rel_tol id_abs_tol minus_inf : Z.
Variable strtof : list Z -> float.
Variable libm1 : string -> float -> float.
Variable libm2 : string -> float -> float -> float.
Definition table := functions E T sgn id_bits id_end id_rel_tol id_abs_tol strtof libm1 libm2 minus_inf.
Lemma table_tame : tame_builtins E (map snd table).
Proof.
  intros k fn np nn args n H. unfold table, functions in H. cbn [map snd] in H.
  repeat (destruct H as [H|H]; [injection H as _ <-|]); try contradiction H;
    try apply t_print; try apply t_input; try apply t_isclose;
    unfold fn0, fn1, fn2, built_flush, built_random, m1, m2, m1o, m2o, built_abs, built_sqrt, built_len, built_frexp, built_modf, built_seed, built_randrange;
    pose proof t_int; pose proof t_str; pose proof t_fsum; tm.
Qed.
End Tame.
