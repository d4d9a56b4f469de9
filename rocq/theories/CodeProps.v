(** C23, C24 and the chains of C27 that the compiler does not know. *)
From Coq Require Import ZArith Bool List Lia.
From Verif Require Import Base FloatModel PolyModel ValueModel MathModel MachModel ListModel StrModel BinModel FrameModel CodeModel CompModel ExecModel LayoutSpec LayoutProofs LayoutEqs GenProofs GenProofs2 EvalSpec MathSpec MathProofs TameSpec TameProofs2 StepProofs SimProofs EvalProofs CodeProofs ListProps StrProps.
Import ListNotations.
Local Open Scope Z_scope.
Open Scope eval_scope.

(** ** Demonstration *)
Definition demo_i8 (f : float) : Z := match f_to_sint 8 f with Ok z => z | _ => 0 end.
Definition demo_conf : conf :=
  {| cf_env := still_env; cf_texts := demo_texts; cf_pow := no_pow; cf_builtins := []; cf_names := fun _ => None |}.
Definition demo_st : st := {| s_m := text_demo; s_a := PNull; s_globals := []; s_frames := [] |}.
Definition no_code : cbuf := {| c_buf := []; c_prev := 0; c_pprev := 0 |}.
Definition k (z : Z) : expr := ENum (f_of_Z z).
Lemma demo_i8_range : forall f, -128 <= demo_i8 f < 128.
Proof.
  intro f. unfold demo_i8, f_to_sint. destruct (f_is_finite f); [|cbn; lia]. unfold sint, in_sint. cbn [obind].
  destruct (Z.leb_spec (- 2 ^ (8 - 1)) (Binary.Btrunc 24 128 f)); cbn [andb]; [|lia].
  destruct (Z.ltb_spec (Binary.Btrunc 24 128 f) (2 ^ (8 - 1))); cbn; lia.
Qed.
Lemma demo_program : program demo_conf demo_i8 (fun _ => None) (fun _ => None).
Proof.
  split.
  - exact demo_i8_range.
  - intros key fn np nn actuals n [].
  - intros l f H. discriminate.
  - intro l. reflexivity.
Qed.
Lemma demo_good : good demo_conf demo_st.
Proof. split; [reflexivity|]. split; [reflexivity|cbn; lia]. Qed.

(** ** C23 *)
(** The code of a command is the sequence of instructions laid out, and walking
    it visits exactly their starts if and only if there is no dict display. *)
Theorem C23_walk_partial : forall w i8 s c code,
  lined s = true -> oks w s -> gen_command w i8 s c = Ok code ->
  code = encs w (cstmt w i8 0 0 None None s) /\
  (walk w (Sn (length code)) 0 code = starts w 0 (cstmt w i8 0 0 None None s) <-> Forall no_dict (cstmt w i8 0 0 None None s)).
Proof. exact walk_command_iff. Qed.
Print Assumptions C23_walk_partial.
(** while 1: break *)
Definition brk : stmt := SSeq (SLine 7) (SWhile (k 1) (SSeq (SLine 8) SBreak) SSkip).
Example C23_walk_applies :
  lined brk = true /\ oks W32 brk /\ Forall no_dict (cstmt W32 demo_i8 0 0 None None brk) /\
  exists code, gen_command W32 demo_i8 brk no_code = Ok code /\ walk W32 (Sn (length code)) 0 code = [0; 5; 7; 12; 17; 22]%nat.
Proof.
  split; [reflexivity|]. split; [cbn; auto|]. split.
  - vm_compute. repeat (constructor; [intros p n; discriminate|]). constructor.
  - eexists. split; vm_compute; reflexivity.
Qed.

(** With a dict display the walk takes the operand for instructions. *)
Theorem C23_dict_refuted : forall w l1 p n l2, Forall (plain w) l1 ->
  let l := l1 ++ io (KMake KDict) p n :: l2 in
  In (size w l1 + 1)%nat (walk w (Sn (size w l)) 0 (encs w l)) /\ ~ In (size w l1 + 1)%nat (starts w 0 l).
Proof. exact walk_dict. Qed.
Print Assumptions C23_dict_refuted.
Example C23_dict_refuted_applies : Forall (plain W32) [io KLine false 1; inum demo_i8 true (f_of_Z 1)].
Proof. repeat (constructor; [vm_compute; reflexivity|]). constructor. Qed.

(** The line number is looked for with the push bit still set: after a pushed
    small number, the number is taken for an instruction. *)
Theorem C23_line_refuted : forall w l, (4 <= size w l)%nat ->
  code_line w (encs w (I KInt true (AByte 66) :: l)) = get_at (obytes w) 0 (encs w l).
Proof. exact line_pushed. Qed.
Print Assumptions C23_line_refuted.
Example C23_line_refuted_applies : (4 <= size W32 [io KId false 300])%nat /\
  code_line W32 (encs W32 [I KInt true (AByte 66); io KId false 300]) = Some 76849.
Proof. split; [vm_compute; lia|vm_compute; reflexivity]. Qed.

(** ** C24 *)
(** The compiler emits one instruction for a number, and that instruction
    gives the number (-0.0, which no literal denotes, may lose its sign). *)
Theorem C24_emitted : forall w i8 l c f, c_buf c = encs w l -> c_buf (add_number i8 f c) = encs w (l ++ [inum i8 false f]).
Proof. intros w i8 l c f H. exact (rep_buf _ _ _ (rep_number w i8 l c f H)). Qed.
Print Assumptions C24_emitted.
Theorem C24_literal : forall K F i8, (forall f, -128 <= i8 f < 128) -> forall code b p f links s,
  hosts (e_width (cf_env K)) code b [inum i8 p f] -> aborted s = false ->
  exists g, gives f g /\
    forall s', pushes K p (set_a (PNum g) s) s' ->
      step K F (V s code b links) = Some (Next (V s' code (b + length (enc (e_width (cf_env K)) (inum i8 p f))) links)).
Proof. exact literal_step. Qed.
Print Assumptions C24_literal.
Example C24_literal_applies :
  hosts W32 (encs W32 [inum demo_i8 false (f_of_Z 127); inum demo_i8 false (f_of_Z 128)]) 2 [inum demo_i8 false (f_of_Z 128)] /\
  gives (f_of_Z 128) (f_of_Z 128) /\
  map (fun z => length (enc W32 (inum demo_i8 false (f_of_Z z)))) [-129; -128; 127; 128] = [5; 2; 2; 5]%nat.
Proof.
  split; [|split; [reflexivity|vm_compute; reflexivity]].
  exists [inum demo_i8 false (f_of_Z 127)], []. split; [vm_compute; reflexivity|]. split; [|left; reflexivity].
  repeat (constructor; [vm_compute; auto; try (split; congruence)|]). constructor.
Qed.

(** ** C27: chains that are compiled to something else *)
(** At the start of the code - which is where the first default of a function
    stands - [f c1 g c2 h] is compiled as [(f c1 g) c2 h]. *)
Theorem C27_default_refuted : forall w i8 c f c1 g c2 h, c_buf c = [] ->
  exists c', gen w i8 (ECmp (ENum f) (LMore (BCmp c1) (ENum g) (LLast (BCmp c2) (ENum h)))) c = Ok c' /\
    c_buf c' = encs w (default_code i8 f c1 g c2 h).
Proof. exact gen_default_chain. Qed.
Print Assumptions C27_default_refuted.
Theorem C27_default_value_refuted : forall K i8 FT F, program K i8 FT F ->
  forall n f c1 g c2 h code b st links v st',
  hosts (e_width (cf_env K)) code b (default_code i8 f c1 g c2 h) -> good K st ->
  ev K FT n (nested f c1 g c2 h) st = Val v st' ->
  s_a st' = v /\ reach K F (V st code b links) (V st' code (b + size (e_width (cf_env K)) (default_code i8 f c1 g c2 h)) links).
Proof. exact default_chain_runs. Qed.
Print Assumptions C27_default_value_refuted.
(** 3 > 2 > 1 as a default is (3 > 2) > 1: false, although the chain is true. *)
Definition val_of (r : res poly) : option bool :=
  match r with Val v s => match truth v (s_m s) with Some (b, _) => Some b | None => None end | _ => None end.
Example C27_default_refuted_applies :
  val_of (ev demo_conf (fun _ => None) 9 (nested (f_of_Z 3) OGt (f_of_Z 2) OGt (f_of_Z 1)) demo_st) = Some false /\
  val_of (ev demo_conf (fun _ => None) 9 (ECmp (k 3) (LMore (BCmp OGt) (k 2) (LLast (BCmp OGt) (k 1)))) demo_st) = Some true.
Proof. split; vm_compute; reflexivity. Qed.

(** A chain that goes on after is, is not, in or not in. *)
Theorem C27_other_refuted : forall w i8 l c a k n b k2 d, rep w l c -> l <> [] -> wrong_link k = Some n ->
  exists c', gen w i8 (ECmp (EId a) (LMore k (EId b) (LLast k2 (EId d)))) c = Ok c' /\
    let t := Z.of_nat (size w l + 3 * osize w + osize w + 1) in
    c_buf c' = encs w (l ++ [io KId true a; io KId false b; I (KBin (BNum n)) true (AOff t); io KId false d; i0 (KBin k2) false; i0 KNop false]).
Proof. exact gen_other_chain. Qed.
Print Assumptions C27_other_refuted.
Example C27_other_refuted_applies : rep W32 [io KLine false 1] (add_off W32 KLine 1 no_code) /\ [io KLine false 1] <> [] /\ wrong_link BIn <> None.
Proof. split; [apply (rep_off W32 [] no_code KLine 1); reflexivity|]. split; discriminate. Qed.
