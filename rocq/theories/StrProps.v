(** C16, C18, C55: strings, the format operator and printing.  [E] is the
    configuration with an oracle that says which allocations fail and which
    move every object; [T] is what sprintf and strfromf write and [powf] is the
    C library's powf. *)
From Coq Require Import ZArith Bool List Lia.
From Verif Require Import Base FloatModel PolyModel ValueModel SliceModel SliceSpec MathModel MathSpec MachModel ListModel
  StrModel BinModel MachSpec ListSpec StrSpec MachProofs FrameProofs StrProofs StrProofs2 FormatProofs InterpProofs BinProofs ListProps.
Import ListNotations.
Local Open Scope Z_scope.
Open Scope mach_scope.

(** Sample texts: integers in one digit, other numbers as "#". *)
Definition digit (i : Z) : list Z := [Z.max 1 (Z.min 255 (48 + i))].
Definition demo_texts : texts :=
  {| tx_int := fun c i => if c =? 99 then [wrapu 8 i] else digit i;
     tx_float := fun _ _ => [35];
     tx_repr := fun f => match f_to_sint 32 f with Ok i => digit i | _ => [35] end;
     tx_func := fun _ _ => [102]; tx_builtin := fun _ => [98] |}.
Lemma demo_texts_ok : texts_ok demo_texts.
Proof.
  assert (Hd : forall i, Forall (fun x => 0 < x < 256) (digit i)) by (intro; repeat constructor; lia).
  split; cbn; intros; try (repeat constructor; lia).
  - destruct (c =? 99); [repeat constructor; unfold wrapu; apply Z.mod_pos_bound; reflexivity|].
    eapply Forall_impl; [|apply Hd]. cbn. lia.
  - destruct (f_to_sint 32 f); auto; repeat constructor; lia.
Qed.
Definition no_pow : float -> float -> outcome float := fun _ _ => UB.

(** Strings "ab", "cd", "", tuples (1, "ab"), (), list [2], tuple ([2],), the formats
    "%d-%a%%", "%s". *)
Definition text_heap : list obj :=
  [OStr [97; 98]; OStr [99; 100]; OStr []; lst KTuple [n1; PStr 0]; lst KTuple []; lst KList [n2];
   OStr [37; 100; 45; 37; 97; 37; 37]; OStr [37; 115]; lst KTuple [PList 5]; OStr [37; 97]].
Definition text_demo : mach :=
  {| m_heap := text_heap; m_epoch := 0; m_nalloc := 0; m_stack := repeat PZero 8; m_sp := 0;
     m_empty := None; m_abort := false; m_log := []; m_io := io_start |}.
Definition still_env : env :=
  {| e_width := W32; e_int := 32; e_pool := 4096; e_stack := 8; e_fail := fun _ => false; e_move := fun _ => false |}.
Lemma still_wf_env : wf_env still_env.
Proof. unfold wf_env; cbn; lia. Qed.
Lemma text_wf : forall E, e_pool E = 4096 -> e_stack E = 8%nat -> e_width E = W32 -> wf E text_demo.
Proof.
  intros E Hp Hs Hw. split.
  - intros l. do 10 (destruct l as [|l]; [intros o H; cbn in H; try discriminate;
      injection H as <-; split; cbn; try rewrite Hp; try lia; try discriminate;
       unfold elems; cbn; intros; repeat first [apply Forall_nil | apply Forall_cons; [first [exact I | eexists; reflexivity | cbn; lia]|]] |]).
    intros o H. cbn in H. destruct l; discriminate.
  - cbn. rewrite Hs. reflexivity.
  - cbn. lia.
  - cbn. constructor.
  - discriminate.
Qed.
Lemma text_wf_strs : forall E, e_pool E = 4096 -> wf_strs E (m_heap text_demo).
Proof.
  intros E Hp l. do 10 (destruct l as [|l]; [intros s H; unfold str_at in H; cbn in H; try discriminate;
    (injection H as <-; split; [rewrite Hp; cbn; lia | repeat first [apply Forall_nil | apply Forall_cons; [lia|]]])|]).
  intros s H. unfold str_at in H. cbn in H. destruct l; discriminate.
Qed.

(** C16.  [a + b] for strings is a new string with the characters of both. *)
Theorem C16_cat : forall E T powf, wf_env E -> forall m la lb sa sb inplace,
  roomy_str E -> wf E m -> wf_strs E (m_heap m) -> room E 2 m ->
  str_at (m_heap m) la sa -> str_at (m_heap m) lb sb ->
  runs (binary E T powf (PStr la) (BNum Nplus) (PStr lb) inplace) m (string_result E m (sa ++ sb)).
Proof. exact binary_cat. Qed.
Print Assumptions C16_cat.
Example C16_cat_applies :
  wf demo_env text_demo /\ wf_strs demo_env (m_heap text_demo) /\
  exists m', binary demo_env demo_texts no_pow (PStr 0) (BNum Nplus) (PStr 1) false text_demo = Some (PStr 10, m') /\
    str_at (m_heap m') 10 [97; 98; 99; 100].
Proof.
  split; [apply text_wf; reflexivity|]. split; [apply text_wf_strs; reflexivity|].
  eexists. split; [vm_compute; reflexivity | reflexivity].
Qed.

(** [s[i]] is the one-character string Python gives, or an error that changes
    nothing. *)
Theorem C16_index : forall E T powf, wf_env E -> forall m l s f i inplace,
  wbits (e_width E) <= e_int E -> wf E m -> wf_strs E (m_heap m) -> str_at (m_heap m) l s -> denotes E f i ->
  runs (binary E T powf (PStr l) BArray (PNum f) inplace) m (fun r m' =>
    match py_index s i with
    | Some c => string_result E m [c] r m'
    | None => r = PNull /\ reported (EValue (PNum f)) m m' /\ m_heap m' = m_heap m /\ stack_kept m m'
    end).
Proof. exact binary_index. Qed.
Print Assumptions C16_index.
Example C16_index_applies :
  denotes demo_env (f_of_bits 0x3f800000) 1 /\
  (exists m', binary demo_env demo_texts no_pow (PStr 0) BArray n1 false text_demo = Some (PStr 10, m') /\
    str_at (m_heap m') 10 [98]) /\
  (exists m', binary demo_env demo_texts no_pow (PStr 0) BArray n2 false text_demo = Some (PNull, m') /\ m_abort m' = true).
Proof.
  split; [split; [vm_compute; reflexivity | cbn; lia]|]. split; eexists; (split; [vm_compute; reflexivity | reflexivity]).
Qed.

(** [ord(chr(c))] is [c] for every character code a C [char] can hold. *)
Theorem C16_ord_chr : forall E m f c (sgn : bool),
  wf_env E -> wf E m -> wf_strs E (m_heap m) -> is_int f c -> 0 <= c < (if sgn then 128 else 256) ->
  runs (let* s := builtin_chr E (PNum f) in builtin_ord sgn s) m (fun r m' =>
    (exists g, r = PNum g /\ is_int g c /\ quiet m m') \/ (r = PNull /\ m_abort m' = true)).
Proof. exact ord_chr_runs. Qed.
Print Assumptions C16_ord_chr.
Example C16_ord_chr_applies :
  match (let* s := builtin_chr demo_env (num 0x42820000) in builtin_ord true s) text_demo with
  | Some (PNum g, m') => f_to_sint 32 g = Ok 65 /\ m_abort m' = false
  | _ => False
  end.
Proof. vm_compute. split; reflexivity. Qed.

(** Where [char] is signed (POSIX, AVR) the codes 128 to 255 come back
    negative. *)
Theorem C16_ord_refuted : forall E m f c,
  wf_env E -> wf E m -> wf_strs E (m_heap m) -> is_int f c -> 128 <= c < 256 ->
  runs (let* s := builtin_chr E (PNum f) in builtin_ord true s) m (fun r m' =>
    (exists g, r = PNum g /\ is_int g (c - 256) /\ quiet m m') \/ (r = PNull /\ m_abort m' = true)).
Proof. exact ord_chr_signed. Qed.
Print Assumptions C16_ord_refuted.
Example C16_ord_refuted_applies :
  match (let* s := builtin_chr demo_env (num 0x43480000) in builtin_ord true s) text_demo with
  | Some (PNum g, m') => f_to_sint 32 g = Ok (-56) /\ m_abort m' = false
  | _ => False
  end.
Proof. vm_compute. split; reflexivity. Qed.

(** [s * n] and [n * s] are n copies of s, provided the allocation does not
    move the operand (see C38_times_refuted) and the length fits. *)
Theorem C16_times_partial : forall E T powf, wf_env E -> forall m l s f n inplace,
  wf E m -> wf_strs E (m_heap m) -> str_at (m_heap m) l s -> denotes E f n -> 0 <= n ->
  fits_str (e_width E) (Z.of_nat (length s) * n) -> e_move E (m_nalloc m) = false ->
  runs (binary E T powf (PStr l) (BNum Ntimes) (PNum f) inplace) m (string_result E m (concat (repeat s (Z.to_nat n)))) /\
  runs (binary E T powf (PNum f) (BNum Ntimes) (PStr l) inplace) m (string_result E m (concat (repeat s (Z.to_nat n)))).
Proof. exact binary_times. Qed.
Print Assumptions C16_times_partial.
Example C16_times_applies :
  fits_str W32 6 /\
  exists m', binary still_env demo_texts no_pow n3 (BNum Ntimes) (PStr 0) false text_demo = Some (PStr 10, m') /\
    str_at (m_heap m') 10 [97; 98; 97; 98; 97; 98].
Proof. split; [vm_compute; reflexivity|]. eexists. split; [vm_compute; reflexivity | reflexivity]. Qed.

(** A negative count gives None for a string, a list or anything else that is
    not a number, without an error. *)
Theorem C10_negative : forall E T powf m p f n inplace, (forall g, p <> PNum g) ->
  denotes E f n -> n < 0 -> binary E T powf p (BNum Ntimes) (PNum f) inplace m = Some (PNull, m).
Proof. exact binary_times_negative. Qed.
Print Assumptions C10_negative.
Example C10_negative_applies :
  denotes demo_env (f_of_bits 0xbf800000) (-1) /\
  binary demo_env demo_texts no_pow (PStr 0) (BNum Ntimes) (num 0xbf800000) false text_demo = Some (PNull, text_demo).
Proof. split; [split; [vm_compute; reflexivity | cbn; lia] | vm_compute; reflexivity]. Qed.

(** C18.  [fmt % args]: as many conversions as arguments give the rendered
    text; otherwise a type error.  Missing: the empty format; numbers outside
    [int] under an integer conversion; exhausted memory; quoted strings and
    mismatches when an allocation moves the operands. *)
Theorem C18_format_partial : forall E T powf, wf_env E -> forall m l fmt p v N inplace,
  texts_ok T -> enough E N ->
  wf E m -> wf_strs E (m_heap m) -> room E (nesting v + 4) m -> str_at (m_heap m) l fmt -> fmt <> [] ->
  wf_poly (m_heap m) p -> tree (m_heap m) p v ->
  (exists t, rendered E T (pieces fmt) (arguments v) t) ->
  (forall t, rendered E T (pieces fmt) (arguments v) t -> (length t <= N)%nat) ->
  ((forall n, e_move E n = false) \/ (plain (pieces fmt) (arguments v) /\ matched (pieces fmt) (arguments v))) ->
  runs (binary E T powf (PStr l) (BNum Nmod) p inplace) m (fun r m' =>
    wf E m' /\ stack_kept m m' /\ heap_kept (m_heap m) (m_heap m') /\
    ((matched (pieces fmt) (arguments v) /\ quiet m m' /\
      exists l' t, r = PStr l' /\ str_at (m_heap m') l' t /\ rendered E T (pieces fmt) (arguments v) t) \/
     (~ matched (pieces fmt) (arguments v) /\ r = PNull /\ reported (EType2 (PStr l) p) m m'))).
Proof. exact binary_format. Qed.
Print Assumptions C18_format_partial.

(** "%d-%a%%" % (1, "ab") is "1-'ab'%"; "%s" % (1, "ab") is a type error. *)
Definition one := f_of_bits 0x3f800000.
Example C18_format_applies :
  let v := VSeq KTuple [VNum one; VStr [97; 98]] in
  tree (m_heap text_demo) (PList 3) v /\
  rendered still_env demo_texts (pieces [37; 100; 45; 37; 97; 37; 37]) (arguments v) [49; 45; 39; 97; 98; 39; 37] /\
  (exists l' m', binary still_env demo_texts no_pow (PStr 6) (BNum Nmod) (PList 3) false text_demo = Some (PStr l', m') /\
     str_at (m_heap m') l' [49; 45; 39; 97; 98; 39; 37]) /\
  (exists m', binary still_env demo_texts no_pow (PStr 7) (BNum Nmod) (PList 3) false text_demo = Some (PNull, m') /\
     m_log m' = [EType2 (PStr 7) (PList 3)]) /\
  (exists l' m', binary demo_env demo_texts no_pow (PStr 7) (BNum Nmod) (PList 8) false text_demo = Some (PStr l', m') /\
     str_at (m_heap m') l' [91; 50; 93]).
Proof.
  cbn zeta. split.
  { apply tree_seq. eexists 3%nat, _. split; [reflexivity|]. split; [reflexivity|]. split; [reflexivity|].
    unfold elems. cbn. repeat constructor. eexists; split; reflexivity. }
  split.
  { cbn [pieces Z.eqb Pos.eqb arguments]. change [49; 45; 39; 97; 98; 39; 37] with ([49] ++ 45 :: (quoted [97; 98] ++ [37])).
    apply rd_conv.
    - change [49] with (cstring (tx_int demo_texts 100 1)). apply to_int; [left; left; reflexivity | vm_compute; reflexivity].
    - apply rd_lit. apply rd_conv; [apply to_quoted; discriminate|]. apply rd_lit. apply rd_nil. }
  split; [eexists _, _; split; [vm_compute; reflexivity | reflexivity]|].
  split; [eexists; split; vm_compute; reflexivity|].
  eexists _, _; split; [vm_compute; reflexivity | reflexivity].
Qed.

(** [E % ()] for the empty format is None instead of the empty string. *)
Theorem C18_empty_refuted : forall E T powf m l p inplace,
  str_at (m_heap m) l [] -> tree (m_heap m) p (VSeq KTuple []) -> wf E m ->
  binary E T powf (PStr l) (BNum Nmod) p inplace m = Some (PNull, m).
Proof. exact binary_format_empty. Qed.
Print Assumptions C18_empty_refuted.
Example C18_empty_applies :
  binary demo_env demo_texts no_pow (PStr 2) (BNum Nmod) (PList 4) false text_demo = Some (PNull, text_demo).
Proof. vm_compute. reflexivity. Qed.

(** "%d" % 1e10: the conversion of a float outside [int] is undefined. *)
Theorem C18_range_refuted :
  binary still_env demo_texts no_pow (PStr 0) (BNum Nmod) (num 0x501502f9) false
    (set_heap [OStr [37; 100]] text_demo) = None.
Proof. vm_compute. reflexivity. Qed.
Print Assumptions C18_range_refuted.

(** C55.  Printing writes the text of the value, whatever its nesting. *)
Theorem C55_print : forall E T m p v c out,
  wf_env E -> texts_ok T -> wf E m -> wf_strs E (m_heap m) -> room E (nesting v + 2) m -> tree (m_heap m) p v ->
  (exists t, text_of E T c v t) ->
  runs (poly_print E T out p c) m (fun out' m' =>
    exists t, text_of E T c v t /\ out' = out ++ t /\ wf E m' /\ quiet m m' /\ stack_kept m m' /\
              heap_kept (m_heap m) (m_heap m')).
Proof. exact print_runs. Qed.
Print Assumptions C55_print.
(** (1, 'ab'), ([2], ) and {1: 'ab', 2: ()} *)
Example C55_applies : exists m',
  (let* o := poly_print demo_env demo_texts [] (PList 3) 115 in
   let* o := poly_print demo_env demo_texts (o ++ [10]) (PList 8) 115 in
   poly_print demo_env demo_texts (o ++ [10]) (PList 10) 115)
    (set_heap (text_heap ++ [lst KDict [n1; PStr 0; n2; PList 4]]) text_demo) =
  Some ([40; 49; 44; 32; 39; 97; 98; 39; 41; 10;
         40; 91; 50; 93; 44; 32; 41; 10;
         123; 49; 58; 32; 39; 97; 98; 39; 44; 32; 50; 58; 32; 40; 41; 125], m').
Proof. eexists. vm_compute. reflexivity. Qed.
