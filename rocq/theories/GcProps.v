(** Properties of the collector and the allocator: C33 to C37. *)
From Coq Require Import ZArith Bool List Lia.
From Verif Require Import Base FloatModel PolyModel ValueModel MathModel MachModel BinModel CodeModel CompModel FrameModel ExecModel LayoutSpec.
From Verif Require Import GcModel GcSpec GcHeapSpec GcCodeSpec GcAlloc GcCode GcLost GcCheck.
Import ListNotations.
Local Open Scope Z_scope.

(** ** A heap: a global variable x that is a list holding itself and a string,
    a function on the stack whose code mentions the same string, and eight
    bytes nothing refers to *)
Definition nul : Z := OFFSET_NONE W16.
Definition off (v : Z) : list Z := le_bytes 2 v.
Definition val (o : Z) (t : ptype) : list Z := le_bytes 4 (snek_offset_to_poly o t).
Definition demo_bytes : list Z :=
  [1; 2; 3; 4; 5; 6; 7; 8] ++                                                      (* 0 *)
  off nul ++ [120; 0] ++                                                           (* 8: the name x *)
  off nul ++ off nul ++ off 0 ++ off 1 ++ val 28 TList ++ off 8 ++ [0; 0] ++       (* 12: the globals *)
  off 2 ++ off 2 ++ off 0 ++ off 36 ++                                             (* 28: the list *)
  val 28 TList ++ val 44 TString ++                                                (* 36: its elements *)
  [104; 105; 0; 0] ++                                                              (* 44: "hi" *)
  [0; 0] ++ off 52 ++                                                              (* 48: the function *)
  off 4 ++ [45] ++ off 44 ++ [65; 0; 0].                                           (* 52: its code *)
Definition demo_code : list instr := [io KString false 44; i0 KReturn false].
Definition demo_roots : roots :=
  {| r_stack := [snek_offset_to_poly 48 TFunc]; r_names := 8; r_globals := 12; r_frame := nul; r_stash := nul;
     r_code := nul; r_empty := nul; r_a := snek_offset_to_poly 28 TList; r_compile := nul |}.
Definition state (bs : list Z) (top : Z) : gc :=
  {| g_m := mem_of bs; g_busy := fun _ => false; g_chunks := []; g_first := O; g_low := 0; g_high := 0; g_note := nul; g_top := top; g_last := 0 |}.
Definition demo : gc := state demo_bytes 60.
Definition demo_objects : list node := [(YName, 8); (YFrame, 12); (YList, 28); (YData 2 2, 36); (YStr, 44); (YFunc, 48); (YCode, 52)].
Lemma demo_check : check W16 64 0 0 demo_roots (g_m demo) 60 0 demo_objects [8] = true.
Proof. vm_compute. reflexivity. Qed.
Lemma demo_ready : ready W16 64 0 0 demo_roots demo.
Proof.
  constructor; [|reflexivity|reflexivity|reflexivity]. apply (check_wf W16 64 0 0 demo_roots _ 60 0 demo_objects [8]); [|exact demo_check].
  apply mem_of_bytes. vm_compute. reflexivity.
Qed.
Lemma demo_string : live W16 0 demo_roots (g_m demo) (YStr, 44).
Proof.
  apply (live_step _ _ _ _ (YData 2 2, 36) (4, SPoly)); [|vm_compute; auto|vm_compute; reflexivity].
  apply (live_step _ _ _ _ (YList, 28) (6, SOff (YData 2 2))); [|vm_compute; auto|vm_compute; reflexivity].
  apply (live_root _ _ _ _ SPoly (snek_offset_to_poly 28 TList)); [cbn; tauto|vm_compute; reflexivity].
Qed.
Lemma demo_code_live : live W16 0 demo_roots (g_m demo) (YCode, 52).
Proof.
  apply (live_step _ _ _ _ (YFunc, 48) (2, SOff YCode)); [|vm_compute; auto|vm_compute; reflexivity].
  apply (live_root _ _ _ _ SPoly (snek_offset_to_poly 48 TFunc)); [cbn; tauto|vm_compute; reflexivity].
Qed.
Lemma demo_lists : lists W16 0 demo_roots (g_m demo) demo_objects.
Proof.
  split.
  - repeat constructor; cbn; intuition discriminate.
  - intro n. split; [|intro H; exact (check_live W16 64 0 0 _ _ _ _ _ _ demo_check n H)].
    intro H. repeat destruct H as [<-|H]; try contradiction.
    + apply (live_root _ _ _ _ (SOff YName) 8); [cbn; tauto|reflexivity].
    + apply (live_root _ _ _ _ (SOff YFrame) 12); [cbn; tauto|reflexivity].
    + apply (live_root _ _ _ _ SPoly (snek_offset_to_poly 28 TList)); [cbn; tauto|vm_compute; reflexivity].
    + apply (live_step _ _ _ _ (YList, 28) (6, SOff (YData 2 2))); [|vm_compute; auto|vm_compute; reflexivity].
      apply (live_root _ _ _ _ SPoly (snek_offset_to_poly 28 TList)); [cbn; tauto|vm_compute; reflexivity].
    + exact demo_string.
    + apply (live_root _ _ _ _ SPoly (snek_offset_to_poly 48 TFunc)); [cbn; tauto|vm_compute; reflexivity].
    + exact demo_code_live.
Qed.

(** results of closed runs, without spelling out the memory *)
Lemma some_inj {A} (x y : A) : Some x = Some y -> x = y.
Proof. congruence. Qed.
Ltac run X proj v :=
  let P := fresh "P" in
  assert (P : option_map proj X = Some v) by (vm_compute; reflexivity);
  destruct X as [[[? ?] ?]|]; cbn [option_map] in P; [apply some_inj in P; repeat rewrite pair_equal_spec in P|discriminate P].

(** ** C33 *)
(** From a well-formed heap, any number of collections and allocations give a
    heap with the same objects, each reference still to the same object, and
    everything the roots lead to looks as it did, to any depth.  Partial: the
    compiler's buffer is well-formed only between whole instructions, and the
    strings of code are those the collector can see (C37). *)
Theorem C33_unobservable_partial : forall w POOL calloc csize NCHUNK R g R' g',
  (0 < NCHUNK)%nat -> ready w POOL calloc csize R g -> later w POOL calloc csize NCHUNK R g R' g' ->
  exists f, same_heap w POOL calloc csize f R (g_m g) R' (g_m g') /\ ready w POOL calloc csize R' g' /\
    forall d, views w POOL calloc csize d R' (g_m g') = views w POOL calloc csize d R (g_m g).
Proof. intros w POOL calloc csize NCHUNK R g R' g' HN Hr Hl. exact (later_same HN R g R' g' Hl Hr). Qed.
Print Assumptions C33_unobservable_partial.
(** A collection always gives a result: no reference leads astray. *)
Theorem C33_collect_partial : forall w POOL calloc csize NCHUNK full R g,
  (0 < NCHUNK)%nat -> ready w POOL calloc csize R g ->
  exists R' g', collect w POOL NCHUNK calloc csize full R g = Some (POOL - g_top g', R', g') /\ later w POOL calloc csize NCHUNK R g R' g'.
Proof.
  intros w POOL calloc csize NCHUNK full R g HN Hr. destruct (collect_ok HN full R g Hr) as (R' & g' & f & Hc & _). exists R', g'. split; [exact Hc|].
  exact (later_collect _ _ _ _ _ full _ R g R' g' R' g' Hc (later_now _ _ _ _ _ R' g')).
Qed.
Print Assumptions C33_collect_partial.
Example C33_applies : ready W16 64 0 0 demo_roots demo /\
  exists R' g', collect W16 64 1 0 0 true demo_roots demo = Some (12, R', g') /\ later W16 64 0 0 1 demo_roots demo R' g' /\
    r_a R' <> r_a demo_roots /\ views W16 64 0 0 3 R' (g_m g') = views W16 64 0 0 3 demo_roots (g_m demo).
Proof.
  split; [exact demo_ready|]. destruct (C33_collect_partial W16 64 0 0 1 true demo_roots demo ltac:(lia) demo_ready) as (R' & g' & Hc & Hl).
  assert (P : option_map (fun x => (fst (fst x), r_a (snd (fst x)))) (collect W16 64 1 0 0 true demo_roots demo) = Some (12, snek_offset_to_poly 20 TList)) by (vm_compute; reflexivity).
  rewrite Hc in P. cbn [option_map fst snd] in P. apply some_inj in P. rewrite pair_equal_spec in P. destruct P as [P1 P2].
  exists R', g'. split; [rewrite Hc, P1; reflexivity|]. split; [exact Hl|]. split; [rewrite P2; vm_compute; discriminate|].
  destruct (C33_unobservable_partial W16 64 0 0 1 _ _ _ _ ltac:(lia) demo_ready Hl) as (f & _ & _ & Hv). apply Hv.
Qed.

(** While a string instruction is being emitted, the buffer is extended between
    the opcode and its operand.  A collection there takes what lies after the
    buffer for a reference: here it is the length of a list, and four elements
    become none. *)
Definition wild_bytes : list Z :=
  [0; 0; 0; 0] ++ [67; 67; 67; 45] ++ off 4 ++ off 4 ++ off 0 ++ off 16 ++
  [0; 0; 128; 63; 1; 0; 128; 63; 2; 0; 128; 63; 3; 0; 128; 63].
Definition wild_roots : roots :=
  {| r_stack := []; r_names := nul; r_globals := nul; r_frame := nul; r_stash := nul; r_code := nul; r_empty := nul;
     r_a := snek_offset_to_poly 8 TList; r_compile := 4 |}.
Definition wild_code : list instr := [i0 KNull false; i0 KNull false; i0 KNull false].
Theorem C33_emitting_refuted :
  lies (mem_of wild_bytes) (r_compile wild_roots) (encs W16 wild_code ++ [op_byte KString false]) /\
  word_ref W16 (r_a wild_roots) = Some (YList, 8) /\ list_size W16 (mem_of wild_bytes) 8 = 4 /\
  exists n R' g', collect W16 64 8 4 4 true wild_roots (state wild_bytes 32) = Some (n, R', g') /\
    word_ref W16 (r_a R') = Some (YList, 4) /\ list_size W16 (g_m g') 4 = 0.
Proof.
  split; [vm_compute; repeat split|]. split; [vm_compute; reflexivity|]. split; [vm_compute; reflexivity|].
  run (collect W16 64 8 4 4 true wild_roots (state wild_bytes 32))
    (fun x : Z * roots * gc => (word_ref W16 (r_a (snd (fst x))), list_size W16 (g_m (snd x)) 4)) (Some (YList, 4), 0).
  cbn [fst snd] in P. eexists _, _, _. split; [reflexivity|exact P].
Qed.
Print Assumptions C33_emitting_refuted.
(** such a buffer is never well-formed when it is full *)
Theorem C33_buffer_refuted : forall w POOL calloc R m top last l p, Forall (sized w) l -> r_compile R <> OFFSET_NONE w ->
  let csize := Z.of_nat (size w l) + 1 in
  lies m (r_compile R) (encs w l ++ [op_byte KString p]) ->
  In (csize, SOff YStr) (slots w csize m (YCompile, r_compile R)) /\
  ((calloc + 3) / 4 * 4 < csize + Z.of_nat (obytes w) -> ~ wf w POOL calloc csize R m top last).
Proof. intros w. exact (@emitting w). Qed.
Print Assumptions C33_buffer_refuted.
Example C33_buffer_applies : Forall (sized W16) wild_code /\ r_compile wild_roots <> OFFSET_NONE W16 /\
  lies (mem_of wild_bytes) (r_compile wild_roots) (encs W16 wild_code ++ [op_byte KString false]) /\ (4 + 3) / 4 * 4 < Z.of_nat (size W16 wild_code) + 1 + Z.of_nat (obytes W16).
Proof.
  split; [|split; [discriminate|split; [vm_compute; repeat split|vm_compute; reflexivity]]].
  repeat (constructor; [split; [reflexivity|discriminate]|]). constructor.
Qed.

(** ** C34 *)
(** After a full collection the objects that can be reached lie one after the
    other from the start of the pool, and what is used is the sum of their
    sizes. *)
Theorem C34_packed : forall w POOL calloc csize NCHUNK R g L,
  (0 < NCHUNK)%nat -> ready w POOL calloc csize R g -> lists w csize R (g_m g) L ->
  exists R' g' f, collect w POOL NCHUNK calloc csize true R g = Some (POOL - g_top g', R', g') /\
    same_heap w POOL calloc csize f R (g_m g) R' (g_m g') /\ packed w POOL calloc csize R' (g_m g') 0 (g_top g') /\
    g_top g' = sizes w POOL calloc (g_m g) L /\ g_last g' = g_top g'.
Proof.
  intros w POOL calloc csize NCHUNK R g L HN Hr HL. destruct (collect_ok HN true R g Hr) as (R' & g' & f & Hc & Hs & Hr' & Hpk & Hla & _ & _ & Hp).
  exists R', g', f. split; [exact Hc|]. split; [exact Hs|]. split; [exact Hpk|]. split; [|exact Hla]. destruct Hs as (HR & Hm & _).
  exact (collect_total HN R g R' g' f _ _ L Hr Hr' HR Hm Hp Hpk HL).
Qed.
Print Assumptions C34_packed.
(** the objects of a well-formed heap can be listed *)
Theorem C34_listed : forall w POOL calloc csize R g, ready w POOL calloc csize R g ->
  exists L, lists w csize R (g_m g) L /\ sizes w POOL calloc (g_m g) L <= g_top g.
Proof.
  intros w POOL calloc csize R g [Hwf _ _ _]. destruct (live_list R (g_m g) _ _ Hwf) as (L & H1 & _ & H2). exists L. split; assumption.
Qed.
Print Assumptions C34_listed.
(** An incremental one does so above the end of the last full one, and leaves
    what is below alone. *)
Theorem C34_incremental : forall w POOL calloc csize NCHUNK R g,
  (0 < NCHUNK)%nat -> ready w POOL calloc csize R g ->
  exists R' g' f, collect w POOL NCHUNK calloc csize false R g = Some (POOL - g_top g', R', g') /\
    same_heap w POOL calloc csize f R (g_m g) R' (g_m g') /\ packed w POOL calloc csize R' (g_m g') (g_last g) (g_top g') /\
    (forall n, live w csize R (g_m g) n -> snd n < g_last g -> f (snd n) = snd n) /\ g_last g <= g_top g'.
Proof.
  intros w POOL calloc csize NCHUNK R g HN Hr. destruct (collect_ok HN false R g Hr) as (R' & g' & f & Hc & Hs & _ & Hpk & _ & Hst & Hle & _).
  assert (Hb : base false g = g_last g) by (unfold base; cbn; destruct (Z.eqb_spec (g_last g) 0); lia). rewrite Hb in *.
  exists R', g', f. auto.
Qed.
Print Assumptions C34_incremental.
(** An allocation fails exactly when the objects that can be reached and the
    request do not fit together. *)
Theorem C34_fails : forall w POOL calloc csize NCHUNK size R g L,
  (0 < NCHUNK)%nat -> ready w POOL calloc csize R g -> 0 <= size -> size + 3 < 2 ^ wbits w -> lists w csize R (g_m g) L ->
  (exists R' g', alloc w POOL NCHUNK calloc csize size R g = Some (None, R', g')) <-> POOL < sizes w POOL calloc (g_m g) L + (size + 3) / 4 * 4.
Proof. intros w POOL calloc csize NCHUNK size R g L HN. exact (alloc_fails HN size R g L). Qed.
Print Assumptions C34_fails.
Example C34_applies : ready W16 64 0 0 demo_roots demo /\ lists W16 0 demo_roots (g_m demo) demo_objects /\
  g_top demo = 60 /\ sizes W16 64 0 (g_m demo) demo_objects = 52 /\
  (exists R' g', alloc W16 64 1 0 0 13 demo_roots demo = Some (None, R', g')) /\
  (exists R' g', alloc W16 64 1 0 0 12 demo_roots demo = Some (Some 52, R', g')).
Proof.
  split; [exact demo_ready|]. split; [exact demo_lists|]. split; [reflexivity|]. split; [vm_compute; reflexivity|]. split.
  2:{ run (alloc W16 64 1 0 0 12 demo_roots demo) (fun x : option Z * roots * gc => fst (fst x)) (Some 52). cbn [fst] in P. subst. eexists _, _. reflexivity. }
  apply (C34_fails W16 64 0 0 1 13 demo_roots demo demo_objects); [lia|exact demo_ready|lia|vm_compute; reflexivity|exact demo_lists|vm_compute; reflexivity].
Qed.

(** ** C35 *)
(** What an allocation gives is aligned, in the pool, zero, and apart from
    every object.  Partial: the size must not wrap when rounded. *)
Theorem C35_fresh_partial : forall w POOL calloc csize NCHUNK size R g,
  (0 < NCHUNK)%nat -> ready w POOL calloc csize R g -> 0 <= size -> size + 3 < 2 ^ wbits w ->
  exists r R' g', alloc w POOL NCHUNK calloc csize size R g = Some (r, R', g') /\ ready w POOL calloc csize R' g' /\
    forall a, r = Some a ->
      0 <= a /\ a mod 4 = 0 /\ a + size <= g_top g' <= POOL /\
      (forall i, 0 <= i < size -> g_m g' (a + i) = 0) /\
      (forall n z, live w csize R' (g_m g') n -> osize w POOL calloc (g_m g') n = Some z -> snd n + z <= a).
Proof.
  intros w POOL calloc csize NCHUNK size R g HN Hr H1 H2. destruct (alloc_ok HN size R g Hr H1 H2) as (r & R' & g' & f & Hc & _ & Hr' & Hres & _).
  exists r, R', g'. split; [exact Hc|]. split; [exact Hr'|]. intros a ->. destruct Hres as (Ha & Ha4 & Htop & Hpl & Hz & Hb).
  assert (size <= room size) by (unfold room; pose proof (Z.mod_pos_bound (size + 3) 4 ltac:(lia)); pose proof (Z.div_mod (size + 3) 4 ltac:(lia)); lia).
  split; [exact Ha|]. split; [exact Ha4|]. split; [lia|]. split; [intros i Hi; apply Hz; lia|exact Hb].
Qed.
Print Assumptions C35_fresh_partial.
Example C35_fresh_applies : ready W16 64 0 0 demo_roots demo /\
  exists R' g', alloc W16 64 1 0 0 12 demo_roots demo = Some (Some 52, R', g').
Proof. 
  split; [exact demo_ready|]. run (alloc W16 64 1 0 0 12 demo_roots demo) (fun x : option Z * roots * gc => fst (fst x)) (Some 52).
  cbn [fst] in P. subst. eexists _, _. reflexivity.
Qed.
(** The three largest sizes round to nothing: the allocation succeeds and
    reserves nothing. *)
Theorem C35_wrap_refuted : forall w POOL calloc csize NCHUNK size R g,
  (0 < NCHUNK)%nat -> ready w POOL calloc csize R g -> 2 ^ wbits w - 3 <= size < 2 ^ wbits w ->
  exists g', alloc w POOL NCHUNK calloc csize size R g = Some (Some (g_top g), R, g') /\ g_top g' = g_top g /\ POOL < g_top g + size.
Proof.
  intros w POOL calloc csize NCHUNK size R g HN Hr Hs. eexists. split; [exact (alloc_wraps HN size R g Hr Hs)|]. split; [reflexivity|].
  destruct Hr as [Hwf _ _ _]. destruct (wf_pool _ _ _ _ _ _ _ _ Hwf) as (Ht & Hn & _). destruct (wf_last _ _ _ _ _ _ _ _ Hwf) as [Hl _].
  assert (OFFSET_NONE w = 2 ^ wbits w - 4) by (destruct w; reflexivity). lia.
Qed.
Print Assumptions C35_wrap_refuted.
Example C35_wrap_applies : ready W16 64 0 0 demo_roots demo /\ 2 ^ wbits W16 - 3 <= 65533 < 2 ^ wbits W16.
Proof. split; [exact demo_ready|vm_compute; split; [discriminate|reflexivity]]. Qed.

(** ** C36 *)
(** The passes of a collection end, after at most one more than the windows the
    objects fill. *)
Theorem C36_ends : forall w POOL calloc csize NCHUNK full R g L fuel,
  (0 < NCHUNK)%nat -> ready w POOL calloc csize R g -> lists w csize R (g_m g) L -> (length L / NCHUNK + 1 <= fuel)%nat ->
  exists R' top' g', passes w POOL NCHUNK calloc csize fuel R (base full g) (with_window (g_first g) (base full g) g) = Some (R', top', g') /\
    collect w POOL NCHUNK calloc csize full R g =
      Some (u_of w (POOL - top'), R', with_tops top' (if full || (g_last g =? 0) then top' else g_last g') g').
Proof. intros w POOL calloc csize NCHUNK full R g L fuel HN. exact (collect_ends HN full R g L fuel). Qed.
Print Assumptions C36_ends.
Example C36_applies : ready W16 64 0 0 demo_roots demo /\ lists W16 0 demo_roots (g_m demo) demo_objects /\
  (length demo_objects / 3 + 1 <= 3)%nat /\
  passes W16 64 3 0 0 2 demo_roots 0 (with_window 0 0 demo) = None.
Proof. split; [exact demo_ready|]. split; [exact demo_lists|]. split; [vm_compute; auto|]. vm_compute. reflexivity. Qed.

(** ** C37 *)
(** Code that can be reached keeps its instructions, and the text of every
    string it mentions, through any number of collections and allocations.
    Partial: for code without dict displays. *)
Theorem C37_strings_partial : forall w POOL calloc csize NCHUNK R g R' g' o l,
  (0 < NCHUNK)%nat -> ready w POOL calloc csize R g -> later w POOL calloc csize NCHUNK R g R' g' ->
  live w csize R (g_m g) (YCode, o) -> holds w (g_m g) o l -> Forall (sized w) l ->
  exists o' l', live w csize R' (g_m g') (YCode, o') /\ holds w (g_m g') o' l' /\
    map (spelled w POOL (g_m g')) l' = map (spelled w POOL (g_m g)) l.
Proof. intros w POOL calloc csize NCHUNK R g R' g' o l HN Hr Hl. exact (later_code HN R g R' g' o l Hl Hr). Qed.
Print Assumptions C37_strings_partial.
Example C37_strings_applies : ready W16 64 0 0 demo_roots demo /\ live W16 0 demo_roots (g_m demo) (YCode, 52) /\
  holds W16 (g_m demo) 52 demo_code /\ Forall (sized W16) demo_code /\
  map (spelled W16 64 (g_m demo)) demo_code = [(KString, false, inr (Some [104; 105])); (KReturn, false, inl ExecModel.ANone)].
Proof.
  split; [exact demo_ready|]. split; [exact demo_code_live|]. split; [split; [vm_compute; reflexivity|vm_compute; repeat split]|]. split; [|vm_compute; reflexivity].
  constructor; [split; [reflexivity|intros _; exists 44; split; [reflexivity|vm_compute; split; [discriminate|reflexivity]]]|].
  constructor; [split; [reflexivity|discriminate]|constructor].
Qed.
(** The string after a dict display with three, four or five entries is not
    seen by the collector. *)
Theorem C37_dict_refuted : forall w csize m o l1 p n q v l2, Forall (sized w) l1 -> 6 <= n <= 11 ->
  holds w m o (l1 ++ io (KMake KDict) p n :: io KString q v :: l2) ->
  ~ In (Z.of_nat (obytes w) + (Z.of_nat (size w l1) + 1 + Z.of_nat (obytes w) + 1), SOff YStr) (slots w csize m (YCode, o)).
Proof. intros w. exact (@dict_hides w). Qed.
Print Assumptions C37_dict_refuted.
(** [{1: 2, 3: 4, 5: 6}, "hi"]: its storage is given away *)
Definition lost_code : list instr :=
  [I KInt true (AByte 1); I KInt true (AByte 2); I KInt true (AByte 3); I KInt true (AByte 4); I KInt true (AByte 5); I KInt true (AByte 6);
   io (KMake KDict) true 6; io KString true 28; io (KMake KList) false 2].
Definition lost_bytes : list Z := off (Z.of_nat (size W16 lost_code)) ++ encs W16 lost_code ++ repeat 0 5 ++ [104; 105; 0; 0].
Definition lost_roots : roots :=
  {| r_stack := []; r_names := nul; r_globals := nul; r_frame := nul; r_stash := nul; r_code := 0; r_empty := nul; r_a := 0; r_compile := nul |}.
Theorem C37_lost_refuted :
  holds W16 (mem_of lost_bytes) 0 lost_code /\ text 64 (mem_of lost_bytes) 28 = Some [104; 105] /\
  exists R' g', alloc W16 64 4 0 0 36 lost_roots (state lost_bytes 32) = Some (Some 24, R', g') /\
    holds W16 (g_m g') 0 lost_code /\ text 64 (g_m g') 28 = Some [].
Proof.
  split; [split; [vm_compute; reflexivity|vm_compute; repeat split]|]. split; [vm_compute; reflexivity|].
  run (alloc W16 64 4 0 0 36 lost_roots (state lost_bytes 32))
    (fun x : option Z * roots * gc => (fst (fst x), get 2 (g_m (snd x)) 0, map (fun i => g_m (snd x) (2 + Z.of_nat i)) (seq 0 (size W16 lost_code)), text 64 (g_m (snd x)) 28))
    (Some 24, Z.of_nat (size W16 lost_code), encs W16 lost_code, Some (@nil Z)).
  cbn [fst snd] in P. destruct P as [[[P1 P2] P3] P4]. subst. eexists _, _. split; [reflexivity|]. split; [|exact P4]. split; [exact P2|].
  apply lies_map. exact P3.
Qed.
Print Assumptions C37_lost_refuted.
Example C37_dict_applies : exists l1 l2, lost_code = l1 ++ io (KMake KDict) true 6 :: io KString true 28 :: l2 /\ Forall (sized W16) l1.
Proof.
  exists (firstn 6 lost_code), (skipn 8 lost_code). split; [reflexivity|].
  repeat (constructor; [split; [reflexivity|discriminate]|]). constructor.
Qed.
