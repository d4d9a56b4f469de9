(** C96: the buffer the compiler writes its bytes to. *)
From Coq Require Import List ZArith Bool Lia.
From Verif Require Import Base FloatModel PolyModel ValueModel MathModel MachModel BinModel CodeModel BufModel BufSpec BufProofs.
Import ListNotations.
Local Open Scope Z_scope.
Set Implicit Arguments.

(** ** C96 *)
(** While memory is granted, any sequence of calls that makes sense on a list
    of bytes writes inside the block only, and leaves those bytes in it: they
    are what snek_code_finish copies.  The block may have to be replaced any
    number of times on the way. *)
Theorem C96_buffer_partial : forall w i8 refused cs b c c', granted refused b -> holds b c -> c_calls w i8 cs c = Ok c' ->
  exists b', b_calls w i8 refused cs b = Ok b' /\ holds b' c' /\ b_code b' = Some (c_buf c').
Proof. exact calls_keep. Qed.
Print Assumptions C96_buffer_partial.

(** Adding instructions is safe whenever memory is refused: the bytes written
    before are still there. *)
Theorem C96_append : forall w i8 refused cs b, forallb appends cs = true -> (b_size b <= b_alloc b)%nat ->
  exists b' r, b_calls w i8 refused cs b = Ok b' /\ (b_size b' <= b_alloc b')%nat /\
    (b_size b <= b_size b')%nat /\ firstn (b_size b') (b_mem b') = firstn (b_size b) (b_mem b) ++ r.
Proof. intros w i8 refused cs b H. exact (calls_stay w i8 refused cs H b). Qed.
Print Assumptions C96_append.

(** But what reaches back to the instruction just added does not look whether
    it has been.  When memory has run out, a string constant is written outside
    the block exactly if the instruction does not fit; *)
Theorem C96_string_refuted : forall w i8 refused l b, exhausted refused b -> (b_size b <= b_alloc b)%nat ->
  (b_call w i8 refused (AddStr l) b = UB <-> (room b < insn_bytes w)%nat).
Proof. exact string_outside. Qed.
Print Assumptions C96_string_refuted.
(** so is the target of a branch, *)
Theorem C96_branch_refuted : forall w i8 refused o v t b, exhausted refused b -> (b_size b <= b_alloc b)%nat -> (room b < insn_bytes w)%nat ->
  b_calls w i8 refused [AddOff o v; PatchBranch (b_size b) t] b = UB.
Proof. exact branch_outside. Qed.
Print Assumptions C96_branch_refuted.
(** and the push bit of an operand, which follows without another token being
    read, if the block is full *)
Theorem C96_push_refuted : forall w i8 refused o v b, exhausted refused b -> b_size b = b_alloc b ->
  exists b', b_call w i8 refused (AddOff o v) b = Ok b' /\ b_call w i8 refused (SetPush (b_prev b')) b' = UB.
Proof. exact push_outside. Qed.
Print Assumptions C96_push_refuted.

(** x = "a" + 1 and more of the like, from an empty buffer: the block is
    replaced twice *)
Definition demo_calls : list call :=
  [AddStr 7; SetPush 0; AddOff KId 5; AddU8 KSlice 3; DelPrev; AddOff KBranchFalse 0; AddRange 9 1 0; AddEnum 8 1; AddFwd FBreak 60; PatchBranch 6 12; PatchForward 0 38 FBreak 40].
Definition demo_bytes : list Z :=
  [173; 7; 0; 49; 5; 0; 60; 12; 0; 62; 1; 0; 0; 9; 0; 63; 0; 0; 0; 9; 0; 41; 249; 255; 44; 0; 41; 248; 255; 64; 0; 0; 1; 8; 0; 60; 40; 0].
Example C96_applies : granted (fun _ => false) b_init /\ holds b_init {| c_buf := []; c_prev := 0; c_pprev := 0 |} /\
  c_calls W16 (fun _ => 0) demo_calls {| c_buf := []; c_prev := 0; c_pprev := 0 |} = Ok {| c_buf := demo_bytes; c_prev := 35; c_pprev := 29 |} /\
  b_calls W16 (fun _ => 0) (fun _ => false) demo_calls b_init =
    Ok {| b_mem := demo_bytes ++ repeat 0 26; b_size := 38; b_prev := 35; b_pprev := 29; b_asked := 2 |}.
Proof.
  split; [intros n _; reflexivity|]. split; [split; [exists []; reflexivity|split; [|split]; reflexivity]|].
  split; vm_compute; reflexivity.
Qed.
(** memory has run out after the first block *)
Definition full_buf : buf := {| b_mem := repeat 53 32; b_size := 31; b_prev := 30; b_pprev := 29; b_asked := 1 |}.
Example C96_refused_applies : exhausted (fun n => Nat.leb 1 n) full_buf /\ (b_size full_buf <= b_alloc full_buf)%nat /\ (room full_buf < insn_bytes W16)%nat /\
  b_call W16 (fun _ => 0) (fun n => Nat.leb 1 n) (AddStr 7) full_buf = UB /\ forallb appends [AddOff KId 5; AddRange 9 1 0] = true.
Proof.
  split; [intros n Hn; cbn in Hn; destruct n; [lia|reflexivity]|]. split; [cbn; lia|]. split; [cbn; lia|]. split; vm_compute; reflexivity.
Qed.
