(** Proofs about the compiler's buffer. *)
From Coq Require Import List ZArith Bool Lia.
From Verif Require Import Base FloatModel PolyModel ValueModel MathModel MachModel MachProofs BinModel CodeModel BufModel BufSpec.
Import ListNotations.
Local Open Scope Z_scope.
Local Open Scope outcome_scope.
Set Implicit Arguments.

Lemma le_bytes_length n : forall v, length (le_bytes n v) = n.
Proof. induction n; intros v; cbn; auto. Qed.
Lemma obytes_small w : (obytes w <= 4)%nat.
Proof. destruct w; cbn; lia. Qed.
Lemma put_at_app ip bs x y r : put_at ip bs x = Ok y -> put_at ip bs (x ++ r) = Ok (y ++ r).
Proof.
  unfold put_at, blit. destruct (Nat.leb_spec (ip + length bs) (length x)); [|discriminate]. intros [= <-].
  rewrite app_length. destruct (Nat.leb_spec (ip + length bs) (length x + length r)); [|lia]. f_equal.
  rewrite firstn_app, skipn_app. replace (ip - length x)%nat with O by lia. replace (ip + length bs - length x)%nat with O by lia.
  cbn [firstn skipn]. rewrite app_nil_r, <- !app_assoc. reflexivity.
Qed.
Lemma put_at_end bs x r : (length bs <= length r)%nat -> put_at (length x) bs (x ++ r) = Ok ((x ++ bs) ++ skipn (length bs) r).
Proof.
  intros H. unfold put_at, blit. rewrite app_length. destruct (Nat.leb_spec (length x + length bs) (length x + length r)); [|lia]. f_equal.
  rewrite firstn_app, firstn_all, Nat.sub_diag. cbn [firstn]. rewrite app_nil_r, <- app_assoc. f_equal. f_equal.
  rewrite skipn_app, skipn_all2 by lia. cbn [app]. f_equal. lia.
Qed.
Lemma put_at_out ip bs m : (length m < ip + length bs)%nat -> put_at ip bs m = UB.
Proof. intros H. unfold put_at, blit. destruct (Nat.leb_spec (ip + length bs) (length m)); [lia|reflexivity]. Qed.
Lemma put_at_len ip bs x y : put_at ip bs x = Ok y -> length y = length x.
Proof. unfold put_at. destruct (blit ip bs x) as [c|] eqn:E; [|discriminate]. intros [= <-]. exact (blit_length _ _ _ _ _ E). Qed.
Lemma upd_app_l A (y : A) r : forall x i, (i < length x)%nat -> upd i y (x ++ r) = upd i y x ++ r.
Proof. induction x as [|a x IH]; intros i H; cbn in H; [lia|]. destruct i; cbn; [reflexivity|]. now rewrite IH by lia. Qed.
Lemma get_at_app n ip x r v : get_at n ip x = Some v -> get_at n ip (x ++ r) = Some v.
Proof.
  unfold get_at. destruct (Nat.eqb_spec (length (firstn n (skipn ip x))) n) as [E|E]; [|discriminate]. intros [= <-].
  assert (firstn n (skipn ip (x ++ r)) = firstn n (skipn ip x)) as ->.
  { rewrite skipn_app, firstn_app. rewrite firstn_length in E. replace (n - length (skipn ip x))%nat with O by lia. cbn [firstn]. apply app_nil_r. }
  now rewrite E, Nat.eqb_refl.
Qed.
Lemma patch_loop_app w f t stop r : forall fuel ip x y, patch_loop_ w fuel ip stop f t x = Ok y -> patch_loop_ w fuel ip stop f t (x ++ r) = Ok (y ++ r).
Proof.
  induction fuel as [|fuel IH]; intros ip x y.
  - cbn [patch_loop_]. destruct (Nat.ltb ip stop); [discriminate|]. now intros [= <-].
  - cbn [patch_loop_]. destruct (Nat.ltb ip stop); [|now intros [= <-]].
    destruct (nth_error x ip) as [b|] eqn:N; [|discriminate].
    rewrite nth_error_app1 by (apply nth_error_Some; congruence). rewrite N.
    destruct (byte_op b =? op_code KForward).
    + destruct (get_at (obytes w) (S ip) x) as [v|] eqn:G; [|discriminate]. rewrite (get_at_app _ _ _ r G).
      destruct (v mod 256 =? fwd_code f).
      * destruct (put_at (S ip) (le_bytes (obytes w) t) x) as [x1| |] eqn:P; cbn; try discriminate.
        rewrite (put_at_app _ _ _ r P). cbn. intros H. apply IH in H. rewrite <- H. f_equal. apply upd_app_l.
        rewrite (put_at_len _ _ _ P). apply nth_error_Some. congruence.
      * cbn. apply IH.
    + cbn. apply IH.
Qed.

Section Buf.
Variable w : width.
Variable i8 : float -> Z.
Variable refused : nat -> bool.
Notation ext := (b_extend refused).

(** ** With memory *)
(** an operation keeps up with the list of bytes *)
Definition keeps_up (f : buf -> outcome buf) (g : cbuf -> cbuf) : Prop :=
  forall b c, granted refused b -> holds b c -> exists b', f b = Ok b' /\ holds b' (g c) /\ (b_asked b <= b_asked b')%nat.
Lemma keeps_seq f g f' g' : keeps_up f g -> keeps_up f' g' -> keeps_up (fun b => let! b := f b in f' b) (fun c => g' (g c)).
Proof.
  intros H H' b c G Hb. destruct (H b c G Hb) as (b1 & E1 & H1 & A1).
  destruct (H' b1 (g c)) as (b2 & E2 & H2 & A2); auto. { intros n Hn. apply G. lia. }
  exists b2. rewrite E1. cbn. split; [exact E2|split; [exact H2|lia]].
Qed.
Lemma ext_keeps bs : (length bs <= 32)%nat -> keeps_up (ext bs) (extend bs).
Proof.
  intros L b c G ((r & M) & Z' & P1 & P2). unfold b_extend, b_alloc, extend, set_buf. rewrite M, Z', app_length.
  destruct (Nat.ltb_spec (length (c_buf c) + length r) (length (c_buf c) + length bs)) as [H|H].
  - rewrite (G (b_asked b)) by lia. rewrite take_some by (rewrite app_length; lia). rewrite firstn_app, firstn_all, Nat.sub_diag. cbn [firstn]. rewrite app_nil_r.
    assert (length (repeat 0%Z (length (c_buf c) + length r + COMPILE_INC)) = length (c_buf c) + length r + 32)%nat as RL by (rewrite repeat_length; reflexivity).
    set (z := repeat 0 (length (c_buf c) + length r + COMPILE_INC)) in *.
    pose proof (@put_at_end (c_buf c) [] z) as Hp. cbn [length app] in Hp. rewrite Hp by lia. cbn [obind].
    rewrite put_at_end by (rewrite skipn_length; lia). cbn [obind].
    eexists. split; [reflexivity|]. cbn. split; [|lia]. split; [eexists; reflexivity|]. cbn. rewrite app_length. auto.
  - rewrite put_at_end by lia. cbn. eexists. split; [reflexivity|]. cbn. split; [|lia]. split; [eexists; reflexivity|]. cbn. rewrite app_length. auto.
Qed.
Lemma op_keeps o : keeps_up (b_add_op refused o) (add_op o).
Proof.
  intros b c G ((r & M) & Z' & P1 & P2). unfold b_add_op.
  destruct (@ext_keeps [op_code o]) with (b := {| b_mem := b_mem b; b_size := b_size b; b_prev := b_size b; b_pprev := b_prev b; b_asked := b_asked b |})
    (c := {| c_buf := c_buf c; c_prev := c_size c; c_pprev := c_prev c |}) as (b' & E & H & A).
  - cbn. lia.
  - intros n Hn. apply G. exact Hn.
  - split; [eexists; exact M|]. cbn. auto.
  - exists b'. auto.
Qed.
Lemma off_keeps o v : keeps_up (b_add_off w refused o v) (add_off w o v).
Proof. apply (keeps_seq (op_keeps o)). apply ext_keeps. rewrite le_bytes_length. pose proof (obytes_small w). lia. Qed.
Lemma u8_keeps o v : keeps_up (b_add_u8 refused o v) (add_u8 o v).
Proof. apply (keeps_seq (op_keeps o)). apply ext_keeps. cbn. lia. Qed.
Lemma number_keeps f : keeps_up (b_add_number i8 refused f) (add_number i8 f).
Proof.
  unfold b_add_number, add_number. destruct (feq (f_of_Z (i8 f)) f); [apply u8_keeps|].
  apply (keeps_seq (op_keeps KNum)). apply ext_keeps. cbn. lia.
Qed.
Lemma step_keeps o v d id : keeps_up (b_add_step w refused o v d id) (add_step w o v d id).
Proof.
  assert (length (le_bytes (obytes w) id) <= 32)%nat as L by (rewrite le_bytes_length; pose proof (obytes_small w); lia).
  assert (length [(d mod 256)%Z] <= 32)%nat as L1 by (cbn; lia).
  exact (keeps_seq (off_keeps o v) (keeps_seq (ext_keeps _ L1) (ext_keeps _ L))).
Qed.
Lemma string_keeps l : keeps_up (b_add_string w refused l) (add_string w l).
Proof.
  intros b c G H. destruct (off_keeps KString 0 G H) as (b1 & E & ((r & M) & Z' & P1 & P2) & A). unfold b_add_string. rewrite E. cbn [obind].
  unfold add_string. unfold add_off, add_op, add_byte, extend, set_buf in *. cbn [c_buf c_prev c_pprev] in *.
  rewrite M, P1.
  assert (put_at (c_size c + 1) (le_bytes (obytes w) (Z.of_nat l)) ((c_buf c ++ [op_code KString]) ++ (le_bytes (obytes w) 0 ++ r)) = Ok (((c_buf c ++ [op_code KString]) ++ le_bytes (obytes w) (Z.of_nat l)) ++ r)) as Hp.
  { replace (c_size c + 1)%nat with (length (c_buf c ++ [op_code KString])) by (rewrite app_length; reflexivity). rewrite put_at_end by (rewrite app_length, !le_bytes_length; lia).
    f_equal. f_equal. rewrite skipn_app, skipn_all2 by (rewrite !le_bytes_length; lia). rewrite !le_bytes_length, Nat.sub_diag. reflexivity. }
  rewrite app_assoc in Hp. rewrite Hp. cbn. eexists. split; [reflexivity|]. split; [|exact A].
  split; [eexists; reflexivity|]. cbn. rewrite Z', P1, P2. rewrite !app_length, !le_bytes_length. auto.
Qed.

Lemma call_keeps cl b c c' : granted refused b -> holds b c -> c_call w i8 cl c = Ok c' ->
  exists b', b_call w i8 refused cl b = Ok b' /\ holds b' c' /\ (b_asked b <= b_asked b')%nat.
Proof.
  intros G H E. destruct cl; cbn [c_call b_call] in *; try (injection E as <-).
  - exact (op_keeps o G H).
  - exact (off_keeps o v G H).
  - exact (u8_keeps o v G H).
  - exact (number_keeps f G H).
  - exact (string_keeps l G H).
  - exact (off_keeps KForward _ G H).
  - exact (keeps_seq (step_keeps KRangeStart (nactual mod 256) depth id) (step_keeps KRangeStep 0 depth id) G H).
  - exact (keeps_seq (off_keeps KAssign (for_tmp w depth 0)) (keeps_seq (number_keeps f_zero) (keeps_seq (off_keeps KAssign (for_tmp w depth 1)) (step_keeps KInStep 0 depth id))) G H).
  - destruct H as ((r & M) & Z' & P1 & P2). destruct (Nat.leb_spec (c_prev c) (c_size c)) as [L|]; [|discriminate]. injection E as <-.
    eexists. split; [reflexivity|]. split; [|cbn; lia]. unfold b_delete_prev, delete_prev, holds. cbn. split; [|split; [|auto]].
    + rewrite M. exists (skipn (c_prev c) (c_buf c) ++ r). rewrite app_assoc, firstn_skipn. reflexivity.
    + rewrite firstn_length. unfold c_size in L. lia.
  - destruct H as ((r & M) & Z' & P1 & P2). unfold set_push, b_set_push in *. destruct (nth_error (c_buf c) off) as [x|] eqn:N; [|discriminate]. injection E as <-.
    assert (off < length (c_buf c))%nat as L by (apply nth_error_Some; congruence).
    rewrite M, nth_error_app1 by exact L. rewrite N. eexists. split; [reflexivity|]. split; [|cbn; lia]. split; [|split; [|cbn; auto]]; cbn.
    + rewrite upd_app_l by exact L. eexists; reflexivity.
    + rewrite upd_length. exact Z'.
  - destruct H as ((r & M) & Z' & P1 & P2). unfold patch_branch, b_patch_branch in *. destruct (put_at _ _ (c_buf c)) as [m| |] eqn:P; cbn in E; try discriminate. injection E as <-.
    rewrite M, (put_at_app _ _ _ r P). cbn. eexists. split; [reflexivity|]. split; [|cbn; lia]. split; [|split; [|cbn; auto]]; cbn.
    + eexists; reflexivity.
    + rewrite (put_at_len _ _ _ P). exact Z'.
  - destruct H as ((r & M) & Z' & P1 & P2). unfold patch_forward, b_patch_forward in *. destruct (patch_loop_ w _ _ _ _ _ (c_buf c)) as [m| |] eqn:P; cbn [obind] in E; try discriminate. injection E as <-.
    rewrite M, (@patch_loop_app w f target stop r _ _ _ _ P). cbn. eexists. split; [reflexivity|]. split; [|cbn; lia]. split; [|split; [|cbn; auto]]; cbn.
    + eexists; reflexivity.
    + rewrite Z'. clear -P. symmetry. revert P. generalize (S stop) as fuel. intros fuel. generalize (c_buf c) as x. revert start m.
      induction fuel as [|fuel IH]; intros ip m x; cbn [patch_loop_].
      * destruct (Nat.ltb ip stop); [discriminate|]. now intros [= <-].
      * destruct (Nat.ltb ip stop); [|now intros [= <-]]. destruct (nth_error x ip) as [b|] eqn:N; [|discriminate].
        destruct (byte_op b =? op_code KForward); [|cbn; apply IH].
        destruct (get_at (obytes w) (S ip) x) as [v|]; [|discriminate]. destruct (v mod 256 =? fwd_code f); [|cbn; apply IH].
        destruct (put_at (S ip) (le_bytes (obytes w) target) x) as [x1| |] eqn:P; cbn; try discriminate.
        intros H. apply IH in H. rewrite H, upd_length. exact (put_at_len _ _ _ P).
  - eexists. split; [reflexivity|]. destruct H as ((r & M) & Z' & P1 & P2). unfold holds. cbn. split; [|lia]. split; [exists []; reflexivity|auto].
Qed.
Theorem calls_keep : forall cs b c c', granted refused b -> holds b c -> c_calls w i8 cs c = Ok c' ->
  exists b', b_calls w i8 refused cs b = Ok b' /\ holds b' c' /\ b_code b' = Some (c_buf c').
Proof.
  induction cs as [|cl cs IH]; intros b c c' G H E; cbn [c_calls b_calls] in *.
  - injection E as <-. exists b. split; [reflexivity|split; [exact H|]]. destruct H as ((r & M) & Z' & _). unfold b_code. rewrite M, Z'. rewrite take_some by (rewrite app_length; lia).
    rewrite firstn_app, firstn_all, Nat.sub_diag. cbn. now rewrite app_nil_r.
  - destruct (c_call w i8 cl c) as [c1| |] eqn:E1; cbn in E; try discriminate. destruct (call_keeps _ G H E1) as (b1 & -> & H1 & A). cbn. apply (IH b1 c1); auto. intros n Hn. apply G. lia.
Qed.

(** ** Without memory *)
(** what an appending step does whether memory is granted or not *)
Definition stays_in (f : buf -> outcome buf) : Prop :=
  forall b, (b_size b <= b_alloc b)%nat -> exists b' r, f b = Ok b' /\ (b_size b' <= b_alloc b')%nat /\
    (b_size b <= b_size b')%nat /\ firstn (b_size b') (b_mem b') = firstn (b_size b) (b_mem b) ++ r.
Lemma stays_seq f f' : stays_in f -> stays_in f' -> stays_in (fun b => let! b := f b in f' b).
Proof.
  intros H H' b L. destruct (H b L) as (b1 & r1 & E1 & L1 & S1 & F1). destruct (H' b1 L1) as (b2 & r2 & E2 & L2 & S2 & F2).
  exists b2, (r1 ++ r2). rewrite E1. cbn. split; [exact E2|]. split; [exact L2|]. split; [lia|]. now rewrite F2, F1, app_assoc.
Qed.
Lemma ext_stays bs : (length bs <= 32)%nat -> stays_in (ext bs).
Proof.
  intros L b H. unfold b_extend, b_alloc in *. set (x := firstn (b_size b) (b_mem b)).
  assert (b_mem b = x ++ skipn (b_size b) (b_mem b)) as M by (symmetry; apply firstn_skipn).
  assert (length x = b_size b) as X by (unfold x; rewrite firstn_length; lia).
  destruct (Nat.ltb_spec (length (b_mem b)) (b_size b + length bs)) as [H1|H1].
  - destruct (refused (b_asked b)).
    + eexists _, []. split; [reflexivity|]. cbn. rewrite app_nil_r. repeat split; auto.
    + rewrite take_some by lia. fold x.
      assert (length (repeat 0%Z (length (b_mem b) + COMPILE_INC)) = length (b_mem b) + 32)%nat as RL by (rewrite repeat_length; reflexivity).
      set (z := repeat 0 (length (b_mem b) + COMPILE_INC)) in *.
      pose proof (@put_at_end x [] z) as Hp. cbn [length app] in Hp. rewrite Hp by lia. cbn [obind]. rewrite <- X.
      rewrite put_at_end by (rewrite skipn_length; lia). cbn [obind].
      eexists _, bs. split; [reflexivity|]. cbn. rewrite !app_length, !skipn_length. split; [lia|]. split; [lia|].
      rewrite <- app_length. rewrite firstn_app, firstn_all, Nat.sub_diag. cbn. now rewrite app_nil_r.
  - assert (length bs <= length (skipn (b_size b) (b_mem b)))%nat as R by (rewrite skipn_length; lia).
    assert (put_at (b_size b) bs (b_mem b) = Ok ((x ++ bs) ++ skipn (length bs) (skipn (b_size b) (b_mem b)))) as ->.
    { pose proof (put_at_end bs x (skipn (b_size b) (b_mem b)) R) as Hp. rewrite <- M, X in Hp. exact Hp. }
    cbn [obind]. eexists _, bs. split; [reflexivity|]. cbn. rewrite !app_length, !skipn_length, !X. split; [lia|]. split; [lia|].
    rewrite <- X, <- app_length. rewrite firstn_app, firstn_all, Nat.sub_diag. cbn. now rewrite app_nil_r.
Qed.
Lemma op_stays o : stays_in (b_add_op refused o).
Proof. intros b H. unfold b_add_op. refine (@ext_stays [op_code o] _ _ _); cbn; [lia|exact H]. Qed.
Lemma off_stays o v : stays_in (b_add_off w refused o v).
Proof. apply (stays_seq (op_stays o)). apply ext_stays. rewrite le_bytes_length. pose proof (obytes_small w). lia. Qed.
Lemma u8_stays o v : stays_in (b_add_u8 refused o v).
Proof. apply (stays_seq (op_stays o)). apply ext_stays. cbn. lia. Qed.
Lemma number_stays f : stays_in (b_add_number i8 refused f).
Proof.
  unfold b_add_number. destruct (feq (f_of_Z (i8 f)) f); [apply u8_stays|].
  apply (stays_seq (op_stays KNum)). apply ext_stays. cbn. lia.
Qed.
Lemma step_stays o v d id : stays_in (b_add_step w refused o v d id).
Proof.
  assert (length (le_bytes (obytes w) id) <= 32)%nat as L by (rewrite le_bytes_length; pose proof (obytes_small w); lia).
  assert (length [(d mod 256)%Z] <= 32)%nat as L1 by (cbn; lia).
  exact (stays_seq (off_stays o v) (stays_seq (ext_stays _ L1) (ext_stays _ L))).
Qed.
Lemma call_stays cl : appends cl = true -> stays_in (b_call w i8 refused cl).
Proof.
  destruct cl; try discriminate; intros _.
  - exact (op_stays o).
  - exact (off_stays o v).
  - exact (u8_stays o v).
  - exact (number_stays f).
  - exact (off_stays KForward _).
  - exact (stays_seq (step_stays KRangeStart (nactual mod 256) depth id) (step_stays KRangeStep 0 depth id)).
  - exact (stays_seq (off_stays KAssign (for_tmp w depth 0)) (stays_seq (number_stays f_zero) (stays_seq (off_stays KAssign (for_tmp w depth 1)) (step_stays KInStep 0 depth id)))).
Qed.
Theorem calls_stay : forall cs, forallb appends cs = true -> stays_in (b_calls w i8 refused cs).
Proof.
  induction cs as [|cl cs IH]; intros H.
  - intros b L. exists b, []. cbn. rewrite app_nil_r. auto.
  - cbn [forallb] in H. apply andb_prop in H as [H1 H2]. exact (stays_seq (call_stays _ H1) (IH H2)).
Qed.

(** adding an instruction with an offset when there is not enough room *)
Lemma off_refused o v b : exhausted refused b -> (b_size b <= b_alloc b)%nat -> (room b < insn_bytes w)%nat ->
  exists b', b_add_off w refused o v b = Ok b' /\ b_prev b' = b_size b /\ length (b_mem b') = length (b_mem b) /\ exhausted refused b' /\
    (b_size b <= b_size b' <= b_alloc b')%nat /\ (room b = O -> b_mem b' = b_mem b).
Proof.
  intros X L R. unfold room, insn_bytes, b_alloc in *. unfold b_add_off, b_add_op, b_extend, b_alloc. cbn [b_mem b_size b_prev b_pprev b_asked length].
  destruct (Nat.ltb_spec (length (b_mem b)) (b_size b + 1)) as [H|H].
  - rewrite (X (b_asked b)) by lia. cbn [obind b_mem b_size b_prev b_pprev b_asked]. rewrite le_bytes_length.
    destruct (Nat.ltb_spec (length (b_mem b)) (b_size b + obytes w)) as [H1|H1]; [|destruct w; cbn [obytes] in H1; lia].
    rewrite (X (S (b_asked b))) by lia. eexists. split; [reflexivity|]. cbn. repeat split; auto. intros n Hn. apply X. cbn in Hn. lia.
  - destruct (put_at (b_size b) [op_code o] (b_mem b)) as [m| |] eqn:P.
    2,3: unfold put_at, blit in P; cbn in P; destruct (Nat.leb_spec (b_size b + 1) (length (b_mem b))); [discriminate|lia].
    cbn [obind b_mem b_size b_prev b_pprev b_asked]. rewrite le_bytes_length, (put_at_len _ _ _ P).
    destruct (Nat.ltb_spec (length (b_mem b)) (b_size b + 1 + obytes w)) as [H1|H1]; [|lia].
    rewrite (X (b_asked b)) by lia. eexists. split; [reflexivity|]. cbn. rewrite (put_at_len _ _ _ P). repeat split; auto; try lia. intros n Hn. apply X. cbn in Hn. lia.
Qed.
Lemma off_fits o v b : (insn_bytes w <= room b)%nat ->
  exists b', b_add_off w refused o v b = Ok b' /\ b_prev b' = b_size b /\ length (b_mem b') = length (b_mem b).
Proof.
  intros R. unfold room, insn_bytes in *. unfold b_add_off, b_add_op, b_extend, b_alloc. cbn [b_mem b_size b_prev b_pprev b_asked length].
  destruct (Nat.ltb_spec (length (b_mem b)) (b_size b + 1)) as [H|H]; [lia|].
  destruct (put_at (b_size b) [op_code o] (b_mem b)) as [m| |] eqn:P.
  2,3: unfold put_at, blit in P; cbn in P; destruct (Nat.leb_spec (b_size b + 1) (length (b_mem b))); [discriminate|lia].
  cbn [obind b_mem b_size b_prev b_pprev b_asked]. rewrite le_bytes_length, (put_at_len _ _ _ P).
  destruct (Nat.ltb_spec (length (b_mem b)) (b_size b + 1 + obytes w)) as [H1|H1]; [lia|].
  destruct (put_at (b_size b + 1) (le_bytes (obytes w) v) m) as [m2| |] eqn:P2.
  2,3: unfold put_at, blit in P2; rewrite le_bytes_length, (put_at_len _ _ _ P) in P2; destruct (Nat.leb_spec (b_size b + 1 + obytes w) (length (b_mem b))); [discriminate|lia].
  cbn. eexists. split; [reflexivity|]. cbn. split; [reflexivity|]. now rewrite (put_at_len _ _ _ P2), (put_at_len _ _ _ P).
Qed.
(** exactly when a string constant is written outside the block *)
Theorem string_outside l b : exhausted refused b -> (b_size b <= b_alloc b)%nat ->
  (b_call w i8 refused (AddStr l) b = UB <-> (room b < insn_bytes w)%nat).
Proof.
  intros X L. cbn [b_call]. unfold b_add_string. split.
  - intros E. destruct (Nat.lt_ge_cases (room b) (insn_bytes w)) as [|H]; [assumption|exfalso].
    destruct (off_fits KString 0 b H) as (b' & E' & P & M). rewrite E' in E. cbn [obind] in E. rewrite P in E. unfold put_at, blit in E.
    rewrite le_bytes_length, M in E. unfold room, insn_bytes in H. destruct (Nat.leb_spec (b_size b + 1 + obytes w) (length (b_mem b))); [discriminate|lia].
  - intros H. destruct (off_refused KString 0 X L H) as (b' & -> & P & M & _). cbn [obind]. rewrite put_at_out; [reflexivity|].
    rewrite P, M, le_bytes_length. unfold room, insn_bytes, b_alloc in *. lia.
Qed.
Theorem branch_outside o v t b : exhausted refused b -> (b_size b <= b_alloc b)%nat -> (room b < insn_bytes w)%nat ->
  b_calls w i8 refused [AddOff o v; PatchBranch (b_size b) t] b = UB.
Proof.
  intros X L R. cbn [b_calls b_call]. destruct (off_refused o v X L R) as (b' & -> & P & M & _). cbn [obind]. unfold b_patch_branch.
  rewrite put_at_out; [reflexivity|]. rewrite M, le_bytes_length. unfold room, insn_bytes, b_alloc in *. lia.
Qed.
Theorem push_outside o v b : exhausted refused b -> b_size b = b_alloc b ->
  exists b', b_call w i8 refused (AddOff o v) b = Ok b' /\ b_call w i8 refused (SetPush (b_prev b')) b' = UB.
Proof.
  intros X L. destruct (@off_refused o v b X) as (b' & E & P & M & _ & _); [lia|unfold room, insn_bytes, b_alloc in *; lia|].
  exists b'. split; [exact E|]. cbn [b_call]. unfold b_set_push. rewrite P.
  destruct (nth_error (b_mem b') (b_size b)) eqn:N; [|reflexivity]. exfalso.
  assert (b_size b < length (b_mem b'))%nat as H by (apply nth_error_Some; congruence). rewrite M in H. unfold b_alloc in L. lia.
Qed.
End Buf.
