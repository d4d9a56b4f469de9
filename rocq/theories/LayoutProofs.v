(** Encoded instructions and the walks over them. *)
From Coq Require Import ZArith Bool List Lia.
From Verif Require Import Base FloatModel PolyModel ValueModel MathModel MachModel BinModel CodeModel CompModel FrameModel ExecModel LayoutSpec.
Import ListNotations.
Local Open Scope Z_scope.
Notation Sn := Datatypes.S.

(** * Bytes and opcodes *)
Lemma le_bytes_length : forall n v, length (le_bytes n v) = n.
Proof. induction n as [|n IH]; intros v; cbn; [reflexivity | rewrite IH; reflexivity]. Qed.
Lemma le_val_bytes : forall n v, 0 <= v < 256 ^ Z.of_nat n -> le_val (le_bytes n v) = v.
Proof.
  induction n as [|n IH]; intros v H; cbn [le_bytes le_val].
  - cbn in H. lia.
  - rewrite IH.
    + pose proof (Z.div_mod v 256). lia.
    + rewrite Nat2Z.inj_succ, Z.pow_succ_r in H by lia. split; [apply Z.div_pos; lia|].
      apply Z.div_lt_upper_bound; lia.
Qed.
Lemma le_bytes_range : forall n v, Forall (fun b => 0 <= b < 256) (le_bytes n v).
Proof. induction n as [|n IH]; intros v; cbn; constructor; [apply Z.mod_pos_bound; lia | apply IH]. Qed.

Lemma op_code_range : forall o, 0 <= op_code o < 69.
Proof. intros []; repeat match goal with x : bop |- _ => destruct x | x : numop |- _ => destruct x | x : cmpop |- _ => destruct x | x : lkind |- _ => destruct x end; cbn; lia. Qed.
Lemma op_of_code : forall o, op_of (op_code o) = Some o.
Proof. intros []; repeat match goal with x : bop |- _ => destruct x | x : numop |- _ => destruct x | x : cmpop |- _ => destruct x | x : lkind |- _ => destruct x end; reflexivity. Qed.
Lemma byte_op_byte : forall o p, byte_op (op_byte o p) = op_code o.
Proof.
  intros o p. unfold byte_op, op_byte. pose proof (op_code_range o).
  destruct p; [|rewrite Z.add_0_r; apply Z.mod_small; lia].
  replace (op_code o + 128) with (op_code o + 1 * 128) by lia. rewrite Z.mod_add by lia. apply Z.mod_small; lia.
Qed.
Lemma byte_push_byte : forall o p, byte_push (op_byte o p) = p.
Proof.
  intros o p. unfold byte_push, op_byte. pose proof (op_code_range o).
  rewrite Z.mod_small by (destruct p; lia). destruct p; [apply Z.leb_le | apply Z.leb_gt]; lia.
Qed.

Section Layout.
Variable w : width.
Notation enc := (enc w).
Notation encs := (encs w).
Notation size := (size w).

Lemma encs_app : forall a b, encs (a ++ b) = encs a ++ encs b.
Proof. intros a b. unfold LayoutSpec.encs. rewrite map_app, concat_app. reflexivity. Qed.
Lemma encs_cons : forall i l, encs (i :: l) = enc i ++ encs l.
Proof. reflexivity. Qed.
Lemma encs_one : forall i, encs [i] = enc i.
Proof. intros i. unfold LayoutSpec.encs. cbn [map concat]. apply app_nil_r. Qed.
Lemma size_app : forall a b, size (a ++ b) = (size a + size b)%nat.
Proof. intros a b. unfold LayoutSpec.size. rewrite encs_app, app_length. reflexivity. Qed.
Lemma size_cons : forall i l, size (i :: l) = (length (enc i) + size l)%nat.
Proof. intros i l. unfold LayoutSpec.size. rewrite encs_cons, app_length. reflexivity. Qed.
Lemma size_nil : size [] = O.
Proof. reflexivity. Qed.
Lemma size_io : forall o p v, length (enc (io o p v)) = osize w.
Proof. intros. unfold io, LayoutSpec.enc. cbn. rewrite le_bytes_length. reflexivity. Qed.
Lemma size_i0 : forall o p, length (enc (i0 o p)) = 1%nat.
Proof. reflexivity. Qed.
Lemma size_step : forall o p v d id, length (enc (I o p (AStep v d id))) = (obytes w + obytes w + 2)%nat.
Proof. intros. unfold LayoutSpec.enc. cbn. rewrite app_length. cbn. rewrite !le_bytes_length. lia. Qed.
Lemma size_set_push : forall o p p' a, length (enc (I o p a)) = length (enc (I o p' a)).
Proof. reflexivity. Qed.
Lemma enc_pos : forall i, (0 < length (enc i))%nat.
Proof. intros. cbn. lia. Qed.
Lemma size_zero : forall l, size l = O -> l = [].
Proof. intros [|i l] H; [reflexivity|]. rewrite size_cons in H. pose proof (enc_pos i). lia. Qed.

(** * Reading from the middle of code *)
Lemma nth_mid : forall (p : list Z) x q, nth_error (p ++ x :: q) (length p) = Some x.
Proof. intros. rewrite nth_error_app2, Nat.sub_diag by lia. reflexivity. Qed.
Lemma nth_enc : forall pre i post, nth_error (encs pre ++ enc i ++ post) (size pre) = Some (op_byte (i_op i) (i_push i)).
Proof. intros. unfold LayoutSpec.size. cbn [LayoutSpec.enc app]. apply nth_mid. Qed.
Lemma get_mid : forall n p bs q, length bs = n -> get_at n (length p) (p ++ bs ++ q) = Some (le_val bs).
Proof.
  intros n p bs q <-. unfold get_at. rewrite skipn_app, skipn_all, Nat.sub_diag. cbn [app skipn].
  rewrite firstn_app, firstn_all, Nat.sub_diag. cbn [firstn]. rewrite app_nil_r, Nat.eqb_refl. reflexivity.
Qed.
Lemma put_mid : forall p bs bs' q, length bs = length bs' -> put_at (length p) bs' (p ++ bs ++ q) = Ok (p ++ bs' ++ q).
Proof.
  intros p bs bs' q H. unfold put_at, blit. rewrite !app_length.
  replace (Nat.leb _ _) with true by (symmetry; apply Nat.leb_le; lia).
  rewrite firstn_app, firstn_all, Nat.sub_diag. cbn [firstn]. rewrite app_nil_r.
  rewrite <- H, <- app_length, !app_assoc. rewrite (skipn_app _ (p ++ bs)), skipn_all, Nat.sub_diag. cbn [skipn app]. reflexivity.
Qed.
Lemma upd_mid : forall {A} (p : list A) x y q, upd (length p) y (p ++ x :: q) = p ++ y :: q.
Proof. intros A p. induction p as [|z p IH]; intros x y q; cbn; [reflexivity | rewrite IH; reflexivity]. Qed.

(** * The walk *)
Definition walkable (i : instr) : Prop :=
  length (arg_bytes w (i_arg i)) = operand_size w (op_code (i_op i)) \/
  exists n, i_op i = KMake KDict /\ i_arg i = AOff n /\ dict_ok w n.
Definition plain (i : instr) : Prop := length (arg_bytes w (i_arg i)) = operand_size w (op_code (i_op i)).

Lemma walk_encs : forall l pre fuel, Forall plain l -> (length l < fuel)%nat ->
  walk w fuel (length pre) (pre ++ encs l) = starts w (length pre) l.
Proof.
  induction l as [|i l IH]; intros pre fuel H Hf; (destruct fuel as [|fuel]; [cbn in Hf; lia|]).
  - cbn. rewrite app_nil_r. replace (nth_error pre (length pre)) with (@None Z); [reflexivity|].
    symmetry. apply nth_error_None. lia.
  - inversion H as [|? ? P Hl]; subst. cbn [walk starts].
    rewrite encs_cons. cbn [LayoutSpec.enc app]. rewrite nth_mid, byte_op_byte. f_equal.
    cbn in Hf. rewrite <- P. rewrite <- app_length, <- (IH (pre ++ enc i) fuel Hl) by lia.
    rewrite !app_length. cbn [LayoutSpec.enc length app].
    rewrite <- app_assoc. cbn [app]. f_equal; lia.
Qed.

(** ** Patching *)
Definition patch1 (f : fwd) (t : Z) (i : instr) : instr :=
  match i_op i, i_arg i with
  | KForward, AOff v =>
      if v mod 256 =? fwd_code f
      then match op_of (v / 256) with Some o => I o (i_push i) (AOff t) | None => i end
      else i
  | _, _ => i
  end.
(** a pending branch says what it will be *)
Definition pending_ok (i : instr) : Prop :=
  i_op i = KForward -> exists f o, i_arg i = AOff (fwd_code f + 256 * op_code o).

Lemma patch_bytes : forall bs p q fuel stop f t, Forall (harmless w) bs -> (length p + length bs <= stop)%nat ->
  (length bs <= fuel)%nat ->
  patch_loop_ w fuel (length p) stop f t (p ++ bs ++ q) =
  patch_loop_ w (fuel - length bs) (length p + length bs) stop f t (p ++ bs ++ q).
Proof.
  induction bs as [|b bs IH]; intros p q fuel stop f t H Hs Hf.
  - cbn. rewrite Nat.add_0_r, Nat.sub_0_r. reflexivity.
  - inversion H as [|? ? [Hz Hn] Hbs]; subst. cbn [length] in *. destruct fuel as [|fuel]; [lia|].
    cbn [patch_loop_]. replace (Nat.ltb (length p) stop) with true by (symmetry; apply Nat.ltb_lt; lia).
    rewrite <- app_comm_cons, nth_mid, Hz. apply Z.eqb_neq in Hn. rewrite Hn. cbn [obind].
    specialize (IH (p ++ [b]) q fuel stop f t Hbs). rewrite app_length in IH. cbn [length] in IH.
    rewrite <- app_assoc in IH. cbn [app] in IH. rewrite Nat.add_0_r.
    replace (Sn (length p)) with (length p + 1)%nat by lia. rewrite IH by lia.
    replace (Sn fuel - Sn (length bs))%nat with (fuel - length bs)%nat by lia.
    f_equal. lia.
Qed.

Lemma enc_patch1 : forall f t i, length (enc (patch1 f t i)) = length (enc i).
Proof.
  intros f t [o p a]. unfold patch1; cbn [i_op i_arg i_push].
  destruct o; try reflexivity. destruct a; try reflexivity. destruct (_ =? _); [|reflexivity].
  destruct (op_of _); [|reflexivity]. cbn. rewrite !le_bytes_length. reflexivity.
Qed.
Lemma size_patch1 : forall f t l, size (map (patch1 f t) l) = size l.
Proof. intros f t l. induction l as [|i l IH]; [reflexivity|]. cbn [map]. rewrite !size_cons, enc_patch1, IH. reflexivity. Qed.

Lemma fwd_code_range : forall f, 0 <= fwd_code f < 4.
Proof. intros []; cbn; lia. Qed.
Lemma pending_range : forall f o, 0 <= fwd_code f + 256 * op_code o < 256 ^ Z.of_nat (obytes w).
Proof.
  intros f o. pose proof (fwd_code_range f). pose proof (op_code_range o).
  assert (256 ^ 2 <= 256 ^ Z.of_nat (obytes w)) by (apply Z.pow_le_mono_r; destruct w; cbn; lia). lia.
Qed.
Lemma pending_mod : forall f o, (fwd_code f + 256 * op_code o) mod 256 = fwd_code f.
Proof.
  intros f o. replace (fwd_code f + 256 * op_code o) with (fwd_code f + op_code o * 256) by lia.
  rewrite Z.mod_add by lia. pose proof (fwd_code_range f). apply Z.mod_small. lia.
Qed.
Lemma pending_div : forall f o, (fwd_code f + 256 * op_code o) / 256 = op_code o.
Proof.
  intros f o. replace (fwd_code f + 256 * op_code o) with (fwd_code f + op_code o * 256) by lia.
  pose proof (fwd_code_range f). rewrite Z.div_add, Z.div_small by lia. lia.
Qed.
Lemma patched_byte : forall o (p : bool), Z.lor (op_code o) (if p then 128 else 0) mod 256 = op_byte o p.
Proof.
  intros [] []; repeat match goal with x : bop |- _ => destruct x | x : numop |- _ => destruct x | x : cmpop |- _ => destruct x | x : lkind |- _ => destruct x end; reflexivity.
Qed.

Lemma patch_encs : forall l pre post fuel f t, Forall walkable l -> Forall pending_ok l -> (size l < fuel)%nat ->
  patch_loop_ w fuel (length pre) (length pre + size l) f t (pre ++ encs l ++ post) =
  Ok (pre ++ encs (map (patch1 f t) l) ++ post).
Proof.
  induction l as [|i l IH]; intros pre post fuel f t Hw Hp Hf; (destruct fuel as [|fuel]; [lia|]).
  - cbn [patch_loop_]. rewrite size_nil, Nat.add_0_r, Nat.ltb_irrefl. reflexivity.
  - inversion Hw as [|? ? W Hwl]; subst. inversion Hp as [|? ? P Hpl]; subst.
    rewrite size_cons in *. pose proof (enc_pos i).
    cbn [map]. rewrite !encs_cons, <- !app_assoc.
    assert (Next : forall fuel', (size l < fuel')%nat ->
      patch_loop_ w fuel' (length pre + length (enc i)) (length pre + (length (enc i) + size l)) f t
        (pre ++ enc (patch1 f t i) ++ encs l ++ post) =
      Ok (pre ++ enc (patch1 f t i) ++ encs (map (patch1 f t) l) ++ post)).
    { intros fuel' Hf'. specialize (IH (pre ++ enc (patch1 f t i)) post fuel' f t Hwl Hpl Hf').
      rewrite app_length, enc_patch1 in IH. rewrite <- !app_assoc in IH. rewrite Nat.add_assoc. exact IH. }
    assert (Same : patch1 f t i = i ->
      (forall v, i_arg i = AOff v -> i_op i = KForward -> v mod 256 =? fwd_code f = false) ->
      patch_loop_ w (Sn fuel) (length pre) (length pre + (length (enc i) + size l)) f t (pre ++ enc i ++ encs l ++ post) =
      Ok (pre ++ enc (patch1 f t i) ++ encs (map (patch1 f t) l) ++ post)).
    { intros E Hn. cbn [patch_loop_].
      replace (Nat.ltb _ _) with true by (symmetry; apply Nat.ltb_lt; lia).
      cbn [LayoutSpec.enc app]. rewrite nth_mid, byte_op_byte.
      assert (Q : (if op_code (i_op i) =? op_code KForward
         then match get_at (obytes w) (Sn (length pre)) (pre ++ op_byte (i_op i) (i_push i) :: arg_bytes w (i_arg i) ++ encs l ++ post) with
              | Some v => if v mod 256 =? fwd_code f
                          then obind (put_at (Sn (length pre)) (le_bytes (obytes w) t) (pre ++ op_byte (i_op i) (i_push i) :: arg_bytes w (i_arg i) ++ encs l ++ post))
                                 (fun buf => Ok (upd (length pre) (Z.lor (v / 256) (if byte_push (op_byte (i_op i) (i_push i)) then 128 else 0) mod 256) buf))
                          else Ok (pre ++ op_byte (i_op i) (i_push i) :: arg_bytes w (i_arg i) ++ encs l ++ post)
              | None => UB
              end
         else Ok (pre ++ op_byte (i_op i) (i_push i) :: arg_bytes w (i_arg i) ++ encs l ++ post)) =
         Ok (pre ++ op_byte (i_op i) (i_push i) :: arg_bytes w (i_arg i) ++ encs l ++ post)).
      { destruct (op_code (i_op i) =? op_code KForward) eqn:K; [|reflexivity].
        assert (Kf : i_op i = KForward).
        { apply Z.eqb_eq in K. pose proof (op_of_code (i_op i)) as Q. rewrite K, op_of_code in Q. injection Q as ->. reflexivity. }
        destruct (P Kf) as (f' & o & Ea). pose proof (Hn _ Ea Kf) as Hm. rewrite Ea. cbn [arg_bytes].
        replace (pre ++ op_byte (i_op i) (i_push i) :: le_bytes (obytes w) (fwd_code f' + 256 * op_code o) ++ encs l ++ post)
          with ((pre ++ [op_byte (i_op i) (i_push i)]) ++ le_bytes (obytes w) (fwd_code f' + 256 * op_code o) ++ encs l ++ post)
          by (rewrite <- app_assoc; reflexivity).
        replace (Sn (length pre)) with (length (pre ++ [op_byte (i_op i) (i_push i)])) by (rewrite app_length; cbn; lia).
        rewrite get_mid by apply le_bytes_length.
        rewrite le_val_bytes by apply pending_range. rewrite Hm. reflexivity. }
      rewrite Q. cbn [obind]. clear Q.
      destruct W as [W | (n & Ko & Ka & Hd)].
      - rewrite <- W. replace (Sn (length pre) + length (arg_bytes w (i_arg i)))%nat with (length pre + length (enc i))%nat
          by (cbn; lia).
        rewrite E in Next |- *. cbn [LayoutSpec.enc app length] in Next, Hf |- *. apply Next. lia.
      - rewrite Ko. change (operand_size w (op_code (KMake KDict))) with O. rewrite Nat.add_0_r.
        rewrite E in Next |- *. cbn [LayoutSpec.enc app length] in Next, Hf |- *.
        rewrite Ka in *. cbn [arg_bytes] in *. rewrite le_bytes_length in *.
        pose proof (patch_bytes (le_bytes (obytes w) n) (pre ++ [op_byte (i_op i) (i_push i)]) (encs l ++ post) fuel
                      (length pre + (Sn (obytes w) + size l)) f t Hd) as B.
        rewrite app_length, le_bytes_length in B. cbn [length] in B.
        rewrite <- app_assoc in B. cbn [app] in B.
        rewrite <- Ko. replace (Sn (length pre)) with (length pre + 1)%nat by lia.
        rewrite B by lia. rewrite <- (Next (fuel - obytes w)%nat) by lia. f_equal; lia. }
    destruct (op_code (i_op i) =? op_code KForward) eqn:K.
    + assert (Kf : i_op i = KForward).
      { apply Z.eqb_eq in K. pose proof (op_of_code (i_op i)) as Q. rewrite K, op_of_code in Q. injection Q as ->. reflexivity. }
      destruct (P Kf) as (f' & o & Ea). destruct i as [io ip ia]. cbn [i_op i_push i_arg] in *. subst io ia.
      destruct (fwd_code f' =? fwd_code f) eqn:Ef.
      * clear Same. assert (E1 : patch1 f t (I KForward ip (AOff (fwd_code f' + 256 * op_code o))) = I o ip (AOff t)).
        { unfold patch1. cbn [i_op i_arg i_push]. rewrite pending_mod, pending_div, op_of_code, Ef. reflexivity. }
        rewrite E1 in *. cbn [patch_loop_].
        replace (Nat.ltb _ _) with true by (symmetry; apply Nat.ltb_lt; lia).
        cbn [LayoutSpec.enc app i_op i_push i_arg arg_bytes]. rewrite nth_mid, byte_op_byte, K, byte_push_byte.
        replace (pre ++ op_byte KForward ip :: le_bytes (obytes w) (fwd_code f' + 256 * op_code o) ++ encs l ++ post)
          with ((pre ++ [op_byte KForward ip]) ++ le_bytes (obytes w) (fwd_code f' + 256 * op_code o) ++ encs l ++ post)
          by (rewrite <- app_assoc; reflexivity).
        replace (Sn (length pre)) with (length (pre ++ [op_byte KForward ip])) by (rewrite app_length; cbn; lia).
        rewrite get_mid by apply le_bytes_length.
        rewrite le_val_bytes by apply pending_range. rewrite pending_mod, Ef.
        rewrite put_mid by (rewrite !le_bytes_length; reflexivity). cbn [obind].
        rewrite pending_div, patched_byte.
        rewrite <- (app_assoc pre [_]). cbn [app]. rewrite upd_mid.
        change (operand_size w (op_code KForward)) with (obytes w).
        cbn [LayoutSpec.enc app length i_op i_push i_arg arg_bytes] in Next, Hf |- *. rewrite !le_bytes_length in *.
        rewrite <- (Next fuel) by lia. rewrite app_length. cbn [length]. f_equal; lia.
      * apply Same.
        -- unfold patch1. cbn [i_op i_arg]. rewrite pending_mod, Ef. reflexivity.
        -- intros v Ev _. assert (v = fwd_code f' + 256 * op_code o) by congruence. subst v. rewrite pending_mod. exact Ef.
    + apply Same.
      * destruct i as [io ip ia]. unfold patch1. cbn [i_op i_arg] in *. destruct io; try reflexivity. discriminate K.
      * intros v _ Kf. rewrite Kf in K. discriminate K.
Qed.
End Layout.
