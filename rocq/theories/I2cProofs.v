(** Transfers on the two-wire bus. *)
From Coq Require Import ZArith Lia List Bool.
From Verif Require Import Base FloatModel MathModel MathSpec MathProofs I2cModel I2cSpec.
Local Open Scope Z_scope.

Lemma byte_ok x b : as_byte x b -> get_byte x = Ok (b, false) /\ 0 <= b < 256.
Proof.
  intros (f & z & -> & I & R & ->). split; [|apply Z.mod_pos_bound; lia]. unfold get_byte, f_to_sint. replace (f_is_finite f) with true by (symmetry; apply I).
  rewrite (trunc_int f z I). unfold sint, in_sint. replace (_ && _) with true; [reflexivity|]. symmetry. apply andb_true_intro. split; [apply Z.leb_le|first [apply Z.leb_le|apply Z.ltb_lt]]; cbn; lia.
Qed.
Lemma lor1 a : Z.even a = true -> Z.lor a 1 = a + 1.
Proof.
  intro E. apply Zeven_bool_iff in E. destruct (Zeven_ex a E) as [k ->].
  assert (L : Z.land (2 * k) 1 = 0) by (change 1 with (Z.ones 1); rewrite Z.land_ones by lia; change (2 ^ 1) with 2; rewrite Z.mul_comm, Z.mod_mul; lia).
  rewrite <- (Z.lxor_lor _ _ L). symmetry. now apply Z.add_nocarry_lxor.
Qed.
Lemma half_odd a : Z.even a = true -> (a + 1) / 2 = a / 2.
Proof. intro E. apply Zeven_bool_iff in E. destruct (Zeven_ex a E) as [k ->]. replace (2 * k) with (k * 2) by lia. rewrite Z.div_add_l, Z.div_mul by lia. change (1 / 2) with 0. lia. Qed.
Lemma even_odd a : Z.even a = true -> Z.odd a = false. Proof. rewrite <- Z.negb_odd. now destruct (Z.odd a). Qed.

(** after a transfer *)
Definition begun (t : twi) : Prop := t_here t = true /\ 16000000 / (16 + 2 * t_rate t) = 400000.
Definition warm (t : twi) : twi := if t_here t then t else Twi true ((16000000 / 400000 - 16) / 2) (t_dr t) (t_mode t) (t_dev t).
Lemma warm_ready t : ready t -> begun (warm t) /\ t_dev (warm t) = t_dev t.
Proof. intros [_ R]. unfold warm, begun. destruct (t_here t) eqn:H; [rewrite H; auto|]. split; [split; reflexivity|reflexivity]. Qed.

Lemma start_eq a t : i2c_start a t = cr false (set_dr a (set_mode Addr (warm t))).
Proof. reflexivity. Qed.

Lemma put_even a r v t : ready t -> Z.even a = true -> forall d, t_dev t (a / 2) = Some d ->
  exists t', put a r v t = Some t' /\ t_mode t' = Idle /\ begun t' /\
    t_dev t' (a / 2) = Some (Dev ((r + 1) mod 256) (fun x => if x =? r then v else d_regs d x)) /\ (forall b, b <> a / 2 -> t_dev t' b = t_dev t b).
Proof.
  intros Rd Ev d D. destruct (warm_ready t Rd) as [Bg Dv]. unfold put. rewrite Z.lor_0_r, start_eq. set (w := warm t) in *. clearbody w. unfold cr at 1. cbn [set_dr set_mode t_mode t_dr t_dev].
  rewrite Dv, D, (even_odd a Ev). cbn [obnd]. unfold i2c_write at 1, cr at 1. cbn [set_dr set_mode t_mode t_dr t_dev]. rewrite Dv, D. cbn [obnd].
  unfold i2c_write, cr. cbn [set_dr set_mode set_dev t_mode t_dr t_dev]. rewrite Z.eqb_refl. cbn [obnd]. eexists. split; [reflexivity|]. split; [reflexivity|]. split; [exact Bg|].
  cbn [i2c_stop set_mode set_dev set_dr t_dev t_dr d_ptr d_regs]. rewrite Z.eqb_refl. split; [reflexivity|]. intros b N. apply Z.eqb_neq in N. rewrite !N. now rewrite Dv.
Qed.
Lemma get_even a r t : ready t -> Z.even a = true -> forall d, t_dev t (a / 2) = Some d ->
  exists t', get a r t = Some (d_regs d r, t') /\ t_mode t' = Idle /\ begun t' /\
    t_dev t' (a / 2) = Some (Dev ((r + 1) mod 256) (d_regs d)) /\ (forall b, b <> a / 2 -> t_dev t' b = t_dev t b).
Proof.
  intros Rd Ev d D. destruct (warm_ready t Rd) as [Bg Dv]. unfold get. rewrite Z.lor_0_r, start_eq. set (w := warm t) in *. clearbody w. unfold cr at 1. cbn [set_dr set_mode t_mode t_dr t_dev].
  rewrite Dv, D, (even_odd a Ev). cbn [obnd]. unfold i2c_write at 1, cr at 1. cbn [set_dr set_mode t_mode t_dr t_dev]. rewrite Dv, D. cbn [obnd].
  rewrite start_eq, lor1 by exact Ev. unfold warm. cbn [set_dr set_mode set_dev t_here]. destruct Bg as [B1 B2]. rewrite B1. unfold cr at 1. cbn [set_dr set_mode set_dev t_mode t_dr t_dev].
  rewrite half_odd, Z.eqb_refl, Z.odd_add, (even_odd a Ev) by exact Ev. cbn [xorb Z.odd obnd].
  unfold read_nak, cr. cbn [set_dr set_mode set_dev t_mode t_dr t_dev]. rewrite Z.eqb_refl. cbn [obnd d_ptr d_regs set_dr set_mode set_dev t_dr]. eexists. split; [reflexivity|]. split; [reflexivity|].
  split; [split; [exact B1|exact B2]|]. cbn [i2c_stop set_mode set_dev set_dr t_dev]. rewrite Z.eqb_refl. split; [reflexivity|]. intros b N. apply Z.eqb_neq in N. rewrite !N. now rewrite Dv.
Qed.
Lemma put_absent a r v t : ready t -> t_dev t (a / 2) = None -> Z.even a = true -> exists t', put a r v t = Some t' /\ t_mode t' = Idle /\ begun t' /\ t_dev t' = t_dev t.
Proof.
  intros Rd D Ev. destruct (warm_ready t Rd) as [Bg Dv]. unfold put. rewrite Z.lor_0_r, start_eq. set (w := warm t) in *. clearbody w. unfold cr at 1. cbn [set_dr set_mode t_mode t_dr t_dev].
  rewrite Dv, D, (even_odd a Ev). cbn [obnd]. unfold i2c_write at 1, cr at 1. cbn [set_dr set_mode t_mode t_dr t_dev obnd]. unfold i2c_write, cr. cbn [set_dr set_mode t_mode t_dr t_dev obnd].
  eexists. split; [reflexivity|]. split; [reflexivity|]. split; [exact Bg|exact Dv].
Qed.
Lemma get_absent a r t : ready t -> t_dev t (a / 2) = None -> Z.even a = true -> exists t', get a r t = Some (255, t') /\ t_mode t' = Idle /\ begun t' /\ t_dev t' = t_dev t.
Proof.
  intros Rd D Ev. destruct (warm_ready t Rd) as [Bg Dv]. unfold get. rewrite Z.lor_0_r, start_eq. set (w := warm t) in *. clearbody w. unfold cr at 1. cbn [set_dr set_mode t_mode t_dr t_dev].
  rewrite Dv, D, (even_odd a Ev). cbn [obnd]. unfold i2c_write at 1, cr at 1. cbn [set_dr set_mode t_mode t_dr t_dev obnd].
  rewrite start_eq, lor1 by exact Ev. unfold warm. cbn [set_dr set_mode t_here]. destruct Bg as [B1 B2]. rewrite B1. unfold cr at 1. cbn [set_dr set_mode t_mode t_dr t_dev].
  rewrite half_odd, Dv, D, Z.odd_add, (even_odd a Ev) by exact Ev. cbn [xorb Z.odd obnd]. unfold read_nak, cr. cbn [set_dr set_mode t_mode t_dr t_dev obnd].
  eexists. split; [reflexivity|]. split; [reflexivity|]. split; [split; [exact B1|exact B2]|exact Dv].
Qed.
(** an odd address reads the device instead of writing to it *)
Lemma put_odd a r v t : ready t -> Z.odd a = true -> exists t', put a r v t = Some t' /\ t_mode t' = Idle /\ forall b, same_regs (regs t' b) (regs t b).
Proof.
  intros Rd Od. destruct (warm_ready t Rd) as [Bg Dv]. unfold put. rewrite Z.lor_0_r, start_eq. set (w := warm t) in *. clearbody w. unfold cr at 1. cbn [set_dr set_mode t_mode t_dr t_dev].
  rewrite Od. destruct (t_dev w (a / 2)) as [d|] eqn:D.
  - cbn [obnd]. unfold i2c_write at 1, cr at 1. cbn [set_dr set_mode t_mode t_dr t_dev]. rewrite D. cbn [obnd].
    unfold i2c_write, cr. cbn [set_dr set_mode set_dev t_mode t_dr t_dev obnd]. eexists. split; [reflexivity|]. split; [reflexivity|].
    intro b. unfold regs. cbn [i2c_stop set_mode set_dev set_dr t_dev]. destruct (Z.eqb_spec b (a / 2)) as [->|N]; [rewrite <- Dv, D; cbn; auto|]. rewrite Dv. destruct (t_dev t b); cbn; auto.
  - cbn [obnd]. unfold i2c_write at 1, cr at 1. cbn [set_dr set_mode t_mode t_dr t_dev obnd]. unfold i2c_write, cr. cbn [set_dr set_mode t_mode t_dr t_dev obnd].
    eexists. split; [reflexivity|]. split; [reflexivity|]. intro b. unfold regs. cbn [i2c_stop set_mode set_dr t_dev]. rewrite Dv. destruct (t_dev t b); cbn; auto.
Qed.
Lemma begun_ready t : begun t -> t_mode t = Idle -> ready t. Proof. intros [A B] M. split; auto. Qed.
