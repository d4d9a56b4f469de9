(** C112: i2c.put and i2c.get (ATmega). *)
From Coq Require Import ZArith Lia List Bool.
From Verif Require Import Base FloatModel MathModel MathSpec MathProofs I2cModel I2cSpec I2cProofs.
Local Open Scope Z_scope.

(** C112: i2c.put sets the register asked for in the device asked for, and nothing
    else in it or in any other device, and leaves the bus free *)
Theorem C112_put_partial : forall addr reg v a r b t g, as_byte addr a -> as_byte reg r -> as_byte v b ->
  Z.even a = true -> ready t -> regs t (a / 2) = Some g ->
  exists t' g', builtin_put addr reg v t = Ok (Done tt t') /\ ready t' /\
    regs t' (a / 2) = Some g' /\ g' r = b /\ (forall x, x <> r -> g' x = g x) /\
    forall c, c <> a / 2 -> same_regs (regs t' c) (regs t c).
Proof.
  intros addr reg v a r b t g A R V Ev Rd G. destruct (byte_ok _ _ A) as [EA _], (byte_ok _ _ R) as [ER _], (byte_ok _ _ V) as [EV _].
  unfold regs in G. destruct (t_dev t (a / 2)) as [d|] eqn:D; [|discriminate]. injection G as <-.
  destruct (put_even a r b t Rd Ev d D) as (t' & E & M & Bg & D' & O). exists t', (fun x => if x =? r then b else d_regs d x).
  unfold builtin_put. rewrite EA. cbn [obind]. rewrite ER. cbn [obind]. rewrite EV. cbn [obind orb]. rewrite E. split; [reflexivity|]. split; [now apply begun_ready|].
  unfold regs. rewrite D'. split; [reflexivity|]. split; [now rewrite Z.eqb_refl|]. split; [intros x N; apply Z.eqb_neq in N; now rewrite N|].
  intros c N. rewrite O by exact N. destruct (t_dev t c); cbn; auto.
Qed.
Print Assumptions C112_put_partial.

(** i2c.get returns the register asked for, and changes no register. *)
Theorem C112_get_partial : forall addr reg a r t g, as_byte addr a -> as_byte reg r -> Z.even a = true -> ready t -> byte_regs t ->
  regs t (a / 2) = Some g ->
  exists t' f, builtin_get addr reg t = Ok (Done f t') /\ is_int f (g r) /\ ready t' /\ forall c, same_regs (regs t' c) (regs t c).
Proof.
  intros addr reg a r t g A R Ev Rd By G. destruct (byte_ok _ _ A) as [EA _], (byte_ok _ _ R) as [ER _]. pose proof (By _ _ r G) as Bg.
  unfold regs in G. destruct (t_dev t (a / 2)) as [d|] eqn:D; [|discriminate]. injection G as <-.
  destruct (get_even a r t Rd Ev d D) as (t' & E & M & Bn & D' & O). exists t', (f_of_Z (d_regs d r)).
  unfold builtin_get. rewrite EA. cbn [obind]. rewrite ER. cbn [obind orb]. rewrite E. split; [reflexivity|]. split; [apply of_Z_int, small_representable; unfold small; lia|]. split; [now apply begun_ready|].
  intro c. unfold regs. destruct (Z.eq_dec c (a / 2)) as [->|N]; [rewrite D', D; cbn; auto|]. rewrite O by exact N. destruct (t_dev t c); cbn; auto.
Qed.
Print Assumptions C112_get_partial.

(** What was put is what is then got. *)
Theorem C112_round_trip_partial : forall addr reg v a r b t g, as_byte addr a -> as_byte reg r -> as_byte v b ->
  Z.even a = true -> ready t -> byte_regs t -> regs t (a / 2) = Some g ->
  exists t1 t2 f, builtin_put addr reg v t = Ok (Done tt t1) /\ builtin_get addr reg t1 = Ok (Done f t2) /\ is_int f b.
Proof.
  intros addr reg v a r b t g A R V Ev Rd By G. destruct (C112_put_partial addr reg v a r b t g A R V Ev Rd G) as (t1 & g1 & E1 & R1 & G1 & Gr & Go & Oth).
  assert (B1 : byte_regs t1).
  { intros c h x H. destruct (Z.eq_dec c (a / 2)) as [->|N].
    - rewrite G1 in H. injection H as <-. destruct (Z.eq_dec x r) as [->|Nx]; [rewrite Gr; apply (byte_ok _ _ V)|]. rewrite Go by exact Nx. exact (By _ _ x G).
    - specialize (Oth c N). rewrite H in Oth. destruct (regs t c) as [k|] eqn:K; [|contradiction]. cbn in Oth. rewrite Oth. exact (By _ _ x K). }
  destruct (C112_get_partial addr reg a r t1 g1 A R Ev R1 B1 G1) as (t2 & f & E2 & If & _). exists t1, t2, f. rewrite Gr in If. auto.
Qed.
Print Assumptions C112_round_trip_partial.

(** An argument that is no number is an error, and nothing is sent. *)
Theorem C112_type : forall addr reg v t, (forall x f, (x = addr \/ x = reg \/ x = v) -> x = Some f -> exists b, as_byte x b) ->
  (addr = None \/ reg = None \/ v = None) -> builtin_put addr reg v t = Ok (Error t).
Proof.
  intros addr reg v t H N. assert (K : forall x, (x = addr \/ x = reg \/ x = v) -> exists b, get_byte x = Ok (b, match x with None => true | _ => false end)).
  { intros x Hx. destruct x as [f|]; [|exists 0; reflexivity]. destruct (H (Some f) f Hx eq_refl) as [b B]. exists b. apply (byte_ok _ _ B). }
  destruct (K addr) as [a Ea]; [auto|]. destruct (K reg) as [r Er]; [auto|]. destruct (K v) as [b Eb]; [auto|].
  unfold builtin_put. rewrite Ea. cbn [obind]. rewrite Er. cbn [obind]. rewrite Eb. cbn [obind].
  destruct addr, reg, v; try reflexivity. destruct N as [N|[N|N]]; discriminate.
Qed.
Print Assumptions C112_type.

Theorem C112_type_get : forall addr reg t, (forall x f, (x = addr \/ x = reg) -> x = Some f -> exists b, as_byte x b) ->
  (addr = None \/ reg = None) -> builtin_get addr reg t = Ok (Error t).
Proof.
  intros addr reg t H N. assert (K : forall x, (x = addr \/ x = reg) -> exists b, get_byte x = Ok (b, match x with None => true | _ => false end)).
  { intros x Hx. destruct x as [f|]; [|exists 0; reflexivity]. destruct (H (Some f) f Hx eq_refl) as [b B]. exists b. apply (byte_ok _ _ B). }
  destruct (K addr) as [a Ea]; [auto|]. destruct (K reg) as [r Er]; [auto|].
  unfold builtin_get. rewrite Ea. cbn [obind]. rewrite Er. cbn [obind].
  destruct addr, reg; try reflexivity. destruct N as [N|N]; discriminate.
Qed.
Print Assumptions C112_type_get.

(** With no device at the address both end without an error; i2c.get returns 255. *)
Theorem C112_absent_refuted : forall addr reg v a r b t, as_byte addr a -> as_byte reg r -> as_byte v b ->
  Z.even a = true -> ready t -> regs t (a / 2) = None ->
  (exists t', builtin_put addr reg v t = Ok (Done tt t') /\ t_dev t' = t_dev t) /\
  (exists t' f, builtin_get addr reg t = Ok (Done f t') /\ is_int f 255).
Proof.
  intros addr reg v a r b t A R V Ev Rd G. destruct (byte_ok _ _ A) as [EA _], (byte_ok _ _ R) as [ER _], (byte_ok _ _ V) as [EV _].
  unfold regs in G. destruct (t_dev t (a / 2)) as [d|] eqn:D; [discriminate|]. split.
  - destruct (put_absent a r b t Rd D Ev) as (t' & E & _ & _ & D'). exists t'. unfold builtin_put. rewrite EA. cbn [obind]. rewrite ER. cbn [obind]. rewrite EV. cbn [obind orb]. rewrite E. auto.
  - destruct (get_absent a r t Rd D Ev) as (t' & E & _). exists t', (f_of_Z 255). unfold builtin_get. rewrite EA. cbn [obind]. rewrite ER. cbn [obind orb]. rewrite E. split; [reflexivity|].
    apply of_Z_int, small_representable; unfold small; lia.
Qed.
Print Assumptions C112_absent_refuted.

(** With an odd address i2c.put changes no register of any device, and there is no error. *)
Theorem C112_odd_refuted : forall addr reg v a r b t, as_byte addr a -> as_byte reg r -> as_byte v b ->
  Z.odd a = true -> ready t ->
  exists t', builtin_put addr reg v t = Ok (Done tt t') /\ forall c, same_regs (regs t' c) (regs t c).
Proof.
  intros addr reg v a r b t A R V Od Rd. destruct (byte_ok _ _ A) as [EA _], (byte_ok _ _ R) as [ER _], (byte_ok _ _ V) as [EV _].
  destruct (put_odd a r b t Rd Od) as (t' & E & _ & S'). exists t'. unfold builtin_put. rewrite EA. cbn [obind]. rewrite ER. cbn [obind]. rewrite EV. cbn [obind orb]. rewrite E. auto.
Qed.
Print Assumptions C112_odd_refuted.

(** A NaN or an infinity is converted to an integer, which C leaves undefined. *)
Theorem C112_nan_refuted : forall f reg v t, f_is_finite f = false -> builtin_put (Some f) reg v t = UB /\ builtin_get (Some f) reg t = UB.
Proof. intros f reg v t F. unfold builtin_put, builtin_get, get_byte, f_to_sint. rewrite F. split; reflexivity. Qed.
Print Assumptions C112_nan_refuted.

(** *** Cases *)
Definition bus : twi := Twi false 0 0 Idle (fun a => if a =? 25 then Some (Dev 0 (fun _ => 7)) else None).
Lemma bus_ready : ready bus. Proof. split; [reflexivity|discriminate]. Qed.
Lemma bus_bytes : byte_regs bus.
Proof. intros a g r. unfold regs, bus. cbn [t_dev]. destruct (a =? 25); [|discriminate]. cbn. intro H. injection H as <-. lia. Qed.
Lemma num z : - 32768 <= z <= 32767 -> as_byte (Some (f_of_Z z)) (z mod 256).
Proof. intro H. exists (f_of_Z z), z. split; [reflexivity|]. split; [apply of_Z_int, small_representable; unfold small; lia|]. auto. Qed.
(** register 32 of the device at 50 is set to 87 and read back *)
Example C112_case : exists t1 t2 f, builtin_put (Some (f_of_Z 50)) (Some (f_of_Z 32)) (Some (f_of_Z 87)) bus = Ok (Done tt t1) /\
  builtin_get (Some (f_of_Z 50)) (Some (f_of_Z 32)) t1 = Ok (Done f t2) /\ is_int f 87.
Proof.
  apply (C112_round_trip_partial _ _ _ 50 32 87 bus (fun _ => 7)); [exact (num 50 ltac:(lia))|exact (num 32 ltac:(lia))|exact (num 87 ltac:(lia))|reflexivity|exact bus_ready|exact bus_bytes|reflexivity].
Qed.
(** at 51 nothing is set, and at 52 there is no device *)
Example C112_odd_case : exists t', builtin_put (Some (f_of_Z 51)) (Some (f_of_Z 32)) (Some (f_of_Z 87)) bus = Ok (Done tt t') /\ forall c, same_regs (regs t' c) (regs bus c).
Proof. apply (C112_odd_refuted _ _ _ 51 32 87 bus); [exact (num 51 ltac:(lia))|exact (num 32 ltac:(lia))|exact (num 87 ltac:(lia))|reflexivity|exact bus_ready]. Qed.
Example C112_absent_case : regs bus (52 / 2) = None. Proof. reflexivity. Qed.
Example C112_type_case : builtin_put (Some (f_of_Z 50)) None (Some (f_of_Z 87)) bus = Ok (Error bus).
Proof. apply C112_type; [|auto]. intros x f [-> |[-> | ->]] E; try discriminate; [exists 50; exact (num 50 ltac:(lia))|exists 87; exact (num 87 ltac:(lia))]. Qed.
Example C112_type_get_case : builtin_get None (Some (f_of_Z 32)) bus = Ok (Error bus).
Proof. apply C112_type_get; [|auto]. intros x f [-> | ->] E; try discriminate. exists 32. exact (num 32 ltac:(lia)). Qed.
