From Coq Require Import ZArith Bool List Lia.
From Verif Require Import Base FloatModel PinModel PinSpec.
Import ListNotations.
Local Open Scope Z_scope.
Open Scope outcome_scope.

(** ** Single bits *)
Lemma set_bit_spec b i j r : 0 <= i -> Z.testbit (set_bit b i r) j = if j =? i then b else Z.testbit r j.
Proof.
  intro Hi. unfold set_bit. rewrite (Z.eqb_sym j i). destruct b.
  - rewrite Z.setbit_eqb by lia. destruct (i =? j); reflexivity.
  - rewrite Z.clearbit_eqb. destruct (i =? j); cbn; [apply andb_false_r|apply andb_true_r].
Qed.
Lemma port_eqb_eq a b : port_eqb a b = true <-> a = b.
Proof. destruct a, b; cbn; split; congruence. Qed.
Lemma timer_eqb_eq a b : timer_eqb a b = true <-> a = b.
Proof. destruct a, b; cbn; split; congruence. Qed.
Lemma wire_eq p : wire p = (port_of p, bit_of p).
Proof. unfold wire, port_of, bit_of. destruct (Z.leb_spec p 7), (Z.ltb_spec p 8); try lia; [reflexivity|]. destruct (Z.leb_spec p 13), (Z.ltb_spec p 14); try lia; reflexivity. Qed.
Lemma unit_eq p : unit_of p = channel p.
Proof.
  unfold channel. destruct (Z.ltb_spec p 0) as [L|L]; [destruct p; try lia; reflexivity|]. destruct (Z.ltb_spec p 12) as [H|H].
  - assert (C : p = 0 \/ p = 1 \/ p = 2 \/ p = 3 \/ p = 4 \/ p = 5 \/ p = 6 \/ p = 7 \/ p = 8 \/ p = 9 \/ p = 10 \/ p = 11) by lia.
    repeat (destruct C as [->|C]; [reflexivity|]). subst p. reflexivity.
  - rewrite nth_overflow by (cbn [length]; lia). unfold unit_of. destruct (Z.eqb_spec p 3), (Z.eqb_spec p 5), (Z.eqb_spec p 6), (Z.eqb_spec p 9), (Z.eqb_spec p 10), (Z.eqb_spec p 11); try lia. reflexivity.
Qed.
Lemma bit_at_eq r p : bit_at r p = Z.testbit (r (port_of p)) (bit_of p).
Proof. unfold bit_at. rewrite wire_eq. reflexivity. Qed.
Lemma bit_of_nonneg p : 0 <= p -> 0 <= bit_of p.
Proof. unfold bit_of. destruct (Z.ltb_spec p 8); [lia|]. destruct (Z.ltb_spec p 14); lia. Qed.
Lemma place_inj p q : port_of p = port_of q -> bit_of p = bit_of q -> p = q.
Proof.
  unfold port_of, bit_of. destruct (Z.ltb_spec p 8), (Z.ltb_spec q 8); try (destruct (Z.ltb_spec p 14)); try (destruct (Z.ltb_spec q 14)); intros; try discriminate; lia.
Qed.
Lemma bit_at_put b p q r : 0 <= p ->
  bit_at (put port_eqb (port_of p) (set_bit b (bit_of p) (r (port_of p))) r) q = if q =? p then b else bit_at r q.
Proof.
  intro Hp. rewrite !bit_at_eq. unfold put. destruct (port_eqb (port_of q) (port_of p)) eqn:e.
  - apply port_eqb_eq in e. rewrite set_bit_spec by (apply bit_of_nonneg; lia). destruct (Z.eqb_spec (bit_of q) (bit_of p)) as [f|f].
    + rewrite (place_inj _ _ e f), Z.eqb_refl. reflexivity.
    + destruct (Z.eqb_spec q p) as [->|]; [congruence|]. rewrite e. reflexivity.
  - destruct (Z.eqb_spec q p) as [->|]; [|reflexivity]. rewrite (proj2 (port_eqb_eq _ _) eq_refl) in e. discriminate.
Qed.

(** ** Channels of the timers *)
Definition com (g : pins) (p : Z) : bool := match channel p with None => false | Some (t, b) => Z.testbit (g_tcc g t) b end.
Lemma channel_cases p c : channel p = Some c -> 0 <= p ->
  p = 3 /\ c = (T2, 5) \/ p = 5 /\ c = (T0, 5) \/ p = 6 /\ c = (T0, 7) \/ p = 9 /\ c = (T1, 7) \/ p = 10 /\ c = (T1, 5) \/ p = 11 /\ c = (T2, 7).
Proof.
  intros H Hp. destruct (Z_lt_dec p 12) as [L|L].
  - assert (p = 0 \/ p = 1 \/ p = 2 \/ p = 3 \/ p = 4 \/ p = 5 \/ p = 6 \/ p = 7 \/ p = 8 \/ p = 9 \/ p = 10 \/ p = 11) as Q by lia.
    repeat (destruct Q as [->|Q]; [cbn in H; try discriminate; injection H as <-; tauto|]). subst p. cbn in H. injection H as <-. tauto.
  - unfold channel in H. rewrite nth_overflow in H; [discriminate|cbn [length]; lia].
Qed.
Lemma pwm_channel p : pin_ok p -> has_pwm p = match channel p with Some _ => true | None => false end.
Proof.
  intros [[A B] C].
  assert (p = 0 \/ p = 1 \/ p = 2 \/ p = 3 \/ p = 4 \/ p = 5 \/ p = 6 \/ p = 7 \/ p = 8 \/ p = 9 \/ p = 10 \/ p = 11 \/ p = 12 \/ p = 13 \/ p = 14 \/ p = 15 \/ p = 16 \/ p = 17 \/ p = 18 \/ p = 20) as Q by lia.
  repeat (destruct Q as [->|Q]; [reflexivity|]). subst p. reflexivity.
Qed.
Lemma partly_pwm p : pin_ok p -> partly p = has_pwm p.
Proof.
  intros [[A B] C].
  assert (p = 0 \/ p = 1 \/ p = 2 \/ p = 3 \/ p = 4 \/ p = 5 \/ p = 6 \/ p = 7 \/ p = 8 \/ p = 9 \/ p = 10 \/ p = 11 \/ p = 12 \/ p = 13 \/ p = 14 \/ p = 15 \/ p = 16 \/ p = 17 \/ p = 18 \/ p = 20) as Q by lia.
  repeat (destruct Q as [->|Q]; [reflexivity|]). subst p. reflexivity.
Qed.
Lemma com_put b p c g q : 0 <= p -> 0 <= q -> channel p = Some c -> com (put_tcc b c g) q = if q =? p then b else com g q.
Proof.
  intros Hp Hq H. unfold com, put_tcc, put. cbn [g_tcc set_tcc]. destruct (channel q) as [[t i]|] eqn:e.
  - pose proof (channel_cases _ _ H Hp) as A. pose proof (channel_cases _ _ e Hq) as B.
    decompose [or and] A; decompose [or and] B; subst;
      repeat match goal with Q : (_, _) = (_, _) |- _ => injection Q as ? ?; subst end; cbn [fst snd timer_eqb]; rewrite ?set_bit_spec by lia; reflexivity.
  - destruct (Z.eqb_spec q p) as [->|]; [congruence|reflexivity].
Qed.
Lemma mode_put b p c g t i : 0 <= p -> channel p = Some c -> i = 0 \/ i = 4 \/ i = 6 -> Z.testbit (g_tcc (put_tcc b c g) t) i = Z.testbit (g_tcc g t) i.
Proof.
  intros Hp H Hi. unfold put_tcc, put. cbn [g_tcc set_tcc]. destruct (timer_eqb t (fst c)) eqn:e; [|reflexivity]. apply timer_eqb_eq in e. subst t.
  pose proof (channel_cases _ _ H Hp) as A. decompose [or and] A; subst c; cbn [fst snd]; rewrite set_bit_spec by lia;
    decompose [or] Hi; subst i; reflexivity.
Qed.

(** ** The invariant *)
Definition holds (g : pins) (p : Z) (d : drive) : Prop :=
  match d with
  | Low => com g p = false /\ bit_at (g_port g) p = false
  | High => com g p = false /\ bit_at (g_port g) p = true
  | Pwm n => com g p = true /\ g_ocr g p = n
  | _ => False
  end.
Definition fits (g : pins) (a : apin) (p : Z) : Prop :=
  Z.testbit (g_on g) p = a_on a /\ g_power g p = a_pow a /\ 0 <= a_pow a <= 255 /\ Z.testbit (g_pull g) p = a_pull a /\
  bit_at (g_ddr g) p = a_out a /\ (a_on a = false -> com g p = false) /\
  match a_shown a with None => a_out a = false -> bit_at (g_port g) p = a_in a | Some d => holds g p d end.
Definition modes (g : pins) : Prop :=
  forall t, Z.testbit (g_tcc g t) 0 = true /\ Z.testbit (g_tcc g t) 4 = false /\ Z.testbit (g_tcc g t) 6 = false.
Definition inv (g : pins) (b : board) : Prop :=
  g_err g = false /\ g_power_pin g = b_power b /\ g_dir_pin g = b_dir b /\ pin_ok (b_power b) /\ pin_ok (b_dir b) /\
  modes g /\ Z.testbit (g_on g) 19 = false /\ forall p, pin_ok p -> fits g (b_pin b p) p.

(** what concerns a pin is unchanged *)
Definition kept (g g' : pins) (p : Z) : Prop :=
  Z.testbit (g_on g') p = Z.testbit (g_on g) p /\ g_power g' p = g_power g p /\ Z.testbit (g_pull g') p = Z.testbit (g_pull g) p /\
  bit_at (g_ddr g') p = bit_at (g_ddr g) p /\ bit_at (g_port g') p = bit_at (g_port g) p /\ com g' p = com g p /\ g_ocr g' p = g_ocr g p.
Lemma kept_fits g g' p a : kept g g' p -> fits g a p -> fits g' a p.
Proof.
  unfold kept, fits. intros (K1 & K2 & K3 & K4 & K5 & K6 & K7) (F1 & F2 & F3 & F4 & F5 & FC & F6).
  repeat (split; [congruence || assumption|]). split; [intro Q; rewrite K6; auto|]. destruct (a_shown a) as [d|]; [|intro Q; rewrite K5; auto].
  destruct d; cbn in *; rewrite ?K5, ?K6, ?K7; assumption.
Qed.
Lemma kept_trans g1 g2 g3 p : kept g1 g2 p -> kept g2 g3 p -> kept g1 g3 p.
Proof. unfold kept. intros (?&?&?&?&?&?&?) (?&?&?&?&?&?&?). repeat split; congruence. Qed.

Lemma ok_nonneg p : pin_ok p -> 0 <= p. Proof. unfold pin_ok. lia. Qed.
(** *** set_out *)
Lemma set_out_ok g p : pin_ok p -> 0 <= g_power g p <= 255 ->
  exists g', set_out p g = Ok g' /\ (forall q, 0 <= q -> q <> p -> kept g g' q) /\
    g_on g' = g_on g /\ g_power g' = g_power g /\ g_pull g' = g_pull g /\ g_ddr g' = g_ddr g /\ g_err g' = g_err g /\
    g_power_pin g' = g_power_pin g /\ g_dir_pin g' = g_dir_pin g /\ (modes g -> modes g') /\
    holds g' p (if Z.testbit (g_on g) p then if g_power g p =? 0 then Low else if (g_power g p =? 255) || negb (partly p) then High else Pwm (g_power g p) else Low).
Proof.
  intros Hp Hw. pose proof (ok_nonneg _ Hp) as H0. unfold set_out, is_on. rewrite (pwm_channel p Hp).
  set (v := if Z.testbit (g_on g) p then g_power g p else 0).
  assert (Hv : (if Z.testbit (g_on g) p then if g_power g p =? 0 then Low else if (g_power g p =? 255) || negb (partly p) then High else Pwm (g_power g p) else Low)
               = if v =? 0 then Low else if (v =? 255) || negb (partly p) then High else Pwm v).
  { unfold v. destruct (Z.testbit (g_on g) p); reflexivity. }
  assert (Hch : partly p = match channel p with Some _ => true | None => false end) by (rewrite <- (pwm_channel p Hp); apply partly_pwm, Hp).
  rewrite Hv, Hch. assert (Bv : 0 <= v <= 255) by (unfold v; destruct (Z.testbit (g_on g) p); lia).
  destruct (channel p) as [c|] eqn:e.
  - destruct ((0 <? v) && (v <? 255)) eqn:r.
    + apply andb_true_iff in r. rewrite !Z.ltb_lt in r. eexists. split; [reflexivity|].
      split. { intros q Hq N. unfold kept. rewrite (com_put true p c _ q H0 Hq e). cbn. unfold put. rewrite (proj2 (Z.eqb_neq q p) N). repeat split. }
      repeat (split; [reflexivity|]). split.
      { intros M t. destruct (M t) as (A & B & C). rewrite !(mode_put true p c _ t) by tauto. auto. }
      destruct (Z.eqb_spec v 0); [lia|]. destruct (Z.eqb_spec v 255); [lia|]. cbn [orb negb holds]. rewrite (com_put true p c _ p H0 H0 e), Z.eqb_refl.
      cbn. unfold put. rewrite Z.eqb_refl. auto.
    + apply andb_false_iff in r. rewrite !Z.ltb_ge in r. eexists. split; [reflexivity|].
      assert (Cm : forall q, 0 <= q -> com (put_port (negb (v =? 0)) p (put_tcc false c g)) q = if q =? p then false else com g q).
      { intros q Hq. rewrite <- (com_put false p c g q H0 Hq e). reflexivity. }
      split. { intros q Hq N. unfold kept. rewrite (Cm q Hq). cbn. rewrite bit_at_put by assumption. rewrite (proj2 (Z.eqb_neq q p) N). repeat split. }
      repeat (split; [reflexivity|]). split.
      { intros M t. destruct (M t) as (A & B & C). cbn [put_port g_tcc set_port]. rewrite !(mode_put false p c _ t) by tauto. auto. }
      assert (v = 0 \/ v = 255) as [Q|Q] by lia; rewrite Q in *; cbn [Z.eqb Pos.eqb negb orb] in *; cbn [holds];
        rewrite (Cm p H0), Z.eqb_refl; (split; [reflexivity|]); unfold put_port; cbn [g_port set_port]; rewrite bit_at_put, Z.eqb_refl by assumption; reflexivity.
  - eexists. split; [reflexivity|].
    assert (Cm : forall q, com (put_port (negb (v =? 0)) p g) q = com g q) by reflexivity.
    split. { intros q Hq N. unfold kept. rewrite Cm. cbn. rewrite bit_at_put by assumption. rewrite (proj2 (Z.eqb_neq q p) N). repeat split. }
    repeat (split; [reflexivity|]). split; [auto|].
    assert (Z : com g p = false) by (unfold com; rewrite e; reflexivity).
    rewrite orb_true_r. destruct (Z.eqb_spec v 0) as [Q|Q]; cbn [holds negb];
      rewrite Cm; (split; [exact Z|]); unfold put_port; cbn [g_port set_port]; rewrite bit_at_put, Z.eqb_refl by assumption; reflexivity.
Qed.

Ltac gcbn := cbn [g_ddr g_port g_tcc g_tcc0b g_ocr g_power_pin g_dir_pin g_power g_on g_pull g_err g_lines set_ons set_power set_pull set_ddr set_port set_tcc set_ocr set_talk say put_port put_ddr].
Definition same_rest (g g' : pins) : Prop :=
  g_err g' = g_err g /\ g_power_pin g' = g_power_pin g /\ g_dir_pin g' = g_dir_pin g /\ (modes g -> modes g') /\ Z.testbit (g_on g') 19 = Z.testbit (g_on g) 19.
Lemma inv_change g g' b p f : inv g b -> pin_ok p -> same_rest g g' -> (forall q, pin_ok q -> q <> p -> kept g g' q) ->
  (fits g (b_pin b p) p -> fits g' (f (b_pin b p)) p) -> inv g' (change p f b).
Proof.
  intros (E & P & D & OP & OD & M & N & A) Hp (E' & P' & D' & M' & N') K F. unfold inv. cbn [change b_power b_dir b_pin].
  split; [congruence|]. split; [congruence|]. split; [congruence|]. split; [assumption|]. split; [assumption|]. split; [auto|]. split; [congruence|].
  intros q Hq. destruct (Z.eqb_spec q p) as [->|Nq]; [auto|]. eapply kept_fits; [apply K; assumption|]. auto.
Qed.

(** switching: turn, or set the power, then set_out *)
Lemma inv_out g g1 b p a1 : inv g b -> pin_ok p -> same_rest g g1 -> (forall q, pin_ok q -> q <> p -> kept g g1 q) ->
  (fits g (b_pin b p) p -> Z.testbit (g_on g1) p = a_on a1 /\ g_power g1 p = a_pow a1 /\ 0 <= a_pow a1 <= 255 /\ Z.testbit (g_pull g1) p = a_pull a1 /\
     bit_at (g_ddr g1) p = a_out a1) ->
  exists g', set_out p g1 = Ok g' /\ inv g' (change p (fun _ => show p a1) b).
Proof.
  intros I Hp S K F. pose proof I as (E & P & D & OP & OD & M & N & A). destruct (F (A p Hp)) as (F1 & F2 & F3 & F4 & F5).
  destruct (set_out_ok g1 p Hp ltac:(rewrite F2; lia)) as (g' & R & K' & O1 & O2 & O3 & O4 & O5 & O6 & O7 & O8 & O9).
  exists g'. split; [exact R|]. destruct S as (S1 & S2 & S3 & S4 & S5). apply (inv_change g); auto.
  - repeat split; try congruence; auto; apply O8; auto.
  - intros q Hq N'. eapply kept_trans; [apply K; assumption|]. apply K'; [apply ok_nonneg, Hq|assumption].
  - intros _. unfold fits. cbn [show a_on a_pow a_pull a_out a_shown]. rewrite O1, O2, O3, O4. repeat (split; [assumption|]).
    split; [intro Q; rewrite F1, Q in O9; exact (proj1 O9)|]. unfold wanted. rewrite <- F1, <- F2. exact O9.
Qed.
Lemma change_ext p f h b : (forall a, a = b_pin b p -> f a = h a) -> forall q, b_pin (change p f b) q = b_pin (change p h b) q.
Proof. intros H q. cbn. destruct (Z.eqb_spec q p) as [->|]; auto. Qed.
Lemma inv_ext g b b' : (forall q, b_pin b q = b_pin b' q) -> b_power b = b_power b' -> b_dir b = b_dir b' -> inv g b -> inv g b'.
Proof. intros H P D. unfold inv. rewrite P, D. intros (?&?&?&?&?&?&?& A). repeat (split; [assumption|]). intros p Hp. rewrite <- H. auto. Qed.

Lemma turn_kept x p g q : 0 <= p -> q <> p -> kept g (turn x p g) q.
Proof. intros Hp N. unfold kept, turn. gcbn. rewrite set_bit_spec by assumption. rewrite (proj2 (Z.eqb_neq q p) N). repeat split. Qed.
Lemma switch_ok g b p x : inv g b -> pin_ok p -> exists g', set_out p (turn x p g) = Ok g' /\ inv g' (change p (switch x p) b).
Proof.
  intros I Hp. pose proof (ok_nonneg _ Hp) as H0.
  destruct (inv_out g (turn x p g) b p {| a_out := a_out (b_pin b p); a_on := x; a_pow := a_pow (b_pin b p); a_pull := a_pull (b_pin b p); a_in := a_in (b_pin b p); a_shown := a_shown (b_pin b p) |} I Hp)
    as (g' & R & J).
  - unfold same_rest, turn. gcbn. rewrite set_bit_spec by assumption. destruct (Z.eqb_spec 19 p) as [e|]; [destruct Hp as [_ Q]; destruct Q; auto|]. repeat split; auto; apply H.
  - intros q _ N. apply turn_kept; assumption.
  - intros (F1 & F2 & F3 & F4 & F5 & FC & F6). unfold turn. gcbn. cbn [a_on a_pow a_pull a_out]. rewrite set_bit_spec, Z.eqb_refl by assumption. repeat split; auto; lia.
  - exists g'. split; [exact R|]. revert J. apply inv_ext; [|reflexivity|reflexivity]. intro q. cbn. destruct (Z.eqb_spec q p) as [->|]; reflexivity.
Qed.
Lemma power_range f n : power_of f = Ok n -> 0 <= n <= 255.
Proof.
  unfold power_of, f_to_uint. destruct (f_is_finite _); [|discriminate]. destruct (_ && _) eqn:e; [|discriminate]. intros [= <-].
  apply andb_true_iff in e. rewrite Z.leb_le, Z.ltb_lt in e. change (2 ^ 8) with 256 in e. lia.
Qed.
Lemma setpower_ok g b f n : inv g b -> power_of f = Ok n -> exists g', setpower f g = Ok g' /\ inv g' (change (b_power b) (powered n (b_power b)) b).
Proof.
  intros I H. pose proof I as (E & P & D & OP & OD & M & N & A). pose proof (power_range _ _ H) as B. set (p := b_power b) in *.
  unfold setpower. rewrite H. cbn [obind say g_power_pin g_power]. rewrite P. fold p.
  destruct (inv_out g (set_power (put Z.eqb p n (g_power g)) (say g)) b p {| a_out := a_out (b_pin b p); a_on := a_on (b_pin b p); a_pow := n; a_pull := a_pull (b_pin b p); a_in := a_in (b_pin b p); a_shown := a_shown (b_pin b p) |} I OP)
    as (g' & R & J).
  - unfold same_rest, set_dir. gcbn. repeat split; auto; apply H0.
  - intros q _ Nq. unfold kept, put. cbn. rewrite (proj2 (Z.eqb_neq q p) Nq). repeat split.
  - intros (F1 & F2 & F3 & F4 & F5 & FC & F6). cbn. unfold put. rewrite Z.eqb_refl. repeat split; auto; lia.
  - exists g'. split; [exact R|]. revert J. apply inv_ext; [|reflexivity|reflexivity]. intro q. cbn. destruct (Z.eqb_spec q p) as [->|]; reflexivity.
Qed.

Lemma get_pin_ok p g : 0 <= p < 21 -> get_pin p g = g.
Proof. intro H. unfold get_pin, NUM_PIN. destruct (Z.ltb_spec p 0); [lia|]. destruct (Z.leb_spec 21 p); [lia|]. reflexivity. Qed.
Lemma dir_out_ok g b p : inv g b -> pin_ok p -> inv (set_dir p true g) (change p as_out b).
Proof.
  intros I Hp. pose proof (ok_nonneg _ Hp) as H0. apply (inv_change g); auto.
  - unfold same_rest, set_dir. gcbn. repeat split; auto; apply H.
  - intros q _ N. unfold kept, set_dir, com. gcbn. rewrite bit_at_put by assumption. rewrite (proj2 (Z.eqb_neq q p) N). repeat split.
  - intros (F1 & F2 & F3 & F4 & F5 & FC & F6). unfold fits, set_dir. gcbn. cbn [as_out as_in a_on a_pow a_pull a_out a_shown a_in]. rewrite bit_at_put, Z.eqb_refl by assumption. repeat (split; [assumption || reflexivity|]).
    destruct (a_shown (b_pin b p)); [exact F6|discriminate].
Qed.
Lemma dir_in_ok g b p : inv g b -> pin_ok p -> inv (set_dir p false g) (change p as_in b).
Proof.
  intros I Hp. pose proof (ok_nonneg _ Hp) as H0. apply (inv_change g); auto.
  - unfold same_rest, set_dir. gcbn. repeat split; auto; apply H.
  - intros q _ N. unfold kept, set_dir, com. gcbn. rewrite !bit_at_put by assumption. rewrite (proj2 (Z.eqb_neq q p) N). repeat split.
  - intros (F1 & F2 & F3 & F4 & F5 & FC & F6). unfold fits, set_dir. gcbn. cbn [as_out as_in a_on a_pow a_pull a_out a_shown a_in]. rewrite !bit_at_put, !Z.eqb_refl by assumption. repeat (split; [assumption || reflexivity|]).
    intros _. exact F4.
Qed.
Lemma talkto_ok g b p d : inv g b -> pin_ok p -> pin_ok d -> exists g', talkto p d g = Ok g' /\ inv g' (ask (ATalkto p d) b).
Proof.
  intros I Hp Hd. unfold talkto. rewrite !get_pin_ok by (unfold pin_ok in *; lia). pose proof I as (E & _). rewrite E.
  eexists. split; [reflexivity|]. pose proof (dir_out_ok _ _ d (dir_out_ok _ _ p I Hp) Hd) as (Q1 & Q2 & Q3 & Q4 & Q5 & Q6 & Q7 & Q8).
  unfold inv. cbn [ask b_power b_dir b_pin]. repeat (split; [assumption || reflexivity|]). exact Q8.
Qed.
Lemma pull_ok g b p (x : bool) : inv g b -> 0 <= p < 15 ->
  exists g', (if x then pullup p g else pullnone p g) = Ok g' /\ inv g' (change p (pulled x) b).
Proof.
  intros I Hp. assert (Op : pin_ok p) by (unfold pin_ok; lia). pose proof I as (E & _).
  assert (R : (if x then pullup p g else pullnone p g) = Ok (set_pull (if x then Z.lor (g_pull g) (2 ^ p) else Z.ldiff (g_pull g) (2 ^ p)) g)).
  { unfold pullup, pullnone. rewrite get_pin_ok by lia. rewrite E. unfold one_shl. destruct (Z.ltb_spec p 15); [|lia]. destruct x; reflexivity. }
  eexists. split; [exact R|].
  assert (T : forall q, Z.testbit (if x then Z.lor (g_pull g) (2 ^ p) else Z.ldiff (g_pull g) (2 ^ p)) q = if q =? p then x else Z.testbit (g_pull g) q).
  { intro q. rewrite (Z.eqb_sym q p). destruct x.
    - rewrite Z.lor_spec, Z.pow2_bits_eqb by lia. destruct (p =? q); [apply orb_true_r|apply orb_false_r].
    - rewrite Z.ldiff_spec, Z.pow2_bits_eqb by lia. destruct (p =? q); [apply andb_false_r|apply andb_true_r]. }
  apply (inv_change g); auto.
  - unfold same_rest, set_dir. gcbn. repeat split; auto; apply H.
  - intros q _ N. unfold kept. cbn [g_pull set_pull]. rewrite T, (proj2 (Z.eqb_neq q p) N). repeat split.
  - intros (F1 & F2 & F3 & F4 & F5 & FC & F6). unfold fits. cbn [g_pull set_pull pulled a_pull]. rewrite T, Z.eqb_refl. repeat (split; [assumption || reflexivity|]). exact F6.
Qed.

(** stopall *)
Definition stopped (k : Z) (b : board) : board :=
  {| b_pin := fun p => if (p <? k) && a_on (b_pin b p) then switch false p (b_pin b p) else b_pin b p; b_power := b_power b; b_dir := b_dir b |}.
Lemma stop_ok n : forall k g b, inv g (stopped k b) -> 0 <= k -> k + Z.of_nat n = 21 -> exists g', stop_from n k g = Ok g' /\ inv g' (stopped 21 b).
Proof.
  induction n as [|n IH]; intros k g b I Hk E; cbn [stop_from].
  - exists g. split; [reflexivity|]. replace 21 with k by lia. exact I.
  - unfold is_on. pose proof I as (E0 & P & D & OP & OD & M & N & A).
    assert (X : exists g1, (if Z.testbit (g_on g) k then set_out k (turn false k g) else Ok g) = Ok g1 /\ inv g1 (stopped (k + 1) b)).
    { destruct (Z.eq_dec k 19) as [->|Nk].
      - rewrite N. exists g. split; [reflexivity|]. unfold inv. repeat (split; [assumption|]). intros p Hp. specialize (A p Hp). cbn [stopped b_pin] in *.
        replace (p <? 19 + 1) with (p <? 19); [exact A|]. destruct Hp. destruct (Z.ltb_spec p 19), (Z.ltb_spec p (19 + 1)); auto; lia.
      - assert (Ok' : pin_ok k) by (unfold pin_ok; lia). destruct (A k Ok') as (F1 & _). cbn [stopped b_pin] in F1.
        rewrite Z.ltb_irrefl in F1. cbn [andb] in F1. rewrite F1. destruct (a_on (b_pin b k)) eqn:e.
        + destruct (switch_ok g (stopped k b) k false I Ok') as (g1 & R & J). exists g1. split; [exact R|]. revert J. apply inv_ext; [|reflexivity|reflexivity].
          intro q. cbn [change stopped b_pin]. destruct (Z.eqb_spec q k) as [->|Nq].
          * rewrite Z.ltb_irrefl, e. cbn [andb]. destruct (Z.ltb_spec k (k + 1)); [reflexivity|lia].
          * replace (q <? k + 1) with (q <? k); [reflexivity|]. destruct (Z.ltb_spec q k), (Z.ltb_spec q (k + 1)); auto; lia.
        + exists g. split; [reflexivity|]. revert I. apply inv_ext; [|reflexivity|reflexivity]. intro q. cbn [stopped b_pin].
          destruct (Z.eq_dec q k) as [->|Nq]; [rewrite e, !andb_false_r; reflexivity|].
          replace (q <? k + 1) with (q <? k); [reflexivity|]. destruct (Z.ltb_spec q k), (Z.ltb_spec q (k + 1)); auto; lia. }
    destruct X as (g1 & R & J). rewrite R. cbn [obind]. apply IH; [exact J|lia|lia].
Qed.
Lemma stopall_ok g b : inv g b -> exists g', stopall g = Ok g' /\ inv g' (ask AStop b).
Proof.
  intro I. destruct (stop_ok 21 0 g b) as (g' & R & J); [|lia|reflexivity|].
  - unfold inv in *. destruct I as (?&?&?&?&?&?&?& A). cbn [stopped b_power b_dir b_pin]. repeat (split; [assumption|]). intros p Hp.
    destruct (Z.ltb_spec p 0); [unfold pin_ok in Hp; lia|]. cbn [andb]. auto.
  - exists g'. split; [exact R|]. unfold inv in *. destruct J as (?&?&?&?&?&?&?& A). cbn [ask b_power b_dir b_pin]. repeat (split; [assumption|]). intros p Hp.
    specialize (A p Hp). cbn [stopped b_pin] in A. destruct (Z.ltb_spec p 21); [|unfold pin_ok in Hp; lia]. exact A.
Qed.

Lemma op_ok o l g b : means o l -> inv g b -> exists g', pin_op o g = Ok g' /\ inv g' (asks l b).
Proof.
  intros H I. pose proof I as (E & P & D & OP & OD & _). destruct H; cbn [pin_op asks fold_left].
  - apply talkto_ok; assumption.
  - apply setpower_ok; assumption.
  - unfold setleft. rewrite D. apply switch_ok; assumption.
  - unfold setright. rewrite D. apply switch_ok; assumption.
  - unfold on. rewrite P. apply switch_ok; assumption.
  - unfold off. rewrite P. apply switch_ok; assumption.
  - unfold onfor, on. rewrite P. destruct (switch_ok g b (b_power b) true I OP) as (g1 & R1 & J1). rewrite R1. cbn [obind].
    unfold off. pose proof J1 as (_ & P1 & _). rewrite P1. apply (switch_ok g1 _ _ false J1 OP).
  - apply (pull_ok g b p true I H).
  - apply (pull_ok g b p false I H).
  - unfold read_pin. rewrite get_pin_ok by (unfold pin_ok in *; lia). rewrite E. eexists. split; [reflexivity|]. apply dir_in_ok; assumption.
  - apply stopall_ok; assumption.
Qed.
Lemma ops_ok os ls : Forall2 means os ls -> forall g b, inv g b -> exists g', pin_ops os g = Ok g' /\ inv g' (asks (concat ls) b).
Proof.
  induction 1 as [|o l os ls H _ IH]; intros g b I; cbn [pin_ops concat].
  - exists g. split; [reflexivity|exact I].
  - destruct (op_ok o l g b H I) as (g1 & R & J). rewrite R. cbn [obind]. unfold asks. rewrite fold_left_app. apply IH. exact J.
Qed.
Lemma inv_start : inv pins_start board_start.
Proof.
  unfold inv. split; [reflexivity|]. split; [reflexivity|]. split; [reflexivity|].
  split; [unfold pin_ok; cbn; lia|]. split; [unfold pin_ok; cbn; lia|]. split; [intros []; repeat split|]. split; [reflexivity|].
  intros p [[A B] C]. unfold fits. cbn [board_start b_pin a_on a_pow a_pull a_out a_shown a_in].
  split; [apply Z.bits_0|]. split; [reflexivity|]. split; [lia|]. split; [|split; [apply Z.bits_0|split; [|intros _; apply Z.bits_0]]].
  2:{ intros _. unfold com. destruct (channel p) as [c|] eqn:e; [|reflexivity]. pose proof (channel_cases _ _ e A) as Q. decompose [or and] Q; subst c; reflexivity. }
  change (g_pull pins_start) with (Z.ones 14). destruct (Z.ltb_spec p 14); [apply Z.ones_spec_low|apply Z.ones_spec_high]; lia.
Qed.
Lemma inv_shows g b p : inv g b -> pin_ok p -> shows_pin g b p.
Proof.
  intros (_ & _ & _ & _ & _ & M & _ & A) Hp. destruct (A p Hp) as (F1 & F2 & F3 & F4 & F5 & FC & F6). unfold shows_pin. cbv zeta.
  split; [|split; [|split]].
  - intros O d S. rewrite S in F6. unfold drive_at; rewrite ?unit_eq. rewrite F5, O. destruct (channel p) as [[t i]|] eqn:e.
    + assert (C : com g p = Z.testbit (g_tcc g t) i) by (unfold com; rewrite e; reflexivity).
      destruct (M t) as (M0 & M4 & M6). assert (L : Z.testbit (g_tcc g t) (i - 1) = false).
      { pose proof (channel_cases _ _ e (ok_nonneg _ Hp)) as Q. decompose [or and] Q; repeat match goal with X : (_, _) = (_, _) |- _ => injection X as ? ?; subst end; assumption. }
      rewrite M0, L. destruct d; cbn in F6; try destruct F6; rewrite C in H; rewrite H; rewrite ?H0; reflexivity.
    + assert (C : com g p = false) by (unfold com; rewrite e; reflexivity).
      destruct d; cbn in F6; try contradiction; destruct F6 as [X Y]; try congruence; rewrite Y; reflexivity.
  - intros O S. rewrite S in F6. unfold drive_at; rewrite ?unit_eq. rewrite F5, O, (F6 O). reflexivity.
  - intros O. unfold drive_at; rewrite ?unit_eq. rewrite F5, O. eauto.
  - intros O S x. unfold drive_at; rewrite ?unit_eq. rewrite F5, O. destruct (channel p) as [[t i]|].
    + cbv zeta. unfold level. intro Q. repeat match type of Q with context [if ?c then _ else _] => destruct c end; discriminate Q.
    + unfold level. intro Q. destruct (bit_at (g_port g) p); discriminate Q.
Qed.
