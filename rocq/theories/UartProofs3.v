(** The serial line: a sender that obeys, ^C, and where the line stops. *)
From Coq Require Import ZArith List Bool Lia.
From Verif Require Import Base UartModel UartSpec UartProofs UartProofs2.
Import ListNotations.
Local Open Scope Z_scope.
Local Open Scope outcome_scope.
Set Implicit Arguments.

Local Arguments told : simpl never.
Local Arguments puts : simpl never.
Local Arguments UartProofs.full : simpl never.
Lemma told_snoc w c : told (w ++ [c]) = if c =? 17 then true else if c =? 19 then false else told w.
Proof. unfold told. now rewrite fold_left_app. Qed.

Section Uart.
Variable k : Z.
Hypothesis Hk : 0 <= k <= 7.
Notation size := (2 ^ k).
Notation half := (2 ^ k / 2).
Notation fxoff := (fxoff k).
Notation fput := (fput k).
Notation frx := (frx k).
Notation fstep := (fstep k).
Notation frun := (frun k).
Notation full := (full k).

(** ** Given room, all of the input is kept *)
Lemma rel_rxq x y : wrel k x y -> queue k (u_rx (w_uart x)) = f_rx (v_flat y).
Proof. intros (R & _). apply rep_queue. apply R. Qed.
Lemma rel_txq x y : wrel k x y -> queue k (u_tx (w_uart x)) = f_tx (v_flat y).
Proof. intros (R & _). apply rep_queue. apply R. Qed.
Theorem kept prog es :
  (forall es1 c es2 x, es = es1 ++ Rx c :: es2 -> plain c = true -> run k es1 (world_on k prog) = Ok x -> Z.of_nat (length (queue k (u_rx (w_uart x)))) < size) ->
  ~ In 3 (arrivals es) ->
  exists x, run k es (world_on k prog) = Ok x /\ w_got x ++ queue k (u_rx (w_uart x)) = filter plain (arrivals es).
Proof.
  intros H N. destruct (rel_run Hk es (rel_on Hk prog)) as (x & E & R). exists x. split; [exact E|].
  rewrite (rel_rxq R). destruct R as (_ & _ & G). rewrite G. rewrite (in_order Hk); [reflexivity| |exact N].
  intros es1 c es2 D P. destruct (rel_run Hk es1 (rel_on Hk prog)) as (x1 & E1 & R1). specialize (H es1 c es2 x1 D P E1). rewrite (rel_rxq R1) in H.
  unfold UartProofs.full. apply Z.eqb_neq. lia.
Qed.
(** and what is kept came in this order, whatever is lost *)
Lemma abort_start f : f_abort (fstart f) = f_abort f.
Proof. unfold fstart. destruct (_ && _); auto. destruct (_ =? 0); auto. destruct (f_tx f); reflexivity. Qed.
Lemma abort_put c f : f_abort (fput c f) = f_abort f.
Proof. unfold UartProofs.fput, UartProofs.fxoff. destruct (_ && _); [transitivity (f_abort (fnext (if full (f_rx f) then f else fset_rx (f_rx f ++ [c]) f))); [apply abort_start|]|]; cbn; destruct (full (f_rx f)); reflexivity. Qed.
Theorem interrupt prog es : exists x x', run k es (world_on k prog) = Ok x /\ run k (es ++ [Rx 3]) (world_on k prog) = Ok x' /\
  queue k (u_rx (w_uart x')) = [3] /\ u_abort (w_uart x') = true /\ w_got x' = w_got x /\ w_todo x' = w_todo x.
Proof.
  destruct (rel_run Hk es (rel_on Hk prog)) as (x & E & R). destruct (rel_run Hk (es ++ [Rx 3]) (rel_on Hk prog)) as (x' & E' & R'). exists x, x'. split; [exact E|]. split; [exact E'|].
  rewrite (rel_rxq R'). rewrite frun_app in R' |- *. destruct (in_step_ok Hk (Rx 3) (frun es (fworld_on prog))) as [G Q]. cbn [UartProofs.frun] in *.
  split; [exact Q|]. destruct R as (R & T & W). destruct R' as (R' & T' & W'). split; [|split; [rewrite W', W; exact G|rewrite T', T; reflexivity]].
  transitivity (f_abort (v_flat (fstep (Rx 3) (frun es (fworld_on prog))))); [apply R'|]. exact (abort_put 3 (fabort (v_flat (frun es (fworld_on prog))))).
Qed.

(** ** A sender that obeys loses nothing *)
Section Obey.
Variable lag : nat.
Hypothesis Hlag : Z.of_nat lag + 2 <= half.
Lemma half2 : 2 * half <= size.
Proof. pose proof (Z.mul_div_le size 2). lia. Qed.
Definition nofc (l : list Z) : Prop := ~ In 17 l /\ ~ In 19 l.
Definition b2z (b : bool) : Z := if b then 1 else 0.
Definition word (r : option Z) : Prop := exists c, r = Some c /\ c <> 17 /\ c <> 19.
Definition calm (r : option Z) : Prop := r = None \/ word r.
Definition situation (fl : Z) (r : option Z) (w : bool) (n u : Z) (b : bool) : Prop :=
  (fl = 0 /\ r = None /\ w = false /\ n <= u) \/
  (fl = 0 /\ r = Some 19 /\ w = true /\ n <= b2z b) \/
  (fl = 0 /\ word r /\ w = false /\ n <= u + 1) \/
  (fl = 1 /\ r = Some 17 /\ w = false /\ n <= u + 1) \/
  (fl = 1 /\ calm r /\ w = true /\ n < half) \/
  (fl = 2 /\ word r /\ w = true /\ b = true /\ n <= half) \/
  (fl = 3 /\ r = Some 19 /\ w = true /\ n <= half + b2z b) \/
  (fl = 3 /\ calm r /\ w = false /\ n <= half + 1 + u).
Definition inv (b : bool) (u : nat) (y : fworld) : Prop :=
  let f := v_flat y in
  f_txflow f = false /\ f_dre f = negb (fempty f) /\ nofc (f_tx f) /\ nofc (puts (v_todo y)) /\ (u <= lag)%nat /\
  situation (f_rxflow f) (f_reg f) (told (f_wire f)) (Z.of_nat (length (f_rx f))) (Z.of_nat u) b.

Lemma nofc_cons c l : nofc (c :: l) -> c <> 17 /\ c <> 19 /\ nofc l.
Proof. unfold nofc. cbn. intuition. Qed.
Lemma nofc_snoc c l : c <> 17 -> c <> 19 -> nofc l -> nofc (l ++ [c]).
Proof. unfold nofc. rewrite !in_app_iff. cbn. intuition. Qed.

Ltac split8 S := destruct S as [(-> & -> & W & N)|[(-> & -> & W & N)|[(-> & (q & -> & Q1 & Q2) & W & N)|[(-> & -> & W & N)|[(-> & [->|(q & -> & Q1 & Q2)] & W & N)|[(-> & (q & -> & Q1 & Q2) & W & B & N)|[(-> & -> & W & N)|(-> & [->|(q & -> & Q1 & Q2)] & W & N)]]]]]]].
Ltac at1 := left.
Ltac at2 := right; left.
Ltac at3 := do 2 right; left.
Ltac at4 := do 3 right; left.
Ltac at5 := do 4 right; left.
Ltac at6 := do 5 right; left.
Ltac at7 := do 6 right; left.
Ltac at8 := do 7 right.
Ltac wd := first [left; reflexivity | right; eexists; split; [reflexivity|split; assumption] | eexists; split; [reflexivity|split; assumption]].
Ltac lb := repeat match goal with b : bool |- _ => destruct b end; lia.
Ltac pick := unfold situation, b2z in *; first
  [ at1; split; [reflexivity|split; [reflexivity|split; [first [assumption|reflexivity]|lb]]]
  | at2; split; [reflexivity|split; [reflexivity|split; [first [assumption|reflexivity]|lb]]]
  | at3; split; [reflexivity|split; [wd|split; [first [assumption|reflexivity]|lb]]]
  | at4; split; [reflexivity|split; [reflexivity|split; [first [assumption|reflexivity]|lb]]]
  | at5; split; [reflexivity|split; [wd|split; [first [assumption|reflexivity]|lb]]]
  | at6; split; [reflexivity|split; [wd|split; [first [assumption|reflexivity]|split; [first [reflexivity|assumption]|lb]]]]
  | at7; split; [reflexivity|split; [reflexivity|split; [first [assumption|reflexivity]|lb]]]
  | at8; split; [reflexivity|split; [wd|split; [first [assumption|reflexivity]|lb]]] ].

Lemma inv_main b u y : inv b u y -> inv b u (fstep Main y).
Proof.
  destruct y as [[rx tx fl tf ab dre reg wire] todo got]. unfold inv. cbn [v_flat f_rx f_tx f_rxflow f_txflow f_abort f_dre f_reg f_wire v_todo].
  intros (-> & -> & NT & NP & HU & S). pose proof half2 as H2. cbn [UartProofs.fstep v_todo v_flat f_tx f_rx].
  destruct todo as [|[c|] todo].
  - cbn [v_flat f_rx f_tx f_rxflow f_txflow f_abort f_dre f_reg f_wire v_todo]. auto 10.
  - destruct (full tx); cbn [v_flat f_rx f_tx f_rxflow f_txflow f_abort f_dre f_reg f_wire v_todo]; [auto 10|].
    apply nofc_cons in NP. destruct NP as (C1 & C2 & NP). pose proof (nofc_snoc C1 C2 NT) as NT'. unfold fset_tx. cbn [f_rx f_tx f_rxflow f_txflow f_abort f_dre f_reg f_wire].
    assert (T : exists a l, tx ++ [c] = a :: l /\ a <> 17 /\ a <> 19 /\ nofc l).
    { destruct tx as [|a l]; cbn in *; [exists c, []; auto using nofc_cons; repeat split; auto; intros []|]. apply nofc_cons in NT'. exists a, (l ++ [c]). intuition. }
    destruct T as (a & l & TE & A1 & A2 & NL). rewrite TE in NT' |- *.
    split8 S; cbn; (split; [reflexivity|split; [reflexivity|split; [first [exact NT'|exact NL]|split; [exact NP|split; [exact HU|pick]]]]]).
  - destruct rx as [|c rx]; cbn [v_flat f_rx f_tx f_rxflow f_txflow f_abort f_dre f_reg f_wire v_todo]; [auto 10|].
    unfold fset_rx. cbn [f_rx f_tx f_rxflow f_txflow f_abort f_dre f_reg f_wire length] in *.
    assert (NP' : nofc (puts todo)) by exact NP.
    destruct rx as [|c' rx]; split8 S; cbn [length] in *; unfold b2z in *; cbn;
      try (split; [reflexivity|split; [reflexivity|split; [exact NT|split; [exact NP'|split; [exact HU|pick]]]]]).
Qed.
Lemma inv_shift_due b u y : inv b u y -> fstep Udre y = y.
Proof. intros (_ & D & _). cbn. rewrite D. destruct (fempty (v_flat y)); reflexivity. Qed.
Lemma inv_arrive u y c : plain c = true -> (told (f_wire (v_flat y)) = true \/ (u < lag)%nat) -> inv false u y ->
  full (f_rx (v_flat y)) = false /\ inv true (if told (f_wire (v_flat y)) then u else S u) (fstep (Rx c) y).
Proof.
  destruct y as [[rx tx fl tf ab dre reg wire] todo got]. unfold inv. cbn [v_flat f_rx f_tx f_rxflow f_txflow f_abort f_dre f_reg f_wire v_todo].
  intros P HT (-> & -> & NT & NP & HU & S). pose proof half2 as H2.
  assert (F : full rx = false).
  { unfold UartProofs.full. apply Z.eqb_neq. split8 S; rewrite W in HT; unfold b2z in N; destruct HT; try discriminate; lia. }
  split; [exact F|]. cbn [UartProofs.fstep v_todo v_flat f_tx f_rx]. unfold UartProofs.frx.
  unfold plain in P. destruct (c =? 3); [discriminate|]. destruct (c =? 17) eqn:C17; [discriminate|]. destruct (c =? 19) eqn:C19; [discriminate|]. destruct (c =? 20); [discriminate|].
  unfold UartProofs.fput. cbn [f_rx]. rewrite F. unfold fset_rx, UartProofs.fxoff. cbn [f_rx f_tx f_rxflow f_txflow f_abort f_dre f_reg f_wire]. rewrite app_length. cbn [length].
  destruct (Z.leb_spec half (Z.of_nat (length rx + 1))) as [HL|HL];
  split8 S; rewrite W in HT |- *; unfold b2z in N; destruct HT; try discriminate;
  cbn; rewrite ?app_length; cbn [length];
    try (exfalso; lia); (split; [reflexivity|split; [reflexivity|split; [exact NT|split; [exact NP|split; [lia|pick]]]]]).
Qed.
Lemma inv_tick b u y : inv b u y ->
  inv false (if told (f_wire (v_flat (frun [Shift; Udre] y))) then O else if told (f_wire (v_flat y)) then O else u) (frun [Shift; Udre] y).
Proof.
  destruct y as [[rx tx fl tf ab dre reg wire] todo got]. unfold inv. cbn [v_flat f_rx f_tx f_rxflow f_txflow f_abort f_dre f_reg f_wire v_todo].
  intros (-> & -> & NT & NP & HU & S). pose proof half2 as H2. cbn [UartProofs.frun UartProofs.fstep v_flat].
  assert (T : tx = [] \/ exists a l, tx = a :: l /\ a <> 17 /\ a <> 19 /\ nofc l).
  { destruct tx as [|a l]; auto. apply nofc_cons in NT. right. exists a, l. intuition. }
  destruct rx as [|r rx]; destruct T as [->|(a & l & -> & A1 & A2 & NL)]; split8 S; cbn [length] in N; unfold b2z in N; cbn;
    rewrite ?told_snoc, ?W; try rewrite (proj2 (Z.eqb_neq _ _) Q1); try rewrite (proj2 (Z.eqb_neq _ _) Q2); cbn;
    try (split; [reflexivity|split; [reflexivity|split; [first [exact NT|exact NL]|split; [exact NP|split; [lia|destruct b; pick]]]]]).
Qed.
Lemma inv_run : forall ms b u x y, wrel k x y -> inv b u y -> obeys k lag b u ms x ->
  exists x', run k (flat_map events ms) x = Ok x' /\ w_got x' ++ queue k (u_rx (w_uart x')) = (w_got x ++ queue k (u_rx (w_uart x))) ++ arrivals (flat_map events ms).
Proof.
  induction ms as [|m ms IH]; intros b u x y R J O.
  - exists x. split; [reflexivity|]. cbn. now rewrite app_nil_r.
  - cbn [flat_map]. destruct (rel_run Hk (events m) R) as (x1 & E1 & R1). cbn [obeys] in O. specialize (O x1 E1).
    assert (RW : forall A B, run k A x = Ok B -> forall C, run k (A ++ C) x = run k C B).
    { intros A. revert x R O E1 R1. clear. intros x _ _ _ _. revert x. induction A as [|e A IHA]; intros x B H C; cbn in *; [now inversion H|].
      destruct (step k e x) as [z| |]; cbn in *; try discriminate. apply IHA. exact H. }
    rewrite (RW _ _ E1). rewrite arrivals_app.
    assert (K : forall b' u', inv b' u' (frun (events m) y) -> obeys k lag b' u' ms x1 ->
      w_got x1 ++ queue k (u_rx (w_uart x1)) = (w_got x ++ queue k (u_rx (w_uart x))) ++ arrivals (events m) ->
      exists x', run k (flat_map events ms) x1 = Ok x' /\ w_got x' ++ queue k (u_rx (w_uart x')) = (w_got x ++ queue k (u_rx (w_uart x))) ++ arrivals (events m) ++ arrivals (flat_map events ms)).
    { intros b' u' J' O' Q. destruct (IH b' u' x1 _ R1 J' O') as (x' & E' & Q'). exists x'. split; [exact E'|]. rewrite Q', Q. now rewrite <- app_assoc. }
    assert (wire : forall x y, wrel k x y -> u_wire (w_uart x) = f_wire (v_flat y)) by (intros ? ? (RR & _); apply RR).
    rewrite (wire _ _ R) in *. try rewrite (wire _ _ R1) in *. rewrite (rel_rxq R), (rel_rxq R1) in *.
    assert (GX : w_got x = v_got y) by apply R. assert (GX1 : w_got x1 = v_got (frun (events m) y)) by apply R1. rewrite GX, GX1 in *.
    destruct m as [| |c|].
    + apply (K _ _ (inv_main J) O). cbn [events arrivals flat_map UartProofs.frun]. rewrite app_nil_r. exact (in_step_ok Hk Main y).
    + apply (K b u); [cbn [events UartProofs.frun]; now rewrite (inv_shift_due J)|exact O|]. cbn [events arrivals flat_map UartProofs.frun]. rewrite app_nil_r. exact (in_step_ok Hk Udre y).
    + destruct O as (P & -> & HT & O). destruct (@inv_arrive u y c P HT J) as (F & J'). apply (K _ _ J' O).
      cbn [events arrivals flat_map UartProofs.frun app]. destruct (in_step_ok Hk (Rx c) y) as [-> ->]. rewrite F, P.
      destruct (Z.eqb_spec c 3) as [->|]; [discriminate|]. now rewrite app_assoc.
    + apply (K _ _ (inv_tick J) O). cbn [events arrivals flat_map UartProofs.frun]. rewrite app_nil_r.
      transitivity (v_got (fstep Shift y) ++ f_rx (v_flat (fstep Shift y))); [exact (in_step_ok Hk Udre (fstep Shift y))|exact (in_step_ok Hk Shift y)].
Qed.
Theorem obeying prog ms : nofc (puts prog) -> obeys k lag false 0 ms (world_on k prog) ->
  exists x, run k (flat_map events ms) (world_on k prog) = Ok x /\ w_got x ++ queue k (u_rx (w_uart x)) = arrivals (flat_map events ms).
Proof.
  intros NP O. destruct (@inv_run ms false 0%nat _ _ (rel_on Hk prog)) as (x & E & Q); [|exact O|].
  - unfold inv. cbn. split; [reflexivity|]. split; [reflexivity|]. split; [split; intros []|]. split; [exact NP|]. split; [lia|]. left. auto with zarith.
  - exists x. split; [exact E|]. rewrite Q. rewrite (rel_rxq (rel_on Hk prog)). reflexivity.
Qed.
End Obey.

(** ** Where it stops *)
Definition idle_event (e : event) : Prop := match e with Rx _ => False | _ => True end.
Lemma no_arrivals es : arrivals es = [] -> Forall idle_event es.
Proof. induction es as [|e es IH]; constructor; destruct e; cbn in *; try discriminate; auto. Qed.
Definition stuck_out (w : list Z) (d : Z) (y : fworld) : Prop :=
  let f := v_flat y in
  f_txflow f = false /\ f_dre f = false /\ f_rxflow f = 1 /\ f_tx f = [d] /\ (exists m, v_todo y = repeat Get m) /\
  ((f_reg f = Some 20 /\ f_wire f = w) \/ (f_reg f = None /\ f_wire f = w ++ [20])).
Lemma stuck_out_step w d e y : idle_event e -> stuck_out w d y -> stuck_out w d (fstep e y).
Proof.
  destruct y as [[rx tx fl tf ab dre reg wire] todo got]. unfold stuck_out. cbn [v_flat f_rx f_tx f_rxflow f_txflow f_abort f_dre f_reg f_wire v_todo].
  intros I (-> & -> & -> & -> & (m & ->) & D). destruct e; [| elim I | |].
  - cbn. destruct m as [|m]; cbn; [split; auto; split; auto; split; auto; split; auto; split; [exists O; reflexivity|exact D]|].
    destruct rx as [|c rx]; cbn; split; auto; split; auto; split; auto; split; auto; (split; [eexists|exact D]); [exact (eq_refl (repeat Get (S m)))|reflexivity].
  - destruct D as [(-> & ->)|(-> & ->)]; cbn; split; auto; split; auto; split; auto; split; auto; split; eauto.
  - destruct D as [(-> & ->)|(-> & ->)]; cbn; split; auto; split; auto; split; auto; split; auto; split; eauto.
Qed.
Lemma fold_step (P : fworld -> Prop) : (forall e y, idle_event e -> P y -> P (fstep e y)) -> forall es y, Forall idle_event es -> P y -> P (frun es y).
Proof. intros H. induction es as [|e es IH]; intros y F J; cbn; auto. inversion F; subst. apply IH; auto. Qed.
Lemma flat_quiet x y : wrel k x y -> quiet (w_uart x) -> f_reg (v_flat y) = None /\ f_dre (v_flat y) = false /\ f_txflow (v_flat y) = false.
Proof. intros (R & _) (A & B & C). destruct R as (_ & _ & _ & <- & _ & <- & <- & _). auto. Qed.
Theorem echo_stalls prog es x d m evs : run k es (world_on k prog) = Ok x -> quiet (w_uart x) -> u_rxflow (w_uart x) = 1 ->
  queue k (u_tx (w_uart x)) = [] -> w_todo x = Put d :: repeat Get m -> arrivals evs = [] ->
  exists x', run k (es ++ Rx 20 :: Main :: evs) (world_on k prog) = Ok x' /\ queue k (u_tx (w_uart x')) = [d] /\
    (gone (w_uart x') = u_wire (w_uart x) ++ [20]).
Proof.
  intros E Q F T P A. destruct (rel_run Hk es (rel_on Hk prog)) as (x0 & E0 & R0). assert (x0 = x) as -> by congruence.
  destruct (rel_run Hk (es ++ Rx 20 :: Main :: evs) (rel_on Hk prog)) as (x' & E' & R'). exists x'. split; [exact E'|].
  destruct (flat_quiet R0 Q) as (QR & QD & QT). rewrite (rel_txq R') . rewrite (rel_txq R0) in T. rewrite frun_app in R' |- *. set (y := frun es (fworld_on prog)) in *.
  assert (F' : f_rxflow (v_flat y) = 1) by (rewrite <- F; symmetry; apply R0). assert (P' : v_todo y = Put d :: repeat Get m) by (rewrite <- P; symmetry; apply R0).
  assert (W' : u_wire (w_uart x) = f_wire (v_flat y)) by apply R0. rewrite W'.
  assert (J : stuck_out (f_wire (v_flat y)) d (frun (Rx 20 :: Main :: evs) y)).
  { cbn [UartProofs.frun]. apply (@fold_step (stuck_out (f_wire (v_flat y)) d)); [intros; now apply stuck_out_step|now apply no_arrivals|].
    clear R0 R' E' E W'. destruct y as [[rx tx fl tf ab dre reg wire] todo got]. cbn in *. subst. cbn. rewrite (full_nil Hk). unfold stuck_out. cbn. eauto 12. }
  destruct J as (_ & _ & _ & JT & _ & JW). split; [exact JT|]. destruct R' as (R' & _). rewrite (rel_gone R'). unfold fgone.
  destruct JW as [(-> & ->)|(-> & ->)]; [reflexivity|now rewrite app_nil_r].
Qed.
Definition stuck_in (g : list Z) (y : fworld) : Prop :=
  let f := v_flat y in
  f_txflow f = false /\ f_dre f = false /\ f_rxflow f = 0 /\ f_tx f = [] /\ f_rx f = [] /\ (exists m, v_todo y = repeat Get m) /\ v_got y = g /\
  (f_reg f = Some 20 \/ f_reg f = None) /\ told (f_wire f) = false.
Lemma stuck_in_step g e y : idle_event e -> stuck_in g y -> stuck_in g (fstep e y).
Proof.
  destruct y as [[rx tx fl tf ab dre reg wire] todo got]. unfold stuck_in. cbn [v_flat f_rx f_tx f_rxflow f_txflow f_abort f_dre f_reg f_wire v_todo].
  intros I (-> & -> & -> & -> & -> & (m & ->) & G & D & W). destruct e; [| elim I | |].
  - cbn. destruct m as [|m]; cbn; split; auto; split; auto; split; auto; split; auto; split; auto; (split; [eexists|auto]); [exact (eq_refl (repeat Get O))|exact (eq_refl (repeat Get (S m)))].
  - destruct D as [->| ->]; cbn; rewrite ?told_snoc; cbn; split; auto; split; auto; split; auto; split; auto; split; auto; split; eauto.
  - destruct D as [->| ->]; cbn; split; auto; split; auto; split; auto; split; auto; split; auto; split; eauto.
Qed.
Theorem input_stalls prog es x c m evs : run k es (world_on k prog) = Ok x -> quiet (w_uart x) -> u_rxflow (w_uart x) = 3 ->
  told (u_wire (w_uart x)) = false ->
  queue k (u_tx (w_uart x)) = [] -> queue k (u_rx (w_uart x)) = [c] -> w_todo x = Get :: repeat Get m -> arrivals evs = [] ->
  exists x', run k (es ++ Rx 20 :: Main :: evs) (world_on k prog) = Ok x' /\ w_got x' = w_got x ++ [c] /\
    queue k (u_rx (w_uart x')) = [] /\ told (u_wire (w_uart x')) = false.
Proof.
  intros E Q F W T X P A. destruct (rel_run Hk es (rel_on Hk prog)) as (x0 & E0 & R0). assert (x0 = x) as -> by congruence.
  destruct (rel_run Hk (es ++ Rx 20 :: Main :: evs) (rel_on Hk prog)) as (x' & E' & R'). exists x'. split; [exact E'|].
  destruct (flat_quiet R0 Q) as (QR & QD & QT). rewrite (rel_rxq R') . rewrite (rel_txq R0) in T. rewrite (rel_rxq R0) in X. rewrite frun_app in R' |- *. set (y := frun es (fworld_on prog)) in *.
  assert (F' : f_rxflow (v_flat y) = 3) by (rewrite <- F; symmetry; apply R0). assert (P' : v_todo y = Get :: repeat Get m) by (rewrite <- P; symmetry; apply R0).
  assert (W' : told (f_wire (v_flat y)) = false) by (rewrite <- W; f_equal; symmetry; apply R0). assert (G' : w_got x = v_got y) by apply R0. rewrite G'.
  assert (J : stuck_in (v_got y ++ [c]) (frun (Rx 20 :: Main :: evs) y)).
  { cbn [UartProofs.frun]. apply (@fold_step (stuck_in (v_got y ++ [c]))); [intros; now apply stuck_in_step|now apply no_arrivals|].
    clear R0 R' E' E W G'. destruct y as [[rx tx fl tf ab dre reg wire] todo got]. cbn in *. subst. unfold stuck_in. cbn. split; auto; split; auto; split; auto; split; auto; split; auto; split; eauto. }
  destruct J as (_ & _ & _ & _ & JX & _ & JG & _ & JW). destruct R' as (R' & _ & GG). split; [rewrite GG; exact JG|]. split; [exact JX|].
  rewrite <- JW. f_equal. apply R'.
Qed.
(** A host that has sent ^S is not told to stop *)
Lemma silent_run : forall l y, Forall (fun c => plain c = true) l -> f_txflow (v_flat y) = true -> f_reg (v_flat y) = None -> (f_rxflow (v_flat y) = 1 \/ f_rxflow (v_flat y) = 2) ->
  (length (f_rx (v_flat y)) <= Z.to_nat size)%nat ->
  let y' := frun (flat_map (fun c => [Rx c; Shift; Udre]) l) y in
  f_rx (v_flat y') = firstn (Z.to_nat size) (f_rx (v_flat y) ++ l) /\ f_wire (v_flat y') = f_wire (v_flat y) /\ v_got y' = v_got y.
Proof.
  pose proof (size_pos Hk) as HS.
  induction l as [|c l IH]; intros y FP T G FL L; cbn zeta.
  - cbn. rewrite app_nil_r. rewrite firstn_all2 by exact L. auto.
  - inversion FP as [|? ? P FP']; subst. cbn [flat_map UartProofs.frun app].
    set (y1 := fstep Udre (fstep Shift (fstep (Rx c) y))).
    assert (H : f_txflow (v_flat y1) = true /\ f_reg (v_flat y1) = None /\ (f_rxflow (v_flat y1) = 1 \/ f_rxflow (v_flat y1) = 2) /\
      f_rx (v_flat y1) = (if full (f_rx (v_flat y)) then f_rx (v_flat y) else f_rx (v_flat y) ++ [c]) /\ f_wire (v_flat y1) = f_wire (v_flat y) /\ v_got y1 = v_got y).
    { unfold y1. clear y1 IH. destruct y as [[rx tx fl tf ab dre reg wire] todo got]. cbn in T, G, FL. subst. cbn [UartProofs.fstep v_flat f_rx]. unfold UartProofs.frx, plain in *.
      destruct (c =? 3); [discriminate|]. destruct (c =? 17); [discriminate|]. destruct (c =? 19); [discriminate|]. destruct (c =? 20); [discriminate|].
      unfold UartProofs.fput. cbn [f_rx]. set (r := if full rx then rx else rx ++ [c]).
      replace (if full rx then _ else _) with {| f_rx := r; f_tx := tx; f_rxflow := fl; f_txflow := true; f_abort := ab; f_dre := dre; f_reg := None; f_wire := wire |}
        by (unfold r; destruct (full rx); reflexivity).
      unfold UartProofs.fxoff. cbn [f_rx f_rxflow]. destruct (half <=? _); destruct FL as [-> | ->]; cbn; destruct dre; cbn; auto 12. }
    destruct H as (H1 & H2 & H3 & H4 & H5 & H6). destruct (IH y1 FP' H1 H2 H3) as (A & B & C).
    { rewrite H4. destruct (full (f_rx (v_flat y))) eqn:FU; [exact L|]. rewrite app_length. cbn. unfold UartProofs.full in FU. apply Z.eqb_neq in FU. lia. }
    rewrite A, B, C, H4, H5, H6. split; [|auto]. destruct (full (f_rx (v_flat y))) eqn:FU.
    + unfold UartProofs.full in FU. apply Z.eqb_eq in FU. assert (LE : length (f_rx (v_flat y)) = Z.to_nat size) by lia. rewrite !firstn_app, LE, Nat.sub_diag. cbn. reflexivity.
    + now rewrite <- app_assoc.
Qed.
Theorem silenced c l : plain c = true -> Forall (fun c => plain c = true) l ->
  exists x, run k (Main :: ticks 3 ++ Rx 19 :: flat_map (fun c => [Rx c; Shift; Udre]) l) (world_on k [Put c]) = Ok x /\
    u_wire (w_uart x) = [17; c] /\ w_got x = [] /\ queue k (u_rx (w_uart x)) = firstn (Z.to_nat size) l.
Proof.
  intros P F. destruct (rel_run Hk (Main :: ticks 3 ++ Rx 19 :: flat_map (fun c => [Rx c; Shift; Udre]) l) (rel_on Hk [Put c])) as (x & E & R). exists x. split; [exact E|].
  rewrite (rel_rxq R). cbn [UartProofs.frun] in R |- *. rewrite frun_app in R |- *. cbn [UartProofs.frun] in R |- *.
  assert (Y : exists y, fstep (Rx 19) (frun (ticks 3) (fstep Main (fworld_on [Put c]))) = y /\ f_txflow (v_flat y) = true /\ f_reg (v_flat y) = None /\ f_rxflow (v_flat y) = 1 /\ f_rx (v_flat y) = [] /\
     f_wire (v_flat y) = [17; c] /\ v_got y = []).
  { eexists. split; [reflexivity|]. cbn. rewrite (full_nil Hk). cbn. auto 10. }
  destruct Y as (y & EY & Y1 & Y2 & Y3 & Y4 & Y5 & Y6). rewrite EY in R |- *. destruct (@silent_run l y F Y1 Y2 (or_introl Y3)) as (A & B & C); [rewrite Y4; cbn; lia|].
  destruct R as (R & _ & G). split; [transitivity (f_wire (v_flat (frun (flat_map (fun c => [Rx c; Shift; Udre]) l) y))); [apply R|now rewrite B]|].
  split; [rewrite G; now rewrite C|]. rewrite A, Y4. reflexivity.
Qed.

(** ** Silence *)
Lemma hush_start f : f_txflow f = true -> fstart f = f.
Proof. intros H. unfold fstart. rewrite H, andb_false_r. reflexivity. Qed.
Lemma hush_put c f : f_txflow f = true -> f_txflow (fput c f) = true /\ fgone (fput c f) = fgone f.
Proof.
  intros H. unfold UartProofs.fput. set (g := if full (f_rx f) then f else fset_rx (f_rx f ++ [c]) f).
  assert (G : f_txflow g = true /\ fgone g = fgone f) by (unfold g; destruct (full (f_rx f)); auto).
  unfold UartProofs.fxoff. destruct (_ && _); [|exact G]. rewrite hush_start; apply G.
Qed.
Lemma hush_step e y : f_txflow (v_flat y) = true -> e <> Rx 17 -> f_txflow (v_flat (fstep e y)) = true /\
  fgone (v_flat (fstep e y)) = fgone (v_flat y) ++ filter (fun c => c =? 20) (arrivals [e]).
Proof.
  intros T N. destruct e as [|c| |]; cbn [UartProofs.fstep arrivals flat_map filter app]; rewrite ?app_nil_r.
  - destruct (v_todo y) as [|[c|] l]; auto.
    + destruct (full (f_tx (v_flat y))); auto. cbn [v_flat]. rewrite hush_start; auto.
    + destruct (f_rx (v_flat y)) as [|c r]; auto. cbn [v_flat]. unfold fxon. destruct (_ && _); auto. rewrite hush_start; auto.
  - cbn [v_flat]. unfold UartProofs.frx. destruct (Z.eqb_spec c 3) as [->|].
    { cbn. rewrite app_nil_r. exact (@hush_put 3 (fabort (v_flat y)) T). }
    destruct (Z.eqb_spec c 19) as [->|]; [cbn; now rewrite app_nil_r|]. destruct (Z.eqb_spec c 17) as [->|]; [now elim N|].
    destruct (Z.eqb_spec c 20) as [->|].
    + unfold fshift, fgone. destruct (f_reg (v_flat y)); cbn; rewrite ?app_nil_r; auto.
    + rewrite app_nil_r. apply hush_put. exact T.
  - cbn [v_flat]. unfold fshift, fgone. destruct (f_reg (v_flat y)) eqn:G; cbn; rewrite ?G, ?app_nil_r; auto.
  - destruct (_ && _); auto. cbn [v_flat]. unfold fudre, fxon. destruct (_ && _); rewrite ?hush_start; auto. rewrite hush_start; exact T.
Qed.
Lemma hush_run : forall es y, f_txflow (v_flat y) = true -> ~ In 17 (arrivals es) ->
  fgone (v_flat (frun es y)) = fgone (v_flat y) ++ filter (fun c => c =? 20) (arrivals es).
Proof.
  induction es as [|e es IH]; intros y T N; cbn [UartProofs.frun]; [now rewrite app_nil_r|].
  change (e :: es) with ([e] ++ es) in *. rewrite arrivals_app in *. rewrite filter_app.
  destruct (@hush_step e y T) as [T' G]. { intros ->. apply N. now left. }
  rewrite IH; [rewrite G; now rewrite <- app_assoc|exact T'|]. intros I. apply N. apply in_or_app. now right.
Qed.
Theorem silence prog es evs : paused (arrivals es) = true -> ~ In 17 (arrivals evs) ->
  exists x x', run k es (world_on k prog) = Ok x /\ run k (es ++ evs) (world_on k prog) = Ok x' /\
    gone (w_uart x') = gone (w_uart x) ++ filter (fun c => c =? 20) (arrivals evs).
Proof.
  intros P N. destruct (rel_run Hk es (rel_on Hk prog)) as (x & E & R & _). destruct (rel_run Hk (es ++ evs) (rel_on Hk prog)) as (x' & E' & R' & _). exists x, x'. split; [exact E|]. split; [exact E'|].
  rewrite (rel_gone R), (rel_gone R'), frun_app. apply hush_run; [|exact N]. rewrite pause_run. exact P.
Qed.
End Uart.
