(** The serial line: what goes out, what comes in, and that it does not stop. *)
From Coq Require Import ZArith List Bool Lia.
From Verif Require Import Base UartModel UartSpec UartProofs.
Import ListNotations.
Local Open Scope Z_scope.
Local Open Scope outcome_scope.
Set Implicit Arguments.

Lemma woven_l_snoc a b c x : woven a b c -> woven (a ++ [x]) b (c ++ [x]).
Proof. induction 1; cbn; constructor; auto. constructor. Qed.
Lemma woven_r_snoc a b c x : woven a b c -> woven a (b ++ [x]) (c ++ [x]).
Proof. induction 1; cbn; constructor; auto. constructor. Qed.
Lemma flows_snoc : forall n q, flows_ q (S n) = flows_ q n ++ [if xorb q (Nat.odd n) then 17 else 19].
Proof.
  induction n as [|n IH]; intros q; [now destruct q|]. cbn [flows_] in *. rewrite IH. cbn [app]. do 2 f_equal.
  rewrite Nat.odd_succ, <- Nat.negb_odd. now destruct q, (Nat.odd n).
Qed.
Lemma puts_app a b : puts (a ++ b) = puts a ++ puts b.
Proof. unfold puts. apply flat_map_app. Qed.
Lemma arrivals_app a b : arrivals (a ++ b) = arrivals a ++ arrivals b.
Proof. unfold arrivals. apply flat_map_app. Qed.

Section Uart.
Variable k : Z.
Hypothesis Hk : 0 <= k <= 7.
Notation size := (2 ^ k).
Notation fxoff := (fxoff k).
Notation fput := (fput k).
Notation frx := (frx k).
Notation fstep := (fstep k).
Notation frun := (frun k).
Notation full := (full k).

(** ** What goes out *)
Definition fl (n : nat) (z : Z) : Prop := if Nat.odd n then z = 1 \/ z = 2 else z = 0 \/ z = 3.
Definition TI (acc : list Z) (f : flat) : Prop :=
  exists d c n, woven d c (fgone f) /\ filter (fun x => negb (x =? 20)) c = flows n /\ fl n (f_rxflow f) /\ acc = d ++ f_tx f.
Lemma TI_start acc f : TI acc f -> TI acc (fstart f).
Proof.
  intros (d & c & n & W & F & L & A). unfold fstart. destruct (fempty f && negb (f_txflow f)) eqn:E; [|exists d, c, n; auto].
  apply andb_prop in E as [E _]. unfold fempty in E. unfold fgone in W. destruct (f_reg f) eqn:R; [discriminate|]. rewrite app_nil_r in W.
  destruct (Z.land (f_rxflow f) 1 =? 0) eqn:P.
  - unfold fl in L. destruct (Nat.odd n) eqn:O.
    + destruct L as [L|L]; rewrite L in *; [discriminate|]. exists d, (c ++ [19]), (S n). unfold fsend, fnext, fgone. cbn. rewrite L. cbn.
      split; [apply woven_r_snoc; exact W|]. split; [rewrite filter_app, F; symmetry; etransitivity; [exact (flows_snoc n true)|rewrite O; reflexivity]|]. split; [|exact A]. unfold fl. rewrite Nat.odd_succ, <- Nat.negb_odd, O. cbn. auto.
    + destruct L as [L|L]; rewrite L in *; [|discriminate]. exists d, (c ++ [17]), (S n). unfold fsend, fnext, fgone. cbn. rewrite L. cbn.
      split; [apply woven_r_snoc; exact W|]. split; [rewrite filter_app, F; symmetry; etransitivity; [exact (flows_snoc n true)|rewrite O; reflexivity]|]. split; [|exact A]. unfold fl. rewrite Nat.odd_succ, <- Nat.negb_odd, O. cbn. auto.
  - destruct (f_tx f) as [|x l] eqn:T; [exists d, c, n; unfold fgone; rewrite R, app_nil_r, T; auto|].
    exists (d ++ [x]), c, n. unfold fsend, fset_tx, fgone. cbn. split; [apply woven_l_snoc; exact W|]. split; [exact F|]. split; [exact L|]. rewrite <- app_assoc. exact A.
Qed.
Lemma TI_next acc f : f_rxflow f = 1 \/ f_rxflow f = 3 -> TI acc f -> TI acc (fnext f).
Proof.
  intros H (d & c & n & W & F & L & A). exists d, c, n. unfold fnext, fgone in *. cbn. split; [exact W|]. split; [exact F|]. split; [|exact A]. unfold fl in *.
  destruct (Nat.odd n); destruct H as [H|H]; rewrite H in *; cbn; lia.
Qed.
Lemma TI_same acc f f' : fgone f' = fgone f -> f_rxflow f' = f_rxflow f -> f_tx f' = f_tx f -> TI acc f -> TI acc f'.
Proof. intros E1 E2 E3 (d & c & n & H). exists d, c, n. rewrite E1, E2, E3. exact H. Qed.
Lemma TI_xon acc f : TI acc f -> TI acc (fxon f).
Proof. intros H. unfold fxon. destruct (Z.eqb_spec (f_rxflow f) 3); cbn; auto. destruct (isnil (f_rx f)); auto. apply TI_start, TI_next; auto. Qed.
Lemma TI_xoff acc f : TI acc f -> TI acc (fxoff f).
Proof. intros H. unfold UartProofs.fxoff. destruct (Z.eqb_spec (f_rxflow f) 1); cbn; auto. destruct (_ <=? _); auto. apply TI_start, TI_next; auto. Qed.
Lemma TI_udre acc f : TI acc f -> TI acc (fudre f).
Proof. intros H. unfold fudre. apply TI_start, TI_xon. revert H. apply TI_same; reflexivity. Qed.
Lemma TI_put acc c f : TI acc f -> TI acc (fput c f).
Proof. intros H. unfold UartProofs.fput. apply TI_xoff. destruct (full (f_rx f)); auto. Qed.
Lemma TI_shift acc f : TI acc f -> TI acc (fshift f).
Proof. unfold fshift. destruct (f_reg f) as [c|] eqn:R; auto. apply TI_same; unfold fgone; cbn; rewrite ?R, ?app_nil_r; reflexivity. Qed.
Lemma TI_rx acc c f : TI acc f -> TI acc (frx c f).
Proof.
  intros H. unfold UartProofs.frx. destruct (c =? 3). { apply TI_put. revert H. apply TI_same; reflexivity. }
  destruct (c =? 19). { revert H. apply TI_same; reflexivity. } destruct (c =? 17). { apply TI_start. revert H. apply TI_same; reflexivity. }
  destruct (Z.eqb_spec c 20) as [->|]; [|apply TI_put; exact H].
  apply TI_shift in H. destruct H as (d & c & n & W & F & L & A). exists d, (c ++ [20]), n. unfold fset_reg, fgone in *. cbn.
  assert (f_reg (fshift f) = None) as R by (unfold fshift; destruct (f_reg f) eqn:E; auto). rewrite R, app_nil_r in W.
  split; [apply woven_r_snoc; exact W|]. split; [rewrite filter_app, F; cbn; apply app_nil_r|]. auto.
Qed.
Definition WI (prog : list act) (y : fworld) : Prop :=
  exists done, prog = done ++ v_todo y /\ TI (puts done) (v_flat y) /\ Z.of_nat (length (f_tx (v_flat y))) <= size.
Lemma len_start f : (length (f_tx (fstart f)) <= length (f_tx f))%nat.
Proof. unfold fstart. destruct (_ && _); auto. destruct (_ =? 0); auto. destruct (f_tx f) eqn:T; cbn; rewrite ?T; cbn; lia. Qed.
Lemma len_xon f : (length (f_tx (fxon f)) <= length (f_tx f))%nat.
Proof. unfold fxon. destruct (_ && _); auto. exact (len_start (fnext f)). Qed.
Lemma len_xoff f : (length (f_tx (fxoff f)) <= length (f_tx f))%nat.
Proof. unfold UartProofs.fxoff. destruct (_ && _); auto. exact (len_start (fnext f)). Qed.
Lemma len_put c f : (length (f_tx (fput c f)) <= length (f_tx f))%nat.
Proof. unfold UartProofs.fput. destruct (full (f_rx f)); exact (len_xoff _). Qed.
Lemma WI_step prog e y : WI prog y -> WI prog (fstep e y).
Proof.
  intros (dn & P & T & L). destruct e as [|c| |]; cbn [UartProofs.fstep].
  - destruct (v_todo y) as [|[c|] l] eqn:TD.
    + exists dn. rewrite TD. auto.
    + unfold UartProofs.full. destruct (Z.eqb_spec (Z.of_nat (length (f_tx (v_flat y)))) size) as [E|E]; [exists dn; rewrite TD; auto|].
      exists (dn ++ [Put c]). cbn [v_todo v_flat]. split; [rewrite <- app_assoc; exact P|]. split.
      * apply TI_start. destruct T as (d & ct & n & W & F & Lf & A). exists d, ct, n. split; [exact W|]. split; [exact F|]. split; [exact Lf|]. cbn. rewrite puts_app, A, <- app_assoc. reflexivity.
      * pose proof (len_start (fset_tx (f_tx (v_flat y) ++ [c]) (v_flat y))) as H. cbn in H. rewrite app_length in H. cbn in H. lia.
    + destruct (f_rx (v_flat y)) as [|c r] eqn:FR; [exists dn; rewrite TD; auto|].
      exists (dn ++ [Get]). cbn [v_todo v_flat]. split; [rewrite <- app_assoc; exact P|]. split.
      * apply TI_xon. rewrite puts_app. cbn. rewrite app_nil_r. revert T. apply TI_same; reflexivity.
      * pose proof (len_xon (fset_rx r (v_flat y))) as H. cbn in H. lia.
  - exists dn. cbn [v_todo v_flat]. split; [exact P|]. split; [apply TI_rx; exact T|]. unfold UartProofs.frx.
    destruct (c =? 3). { pose proof (len_put c (fabort (v_flat y))) as H. cbn in H. lia. } destruct (c =? 19); [exact L|].
    destruct (c =? 17). { pose proof (len_start (fset_txflow false (v_flat y))) as H. cbn in H. lia. }
    destruct (c =? 20). { unfold fshift. destruct (f_reg (v_flat y)); exact L. } pose proof (len_put c (v_flat y)). lia.
  - exists dn. cbn [v_todo v_flat]. split; [exact P|]. split; [apply TI_shift; exact T|]. unfold fshift. destruct (f_reg (v_flat y)); exact L.
  - destruct (_ && _); [|exists dn; auto]. exists dn. cbn [v_todo v_flat]. split; [exact P|]. split; [apply TI_udre; exact T|].
    unfold fudre. pose proof (len_start (fxon (fset_dre false (v_flat y)))). pose proof (len_xon (fset_dre false (v_flat y))) as H2. cbn in H2. lia.
Qed.
Lemma WI_run prog : forall es y, WI prog y -> WI prog (frun es y).
Proof. induction es as [|e es IH]; intros y H; cbn; auto. apply IH, WI_step, H. Qed.
Lemma WI_on prog : WI prog (fworld_on prog).
Proof.
  exists []. split; [reflexivity|]. split.
  - exists [], [], O. unfold fgone, fl. cbn. repeat split; auto. constructor.
  - cbn. pose proof (size_pos Hk). lia.
Qed.
Theorem out_order prog es : exists x, run k es (world_on k prog) = Ok x /\ exists dn d c n,
  prog = dn ++ w_todo x /\ puts dn = d ++ queue k (u_tx (w_uart x)) /\ Z.of_nat (length (queue k (u_tx (w_uart x)))) <= size /\
  woven d c (gone (w_uart x)) /\ filter (fun x => negb (x =? 20)) c = flows n.
Proof.
  destruct (rel_run Hk es (rel_on Hk prog)) as (x & E & R). exists x. split; [exact E|].
  destruct (WI_run es (WI_on prog)) as (dn & P & (d & c & n & W & F & _ & A) & L). exists dn, d, c, n. destruct R as (R & T & _).
  assert (queue k (u_tx (w_uart x)) = f_tx (v_flat (frun es (fworld_on prog)))) as -> by (apply rep_queue; apply R).
  rewrite (rel_gone R), T. auto.
Qed.

(** ** What comes in *)
Lemma rx_start f : f_rx (fstart f) = f_rx f.
Proof. unfold fstart. destruct (_ && _); auto. destruct (_ =? 0); auto. destruct (f_tx f); reflexivity. Qed.
Lemma rx_xon f : f_rx (fxon f) = f_rx f.
Proof. unfold fxon. destruct (_ && _); auto. exact (rx_start (fnext f)). Qed.
Lemma rx_xoff f : f_rx (fxoff f) = f_rx f.
Proof. unfold UartProofs.fxoff. destruct (_ && _); auto. exact (rx_start (fnext f)). Qed.
Lemma rx_put c f : f_rx (fput c f) = if full (f_rx f) then f_rx f else f_rx f ++ [c].
Proof. unfold UartProofs.fput. rewrite rx_xoff. destruct (full (f_rx f)); reflexivity. Qed.
Lemma rx_shift f : f_rx (fshift f) = f_rx f.
Proof. unfold fshift. destruct (f_reg f); reflexivity. Qed.
Lemma full_nil : full [] = false.
Proof. unfold UartProofs.full. pose proof (size_pos Hk). apply Z.eqb_neq. change (Z.of_nat (length [])) with 0. lia. Qed.
(** what one event does to what was given and what waits *)
Definition in_step (e : event) (got rx got' rx' : list Z) : Prop :=
  match e with
  | Rx c =>
      got' = got /\ rx' = (if c =? 3 then [3] else if plain c then if full rx then rx else rx ++ [c] else rx)
  | _ => got' ++ rx' = got ++ rx
  end.
Lemma in_step_ok e y : in_step e (v_got y) (f_rx (v_flat y)) (v_got (fstep e y)) (f_rx (v_flat (fstep e y))).
Proof.
  destruct e as [|c| |]; cbn [in_step UartProofs.fstep].
  - destruct (v_todo y) as [|[c|] l]; auto.
    + destruct (full (f_tx (v_flat y))); auto. cbn. now rewrite rx_start.
    + destruct (f_rx (v_flat y)) as [|c r] eqn:FR; [now rewrite FR|]. cbn. rewrite rx_xon. cbn. now rewrite <- app_assoc.
  - cbn. split; [reflexivity|]. unfold UartProofs.frx, plain. destruct (Z.eqb_spec c 3) as [->|].
    { rewrite rx_put. cbn [f_rx fabort]. rewrite full_nil. reflexivity. }
    destruct (c =? 19). { destruct (c =? 17); reflexivity. } destruct (c =? 17); cbn. { exact (rx_start (fset_txflow false (v_flat y))). }
    destruct (c =? 20); cbn. { apply rx_shift. } apply rx_put.
  - cbn. now rewrite rx_shift.
  - destruct (_ && _); auto. cbn. unfold fudre. now rewrite rx_start, rx_xon.
Qed.
Lemma in_order : forall es y, (forall es1 c es2, es = es1 ++ Rx c :: es2 -> plain c = true -> full (f_rx (v_flat (frun es1 y))) = false) ->
  ~ In 3 (arrivals es) -> v_got (frun es y) ++ f_rx (v_flat (frun es y)) = (v_got y ++ f_rx (v_flat y)) ++ filter plain (arrivals es).
Proof.
  induction es as [|e es IH]; intros y H N; cbn [UartProofs.frun].
  - cbn. now rewrite app_nil_r.
  - rewrite IH.
    + pose proof (in_step_ok e y) as I. destruct e as [|c| |]; cbn [in_step] in I; try (rewrite I; reflexivity). destruct I as [-> ->].
      cbn [arrivals flat_map app] in *. cbn [filter]. destruct (Z.eqb_spec c 3) as [->|]; [elim N; now left|].
      destruct (plain c) eqn:P; [|reflexivity]. pose proof (H [] c es eq_refl P) as HF. cbn in HF. rewrite HF. now rewrite <- !app_assoc.
    + intros es1 c es2 -> P. apply (H (e :: es1) c es2); auto.
    + intros I. apply N. destruct e; cbn; auto.
Qed.

(** ** It does not stop *)
(** [lo]: the line is alive *)
Definition alive (f : flat) : Prop :=
  0 <= f_rxflow f <= 3 /\ (f_reg f <> None -> f_dre f = true) /\ (f_rxflow f = 3 -> f_rx f = [] -> f_dre f = true) /\
  (f_txflow f = false -> f_dre f = true \/ (f_tx f = [] /\ (f_rxflow f = 1 \/ f_rxflow f = 3 \/ (f_rxflow f = 0 /\ f_wire f = [] /\ f_reg f = None)))).
Ltac four H fl := assert (fl = 0 \/ fl = 1 \/ fl = 2 \/ fl = 3) as H by lia.
Ltac fin :=
  unfold alive, fsend, fset_tx, fset_rx, fnext; cbn;
  split; [lia|]; split; [intros; auto; try congruence|]; split; [intros; auto; try congruence; try lia|];
  intros; try discriminate; auto; try (left; auto; congruence);
  try (left; match goal with B : Some _ <> None -> _ |- _ => apply B; discriminate end); try tauto.

Lemma alive_rx c f : c <> 20 -> alive f -> alive (frx c f).
Proof.
  intros N H. unfold UartProofs.frx, UartProofs.fput, UartProofs.fxoff, fabort. destruct f as [rx tx fl tf ab dr rg wi]. cbn [f_rx f_tx f_rxflow f_txflow f_abort f_dre f_reg f_wire].
  destruct H as (F & B & J & K). cbn in F, B, J, K. pose proof (size_pos Hk) as SP.
  destruct (Z.eqb_spec c 3). { rewrite full_nil. cbn [fset_rx f_rx f_tx f_rxflow f_txflow f_abort f_dre f_reg f_wire app]. change (Z.of_nat (length [c])) with 1. four E fl. destruct E as [->|[->|[->| ->]]]; destruct (size / 2 <=? 1); unfold fstart, fempty; cbn; destruct rg, tf; cbn; destruct tx; fin. }
  destruct (Z.eqb_spec c 19). { fin. } destruct (Z.eqb_spec c 17). { four E fl. destruct E as [->|[->|[->| ->]]]; unfold fstart, fempty; cbn; destruct rg; cbn; destruct tx; fin. }
  destruct (Z.eqb_spec c 20); [contradiction|]. destruct (full rx); cbn.
  - four E fl. destruct E as [->|[->|[->| ->]]]; cbn; try (destruct (size / 2 <=? Z.of_nat (length rx))); unfold fstart, fempty; cbn; destruct rg, tf; cbn; destruct tx, rx; fin.
  - four E fl. destruct E as [->|[->|[->| ->]]]; cbn; try (destruct (size / 2 <=? Z.of_nat (length (rx ++ [c])))); unfold fstart, fempty; cbn; destruct rg, tf; cbn; destruct tx, rx; fin.
Qed.
Lemma alive_start f : 0 <= f_rxflow f <= 3 -> (f_reg f <> None -> f_dre f = true) -> (f_rxflow f = 3 -> f_rx f = [] -> f_dre f = true) -> alive (fstart f).
Proof.
  intros F B J. destruct f as [rx tx fl tf ab dr rg wi]. cbn in F, B, J. unfold fstart, fempty. cbn [f_rx f_tx f_rxflow f_txflow f_abort f_dre f_reg f_wire].
  four E fl. destruct E as [->|[->|[->| ->]]]; destruct rg, tf; cbn; destruct tx, rx; fin.
Qed.
Lemma alive_xon f : 0 <= f_rxflow f <= 3 -> (f_reg f <> None -> f_dre f = true) ->
  (f_txflow f = false -> f_dre f = true \/ (f_tx f = [] /\ (f_rxflow f = 1 \/ f_rxflow f = 3 \/ (f_rxflow f = 0 /\ f_wire f = [] /\ f_reg f = None)))) -> alive (fxon f).
Proof.
  intros F B K. destruct f as [rx tx fl tf ab dr rg wi]. cbn in F, B, K. unfold fxon, fstart, fempty, fnext. cbn [f_rx f_tx f_rxflow f_txflow f_abort f_dre f_reg f_wire].
  four E fl. destruct E as [->|[->|[->| ->]]]; destruct rg, tf; cbn; destruct tx, rx; fin.
Qed.
Lemma alive_udre f : 0 <= f_rxflow f <= 3 -> f_reg f = None -> alive (fudre f).
Proof.
  intros F B. destruct f as [rx tx fl tf ab dr rg wi]. cbn in F, B. subst rg. unfold fudre, fxon, fstart, fempty, fnext, fset_dre. cbn [f_rx f_tx f_rxflow f_txflow f_abort f_dre f_reg f_wire].
  four E fl. destruct E as [->|[->|[->| ->]]]; destruct tf; cbn; destruct tx, rx; fin.
Qed.
Lemma alive_shift f : alive f -> alive (fshift f).
Proof. intros (F & B & J & K). unfold fshift. destruct f as [rx tx fl tf ab dr rg wi]. cbn in *. destruct rg; fin. Qed.
Lemma alive_step e y : e <> Rx 20 -> alive (v_flat y) -> alive (v_flat (fstep e y)).
Proof.
  intros N H. destruct e as [|c| |]; cbn [UartProofs.fstep].
  - destruct (v_todo y) as [|[c|] l]; auto.
    + destruct (full (f_tx (v_flat y))); auto. cbn [v_flat]. destruct H as (F & B & J & K). apply alive_start; auto.
    + destruct (f_rx (v_flat y)); auto. cbn [v_flat]. destruct H as (F & B & J & K). apply alive_xon; auto.
  - apply alive_rx; auto. congruence.
  - apply alive_shift; auto.
  - destruct (f_dre (v_flat y) && fempty (v_flat y)) eqn:E; auto. apply andb_prop in E as [_ E]. destruct H as (F & B & J & K). apply alive_udre; auto.
    unfold fempty in E. now destruct (f_reg (v_flat y)).
Qed.
Lemma alive_run : forall es y, ~ In 20 (arrivals es) -> alive (v_flat y) -> alive (v_flat (frun es y)).
Proof.
  induction es as [|e es IH]; intros y N H; cbn; auto. apply IH.
  - intros I. apply N. destruct e; cbn; auto.
  - apply alive_step; auto. intros ->. apply N. now left.
Qed.
Lemma alive_on : alive flat_on.
Proof. unfold alive, flat_on. cbn. intuition (auto; try lia; try congruence). Qed.

Lemma iter_r A (g : A -> A) : forall n x, Nat.iter (S n) g x = Nat.iter n g (g x).
Proof. induction n as [|n IH]; intros x; [reflexivity|]. change (g (Nat.iter (S n) g x) = g (Nat.iter n g (g x))). now rewrite IH. Qed.
(** the work left *)
Definition work (f : flat) : nat :=
  length (f_tx f) + (if f_rxflow f =? 2 then 2 else if f_rxflow f =? 0 then 1 else if (f_rxflow f =? 3) && isnil (f_rx f) then 1 else 0).
Definition ftick (f : flat) : flat := let f := fshift f in if f_dre f && fempty f then fudre f else f.
Definition rests (f : flat) : Prop := f_dre f = false /\ f_reg f = None.
Lemma tick_work f : alive f -> f_txflow f = false -> rests (ftick f) \/ (work (ftick f) < work f)%nat.
Proof.
  intros (F & B & J & K) T. destruct f as [rx tx fl tf ab dr rg wi]. cbn in F, B, J, K, T. subst tf. four E fl.
  assert (dr = false -> rg = None) as B' by (intros ->; destruct rg; auto; discriminate B; discriminate). clear F B J K.
  destruct dr; [|rewrite B' by reflexivity; left; split; reflexivity].
  destruct E as [->|[->|[->| ->]]]; destruct rg, tx, rx; cbn; try (left; split; reflexivity); right; lia.
Qed.
Lemma pause_start f : f_txflow (fstart f) = f_txflow f.
Proof. unfold fstart. destruct (_ && _); auto. destruct (_ =? 0); auto. destruct (f_tx f); reflexivity. Qed.
Lemma pause_xon f : f_txflow (fxon f) = f_txflow f.
Proof. unfold fxon. destruct (_ && _); auto. exact (pause_start (fnext f)). Qed.
Lemma tick_keeps f : alive f -> alive (ftick f) /\ f_txflow (ftick f) = f_txflow f /\ f_rx (ftick f) = f_rx f.
Proof.
  intros H. unfold ftick. pose proof (alive_shift H) as H1. assert (f_txflow (fshift f) = f_txflow f /\ f_rx (fshift f) = f_rx f) as [T R] by (unfold fshift; destruct (f_reg f); auto).
  destruct (f_dre (fshift f) && fempty (fshift f)) eqn:E; [|auto]. apply andb_prop in E as [_ E]. split.
  - apply alive_udre; [apply H1|]. unfold fempty in E. now destruct (f_reg (fshift f)).
  - split; unfold fudre; [rewrite pause_start, pause_xon; exact T|rewrite rx_start, rx_xon; exact R].
Qed.
Lemma run_ticks : forall n y, v_flat (frun (ticks n) y) = Nat.iter n ftick (v_flat y) /\ v_todo (frun (ticks n) y) = v_todo y /\ v_got (frun (ticks n) y) = v_got y.
Proof.
  induction n as [|n IH]; intros y; cbn [ticks UartProofs.frun]; auto. destruct (IH (fstep Udre (fstep Shift y))) as (E & T & G).
  rewrite E, T, G. assert (v_flat (fstep Udre (fstep Shift y)) = ftick (v_flat y) /\ v_todo (fstep Udre (fstep Shift y)) = v_todo y /\ v_got (fstep Udre (fstep Shift y)) = v_got y) as (-> & -> & ->).
  { cbn. unfold ftick. destruct (_ && _); auto. } split; auto. now rewrite iter_r.
Qed.
Lemma drains : forall n f, (work f <= n)%nat -> alive f -> f_txflow f = false ->
  exists m, rests (Nat.iter m ftick f) /\ alive (Nat.iter m ftick f) /\ f_txflow (Nat.iter m ftick f) = false /\ f_rx (Nat.iter m ftick f) = f_rx f.
Proof.
  induction n as [|n IH]; intros f W A T; destruct (tick_keeps A) as (A1 & T1 & R1); destruct (tick_work A T) as [H|H]; try lia.
  - exists 1%nat. cbn. rewrite T1. auto.
  - exists 1%nat. cbn. rewrite T1. auto.
  - destruct (IH (ftick f)) as (m & H1 & H2 & H3 & H4); [lia|exact A1|congruence|]. exists (S m). rewrite iter_r. rewrite H4. auto.
Qed.
Lemma pause_put c f : f_txflow (fput c f) = f_txflow f.
Proof. unfold UartProofs.fput, UartProofs.fxoff. destruct (full (f_rx f)); destruct (_ && _); auto; exact (pause_start (fnext _)). Qed.
Lemma pause_run : forall es y, f_txflow (v_flat (frun es y)) = fold_left (fun b c => if c =? 19 then true else if c =? 17 then false else b) (arrivals es) (f_txflow (v_flat y)).
Proof.
  induction es as [|e es IH]; intros y; cbn [UartProofs.frun]; auto. rewrite IH. destruct e as [|c| |]; cbn [arrivals flat_map app fold_left]; f_equal; cbn [UartProofs.fstep].
  - destruct (v_todo y) as [|[c|] l]; auto.
    + destruct (full (f_tx (v_flat y))); auto. exact (pause_start _).
    + destruct (f_rx (v_flat y)); auto. exact (pause_xon _).
  - cbn [v_flat]. unfold UartProofs.frx. destruct (Z.eqb_spec c 3) as [->|]; [exact (pause_put _ _)|]. destruct (c =? 19); [reflexivity|].
    destruct (c =? 17); [exact (pause_start _)|]. destruct (c =? 20); [|exact (pause_put _ _)]. cbn. unfold fshift. now destruct (f_reg (v_flat y)).
  - cbn. unfold fshift. now destruct (f_reg (v_flat y)).
  - destruct (_ && _); auto. cbn. unfold fudre. now rewrite pause_start, pause_xon.
Qed.
Lemma frun_app : forall a b y, frun (a ++ b) y = frun b (frun a y).
Proof. induction a as [|e a IH]; intros b y; cbn; auto. Qed.
Theorem goes_on prog es : ~ In 20 (arrivals es) -> paused (arrivals es) = false ->
  exists n x, run k (es ++ ticks n) (world_on k prog) = Ok x /\ u_reg (w_uart x) = None /\ u_dre (w_uart x) = false /\ queue k (u_tx (w_uart x)) = [] /\
  exists dn c m, prog = dn ++ w_todo x /\ woven (puts dn) c (u_wire (w_uart x)) /\ filter (fun x => negb (x =? 20)) c = flows m /\
    (queue k (u_rx (w_uart x)) = [] -> u_wire (w_uart x) <> [] -> Nat.odd m = true).
Proof.
  intros N P. set (y := frun es (fworld_on prog)).
  assert (alive (v_flat y)) as A by (apply alive_run; [exact N|exact alive_on]).
  assert (f_txflow (v_flat y) = false) as T by (unfold y; rewrite pause_run; exact P).
  destruct (drains (le_n _) A T) as (n & (D & G) & A' & T' & RX). exists n.
  destruct (rel_run Hk (es ++ ticks n) (rel_on Hk prog)) as (x & E & R). exists x. split; [exact E|].
  rewrite frun_app in R. fold y in R. destruct (run_ticks n y) as (F & TD & GT).
  assert (WI prog (frun (ticks n) y)) as (dn & PD & (d & c & m & W & FL & FLOW & AC) & L) by (apply WI_run, WI_run, WI_on).
  rewrite F in *. destruct R as (R & TD' & _). rewrite F in R. set (f := Nat.iter n ftick (v_flat y)) in *.
  assert (f_tx f = [] /\ (f_rxflow f = 1 \/ f_rxflow f = 3 \/ (f_rxflow f = 0 /\ f_wire f = [] /\ f_reg f = None))) as (TX & FW).
  { destruct A' as (_ & _ & _ & K). destruct (K T'); [congruence|auto]. }
  split; [transitivity (f_reg f); [apply R|exact G]|]. split; [transitivity (f_dre f); [apply R|exact D]|]. split; [rewrite <- TX; apply rep_queue; apply R|].
  exists dn, c, m. split; [rewrite TD'; exact PD|]. split.
  { unfold fgone in W. rewrite G, app_nil_r in W. rewrite AC, TX, app_nil_r. assert (u_wire (w_uart x) = f_wire f) as -> by apply R. exact W. }
  split; [exact FL|]. intros Q NE. assert (f_rx f = []) as Q'. { rewrite <- Q. symmetry. apply rep_queue. apply R. }
  unfold fl in FLOW. destruct (Nat.odd m); [reflexivity|exfalso]. destruct A' as (_ & _ & J & _).
  destruct FLOW as [FLOW|FLOW]; [|specialize (J FLOW Q'); congruence]. destruct FW as [FW|[FW|(_ & FW & _)]]; try lia. apply NE. assert (u_wire (w_uart x) = f_wire f) as -> by apply R. exact FW.
Qed.
End Uart.
