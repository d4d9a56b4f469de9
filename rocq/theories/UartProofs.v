(** The serial line: from rings to lists. *)
From Coq Require Import ZArith List Bool Lia.
From Verif Require Import Base UartModel UartSpec.
Import ListNotations.
Local Open Scope Z_scope.
Local Open Scope outcome_scope.
Set Implicit Arguments.

(** * Rings *)
Lemma set_nth_some : forall l n v, (n < length l)%nat -> exists l', set_nth l n v = Some l' /\ length l' = length l /\
  forall i, nth_error l' i = if Nat.eqb i n then Some v else nth_error l i.
Proof.
  induction l as [|a l IH]; intros n v H; cbn in H; [lia|]. destruct n as [|n]; cbn.
  - eexists. split; [reflexivity|]. split; [reflexivity|]. intros [|i]; reflexivity.
  - destruct (IH n v) as (l' & -> & L & N); [lia|]. eexists. split; [reflexivity|]. split; [cbn; lia|]. intros [|i]; cbn; auto.
Qed.

Section Uart.
Variable k : Z.
Hypothesis Hk : 0 <= k <= 7.
Notation size := (2 ^ k).

Lemma size_pos : 1 <= size <= 128.
Proof. assert (H : 2 ^ 0 <= 2 ^ k <= 2 ^ 7) by (split; apply Z.pow_le_mono_r; lia). exact H. Qed.
Lemma land_size x : Z.land x (size - 1) = x mod size.
Proof. rewrite <- Z.land_ones by lia. rewrite Z.ones_equiv. reflexivity. Qed.
Lemma wrap_small x : 0 <= x < 256 -> wrapu 8 x = x.
Proof. intros H. unfold wrapu. apply Z.mod_small. exact H. Qed.

(** the ring holds this list *)
Definition rep (r : ring) (l : list Z) : Prop :=
  0 <= r_read r < size /\ r_count r = Z.of_nat (length l) /\ Z.of_nat (length l) <= size /\ Z.of_nat (length (r_buf r)) = size /\
  forall i, (i < length l)%nat -> nth_error (r_buf r) (Z.to_nat ((r_read r + Z.of_nat i) mod size)) = nth_error l i.

Lemma rep_queue r l : rep r l -> queue k r = l.
Proof.
  intros (Hr & Hc & Hl & Hb & Hn). unfold queue. rewrite Hc, Nat2Z.id.
  set (g := fun i : nat => nth (Z.to_nat ((r_read r + Z.of_nat i) mod 2 ^ k)) (r_buf r) 0).
  apply nth_ext with (d := g O) (d' := 0). { now rewrite map_length, seq_length. }
  intros i Hi. rewrite map_length, seq_length in Hi.
  rewrite (map_nth g). rewrite seq_nth by exact Hi. cbn [Nat.add]. specialize (Hn i Hi). rewrite (nth_error_nth' l 0 Hi) in Hn. unfold g. apply nth_error_nth. exact Hn.
Qed.
Lemma ring_get_rep r l : rep r l -> match l with
  | [] => ring_get k r = Ok (None, r)
  | c :: l' => exists r', ring_get k r = Ok (Some c, r') /\ rep r' l' end.
Proof.
  intros (Hr & Hc & Hl & Hb & Hn). pose proof size_pos as HP. unfold ring_get, ring_empty, RINGSIZE. rewrite Hc. destruct l as [|c l].
  - reflexivity.
  - cbn [length] in *. destruct (Z.eqb_spec (Z.of_nat (S (length l))) 0); [lia|].
    pose proof (Hn O ltac:(lia)) as H0. cbn in H0. rewrite Z.add_0_r, Z.mod_small in H0 by lia. rewrite H0.
    eexists. split; [reflexivity|]. rewrite land_size. pose proof (Z.mod_pos_bound (r_read r + 1) size ltac:(lia)) as HB. rewrite wrap_small by lia. rewrite wrap_small by lia.
    unfold rep. cbn [r_read r_count r_buf]. split; [exact HB|]. split; [lia|]. split; [lia|]. split; [exact Hb|].
    intros i Hi. specialize (Hn (S i) ltac:(lia)). cbn [nth_error] in Hn. rewrite <- Hn. f_equal. f_equal. rewrite Zplus_mod_idemp_l. f_equal. lia.
Qed.
Lemma ring_put_rep r l c : rep r l -> if Z.of_nat (length l) =? size then ring_put k r c = Ok (false, r)
  else exists r', ring_put k r c = Ok (true, r') /\ rep r' (l ++ [c]).
Proof.
  intros (Hr & Hc & Hl & Hb & Hn). pose proof size_pos as HP. unfold ring_put, ring_full, RINGSIZE. rewrite Hc. destruct (Z.eqb_spec (Z.of_nat (length l)) size) as [E|E]; [reflexivity|].
  rewrite land_size. pose proof (Z.mod_pos_bound (r_read r + Z.of_nat (length l)) size ltac:(lia)) as HB. rewrite wrap_small by lia. rewrite wrap_small by lia.
  destruct (@set_nth_some (r_buf r) (Z.to_nat ((r_read r + Z.of_nat (length l)) mod size)) c) as (b & -> & LB & NB); [lia|].
  eexists. split; [reflexivity|]. unfold rep. cbn [r_read r_count r_buf]. rewrite app_length. cbn [length].
  split; [exact Hr|]. split; [lia|]. split; [lia|]. split; [lia|]. intros i Hi. rewrite NB.
  destruct (Nat.eqb_spec (Z.to_nat ((r_read r + Z.of_nat i) mod size)) (Z.to_nat ((r_read r + Z.of_nat (length l)) mod size))) as [D|D].
  - assert (i = length l) as ->.
    { pose proof (Z.mod_pos_bound (r_read r + Z.of_nat i) size ltac:(lia)). apply Z2Nat.inj in D; [|lia|lia].
      assert (Hlt : Z.of_nat i <= Z.of_nat (length l)) by lia.
      assert (HM : (Z.of_nat (length l) - Z.of_nat i) mod size = 0).
      { replace (Z.of_nat (length l) - Z.of_nat i) with ((r_read r + Z.of_nat (length l)) - (r_read r + Z.of_nat i)) by lia. rewrite Zminus_mod, D, Z.sub_diag. apply Z.mod_0_l. lia. }
      rewrite Z.mod_small in HM by lia. lia. }
    rewrite nth_error_app2 by lia. rewrite Nat.sub_diag. reflexivity.
  - assert (i <> length l) by (intros ->; apply D; reflexivity). rewrite nth_error_app1 by lia. apply Hn. lia.
Qed.
Lemma rep_clear r l : rep r l -> rep {| r_read := r_read r; r_count := 0; r_buf := r_buf r |} [].
Proof. intros (Hr & Hc & Hl & Hb & Hn). unfold rep. cbn. split; [exact Hr|]. split; [reflexivity|]. split; [lia|]. split; [exact Hb|]. intros i Hi. lia. Qed.
Lemma rep_none : rep (no_ring k) [].
Proof. pose proof size_pos. unfold rep, no_ring, RINGSIZE. cbn. split; [lia|]. split; [reflexivity|]. split; [lia|]. split; [rewrite repeat_length; lia|]. intros i Hi. lia. Qed.

(** * The same with lists *)
Record flat := { f_rx : list Z; f_tx : list Z; f_rxflow : Z; f_txflow : bool; f_abort : bool; f_dre : bool; f_reg : option Z; f_wire : list Z }.
Definition rel (s : uart) (f : flat) : Prop :=
  rep (u_rx s) (f_rx f) /\ rep (u_tx s) (f_tx f) /\ u_rxflow s = f_rxflow f /\ u_txflow s = f_txflow f /\ u_abort s = f_abort f /\
  u_dre s = f_dre f /\ u_reg s = f_reg f /\ u_wire s = f_wire f.
Definition fnext (f : flat) : flat :=
  {| f_rx := f_rx f; f_tx := f_tx f; f_rxflow := Z.land (f_rxflow f + 1) 3; f_txflow := f_txflow f; f_abort := f_abort f; f_dre := f_dre f; f_reg := f_reg f; f_wire := f_wire f |}.
Definition fsend (c : Z) (f : flat) : flat :=
  {| f_rx := f_rx f; f_tx := f_tx f; f_rxflow := f_rxflow f; f_txflow := f_txflow f; f_abort := f_abort f; f_dre := true; f_reg := Some c; f_wire := f_wire f |}.
Definition fset_rx v (f : flat) : flat :=
  {| f_rx := v; f_tx := f_tx f; f_rxflow := f_rxflow f; f_txflow := f_txflow f; f_abort := f_abort f; f_dre := f_dre f; f_reg := f_reg f; f_wire := f_wire f |}.
Definition fset_tx v (f : flat) : flat :=
  {| f_rx := f_rx f; f_tx := v; f_rxflow := f_rxflow f; f_txflow := f_txflow f; f_abort := f_abort f; f_dre := f_dre f; f_reg := f_reg f; f_wire := f_wire f |}.
Definition fset_txflow v (f : flat) : flat :=
  {| f_rx := f_rx f; f_tx := f_tx f; f_rxflow := f_rxflow f; f_txflow := v; f_abort := f_abort f; f_dre := f_dre f; f_reg := f_reg f; f_wire := f_wire f |}.
Definition fset_dre v (f : flat) : flat :=
  {| f_rx := f_rx f; f_tx := f_tx f; f_rxflow := f_rxflow f; f_txflow := f_txflow f; f_abort := f_abort f; f_dre := v; f_reg := f_reg f; f_wire := f_wire f |}.
Definition fset_reg v (f : flat) : flat :=
  {| f_rx := f_rx f; f_tx := f_tx f; f_rxflow := f_rxflow f; f_txflow := f_txflow f; f_abort := f_abort f; f_dre := f_dre f; f_reg := v; f_wire := f_wire f |}.
Definition fabort (f : flat) : flat :=
  {| f_rx := []; f_tx := f_tx f; f_rxflow := f_rxflow f; f_txflow := f_txflow f; f_abort := true; f_dre := f_dre f; f_reg := f_reg f; f_wire := f_wire f |}.
Definition fshift (f : flat) : flat :=
  match f_reg f with
  | None => f
  | Some c => {| f_rx := f_rx f; f_tx := f_tx f; f_rxflow := f_rxflow f; f_txflow := f_txflow f; f_abort := f_abort f; f_dre := f_dre f; f_reg := None; f_wire := f_wire f ++ [c] |}
  end.
Definition fempty (f : flat) : bool := match f_reg f with None => true | Some _ => false end.
Definition isnil (l : list Z) : bool := match l with [] => true | _ => false end.
Definition fstart (f : flat) : flat :=
  if fempty f && negb (f_txflow f) then
    if Z.land (f_rxflow f) 1 =? 0 then let f := fnext f in fsend (if f_rxflow f =? 1 then 17 else 19) f
    else match f_tx f with [] => f | c :: l => fsend c (fset_tx l f) end
  else f.
Definition fxon (f : flat) : flat := if (f_rxflow f =? 3) && isnil (f_rx f) then fstart (fnext f) else f.
Definition fxoff (f : flat) : flat := if (f_rxflow f =? 1) && (size / 2 <=? Z.of_nat (length (f_rx f))) then fstart (fnext f) else f.
Definition fudre (f : flat) : flat := fstart (fxon (fset_dre false f)).
Definition full (l : list Z) : bool := Z.of_nat (length l) =? size.
Definition fput (c : Z) (f : flat) : flat := fxoff (if full (f_rx f) then f else fset_rx (f_rx f ++ [c]) f).
Definition frx (c : Z) (f : flat) : flat :=
  if c =? 3 then fput c (fabort f)
  else if c =? 19 then fset_txflow true f
  else if c =? 17 then fstart (fset_txflow false f)
  else if c =? 20 then fset_reg (Some c) (fshift f)
  else fput c f.
Record fworld := { v_flat : flat; v_todo : list act; v_got : list Z }.
Definition fstep (e : event) (x : fworld) : fworld :=
  let f := v_flat x in
  match e with
  | Main =>
      match v_todo x with
      | [] => x
      | Put c :: l => if full (f_tx f) then x else {| v_flat := fstart (fset_tx (f_tx f ++ [c]) f); v_todo := l; v_got := v_got x |}
      | Get :: l => match f_rx f with [] => x | c :: r => {| v_flat := fxon (fset_rx r f); v_todo := l; v_got := v_got x ++ [c] |} end
      end
  | Rx c => {| v_flat := frx c f; v_todo := v_todo x; v_got := v_got x |}
  | Shift => {| v_flat := fshift f; v_todo := v_todo x; v_got := v_got x |}
  | Udre => if f_dre f && fempty f then {| v_flat := fudre f; v_todo := v_todo x; v_got := v_got x |} else x
  end.
Fixpoint frun (es : list event) (x : fworld) : fworld := match es with [] => x | e :: es' => frun es' (fstep e x) end.
Definition wrel (x : world) (y : fworld) : Prop := rel (w_uart x) (v_flat y) /\ w_todo x = v_todo y /\ w_got x = v_got y.

Ltac rels := unfold rel in *; cbn in *; intuition (auto; try congruence).
Lemma rel_start s f : rel s f -> exists s', tx_start k s = Ok s' /\ rel s' (fstart f).
Proof.
  intros R. unfold tx_start, fstart. assert (tx_empty s = fempty f) as -> by (unfold tx_empty, fempty; destruct R as (_ & _ & _ & _ & _ & _ & -> & _); reflexivity).
  assert (u_txflow s = f_txflow f) as -> by apply R. assert (u_rxflow s = f_rxflow f) as F by apply R. rewrite F.
  destruct (fempty f && negb (f_txflow f)); [|exists s; auto].
  destruct (Z.land (f_rxflow f) 1 =? 0).
  - eexists. split; [reflexivity|]. rels. rewrite F. reflexivity.
  - assert (rep (u_tx s) (f_tx f)) as RT by apply R. pose proof (ring_get_rep RT) as G. destruct (f_tx f) as [|c l] eqn:T.
    + rewrite G. cbn. exists s. auto.
    + destruct G as (r' & -> & RR). cbn. eexists. split; [reflexivity|]. rels.
Qed.
Lemma rel_next s f : rel s f -> rel (next_flow s) (fnext f).
Proof. intros R. unfold next_flow. rels. Qed.
Lemma rel_xon s f : rel s f -> exists s', xon k s = Ok s' /\ rel s' (fxon f).
Proof.
  intros R. unfold xon, fxon. assert (u_rxflow s = f_rxflow f) as -> by apply R.
  assert (ring_empty (u_rx s) = isnil (f_rx f)) as ->.
  { assert (rep (u_rx s) (f_rx f)) as (_ & H & _) by apply R. unfold ring_empty. rewrite H. destruct (f_rx f); reflexivity. }
  destruct ((f_rxflow f =? 3) && isnil (f_rx f)); [|exists s; auto]. apply rel_start. apply rel_next. exact R.
Qed.
Lemma rel_xoff s f : rel s f -> exists s', xoff k s = Ok s' /\ rel s' (fxoff f).
Proof.
  intros R. unfold xoff, fxoff. assert (u_rxflow s = f_rxflow f) as -> by apply R.
  assert (ring_mostly_full k (u_rx s) = (size / 2 <=? Z.of_nat (length (f_rx f)))) as ->.
  { assert (rep (u_rx s) (f_rx f)) as (_ & H & _) by apply R. unfold ring_mostly_full, RINGSIZE. rewrite H. reflexivity. }
  destruct ((f_rxflow f =? 1) && (size / 2 <=? Z.of_nat (length (f_rx f)))); [|exists s; auto]. apply rel_start. apply rel_next. exact R.
Qed.
Lemma rel_udre s f : rel s f -> exists s', isr_udre k s = Ok s' /\ rel s' (fudre f).
Proof.
  intros R. unfold isr_udre, fudre. destruct (@rel_xon (with_dre false s) (fset_dre false f)) as (s1 & -> & R1); [rels|]. cbn. apply rel_start. exact R1.
Qed.
Lemma rel_put c s f : rel s f -> exists s', (let! (_, r) := ring_put k (u_rx s) c in xoff k (with_rx r s)) = Ok s' /\ rel s' (fput c f).
Proof.
  intros R. unfold fput, full. assert (rep (u_rx s) (f_rx f)) as RT by apply R. pose proof (ring_put_rep c RT) as G. destruct (Z.of_nat (length (f_rx f)) =? size).
  - rewrite G. cbn. apply rel_xoff. rels.
  - destruct G as (r' & -> & RR). cbn. apply rel_xoff. rels.
Qed.
Lemma rel_shift s f : rel s f -> rel (shift s) (fshift f).
Proof. intros R. unfold shift, fshift. assert (u_reg s = f_reg f) as -> by apply R. destruct (f_reg f); rels. Qed.
Lemma rel_rx c s f : rel s f -> exists s', isr_rx k c s = Ok s' /\ rel s' (frx c f).
Proof.
  intros R. unfold isr_rx, frx. destruct (c =? 3).
  - apply rel_put. assert (rep (u_rx s) (f_rx f)) as RT by apply R. pose proof (rep_clear RT). rels.
  - destruct (c =? 19); [eexists; split; [reflexivity|]; rels|]. destruct (c =? 17); [apply rel_start; rels|].
    destruct (c =? 20); [|apply rel_put; exact R]. eexists. split; [reflexivity|]. pose proof (rel_shift R). rels.
Qed.
Lemma rel_step e x y : wrel x y -> exists x', step k e x = Ok x' /\ wrel x' (fstep e y).
Proof.
  intros (R & T & G). destruct e as [|c| |]; cbn [step fstep].
  - rewrite T. destruct (v_todo y) as [|[c|] l] eqn:TD.
    + exists x. unfold wrel. rewrite TD. auto.
    + unfold put_try. assert (rep (u_tx (w_uart x)) (f_tx (v_flat y))) as RT by apply R. pose proof (ring_put_rep c RT) as P. unfold full. destruct (Z.of_nat (length (f_tx (v_flat y))) =? size).
      * rewrite P. cbn. eexists. split; [reflexivity|]. unfold wrel. cbn. rewrite TD. auto.
      * destruct P as (r' & -> & RR). cbn. destruct (@rel_start (with_tx r' (w_uart x)) (fset_tx (f_tx (v_flat y) ++ [c]) (v_flat y))) as (s1 & -> & R1); [rels|]. cbn.
        eexists. split; [reflexivity|]. unfold wrel. cbn. auto.
    + unfold get_try. assert (rep (u_rx (w_uart x)) (f_rx (v_flat y))) as RT by apply R. pose proof (ring_get_rep RT) as P. destruct (f_rx (v_flat y)) as [|c r] eqn:FR.
      * rewrite P. cbn. eexists. split; [reflexivity|]. unfold wrel. cbn. rewrite TD. auto.
      * destruct P as (r' & -> & RR). cbn. destruct (@rel_xon (with_rx r' (w_uart x)) (fset_rx r (v_flat y))) as (s1 & -> & R1); [rels|]. cbn.
        eexists. split; [reflexivity|]. unfold wrel. cbn. rewrite G. auto.
  - destruct (rel_rx c R) as (s' & -> & R'). cbn. eexists. split; [reflexivity|]. unfold wrel. cbn. auto.
  - eexists. split; [reflexivity|]. unfold wrel. cbn. split; [apply rel_shift; exact R|auto].
  - assert (u_dre (w_uart x) && tx_empty (w_uart x) = f_dre (v_flat y) && fempty (v_flat y)) as ->.
    { unfold tx_empty, fempty. destruct R as (_ & _ & _ & _ & _ & -> & -> & _). reflexivity. }
    destruct (f_dre (v_flat y) && fempty (v_flat y)).
    + destruct (rel_udre R) as (s' & -> & R'). cbn. eexists. split; [reflexivity|]. unfold wrel. cbn. auto.
    + exists x. unfold wrel. auto.
Qed.
Lemma rel_run : forall es x y, wrel x y -> exists x', run k es x = Ok x' /\ wrel x' (frun es y).
Proof.
  induction es as [|e es IH]; intros x y R; cbn [run frun]; [exists x; auto|].
  destruct (rel_step e R) as (x1 & -> & R1). cbn. apply IH. exact R1.
Qed.
Definition flat_on : flat := {| f_rx := []; f_tx := []; f_rxflow := 0; f_txflow := false; f_abort := false; f_dre := false; f_reg := None; f_wire := [] |}.
Definition fworld_on (l : list act) : fworld := {| v_flat := flat_on; v_todo := l; v_got := [] |}.
Lemma rel_on l : wrel (world_on k l) (fworld_on l).
Proof. unfold wrel, world_on, fworld_on, rel, flat_on, uart_on. cbn. pose proof rep_none. auto 12. Qed.
Definition fgone (f : flat) : list Z := f_wire f ++ match f_reg f with Some c => [c] | None => [] end.
Lemma rel_gone s f : rel s f -> gone s = fgone f.
Proof. intros R. unfold gone, fgone. destruct R as (_ & _ & _ & _ & _ & _ & -> & ->). reflexivity. Qed.
End Uart.
