(** The serial line: C97, C98, C99. *)
From Coq Require Import ZArith List Bool Lia.
From Verif Require Import Base UartModel UartSpec UartProofs UartProofs2 UartProofs3.
Import ListNotations.
Local Open Scope Z_scope.

(** C97: whatever arrives and whenever the interrupts come, what the program
    sent is, in order and once each, on the line, then in the data register,
    then in the ring.  Between come only ^Q and ^S in turn, and echoes of ^T. *)
Theorem C97_output : forall k prog es, 0 <= k <= 7 ->
  exists x, run k es (world_on k prog) = Ok x /\ exists dn d c n,
  prog = dn ++ w_todo x /\ puts dn = d ++ queue k (u_tx (w_uart x)) /\ Z.of_nat (length (queue k (u_tx (w_uart x)))) <= 2 ^ k /\
  woven d c (gone (w_uart x)) /\ filter (fun x => negb (x =? 20)) c = flows n.
Proof. intros k prog es Hk. exact (out_order Hk prog es). Qed.
Print Assumptions C97_output.
(** While the host asks for silence nothing more leaves but echoes of ^T. *)
Theorem C97_silence : forall k prog es evs, 0 <= k <= 7 -> paused (arrivals es) = true -> ~ In 17 (arrivals evs) ->
  exists x x', run k es (world_on k prog) = Ok x /\ run k (es ++ evs) (world_on k prog) = Ok x' /\
    gone (w_uart x') = gone (w_uart x) ++ filter (fun c => c =? 20) (arrivals evs).
Proof. intros k prog es evs Hk. exact (@silence k Hk prog es evs). Qed.
Print Assumptions C97_silence.
(** the terminator's carriage return is part of what is sent *)
Example C97_applies :
  let es := [Main; Main; Shift; Udre; Main; Rx 120; Shift; Udre; Main; Shift; Udre; Main; Shift; Udre; Shift; Udre] in
  match run 4 es (world_on 4 (putch 62 ++ putch 10 ++ [Get; Put 90])) with
  | Ok x => u_wire (w_uart x) = [17; 62; 13; 10; 90] /\ w_todo x = [] /\ w_got x = [120]
  | _ => False
  end.
Proof. vm_compute. repeat split. Qed.

Example C97_silence_applies : paused (arrivals [Main; Rx 19; Rx 97]) = true /\ ~ In 17 (arrivals [Shift; Udre; Main; Rx 20; Rx 98]) /\
  match run 4 ([Main; Rx 19; Rx 97] ++ [Shift; Udre; Main; Rx 20; Rx 98]) (world_on 4 [Put 62; Put 63]) with
  | Ok x => gone (w_uart x) = [17; 20] /\ queue 4 (u_tx (w_uart x)) = [62; 63] | _ => False end.
Proof. vm_compute. repeat split. intros H. repeat (destruct H as [H|H]; [discriminate|]). exact H. Qed.

(** C98: what comes in is given to the program in order, nothing lost, as long
    as the ring is not full when something arrives. *)
Theorem C98_input_partial : forall k prog es, 0 <= k <= 7 ->
  (forall es1 c es2 x, es = es1 ++ Rx c :: es2 -> plain c = true -> run k es1 (world_on k prog) = Ok x -> Z.of_nat (length (queue k (u_rx (w_uart x)))) < 2 ^ k) ->
  ~ In 3 (arrivals es) ->
  exists x, run k es (world_on k prog) = Ok x /\ w_got x ++ queue k (u_rx (w_uart x)) = filter plain (arrivals es).
Proof. intros k prog es Hk. exact (@kept k Hk prog es). Qed.
Print Assumptions C98_input_partial.
(** A host that stops soon enough after ^S never finds it full. *)
Theorem C98_obeying : forall k lag prog ms, 0 <= k <= 7 -> Z.of_nat lag + 2 <= 2 ^ k / 2 ->
  ~ In 17 (puts prog) /\ ~ In 19 (puts prog) -> obeys k lag false 0 ms (world_on k prog) ->
  exists x, run k (flat_map events ms) (world_on k prog) = Ok x /\
    w_got x ++ queue k (u_rx (w_uart x)) = arrivals (flat_map events ms).
Proof. intros k lag prog ms Hk HL. exact (@obeying k Hk lag HL prog ms). Qed.
Print Assumptions C98_obeying.
(** ^C always gets through, and empties the ring first. *)
Theorem C98_interrupt : forall k prog es, 0 <= k <= 7 ->
  exists x x', run k es (world_on k prog) = Ok x /\ run k (es ++ [Rx 3]) (world_on k prog) = Ok x' /\
  queue k (u_rx (w_uart x')) = [3] /\ u_abort (w_uart x') = true /\ w_got x' = w_got x /\ w_todo x' = w_todo x.
Proof. intros k prog es Hk. exact (interrupt Hk prog es). Qed.
Print Assumptions C98_interrupt.
(** But a host that has asked for silence is not told to stop: it has seen only
    ^Q, and all beyond the ring's size is lost. *)
Theorem C98_silence_refuted : forall k c l, 0 <= k <= 7 -> plain c = true -> Forall (fun c => plain c = true) l ->
  exists x, run k (Main :: ticks 3 ++ Rx 19 :: flat_map (fun c => [Rx c; Shift; Udre]) l) (world_on k [Put c]) = Ok x /\
    u_wire (w_uart x) = [17; c] /\ w_got x = [] /\ queue k (u_rx (w_uart x)) = firstn (Z.to_nat (2 ^ k)) l.
Proof. intros k c l Hk. exact (@silenced k Hk c l). Qed.
Print Assumptions C98_silence_refuted.

Lemma obeys_idle k lag b u m ms x x' : run k (events m) x = Ok x' -> (m = Prog \/ m = Due) -> obeys k lag b u ms x' -> obeys k lag b u (m :: ms) x.
Proof. intros E [-> | ->] H y Y; rewrite E in Y; injection Y as <-; exact H. Qed.
Lemma obeys_tick k lag b u u' ms x x' : run k (events Tick) x = Ok x' -> u' = (if told (u_wire (w_uart x')) then O else if told (u_wire (w_uart x)) then O else u) ->
  obeys k lag false u' ms x' -> obeys k lag b u (Tick :: ms) x.
Proof. intros E -> H y Y; rewrite E in Y; injection Y as <-; exact H. Qed.
Lemma obeys_arrive k lag u u' ms x x' c : run k (events (Arrive c)) x = Ok x' -> plain c = true -> (told (u_wire (w_uart x)) || Nat.ltb u lag = true) ->
  u' = (if told (u_wire (w_uart x)) then u else S u) -> obeys k lag true u' ms x' -> obeys k lag false u (Arrive c :: ms) x.
Proof.
  intros E P T -> H y Y; rewrite E in Y; injection Y as <-. split; [exact P|]. split; [reflexivity|]. split; [|exact H].
  apply orb_prop in T. destruct T as [T|T]; [now left|right; now apply Nat.ltb_lt].
Qed.
Ltac obey := repeat match goal with
  | |- obeys _ _ _ _ [] _ => exact Logic.I
  | |- obeys ?k ?l ?b ?u (?m :: ?ms) ?x =>
      let r := eval vm_compute in (run k (events m) x) in
      match r with Ok ?x' =>
        match m with
        | Tick => let u' := eval vm_compute in (if told (u_wire (w_uart x')) then O else if told (u_wire (w_uart x)) then O else u) in
            apply (@obeys_tick k l b u u' ms x x' eq_refl eq_refl)
        | Arrive ?c => let u' := eval vm_compute in (if told (u_wire (w_uart x)) then u else Datatypes.S u) in
            apply (@obeys_arrive k l u u' ms x x' c eq_refl eq_refl eq_refl eq_refl)
        | _ => apply (@obeys_idle k l b u m ms x x' eq_refl); [auto|]
        end
      end
  end.
(** eight characters make the line say ^S; two more come all the same; ^Q
    follows when the program has read them *)
Definition demo_ms : list moment :=
  Prog :: Tick :: Tick :: flat_map (fun c => [Arrive c; Tick]) [97; 98; 99; 100; 101; 102; 103; 104; 105; 106]
  ++ repeat Prog 10 ++ [Tick; Tick; Arrive 107; Prog; Tick].
Example C98_obeying_applies :
  obeys 4 2 false 0 demo_ms (world_on 4 (Put 62 :: repeat Get 12)) /\
  match run 4 (flat_map events demo_ms) (world_on 4 (Put 62 :: repeat Get 12)) with
  | Ok x => u_wire (w_uart x) = [17; 62; 19; 17] /\ w_got x = [97; 98; 99; 100; 101; 102; 103; 104; 105; 106; 107]
  | _ => False
  end.
Proof.
  split; [|vm_compute; split; reflexivity].
  let m := eval vm_compute in demo_ms in change demo_ms with m.
  let x := eval vm_compute in (world_on 4 (Put 62 :: repeat Get 12)) in change (world_on 4 (Put 62 :: repeat Get 12)) with x. obey.
Qed.

(** C99: unless ^T came, or the host has asked for silence and not ended it,
    the line does not stop: left alone for a while everything that was put is
    on it, no interrupt is due, and with nothing left to read the last word to the host was ^Q. *)
Theorem C99_progress_partial : forall k prog es, 0 <= k <= 7 -> ~ In 20 (arrivals es) -> paused (arrivals es) = false ->
  exists n x, run k (es ++ ticks n) (world_on k prog) = Ok x /\ u_reg (w_uart x) = None /\ u_dre (w_uart x) = false /\ queue k (u_tx (w_uart x)) = [] /\
  exists dn c m, prog = dn ++ w_todo x /\ woven (puts dn) c (u_wire (w_uart x)) /\ filter (fun x => negb (x =? 20)) c = flows m /\
    (queue k (u_rx (w_uart x)) = [] -> u_wire (w_uart x) <> [] -> Nat.odd m = true).
Proof. intros k prog es Hk. exact (@goes_on k Hk prog es). Qed.
Print Assumptions C99_progress_partial.
(** ^T does not enable the interrupt: what is put while it is going out stays
    in the ring for as long as the program waits for input, *)
Theorem C99_echo_refuted : forall k prog es x d m evs, 0 <= k <= 7 -> run k es (world_on k prog) = Ok x -> quiet (w_uart x) -> u_rxflow (w_uart x) = 1 ->
  queue k (u_tx (w_uart x)) = [] -> w_todo x = Put d :: repeat Get m -> arrivals evs = [] ->
  exists x', run k (es ++ Rx 20 :: Main :: evs) (world_on k prog) = Ok x' /\ queue k (u_tx (w_uart x')) = [d] /\
    gone (w_uart x') = u_wire (w_uart x) ++ [20].
Proof. intros k prog es x d m evs Hk. exact (@echo_stalls k Hk prog es x d m evs). Qed.
Print Assumptions C99_echo_refuted.
(** and a host told to stop is never told to go on: both sides wait. *)
Theorem C99_wait_refuted : forall k prog es x c m evs, 0 <= k <= 7 -> run k es (world_on k prog) = Ok x -> quiet (w_uart x) -> u_rxflow (w_uart x) = 3 ->
  told (u_wire (w_uart x)) = false ->
  queue k (u_tx (w_uart x)) = [] -> queue k (u_rx (w_uart x)) = [c] -> w_todo x = Get :: repeat Get m -> arrivals evs = [] ->
  exists x', run k (es ++ Rx 20 :: Main :: evs) (world_on k prog) = Ok x' /\ w_got x' = w_got x ++ [c] /\
    queue k (u_rx (w_uart x')) = [] /\ told (u_wire (w_uart x')) = false.
Proof. intros k prog es x c m evs Hk. exact (@input_stalls k Hk prog es x c m evs). Qed.
Print Assumptions C99_wait_refuted.
Definition demo_es : list event := Main :: ticks 3 ++ map Rx [97; 98; 99; 100; 101; 102; 103; 104] ++ ticks 2 ++ repeat Main 7.
Example C99_wait_applies :
  match run 4 demo_es (world_on 4 (Put 62 :: repeat Get 20)) with
  | Ok x => quiet (w_uart x) /\ u_rxflow (w_uart x) = 3 /\ told (u_wire (w_uart x)) = false /\ queue 4 (u_tx (w_uart x)) = [] /\
            queue 4 (u_rx (w_uart x)) = [104] /\ w_todo x = Get :: repeat Get 12
  | _ => False
  end.
Proof. vm_compute. repeat split. Qed.
Example C99_echo_applies :
  match run 4 (Main :: ticks 3) (world_on 4 (Put 62 :: Put 32 :: repeat Get 20)) with
  | Ok x => quiet (w_uart x) /\ u_rxflow (w_uart x) = 1 /\ queue 4 (u_tx (w_uart x)) = [] /\ w_todo x = Put 32 :: repeat Get 20
  | _ => False
  end.
Proof. vm_compute. repeat split. Qed.
