(** C46: line editing. *)
From Coq Require Import ZArith Lia Bool List.
From Verif Require Import Base IoModel IoSpec IoProofs.
Import ListNotations.
Local Open Scope Z_scope.

(** For the examples: an interactive port with signed characters and
    SNEK_IO_LINEBUF 132, just started. *)
Definition port : iocfg := {| ic_linebuf := 132; ic_signed := true; ic_input := false |}.
Definition started : io := {| io_raw := false; io_buf := repeat 0 132; io_used := 0; io_avail := 0; io_unget := 0 |}.
Lemma started_ready : ready port started.
Proof. constructor; reflexivity. Qed.

(** For every sequence of typed lines (keys that neither end nor interrupt a
    line, then the end key), reading gives exactly the edited lines, each
    followed by a newline; the keys typed afterwards are untouched and reading
    is ready for the next line.  Missing: keys of 128 and above where char is
    signed, and interrupted lines, for which the claim is false (below). *)
Theorem C46_lines_partial : forall C lines rest s, 1 <= ic_linebuf C <= 255 -> ready C s ->
  Forall (fun ks => Forall plain_key ks /\ (ic_signed C = false \/ Forall (fun c => c < 128) ks)) lines ->
  let text := concat (map (fun ks => edited (Z.to_nat (ic_linebuf C - 1)) ks ++ [10]) lines) in
  exists s', getcs C (length text) (concat (map (fun ks => ks ++ [10]) lines) ++ rest) s = Ok (text, s', rest) /\
    ready C s'.
Proof. intros C lines rest s H. exact (lines_exact C H lines rest s). Qed.
Print Assumptions C46_lines_partial.
Example C46_lines_applies : ready port started /\
  Forall (fun ks => Forall plain_key ks /\ (ic_signed port = false \/ Forall (fun c => c < 128) ks))
    [[104; 105; 8; 9; 120]; [97; 21; 98; 127; 99]].
Proof. split; [exact started_ready|]. repeat constructor; try lia; right; repeat constructor; lia. Qed.
Example C46_lines_computes :
  match getcs port 6 ([104; 105; 8; 9; 120; 10] ++ [97; 21; 98; 127; 99; 10; 100]) started with
  | Ok (l, _, rest) => (l, rest) = ([104; 32; 120; 10; 99; 10], [100])
  | _ => False
  end.
Proof. vm_compute. reflexivity. Qed.

(** Never more than the buffer holds, and each line is made of characters that
    were typed. *)
Theorem C46_bounded : forall C ks, 1 <= ic_linebuf C <= 255 -> Forall plain_key ks ->
  (length (edited (Z.to_nat (ic_linebuf C - 1)) ks) < Z.to_nat (ic_linebuf C))%nat /\
  Forall (fun c => 32 <= c < 256) (edited (Z.to_nat (ic_linebuf C - 1)) ks).
Proof. exact edited_bounded. Qed.
Print Assumptions C46_bounded.

(** Where char is signed, the byte 255 in a line is delivered as the end of
    the file. *)
Theorem C46_byte_refuted : forall C ks rest s, 1 <= ic_linebuf C <= 255 -> ready C s -> ic_signed C = true ->
  Forall plain_key ks -> In 255 (edited (Z.to_nat (ic_linebuf C - 1)) ks) ->
  exists l s', getcs C (length (edited (Z.to_nat (ic_linebuf C - 1)) ks ++ [10])) (ks ++ 10 :: rest) s = Ok (l, s', rest) /\
    In EOF l.
Proof. exact byte_is_eof. Qed.
Print Assumptions C46_byte_refuted.
Example C46_byte_applies : ready port started /\ Forall plain_key [97; 255] /\ In 255 (edited 131 [97; 255]).
Proof. split; [exact started_ready|]. split; [repeat constructor; lia|]. vm_compute. auto. Qed.

(** An interrupted line delivers nothing when nothing is left on it ... *)
Theorem C46_interrupt_partial : forall C ks rest s, 1 <= ic_linebuf C <= 255 -> ready C s -> ic_input C = false ->
  Forall plain_key ks -> edited (Z.to_nat (ic_linebuf C - 1)) ks = [] ->
  exists s', getc C (ks ++ 3 :: rest) s = Ok (Got EOF s' rest) /\ ready C s'.
Proof. exact interrupt_empty. Qed.
Print Assumptions C46_interrupt_partial.
(** ... but otherwise the reader gets the end of the file and then, from later
    calls, the very characters of the interrupted line, without a newline. *)
Theorem C46_interrupt_refuted : forall C ks rest s, 1 <= ic_linebuf C <= 255 -> ready C s -> ic_input C = false ->
  Forall plain_key ks -> ic_signed C = false \/ Forall (fun c => c < 128) ks ->
  let line := edited (Z.to_nat (ic_linebuf C - 1)) ks in
  exists s', getcs C (S (length line)) (ks ++ 3 :: rest) s = Ok (EOF :: line, s', rest) /\ ready C s'.
Proof. exact interrupt_delivers. Qed.
Print Assumptions C46_interrupt_refuted.
Example C46_interrupt_applies :
  match getcs port 6 [97; 98; 3; 99; 100; 10] started with
  | Ok (l, _, _) => l = [EOF; 97; 98; 99; 100; 10]
  | _ => False
  end.
Proof. vm_compute. reflexivity. Qed.
