(** Line input: snek-io.c. *)
From Coq Require Import ZArith Lia Bool List.
From Verif Require Import Base.
Import ListNotations.
Local Open Scope Z_scope.

(** snek-io.c 18-20, 39: the module's variables.  [buf] has SNEK_IO_LINEBUF
    bytes, held as unsigned values; [unget] is 0 when empty. *)
Record io := Io {
  io_raw : bool;
  io_buf : list Z;
  io_used : Z;
  io_avail : Z;
  io_unget : Z;
}.

(** The port: SNEK_IO_LINEBUF (snek-io.h 29-31, chips/avr/snek-avr.h 103),
    whether char is signed, and snek_in_input during the call (SNEK_BUILTIN_input
    present). *)
Record iocfg := IoCfg {
  ic_linebuf : Z;
  ic_signed : bool;
  ic_input : bool;
}.

Definition NL : Z := 10.
Definition CTRL_N : Z := 14.
Definition CTRL_O : Z := 15.
Definition CTRL_C : Z := 3.
Definition CTRL_H : Z := 8.
Definition DEL : Z := 127.
Definition CTRL_U : Z := 21.
Definition TAB : Z := 9.
Definition SP : Z := 32.
Definition EOF : Z := -1.

Section WithCfg.
Variable C : iocfg.

(** A char converted to int. *)
Definition char_int (c : Z) : Z :=
  if ic_signed C && (128 <=? c) then c - 256 else c.

(** Writing and reading the buffer; outside it the behaviour is undefined. *)
Definition buf_set (s : io) (i c : Z) : outcome io :=
  if (0 <=? i) && (i <? ic_linebuf C) && (i <? Z.of_nat (length (io_buf s))) then
    Ok {| io_raw := io_raw s;
          io_buf := firstn (Z.to_nat i) (io_buf s) ++ c :: skipn (S (Z.to_nat i)) (io_buf s);
          io_used := io_used s; io_avail := io_avail s; io_unget := io_unget s |}
  else UB.
Definition buf_get (s : io) (i : Z) : outcome Z :=
  if (0 <=? i) && (i <? ic_linebuf C) then
    match nth_error (io_buf s) (Z.to_nat i) with Some c => Ok c | None => UB end
  else UB.

Definition set_avail (n : Z) (s : io) : io :=
  {| io_raw := io_raw s; io_buf := io_buf s; io_used := io_used s; io_avail := wrapu 8 n; io_unget := io_unget s |}.
Definition set_used (n : Z) (s : io) : io :=
  {| io_raw := io_raw s; io_buf := io_buf s; io_used := wrapu 8 n; io_avail := io_avail s; io_unget := io_unget s |}.
Definition set_raw (b : bool) (s : io) : io :=
  {| io_raw := b; io_buf := io_buf s; io_used := io_used s; io_avail := io_avail s; io_unget := io_unget s |}.
Definition set_unget (c : Z) (s : io) : io :=
  {| io_raw := io_raw s; io_buf := io_buf s; io_used := io_used s; io_avail := io_avail s; io_unget := c |}.

(** snek-io.c 22-27: snek_io_backspace, without the echo *)
Definition backspace (s : io) : io := set_avail (io_avail s - 1) s.

(** snek-io.c 29-35: snek_io_addc, without the echo *)
Definition addc (c : Z) (s : io) : outcome io :=
  obind (buf_set s (io_avail s) c) (fun s => Ok (set_avail (io_avail s + 1) s)).

(** The outcome of one turn of the loop of snek-io.c 58-110. *)
Inductive step_end := Again | LineDone | Interrupted.

(** snek-io.c 69-108: one character *)
Definition key (c : Z) (s : io) : outcome (step_end * io) :=
  if c =? NL then obind (addc NL s) (fun s => Ok (LineDone, s))
  else if c =? CTRL_N then Ok (Again, set_raw true s)
  else if c =? CTRL_O then Ok (Again, set_raw false s)
  else if c =? CTRL_C then Ok (Interrupted, if ic_input C then set_unget c s else s)
  else if (c =? CTRL_H) || (c =? DEL) then
    Ok (Again, if io_avail s =? 0 then s else backspace s)
  else if c =? CTRL_U then Ok (Again, set_avail 0 s)     (* 96-97: while (avail) backspace *)
  else
    let c := if c =? TAB then SP else c in
    if SP <=? c then
      if io_avail s <? ic_linebuf C - 1 then obind (addc c s) (fun s => Ok (Again, s))
      else Ok (Again, s)
    else Ok (Again, s).

(** What a call gives: a value, or it is still waiting for input when the
    typed characters run out. *)
Inductive got := Got (c : Z) (s : io) (rest : list Z) | Waiting (s : io).

(** snek-io.c 58-110: the loop, over the characters [keys] that
    snek_raw_getc will deliver.  [first] is the pushed-back character. *)
Fixpoint line_loop (keys : list Z) (s : io) : outcome (option (step_end * io * list Z) * io) :=
  match keys with
  | [] => Ok (None, s)
  | c :: keys' =>
      match key c s with
      | Ok (Again, s') => line_loop keys' s'
      | Ok (e, s') => Ok (Some (e, s', keys'), s')
      | Err => Err
      | UB => UB
      end
  end.

(** snek-io.c 42-113: snek_io_getc *)
Definition getc (keys : list Z) (s : io) : outcome got :=
  if io_used s =? io_avail s then
    let s := set_used 0 (set_avail 0 s) in
    let keys := if io_unget s =? 0 then keys else io_unget s :: keys in
    let s := set_unget 0 s in
    match line_loop keys s with
    | Ok (Some (Interrupted, s, rest), _) => Ok (Got EOF s rest)
    | Ok (Some (_, s, rest), _) =>
        obind (buf_get s (io_used s)) (fun c => Ok (Got (char_int c) (set_used (io_used s + 1) s) rest))
    | Ok (None, s) => Ok (Waiting s)
    | Err => Err
    | UB => UB
    end
  else
    obind (buf_get s (io_used s)) (fun c => Ok (Got (char_int c) (set_used (io_used s + 1) s) keys)).

(** A program reading [n] characters: the values, then the state and the keys
    left. *)
Fixpoint getcs (n : nat) (keys : list Z) (s : io) : outcome (list Z * io * list Z) :=
  match n with
  | O => Ok ([], s, keys)
  | S n' =>
      match getc keys s with
      | Ok (Got c s' rest) =>
          obind (getcs n' rest s') (fun '(l, s'', rest') => Ok (c :: l, s'', rest'))
      | Ok (Waiting _) => Err
      | Err => Err
      | UB => UB
      end
  end.
End WithCfg.
