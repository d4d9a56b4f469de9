(** Line editing, without reference to the code. *)
From Coq Require Import ZArith List.
Import ListNotations.
Local Open Scope Z_scope.

(** The keys. *)
Definition erase_key (c : Z) : bool := (c =? 8) || (c =? 127).
Definition kill_key (c : Z) : bool := c =? 21.
Definition end_key (c : Z) : bool := c =? 10.
Definition interrupt_key (c : Z) : bool := c =? 3.

(** The character a key types, if any: printing characters type themselves, a
    tab types a space, other control characters type nothing. *)
Definition typed (c : Z) : option Z :=
  if c =? 9 then Some 32 else if 32 <=? c then (if c =? 127 then None else Some c) else None.

(** The line after typing [keys], in a buffer for [room] characters: each key
    acts on what is there; what does not fit is dropped. *)
Definition type_key (room : nat) (line : list Z) (c : Z) : list Z :=
  if erase_key c then removelast line
  else if kill_key c then []
  else match typed c with
       | Some d => if (length line <? room)%nat then line ++ [d] else line
       | None => line
       end.
Definition edited (room : nat) (keys : list Z) : list Z := fold_left (type_key room) keys [].

(** Keys that neither end nor interrupt the line. *)
Definition plain_key (c : Z) : Prop := 0 <= c < 256 /\ end_key c = false /\ interrupt_key c = false.
