(** What is asked of the program store in flash. *)
From Coq Require Import ZArith List Bool.
From Verif Require Import Base RomModel RomSpec FlashModel.
Import ListNotations.
Local Open Scope Z_scope.

(** the interpreter itself, and what is left for the program *)
Definition own (s : flash) : list Z := firstn (Z.to_nat (f_append s * 256)) (r_mem (f_rom s)).
Definition kept (s : flash) : list Z := skipn (Z.to_nat (f_append s * 256)) (r_mem (f_rom s)).

(** the fuse says where the interpreter ends, and less than half of the address
    space is left *)
Definition fused (s : flash) : Prop :=
  0 < f_append s /\ f_append s * 256 < rom_size (f_rom s) /\ rom_size (f_rom s) mod 256 = 0 /\
  rom_size (f_rom s) - f_append s * 256 < 32768.
