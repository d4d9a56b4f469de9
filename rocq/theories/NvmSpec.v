(** What is asked of the program store of the SAMD21. *)
From Coq Require Import ZArith List Bool.
From Verif Require Import Base RomModel RomSpec NvmModel.
Import ListNotations.
Local Open Scope Z_scope.

(** the area for programs, as text *)
Definition area (s : store) : list Z :=
  map (fun i => v_mem (n_nvm s) (n_start s + Z.of_nat i)) (seq 0 (Z.to_nat (n_end s - n_start s))).
(** the flash outside of the area is the same *)
Definition else_same (s s' : store) : Prop :=
  forall a, a < n_start s \/ n_end s <= a -> v_mem (n_nvm s') a = v_mem (n_nvm s) a.

(** a flash holds bytes; the area is made of whole rows (of four pages) of it
    and is not at its beginning *)
Definition placed (s : store) : Prop :=
  let r := 2 ^ (5 + v_psz (n_nvm s)) in
  (forall a, 0 <= v_mem (n_nvm s) a < 256) /\ 0 <= v_psz (n_nvm s) <= 7 /\ 0 <= v_lock (n_nvm s) /\ 16 <= v_pages (n_nvm s) <= 65535 /\
  r <= n_start s <= n_end s /\ n_end s <= v_pages (n_nvm s) * 2 ^ (3 + v_psz (n_nvm s)) /\ n_start s mod r = 0 /\ n_end s mod r = 0.

(** the flash is sixteen regions, each with a bit that says it may be changed *)
Definition region_of (a : Z) (s : store) : Z := a / (v_pages (n_nvm s) * 2 ^ (3 + v_psz (n_nvm s)) / 16).
Definition unlocked (s : store) : Prop := forall a, n_start s <= a < n_end s -> Z.testbit (v_lock (n_nvm s)) (region_of a s) = true.
Definition locked (s : store) : Prop := forall a, n_start s <= a < n_end s -> Z.testbit (v_lock (n_nvm s)) (region_of a s) = false.
Definition all_unlocked (s : store) : Prop := forall a, 0 <= a < v_pages (n_nvm s) * 2 ^ (3 + v_psz (n_nvm s)) -> Z.testbit (v_lock (n_nvm s)) (region_of a s) = true.
