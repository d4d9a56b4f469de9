(** What the names and the table of builtin names mean. *)
From Coq Require Import ZArith Bool List.
From Verif Require Import Base FloatModel PolyModel ValueModel MachModel NameModel.
Import ListNotations.
Local Open Scope Z_scope.
Open Scope mach_scope.

(** A text that can be a name. *)
Definition name_text (s : list Z) : Prop := s <> [] /\ ~ In 0 s.

(** snek-builtin.py 231-257: the table for the builtins [ns], the first of
    which has id 1, and the keywords [kws] with their tokens. *)
Definition table (ns : list (list Z)) (kws : list (Z * list Z)) : list Z :=
  concat (map (fun s => s ++ [0]) ns) ++ concat (map (fun k => fst k :: snd k ++ [0]) kws).
(** snek-builtin.py 339: SNEK_BUILTIN_END *)
Definition first_id (ns : list (list Z)) : Z := 1 + Z.of_nat (length ns).
Definition table_ok (ns : list (list Z)) (kws : list (Z * list Z)) : Prop :=
  ns <> [] /\ Forall name_text (ns ++ map snd kws) /\ NoDup (ns ++ map snd kws).

(** snek-name.c 17-18: no names yet *)
Definition start_names (ns : list (list Z)) : names := {| n_names := []; n_id := first_id ns |}.

(** A history of name lookups. *)
Fixpoint name_ids (E : env) (tab : list Z) (END : Z) (st : names) (hs : list (list Z)) : M (list (Z * bool) * names) :=
  match hs with
  | [] => ret ([], st)
  | h :: hs' =>
      let* (r, st) := name_id E tab END st h in
      let* (rs, st) := name_ids E tab END st hs' in
      ret (r :: rs, st)
  end.
