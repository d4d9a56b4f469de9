(** C19: names. *)
From Coq Require Import ZArith Bool List Lia.
From Verif Require Import Base FloatModel PolyModel ValueModel MachModel MachSpec NameModel NameSpec NameProofs ListProps.
Import ListNotations.
Local Open Scope Z_scope.
Open Scope mach_scope.

(** C19.  For every table of builtin names and keywords and every history of
    lookups, in any order, with a collection before any allocation and any of
    them failing: a builtin has its fixed id, a keyword its token; the id of a
    name maps back to it, at the end of the history as when it was given; two
    lookups have the same id exactly if they were of the same name; and only
    after a failed allocation is there no id. *)
Theorem C19_interned : forall ns kws, table_ok ns kws -> forall E hs m, Forall name_text hs ->
  first_id ns + Z.of_nat (length hs) < 2 ^ wbits (e_width E) -> (m_sp m <= length (m_stack m))%nat ->
  runs (name_ids E (table ns kws) (first_id ns) (start_names ns) hs) m (fun r m' =>
    let '(rs, st) := r in
    length rs = length hs /\
    (forall n a r, nth_error hs n = Some a -> nth_error rs n = Some r ->
       (forall j, nth_error ns j = Some a -> r = (1 + Z.of_nat j, false)) /\
       (forall t, In (t, a) kws -> r = (t, true)) /\
       (snd r = true -> In (fst r, a) kws) /\
       (snd r = false -> fst r <> 0 -> name_string (table ns kws) (first_id ns) st (fst r) = Some (Some a)) /\
       (r = (0, false) -> m_abort m' = true)) /\
    (forall n1 n2 a b i j, nth_error hs n1 = Some a -> nth_error hs n2 = Some b ->
       nth_error rs n1 = Some (i, false) -> nth_error rs n2 = Some (j, false) -> i <> 0 -> j <> 0 ->
       (i = j <-> a = b))).
Proof. exact interned. Qed.
Print Assumptions C19_interned.

(** "abs", "len"; the keyword "if" with token 20; names "x", "y" *)
Definition demo_names : list (list Z) := [[97; 98; 115]; [108; 101; 110]].
Definition demo_kws : list (Z * list Z) := [(20, [105; 102])].
Lemma demo_table_ok : table_ok demo_names demo_kws.
Proof.
  split; [discriminate|]. split.
  - repeat first [apply Forall_nil | apply Forall_cons; [split; [discriminate|]; cbn; intuition discriminate|]].
  - repeat constructor; cbn; intuition discriminate.
Qed.
Example C19_applies :
  table_ok demo_names demo_kws /\
  match name_ids demo_env (table demo_names demo_kws) (first_id demo_names) (start_names demo_names)
          [[120]; [121]; [108; 101; 110]; [120]; [105; 102]] demo with
  | Some (rs, st, _) => rs = [(4, false); (5, false); (2, false); (4, false); (20, true)] /\
                        name_string (table demo_names demo_kws) (first_id demo_names) st 4 = Some (Some [120])
  | None => False
  end.
Proof. split; [exact demo_table_ok | vm_compute; split; reflexivity]. Qed.
