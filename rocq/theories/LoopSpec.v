(** What for loops do: the body runs for each of a list of things, in order,
    until it breaks out or returns. *)
From Coq Require Import ZArith Bool List.
From Verif Require Import Base FloatModel PolyModel MathSpec ValueModel MachModel MachSpec FrameModel EvalSpec.
Import ListNotations.
Local Open Scope Z_scope.

(** range(a, b, s) in Python *)
Definition range_count (a b s : Z) : nat :=
  Z.to_nat (if 0 <? s then (b - a + s - 1) / s else (a - b - s - 1) / - s).
Definition range_list (a b s : Z) : list Z :=
  map (fun k => a + Z.of_nat k * s) (seq 0 (range_count a b s)).

(** [body] and [els] are the parts of a loop; [shows x s]: the loop variable
    shows the thing [x] in the state [s]; [link]: how the state may change
    between rounds. *)
Inductive visits {A} (shows : A -> st -> Prop) (link : st -> st -> Prop) (body els : st -> ending -> st -> Prop) :
  list A -> st -> ending -> st -> Prop :=
| visits_end s s1 r s2 : link s s1 -> els s1 r s2 -> visits shows link body els [] s r s2
| visits_round x xs s s1 e s2 r s3 : link s s1 -> shows x s1 -> body s1 e s2 -> e = Normal \/ e = Continue ->
    visits shows link body els xs s2 r s3 -> visits shows link body els (x :: xs) s r s3
| visits_break x xs s s1 s2 : link s s1 -> shows x s1 -> body s1 Break s2 ->
    visits shows link body els (x :: xs) s Normal s2
| visits_return x xs s s1 v s2 : link s s1 -> shows x s1 -> body s1 (Return v) s2 ->
    visits shows link body els (x :: xs) s (Return v) s2.

(** The three numbers of a range, from its arguments, pushed in order. *)
Inductive asks : list poly -> Z -> Z -> Z -> Prop :=
| asks_1 f b : is_int f b -> asks [PNum f] 0 b 1
| asks_2 f g a b : is_int f a -> is_int g b -> asks [PNum f; PNum g] a b 1
| asks_3 f g h a b s : is_int f a -> is_int g b -> is_int h s -> asks [PNum f; PNum g; PNum h] a b s.
(** the [k] topmost values of the stack, the oldest first *)
Definition tops (k : nat) (s : st) : list poly :=
  skipn (m_sp (s_m s) - k) (firstn (m_sp (s_m s)) (m_stack (s_m s))).

(** the keys of a dictionary stored as key, value, key, ... *)
Fixpoint evens {A} (l : list A) : list A :=
  match l with x :: _ :: r => x :: evens r | [x] => [x] | [] => [] end.
(** what iteration over a list object visits *)
Definition items (k : lkind) (xs : list poly) : list poly := match k with KDict => evens xs | _ => xs end.
(** iteration ends early at None *)
Fixpoint before_none (xs : list poly) : list poly :=
  match xs with [] => [] | x :: r => if is_null x then [] else x :: before_none r end.

(** [l] holds a list object with these elements, all of them values *)
Definition listed (l : loc) (k : lkind) (xs : list poly) (s : st) : Prop :=
  Forall (fun v => is_global v = false) xs /\
  exists o, nth_error (m_heap (s_m s)) l = Some (OList o) /\ lo_kind o = k /\ lo_size o = Z.of_nat (length xs) /\ elems o = xs.
(** so few that an index never leaves the range of the offsets, of the numbers
    or of the C integers *)
Definition countable (E : env) (n : nat) : Prop :=
  Z.of_nat n + 2 <= 2 ^ (wbits (e_width E) - 1) /\ Z.of_nat n + 2 <= 2 ^ 24 /\ Z.of_nat n + 2 <= 2 ^ (e_int E - 1).
