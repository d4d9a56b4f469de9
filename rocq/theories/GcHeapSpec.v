(** What the collector and the allocator are to do. *)
From Coq Require Import ZArith Bool List.
From Verif Require Import Base FloatModel PolyModel CodeModel GcModel GcSpec.
Import ListNotations.
Local Open Scope Z_scope.

Section Spec.
Variable w : width.
Variables POOL calloc csize : Z.
Notation live := (live w csize).
Notation osize := (osize w POOL calloc).

(** the same objects, each where [f] puts it: every word that is not a
    reference is as it was, and every reference is one to the same object *)
Definition same_heap (f : Z -> Z) (R : roots) (m : mem) (R' : roots) (m' : mem) : Prop :=
  R' = redirect_roots w f R /\ moved_to w POOL calloc csize f R m m' /\
  (forall n n', live R m n -> live R m n' -> f (snd n) = f (snd n') -> n = n').

(** objects lying one after the other from [a] to [b] *)
Fixpoint tiles (m : mem) (L : list node) (a b : Z) : Prop :=
  match L with
  | [] => a = b
  | n :: L => snd n = a /\ exists s, osize m n = Some s /\ tiles m L (a + s) b
  end.
(** all that can be reached from [base] on lies without gaps up to [top] *)
Definition packed (R : roots) (m : mem) (base top : Z) : Prop :=
  exists L, NoDup L /\ (forall n, In n L <-> live R m n /\ base <= snd n) /\ tiles m L base top.
(** the objects that can be reached, and their size *)
Definition lists (R : roots) (m : mem) (L : list node) : Prop := NoDup L /\ forall n, In n L <-> live R m n.
Definition sizes (m : mem) (L : list node) : Z :=
  fold_right (fun n t => (match osize m n with Some s => s | None => 0 end) + t) 0 L.

(** the state between allocations *)
Record ready (R : roots) (g : gc) : Prop := {
  rd_wf : wf w POOL calloc csize R (g_m g) (g_top g) (g_last g);
  rd_note : g_note g = OFFSET_NONE w;
  rd_top : g_top g mod 4 = 0;
  rd_last : g_last g mod 4 = 0 }.
End Spec.
