(** What the heap holds, independently of the collector: objects, the
    references in them, what can be reached, what a program can see. *)
From Coq Require Import ZArith Bool List.
From Verif Require Import Base FloatModel PolyModel CodeModel GcModel.
Import ListNotations.
Local Open Scope Z_scope.

(** an object: its type and where it is *)
Notation node := (ty * Z)%type.
(** a reference is kept in a value word or as an offset to an object of a
    known type *)
Inductive skind := SPoly | SOff (t : ty).

Section Spec.
Variable w : width.
Variables POOL calloc csize : Z.
Notation k := (Z.of_nat (obytes w)).
Notation none := (OFFSET_NONE w).
Notation geto := (get (obytes w)).

(** the bytes an object occupies *)
Definition osize (m : mem) (n : node) : option Z :=
  match mem_size w POOL calloc m (fst n) (snd n) with Some s => Some ((s + 3) / 4 * 4) | None => None end.

(** where the string operands are in code (addresses relative to it) *)
Fixpoint strings_in (fuel : nat) (m : mem) (code ip size : Z) : list Z :=
  if ip <? size then
    match fuel with
    | O => []
    | S fuel =>
        let op := byte_op (m (code + ip)) in
        (if op =? op_code KString then [ip + 1] else []) ++
        strings_in fuel m code (ip + 1 + Z.of_nat (operand_size w op)) size
    end
  else [].
Definition evenly (n : nat) (a step : Z) : list Z := map (fun i => a + step * Z.of_nat i) (seq 0 n).

(** the references of an object: where they are, relative to it *)
Definition slots (m : mem) (n : node) : list (Z * skind) :=
  let o := snd n in
  match fst n with
  | YList => if geto m (o + k) =? 0 then [] else [(3 * k, SOff (YData (geto m o) (geto m (o + k))))]
  | YData size _ => map (fun a => (a, SPoly)) (evenly (Z.to_nat size) 0 4)
  | YStr => []
  | YFunc => [(k, SOff YCode)]
  | YCode => map (fun a => (k + a, SOff YStr)) (strings_in (Z.to_nat (geto m o)) m (o + k) 0 (geto m o))
  | YCompile => map (fun a => (a, SOff YStr)) (strings_in (Z.to_nat csize) m o 0 csize)
  | YFrame =>
      map (fun a => (a, SPoly)) (evenly (Z.to_nat (geto m (o + 3 * k))) (4 * k) 8) ++
      [(k, SOff YCode); (0, SOff YFrame)]
  | YName => [(0, SOff YName)]
  end.
Definition slen (s : skind) : nat := match s with SPoly => 4 | SOff _ => obytes w end.
(** what the reference says, and what it refers to *)
Definition said (m : mem) (n : node) (s : Z * skind) : Z := get (slen (snd s)) m (snd n + fst s).
Definition means (s : skind) (v : Z) : option node :=
  match s with
  | SPoly => word_ref w v
  | SOff t => if v =? none then None else Some (t, v)
  end.
Definition target (m : mem) (n : node) (s : Z * skind) : option node := means (snd s) (said m n s).

(** the roots, as references *)
Definition root_refs (R : roots) : list (skind * Z) :=
  map (fun u => (SPoly, u)) (r_stack R) ++
  map (fun p => (SOff (fst p), snd p)) (pointers R) ++
  [(SPoly, r_a R); (SOff YCompile, r_compile R)].
Inductive live (R : roots) (m : mem) : node -> Prop :=
| live_root : forall s v n, In (s, v) (root_refs R) -> means s v = Some n -> live R m n
| live_step : forall n s n', live R m n -> In s (slots m n) -> target m n s = Some n' -> live R m n'.

(** the bytes of an object that are not references; the collector also uses
    one word of each list, whose lower two bits are the kind of the list *)
Definition in_slot (m : mem) (n : node) (i : Z) : Prop :=
  exists s, In s (slots m n) /\ fst s <= i < fst s + Z.of_nat (slen (snd s)).
Definition in_note (n : node) (i : Z) : Prop := fst n = YList /\ 2 * k <= i < 3 * k.
Definition plain (m : mem) (n : node) (i : Z) : Prop := ~ in_slot m n i /\ ~ in_note n i.

(** ** Well-formed heaps *)
Definition bytes (m : mem) : Prop := forall a, 0 <= m a < 256.
(** the object is there, with everything it holds *)
Record valid (top : Z) (m : mem) (n : node) : Prop := {
  v_low : 0 <= snd n;
  v_aligned : snd n mod 4 = 0;
  v_size : exists s, osize m n = Some s /\ 0 < s /\ snd n + s <= top;
  v_inside : forall s sl, osize m n = Some s -> In sl (slots m n) -> 0 <= fst sl /\ fst sl + Z.of_nat (slen (snd sl)) <= s }.
Definition apart (m : mem) (n n' : node) : Prop :=
  forall s s', osize m n = Some s -> osize m n' = Some s' -> snd n + s <= snd n' \/ snd n' + s' <= snd n.
(** the names form a list that ends *)
Fixpoint names_list (m : mem) (o : Z) (p : list Z) : Prop :=
  match p with
  | [] => o = none
  | x :: p => o = x /\ x <> none /\ names_list m (geto m x) p
  end.
(** a value word; the address in a reference is one the machine can hold *)
Definition word (v : Z) : Prop := 0 <= v < 2 ^ 32 /\ (means SPoly v <> None -> snek_poly_to_offset v < 2 ^ wbits w).
Definition offset (v : Z) : Prop := 0 <= v < 2 ^ wbits w.
Record wf (R : roots) (m : mem) (top last : Z) : Prop := {
  wf_compile : csize <= calloc;
  wf_pool : top <= POOL /\ POOL <= OFFSET_NONE w /\ POOL <= 2 ^ 23;
  wf_bytes : bytes m;
  wf_roots : forall s v, In (s, v) (root_refs R) -> match s with SPoly => word v | SOff _ => offset v end;
  wf_words : forall n s, live R m n -> In s (slots m n) -> snd s = SPoly -> word (said m n s);
  wf_valid : forall n, live R m n -> valid top m n;
  wf_apart : forall n n', live R m n -> live R m n' -> n = n' \/ apart m n n';
  (** a list with room for elements has data *)
  wf_data : forall o, live R m (YList, o) -> geto m (o + k) <> 0 -> geto m (o + 3 * k) <> none;
  (** no two lists share their data *)
  wf_own : forall n n' s s' d, live R m n -> live R m n' -> In s (slots m n) -> In s' (slots m n') ->
    target m n s = Some d -> target m n' s' = Some d -> (exists a b, fst d = YData a b) -> n = n';
  wf_names : exists p, names_list m (r_names R) p /\ NoDup p;
  (** the last full collection ended between objects *)
  wf_last : 0 <= last <= top /\ forall n s, live R m n -> osize m n = Some s -> snd n + s <= last \/ last <= snd n }.

(** ** What can be seen *)
(** all bytes but the references, and the kind of a list *)
Definition in_slotb (l : list (Z * skind)) (i : Z) : bool :=
  existsb (fun s => (fst s <=? i) && (i <? fst s + Z.of_nat (slen (snd s)))) l.
Definition is_list (t : ty) : bool := match t with YList => true | _ => false end.
Definition content (m : mem) (n : node) : list Z :=
  match osize m n with
  | None => []
  | Some s =>
      map (fun i => m (snd n + i))
          (filter (fun i => negb (in_slotb (slots m n) i || is_list (fst n) && (2 * k <=? i) && (i <? 3 * k)))
                  (evenly (Z.to_nat s) 0 1)) ++
      (if is_list (fst n) then [geto m (snd n + 2 * k) mod 4] else [])
  end.
(** a value, unfolded to a depth *)
Inductive tree := Deeper | Word (v : Z) | Obj (t : ty) (c : list Z) (l : list tree).
Fixpoint view (d : nat) (m : mem) (s : skind) (v : Z) : tree :=
  match means s v with
  | None => Word v
  | Some n =>
      match d with
      | O => Deeper
      | S d => Obj (fst n) (content m n) (map (fun s => view d m (snd s) (said m n s)) (slots m n))
      end
  end.
(** everything a program can see, to a depth *)
Definition views (d : nat) (R : roots) (m : mem) : list tree := map (fun r => view d m (fst r) (snd r)) (root_refs R).

(** ** Moving *)
(** a reference after its object has moved *)
Definition redirect (f : Z -> Z) (s : skind) (v : Z) : Z :=
  match means s v with
  | None => v
  | Some n => match s with SPoly => snek_offset_to_poly (f (snd n)) (snek_poly_type v) | SOff _ => f (snd n) end
  end.
Definition redirect_roots (f : Z -> Z) (R : roots) : roots :=
  let p t v := redirect f (SOff t) v in
  {| r_stack := map (redirect f SPoly) (r_stack R);
     r_names := p YName (r_names R); r_globals := p YFrame (r_globals R); r_frame := p YFrame (r_frame R);
     r_stash := p YCode (r_stash R); r_code := p YCode (r_code R); r_empty := p YList (r_empty R);
     r_a := redirect f SPoly (r_a R); r_compile := p YCompile (r_compile R) |}.
Definition at_ (f : Z -> Z) (n : node) : node := (fst n, f (snd n)).
(** [m'] holds the objects of [m] where [f] puts them, with their references
    redirected *)
Record moved_to (f : Z -> Z) (R : roots) (m : mem) (m' : mem) : Prop := {
  mt_bytes : bytes m';
  mt_plain : forall n s i, live R m n -> osize m n = Some s -> 0 <= i < s -> plain m n i -> m' (f (snd n) + i) = m (snd n + i);
  mt_kind : forall o, live R m (YList, o) -> geto m' (f o + 2 * k) mod 4 = geto m (o + 2 * k) mod 4;
  mt_refs : forall n s, live R m n -> In s (slots m n) -> said m' (at_ f n) s = redirect f (snd s) (said m n s) }.
End Spec.
