(** The collector and the allocator: snek-memory.c, with the mark and move
    functions of the object types (snek-list.c 353-384, snek-func.c 145-167,
    snek-frame.c 209-254, snek-name.c 134-164, snek-code.c 325-411,
    snek-string.c 267-278).

    The pool is an array of bytes at addresses 0 .. POOL-1; a pointer into it is
    its offset and NULL is SNEK_OFFSET_NONE.  Left out: the debug checks and
    messages, and the caches that some boards reset (SNEK_MEM_CACHE_NUM).  The
    depth of the C stack is not bounded.  [None] stands for undefined behaviour
    (a reference outside the pool, a read of an unused chunk) and for fuel that
    ran out. *)
From Coq Require Import ZArith Bool List.
From Verif Require Import Base FloatModel PolyModel CodeModel.
Import ListNotations.
Local Open Scope Z_scope.

Notation "'let?' x ':=' a 'in' b" := (match a with Some x => b | None => None end)
  (at level 200, x pattern, a at level 100, b at level 200).

(** * Memory *)
Definition mem := Z -> Z.
(** [n] bytes at [a], little endian *)
Fixpoint get (n : nat) (m : mem) (a : Z) : Z :=
  match n with O => 0 | S n => m a + 256 * get n m (a + 1) end.
Fixpoint put (n : nat) (v a : Z) (m : mem) : mem :=
  match n with
  | O => m
  | S n => fun x => if x =? a then v mod 256 else put n (v / 256) (a + 1) m x
  end.
(** memmove *)
Definition copy (dst src n : Z) (m : mem) : mem :=
  fun x => if (dst <=? x) && (x <? dst + n) then m (x - dst + src) else m x.
(** memset with zero *)
Definition zero (dst n : Z) (m : mem) : mem :=
  fun x => if (dst <=? x) && (x <? dst + n) then 0 else m x.
(** strlen; [n] bytes are left in the pool *)
Fixpoint strlen_ (n : nat) (m : mem) (a : Z) : option Z :=
  match n with
  | O => None
  | S n => if m a =? 0 then Some 0 else match strlen_ n m (a + 1) with Some l => Some (l + 1) | None => None end
  end.

(** * Types: snek.h 189-197; [YData size alloc] is the block behind the data
    field of a list, which C has no type for *)
Inductive ty := YList | YStr | YFunc | YCode | YFrame | YName | YCompile | YData (size alloc : Z).

(** snek-memory.c 30-63: the roots *)
Record roots := {
  r_stack : list Z;            (* snek_stack[0 .. snek_stackp - 1] *)
  r_names : Z; r_globals : Z; r_frame : Z; r_stash : Z; r_code : Z; r_empty : Z;
  r_a : Z; r_compile : Z }.

Record gc := {
  g_m : mem;
  g_busy : Z -> bool;          (* snek_busy, by offset / 4 *)
  g_chunks : list (Z * Z);     (* snek_chunk[0 .. chunk_last - 1]: old_offset and size or new_offset *)
  g_first : nat;               (* chunk_first *)
  g_low : Z; g_high : Z;       (* chunk_low, chunk_high *)
  g_note : Z;                  (* snek_note_list *)
  g_top : Z;                   (* snek_top *)
  g_last : Z }.                (* snek_last_top *)
Definition with_m m g := {| g_m := m; g_busy := g_busy g; g_chunks := g_chunks g; g_first := g_first g; g_low := g_low g; g_high := g_high g; g_note := g_note g; g_top := g_top g; g_last := g_last g |}.
Definition with_busy b g := {| g_m := g_m g; g_busy := b; g_chunks := g_chunks g; g_first := g_first g; g_low := g_low g; g_high := g_high g; g_note := g_note g; g_top := g_top g; g_last := g_last g |}.
Definition with_chunks c h g := {| g_m := g_m g; g_busy := g_busy g; g_chunks := c; g_first := g_first g; g_low := g_low g; g_high := h; g_note := g_note g; g_top := g_top g; g_last := g_last g |}.
Definition with_window f l g := {| g_m := g_m g; g_busy := g_busy g; g_chunks := g_chunks g; g_first := f; g_low := l; g_high := g_high g; g_note := g_note g; g_top := g_top g; g_last := g_last g |}.
Definition with_note n g := {| g_m := g_m g; g_busy := g_busy g; g_chunks := g_chunks g; g_first := g_first g; g_low := g_low g; g_high := g_high g; g_note := n; g_top := g_top g; g_last := g_last g |}.
Definition with_tops t l g := {| g_m := g_m g; g_busy := g_busy g; g_chunks := g_chunks g; g_first := g_first g; g_low := g_low g; g_high := g_high g; g_note := g_note g; g_top := t; g_last := l |}.

Section Gc.
Variable w : width.
Variable POOL : Z.
Variable NCHUNK : nat.
(** compile_alloc and snek_compile_size (snek-code.c 21-32) *)
Variables calloc csize : Z.
Notation k := (Z.of_nat (obytes w)).
Notation none := (OFFSET_NONE w).
Notation geto := (get (obytes w)).
Notation puto := (put (obytes w)).

(** snek-memory.c 151-167: tag_byte, tag_bit, mark, busy *)
Definition busy (o : Z) (g : gc) : option bool :=
  if (0 <=? o) && (o <? POOL) then Some (g_busy g (o / 4)) else None.
Definition mark (o : Z) (g : gc) : gc := with_busy (fun i => if i =? o / 4 then true else g_busy g i) g.

(** snek-memory.c 176-186 *)
Definition size_round (s : Z) : Z := u_of w ((u_of w s + 3) / 4 * 4).
Definition strlen (m : mem) (a : Z) : option Z := strlen_ (Z.to_nat (POOL - a)) m a.
Definition mem_size (m : mem) (t : ty) (o : Z) : option Z :=
  match t with
  | YList => Some (4 * k)                                                        (* snek-list.c 353-358 *)
  | YStr => let? l := strlen m o in Some (l + 1)                                 (* snek-string.c 267-272 *)
  | YFunc => Some (2 * k + m o * k)                                              (* snek-func.c 145-151 *)
  | YCode => Some (k + geto m o)                                                 (* snek-code.c 325-331 *)
  | YFrame => Some (4 * k + 8 * geto m (o + 3 * k))                              (* snek-frame.c 209-215 *)
  | YName => let? l := strlen m (o + k) in Some (k + l + 1)                      (* snek-name.c 134-140 *)
  | YCompile => Some calloc                                                      (* snek-code.c 394-399 *)
  | YData _ a => Some (4 * a)                                                    (* snek-list.c 367 *)
  end.

(** snek.h 211-216, 1045-1061: the fields of a list *)
Definition list_size (m : mem) (o : Z) : Z := geto m o.
Definition list_alloc (m : mem) (o : Z) : Z := geto m (o + k).
Definition list_data (m : mem) (o : Z) : Z := geto m (o + 3 * k).
Definition note_next (m : mem) (o : Z) : Z := geto m (o + 2 * k) / 4 * 4.
Definition set_note_next (o next : Z) (m : mem) : mem :=
  puto (next + geto m (o + 2 * k) mod 4) (o + 2 * k) m.

(** snek-memory.c 195-201: note_list *)
Definition note_list (old new : Z) (g : gc) : gc :=
  with_note old (with_m (set_note_next new (g_note g) (g_m g)) g).

(** snek-memory.c 206-223: find_chunk, between [l] and [r] *)
Fixpoint search (fuel l r : nat) (o : Z) (cs : list (Z * Z)) : option nat :=
  if Nat.ltb l r then
    match fuel with
    | O => None
    | S fuel =>
        let m := Nat.div2 (l + r) in
        match nth_error cs m with
        | None => None
        | Some (old, _) => if old <? o then search fuel (S m) r o cs else search fuel l m o cs
        end
    end
  else Some l.
Definition find_chunk (o : Z) (g : gc) : option nat :=
  search (S (length (g_chunks g))) (g_first g) (length (g_chunks g)) o (g_chunks g).

(** snek-memory.c 225-270: note_chunk *)
Definition note_chunk (o size : Z) (g : gc) : option gc :=
  if (o <? g_low g) || (g_high g <=? o) then Some g
  else
    let? c := find_chunk o g in
    if Nat.leb NCHUNK c then None
    else
      let cs := firstn NCHUNK (firstn c (g_chunks g) ++ (o, size) :: skipn c (g_chunks g)) in
      let high := if Nat.eqb (length cs) NCHUNK then fst (last cs (0, 0)) + snd (last cs (0, 0)) else g_high g in
      Some (with_chunks cs high g).

(** * Marking *)
(** snek-memory.c 467-485: snek_mark_blob *)
Definition mark_blob (o size : Z) (g : gc) : option (bool * gc) :=
  let? b := busy o g in
  if b then Some (true, g)
  else let? g := note_chunk o size (mark o g) in Some (false, g).
(** snek-memory.c 513-523: snek_mark_block_addr *)
Definition mark_block (t : ty) (o : Z) (g : gc) : option (bool * gc) :=
  let? s := mem_size (g_m g) t o in
  mark_blob o (size_round s) g.

(** what a value word refers to: snek-poly.c 61-65, snek.h 903-907 *)
Definition word_ref (u : Z) : option (ty * Z) :=
  let o := u_of w (snek_poly_to_offset u) in
  match snek_poly_type u with
  | TList => Some (YList, o)
  | TString => Some (YStr, o)
  | TFunc => Some (YFunc, o)
  | TFloat | TBuiltin => None
  end.

(** a loop over [n] values, [step] bytes apart *)
Fixpoint each (f : Z -> gc -> option gc) (n : nat) (a step : Z) (g : gc) : option gc :=
  match n with
  | O => Some g
  | S n => let? g := f a g in each f n (a + step) step g
  end.
(** the loop of code_mark and code_move, snek-code.c 333-369: over the
    operands of the string instructions *)
Fixpoint code_each (f : Z -> gc -> option gc) (fuel : nat) (code ip size : Z) (g : gc) : option gc :=
  if ip <? size then
    match fuel with
    | O => None
    | S fuel =>
        let op := byte_op (g_m g (code + ip)) in
        let? g := (if op =? op_code KString then f (code + ip + 1) g else Some g) in
        code_each f fuel code (ip + 1 + Z.of_nat (operand_size w op)) size g
    end
  else Some g.

Section Visit.
(** a visitor: snek_mark_addr *)
Variable visit : ty -> Z -> gc -> option (bool * gc).

(** snek-memory.c 570-601: snek_poly_mark.  None is one of the builtins. *)
Definition poly_mark (u : Z) (g : gc) : option gc :=
  match word_ref u with
  | None => Some g
  | Some (t, o) =>
      let? (r, g) := visit t o g in
      match t with
      | YList => Some (if r then g else note_list o o g)
      | _ => Some g
      end
  end.
(** snek-memory.c 538-544: snek_mark_offset *)
Definition mark_offset (t : ty) (o : Z) (g : gc) : option gc :=
  if o =? none then Some g else let? (_, g) := visit t o g in Some g.

(** the value at [a] *)
Definition poly_mark_at (a : Z) (g : gc) : option gc := poly_mark (get 4 (g_m g) a) g.
(** the offset at [a] *)
Definition mark_offset_at (t : ty) (a : Z) (g : gc) : option gc := mark_offset t (geto (g_m g) a) g.

(** snek-name.c 142-153: snek_name_mark *)
Fixpoint names_mark (fuel : nat) (o : Z) (g : gc) : option gc :=
  let next := geto (g_m g) o in
  if next =? none then Some g
  else match fuel with
       | O => None
       | S fuel => let? (_, g) := mark_block YName next g in names_mark fuel next g
       end.

(** type->mark.  The loop of snek_frame_mark (snek-frame.c 217-236) marks the
    block of the previous frame and goes on with its contents, which is what
    visiting it does. *)
Definition mark_body (t : ty) (o : Z) (g : gc) : option gc :=
  match t with
  | YList =>                                                                     (* snek-list.c 360-371 *)
      if list_alloc (g_m g) o =? 0 then Some g
      else
        let data := list_data (g_m g) o in
        let? (_, g) := mark_blob data (u_of w (list_alloc (g_m g) o * 4)) g in
        each poly_mark_at (Z.to_nat (list_size (g_m g) o)) data 4 g
  | YStr | YData _ _ => Some g                                                   (* snek-string.c 274-278 *)
  | YFunc => mark_offset_at YCode (o + k) g                                      (* snek-func.c 153-159 *)
  | YCode => let s := geto (g_m g) o in code_each (mark_offset_at YStr) (Z.to_nat s) (o + k) 0 s g (* snek-code.c 371-377 *)
  | YCompile => code_each (mark_offset_at YStr) (Z.to_nat csize) o 0 csize g (* snek-code.c 401-405 *)
  | YFrame =>
      let? g := each poly_mark_at (Z.to_nat (geto (g_m g) (o + 3 * k))) (o + 4 * k) 8 g in
      let? g := mark_offset_at YCode (o + k) g in
      mark_offset_at YFrame o g
  | YName => names_mark (Z.to_nat POOL) o g
  end.
End Visit.

(** snek-memory.c 525-536: snek_mark_addr *)
Fixpoint mark_addr (fuel : nat) (t : ty) (o : Z) (g : gc) : option (bool * gc) :=
  match fuel with
  | O => None
  | S fuel =>
      let? (r, g) := mark_block t o g in
      if r then Some (true, g)
      else let? g := mark_body (mark_addr fuel) t o g in Some (false, g)
  end.

(** * Moving *)
(** snek-memory.c 609-621: move_map *)
Definition move_map (o : Z) (g : gc) : option Z :=
  if (o <? g_low g) || (g_high g <=? o) then Some o
  else
    let? c := find_chunk o g in
    match nth_error (g_chunks g) c with Some (_, new) => Some new | None => None end.
(** snek-memory.c 623-640: snek_move_block_offset, on an offset that is not
    SNEK_OFFSET_NONE; the new offset *)
Definition move_block (o : Z) (g : gc) : option (bool * Z * gc) :=
  let? o := move_map o g in
  let? b := busy o g in
  Some (b, o, if b then g else mark o g).

Section Move.
(** a visitor: snek_move_addr; it gives the new offset *)
Variable visit : ty -> Z -> gc -> option (bool * Z * gc).

(** snek-memory.c 682-712: snek_poly_move; the new value *)
Definition poly_move (u : Z) (g : gc) : option (Z * gc) :=
  match word_ref u with
  | None => Some (u, g)
  | Some (t, o) =>
      let? (r, o', g) := visit t o g in
      let g := match t with YList => if r then g else note_list o o' g | _ => g end in
      Some (snek_offset_to_poly o' (snek_poly_type u), g)
  end.
(** snek-memory.c 672-680: snek_move_offset, on the offset in [a] *)
Definition move_offset (t : ty) (a : Z) (g : gc) : option gc :=
  let o := geto (g_m g) a in
  if o =? none then Some g
  else let? (_, o', g) := visit t o g in Some (with_m (puto o' a (g_m g)) g).

Definition poly_move_at (a : Z) (g : gc) : option gc :=
  let? (u, g) := poly_move (get 4 (g_m g) a) g in Some (with_m (put 4 u a (g_m g)) g).

(** type->move.  Again the loops over frames (snek-frame.c 238-254) and names
    (snek-name.c 155-164) are visits of the next one. *)
Definition move_body (t : ty) (o : Z) (g : gc) : option gc :=
  match t with
  | YList =>                                                                     (* snek-list.c 373-384 *)
      if list_alloc (g_m g) o =? 0 then Some g
      else
        let? (_, data, g) := move_block (list_data (g_m g) o) g in
        let g := with_m (puto data (o + 3 * k) (g_m g)) g in
        each poly_move_at (Z.to_nat (list_size (g_m g) o)) data 4 g
  | YStr | YData _ _ => Some g
  | YFunc => move_offset YCode (o + k) g                                         (* snek-func.c 161-167 *)
  | YCode => let s := geto (g_m g) o in code_each (move_offset YStr) (Z.to_nat s) (o + k) 0 s g    (* snek-code.c 379-385 *)
  | YCompile => code_each (move_offset YStr) (Z.to_nat csize) o 0 csize g (* snek-code.c 407-411 *)
  | YFrame =>
      let? g := each poly_move_at (Z.to_nat (geto (g_m g) (o + 3 * k))) (o + 4 * k) 8 g in
      let? g := move_offset YCode (o + k) g in
      move_offset YFrame o g
  | YName => move_offset YName o g
  end.
End Move.

(** snek-memory.c 642-670: snek_move_addr.  The reference is written before
    the contents are moved, in poly_move after; no reference is read in
    between. *)
Fixpoint move_addr (fuel : nat) (t : ty) (o : Z) (g : gc) : option (bool * Z * gc) :=
  match fuel with
  | O => None
  | S fuel =>
      let? (r, o', g) := move_block o g in
      if r then Some (true, o', g)
      else let? g := move_body (move_addr fuel) t o' g in Some (false, o', g)
  end.

(** * The walk over everything: snek-memory.c 285-321 *)
(** enough for every object of the pool to be visited *)
Definition deep : nat := S (S (Z.to_nat (POOL / 4))).

(** 304-319: the notes *)
Fixpoint notes_ (visit : ty -> Z -> gc -> option (bool * Z * gc)) (fuel : nat) (note : Z) (g : gc) : option gc :=
  if note =? none then
    if g_note g =? none then Some g
    else match fuel with
         | O => None
         | S fuel => notes_ visit fuel (g_note g) (with_note none g)
         end
  else match fuel with
       | O => None
       | S fuel =>
           let? (_, l, g) := visit YList note g in
           let next := note_next (g_m g) l in
           notes_ visit fuel next (with_m (set_note_next l 0 (g_m g)) g)
       end.
Definition notes visit (g : gc) : option gc := notes_ visit (S deep) none g.

Definition clear (g : gc) : gc := with_busy (fun _ => false) g.

(** the pointers among the roots with their types, in order *)
Definition pointers (R : roots) : list (ty * Z) :=
  [(YName, r_names R); (YFrame, r_globals R); (YFrame, r_frame R); (YCode, r_stash R);
   (YCode, r_code R); (YList, r_empty R)].

Fixpoint values_mark (l : list Z) (g : gc) : option gc :=
  match l with
  | [] => Some g
  | u :: l => let? g := poly_mark (mark_addr deep) u g in values_mark l g
  end.
Fixpoint pointers_mark (l : list (ty * Z)) (g : gc) : option gc :=
  match l with
  | [] => Some g
  | (t, o) :: l => let? g := mark_offset (mark_addr deep) t o g in pointers_mark l g
  end.
Definition walk_mark (R : roots) (g : gc) : option gc :=
  let? g := values_mark (r_stack R) (clear g) in
  let? g := pointers_mark (pointers R) g in
  let? g := values_mark [r_a R] g in
  let? g := pointers_mark [(YCompile, r_compile R)] g in
  notes (fun t o g => let? (r, g) := mark_addr deep t o g in Some (r, o, g)) g.

Fixpoint values_move (l : list Z) (g : gc) : option (list Z * gc) :=
  match l with
  | [] => Some ([], g)
  | u :: l =>
      let? (u, g) := poly_move (move_addr deep) u g in
      let? (l, g) := values_move l g in
      Some (u :: l, g)
  end.
Definition pointer_move (t : ty) (o : Z) (g : gc) : option (Z * gc) :=
  if o =? none then Some (o, g) else let? (_, o, g) := move_addr deep t o g in Some (o, g).
Definition walk_move (R : roots) (g : gc) : option (roots * gc) :=
  let? (stack, g) := values_move (r_stack R) (clear g) in
  let? (names, g) := pointer_move YName (r_names R) g in
  let? (globals, g) := pointer_move YFrame (r_globals R) g in
  let? (frame, g) := pointer_move YFrame (r_frame R) g in
  let? (stash, g) := pointer_move YCode (r_stash R) g in
  let? (code, g) := pointer_move YCode (r_code R) g in
  let? (empty, g) := pointer_move YList (r_empty R) g in
  let? (a, g) := poly_move (move_addr deep) (r_a R) g in
  let? (compile, g) := pointer_move YCompile (r_compile R) g in
  let? g := notes (move_addr deep) g in
  Some ({| r_stack := stack; r_names := names; r_globals := globals; r_frame := frame; r_stash := stash;
           r_code := code; r_empty := empty; r_a := a; r_compile := compile |}, g).

(** * Collecting: snek-memory.c 350-456 *)
(** 272-278: reset_chunks *)
Definition reset_chunks (g : gc) : gc := with_window 0 (g_low g) (with_chunks [] (g_top g) g).
(** 390-399: the chunks that stay, and the top above them *)
Fixpoint settle (cs : list (Z * Z)) (c : nat) (top : Z) : nat * Z :=
  match cs with
  | [] => (c, top)
  | (old, size) :: cs => if top <? old then (c, top) else settle cs (S c) (u_of w (top + size))
  end.
(** 419-433: move the others down *)
Fixpoint slide (cs : list (Z * Z)) (top : Z) (m : mem) : list (Z * Z) * Z * mem :=
  match cs with
  | [] => ([], top, m)
  | (old, size) :: cs =>
      let '(cs', top', m') := slide cs (u_of w (top + size)) (copy top old size m) in
      ((old, top) :: cs', top', m')
  end.

(** 381-447: the loop.  The old offset read at 416 when no chunk moves is one
    of an earlier pass, and is not used. *)
Fixpoint passes (fuel : nat) (R : roots) (top : Z) (g : gc) : option (roots * Z * gc) :=
  match fuel with
  | O => None
  | S fuel =>
      let? g := walk_mark R (reset_chunks g) in
      let (c, top) := settle (g_chunks g) 0 top in
      if Nat.eqb c NCHUNK then passes fuel R top (with_window (g_first g) (g_high g) g)
      else
        let low := match nth_error (g_chunks g) c with Some (old, _) => old | None => g_low g end in
        let '(cs, top, m) := slide (skipn c (g_chunks g)) top (g_m g) in
        let g := with_m m (with_window c low (with_chunks (firstn c (g_chunks g) ++ cs) (g_high g) g)) in
        let? (R, g) := (if Nat.ltb (g_first g) (length (g_chunks g)) then walk_move R g else Some (R, g)) in
        if Nat.eqb (length (g_chunks g)) NCHUNK
        then passes fuel R top (with_window (g_first g) (g_high g) g)
        else Some (R, top, g)
  end.
(** snek_collect_counts is never increased *)
Definition collect (full : bool) (R : roots) (g : gc) : option (Z * roots * gc) :=
  let full := full || (g_last g =? 0) in
  let top := if full then 0 else g_last g in
  let? (R, top, g) := passes deep R top (with_window (g_first g) top g) in
  let g := with_tops top (if full then top else g_last g) g in
  Some (u_of w (POOL - top), R, g).

(** snek-memory.c 714-732: snek_alloc.  [None] as the offset: out of memory *)
Definition alloc (size : Z) (R : roots) (g : gc) : option (option Z * roots * gc) :=
  let size := size_round size in
  let? (ok, R, g) :=
    (if POOL - g_top g <? size then
       let? (free, R, g) := collect false R g in
       if free <? size then
         let? (free, R, g) := collect true R g in
         Some (negb (free <? size), R, g)
       else Some (true, R, g)
     else Some (true, R, g)) in
  if ok : bool then
    Some (Some (g_top g), R, with_tops (u_of w (g_top g + size)) (g_last g) (with_m (zero (g_top g) size (g_m g)) g))
  else Some (None, R, g).
End Gc.
