(** snek-list.c, function by function, on the machine of MachModel.v; also
    snek_poly_cmp (snek-poly.c) on heap values. *)
From Coq Require Import ZArith Bool List.
From Verif Require Import Base FloatModel PolyModel ValueModel SliceModel MachModel.
Import ListNotations.
Local Open Scope Z_scope.
Open Scope mach_scope.

Definition lkind_eqb (a b : lkind) : bool := lkind_code a =? lkind_code b.
(** snek.h 1033-1037: snek_list_readonly *)
Definition readonly (k : lkind) : bool := lkind_eqb k KTuple.
Definition tuple_if (b : bool) : lkind := if b then KTuple else KList.

(** snek-list.c 17-21: snek_list_alloc *)
Definition list_alloc (w : width) (size : Z) : Z :=
  u_of w (size + Z.shiftr size 3 + (if size <? 9 then 3 else 6)).

(** A fresh block: snek_alloc clears it (snek-memory.c 730). *)
Definition zero_words (bytes : Z) : list poly := repeat PZero (Z.to_nat (bytes / 4)).

Definition set_size (o : lobj) (s : Z) : lobj :=
  {| lo_kind := lo_kind o; lo_size := s; lo_alloc := lo_alloc o; lo_data := lo_data o |}.
Definition set_data (o : lobj) (d : list poly) : lobj :=
  {| lo_kind := lo_kind o; lo_size := lo_size o; lo_alloc := lo_alloc o; lo_data := d |}.

Section WithEnv.
Variable E : env.
Let w := e_width E.

(** snek-list.c 341-351: snek_stack_push_list, snek_stack_pop_list *)
Definition push_list (p : ptr) : M unit := let* v := list_to_poly (Some p) in push E v.
Definition pop_list : M ptr := let* v := pop in poly_to_list v.

(** snek-list.c 29-53: snek_list_resize *)
Definition list_resize (list : ptr) (size : Z) : M (option ptr) :=
  let* o := deref_list list in
  if size <=? lo_alloc o then
    assign_list list (set_size o size);; ret (Some list)
  else
    let alloc_ := if readonly (lo_kind o) then size else list_alloc w size in
    push_list list;;
    let* data := alloc E (u_of w (alloc_ * 4)) in
    let* list := pop_list in
    match data with
    | None => ret None
    | Some bytes =>
        let* o := deref_list list in
        let to_copy := if lo_size o <? size then lo_size o else size in
        let* src := lift (take (Z.to_nat to_copy) (lo_data o)) in
        let* data := lift (blit 0 src (zero_words bytes)) in
        assign_list list {| lo_kind := lo_kind o; lo_size := size; lo_alloc := alloc_; lo_data := data |};;
        ret (Some list)
    end.

(** sizeof (snek_list_t), snek.h 210-215: four fields of the offset type *)
Definition sizeof_list : Z := match w with W16 => 8 | W32 => 16 end.

(** snek-list.c 57-64: snek_list_head_alloc *)
Definition head_alloc (k : lkind) : M (option ptr) :=
  let* a := alloc E sizeof_list in
  match a with
  | None => ret None
  | Some _ => let* p := new_obj (OList {| lo_kind := k; lo_size := 0; lo_alloc := 0; lo_data := [] |}) in
              ret (Some p)
  end.

(** snek-list.c 66-79: snek_list_make *)
Definition list_make (size : Z) (k : lkind) : M (option ptr) :=
  if (size =? 0) && readonly k then
    fun m => match m_empty m with
             | Some l => Some (Some (l, m_epoch m), m)
             | None => (let* p := head_alloc k in
                        fun m => Some (p, set_empty (match p with Some p => Some (fst p) | None => None end) m)) m
             end
  else
    let* p := head_alloc k in
    match p with
    | None => ret None
    | Some p => list_resize p size
    end.

Definition ptr_eqb (p q : ptr) : bool := Nat.eqb (fst p) (fst q) && Nat.eqb (snd p) (snd q).

(** snek-list.c 81-102: snek_list_append *)
Definition list_append (list append : ptr) : M (option ptr) :=
  let* lo := deref_list list in
  let oldsize := lo_size lo in
  let* ao := deref_list append in
  let append_size := lo_size ao in
  let same := ptr_eqb append list in
  (if same then ret tt else push_list append);;
  let* list := list_resize list (u_of w (oldsize + append_size)) in
  let* append := (if same then ret list else let* p := pop_list in ret (Some p)) in
  match list with
  | None => ret None
  | Some list =>
      let* append := lift append in
      let* ao := deref_list append in
      let* src := lift (take (Z.to_nat append_size) (lo_data ao)) in
      let* lo := deref_list list in
      let* d := lift (blit (Z.to_nat oldsize) src (lo_data lo)) in
      assign_list list (set_data lo d);;
      ret (Some list)
  end.

(** snek-list.c 104-120: snek_list_plus *)
Definition list_plus (a b : ptr) : M (option ptr) :=
  push_list a;;
  push_list b;;
  let* ao := deref_list a in
  let* bo := deref_list b in
  let* n := list_make (u_of w (lo_size ao + lo_size bo)) (lo_kind ao) in
  let* b := pop_list in
  let* a := pop_list in
  match n with
  | None => ret None
  | Some n =>
      let* ao := deref_list a in
      let* src := lift (take (Z.to_nat (lo_size ao)) (lo_data ao)) in
      let* no := deref_list n in
      let* d := lift (blit 0 src (lo_data no)) in
      assign_list n (set_data no d);;
      let* ao := deref_list a in
      let* bo := deref_list b in
      let* src := lift (take (Z.to_nat (lo_size bo)) (lo_data bo)) in
      let* no := deref_list n in
      let* d := lift (blit (Z.to_nat (lo_size ao)) src (lo_data no)) in
      assign_list n (set_data no d);;
      ret (Some n)
  end.

(** snek-list.c 135-138: the copying loop of snek_list_times *)
Fixpoint times_loop (count : nat) (dst : nat) (src : list poly) (n : ptr) : M unit :=
  match count with
  | O => ret tt
  | S count' =>
      let* no := deref_list n in
      let* d := lift (blit dst src (lo_data no)) in
      assign_list n (set_data no d);;
      times_loop count' (dst + length src) src n
  end.

(** snek-list.c 122-140: snek_list_times *)
Definition list_times (a : ptr) (count : Z) : M (option ptr) :=
  let count := if count <? 0 then 0 else count in
  push_list a;;
  let* ao := deref_list a in
  let size := lo_size ao in
  let* n := list_make (u_of w (size * count)) (lo_kind ao) in
  let* a := pop_list in
  match n with
  | None => ret None
  | Some n =>
      let* ao := deref_list a in
      let* src := lift (take (Z.to_nat size) (lo_data ao)) in
      times_loop (Z.to_nat count) 0 src n;;
      ret (Some n)
  end.

Definition live (o : lobj) : list poly := firstn (Z.to_nat (lo_size o)) (lo_data o).

(** snek-list.c 143-157: snek_mutable.  [None]: a dangling reference, or
    recursion deeper than the number of objects, i.e. without end. *)
Fixpoint hmutable (n : nat) (h : list obj) (p : poly) : option bool :=
  match n with
  | O => None
  | S n' =>
      match p with
      | PList l =>
          match nth_error h l with
          | Some (OList o) =>
              if negb (readonly (lo_kind o)) then Some true
              else (fix any (l : list poly) : option bool :=
                      match l with
                      | [] => Some false
                      | x :: l' => match hmutable n' h x with
                                   | Some false => any l'
                                   | r => r
                                   end
                      end) (live o)
          | _ => None
          end
      | PJunk TList => None
      | _ => Some false
      end
  end.
Definition mutable (p : poly) : M bool :=
  fun m => match hmutable (S (S (length (m_heap m)))) (m_heap m) p with Some b => Some (b, m) | None => None end.

(** snek-list.c 252-271: snek_list_cmp's loop, over a given comparison *)
Fixpoint cmp_loop (f : poly -> poly -> option Z) (x y : list poly) : option Z :=
  match x, y with
  | [], [] => Some 0
  | [], _ :: _ => Some 1
  | _ :: _, [] => Some 1
  | a :: x', b :: y' =>
      match f a b with
      | Some d => if negb (d =? 0) then Some d else cmp_loop f x' y'
      | None => None
      end
  end.

(** snek-poly.c 78-107: snek_poly_cmp and snek_list_cmp.  Functions compare by
    address; sliding compaction keeps addresses in order of allocation, which
    is the order of locations.  [None]: dangling reference, or recursion that
    does not end (after [length h * length h] levels some pair of lists is
    being compared inside its own comparison). *)
Fixpoint hcmp (n : nat) (h : list obj) (is : bool) (a b : poly) : option Z :=
  match n with
  | O => None
  | S n' =>
      let tdiff := ptype_code (poly_type a) - ptype_code (poly_type b) in
      if negb (tdiff =? 0) then Some tdiff
      else match a, b with
           | PNum f, PNum g => Some (num_cmp f g)
           | PStr s, PStr t =>
               match nth_error h s, nth_error h t with
               | Some (OStr s), Some (OStr t) => Some (str_cmp s t)
               | _, _ => None
               end
           | PList l, PList l' =>
               if is then Some (word_cmp (Z.of_nat l) (Z.of_nat l'))
               else match nth_error h l, nth_error h l' with
                    | Some (OList o), Some (OList o') =>
                        let diff := lkind_code (lo_kind o) - lkind_code (lo_kind o') in
                        if negb (diff =? 0) then Some diff
                        else cmp_loop (hcmp n' h false) (live o) (live o')
                    | _, _ => None
                    end
           | PFunc u, PFunc u' => Some (word_cmp (Z.of_nat u) (Z.of_nat u'))
           | PBuiltin u, PBuiltin u' => Some (word_cmp u u')
           | _, _ => None
           end
  end.
Definition cmp_fuel (h : list obj) : nat := S (S (length h * length h)).
Definition cmp (a b : poly) (is : bool) : M Z :=
  fun m => match hcmp (cmp_fuel (m_heap m)) (m_heap m) is a b with Some d => Some (d, m) | None => None end.

(** snek-poly.c 149-155: snek_poly_get_float; 160-164: snek_poly_get_soffset *)
Definition get_float (p : poly) : M float :=
  match p with
  | PNum f => ret f
  | _ => error (EType1 p);; ret f_zero
  end.
Definition get_soffset (p : poly) : M Z :=
  let* f := get_float p in
  match float_index w f with Ok z => ret z | _ => undef end.

Definition nth_data (o : lobj) (i : Z) : M poly := lift (nth_error (lo_data o) (Z.to_nat i)).

(** snek-list.c 169-177: the binary search of a dictionary.  [fuel] only
    serves to define the loop by recursion. *)
Fixpoint dict_search (fuel : nat) (o : lobj) (p : poly) (l r : Z) : M Z :=
  if l <? r then
    match fuel with
    | O => undef
    | S fuel' =>
        let i := Z.shiftr (u_of w (l + r)) 1 in
        let i := i - i mod 2 in
        let* k := nth_data o i in
        let* d := cmp k p false in
        if d <? 0 then dict_search fuel' o p (u_of w (i + 2)) r else dict_search fuel' o p l i
    end
  else ret l.

(** A pointer to an element: list and index. *)
Definition eref := (ptr * nat)%type.
Definition load (r : eref) : M poly :=
  let* o := deref_list (fst r) in lift (nth_error (lo_data o) (snd r)).
Definition store (r : eref) (v : poly) : M unit :=
  let* o := deref_list (fst r) in
  if Nat.ltb (snd r) (length (lo_data o)) then assign_list (fst r) (set_data o (upd (snd r) v (lo_data o)))
  else undef.

Definition fail_ref (report : bool) (p : poly) : M (option eref) :=
  (if report then error (EValue p) else ret tt);; ret None.

(** snek-list.c 190-191: make room for a pair at [o], write the key *)
Definition open_gap (list : ptr) (o : Z) (p : poly) : M unit :=
  let* lo := deref_list list in
  let* tail := lift (take (Z.to_nat (lo_size lo - o - 2)) (skipn (Z.to_nat o) (lo_data lo))) in
  let* d := lift (blit (Z.to_nat (o + 2)) tail (lo_data lo)) in
  let* d := lift (if Nat.ltb (Z.to_nat o) (length d) then Some (upd (Z.to_nat o) p d) else None) in
  assign_list list (set_data lo d).

(** snek-list.c 160-209: _snek_list_ref *)
Definition list_ref_ (list : ptr) (p : poly) (report add : bool) : M (option eref) :=
  let* lo := deref_list list in
  if lkind_eqb (lo_kind lo) KDict then
    let* o := dict_search (S (Z.to_nat (lo_size lo))) lo p 0 (lo_size lo) in
    let* missing := (if lo_size lo <=? o then ret true
                     else let* k := nth_data lo o in
                          let* d := cmp p k false in ret (negb (d =? 0))) in
    if (missing : bool) then
      if negb add then fail_ref report p
      else
        let* mt := mutable p in
        if (mt : bool) then fail_ref report p
        else
          push E p;;
          let* l := list_resize list (u_of w (lo_size lo + 2)) in
          let* p := pop in
          match l with
          | None => ret None
          | Some list => open_gap list o p;; ret (Some (list, Z.to_nat (o + 1)))
          end
    else ret (Some (list, Z.to_nat (o + 1)))
  else
    let* so := get_soffset p in
    match list_index w (e_int E) (lo_size lo) so with
    | Ok (Some o) => ret (Some (list, Z.to_nat o))
    | Ok None => fail_ref report p
    | _ => undef
    end.

(** snek-list.c 211-215, 217-224 *)
Definition list_ref (list : ptr) (p : poly) (report : bool) : M (option eref) := list_ref_ list p report true.
Definition list_get (list : ptr) (p : poly) (report : bool) : M poly :=
  let* r := list_ref_ list p report false in
  match r with Some r => load r | None => ret PNull end.

(** snek-list.c 226-250: snek_list_del.  [list] is read before snek_list_ref
    and used after it; [remain - num] words are moved down. *)
Definition list_del (lp p : poly) : M unit :=
  let* hlp := hold lp in
  let* list := poly_to_list lp in
  let* r := list_ref list p true in
  match r with
  | None => ret tt
  | Some (rl, ri) =>
      let* lo := deref_list list in
      match lo_kind lo with
      | KTuple => let* lp := use hlp in error (EValue lp)
      | k =>
          let '(ri, num) := match k with KDict => (Nat.pred ri, 2%nat) | _ => (ri, 1%nat) end in
          let* ro := deref_list rl in      (* r points into this list's block *)
          let remain := Z.to_nat (u_of w (lo_size lo - Z.of_nat ri)) in
          let* src := lift (take (remain - num) (skipn (ri + num) (lo_data ro))) in
          let* d := lift (blit ri src (lo_data ro)) in
          assign_list rl (set_data ro d);;
          let* lo := deref_list list in
          assign_list list (set_size lo (u_of w (lo_size lo - Z.of_nat num)))
      end
  end.

(** snek-exec.c 616-639, 664-665: snek_assign's array case, [lp[ip] = v].
    [v] is snek_a, a root of the collector, hence never out of date. *)
Definition elem_assign (lp ip v : poly) : M unit :=
  match lp with
  | PList _ =>
      let* l := poly_to_list lp in
      let* o := deref_list l in
      if readonly (lo_kind o) then error (EType1 lp)
      else
        let* r := list_ref l ip true in
        match r with None => ret tt | Some r => store r v end
  | _ => error (EType1 lp)
  end.

(** snek-exec.c 935-941: [del lp[p]] *)
Definition elem_del (lp p : poly) : M unit :=
  match lp with PList _ => list_del lp p | _ => error (EType1 lp) end.

(** snek-list.c 288-295: filling a dictionary from the stack *)
Fixpoint dict_fill (s : nat) (list : ptr) : M unit :=
  match s with
  | S (S s') =>
      let* key := pick (S s') in
      let* value := pick s' in
      let* hv := hold value in
      let* r := list_ref_ list key true true in
      (match r with None => ret tt | Some r => let* value := use hv in store r value end);;
      dict_fill s' list
  | _ => ret tt
  end.
(** snek-list.c 300-301: filling a list or tuple from the stack *)
Fixpoint list_fill (size : nat) (list : ptr) : M unit :=
  match size with
  | O => ret tt
  | S size' => let* v := pop in store (list, size') v;; list_fill size' list
  end.

(** snek-list.c 273-304: snek_list_imm *)
Definition list_imm (size : nat) (k : lkind) : M poly :=
  let* list := list_make (Z.of_nat size) k in
  match list with
  | None => drop size;; ret PNull
  | Some list =>
      (if lkind_eqb k KDict then
         let* o := deref_list list in
         assign_list list (set_size o 0);;
         dict_fill size list;;
         drop size
       else list_fill size list);;
      list_to_poly (Some list)
  end.

(** snek-list.c 335-336: the copying loop of a slice (SliceModel.slice_copy
    says which elements); undefined outside the block *)
Definition list_slice (list : ptr) (s : slice) : M (option ptr) :=
  let* o := deref_list list in
  let ro := readonly (lo_kind o) in
  if ro && sl_identity s then ret (Some list)
  else
    push_list list;;
    let* n := list_make (sl_count s) (tuple_if ro) in
    let* list := pop_list in
    match n with
    | None => ret None
    | Some n =>
        let* o := deref_list list in
        match slice_copy w (Z.to_nat (sl_count s)) (sl_pos s) (sl_stride s) (lo_data o) with
        | Ok src =>
            let* no := deref_list n in
            let* d := lift (blit 0 src (lo_data no)) in
            assign_list n (set_data no d);;
            ret (Some n)
        | _ => undef
        end
    end.

(** snek-exec.c 383-395: the scan of [a in b] for a list, tuple or dictionary
    [b]; [step] is 2 for a dictionary *)
Fixpoint in_scan (fuel : nat) (a : poly) (bl : ptr) (o step : Z) : M bool :=
  let* lo := deref_list bl in
  if o <? lo_size lo then
    match fuel with
    | O => undef
    | S fuel' =>
        let* x := nth_data lo o in
        let* d := cmp a x false in
        if d =? 0 then ret true else in_scan fuel' a bl (u_of w (o + step)) step
    end
  else ret false.
Definition list_in (a : poly) (bl : ptr) : M bool :=
  let* lo := deref_list bl in
  in_scan (S (Z.to_nat (lo_size lo))) a bl 0 (if lkind_eqb (lo_kind lo) KDict then 2 else 1).

(** snek-poly.c 124-143: snek_poly_len *)
Definition poly_len (a : poly) : M Z :=
  match a with
  | PStr _ => let* p := poly_to_str a in let* s := deref_str p in ret (Z.of_nat (length s))
  | PList _ =>
      let* al := poly_to_list a in
      let* lo := deref_list al in
      ret (if lkind_eqb (lo_kind lo) KDict then lo_size lo / 2 else lo_size lo)
  | _ => ret 0
  end.
End WithEnv.
