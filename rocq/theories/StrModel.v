(** snek-string.c and snek-print.c on the machine of MachModel.v, and the
    string builtins of snek-builtin.c.

    Characters are stored as the numbers 1..255; whether C's [char] is signed
    only matters to [ord]. *)
From Coq Require Import ZArith Bool List.
From Verif Require Import Base FloatModel PolyModel ValueModel SliceModel MachModel ListModel.
Import ListNotations.
Local Open Scope Z_scope.
Open Scope mach_scope.

(** What C reads in an array of characters: up to the first NUL. *)
Fixpoint cstring (l : list Z) : list Z :=
  match l with [] => [] | c :: l' => if c =? 0 then [] else c :: cstring l' end.

(** A new string in a block of [bytes] bytes: the characters and the final NUL
    must fit, otherwise the writes go outside. *)
Definition new_str (bytes : Z) (s : list Z) : M ptr :=
  if Z.of_nat (length s) + 1 <=? bytes then new_obj (OStr s) else undef.

(** Where characters come from: a string in the pool, or C text outside it
    (a literal or the static buffer of snek_poly_format), which is not put on
    the stack (snek-string.c 252-265). *)
Inductive src := SPool (p : ptr) | SText (s : list Z).

Section WithEnv.
Variable E : env.
Let w := e_width E.

(** snek-string.c 252-265: snek_stack_push_string, snek_stack_pop_string.
    A NULL pointer is not in the pool. *)
Definition push_str (p : option ptr) : M unit :=
  match p with None => ret tt | Some p => let* v := str_to_poly (Some p) in push E v end.
Definition pop_str (p : option ptr) : M (option ptr) :=
  match p with None => ret None | Some _ => let* v := pop in let* q := poly_to_str v in ret (Some q) end.
Definition push_src (s : src) : M unit := match s with SPool p => push_str (Some p) | SText _ => ret tt end.
Definition pop_src (s : src) : M src :=
  match s with
  | SPool p => let* v := pop in let* q := poly_to_str v in ret (SPool q)
  | SText _ => ret s
  end.
Definition read_src (s : src) : M (list Z) := match s with SPool p => deref_str p | SText t => ret t end.
Definition read_opt (p : option ptr) : M (list Z) := match p with Some p => deref_str p | None => ret [] end.

(** snek-string.c 17-24: snek_string_make *)
Definition string_make (c : Z) : M poly :=
  let* a := alloc E 2 in
  match a with
  | None => ret PNull
  | Some bytes => let* p := new_str bytes (cstring [wrapu 8 c]) in str_to_poly (Some p)
  end.

(** snek-string.c 37-53: snek_string_get *)
Definition string_get (string : ptr) (p : poly) (report : bool) : M poly :=
  let* so := get_soffset E p in
  let* s := deref_str string in
  match string_index w (e_int E) (u_of w (Z.of_nat (length s))) so with
  | Ok None => (if report then error (EValue p) else ret tt);; ret PNull
  | Ok (Some o) => let* c := lift (nth_error s (Z.to_nat o)) in string_make c
  | _ => undef
  end.

(** snek-string.c 55-71: snek_string_catn; [a] may be NULL, with [alen] 0 *)
Definition string_catn (a : option ptr) (aoff alen : Z) (b : option ptr) (boff blen : Z) : M (option ptr) :=
  push_str a;;
  push_str b;;
  let* n := alloc E (alen + blen + 1) in
  let* b := pop_str b in
  let* a := pop_str a in
  match n with
  | None => ret None
  | Some bytes =>
      let* sa := read_opt a in
      let* xa := lift (take (Z.to_nat alen) (skipn (Z.to_nat aoff) sa)) in
      let* sb := read_opt b in
      let* xb := lift (take (Z.to_nat blen) (skipn (Z.to_nat boff) sb)) in
      let* p := new_str bytes (xa ++ xb) in
      ret (Some p)
  end.

Definition strlen (s : list Z) : Z := u_of w (Z.of_nat (length s)).

(** snek-string.c 73-78: snek_string_cat *)
Definition string_cat (a b : ptr) : M poly :=
  let* sa := deref_str a in
  let* sb := deref_str b in
  let* p := string_catn (Some a) 0 (strlen sa) (Some b) 0 (strlen sb) in
  str_to_poly p.

(** snek-string.c 81-97: snek_string_slice *)
Definition string_slice (a : ptr) (s : slice) : M (option ptr) :=
  if sl_identity s then ret (Some a)
  else
    push_str (Some a);;
    let* n := alloc E (sl_count s + 1) in
    let* a := pop_str (Some a) in
    match n with
    | None => ret None
    | Some bytes =>
        let* t := read_opt a in
        match slice_copy w (Z.to_nat (sl_count s)) (sl_pos s) (sl_stride s) t with
        | Ok r => let* p := new_str bytes r in ret (Some p)
        | _ => undef
        end
    end.

(** snek-string.c 100-114: snek_string_times; the caller has checked [0 <= b].
    [a] is used after the allocation without having been on the stack. *)
Definition string_times (a : ptr) (b : Z) : M poly :=
  let* s := deref_str a in
  let alen := strlen s in
  let* n := alloc E (alen * b + 1) in
  match n with
  | None => ret PNull
  | Some bytes =>
      let* x := (if b =? 0 then ret []
                 else let* s := deref_str a in lift (take (Z.to_nat alen) s)) in
      let* p := new_str bytes (concat (repeat x (Z.to_nat b))) in
      str_to_poly (Some p)
  end.

(** snek-string.c 126-168: snek_buf_realloc, and its two callers
    snek_buf_sprintc and snek_buf_sprints: append the characters of [s] to the
    string [*str_p].  When there is no memory [*str_p] keeps its old value,
    though the string may have moved. *)
Definition buf_put (str_p : option ptr) (s : src) : M (option ptr) :=
  let* t := read_src s in
  let add := Z.of_nat (length t) in
  push_src s;;
  let* o := read_opt str_p in
  let len := strlen o in
  push_str str_p;;
  let* n := alloc E (len + add + 1) in
  let* old := pop_str str_p in
  let* s := pop_src s in
  match n with
  | None => ret str_p
  | Some bytes =>
      let* o := read_opt old in
      let* x := lift (take (Z.to_nat len) o) in
      let* t := read_src s in
      let* p := new_str bytes (x ++ t) in
      ret (Some p)
  end.

(** Conversions done by the C library: sprintf of an int under a format
    character, strfromf of a float under a format character and under "%.9g",
    and the texts for functions (which show the current address) and builtins.
    snek_poly_format calls them with a buffer of 32 bytes. *)
Record texts := {
  tx_int : Z -> Z -> list Z;
  tx_float : Z -> float -> list Z;
  tx_repr : float -> list Z;
  tx_func : loc -> nat -> list Z;
  tx_builtin : Z -> list Z }.

Definition ch_d := 100. Definition ch_i := 105. Definition ch_o := 111. Definition ch_x := 120.
Definition ch_X := 88. Definition ch_e := 101. Definition ch_E := 69. Definition ch_f := 102.
Definition ch_F := 70. Definition ch_g := 103. Definition ch_G := 71. Definition ch_c := 99.
Definition ch_s := 115. Definition ch_a := 97. Definition ch_percent := 37. Definition ch_quote := 39.
Definition is_intfmt (c : Z) : bool := existsb (Z.eqb c) [ch_d; ch_i; ch_o; ch_x; ch_X].
Definition is_fltfmt (c : Z) : bool := existsb (Z.eqb c) [ch_e; ch_E; ch_f; ch_F; ch_g; ch_G].

(** snek-print.c 17-43 *)
Definition list_open (k : lkind) : Z := match k with KList => 91 | KTuple => 40 | KDict => 123 end.
Definition list_close (k : lkind) : Z := match k with KList => 93 | KTuple => 41 | KDict => 125 end.
(** snek-print.c 135-141: what follows element [o] of [size] *)
Definition list_sep (k : lkind) (size o : Z) : list Z :=
  if (o <? size - 1) || ((size =? 1) && lkind_eqb k KTuple)
  then [if lkind_eqb k KDict && Z.even o then 58 else 44; 32] else [].

Section Format.
Variable T : texts.
(** snek.h: snek_buf_t: [put] writes characters to the buffer [B] *)
Variable B : Type.
Variable put : B -> src -> M B.

Fixpoint put_chars (b : B) (cs : list Z) : M B :=
  match cs with [] => ret b | c :: cs' => let* b := put b (SText [c]) in put_chars b cs' end.

(** snek-print.c 49-150: snek_poly_format.  [n] bounds the nesting. *)
Fixpoint poly_format (n : nat) (b : B) (a : poly) (format : Z) : M B :=
  match n with
  | O => undef
  | S n' =>
      let* ha := hold a in
      let print_int i := put b (SText (cstring (tx_int T format i))) in
      let other format :=
        if is_null a then put b (SText [78; 111; 110; 101])
        else match a with
        | PNum f => put b (SText (tx_repr T f))
        | PStr _ =>
            let* b := put b (SText [ch_quote]) in
            let* a := use ha in
            let* p := poly_to_str a in
            let* b := put b (SPool p) in
            put b (SText [ch_quote])
        | PFunc l => fun m => put b (SText (tx_func T l (m_epoch m))) m
        | PBuiltin u => put b (SText (tx_builtin T u))
        | PList _ =>
            let* list := poly_to_list a in
            let* lo := deref_list list in
            let type := lo_kind lo in
            let size := lo_size lo in
            push_list E list;;
            let* b := put b (SText [list_open type]) in
            let* b :=
              (fix elts (k : nat) (o : Z) (b : B) : M B :=
                 match k with
                 | O => ret b
                 | S k' =>
                     let* list := pop_list in
                     push_list E list;;
                     let* lo := deref_list list in
                     let* x := nth_data lo o in
                     let* b := poly_format n' b x format in
                     let* b := put_chars b (list_sep type size o) in
                     elts k' (o + 1) b
                 end) (Z.to_nat size) 0 b in
            let* _ := pop_list in
            put b (SText [list_close type])
        | PJunk _ => undef
        end in
      if is_intfmt format then
        match a with
        | PNum f => match f_to_sint (e_int E) f with Ok i => print_int i | _ => undef end
        | _ => other format
        end
      else if is_fltfmt format then
        match a with
        | PNum f => put b (SText (tx_float T format f))
        | _ => other format
        end
      else if format =? ch_c then
        match a with
        | PNum f => match f_to_sint (e_int E) f with Ok i => print_int i | _ => undef end
        | PStr _ =>
            let* p := poly_to_str a in
            let* s := deref_str p in
            print_int (hd 0 s)
        | _ => other format
        end
      else if format =? ch_s then
        match a with
        | PStr _ => let* p := poly_to_str a in put b (SPool p)
        | _ => other ch_a
        end
      else other format
  end.
End Format.

(** snek-string.c 116-123: snek_next_format: distance to the next '%' or the
    end *)
Fixpoint next_format (a : list Z) : Z :=
  match a with [] => 0 | c :: a' => if c =? ch_percent then 0 else 1 + next_format a' end.

Definition fmt_fuel (m : mach) : nat := S (S (length (m_heap m))).

Section Interpolate.
Variable T : texts.
Definition buf_format (result : option ptr) (a : poly) (format : Z) : M (option ptr) :=
  fun m => poly_format T (option ptr) buf_put (fmt_fuel m) result a format m.

(** snek-string.c 195-229: the loop of snek_string_interpolate.  [is_list] and
    [size] are fixed before it; [arg] (C: poly) and [a] are saved on the stack around
    each call that can allocate. *)
Fixpoint interp_loop (fuel : nat) (a : ptr) (arg : poly) (is_list : bool) (size : Z)
    (percent : Z) (o : Z) (result : option ptr) : M (Z * option ptr) :=
  let* s := deref_str a in
  if Z.of_nat (length s) <=? percent then ret (o, result)
  else
  match fuel with
  | O => undef
  | S fuel' =>
      let next := u_of w (next_format (skipn (Z.to_nat percent) s) + percent) in
      push E arg;;
      push_str (Some a);;
      let* r := read_opt result in
      let* result := string_catn result 0 (strlen r) (Some a) percent (next - percent) in
      let* a := (let* v := pop in poly_to_str v) in
      let* arg := pop in
      let percent := next in
      let* s := deref_str a in
      match nth_error s (Z.to_nat percent) with
      | None => interp_loop fuel' a arg is_list size percent o result
      | Some _ =>     (* it is '%' *)
          let percent := u_of w (percent + 1) in
          push E arg;;
          push_str (Some a);;
          let* (percent, o, result) :=
            match nth_error s (Z.to_nat percent) with
            | None => ret (percent, u_of w (size + 1), result)
            | Some format =>
                let percent := u_of w (percent + 1) in
                if format =? ch_percent then
                  let* result := buf_put result (SText [ch_percent]) in
                  ret (percent, o, result)
                else if size <=? o then ret (percent, u_of w (size + 1), result)
                else
                  let* x := (if is_list then
                               let* l := poly_to_list arg in
                               let* lo := deref_list l in
                               nth_data lo o
                             else ret arg) in
                  let* result := buf_format result x format in
                  ret (percent, u_of w (o + 1), result)
            end in
          let* a := (let* v := pop in poly_to_str v) in
          let* arg := pop in
          interp_loop fuel' a arg is_list size percent o result
      end
  end.

(** snek-string.c 170-235: snek_string_interpolate *)
Definition string_interpolate (a : ptr) (arg : poly) : M poly :=
  let* (is_list, size) :=
    match arg with
    | PList _ =>
        let* l := poly_to_list arg in
        let* lo := deref_list l in
        ret (if lkind_eqb (lo_kind lo) KDict then (false, 1) else (true, lo_size lo))
    | _ => ret (false, 1)
    end in
  let* s := deref_str a in
  let* (o, result) := interp_loop (S (length s)) a arg is_list size 0 0 None in
  if negb (o =? size) then ret PInvalid else str_to_poly result.
End Interpolate.

(** snek-poly.c 67-76: snek_poly_print; the output so far *)
Definition file_put (out : list Z) (s : src) : M (list Z) := let* t := read_src s in ret (out ++ t).
Definition poly_print (T : texts) (out : list Z) (a : poly) (format : Z) : M (list Z) :=
  fun m => poly_format T (list Z) file_put (fmt_fuel m) out a format m.

(** snek-builtin.c 55-61: ord; [sgn]: C's char is signed *)
Definition builtin_ord (sgn : bool) (a : poly) : M poly :=
  match a with
  | PStr _ =>
      let* p := poly_to_str a in
      let* s := deref_str p in
      let c := hd 0 s in
      ret (PNum (f_of_Z (if sgn then wraps 8 c else c)))
  | _ => error (EType1 a);; ret PNull
  end.
(** snek-builtin.c 63-68: chr *)
Definition builtin_chr (a : poly) : M poly :=
  let* s := get_soffset E a in string_make s.
End WithEnv.
