(** The builtin functions that do not depend on the port: snek-builtin.c,
    snek-input.c, snek-math.c, snek-random.c and [str] of snek-string.c, on the
    machine of MachModel.v, and the table of them.

    Functions of the C library that are not defined by exact rules (expf, sinf,
    ...) and strtof are parameters; they are taken to compute floats from floats
    and to have no other effect.  The functions of a port (exit, time, curses,
    gpio, ...) are not modelled. *)
From Coq Require Import ZArith Bool List String.
From Flocq Require Import IEEE754.Binary IEEE754.Bits IEEE754.BinarySingleNaN Core.
From Verif Require Import Base FloatModel MathModel PolyModel ValueModel SliceModel MachModel ListModel StrModel.
Import ListNotations.
Local Open Scope Z_scope.
Open Scope mach_scope.

(** ** The C library functions that are exact (C11 7.12) *)

(** ceilf, truncf, roundf (halves away from zero); floorf is in FloatModel.v *)
Definition fceil (a : float) : float := Binary.Bnearbyint 24 128 prec24_emax unop_nan_pl32 mode_UP a.
Definition ftrunc (a : float) : float := Binary.Bnearbyint 24 128 prec24_emax unop_nan_pl32 mode_ZR a.
Definition fround (a : float) : float := Binary.Bnearbyint 24 128 prec24_emax unop_nan_pl32 mode_NA a.
(** sqrtf *)
Definition fsqrt (a : float) : float := b32_sqrt mode_NE a.
(** copysignf *)
Definition sign_of (a : float) : bool := Binary.Bsign 24 128 a.
Definition fcopysign (a b : float) : float := if Bool.eqb (sign_of a) (sign_of b) then a else fneg a.
(** ldexpf *)
Definition fldexp (a : float) (e : Z) : float := Binary.Bldexp 24 128 prec24 prec24_emax mode_NE a e.
(** frexpf; the exponent of a number that is not finite is unspecified, 0 in
    glibc and picolibc *)
Definition ffrexp (a : float) : float * Z :=
  match a with
  | Binary.B754_finite _ _ _ _ _ _ => Binary.Bfrexp 24 128 prec24 a
  | _ => (a, 0)
  end.
(** modff: the fraction and the integral part, both with the sign of [a] *)
Definition fmodf_parts (a : float) : float * float :=
  if f_is_nan a then (a, a)
  else if f_is_finite a then (fcopysign (fsub a (ftrunc a)) a, ftrunc a)
  else (fcopysign f_zero a, a).
(** fmaxf: a NaN is missing data *)
Definition fmaxf (a b : float) : float :=
  if f_is_nan a then b else if f_is_nan b then a else if flt a b then b else a.
Definition f_bool (b : bool) : float := if b then f_one else f_zero.
Definition f_is_inf (a : float) : bool := negb (f_is_nan a) && negb (f_is_finite a).

(** ** Values *)

(** snek.h 909-913: snek_poly_to_float: the word as a float, whatever it is.
    The word of a reference or of a builtin has all exponent bits and the sign
    set and is not that of an infinity (snek-poly.c 47-53): a NaN, whose sign
    copysignf can see and whose other bits nothing here can. *)
Definition word_nan : float := f_of_bits SNEK_NULL_U.
Definition to_float (p : poly) : float := match p with PNum f => f | _ => word_nan end.
(** snek-poly.c 33-39: snek_float_to_poly; all NaNs are one (PolyModel.v) *)
Definition from_float (f : float) : poly := PNum f.
(** snek-poly.c 55-59: snek_bool_to_poly *)
Definition from_bool (b : bool) : poly := if b then POne else PZero.
Definition of_outcome {A} (o : outcome A) : M A := match o with Ok a => ret a | _ => undef end.

(** putc and fwrite to stdout, getchar, the generator's state *)
Definition put_out (t : list Z) : M unit :=
  fun m => let x := m_io m in
           Some (tt, set_io {| io_out := io_out x ++ t; io_in := io_in x; io_rnd := io_rnd x |} m).
Definition getchar : M (option Z) :=
  fun m => let x := m_io m in
           match io_in x with
           | [] => Some (None, m)
           | c :: r => Some (Some c, set_io {| io_out := io_out x; io_in := r; io_rnd := io_rnd x |} m)
           end.
Definition get_rnd : M rnd := fun m => Some (io_rnd (m_io m), m).
Definition set_rnd (r : rnd) : M unit :=
  fun m => let x := m_io m in
           Some (tt, set_io {| io_out := io_out x; io_in := io_in x; io_rnd := r |} m).

Section WithEnv.
Variable E : env.
Let w := e_width E.
Variable T : texts.
(** C's char is signed *)
Variable sgn : bool.
(** the bits of snek_id_t (snek.h 67-70) *)
Variable id_bits : Z.
(** SNEK_BUILTIN_end, SNEK_BUILTIN_rel_tol, SNEK_BUILTIN_abs_tol *)
Variable id_end : Z.
Variable id_rel_tol : Z.
Variable id_abs_tol : Z.
(** the C library *)
Variable strtof : list Z -> float.
Variable libm1 : string -> float -> float.
Variable libm2 : string -> float -> float -> float.
(** what isinff gives for the negative infinity: 1, or -1 in glibc *)
Variable minus_inf : Z.

(** ** snek-builtin.c *)

(** 18-22: len *)
Definition built_len (a : poly) : M poly := let* n := poly_len a in ret (from_float (f_of_Z n)).

Definition show (a : poly) : M unit := let* t := poly_print E T [] a ch_s in put_out t.

(** 27-32: the positional arguments of print *)
Fixpoint print_args (nposition : nat) (args : list poly) : M (list poly) :=
  match nposition with
  | O => ret args
  | S nposition =>
      match args with
      | [] => undef
      | arg :: args =>
          show arg;;
          (if Nat.eqb nposition 0 then ret tt else put_out [32]);;
          print_args nposition args
      end
  end.
(** 35-40: the named ones: the identifier as a number, then the value *)
Fixpoint print_named (nnamed : nat) (args : list poly) (end_ : poly) : M poly :=
  match nnamed with
  | O => ret end_
  | S nnamed =>
      match args with
      | id :: value :: args =>
          let* id := of_outcome (f_to_uint id_bits (to_float id)) in
          print_named nnamed args (if id =? id_end then value else end_)
      | _ => undef
      end
  end.
(** 24-46: print *)
Definition built_print (nposition nnamed : Z) (args : list poly) : M poly :=
  let* args := print_args (Z.to_nat nposition) args in
  let* end_ := print_named (Z.to_nat nnamed) args PNull in
  (if negb (is_null end_) then show end_ else put_out [10]);;
  ret PNull.

(** 48-53: sys.stdout.flush *)
Definition built_flush : M poly := ret PNull.

(** 70-74: math.sqrt; 76-80: abs *)
Definition built_sqrt (a : poly) : M poly := let* f := get_float a in ret (from_float (fsqrt f)).
Definition built_abs (a : poly) : M poly := let* f := get_float a in ret (from_float (f_abs f)).

(** ** snek-input.c *)

(** snek-string.c 73-78 with [b] an array on the C stack *)
Definition string_cat_text (a : poly) (b : list Z) : M poly :=
  let* a := poly_to_str a in
  let* sa := deref_str a in
  push_str E (Some a);;
  let* n := alloc E (strlen E sa + strlen E b + 1) in
  let* a := pop_str (Some a) in
  match n with
  | None => ret PNull
  | Some bytes =>
      let* sa' := read_opt a in
      let* xa := lift (MachModel.take (Z.to_nat (strlen E sa)) sa') in
      let* xb := lift (MachModel.take (Z.to_nat (strlen E b)) b) in
      let* p := new_str bytes (xa ++ xb) in
      str_to_poly (Some p)
  end.

(** 36-39: the loop; [k] counts the characters that are left.  [s] is a C
    variable, but every use is before the next allocation.  If it is SNEK_NULL,
    after a failed allocation, snek_string_cat calls strlen(NULL). *)
Fixpoint input_loop (k : nat) (s : poly) : M poly :=
  let* c := getchar in
  match c with
  | None => ret s
  | Some c =>
      if c =? 10 then ret s
      else match k with
           | O => undef
           | S k => let* s := string_cat_text s (cstring [c]) in input_loop k s
           end
  end.
(** 21-42: input.  [s] is allocated before the prompt is printed, and kept in a
    C variable meanwhile; printing allocates nothing. *)
Definition built_input (nposition nnamed : Z) (args : list poly) : M poly :=
  let* n := alloc E 1 in
  let* s := match n with
            | None => ret PNull
            | Some bytes => let* p := new_str bytes [] in str_to_poly (Some p)
            end in
  let* s := hold s in
  if 1 <? nposition then error (EArgs 1 nposition);; ret PNull
  else
    (if nposition =? 0 then ret tt else match args with a :: _ => show a | [] => undef end);;
    let* s := use s in
    fun m => input_loop (List.length (io_in (m_io m))) s m.

(** 45-61: float *)
Definition built_float (a : poly) : M poly :=
  match a with
  | PStr _ => let* p := poly_to_str a in let* s := deref_str p in ret (from_float (strtof s))
  | PNum f => ret (from_float f)
  | _ => error (EType1 a);; ret PNull
  end.
(** 64-69: int *)
Definition built_int (a : poly) : M poly :=
  let* r := built_float a in
  let* f := get_float r in
  ret (from_float (ftrunc f)).

(** snek-string.c 238-250: str *)
Definition built_str (a : poly) : M poly :=
  let* p := buf_format E T None a ch_s in str_to_poly p.

(** ** snek-math.c *)

(** 20-21: m1, m2 *)
Definition m1 (f : float -> float) (a : poly) : M poly := ret (from_float (f (to_float a))).
Definition m2 (f : float -> float -> float) (a b : poly) : M poly := ret (from_float (f (to_float a) (to_float b))).
Definition m1o (f : float -> outcome float) (a : poly) : M poly := let* r := of_outcome (f (to_float a)) in ret (from_float r).
Definition m2o (f : float -> float -> outcome float) (a b : poly) : M poly :=
  let* r := of_outcome (f (to_float a) (to_float b)) in ret (from_float r).

(** 23-33: make_tuple *)
Definition make_tuple (a b : float) : M poly :=
  let* tuple := list_make E 2 KTuple in
  match tuple with
  | None => ret PNull
  | Some tuple =>
      let* o := deref_list tuple in
      let* d := lift (blit 0 [from_float a; from_float b] (lo_data o)) in
      assign_list tuple (set_data o d);;
      list_to_poly (Some tuple)
  end.

(** 54-55: math.frexp *)
Definition built_frexp (a : poly) : M poly :=
  let (f, exp) := ffrexp (to_float a) in make_tuple f (f_of_Z exp).
(** 214-215: math.modf *)
Definition built_modf (a : poly) : M poly :=
  let (f, i) := fmodf_parts (to_float a) in make_tuple f i.

(** 189-200: the named arguments of isclose *)
Fixpoint close_named (nnamed : nat) (args : list poly) (rel abs : float) : M (float * float) :=
  match nnamed with
  | O => ret (rel, abs)
  | S nnamed =>
      match args with
      | id :: v :: args =>
          let* id := of_outcome (f_to_uint id_bits (to_float id)) in
          let v := to_float v in
          close_named nnamed args (if id =? id_rel_tol then v else rel) (if id =? id_abs_tol then v else abs)
      | _ => undef
      end
  end.
(** 201-203 *)
Definition is_close (af bf rel_tol abs_tol : float) : bool :=
  let dist := f_abs (fsub af bf) in
  let tol := fmaxf (fmul rel_tol (fmaxf (f_abs af) (f_abs bf))) abs_tol in
  fle dist tol.
(** 1e-6f *)
Definition default_rel_tol : float := f_of_bits 0x358637bd.
(** 178-204: math.isclose *)
Definition built_isclose (nposition nnamed : Z) (args : list poly) : M poly :=
  if negb (nposition =? 2) then error (EArgs 2 nposition);; ret PNull
  else match args with
       | a :: b :: args =>
           let* (rel, abs) := close_named (Z.to_nat nnamed) args default_rel_tol f_zero in
           ret (from_bool (is_close (to_float a) (to_float b) rel abs))
       | _ => undef
       end.

(** 206-212: isfinite, isinff, isnanf; the last give some number other than 0,
    1 in the libraries used *)
Definition isinff (a : float) : float :=
  if f_is_inf a then if sign_of a then f_of_Z minus_inf else f_one else f_zero.
(** 213: math.ldexp; the second float is converted to int *)
Definition ldexp2 (a b : float) : outcome float :=
  match f_to_sint (e_int E) b with Ok e => Ok (fldexp a e) | Err => Err | UB => UB end.

(** 238-242: degreesf, radiansf; (float) M_PI *)
Definition pi_f : float := f_of_bits 0x40490fdb.
Definition degreesf (x : float) : float := fdiv (fmul x (f_of_Z 180)) pi_f.
Definition radiansf (x : float) : float := fdiv (fmul x pi_f) (f_of_Z 180).

(** 57-65: getf, putf *)
Definition list_getf (p : ptr) (o : nat) : M float :=
  let* lo := deref_list p in let* v := nth_data lo (Z.of_nat o) in ret (to_float v).
Definition list_putf (p : ptr) (o : nat) (v : float) : M unit :=
  let* lo := deref_list p in
  let* d := lift (blit o [from_float v] (lo_data lo)) in
  assign_list p (set_data lo d).
(** 104-117: for (j = 0; j < n; j++); [k] is n - j.  Gives x and i. *)
Fixpoint fsum_parts (k j i : nat) (x : float) (p : ptr) : M (float * nat) :=
  match k with
  | O => ret (x, i)
  | S k =>
      let* y := list_getf p j in
      let '(x, y) := if flt (f_abs x) (f_abs y) then (y, x) else (x, y) in
      let hi := fadd x y in
      let yr := fsub hi x in
      let lo := fsub y yr in
      if negb (feq lo f_zero) then list_putf p i lo;; fsum_parts k (S j) (S i) hi p
      else fsum_parts k (S j) i hi p
  end.
(** 100-131: for (o = 0; o < size; o += s); [k] counts the elements left.  [None]
    is the return of SNEK_NULL. *)
Fixpoint fsum_loop (k o s n m : nat) (l p : ptr) : M (option (nat * ptr)) :=
  match k with
  | O => ret (Some (n, p))
  | S k =>
      let* x := list_getf l o in
      let* (x, n) := fsum_parts n 0 0 x p in
      if negb (feq x f_zero) then
        let* r :=
          (if Nat.leb m n then
             push_list E l;;
             let* p := list_resize E p (Z.of_nat (n + 1)) in
             let* l := pop_list in
             ret (match p with Some p => Some (l, p, (n + 1)%nat) | None => None end)
           else ret (Some (l, p, m))) in
        match r with
        | None => ret None
        | Some (l, p, m) => list_putf p n x;; fsum_loop k (o + s) s (S n) m l p
        end
      else fsum_loop k (o + s) s n m l p
  end.
(** 136-144: while (n > 0); gives hi, n and lo, which has no value before *)
Fixpoint fsum_top (n : nat) (hi : float) (lo : option float) (p : ptr) : M (float * nat * option float) :=
  match n with
  | O => ret (hi, O, lo)
  | S n =>
      let x := hi in
      let* y := list_getf p n in
      let hi := fadd x y in
      let yr := fsub hi x in
      let lo := fsub y yr in
      if negb (feq lo f_zero) then ret (hi, n, Some lo) else fsum_top n hi (Some lo) p
  end.
(** 133-156 *)
Definition fsum_end (n : nat) (p : ptr) : M float :=
  match n with
  | O => ret f_zero
  | S n =>
      let* hi := list_getf p n in
      let* (hi, n, lo) := fsum_top n hi None p in
      match n with
      | O => ret hi
      | S n1 =>
          match lo with
          | None => undef
          | Some lo =>
              let* q := (if flt lo f_zero then list_getf p n1 else ret f_zero) in
              let* r := (if flt f_zero lo then list_getf p n1 else ret f_zero) in
              if (flt lo f_zero && flt q f_zero) || (flt f_zero lo && flt f_zero r) then
                let y := fmul lo (f_of_Z 2) in
                let x := fadd hi y in
                let yr := fsub x hi in
                ret (if feq y yr then x else hi)
              else ret hi
          end
      end
  end.
(** 73-157: math.fsum.  The argument is not checked: SNEK_NULL is read as NULL,
    anything else that is not a list as a list somewhere in the pool. *)
Definition built_fsum (a : poly) : M poly :=
  if is_null a then ret PNull
  else
    let* l := poly_to_list a in
    let* lo := deref_list l in
    let s := if lkind_eqb (lo_kind lo) KDict then 2%nat else 1%nat in
    let size := Z.to_nat (lo_size lo) in
    push_list E l;;
    let* partials := list_make E 4 KList in
    let* l := pop_list in
    match partials with
    | None => ret PNull
    | Some p =>
        let* r := fsum_loop (Nat.div (size + s - 1) s) 0 s 0 4 l p in
        match r with
        | None => ret PNull
        | Some (n, p) => let* f := fsum_end n p in ret (from_float f)
        end
    end.

(** ** snek-random.c *)

(** 21-28: random.seed; the word of a reference is its place in the pool, which
    is not modelled *)
Definition built_seed (a : poly) : M poly :=
  match a with
  | PNum f => let* r := get_rnd in set_rnd (random_seed (snek_float_to_poly f) r);; ret PNull
  | PBuiltin u => let* r := get_rnd in set_rnd (random_seed u r);; ret PNull
  | _ => undef
  end.
(** 39-50: random.randrange *)
Definition built_randrange (a : poly) : M poly :=
  let* f := get_float a in
  let* r := get_rnd in
  match randrange f r with
  | Ok (x, r) => set_rnd r;; ret (from_float x)
  | Err => error (EValue a);; ret PNull
  | UB => undef
  end.
(** 52-57: random.random *)
Definition built_random : M poly :=
  let* r := get_rnd in let (x, r) := random_random r in set_rnd r;; ret (from_float x).

(** ** The table *)

(** snek-exec.c 680-706: the argument lists of the three kinds of function *)
Definition fn0 (f : M poly) (np nn : Z) (args : list poly) : M poly := f.
Definition fn1 (f : poly -> M poly) (np nn : Z) (args : list poly) : M poly :=
  match args with a :: _ => f a | _ => undef end.
Definition fn2 (f : poly -> poly -> M poly) (np nn : Z) (args : list poly) : M poly :=
  match args with a :: b :: _ => f a b | _ => undef end.

Definition entry := (Z * (Z -> Z -> list poly -> M poly))%type.
Local Open Scope string_scope.
(** snek-base.builtin, snek-input.builtin, snek-math.builtin,
    snek-random.builtin: the functions, sorted as snek-builtin.py does *)
Definition functions : list (string * entry) :=
  [ ("abs", (1, fn1 built_abs));
    ("chr", (1, fn1 (builtin_chr E)));
    ("float", (1, fn1 built_float));
    ("input", (-1, built_input));
    ("int", (1, fn1 built_int));
    ("len", (1, fn1 built_len));
    ("math.acos", (1, fn1 (m1 (libm1 "acosf"))));
    ("math.acosh", (1, fn1 (m1 (libm1 "acoshf"))));
    ("math.asin", (1, fn1 (m1 (libm1 "asinf"))));
    ("math.asinh", (1, fn1 (m1 (libm1 "asinhf"))));
    ("math.atan", (1, fn1 (m1 (libm1 "atanf"))));
    ("math.atan2", (2, fn2 (m2 (libm2 "atan2f"))));
    ("math.atanh", (1, fn1 (m1 (libm1 "atanhf"))));
    ("math.ceil", (1, fn1 (m1 fceil)));
    ("math.copysign", (2, fn2 (m2 fcopysign)));
    ("math.cos", (1, fn1 (m1 (libm1 "cosf"))));
    ("math.cosh", (1, fn1 (m1 (libm1 "coshf"))));
    ("math.degrees", (1, fn1 (m1 degreesf)));
    ("math.erf", (1, fn1 (m1 (libm1 "erff"))));
    ("math.erfc", (1, fn1 (m1 (libm1 "erfcf"))));
    ("math.exp", (1, fn1 (m1 (libm1 "expf"))));
    ("math.exp2", (1, fn1 (m1 (libm1 "exp2f"))));
    ("math.expm1", (1, fn1 (m1 (libm1 "expm1f"))));
    ("math.fabs", (1, fn1 (m1 f_abs)));
    ("math.factorial", (1, fn1 (m1o factorialf)));
    ("math.floor", (1, fn1 (m1 ffloor)));
    ("math.fmod", (2, fn2 (m2 (libm2 "fmodf"))));
    ("math.frexp", (1, fn1 built_frexp));
    ("math.fsum", (1, fn1 built_fsum));
    ("math.gamma", (1, fn1 (m1 (libm1 "tgammaf"))));
    ("math.gcd", (2, fn2 (m2o gcdf)));
    ("math.hypot", (2, fn2 (m2 (libm2 "hypotf"))));
    ("math.isclose", (-1, built_isclose));
    ("math.isfinite", (1, fn1 (m1 (fun f => f_bool (f_is_finite f)))));
    ("math.isinf", (1, fn1 (m1 isinff)));
    ("math.isnan", (1, fn1 (m1 (fun f => f_bool (f_is_nan f)))));
    ("math.ldexp", (2, fn2 (m2o ldexp2)));
    ("math.lgamma", (1, fn1 (m1 (libm1 "lgammaf"))));
    ("math.log", (1, fn1 (m1 (libm1 "logf"))));
    ("math.log10", (1, fn1 (m1 (libm1 "log10f"))));
    ("math.log1p", (1, fn1 (m1 (libm1 "log1pf"))));
    ("math.log2", (1, fn1 (m1 (libm1 "log2f"))));
    ("math.modf", (1, fn1 built_modf));
    ("math.pow", (2, fn2 (m2 (libm2 "powf"))));
    ("math.radians", (1, fn1 (m1 radiansf)));
    ("math.remainder", (2, fn2 (m2 (libm2 "remainderf"))));
    ("math.sin", (1, fn1 (m1 (libm1 "sinf"))));
    ("math.sinh", (1, fn1 (m1 (libm1 "sinhf"))));
    ("math.sqrt", (1, fn1 built_sqrt));
    ("math.tan", (1, fn1 (m1 (libm1 "tanf"))));
    ("math.tanh", (1, fn1 (m1 (libm1 "tanhf"))));
    ("math.trunc", (1, fn1 (m1 ftrunc)));
    ("ord", (1, fn1 (builtin_ord sgn)));
    ("pow", (2, fn2 (m2 (libm2 "powf"))));
    ("print", (-1, built_print));
    ("random.random", (0, fn0 built_random));
    ("random.randrange", (1, fn1 built_randrange));
    ("random.seed", (1, fn1 built_seed));
    ("round", (1, fn1 (m1 fround)));
    ("str", (1, fn1 built_str));
    ("sys.stdout.flush", (0, fn0 built_flush)) ].
End WithEnv.
