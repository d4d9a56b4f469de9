(** What strings, their printed forms and format strings mean. *)
From Coq Require Import ZArith Bool List.
From Verif Require Import Base FloatModel PolyModel ValueModel OrderSpec MachModel StrModel MachSpec.
Import ListNotations.
Local Open Scope Z_scope.

(** The strings of a heap: characters 1..255, within the pool. *)
Definition wf_strs (E : env) (h : list obj) : Prop :=
  forall l s, str_at h l s -> Z.of_nat (length s) + 1 <= e_pool E /\ Forall (fun c => 0 < c < 256) s.

(** The bytes for a string of [n] characters fit the offset type. *)
Definition fits_str (w : width) (n : Z) : Prop := n + 4 < 2 ^ wbits w.
(** Pools in which the joined length of two strings fits. *)
Definition roomy_str (E : env) : Prop := e_width E = W32 \/ e_pool E <= 32766.

(** An out-of-memory report with reason: an allocation failed, or the pool has
    no room for [n] characters. *)
Definition soom (E : env) (n : Z) (m m' : mach) : Prop :=
  reported EMemory m m' /\ ((exists k, e_fail E k = true) \/ e_pool E < n + 4).

(** An operation ended with a new string [s], or without memory; nothing that
    existed looks different. *)
Definition string_result (E : env) (m : mach) (s : list Z) (r : poly) (m' : mach) : Prop :=
  wf E m' /\ wf_strs E (m_heap m') /\ stack_kept m m' /\ heap_kept (m_heap m) (m_heap m') /\
  ((exists l, r = PStr l /\ (length (m_heap m) <= l)%nat /\ str_at (m_heap m') l s /\ quiet m m') \/
   (r = PNull /\ soom E (Z.of_nat (length s)) m m')).

(** Memory suffices for texts of [n] characters. *)
Definition enough (E : env) (n : nat) : Prop :=
  (forall k, e_fail E k = false) /\ Z.of_nat n + 4 <= e_pool E /\ fits_str (e_width E) (Z.of_nat n).

(** ** Printed forms *)
Definition comma : list Z := [44; 32].
Definition colon : list Z := [58; 32].
Fixpoint commas (ts : list (list Z)) : list Z :=
  match ts with [] => [] | t :: ts' => t ++ match ts' with [] => [] | _ => comma ++ commas ts' end end.
Fixpoint entries (ts : list (list Z)) : list Z :=
  match ts with
  | k :: v :: ts' => k ++ colon ++ v ++ match ts' with [] => [] | _ => comma ++ entries ts' end
  | [k] => k
  | [] => []
  end.
(** [[..]] for a list, [(..)] for a tuple (a single element is followed by
    ", "), [{..}] for a dictionary. *)
Definition bracketed (k : lkind) (ts : list (list Z)) : list Z :=
  match k with
  | KList => [91] ++ commas ts ++ [93]
  | KTuple => [40] ++ match ts with [t] => t ++ comma | _ => commas ts end ++ [41]
  | KDict => [123] ++ entries ts ++ [125]
  end.

Definition none_text : list Z := [78; 111; 110; 101].
Definition quoted (s : list Z) : list Z := [39] ++ s ++ [39].
Definition int_fmt (c : Z) : Prop := In c [100; 105; 111; 120; 88].
Definition flt_fmt (c : Z) : Prop := In c [101; 69; 102; 70; 103; 71].
Definition chr_fmt : Z := 99.
Definition str_fmt : Z := 115.

(** [text_of E T c v t]: under the conversion character [c] the value [v] is
    written [t].  What sprintf and strfromf write for a number is taken from
    [T], as are the texts of functions and builtins.  A number that does not
    fit [int] has no text under an integer conversion. *)
Inductive text_of (E : env) (T : texts) : Z -> value -> list Z -> Prop :=
| to_int : forall c f i, int_fmt c \/ c = chr_fmt -> f_to_sint (e_int E) f = Ok i ->
    text_of E T c (VNum f) (cstring (tx_int T c i))
| to_float : forall c f, flt_fmt c -> text_of E T c (VNum f) (tx_float T c f)
| to_repr : forall c f, ~ int_fmt c -> ~ flt_fmt c -> c <> chr_fmt -> text_of E T c (VNum f) (tx_repr T f)
| to_chr : forall s, text_of E T chr_fmt (VStr s) (cstring (tx_int T chr_fmt (hd 0 s)))
| to_str : forall s, text_of E T str_fmt (VStr s) s
| to_quoted : forall c s, c <> chr_fmt -> c <> str_fmt -> text_of E T c (VStr s) (quoted s)
| to_func : forall c u ep, text_of E T c (VFunc u) (tx_func T (Z.to_nat u) ep)
| to_none : forall c, text_of E T c (VBuiltin SNEK_NULL_U) none_text
| to_builtin : forall c u, u <> SNEK_NULL_U -> text_of E T c (VBuiltin u) (tx_builtin T u)
| to_seq : forall c k vs ts,
    Forall2 (text_of E T (if c =? str_fmt then 97 else c)) vs ts ->
    text_of E T c (VSeq k vs) (bracketed k ts).

(** No string is written in quotes: under [c] the value is a string printed as
    it is, or contains no string. *)
Fixpoint no_string (v : value) : Prop :=
  match v with
  | VStr _ => False
  | VSeq _ vs => (fix all (vs : list value) : Prop := match vs with [] => True | v :: vs' => no_string v /\ all vs' end) vs
  | _ => True
  end.
Definition unquoted (c : Z) (v : value) : Prop :=
  no_string v \/ ((c = str_fmt \/ c = chr_fmt) /\ exists s, v = VStr s).

(** The nesting depth of a value. *)
Fixpoint nesting (v : value) : nat :=
  match v with
  | VSeq _ vs => S ((fix deepest (vs : list value) : nat :=
                       match vs with [] => O | v :: vs' => Nat.max (nesting v) (deepest vs') end) vs)
  | _ => O
  end.

(** ** Format strings *)
(** A character, a conversion, or a '%' with nothing after it. *)
Inductive piece := Lit (c : Z) | Conv (c : Z) | Stray.
Fixpoint pieces (fmt : list Z) : list piece :=
  match fmt with
  | [] => []
  | c :: fmt' =>
      if c =? 37 then
        match fmt' with
        | [] => [Stray]
        | c' :: fmt'' => (if c' =? 37 then Lit 37 else Conv c') :: pieces fmt''
        end
      else Lit c :: pieces fmt'
  end.
Fixpoint convs (ps : list piece) : list Z :=
  match ps with [] => [] | Conv c :: ps' => c :: convs ps' | _ :: ps' => convs ps' end.
(** As many conversions as arguments, and nothing stray. *)
Definition matched (ps : list piece) (vs : list value) : Prop := ~ In Stray ps /\ length (convs ps) = length vs.

(** The text [t] of the pieces [ps] with the arguments [vs], in order; a
    conversion without an argument has no text. *)
Inductive rendered (E : env) (T : texts) : list piece -> list value -> list Z -> Prop :=
| rd_nil : forall vs, rendered E T [] vs []
| rd_stray : forall ps vs t, rendered E T ps vs t -> rendered E T (Stray :: ps) vs t
| rd_lit : forall c ps vs t, rendered E T ps vs t -> rendered E T (Lit c :: ps) vs (c :: t)
| rd_conv : forall c ps v vs t t', text_of E T c v t -> rendered E T ps vs t' ->
    rendered E T (Conv c :: ps) (v :: vs) (t ++ t')
| rd_missing : forall c ps t, rendered E T ps [] t -> rendered E T (Conv c :: ps) [] t.

(** No conversion writes a string in quotes. *)
Fixpoint plain (ps : list piece) (vs : list value) : Prop :=
  match ps with
  | [] => True
  | Conv c :: ps' => match vs with v :: vs' => unquoted c v /\ plain ps' vs' | [] => True end
  | _ :: ps' => plain ps' vs
  end.

(** The arguments in [args]: the elements of a list or tuple, or the value
    itself. *)
Definition arguments (v : value) : list value :=
  match v with VSeq KDict _ => [v] | VSeq _ vs => vs | _ => [v] end.

(** [x] is a substring of [s]. *)
Definition substring (x s : list Z) : Prop := exists pre post, s = pre ++ x ++ post.

(** What the C library writes is text, within the 32 bytes of [tmp]. *)
Record texts_ok (T : texts) : Prop := {
  to_int_ok : forall c i, Forall (fun x => 0 <= x < 256) (tx_int T c i);
  to_float_ok : forall c f, Forall (fun x => 0 < x < 256) (tx_float T c f);
  to_repr_ok : forall f, Forall (fun x => 0 < x < 256) (tx_repr T f);
  to_func_ok : forall l e, Forall (fun x => 0 < x < 256) (tx_func T l e);
  to_builtin_ok : forall u, Forall (fun x => 0 < x < 256) (tx_builtin T u);
  to_func_len : forall l e, (length (tx_func T l e) <= 31)%nat }.

(** What [v in c] looks through, and whether it is there. *)
Definition items (k : lkind) (vs : list value) : list value := match k with KDict => keys vs | _ => vs end.
Definition member (v : value) (k : lkind) (vs : list value) : Prop := exists w, In w (items k vs) /\ value_eq v w.
