(** What programs mean: a recursive evaluator on the trees of CompModel.v.  It
    passes values along; the operand stack appears where a value has to wait
    while another expression is evaluated (it holds a slot meanwhile), and
    where the operations of the interpreter take a number of operands from it
    (lists, calls, slices, element assignment). *)
From Coq Require Import ZArith Bool List.
From Verif Require Import Base FloatModel PolyModel ValueModel MathModel MachModel ListModel StrModel BinModel FrameModel CodeModel CompModel ExecModel LayoutSpec.
Import ListNotations.
Local Open Scope Z_scope.

(** [Val]: a result.  [Stop]: an error was reported, the command ends there.
    [Full]: no room on the operand stack (the interpreter then reports an
    error, but one more instruction is carried out: nothing is said here).
    [Undefined]: undefined behaviour, more than 255 arguments in a call, or
    trees and literals that the parser does not produce (see C27 for what is
    excluded there).  [Fuel]: not enough fuel. *)
Inductive res (A : Type) := Val (a : A) (s : st) | Stop (s : st) | Full | Undefined | Fuel.
Arguments Val {A}.
Arguments Stop {A}.
Arguments Full {A}.
Arguments Undefined {A}.
Arguments Fuel {A}.
Definition X (A : Type) := st -> res A.
Definition xret {A} (a : A) : X A := Val a.
Definition xundef {A} : X A := fun _ => Undefined.
Definition xfuel {A} : X A := fun _ => Fuel.
Definition xbind {A B} (x : X A) (f : A -> X B) : X B :=
  fun s => match x s with
           | Val a s => f a s
           | Stop s => Stop s
           | Full => Full
           | Undefined => Undefined
           | Fuel => Fuel
           end.
Declare Scope eval_scope.
Delimit Scope eval_scope with eval.
Notation "'do' x <- a ; b" := (xbind a (fun x => b)) (at level 200, x pattern, a at level 100, b at level 200) : eval_scope.
Notation "a &; b" := (xbind a (fun _ => b)) (at level 199, right associativity) : eval_scope.
Open Scope eval_scope.

(** an operation of the interpreter *)
Definition prim {A} (x : S A) : X A :=
  fun s => match x s with
           | Some (a, s) => if aborted s then Stop s else Val a s
           | None => Undefined
           end.

(** how a statement ends *)
Inductive ending := Normal | Break | Continue | Return (v : poly).

Definition neg_zero (f : float) : bool := bits_of_f f =? 2 ^ 31.

Section Eval.
Variable K : conf.
Variable FT : loc -> option (func fundef).
Notation E := (cf_env K).
Notation w := (e_width E).
Notation T := (cf_texts K).
Notation powf := (cf_pow K).

(** a value waits on the operand stack *)
Definition wait (v : poly) : X unit :=
  fun s => match lm (push E v) s with
           | Some (_, s) => if aborted s then Full else Val tt s
           | None => Undefined
           end.
(** the result is kept as the current value *)
Definition give (v : poly) : X poly := prim (put_a v) &; xret v.

(** [x op y], [x] having waited *)
Definition apply (x : poly) (op : bop) (y : poly) : X poly :=
  prim (let^ r := lm (binary E T powf x op y false) in put_a r ^; lm (drop 1) ^; sret r).

(** a name: variable, else builtin, else error *)
Definition name (id : Z) : X poly :=
  prim (let^ r := id_ref E id false in
        match r with
        | Some r => let^ v := read r in put_a v ^; sret v
        | None => match cf_names K id with
                  | Some v => put_a v ^; sret v
                  | None => lm (error (EUndefined id)) ^; sret PNull
                  end
        end).

Definition unary (u : unop) (v : poly) : X poly :=
  prim (let^ r := match u with
                  | UNot => let^ b := lm (truth v) in sret (bool_to_poly (negb b))
                  | UMinus => let^ f := lm (get_float v) in sret (float_to_poly (num_uminus f))
                  | ULnot => lm (lnot_op v)
                  | UPlus => sret v
                  end in
        put_a r ^; sret r).

(** literals in a row are added *)
Fixpoint strings (v : poly) (ls : list nat) : X poly :=
  match ls with
  | [] => xret v
  | l :: ls' =>
      wait v &;
      do y <- give (PStr l);
      do r <- apply v (BNum Nplus) y;
      strings r ls'
  end.

(** a list, tuple or dictionary of the top [n] values *)
Definition make (n : Z) (k : lkind) : X poly :=
  prim (let^ v := lm (list_imm E (Z.to_nat n) k) in put_a v ^; sret v).

Fixpoint ev (n : nat) (e : expr) {struct n} : X poly :=
  match n with
  | O => xfuel
  | Datatypes.S n =>
      match e with
      | ENum f => if neg_zero f then xundef else give (PNum f)
      | EStr l ls => do v <- give (PStr l); strings v ls
      | EId id => name id
      | EList a => if positional a then ev_args n a &; make (nargs a) KList else xundef
      | ETuple a => if positional a then ev_args n a &; make (nargs a) KTuple else xundef
      | EDict d => ev_dents n d &; make (ndents d) KDict
      | EBin o x y => do x <- ev n x; wait x &; do y <- ev n y; apply x (BNum o) y
      | EUn UPlus x => ev n x
      | EUn u x => do x <- ev n x; unary u x
      | EIndex x i => do x <- ev n x; wait x &; do i <- ev n i; apply x BArray i
      | ESlice x a b c =>
          do x <- ev n x;
          wait x &;
          ev_opt n a &; ev_opt n b &; ev_opt n c &;
          prim (slice_op K (obit a * 1 + obit b * 2 + obit c * 4) ^; get_a)
      | ECall f a =>
          if 256 <=? npos a + nnamed a then xundef
          else
            do f <- ev n f;
            wait f &;
            ev_args n a &;
            do r <- prim (call_op E (cf_builtins K) FT (nargs a));
            match r with
            | None => prim get_a
            | Some f => body n (fn_code f)
            end
      | EAnd x y =>
          do x <- ev n x;
          do b <- prim (lm (truth x));
          if (b : bool) then ev n y else xret x
      | EOr x y =>
          do x <- ev n x;
          do b <- prim (lm (truth x));
          if (b : bool) then xret x else ev n y
      | ECmp x l => do x <- ev n x; wait x &; ev_links n x l
      end
  end
(** arguments and elements wait on the stack, left to right; a named argument
    with its name *)
with ev_args (n : nat) (a : args) {struct n} : X unit :=
  match n with
  | O => xfuel
  | Datatypes.S n =>
      match a with
      | ANil => xret tt
      | APos e r => do v <- ev n e; wait v &; ev_args n r
      | ANamed id e r =>
          do i <- give (PNum (f_of_Z id));
          wait i &;
          do v <- ev n e;
          wait v &;
          ev_args n r
      end
  end
with ev_dents (n : nat) (d : dents) {struct n} : X unit :=
  match n with
  | O => xfuel
  | Datatypes.S n =>
      match d with
      | DNil => xret tt
      | DCons k v r => do k <- ev n k; wait k &; do v <- ev n v; wait v &; ev_dents n r
      end
  end
with ev_opt (n : nat) (o : oexpr) {struct n} : X unit :=
  match n with
  | O => xfuel
  | Datatypes.S n => match o with ONone => xret tt | OSome e => do v <- ev n e; wait v end
  end
(** [x] and then the rest of a chain of comparisons *)
with ev_links (n : nat) (x : poly) (l : links) {struct n} : X poly :=
  match n with
  | O => xfuel
  | Datatypes.S n =>
      match l with
      | LLast b y => do y <- ev n y; apply x b y
      | LMore b y l =>
          do y <- ev n y;
          match b with BCmp _ => xret tt | _ => xundef end &;
          do (t, r) <- prim (let^ r := lm (binary E T powf x b y false) in
                             lm (drop 1) ^;
                             let^ t := lm (truth r) in
                             (if t then sret tt else put_a r) ^; sret (t, r));
          if (t : bool) then wait y &; ev_links n y l else xret r
      end
  end
(** the body of a function, in its frame: the defaults of the formals that were
    not bound, then the statements *)
with body (n : nat) (f : fundef) {struct n} : X poly :=
  match n with
  | O => xfuel
  | Datatypes.S n =>
      defaults n (fd_formals f) &;
      do x <- exs n 0 false (fd_body f);
      do v <- match x with Return v => xret v | _ => give PNull end;
      prim frame_pop &; xret v
  end
with defaults (n : nat) (fs : list (Z * oexpr)) {struct n} : X unit :=
  match n with
  | O => xfuel
  | Datatypes.S n =>
      match fs with
      | [] => xret tt
      | (_, ONone) :: fs => defaults n fs
      | (id, OSome e) :: fs => ev n e &; prim (assign_named E id) &; defaults n fs
      end
  end
(** [d]: the depth of for loops; [inl]: there is a loop around *)
with exs (n : nat) (d : Z) (inl : bool) (s : stmt) {struct n} : X ending :=
  match n with
  | O => xfuel
  | Datatypes.S n =>
      match s with
      | SSkip | SLine _ => xret Normal
      | SSeq s t => do x <- exs n d inl s; match x with Normal => exs n d inl t | _ => xret x end
      | SExpr e => ev n e &; xret Normal
      | SAssign a (TId id) e =>
          if id =? 0 then xundef
          else
            ev n e &;
            prim (match a with None => assign_id E id | Some o => augment_id E T powf o id end) &;
            xret Normal
      | SAssign a (TElem l i) e =>
          do l <- ev n l;
          wait l &;
          do i <- ev n i;
          wait i &;
          do v <- ev n e;
          prim (let^ v := lm (match a with None => assign_elem E v | Some o => augment_elem E T powf o v end) in put_a v) &;
          xret Normal
      | SDel (TId id) => if id =? 0 then xundef else prim (id_del E id) &; xret Normal
      | SDel (TElem l i) =>
          do l <- ev n l;
          wait l &;
          do i <- ev n i;
          prim (lm (drop 1) ^; lm (elem_del E l i) ^; match l with PList _ => put_a PNull | _ => sret tt end) &;
          xret Normal
      | SReturn ONone => do v <- give PNull; xret (Return v)
      | SReturn (OSome e) => do v <- ev n e; xret (Return v)
      | SBreak => if inl then xret Break else prim (lm (error ENotInLoop)) &; xret Normal
      | SContinue => if inl then xret Continue else prim (lm (error ENotInLoop)) &; xret Normal
      | SGlobal id => prim (mark_global E id) &; xret Normal
      | SAssert e =>
          do v <- ev n e;
          prim (let^ b := lm (truth v) in (if b then sret tt else lm (error EAssertion)) ^; put_a PNull) &;
          xret Normal
      | SIf e s r =>
          do v <- ev n e;
          do b <- prim (lm (truth v));
          if (b : bool) then exs n d inl s else ex_rest n d inl r
      | SWhile e s els => while n d inl e s els
      | SRange id a s els =>
          if positional a then
            ev_args n a &;
            prim (range_start K (nargs a) d id) &;
            loop n d inl (range_step K d id) s els
          else xundef
      | SFor id e s els =>
          do v <- ev n e;
          prim (assign_id E (for_tmp w d 0)) &;
          give (PNum f_zero) &;
          prim (assign_id E (for_tmp w d 1)) &;
          loop n d inl (in_step K d id) s els
      end
  end
with ex_rest (n : nat) (d : Z) (inl : bool) (r : rest) {struct n} : X ending :=
  match n with
  | O => xfuel
  | Datatypes.S n =>
      match r with
      | RNone => xret Normal
      | RElse s => exs n d inl s
      | RElif _ e s r =>
          do v <- ev n e;
          do b <- prim (lm (truth v));
          if (b : bool) then exs n d inl s else ex_rest n d inl r
      end
  end
with while (n : nat) (d : Z) (inl : bool) (e : expr) (s els : stmt) {struct n} : X ending :=
  match n with
  | O => xfuel
  | Datatypes.S n =>
      do v <- ev n e;
      do b <- prim (lm (truth v));
      if (b : bool) then
        do x <- exs n d true s;
        match x with
        | Normal | Continue => while n d inl e s els
        | Break => xret Normal
        | Return v => xret (Return v)
        end
      else exs n d inl els
  end
(** a for loop; [next] says whether there is another round *)
with loop (n : nat) (d : Z) (inl : bool) (next : S bool) (s els : stmt) {struct n} : X ending :=
  match n with
  | O => xfuel
  | Datatypes.S n =>
      do b <- prim next;
      if (b : bool) then
        do x <- exs n (d + 1) true s;
        match x with
        | Normal | Continue => loop n d inl next s els
        | Break => xret Normal
        | Return v => xret (Return v)
        end
      else exs n d inl els
  end.

(** The equations of the evaluator. *)
Lemma ev_S n (e : expr) : ev (Datatypes.S n) e =
      (match e with
      | ENum f => if neg_zero f then xundef else give (PNum f)
      | EStr l ls => do v <- give (PStr l); strings v ls
      | EId id => name id
      | EList a => if positional a then ev_args n a &; make (nargs a) KList else xundef
      | ETuple a => if positional a then ev_args n a &; make (nargs a) KTuple else xundef
      | EDict d => ev_dents n d &; make (ndents d) KDict
      | EBin o x y => do x <- ev n x; wait x &; do y <- ev n y; apply x (BNum o) y
      | EUn UPlus x => ev n x
      | EUn u x => do x <- ev n x; unary u x
      | EIndex x i => do x <- ev n x; wait x &; do i <- ev n i; apply x BArray i
      | ESlice x a b c =>
          do x <- ev n x;
          wait x &;
          ev_opt n a &; ev_opt n b &; ev_opt n c &;
          prim (slice_op K (obit a * 1 + obit b * 2 + obit c * 4) ^; get_a)
      | ECall f a =>
          if 256 <=? npos a + nnamed a then xundef
          else
            do f <- ev n f;
            wait f &;
            ev_args n a &;
            do r <- prim (call_op E (cf_builtins K) FT (nargs a));
            match r with
            | None => prim get_a
            | Some f => body n (fn_code f)
            end
      | EAnd x y =>
          do x <- ev n x;
          do b <- prim (lm (truth x));
          if (b : bool) then ev n y else xret x
      | EOr x y =>
          do x <- ev n x;
          do b <- prim (lm (truth x));
          if (b : bool) then xret x else ev n y
      | ECmp x l => do x <- ev n x; wait x &; ev_links n x l
      end).
Proof. reflexivity. Qed.
Lemma ev_args_S n (a : args) : ev_args (Datatypes.S n) a =
      (match a with
      | ANil => xret tt
      | APos e r => do v <- ev n e; wait v &; ev_args n r
      | ANamed id e r =>
          do i <- give (PNum (f_of_Z id));
          wait i &;
          do v <- ev n e;
          wait v &;
          ev_args n r
      end).
Proof. reflexivity. Qed.
Lemma ev_dents_S n (d : dents) : ev_dents (Datatypes.S n) d =
      (match d with
      | DNil => xret tt
      | DCons k v r => do k <- ev n k; wait k &; do v <- ev n v; wait v &; ev_dents n r
      end).
Proof. reflexivity. Qed.
Lemma ev_opt_S n (o : oexpr) : ev_opt (Datatypes.S n) o =
      (match o with ONone => xret tt | OSome e => do v <- ev n e; wait v end).
Proof. reflexivity. Qed.
Lemma ev_links_S n (x : poly) (l : links) : ev_links (Datatypes.S n) x l =
      (match l with
      | LLast b y => do y <- ev n y; apply x b y
      | LMore b y l =>
          do y <- ev n y;
          match b with BCmp _ => xret tt | _ => xundef end &;
          do (t, r) <- prim (let^ r := lm (binary E T powf x b y false) in
                             lm (drop 1) ^;
                             let^ t := lm (truth r) in
                             (if t then sret tt else put_a r) ^; sret (t, r));
          if (t : bool) then wait y &; ev_links n y l else xret r
      end).
Proof. reflexivity. Qed.
Lemma body_S n (f : fundef) : body (Datatypes.S n) f =
      (defaults n (fd_formals f) &;
      do x <- exs n 0 false (fd_body f);
      do v <- match x with Return v => xret v | _ => give PNull end;
      prim frame_pop &; xret v).
Proof. reflexivity. Qed.
Lemma defaults_S n (fs : list (Z * oexpr)) : defaults (Datatypes.S n) fs =
      (match fs with
      | [] => xret tt
      | (_, ONone) :: fs => defaults n fs
      | (id, OSome e) :: fs => ev n e &; prim (assign_named E id) &; defaults n fs
      end).
Proof. reflexivity. Qed.
Lemma exs_S n (d : Z) (inl : bool) (s : stmt) : exs (Datatypes.S n) d inl s =
      (match s with
      | SSkip | SLine _ => xret Normal
      | SSeq s t => do x <- exs n d inl s; match x with Normal => exs n d inl t | _ => xret x end
      | SExpr e => ev n e &; xret Normal
      | SAssign a (TId id) e =>
          if id =? 0 then xundef
          else
            ev n e &;
            prim (match a with None => assign_id E id | Some o => augment_id E T powf o id end) &;
            xret Normal
      | SAssign a (TElem l i) e =>
          do l <- ev n l;
          wait l &;
          do i <- ev n i;
          wait i &;
          do v <- ev n e;
          prim (let^ v := lm (match a with None => assign_elem E v | Some o => augment_elem E T powf o v end) in put_a v) &;
          xret Normal
      | SDel (TId id) => if id =? 0 then xundef else prim (id_del E id) &; xret Normal
      | SDel (TElem l i) =>
          do l <- ev n l;
          wait l &;
          do i <- ev n i;
          prim (lm (drop 1) ^; lm (elem_del E l i) ^; match l with PList _ => put_a PNull | _ => sret tt end) &;
          xret Normal
      | SReturn ONone => do v <- give PNull; xret (Return v)
      | SReturn (OSome e) => do v <- ev n e; xret (Return v)
      | SBreak => if inl then xret Break else prim (lm (error ENotInLoop)) &; xret Normal
      | SContinue => if inl then xret Continue else prim (lm (error ENotInLoop)) &; xret Normal
      | SGlobal id => prim (mark_global E id) &; xret Normal
      | SAssert e =>
          do v <- ev n e;
          prim (let^ b := lm (truth v) in (if b then sret tt else lm (error EAssertion)) ^; put_a PNull) &;
          xret Normal
      | SIf e s r =>
          do v <- ev n e;
          do b <- prim (lm (truth v));
          if (b : bool) then exs n d inl s else ex_rest n d inl r
      | SWhile e s els => while n d inl e s els
      | SRange id a s els =>
          if positional a then
            ev_args n a &;
            prim (range_start K (nargs a) d id) &;
            loop n d inl (range_step K d id) s els
          else xundef
      | SFor id e s els =>
          do v <- ev n e;
          prim (assign_id E (for_tmp w d 0)) &;
          give (PNum f_zero) &;
          prim (assign_id E (for_tmp w d 1)) &;
          loop n d inl (in_step K d id) s els
      end).
Proof. reflexivity. Qed.
Lemma ex_rest_S n (d : Z) (inl : bool) (r : rest) : ex_rest (Datatypes.S n) d inl r =
      (match r with
      | RNone => xret Normal
      | RElse s => exs n d inl s
      | RElif _ e s r =>
          do v <- ev n e;
          do b <- prim (lm (truth v));
          if (b : bool) then exs n d inl s else ex_rest n d inl r
      end).
Proof. reflexivity. Qed.
Lemma while_S n (d : Z) (inl : bool) (e : expr) (s els : stmt) : while (Datatypes.S n) d inl e s els =
      (do v <- ev n e;
      do b <- prim (lm (truth v));
      if (b : bool) then
        do x <- exs n d true s;
        match x with
        | Normal | Continue => while n d inl e s els
        | Break => xret Normal
        | Return v => xret (Return v)
        end
      else exs n d inl els).
Proof. reflexivity. Qed.
Lemma loop_S n (d : Z) (inl : bool) (next : S bool) (s els : stmt) : loop (Datatypes.S n) d inl next s els =
      (do b <- prim next;
      if (b : bool) then
        do x <- exs n (d + 1) true s;
        match x with
        | Normal | Continue => loop n d inl next s els
        | Break => xret Normal
        | Return v => xret (Return v)
        end
      else exs n d inl els).
Proof. reflexivity. Qed.
End Eval.
#[export] Hint Rewrite ev_S ev_args_S ev_dents_S ev_opt_S ev_links_S body_S defaults_S exs_S ex_rest_S while_S loop_S : eval.
