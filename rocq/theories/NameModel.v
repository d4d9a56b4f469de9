(** Names: snek-name.c. *)
From Coq Require Import ZArith Bool List.
From Verif Require Import Base FloatModel PolyModel ValueModel MachModel.
Import ListNotations.
Local Open Scope Z_scope.
Open Scope mach_scope.

(** The C string at index [i] of an array; undefined when the array ends
    before its NUL. *)
Fixpoint cstr (l : list Z) : option (list Z) :=
  match l with
  | [] => None
  | c :: l' => if c =? 0 then Some [] else match cstr l' with Some s => Some (c :: s) | None => None end
  end.
Definition cstr_at (tab : list Z) (i : nat) : option (list Z) := cstr (skipn i tab).

Fixpoint str_eqb (a b : list Z) : bool :=
  match a, b with
  | [], [] => true
  | x :: a', y :: b' => (x =? y) && str_eqb a' b'
  | _, _ => false
  end.

Section Names.
Variable E : env.
(** snek-builtin.py 231-257: snek_builtin_names: the names of the builtins in
    the order of their ids, each with its NUL, then the keywords, each behind a
    byte with its token.  SNEK_BUILTIN_END is the first id that is no builtin. *)
Variable tab : list Z.
Variable END : Z.

(** snek-name.c 46-70: snek_name_id_builtin.  [None] in the result: not found. *)
Fixpoint name_id_builtin (fuel : nat) (name : list Z) (i : nat) (k : nat) (id : Z) : option (option (Z * bool)) :=
  if Nat.leb (length tab) i then Some None
  else
  match fuel with
  | O => None
  | S fuel' =>
      match cstr_at tab (i + k) with
      | None => None
      | Some s =>
          if str_eqb name s
          then if END <=? id
               then match nth_error tab i with Some t => Some (Some (t, true)) | None => None end
               else Some (Some (id, false))
          else
            let id := id + 1 in
            let k := if id =? END then 1%nat else k in
            match cstr_at tab (i + k) with
            | None => None
            | Some s => name_id_builtin fuel' name (i + length s + 1 + k) k id
            end
      end
  end.

(** snek-name.c 72-85: snek_name_string_builtin; [n] is the id less one *)
Fixpoint name_string_builtin (n : nat) (i : nat) : option (list Z) :=
  match n with
  | O => cstr_at tab i
  | S n' => match cstr_at tab i with None => None | Some s => name_string_builtin n' (i + length s + 1) end
  end.

(** snek-name.c 17-18: snek_names, latest first, and snek_id *)
Record names := { n_names : list (list Z); n_id : Z }.

(** snek-name.c 98-103 and 122-126: the two searches *)
Fixpoint find_name (name : list Z) (l : list (list Z)) (id : Z) : option Z :=
  match l with
  | [] => None
  | n :: l' => if str_eqb n name then Some id else find_name name l' (id - 1)
  end.
Fixpoint find_id (match_id : Z) (l : list (list Z)) (id : Z) : option (list Z) :=
  match l with
  | [] => None
  | n :: l' => if id =? match_id then Some n else find_id match_id l' (id - 1)
  end.

Definition sizeof_name : Z := match e_width E with W16 => 2 | W32 => 4 end.

(** snek-name.c 87-112: snek_name_id: the id and whether it is a keyword *)
Definition name_id (st : names) (name : list Z) : M (Z * bool * names) :=
  let* b := lift (name_id_builtin (S (length tab)) name 0 0 1) in
  match b with
  | Some (id, kw) => ret (id, kw, st)
  | None =>
      match find_name name (n_names st) (n_id st) with
      | Some id => ret (id, false, st)
      | None =>
          let* a := alloc E (sizeof_name + Z.of_nat (length name) + 1) in
          match a with
          | None => ret (0, false, st)
          | Some _ =>
              let id := u_of (e_width E) (n_id st + 1) in
              ret (id, false, {| n_names := name :: n_names st; n_id := id |})
          end
      end
  end.

(** snek-name.c 114-130: snek_name_string; undefined for id 0 *)
Definition name_string (st : names) (id : Z) : option (option (list Z)) :=
  if id <? END then
    if id <? 1 then None
    else match name_string_builtin (Z.to_nat (id - 1)) 0 with Some s => Some (Some s) | None => None end
  else Some (find_id id (n_names st) (n_id st)).
End Names.
