(** What a program in a file does: its commands one after the other, each with
    the functions defined so far, up to the first error. *)
From Coq Require Import ZArith Bool List.
From Verif Require Import Base FloatModel PolyModel ValueModel MathModel MachModel ListModel StrModel BinModel FrameModel CodeModel CompModel ExecModel LayoutSpec EvalSpec GramModel.
Import ListNotations.
Local Open Scope Z_scope.
Open Scope st_scope.
Open Scope eval_scope.

(** A function: its parameters, those without a default, and its definition. *)
Definition required (p : Z * oexpr) : bool := match snd p with ONone => true | OSome _ => false end.
Definition def_of (f : fundef) : func fundef :=
  {| fn_nrequired := Z.of_nat (length (filter required (fd_formals f))); fn_formals := map fst (fd_formals f); fn_code := f |}.

Section Spec.
Variable K : conf.
(** the bytes that the code of a command, and a function, take *)
Variable code_bytes : command -> Z.
Variable func_bytes : fundef -> Z.
Notation E := (cf_env K).

(** memory is taken, or an error reported *)
Definition memory (bytes : Z) : X unit :=
  prim (let^ r := lm (alloc E bytes) in
        match r with Some b => if bytes <=? b then sret tt else sundef | None => sret tt end).
(** between two commands there is no current value and no frame *)
Definition settle : X unit := fun s => Val tt (set_a PNull (set_frames [] s)).

Fixpoint evs (n : nat) (cs : list command) (defs : list (func fundef)) : X (list (func fundef)) :=
  match cs with
  | [] => xret defs
  | CStat s :: cs' =>
      match s with
      | SSkip => xret tt
      | _ => memory (code_bytes (CStat s)) &; do x <- exs K (nth_error defs) n 0 false s; xret tt
      end &; settle &; evs n cs' defs
  | CDef id f :: cs' =>
      memory (code_bytes (CDef id f)) &;
      memory (func_bytes f) &;
      prim (id_store E id (PFunc (length defs))) &;
      evs n cs' (defs ++ [def_of f])
  | CImport :: cs' => evs n cs' defs
  end.
End Spec.
