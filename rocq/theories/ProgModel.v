(** A program in a file: the commands are compiled and run one by one
    (snek-gram.ll 14-56, the rules start and command; snek-parse.c 221-291 for a
    file, that is without recovery).  The trees come from GramModel.v; in the
    code a command is run as soon as it has been read.  Nothing is printed (the
    value of an expression is printed at the prompt only). *)
From Coq Require Import ZArith Bool List.
From Verif Require Import Base FloatModel PolyModel ValueModel MathModel MachModel ListModel StrModel BinModel FrameModel CodeModel CompModel ExecModel GramModel.
Import ListNotations.
Local Open Scope Z_scope.
Open Scope st_scope.

(** The state of the interpreter, the functions ([PFunc l] is the [l]th one
    defined), the array of formals (snek-parse.c 21) and the code buffer. *)
Record sess := { ss_st : st; ss_funs : list (func (list Z)); ss_ids : list Z; ss_buf : cbuf }.

(** snek.h 217-220, 237-242 *)
Definition sizeof_code (w : width) : Z := match w with W16 => 2 | W32 => 4 end.
Definition sizeof_func (w : width) : Z := match w with W16 => 4 | W32 => 8 end.
Definition sizeof_id (w : width) : Z := match w with W16 => 2 | W32 => 4 end.

Section Prog.
Variable K : conf.
Variable i8 : float -> Z.
Notation E := (cf_env K).
Notation w := (e_width E).

(** snek_alloc: undefined if fewer bytes are there than are used *)
Definition reserve (size : Z) : S bool :=
  let^ r := lm (alloc E size) in
  match r with
  | None => sret false
  | Some b => if size <=? b then sret true else sundef
  end.
(** snek-code.c 285-301: snek_code_finish *)
Definition code_finish (code : list Z) : S (option (list Z)) :=
  match code with
  | [] => sret None
  | _ => let^ r := reserve (sizeof_code w + Z.of_nat (length code)) in sret (if r then Some code else None)
  end.
(** snek-gram.ll 36-40: the end of a definition (as [gen_def], with the buffer) *)
Definition def_code (f : fundef) (c : cbuf) : outcome cbuf :=
  obind (gen_formals w i8 (fd_formals f) c) (fun c =>
  obind (gen_stmt w i8 0 (fd_body f) c) (fun c =>
  match nth_error (c_buf c) (c_prev c) with
  | None => UB
  | Some b => Ok (if b =? op_code KReturn then delete_prev c else add_op KNull c)
  end)).
Definition has_default (o : oexpr) : bool := match o with ONone => false | OSome _ => true end.
Definition formals_of (f : fundef) : list (Z * bool) := map (fun p => (fst p, has_default (snd p))) (fd_formals f).

(** snek-gram.ll 17-54.  Whether to go on: after an error the next call of lex
    ends the parser (snek-parse.c 156-157). *)
Definition run_command (fuel : nat) (c : command) (s : sess) : option (bool * sess) :=
  match c with
  | CStat t =>
      match gen_stmt w i8 0 t (code_reset (ss_buf s)) with
      | UB => None
      | Err => Some (false, s)
      | Ok b =>
          match code_finish (c_buf b) (ss_st s) with
          | None => None
          | Some (code, st1) =>
              (* snek-exec.c 731 (while): nothing is run if there is no code *)
              match exec K (nth_error (ss_funs s)) fuel (match code with Some code => code | None => [] end) st1 with
              | None => None
              | Some (_, st2) => Some (negb (m_abort (s_m st2)), {| ss_st := st2; ss_funs := ss_funs s; ss_ids := ss_ids s; ss_buf := code_reset b |})
              end
          end
      end
  | CDef id f =>
      match parse_formals (formals_of f) (formals_start (ss_ids s)) with
      | UB => None
      | Err => Some (false, s)
      | Ok p =>
          match def_code f (code_reset (ss_buf s)) with
          | UB => None
          | Err => Some (false, s)
          | Ok b =>
              let l := length (ss_funs s) in
              match (let^ r := code_finish (c_buf b) in
                     match r with
                     | None => sret None
                     | Some code =>
                         (* snek-func.c 19-35 *)
                         let^ ok := reserve (sizeof_func w + Z.of_nat (pf_nformal p) * sizeof_id w) in
                         if ok then id_store E id (PFunc l) ^; sret (Some code) else sret None
                     end) (ss_st s) with
              | None => None
              | Some (r, st1) =>
                  Some (negb (m_abort (s_m st1)),
                        {| ss_st := st1; ss_funs := match r with Some code => ss_funs s ++ [func_of p code] | None => ss_funs s end;
                           ss_ids := pf_ids p; ss_buf := code_reset b |})
              end
          end
      end
  | CImport => Some (true, s)
  end.
Fixpoint run_commands (fuel : nat) (cs : list command) (s : sess) : option (bool * sess) :=
  match cs with
  | [] => Some (true, s)
  | c :: cs =>
      match run_command fuel c s with
      | Some (true, s) => run_commands fuel cs s
      | r => r
      end
  end.
End Prog.
