(** Commands at the prompt: the value of an expression is printed and kept as
    [_] (snek-gram.ll 17-30; the rest of a command is in ProgModel.v). *)
From Coq Require Import ZArith Bool List.
From Verif Require Import Base FloatModel PolyModel ValueModel MathModel MachModel ListModel StrModel BinModel FrameModel CodeModel CompModel ExecModel GramModel ProgModel BuiltModel.
Import ListNotations.
Local Open Scope Z_scope.
Open Scope st_scope.

(** snek-gram.ll 17, 86, 129: snek_print_val after a command; a compound
    statement clears it, and an assignment or del. *)
Fixpoint shows (t : stmt) : bool :=
  match t with
  | SSeq a b => shows a && shows b
  | SSkip | SLine _ | SExpr _ | SReturn _ | SBreak | SContinue | SGlobal _ | SAssert _ => true
  | SAssign _ _ _ | SDel _ | SIf _ _ _ | SWhile _ _ _ | SRange _ _ _ _ | SFor _ _ _ _ => false
  end.

Section Prompt.
Variable K : conf.
Variable i8 : float -> Z.
(** SNEK_BUILTIN__ *)
Variable under : Z.
Notation E := (cf_env K).
Notation w := (e_width E).

(** snek-gram.ll 26-28.  [p] is a local variable of the parser; what
    snek_id_store returns is not looked at. *)
Definition echo (p : poly) : S unit :=
  let^ h := lm (hold p) in
  id_store E under p ^;
  let^ p := lm (use h) in
  lm (let* t := poly_print E (cf_texts K) [] p 114 in put_out t ;; put_out [10]).

(** snek-gram.ll 17-30 at the prompt.  Whether to go on: as for [run_command]. *)
Definition run_prompt (fuel : nat) (c : command) (s : sess) : option (bool * sess) :=
  match c with
  | CStat t =>
      match gen_stmt w i8 0 t (code_reset (ss_buf s)) with
      | UB => None
      | Err => Some (false, s)
      | Ok b =>
          match code_finish K (c_buf b) (ss_st s) with
          | None => None
          | Some (code, st1) =>
              match exec K (nth_error (ss_funs s)) fuel (match code with Some code => code | None => [] end) st1 with
              | None => None
              | Some (p, st2) =>
                  match (if negb (m_abort (s_m st2)) && shows t && negb (is_null p) then echo p else sret tt) st2 with
                  | None => None
                  | Some (_, st3) =>
                      Some (negb (m_abort (s_m st3)), {| ss_st := st3; ss_funs := ss_funs s; ss_ids := ss_ids s; ss_buf := code_reset b |})
                  end
              end
          end
      end
  | _ => run_command K i8 fuel c s
  end.
End Prompt.
